(** Lemmas about lines: slices, indentation, joining, quotes (C18-C21). *)
From Verif Require Export SpecText ProofBase.

(** ** indices and sublists *)
Lemma convert_index_spec l i : index_of (l_len l) i (convert_index l i).
Proof.
  unfold index_of, convert_index. split; intros H.
  - destruct (Z.leb_spec 0 i); lia.
  - destruct (Z.leb_spec 0 i); lia.
Qed.
Lemma convert_index_le l i : (convert_index l i <= l_len l)%nat.
Proof. unfold convert_index. lia. Qed.
Lemma index_of_fun len i k k' : index_of len i k -> index_of len i k' -> k = k'.
Proof. unfold index_of. intros [A B] [C D]. destruct (Z.leb_spec 0 i); [specialize (A H); specialize (C H)|specialize (B H); specialize (D H)]; lia. Qed.
Lemma end_index_fun len i k k' : end_index len i k -> end_index len i k' -> k = k'.
Proof. destruct i; cbn; [apply index_of_fun | congruence]. Qed.
Lemma end_index_spec l to :
  end_index (l_len l) to (match to with Some t => convert_index l t | None => l_len l end).
Proof. destruct to; cbn; [apply convert_index_spec | reflexivity]. Qed.
Lemma index_of_le len i k : index_of len i k -> (k <= len)%nat.
Proof. unfold index_of. intros [A B]. destruct (Z.leb_spec 0 i); [specialize (A H)|specialize (B H)]; lia. Qed.

Lemma nth_error_skipn {A} n : forall (l : list A) k, nth_error (skipn n l) k = nth_error l (n + k).
Proof. induction n; intros [|a l] k; cbn; auto. now destruct k. Qed.
Lemma nth_error_firstn {A} n : forall (l : list A) k,
  nth_error (firstn n l) k = if (k <? n)%nat then nth_error l k else None.
Proof.
  induction n; intros [|a l] k; cbn [firstn].
  - now destruct k.
  - now destruct k.
  - destruct (k <? S n)%nat; now destruct k.
  - destruct k; cbn [nth_error]; [reflexivity|]. rewrite IHn. reflexivity.
Qed.
Lemma is_sublist_firstn {A} (l : list A) f t : is_sublist l f t (firstn (t - f) (skipn f l)).
Proof. intros k. rewrite nth_error_firstn, nth_error_skipn. reflexivity. Qed.
Lemma nth_error_ext {A} : forall (a b : list A), (forall k, nth_error a k = nth_error b k) -> a = b.
Proof.
  induction a as [|x a IH]; intros [|y b] H; [reflexivity| | |].
  - specialize (H 0%nat). discriminate.
  - specialize (H 0%nat). discriminate.
  - f_equal; [specialize (H 0%nat); cbn in H; congruence|]. apply IH. intros k. exact (H (S k)).
Qed.
Lemma is_sublist_fun {A} (l : list A) f t m m' : is_sublist l f t m -> is_sublist l f t m' -> m = m'.
Proof. intros H H'. apply nth_error_ext. intros k. now rewrite H, H'. Qed.

(** ** glyphs *)
Lemma glyphs_from_length x ps : List.length (glyphs_from x ps) = List.length ps.
Proof. revert x; induction ps; cbn; auto. Qed.
Lemma glyphs_length l : List.length (glyphs l) = l_len l.
Proof. apply glyphs_from_length. Qed.
Lemma glyphs_from_ch x ps : map g_ch (glyphs_from x ps) = map p_ch ps.
Proof. revert x; induction ps; cbn; intros; f_equal; auto. Qed.
Lemma glyphs_ch l : map g_ch (glyphs l) = content l.
Proof. apply glyphs_from_ch. Qed.
Lemma glyphs_from_app ps : forall x qs, glyphs_from x (ps ++ qs) = glyphs_from x ps ++ glyphs_from (x + sum_dx ps) qs.
Proof.
  induction ps as [|p ps IH]; intros x qs; cbn [glyphs_from app sum_dx fold_right].
  - f_equal. lia.
  - rewrite IH. do 3 f_equal. fold (sum_dx ps). lia.
Qed.
Lemma glyphs_from_skipn n : forall x ps,
  skipn n (glyphs_from x ps) = glyphs_from (x + sum_dx (firstn n ps)) (skipn n ps).
Proof.
  induction n as [|n IH]; intros x [|p ps]; cbn [skipn glyphs_from firstn sum_dx fold_right]; auto.
  - do 3 f_equal; lia.
  - rewrite IH. f_equal. fold (sum_dx (firstn n ps)). lia.
Qed.
Lemma glyphs_from_firstn n : forall x ps, firstn n (glyphs_from x ps) = glyphs_from x (firstn n ps).
Proof. induction n as [|n IH]; intros x [|p ps]; cbn; f_equal; auto. Qed.
Lemma glyphs_from_first x p ps :
  glyphs_from x (p :: ps) = glyphs_from 0 (mkPart (p_dx p + x) (p_ch p) (p_bold p) :: ps).
Proof. cbn. replace (0 + (p_dx p + x))%Z with (x + p_dx p)%Z by lia. reflexivity. Qed.

Lemma slice_glyphs_eq l from to :
  let f := convert_index l from in
  let t := match to with Some t => convert_index l t | None => l_len l end in
  glyphs (slice l from to) = firstn (t - f) (skipn f (glyphs l)).
Proof.
  intros f t. unfold slice. fold f. fold t. unfold glyphs at 2.
  destruct (Nat.leb_spec t f) as [H|H].
  - replace (t - f)%nat with 0%nat by lia. reflexivity.
  - rewrite glyphs_from_skipn, glyphs_from_firstn.
    unfold glyphs. destruct (firstn (t - f) (skipn f (l_parts l))) as [|p ps]; [reflexivity|].
    cbn [from_parts l_parts]. rewrite <- glyphs_from_first. reflexivity.
Qed.

(** C18/C19: the exact content of a slice *)
Lemma c18_slice l from to f t :
  index_of (l_len l) from f -> end_index (l_len l) to t -> is_sublist (glyphs l) f t (glyphs (slice l from to)).
Proof.
  intros Hf Ht. rewrite slice_glyphs_eq.
  rewrite (index_of_fun _ _ _ _ (convert_index_spec l from) Hf).
  rewrite (end_index_fun _ _ _ _ (end_index_spec l to) Ht). apply is_sublist_firstn.
Qed.
Lemma is_sublist_map {A B} (g : A -> B) l f t m : is_sublist l f t m -> is_sublist (map g l) f t (map g m).
Proof.
  intros H k. rewrite !nth_error_map, H. now destruct (k <? t - f)%nat.
Qed.
Lemma c18_content l from to f t :
  index_of (l_len l) from f -> end_index (l_len l) to t -> is_sublist (content l) f t (content (slice l from to)).
Proof. intros Hf Ht. rewrite <- !glyphs_ch. apply is_sublist_map, c18_slice; assumption. Qed.
Lemma convert_index_0 l : convert_index l 0 = 0%nat.
Proof. unfold convert_index. destruct (Z.leb_spec 0 0); lia. Qed.
Lemma c18_whole l : glyphs (slice l 0 None) = glyphs l.
Proof.
  rewrite slice_glyphs_eq, convert_index_0. cbn [skipn]. rewrite Nat.sub_0_r, <- glyphs_length. apply firstn_all.
Qed.
Lemma c18_split l i : glyphs (slice l 0 (Some i)) ++ glyphs (slice l i None) = glyphs l.
Proof.
  rewrite !slice_glyphs_eq, convert_index_0, Nat.sub_0_r. cbn [skipn].
  rewrite <- (firstn_skipn (convert_index l i) (glyphs l)) at 3. f_equal.
  apply firstn_all2. rewrite skipn_length, glyphs_length. lia.
Qed.
Lemma c18_split_content l i : content (slice l 0 (Some i)) ++ content (slice l i None) = content l.
Proof. rewrite <- !glyphs_ch, <- map_app, c18_split. reflexivity. Qed.
Lemma c18_exists l i : exists k, index_of (l_len l) i k.
Proof. exists (convert_index l i). apply convert_index_spec. Qed.

(** justification of a slice *)
Lemma slice_just l from to f t :
  index_of (l_len l) from f -> end_index (l_len l) to t ->
  l_just (slice l from to) = ((f <? t)%nat && l_just l && (t =? l_len l)%nat).
Proof.
  intros Hf Ht. unfold slice.
  rewrite (index_of_fun _ _ _ _ (convert_index_spec l from) Hf).
  rewrite (end_index_fun _ _ _ _ (end_index_spec l to) Ht).
  destruct (Nat.leb_spec t f); destruct (Nat.ltb_spec f t); try lia; reflexivity.
Qed.

(** ** from_multiple *)
Lemma fm_rest_sum x ps : fm_rest x ps = (x + sum_dx ps)%Z.
Proof. revert x; induction ps as [|p ps IH]; intros x; cbn; [lia|]. rewrite IH. fold (sum_dx ps). lia. Qed.
Lemma fm_loop_glyphs ls : forall x, glyphs_from x (fm_loop x ls) = List.concat (map glyphs ls).
Proof.
  induction ls as [|l ls IH]; intros x; [reflexivity|].
  cbn [fm_loop map List.concat]. unfold fm_line, glyphs at 1. destruct (l_parts l) as [|p ps] eqn:E.
  - cbn. apply IH.
  - rewrite fm_rest_sum. cbn [app glyphs_from p_dx p_ch p_bold].
    rewrite glyphs_from_app. replace (x + (p_dx p - x))%Z with (p_dx p) by lia.
    rewrite IH. cbn [app]. do 2 f_equal.
Qed.
Lemma from_multiple_glyphs ls : glyphs (from_multiple ls) = List.concat (map glyphs ls).
Proof. unfold from_multiple, glyphs at 1, from_parts. cbn. apply fm_loop_glyphs. Qed.
Lemma from_multiple_content ls : content (from_multiple ls) = List.concat (map content ls).
Proof.
  rewrite <- glyphs_ch, from_multiple_glyphs, List.concat_map, map_map. f_equal. apply map_ext. intros. apply glyphs_ch.
Qed.

(** ** indent_at *)
Lemma glyphs_x n : forall x ps g, nth_error (glyphs_from x ps) n = Some g -> g_x g = (x + sum_dx (firstn (S n) ps))%Z.
Proof.
  induction n as [|n IH]; intros x [|p ps] g H; cbn in H; try discriminate.
  - apply Some_inj in H. subst g. cbn. lia.
  - apply IH in H. rewrite H. cbn [firstn sum_dx fold_right]. unfold sum_dx. lia.
Qed.
Lemma c19_indent_at l i k g : index_of (l_len l) i k -> nth_error (glyphs l) k = Some g -> indent_at l i = g_x g.
Proof.
  intros Hi Hg. unfold indent_at. rewrite (index_of_fun _ _ _ _ (convert_index_spec l i) Hi), Nat.add_1_r.
  unfold glyphs in Hg. apply glyphs_x in Hg. rewrite Hg. lia.
Qed.
Lemma c19_indent_at_past l i g : index_of (l_len l) i (l_len l) -> nth_error (glyphs l) (l_len l - 1) = Some g ->
  indent_at l i = g_x g.
Proof.
  intros Hi Hg. unfold indent_at. rewrite (index_of_fun _ _ _ _ (convert_index_spec l i) Hi).
  unfold glyphs in Hg. pose proof (nth_error_Some (glyphs_from 0 (l_parts l)) (l_len l - 1)) as [L _].
  rewrite Hg in L. specialize (L ltac:(discriminate)). rewrite glyphs_from_length in L. fold (l_len l) in L.
  apply glyphs_x in Hg. rewrite Hg. rewrite !firstn_all2; [lia| |]; unfold l_len in *; lia.
Qed.
Lemma c19_indent_at_empty l i : l_parts l = [] -> indent_at l i = 0%Z.
Proof. unfold indent_at. intros ->. now rewrite firstn_nil. Qed.
Lemma c19_indent l g : nth_error (glyphs l) 0 = Some g -> indent l = g_x g.
Proof.
  unfold glyphs, indent. destruct (l_parts l); cbn; [discriminate|]. intros H. apply Some_inj in H. subst g. cbn. lia.
Qed.
Lemma indent_glyphs l : indent l = match glyphs l with g :: _ => g_x g | [] => 0%Z end.
Proof. unfold glyphs, indent. destruct (l_parts l); cbn; lia. Qed.
Lemma c19_slice_indent l i : forall k, index_of (l_len l) i k -> (k < l_len l)%nat ->
  indent (slice l i None) = indent_at l i.
Proof.
  intros k Hi Hk. destruct (nth_error (glyphs l) k) as [g|] eqn:E.
  - rewrite (c19_indent_at _ _ _ _ Hi E). apply c19_indent.
    pose proof (c18_slice l i None k (l_len l) Hi eq_refl 0) as H. rewrite H, Nat.add_0_r.
    destruct (Nat.ltb_spec 0 (l_len l - k)); [exact E|lia].
  - apply nth_error_None in E. rewrite glyphs_length in E. lia.
Qed.

(** ** boldness *)
Lemma count_length {A} (p : A -> bool) l : count p l = Z.of_nat (List.length (filter p l)).
Proof. induction l as [|a l IH]; cbn; [reflexivity|]. destruct (p a); cbn; lia. Qed.
Lemma count_bold_glyphs x ps : Z.of_nat (count_bold ps) = count g_bold (glyphs_from x ps).
Proof.
  revert x; induction ps as [|p ps IH]; intros x; [reflexivity|]. unfold count_bold in *. cbn.
  destruct (p_bold p); cbn; specialize (IH (x + p_dx p)%Z); lia.
Qed.
Lemma from_parts_bold ps j : l_bold (from_parts ps j) = true <-> bold_ratio (from_parts ps j).
Proof.
  unfold bold_ratio, glyphs, from_parts. cbn [l_parts l_bold]. rewrite <- (count_bold_glyphs 0), glyphs_from_length.
  rewrite Nat.ltb_lt. lia.
Qed.
Lemma slice_bold l from to : l_bold (slice l from to) = true <-> bold_ratio (slice l from to).
Proof.
  unfold slice. destruct (_ <=? _)%nat.
  - unfold bold_ratio, glyphs. cbn. split; [discriminate|lia].
  - apply from_parts_bold.
Qed.
Lemma from_multiple_bold ls : l_bold (from_multiple ls) = true <-> bold_ratio (from_multiple ls).
Proof. apply from_parts_bold. Qed.
Lemma as_bold_glyphs l : glyphs (as_bold l) = map (fun g => mkGlyph (g_x g) (g_ch g) true) (glyphs l).
Proof.
  unfold glyphs, as_bold. cbn [l_parts]. generalize 0%Z. induction (l_parts l) as [|p ps IH]; intros x; cbn; [reflexivity|].
  f_equal. apply IH.
Qed.
Lemma as_bold_content l : content (as_bold l) = content l.
Proof. rewrite <- !glyphs_ch, as_bold_glyphs, map_map. reflexivity. Qed.
Lemma as_bold_ratio l : l_parts l <> [] -> bold_ratio (as_bold l).
Proof.
  intros H. unfold bold_ratio. rewrite as_bold_glyphs, map_length, count_length.
  replace (filter g_bold _) with (map (fun g => mkGlyph (g_x g) (g_ch g) true) (glyphs l)).
  - rewrite map_length, glyphs_length. unfold l_len. destruct (l_parts l); [congruence|cbn; lia].
  - induction (glyphs l); cbn; [reflexivity|f_equal; assumption].
Qed.

(** ** slice_bytes *)
Lemma char_position_app a : forall c s, char_position (a ++ c :: s) (utf8_len a) = Some (List.length a).
Proof.
  induction a as [|x a IH]; intros c s; cbn [app].
  - reflexivity.
  - rewrite utf8_len_cons. cbn [char_position List.length]. pose proof (char_len_pos x).
    destruct (N.eqb_spec (char_len x + utf8_len a) 0); [lia|].
    destruct (N.ltb_spec (char_len x + utf8_len a) (char_len x)); [lia|].
    replace (char_len x + utf8_len a - char_len x)%N with (utf8_len a) by lia. now rewrite IH.
Qed.
Lemma char_position_some s : forall b k, char_position s b = Some k -> utf8_len (firstn k s) = b /\ (k < List.length s)%nat.
Proof.
  induction s as [|c s IH]; intros b k H; cbn in H; [discriminate|].
  destruct (N.eqb_spec b 0); [apply Some_inj in H; subst; cbn; split; [reflexivity|lia]|].
  destruct (N.ltb_spec b (char_len c)); [discriminate|].
  destruct (char_position s (b - char_len c)) as [k'|] eqn:E; [|discriminate]. apply Some_inj in H. subst k.
  apply IH in E. destruct E as [E L]. cbn [firstn List.length]. rewrite utf8_len_cons. lia.
Qed.
Lemma slice_bytes_ok l a m r : content l = a ++ m ++ r -> m ++ r <> [] ->
  slice_bytes l (utf8_len a) (Some (utf8_len (a ++ m))) =
  Ok (slice l (Z.of_nat (List.length a)) (Some (Z.of_nat (List.length (a ++ m))))).
Proof.
  intros H Hne. unfold slice_bytes. rewrite H.
  assert (P : char_position (a ++ m ++ r) (utf8_len a) = Some (List.length a)).
  { destruct (m ++ r) as [|c s]; [congruence|]. apply char_position_app. }
  rewrite P. rewrite !utf8_len_app. destruct r as [|c r].
  - cbn [utf8_len fold_right]. rewrite app_nil_r. 
    destruct (N.leb_spec (utf8_len a + (utf8_len m + 0)) (utf8_len a + utf8_len m)); [reflexivity|lia].
  - rewrite utf8_len_cons. pose proof (char_len_pos c).
    destruct (N.leb_spec (utf8_len a + (utf8_len m + (char_len c + utf8_len r))) (utf8_len a + utf8_len m)); [lia|].
    rewrite <- utf8_len_app, app_assoc, char_position_app. reflexivity.
Qed.

(** ** joining *)
Lemma append_to_spec l s :
  (needs_space s (content l) /\ append_to l s = s ++ lit " " ++ content l) \/
  (~ needs_space s (content l) /\ append_to l s = s ++ content l).
Proof.
  unfold append_to, needs_space, l_empty.
  assert (El : is_empty (l_parts l) = is_empty (content l)) by (unfold content; now destruct (l_parts l)).
  rewrite El. destruct (content l) as [|c t] eqn:Et.
  { right. cbn. split; [intros [_ [H _]]; congruence|reflexivity]. }
  destruct s as [|d s'] eqn:Es.
  { right. cbn [orb is_empty]. split; [intros [H _]; congruence|reflexivity]. }
  rewrite <- Es, <- Et. cbn [is_empty orb].
  destruct (is_empty (content l)) eqn:E0; [rewrite Et in E0; discriminate|].
  destruct (is_empty s) eqn:E1; [rewrite Es in E1; discriminate|]. cbn [orb].
  destruct (ends_with (lit "-") s) eqn:Eh.
  - apply ends_with_spec in Eh.
    destruct (starts_with (lit "és ") (content l) || starts_with (lit "vagy ") (content l)) eqn:Ev.
    + left. split; [|now rewrite <- app_assoc]. split; [congruence|]. split; [congruence|]. intros _.
      apply orb_true_iff in Ev. destruct Ev as [Ev|Ev]; apply starts_with_spec in Ev; [left|right]; exact Ev.
    + right. split; [|reflexivity]. intros [_ [_ H]]. apply orb_false_iff in Ev. destruct Ev as [E2 E3].
      destruct (H Eh) as [B|B]; apply starts_with_spec in B; congruence.
  - left. split; [|now rewrite <- app_assoc]. split; [congruence|]. split; [congruence|].
    intros Hh. apply ends_with_spec in Hh. congruence.
Qed.
Lemma no_spaces_app a b : no_spaces (a ++ b) = no_spaces a ++ no_spaces b.
Proof. apply filter_app. Qed.
Lemma append_no_spaces l s : no_spaces (append_to l s) = no_spaces s ++ no_spaces (content l).
Proof.
  destruct (append_to_spec l s) as [[_ ->]|[_ ->]]; rewrite !no_spaces_app; reflexivity.
Qed.
Lemma join_acc ls : forall s, no_spaces (fold_left (fun s l => append_to l s) ls s) = no_spaces s ++ no_spaces (text ls).
Proof.
  induction ls as [|l ls IH]; intros s; cbn [fold_left].
  - cbn. now rewrite app_nil_r.
  - rewrite IH, append_no_spaces. unfold text. cbn [map List.concat]. rewrite no_spaces_app, app_assoc. reflexivity.
Qed.
Lemma c20_join ls : no_spaces (join ls) = no_spaces (text ls).
Proof. unfold join. rewrite join_acc. reflexivity. Qed.
Lemma c20_join_snoc ls l : join (ls ++ [l]) = append_to l (join ls).
Proof. unfold join. rewrite fold_left_app. reflexivity. Qed.
Lemma c20_single l : join [l] = content l.
Proof. unfold join, append_to. cbn. now rewrite orb_true_r. Qed.

(** ** quotes *)
Lemma depth_app a b : depth (a ++ b) = (depth a + depth b)%Z.
Proof.
  unfold depth. assert (forall p, count p (a ++ b) = (count p a + count p b)%Z) as H
    by (intros p; rewrite !count_length, filter_app, app_length; lia).
  rewrite !H. lia.
Qed.
Lemma qc_update_level q l : q_level (fst (qc_update q l)) = (q_level q + depth (content l))%Z.
Proof. unfold qc_update, depth, count_chars, opening, closing. cbn [fst q_level]. rewrite !count_length. lia. Qed.
Lemma qc_update_ok q l : snd (qc_update q l) = Ok tt <-> (0 <= q_level q + depth (content l))%Z.
Proof.
  rewrite <- qc_update_level. unfold qc_update. cbn [fst snd q_level]. unfold ensure.
  destruct (Z.leb_spec 0 (q_level q + count_chars (fun c => (c =? chr "„")%N || (c =? chr "“")%N) (content l)
                          - count_chars (fun c => (c =? chr "”")%N) (content l))); split; intros; try lia; congruence.
Qed.
Lemma qc_update_err q l : snd (qc_update q l) <> Panic.
Proof. unfold qc_update, ensure. cbn. destruct (0 <=? _)%Z; discriminate. Qed.
Lemma qc_feed_level ls : forall q, q_level (qc_feed q ls) = (q_level q + depth (text ls))%Z.
Proof.
  induction ls as [|l ls IH]; intros q; cbn [qc_feed fold_left].
  - unfold text, depth. cbn. lia.
  - fold (qc_feed (fst (qc_update q l)) ls). rewrite IH, qc_update_level.
    unfold text. cbn [map List.concat]. rewrite depth_app. lia.
Qed.
Lemma qc_feed_snoc q ls l : qc_feed q (ls ++ [l]) = fst (qc_update (qc_feed q ls) l).
Proof. unfold qc_feed. now rewrite fold_left_app. Qed.
Lemma c21_flags ls l :
  let q := qc_feed qc_default (ls ++ [l]) in
  (q_begin q = true <-> (0 < depth (text ls))%Z) /\ (q_end q = true <-> (0 < depth (text (ls ++ [l])))%Z).
Proof.
  intros q. subst q. rewrite qc_feed_snoc.
  pose proof (qc_update_level (qc_feed qc_default ls) l) as L.
  rewrite <- (qc_feed_snoc qc_default ls l), qc_feed_level in L. 
  pose proof (qc_feed_level ls qc_default) as L2. cbn [q_level qc_default] in L2.
  split.
  - unfold qc_update. cbn [fst q_begin]. rewrite Z.ltb_lt, L2. lia.
  - unfold qc_update. cbn [fst q_end]. rewrite Z.ltb_lt.
    pose proof (qc_feed_level (ls ++ [l]) qc_default) as L3. rewrite qc_feed_snoc in L3.
    unfold qc_update in L3. cbn [fst q_level qc_default] in L3. rewrite L3. lia.
Qed.
Lemma c21_run_gen ls : forall q,
  (forall r, qc_run q ls = Ok r -> r = qc_feed q ls) /\
  (qc_run q ls = Err <-> exists a l b, ls = a ++ l :: b /\ (q_level q + depth (text (a ++ [l])) < 0)%Z) /\
  qc_run q ls <> Panic.
Proof.
  induction ls as [|l ls IH]; intros q.
  - cbn. split; [congruence|]. split; [|discriminate]. split; [discriminate|]. intros ([|? ?] & ? & ? & H & _); discriminate.
  - cbn [qc_run]. destruct (qc_update q l) as [q' r] eqn:E.
    assert (E1 : q' = fst (qc_update q l)) by now rewrite E.
    assert (E2 : r = snd (qc_update q l)) by now rewrite E.
    pose proof (qc_update_level q l) as L. rewrite <- E1 in L.
    pose proof (qc_update_ok q l) as K. rewrite <- E2 in K.
    pose proof (qc_update_err q l) as P. rewrite <- E2 in P.
    destruct r as [[]| |]; [|clear IH|congruence].
    + destruct (IH q') as (A & B & C). cbn [obind]. split; [|split].
      * intros r' H. cbn [qc_feed fold_left]. rewrite <- E1. apply A, H.
      * rewrite B. split.
        -- intros (a & x & b & -> & H). exists (l :: a), x, b. split; [reflexivity|].
           unfold text in *. cbn [app map List.concat]. rewrite depth_app. lia.
        -- intros (a & x & b & H & D). destruct a as [|y a].
           ++ injection H as <- <-. unfold text in D. cbn in D. rewrite app_nil_r in D.
              destruct K as [K _]. specialize (K eq_refl). lia.
           ++ injection H as <- ->. exists a, x, b. split; [reflexivity|].
              unfold text in *. cbn [app map List.concat] in D. rewrite depth_app in D. lia.
      * exact C.
    + cbn [obind]. split; [discriminate|]. split; [|discriminate]. split; [|reflexivity]. intros _.
      exists [], l, ls. split; [reflexivity|]. unfold text. cbn. rewrite app_nil_r.
      destruct (Z.leb_spec 0 (q_level q + depth (content l))) as [H|H]; [|exact H].
      destruct K as [_ K]. specialize (K H). discriminate.
Qed.
Lemma c21_run ls :
  (forall q, qc_run qc_default ls = Ok q ->
     q_level q = depth (text ls) /\ (qc_check_end q = Ok tt <-> depth (text ls) = 0%Z)) /\
  (qc_run qc_default ls = Err <-> exists a l b, ls = a ++ l :: b /\ (depth (text (a ++ [l])) < 0)%Z) /\
  qc_run qc_default ls <> Panic.
Proof.
  destruct (c21_run_gen ls qc_default) as (A & B & C). split; [|split; [exact B|exact C]].
  intros q H. apply A in H. subst q. rewrite qc_feed_level. cbn [q_level qc_default]. split; [lia|].
  unfold qc_check_end. rewrite qc_feed_level. cbn [q_level qc_default]. unfold ensure.
  destruct (Z.eqb_spec (0 + depth (text ls)) 0); split; intros; try lia; congruence.
Qed.
