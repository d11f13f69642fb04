(** Lemmas about fixups and the fixup editor (C22-C26). *)
From Verif Require Export ProofText.

Lemma strs_eqb_eq a b : strs_eqb a b = true <-> a = b.
Proof. unfold strs_eqb. destruct (list_eq_dec (list_eq_dec N.eq_dec) a b); split; congruence. Qed.

Lemma skipn_skipn {A} x y (l : list A) : skipn x (skipn y l) = skipn (x + y) l.
Proof. revert l; induction y as [|y IH]; intros l.
  - now rewrite Nat.add_0_r.
  - rewrite Nat.add_succ_r. destruct l as [|a l]; cbn [skipn]; [apply skipn_nil|apply IH].
Qed.

Lemma nth_skipn {A} n : forall (l : list A) k d, nth k (skipn n l) d = nth (n + k) l d.
Proof. induction n as [|n IH]; intros [|a l] k d; cbn [skipn Nat.add nth]; auto. now destruct k. Qed.

(** ** windows, position, unique matches *)
Lemma windows_nth {A} n : forall (l : list A) k,
  (0 < n)%nat -> nth_error (windows n l) k =
    if (k + n <=? List.length l)%nat then Some (firstn n (skipn k l)) else None.
Proof.
  induction l as [|a l IH]; intros k Hn.
  - cbn. destruct (Nat.leb_spec (k + n) 0); [lia|]. now destruct k.
  - cbn [windows]. destruct (Nat.leb_spec n (List.length (a :: l))).
    + destruct k as [|k]; cbn [nth_error skipn].
      * destruct (Nat.leb_spec (0 + n) (List.length (a :: l))); [reflexivity|lia].
      * rewrite IH by assumption. cbn [List.length] in *.
        destruct (Nat.leb_spec (k + n) (List.length l)), (Nat.leb_spec (S k + n) (S (List.length l))); try lia; reflexivity.
    + destruct (Nat.leb_spec (k + n) (List.length (a :: l))); [lia|]. now destruct k.
Qed.
Lemma occurs_windows needle texts i : needle <> [] ->
  (occurs_at needle texts i <-> nth_error (windows (List.length needle) texts) i = Some needle).
Proof.
  intros Hne. assert (0 < List.length needle)%nat by (destruct needle; [congruence|cbn; lia]).
  rewrite windows_nth by assumption. split.
  - intros (pre & post & -> & <-). rewrite !app_length.
    destruct (Nat.leb_spec (List.length pre + List.length needle) (List.length pre + (List.length needle + List.length post))); [|lia].
    f_equal. rewrite skipn_app, skipn_all, Nat.sub_diag. cbn [skipn app].
    rewrite firstn_app, firstn_all, Nat.sub_diag. cbn. apply app_nil_r.
  - destruct (Nat.leb_spec (i + List.length needle) (List.length texts)); [|discriminate].
    intros E. apply Some_inj in E. exists (firstn i texts), (skipn (List.length needle) (skipn i texts)).
    split; [|rewrite firstn_length; lia].
    rewrite <- E at 1. rewrite firstn_skipn, firstn_skipn. reflexivity.
Qed.
Lemma position_some {A} (p : A -> bool) : forall l k,
  position p l = Some k -> (exists a, nth_error l k = Some a /\ p a = true) /\
    forall j b, (j < k)%nat -> nth_error l j = Some b -> p b = false.
Proof.
  induction l as [|a l IH]; intros k H; cbn in H; [discriminate|].
  destruct (p a) eqn:E.
  - apply Some_inj in H. subst k. split; [exists a; auto|]. intros; lia.
  - destruct (position p l) as [k'|]; [|discriminate]. apply Some_inj in H. subst k.
    destruct (IH _ eq_refl) as [X Y]. split; [exact X|]. intros [|j] b Hj Hb; cbn in Hb; [congruence|].
    apply (Y j b); [lia|exact Hb].
Qed.
Lemma position_none {A} (p : A -> bool) : forall l, position p l = None -> forall a, In a l -> p a = false.
Proof.
  induction l as [|x l IH]; intros H a Ha; cbn in *; [contradiction|].
  destruct (p x) eqn:E; [discriminate|]. destruct (position p l); [discriminate|].
  destruct Ha as [->|Ha]; [exact E|]. now apply IH.
Qed.
Lemma filter_none {A} (p : A -> bool) l : (forall j b, nth_error l j = Some b -> p b = false) -> filter p l = [].
Proof.
  induction l as [|x l IH]; intros H; cbn; [reflexivity|].
  rewrite (H 0%nat x eq_refl). apply IH. intros j b E. exact (H (S j) b E).
Qed.
Lemma filter_unique {A} (p : A -> bool) : forall l,
  List.length (filter p l) = 1%nat <->
  exists k a, nth_error l k = Some a /\ p a = true /\ forall j b, nth_error l j = Some b -> p b = true -> j = k.
Proof.
  induction l as [|x l IH]; cbn [filter].
  - split; [discriminate|]. intros ([|k] & a & H & _); discriminate.
  - destruct (p x) eqn:E.
    + cbn [List.length]. split.
      * intros H. exists 0%nat, x. split; [reflexivity|]. split; [exact E|]. intros [|j] b Hj Hb; [reflexivity|].
        exfalso. cbn in Hj. apply nth_error_In in Hj. assert (In b (filter p l)) by (apply filter_In; auto).
        destruct (filter p l); [contradiction|cbn in H; lia].
      * intros (k & a & H1 & H2 & H3). assert (k = 0%nat) as -> by (symmetry; apply (H3 0%nat x); auto).
        rewrite (filter_none p l); [reflexivity|]. intros j b Hb. destruct (p b) eqn:Eb; [|reflexivity].
        specialize (H3 (S j) b Hb Eb). lia.
    + rewrite IH. split.
      * intros (k & a & H1 & H2 & H3). exists (S k), a. split; [exact H1|]. split; [exact H2|].
        intros [|j] b Hj Hb; cbn in Hj; [congruence|]. f_equal. eapply H3; eauto.
      * intros ([|k] & a & H1 & H2 & H3); cbn in H1; [congruence|]. exists k, a. split; [exact H1|]. split; [exact H2|].
        intros j b Hj Hb. specialize (H3 (S j) b Hj Hb). lia.
Qed.
(** [windows] + [position] + [count == 1] is unique occurrence *)
Lemma unique_count needle texts : needle <> [] ->
  (List.length (filter (fun w => strs_eqb w needle) (windows (List.length needle) texts)) = 1%nat
   <-> exists i, unique_at needle texts i).
Proof.
  intros Hne. rewrite filter_unique. split.
  - intros (k & a & H1 & H2 & H3). apply strs_eqb_eq in H2. subst a. exists k. split; [now apply occurs_windows|].
    intros j Hj. apply occurs_windows in Hj; [|assumption]. apply (H3 j needle Hj). now apply strs_eqb_eq.
  - intros (i & H1 & H2). exists i, needle. split; [now apply occurs_windows|]. split; [now apply strs_eqb_eq|].
    intros j b Hj Hb. apply strs_eqb_eq in Hb. subst b. apply H2. now apply occurs_windows.
Qed.
Lemma unique_position needle texts i : needle <> [] -> unique_at needle texts i ->
  position (fun w => strs_eqb w needle) (windows (List.length needle) texts) = Some i.
Proof.
  intros Hne [H1 H2]. destruct (position _ _) as [k|] eqn:E.
  - apply position_some in E. destruct E as [(a & E1 & E2) _]. apply strs_eqb_eq in E2. subst a.
    f_equal. apply H2. now apply occurs_windows.
  - apply occurs_windows in H1; [|assumption]. apply nth_error_In in H1.
    pose proof (position_none _ _ E _ H1) as F. cbn in F. rewrite (proj2 (strs_eqb_eq needle needle) eq_refl) in F. discriminate.
Qed.
Lemma unique_at_fun needle texts i j : unique_at needle texts i -> unique_at needle texts j -> i = j.
Proof. intros [A B] [C D]. symmetry. now apply B. Qed.
Lemma needle_ne {A} (a : list A) x : a ++ [x] <> [].
Proof. destruct a; discriminate. Qed.

(** ** common prefixes *)
Lemma common_prefix_spec : forall a b, longest_common_prefix a b (common_prefix a b).
Proof.
  induction a as [|x a IH]; intros b; cbn [common_prefix].
  - repeat split; cbn; try lia. 
  - destruct b as [|y b]; [repeat split; cbn; lia|].
    destruct (N.eqb_spec x y) as [->|N].
    + destruct (IH b) as (H1 & H2 & H3 & H4). repeat split; cbn; try lia.
      * now rewrite H1.
      * intros [|m] L1 L2 E; [lia|]. cbn in E. injection E as E. specialize (H4 m ltac:(lia) ltac:(lia) E). lia.
    + repeat split; cbn; try lia. intros [|m] L1 L2 E; [lia|]. cbn in E. congruence.
Qed.
Lemma lcp_fun a b n m : longest_common_prefix a b n -> longest_common_prefix a b m -> n = m.
Proof. intros (A1 & A2 & A3 & A4) (B1 & B2 & B3 & B4). pose proof (A4 m B2 B3 B1). pose proof (B4 n A2 A3 A1). lia. Qed.

(** The pieces of an edit of [old] into [new]. *)
Lemma edit_pieces (old new : str) p q :
  p = common_prefix old new -> q = common_prefix (rev (skipn p old)) (rev (skipn p new)) ->
  (p + q <= List.length old)%nat /\ (p + q <= List.length new)%nat /\
  firstn p old ++ firstn (List.length new - p - q) (skipn p new) ++ skipn (List.length old - q) old = new.
Proof.
  intros -> ->. set (p := common_prefix old new). set (q := common_prefix _ _).
  destruct (common_prefix_spec old new) as (P1 & P2 & P3 & _). fold p in P1, P2, P3.
  destruct (common_prefix_spec (rev (skipn p old)) (rev (skipn p new))) as (Q1 & Q2 & Q3 & _). fold q in Q1, Q2, Q3.
  rewrite rev_length, skipn_length in Q2, Q3. split; [lia|]. split; [lia|].
  rewrite !firstn_rev, !skipn_length in Q1. apply (f_equal (@rev _)) in Q1. rewrite !rev_involutive, !skipn_skipn in Q1.
  replace (List.length old - p - q + p)%nat with (List.length old - q)%nat in Q1 by lia.
  replace (List.length new - p - q + p)%nat with (List.length new - q)%nat in Q1 by lia.
  rewrite Q1, P1.
  replace (skipn (List.length new - q) new) with (skipn (List.length new - p - q) (skipn p new)).
  2:{ rewrite skipn_skipn. f_equal. lia. }
  rewrite firstn_skipn, firstn_skipn. reflexivity.
Qed.

(** ** apply_to_line *)
Lemma placed_bold l : placed (as_bold l) = placed l.
Proof. unfold placed. rewrite as_bold_glyphs, map_map. reflexivity. Qed.
Lemma content_placed l : content l = map snd (placed l).
Proof. unfold placed. rewrite map_map, <- glyphs_ch. reflexivity. Qed.

Lemma convert_index_nat l n : (n <= l_len l)%nat -> convert_index l (Z.of_nat n) = n.
Proof. intros. unfold convert_index. destruct (Z.leb_spec 0 (Z.of_nat n)); lia. Qed.
Lemma convert_index_neg l n : (0 < n)%nat -> (n <= l_len l)%nat -> convert_index l (- Z.of_nat n) = (l_len l - n)%nat.
Proof. intros. unfold convert_index. destruct (Z.leb_spec 0 (- Z.of_nat n)); lia. Qed.
Lemma slice_prefix l n : (n <= l_len l)%nat -> glyphs (slice l 0 (Some (Z.of_nat n))) = firstn n (glyphs l).
Proof. intros H. rewrite slice_glyphs_eq, convert_index_0, convert_index_nat, Nat.sub_0_r by assumption. reflexivity. Qed.
Lemma slice_postfix l n : (0 < n)%nat -> (n <= l_len l)%nat ->
  glyphs (slice l (- Z.of_nat n) None) = skipn (l_len l - n) (glyphs l).
Proof.
  intros H0 H. rewrite slice_glyphs_eq, convert_index_neg by assumption.
  apply firstn_all2. rewrite skipn_length, glyphs_length. lia.
Qed.
Lemma content_len l : List.length (content l) = l_len l.
Proof. unfold content, l_len. apply map_length. Qed.

Lemma apply_to_line_ok f l :
  content l = f_old f -> useful f ->
  exists l', apply_to_line f l = Ok l' /\
    exists p q mid, p = common_prefix (f_old f) (f_new f) /\
      q = common_prefix (rev (skipn p (f_old f))) (rev (skipn p (f_new f))) /\
      (f_new f = [] -> l' = empty_line) /\
      (f_new f <> [] -> placed l' = firstn p (placed l) ++ mid ++ skipn (l_len l - q) (placed l) /\
        map snd mid = firstn (List.length (f_new f) - p - q) (skipn p (f_new f)) /\
        (f_bold f = true -> l_bold l' = true /\ forall g, In g (glyphs l') -> g_bold g = true)).
Proof.
  intros Hc Hu. unfold apply_to_line.
  rewrite (proj2 (str_eqb_eq _ _) Hc). cbn [ensure obind].
  assert (U : negb (str_eqb (f_old f) (f_new f)) || f_bold f = true).
  { destruct Hu as [Hu| ->]; [|apply orb_true_r]. rewrite (proj2 (str_eqb_neq _ _) Hu). reflexivity. }
  rewrite U. cbn [ensure obind].
  set (p := common_prefix (f_old f) (f_new f)). set (q := common_prefix (rev (skipn p (f_old f))) (rev (skipn p (f_new f)))).
  destruct (is_empty (f_new f)) eqn:En.
  { apply is_empty_true in En. eexists. split; [reflexivity|]. exists p, q, [].
    split; [reflexivity|]. split; [reflexivity|]. split; [reflexivity|]. congruence. }
  apply is_empty_false in En. cbv zeta.
  match goal with |- context [from_multiple [_; from_parts ?ps _; _]] => set (parts := ps) end.
  match goal with |- context [from_multiple ?x] => set (fm := from_multiple x) end.
  eexists. split; [reflexivity|].
  assert (Ep : map p_ch parts = firstn (List.length (f_new f) - p - q) (skipn p (f_new f))).
  { unfold parts. destruct (firstn _ _) as [|c cs]; [reflexivity|]. cbn. f_equal.
    rewrite map_map. cbn. apply map_id. }
  clearbody parts.
  destruct (edit_pieces (f_old f) (f_new f) p q eq_refl eq_refl) as (L1 & L2 & _).
  assert (Ll : l_len l = List.length (f_old f)) by (rewrite <- content_len, Hc; reflexivity).
  exists p, q, (placed (from_parts parts false)).
  split; [reflexivity|]. split; [reflexivity|]. split; [congruence|]. intros _.
  assert (G : placed fm = firstn p (placed l) ++ placed (from_parts parts false) ++ skipn (l_len l - q) (placed l)).
  { unfold fm, placed at 1. rewrite from_multiple_glyphs. cbn [map List.concat]. rewrite app_nil_r, !map_app.
    rewrite slice_prefix by lia. rewrite <- firstn_map. do 2 f_equal.
    destruct (Z.eqb_spec (Z.of_nat q) 0) as [E|E].
    - replace q with 0%nat by lia. rewrite Nat.sub_0_r. unfold placed. rewrite skipn_all2; [reflexivity|].
      rewrite map_length, glyphs_length. lia.
    - rewrite slice_postfix by lia. rewrite <- skipn_map. reflexivity. }
  split; [destruct (f_bold f); [rewrite placed_bold|]; exact G|].
  split; [rewrite <- content_placed; unfold from_parts, content; cbn [l_parts]; exact Ep|].
  intros ->. split; [reflexivity|]. rewrite as_bold_glyphs. intros g Hg. apply in_map_iff in Hg.
  destruct Hg as (g' & <- & _). reflexivity.
Qed.
Lemma apply_to_line_inv f l l' : apply_to_line f l = Ok l' -> content l = f_old f /\ useful f.
Proof.
  unfold apply_to_line. destruct (str_eqb (content l) (f_old f)) eqn:E; [|discriminate]. apply str_eqb_eq in E.
  cbn [ensure obind]. destruct (negb _ || f_bold f) eqn:U; [|discriminate]. intros _. split; [exact E|].
  apply orb_true_iff in U. destruct U as [U|U]; [left|right; exact U]. apply negb_true_iff, str_eqb_neq in U. exact U.
Qed.
Lemma apply_to_line_not_panic f l : apply_to_line f l <> Panic.
Proof.
  unfold apply_to_line, ensure. destruct (str_eqb _ _); cbn [obind]; [|discriminate].
  destruct (_ || _); cbn [obind]; [|discriminate]. destruct (is_empty _); discriminate.
Qed.
Lemma apply_to_line_content f l l' : apply_to_line f l = Ok l' -> content l' = f_new f.
Proof.
  intros H. destruct (apply_to_line_inv _ _ _ H) as [Hc Hu].
  destruct (apply_to_line_ok f l Hc Hu) as (l2 & H2 & p & q & mid & Hp & Hq & He & Hn).
  rewrite H in H2. apply Ok_inj in H2. subst l2.
  destruct (f_new f) as [|c cs] eqn:En; [rewrite He by reflexivity; reflexivity|]. rewrite <- En in *.
  destruct Hn as (G & M & _); [congruence|].
  rewrite content_placed, G, !map_app, M, <- firstn_map, <- skipn_map, <- content_placed, Hc.
  rewrite <- content_len, Hc. now apply edit_pieces.
Qed.
(** Any common prefix of old and new keeps its characters' positions. *)
Lemma apply_to_line_prefix f l l' n : apply_to_line f l = Ok l' ->
  (n <= List.length (f_old f))%nat -> (n <= List.length (f_new f))%nat -> firstn n (f_old f) = firstn n (f_new f) ->
  firstn n (placed l') = firstn n (placed l).
Proof.
  intros H L1 L2 E. destruct (apply_to_line_inv _ _ _ H) as [Hc Hu].
  destruct (apply_to_line_ok f l Hc Hu) as (l2 & H2 & p & q & mid & Hp & Hq & He & Hn).
  rewrite H in H2. apply Ok_inj in H2. subst l2.
  destruct (common_prefix_spec (f_old f) (f_new f)) as (P1 & P2 & P3 & P4). rewrite <- Hp in *.
  specialize (P4 n L1 L2 E).
  destruct (f_new f) as [|c cs] eqn:En; [cbn in L2; replace n with 0%nat by lia; reflexivity|]. rewrite <- En in *.
  destruct Hn as (G & _); [congruence|]. rewrite G.
  rewrite firstn_app, firstn_firstn, Nat.min_l by assumption.
  replace (n - _)%nat with 0%nat; [cbn; now rewrite app_nil_r|].
  rewrite firstn_length. unfold placed. rewrite map_length, glyphs_length, <- content_len, Hc. lia.
Qed.
(** Any common suffix that does not overlap the longest common prefix keeps its positions. *)
Lemma apply_to_line_suffix f l l' p n : apply_to_line f l = Ok l' ->
  longest_common_prefix (f_old f) (f_new f) p ->
  (p + n <= List.length (f_old f))%nat -> (p + n <= List.length (f_new f))%nat ->
  firstn n (rev (f_old f)) = firstn n (rev (f_new f)) ->
  firstn n (rev (placed l')) = firstn n (rev (placed l)).
Proof.
  intros H Hlcp L1 L2 E. destruct (apply_to_line_inv _ _ _ H) as [Hc Hu].
  destruct (apply_to_line_ok f l Hc Hu) as (l2 & H2 & p' & q & mid & Hp & Hq & He & Hn).
  rewrite H in H2. apply Ok_inj in H2. subst l2.
  assert (p' = p) as -> by (rewrite Hp; eapply lcp_fun; [apply common_prefix_spec|exact Hlcp]).
  destruct (common_prefix_spec (rev (skipn p (f_old f))) (rev (skipn p (f_new f)))) as (Q1 & Q2 & Q3 & Q4).
  rewrite <- Hq in *.
  assert (Hnq : (n <= q)%nat).
  { apply Q4; try (rewrite rev_length, skipn_length; lia).
    rewrite !firstn_rev, !skipn_length, !skipn_skipn. rewrite !firstn_rev in E.
    replace (List.length (f_old f) - p - n + p)%nat with (List.length (f_old f) - n)%nat by lia.
    replace (List.length (f_new f) - p - n + p)%nat with (List.length (f_new f) - n)%nat by lia. exact E. }
  destruct (f_new f) as [|c cs] eqn:En; [cbn in L2; replace n with 0%nat by lia; reflexivity|]. rewrite <- En in *.
  destruct Hn as (G & _); [congruence|]. rewrite G, !rev_app_distr.
  assert (Hlen : List.length (placed l) = l_len l) by (unfold placed; now rewrite map_length, glyphs_length).
  rewrite !rev_length, ?skipn_length in Q2.
  assert (Hol : l_len l = List.length (f_old f)) by now rewrite <- content_len, Hc.
  assert (S : rev (skipn (l_len l - q) (placed l)) = firstn q (rev (placed l))).
  { rewrite firstn_rev, Hlen. reflexivity. }
  rewrite S, <- app_assoc, firstn_app, firstn_firstn, Nat.min_l by assumption.
  replace (n - _)%nat with 0%nat; [cbn; now rewrite app_nil_r|].
  rewrite firstn_length, rev_length, Hlen. lia.
Qed.

(** ** Fixup::apply *)
Lemma set_nth_app {A} (pre : list A) x y post : set_nth (List.length pre) y (pre ++ x :: post) = pre ++ y :: post.
Proof.
  unfold set_nth. rewrite firstn_app, firstn_all, Nat.sub_diag. cbn [firstn]. rewrite app_nil_r. f_equal. f_equal.
  replace (S (List.length pre)) with (List.length pre + 1)%nat by lia.
  rewrite skipn_app. replace (skipn (List.length pre + 1) pre) with (@nil A) by (symmetry; apply skipn_all2; lia).
  replace (List.length pre + 1 - List.length pre)%nat with 1%nat by lia. reflexivity.
Qed.
Lemma set_nth_length {A} k (x : A) l : (k < List.length l)%nat -> List.length (set_nth k x l) = List.length l.
Proof. intros. unfold set_nth. rewrite app_length. cbn [List.length]. rewrite firstn_length, skipn_length. lia. Qed.
Lemma set_nth_map {A B} (g : A -> B) k x l : map g (set_nth k x l) = set_nth k (g x) (map g l).
Proof. unfold set_nth. rewrite map_app. cbn [map]. now rewrite firstn_map, skipn_map. Qed.
Lemma set_nth_nth {A} k (x : A) l j : (k < List.length l)%nat ->
  nth_error (set_nth k x l) j = if (j =? k)%nat then Some x else nth_error l j.
Proof.
  intros H. unfold set_nth. destruct (Nat.eqb_spec j k) as [->|N].
  - rewrite nth_error_app2; rewrite firstn_length; [|lia]. replace (k - Nat.min k (List.length l))%nat with 0%nat by lia. reflexivity.
  - destruct (Nat.lt_ge_cases j k).
    + rewrite nth_error_app1 by (rewrite firstn_length; lia). rewrite nth_error_firstn.
      destruct (Nat.ltb_spec j k); [reflexivity|lia].
    + rewrite nth_error_app2; rewrite firstn_length; [|lia].
      replace (j - Nat.min k (List.length l))%nat with (S (j - k - 1)) by lia. cbn [nth_error].
      rewrite nth_error_skipn. f_equal. lia.
Qed.

Definition f_needle (f : fixup) : list str := f_after f ++ [f_old f].
Lemma fixup_apply_ok f ls i :
  unique_at (f_needle f) (map content ls) i -> useful f ->
  exists pre l post l', ls = pre ++ l :: post /\ List.length pre = (i + List.length (f_after f))%nat /\
    content l = f_old f /\ apply_to_line f l = Ok l' /\ fixup_apply f ls = Ok (pre ++ l' :: post).
Proof.
  intros Hu Hf. unfold fixup_apply. fold (f_needle f).
  assert (Hne : f_needle f <> []) by apply needle_ne.
  rewrite (unique_position _ _ _ Hne Hu). cbn [ok_or obind].
  rewrite (proj2 (unique_count (f_needle f) (map content ls) Hne)) by (exists i; exact Hu).
  cbn [ensure obind Nat.eqb].
  destruct Hu as [(pre & post & E & L) _]. unfold f_needle in E. rewrite <- app_assoc in E. cbn [app] in E.
  rewrite app_assoc in E.
  apply map_eq_app in E. destruct E as (l1 & l2 & -> & E1 & E2).
  apply map_eq_cons in E2. destruct E2 as (l & l3 & -> & E3 & E4).
  assert (Hl : List.length l1 = (i + List.length (f_after f))%nat).
  { rewrite <- (map_length content l1), E1, app_length, L. reflexivity. }
  destruct (apply_to_line_ok f l E3 Hf) as (l' & A & _).
  exists l1, l, l3, l'. split; [reflexivity|]. split; [exact Hl|]. split; [exact E3|]. split; [exact A|].
  rewrite nth_error_app2 by lia. replace (i + List.length (f_after f) - List.length l1)%nat with 0%nat by lia.
  cbn [nth_error]. rewrite A. cbn [obind]. rewrite <- Hl. now rewrite set_nth_app.
Qed.
Lemma fixup_apply_inv f ls ls' : fixup_apply f ls = Ok ls' ->
  (exists i, unique_at (f_needle f) (map content ls) i) /\ useful f.
Proof.
  unfold fixup_apply. fold (f_needle f). destruct (position _ _) as [p|] eqn:E; [|discriminate]. cbn [ok_or obind].
  assert (Hne : f_needle f <> []) by apply needle_ne.
  destruct (List.length (filter _ _) =? 1)%nat eqn:C; [|discriminate]. apply Nat.eqb_eq in C. cbn [ensure obind].
  destruct (nth_error ls _) as [l|]; [|discriminate]. destruct (apply_to_line f l) as [l'| |] eqn:A; try discriminate.
  intros _. split; [now apply unique_count|]. now apply apply_to_line_inv in A.
Qed.
Lemma fixup_apply_not_panic f ls : fixup_apply f ls <> Panic.
Proof.
  unfold fixup_apply. destruct (position _ _) as [p|] eqn:E; [|discriminate]. cbn [ok_or obind].
  destruct (_ =? 1)%nat; cbn [ensure obind]; [|discriminate].
  destruct (nth_error ls _) as [l|] eqn:N.
  - destruct (apply_to_line f l) eqn:A; try discriminate. now apply apply_to_line_not_panic in A.
  - exfalso. apply position_some in E. destruct E as [(a & E & _) _].
    rewrite windows_nth in E by (rewrite app_length; cbn; lia).
    destruct (Nat.leb_spec (p + List.length (f_after f ++ [f_old f])) (List.length (map content ls))) as [H|H]; [|discriminate].
    apply nth_error_None in N. rewrite app_length in H. cbn in H. rewrite map_length in H. lia.
Qed.
Lemma c22_iff f ls : (exists ls', fixup_apply f ls = Ok ls') <-> (exists i, unique_at (f_needle f) (map content ls) i) /\ useful f.
Proof.
  split; [intros [ls' H]; eapply fixup_apply_inv; eassumption|].
  intros [[i H] U]. destruct (fixup_apply_ok f ls i H U) as (pre & l & post & l' & _ & _ & _ & _ & E). eauto.
Qed.
Lemma c22_effect f ls ls' i : fixup_apply f ls = Ok ls' -> occurs_at (f_needle f) (map content ls) i ->
  exists pre l post l', ls = pre ++ l :: post /\ ls' = pre ++ l' :: post /\
    List.length pre = (i + List.length (f_after f))%nat /\ content l = f_old f /\ content l' = f_new f /\
    apply_to_line f l = Ok l'.
Proof.
  intros H Ho. destruct (fixup_apply_inv _ _ _ H) as [[i' Hi] U].
  assert (i = i') as -> by (apply (proj2 Hi); exact Ho).
  destruct (fixup_apply_ok f ls i' Hi U) as (pre & l & post & l' & E1 & E2 & E3 & E4 & E5).
  rewrite E5 in H. apply Ok_inj in H. subst ls'. exists pre, l, post, l'. repeat split; auto.
  now apply apply_to_line_content in E4.
Qed.

(** ** Fixups::apply *)
Lemma applies_fixups fs : forall ls ls', fixups_apply fs ls = (ls', Ok tt) <-> applies_to fs ls ls'.
Proof.
  induction fs as [|f fs IH]; intros ls ls'; cbn [fixups_apply].
  - split; [intros H; injection H as <-; constructor|]. intros H; inversion H; reflexivity.
  - destruct (fixup_apply f ls) as [l2| |] eqn:E.
    + rewrite IH. split; [intros H; econstructor; eassumption|].
      intros H; inversion H as [|? ? ? ? ? Q1 Q2]; subst. rewrite E in Q1. apply Ok_inj in Q1. now subst.
    + split; [discriminate|]. intros H; inversion H; subst. congruence.
    + split; [discriminate|]. intros H; inversion H; subst. congruence.
Qed.
Lemma fixups_apply_fail fs : forall ls ls' r, fixups_apply fs ls = (ls', r) -> r <> Ok tt ->
  r = Err /\ exists a f b, fs = a ++ f :: b /\ applies_to a ls ls' /\ fixup_apply f ls' = Err.
Proof.
  induction fs as [|f fs IH]; intros ls ls' r H Hr; cbn [fixups_apply] in H.
  - injection H as <- <-. congruence.
  - destruct (fixup_apply f ls) as [l2| |] eqn:E.
    + destruct (IH _ _ _ H Hr) as (-> & a & g & b & -> & A & B). split; [reflexivity|].
      exists (f :: a), g, b. split; [reflexivity|]. split; [econstructor; eassumption|exact B].
    + injection H as <- <-. split; [reflexivity|]. exists [], f, fs. split; [reflexivity|]. split; [constructor|exact E].
    + now apply fixup_apply_not_panic in E.
Qed.
Lemma applies_app a b ls l1 l2 : applies_to a ls l1 -> applies_to b l1 l2 -> applies_to (a ++ b) ls l2.
Proof. induction 1; intros; cbn; [assumption|]. econstructor; eauto. Qed.
Lemma applies_app_inv a : forall b ls l2, applies_to (a ++ b) ls l2 -> exists l1, applies_to a ls l1 /\ applies_to b l1 l2.
Proof.
  induction a as [|f a IH]; intros b ls l2 H; cbn in H; [exists ls; split; [constructor|exact H]|].
  inversion H as [|? ? ? ? ? Q1 Q2]; subst. destruct (IH _ _ _ Q2) as (l1 & A & B). exists l1. split; [econstructor; eassumption|exact B].
Qed.
Lemma applies_length fs ls ls' : applies_to fs ls ls' -> List.length ls' = List.length ls.
Proof.
  induction 1 as [|f fs ls ls' ls'' H _ IH]; [reflexivity|]. rewrite IH.
  destruct (fixup_apply_inv _ _ _ H) as [[i Hi] U].
  destruct (c22_effect f ls ls' i H (proj1 Hi)) as (pre & l & post & l' & -> & -> & _). now rewrite !app_length.
Qed.

(** ** remove_double_empty_lines *)
Lemma l_empty_iff l : l_empty l = true <-> l_parts l = [].
Proof. unfold l_empty. apply is_empty_true. Qed.
Lemma rde_loop_nd ls : forall prev, no_double_empty (prev :: rde_loop prev ls).
Proof.
  induction ls as [|l ls IH]; intros prev; cbn [rde_loop]; [exact I|].
  destruct (l_empty prev && l_empty l) eqn:E; [apply IH|]. split; [|apply IH].
  intros [A B]. apply l_empty_iff in A, B. now rewrite A, B in E.
Qed.
Lemma c26_no_double ls : no_double_empty (remove_double_empty ls).
Proof. destruct ls as [|l ls]; [exact I|]. apply rde_loop_nd. Qed.
Lemma rde_loop_text ls : forall prev, nonempty (rde_loop prev ls) = nonempty ls.
Proof.
  induction ls as [|l ls IH]; intros prev; cbn [rde_loop]; [reflexivity|].
  destruct (l_empty prev && l_empty l) eqn:E.
  - rewrite IH. unfold nonempty. cbn [filter]. apply andb_true_iff in E. destruct E as [_ ->]. reflexivity.
  - unfold nonempty in *. cbn [filter]. rewrite IH. reflexivity.
Qed.
Lemma c26_text ls : nonempty (remove_double_empty ls) = nonempty ls.
Proof. destruct ls as [|l ls]; [reflexivity|]. unfold remove_double_empty, nonempty. cbn [filter]. fold (nonempty (rde_loop l ls)).
  now rewrite rde_loop_text. Qed.
Lemma rde_loop_collapsed ls : forall prev, collapsed (prev :: ls) (prev :: rde_loop prev ls).
Proof.
  induction ls as [|l ls IH]; intros prev; cbn [rde_loop]; [repeat constructor|].
  destruct (l_empty prev && l_empty l) eqn:E.
  - apply andb_true_iff in E. destruct E as [A B]. apply l_empty_iff in A, B. apply col_drop; auto.
  - apply col_keep, IH.
Qed.
Lemma c26_collapsed ls : collapsed ls (remove_double_empty ls).
Proof. destruct ls as [|l ls]; [constructor|]. apply rde_loop_collapsed. Qed.
Lemma rde_loop_id ls : forall prev, no_double_empty (prev :: ls) -> rde_loop prev ls = ls.
Proof.
  induction ls as [|l ls IH]; intros prev H; cbn [rde_loop]; [reflexivity|]. destruct H as [H1 H2].
  destruct (l_empty prev && l_empty l) eqn:E.
  - apply andb_true_iff in E. destruct E as [A B]. apply l_empty_iff in A, B. exfalso. auto.
  - f_equal. now apply IH.
Qed.
Lemma c26_fixed ls : no_double_empty ls -> remove_double_empty ls = ls.
Proof. destruct ls as [|l ls]; intros H; [reflexivity|]. cbn [remove_double_empty]. f_equal. now apply rde_loop_id. Qed.
Lemma c26_idempotent ls : remove_double_empty (remove_double_empty ls) = remove_double_empty ls.
Proof. apply c26_fixed, c26_no_double. Qed.

(** ** update_fixups *)
Definition differing (a b : list str) : nat :=
  List.length (filter (fun p => negb (str_eqb (fst p) (snd p))) (combine a b)).
Lemma combine_set_nth {A B} k (x : A) (y : B) : forall a b,
  (k < List.length a)%nat -> (k < List.length b)%nat ->
  combine (set_nth k x a) (set_nth k y b) = set_nth k (x, y) (combine a b).
Proof.
  induction k as [|k IH]; intros [|u a] [|v b] H1 H2; cbn in H1, H2; try lia.
  - reflexivity.
  - unfold set_nth in *. cbn. f_equal. apply IH; lia.
Qed.
Lemma nth_error_combine {A B} : forall (a : list A) (b : list B) k,
  nth_error (combine a b) k = match nth_error a k, nth_error b k with Some x, Some y => Some (x, y) | _, _ => None end.
Proof.
  induction a as [|x a IH]; intros [|y b] [|k]; cbn; auto. now destruct (nth_error a k).
Qed.
Lemma filter_set_nth {A} (p : A -> bool) x : forall l k a,
  nth_error l k = Some a -> p a = true -> p x = false ->
  S (List.length (filter p (set_nth k x l))) = List.length (filter p l).
Proof.
  induction l as [|b l IH]; intros [|k] a H Ha Hx; cbn in H; try discriminate.
  - apply Some_inj in H. subst b. unfold set_nth. cbn. rewrite Hx, Ha. reflexivity.
  - specialize (IH _ _ H Ha Hx). change (set_nth (S k) x (b :: l)) with (b :: set_nth k x l).
    cbn [filter]. destruct (p b); cbn [List.length]; lia.
Qed.
Lemma change_some orig new pos : change_position orig new = Some pos ->
  exists o n, nth_error orig pos = Some o /\ nth_error new pos = Some n /\ o <> n.
Proof.
  intros H. apply position_some in H. destruct H as [([o n] & H1 & H2) _]. rewrite nth_error_combine in H1.
  destruct (nth_error orig pos) as [o'|] eqn:E1; [|discriminate].
  destruct (nth_error new pos) as [n'|] eqn:E2; [|discriminate].
  injection H1 as -> ->. exists o, n. cbn in H2. apply negb_true_iff, str_eqb_neq in H2. auto.
Qed.
Lemma change_none : forall orig new, List.length orig = List.length new -> change_position orig new = None -> orig = new.
Proof.
  induction orig as [|o orig IH]; intros [|n new] L H; cbn in L; try discriminate; [reflexivity|].
  unfold change_position in *. cbn in H. destruct (str_eqb o n) eqn:E; cbn in H; [|discriminate].
  apply str_eqb_eq in E. subst. f_equal. apply IH; [lia|]. now destruct (position _ (combine orig new)).
Qed.
Lemma seq_nth_error len : forall start k a, nth_error (seq start len) k = Some a -> a = (start + k)%nat /\ (k < len)%nat.
Proof.
  induction len as [|len IH]; intros start [|k] a H; cbn in H; try discriminate.
  - apply Some_inj in H. lia.
  - apply IH in H. lia.
Qed.
Lemma context_some orig pos cl : context_len orig pos = Some cl -> (pos < List.length orig)%nat ->
  (cl <= pos)%nat /\ (cl <= 10)%nat /\
  unique_at (firstn cl (skipn (pos - cl) orig) ++ [nth pos orig []]) orig (pos - cl).
Proof.
  unfold context_len. intros H Hp. destruct (position _ _) as [c|] eqn:E; [|discriminate]. apply Some_inj in H. subst c.
  apply position_some in E. destruct E as [(a & E1 & E2) _]. apply seq_nth_error in E1. destruct E1 as [-> E1].
  cbn [Nat.add] in E2. assert (cl <= pos)%nat by lia. split; [assumption|]. split; [lia|].
  apply Nat.eqb_eq in E2.
  assert (N : firstn (cl + 1) (skipn (pos - cl) orig) = firstn cl (skipn (pos - cl) orig) ++ [nth pos orig []]).
  { replace (cl + 1)%nat with (S cl) by lia.
    assert (G : forall n (l : list str) d, (n < List.length l)%nat -> firstn (S n) l = firstn n l ++ [nth n l d]).
    { induction n; intros [|z l] d Hl; cbn in Hl; try lia; [reflexivity|].
      change (firstn (S (S n)) (z :: l)) with (z :: firstn (S n) l). rewrite (IHn l d) by lia. reflexivity. }
    rewrite (G cl _ []) by (rewrite skipn_length; lia). do 2 f_equal.
    rewrite nth_skipn. f_equal. lia. }
  rewrite N in E2. apply unique_count in E2; [|apply needle_ne]. destruct E2 as [i Hi].
  assert (O : occurs_at (firstn cl (skipn (pos - cl) orig) ++ [nth pos orig []]) orig (pos - cl)).
  { exists (firstn (pos - cl) orig), (skipn (cl + 1) (skipn (pos - cl) orig)). split; [|rewrite firstn_length; lia].
    rewrite <- N, firstn_skipn, firstn_skipn. reflexivity. }
  pose proof (proj2 Hi _ O) as Ei. subst i. exact Hi.
Qed.

(** The recorded fixups transform any body with text [orig] into the edited text. *)
Lemma edited_lines_nth : forall orig new k,
  nth_error (edited_lines orig new) k =
  match nth_error orig k, nth_error new k with Some o, Some n => Some (edited_at o n) | _, _ => None end.
Proof.
  induction orig as [|o orig IH]; intros [|n new] [|k]; cbn; auto. now destruct (nth_error orig k).
Qed.
Lemma edited_lines_same orig : edited_lines orig orig = orig.
Proof. induction orig as [|o orig IH]; cbn; [reflexivity|]. unfold edited_at. now rewrite str_eqb_refl, IH. Qed.

Lemma uf_loop_ok fuel : forall fs orig new fs', List.length orig = List.length new ->
  uf_loop fuel fs orig new = Some (Ok fs') ->
  exists added, fs' = fs ++ added /\
    forall body, map content body = orig ->
      exists body', applies_to added body body' /\ map content body' = edited_lines orig new /\
        (forall k l, nth_error body' k = Some l -> nth_error orig k = nth_error new k -> nth_error body k = Some l) /\
        (forall k o n l, nth_error orig k = Some o -> nth_error new k = Some n -> nth_error body' k = Some l ->
           changed_bold o n = true -> edited_text n <> [] -> l_bold l = true).
Proof.
  induction fuel as [|fuel IH]; intros fs orig new fs' L H; cbn [uf_loop] in H; [discriminate|].
  destruct (change_position orig new) as [pos|] eqn:C.
  2:{ injection H as <-. exists []. split; [now rewrite app_nil_r|]. intros body Hb. exists body.
      apply change_none in C; [|assumption]. subst new. split; [constructor|]. rewrite edited_lines_same.
      split; [exact Hb|]. split; [auto|]. intros k o n l A B _ Cb. unfold changed_bold in Cb.
      rewrite A in B. apply Some_inj in B. subst n. rewrite str_eqb_refl in Cb. discriminate. }
  destruct (context_len orig pos) as [cl|] eqn:CL; [|discriminate].
  destruct (split_bold (nth pos new [])) as [bold nw] eqn:SB.
  apply change_some in C. destruct C as (o & n & E1 & E2 & Hon).
  assert (P1 : (pos < List.length orig)%nat) by (apply nth_error_Some; congruence).
  assert (P2 : (pos < List.length new)%nat) by lia.
  assert (N1 : nth pos orig [] = o) by (apply nth_error_nth; exact E1).
  assert (N2 : nth pos new [] = n) by (apply nth_error_nth; exact E2).
  rewrite N2 in SB. rewrite N1 in H. 
  destruct (context_some _ _ _ CL P1) as (C1 & C2 & U). rewrite N1 in U.
  apply IH in H; [|rewrite !set_nth_length; assumption].
  destruct H as (added & -> & Hadd).
  set (f := mkFixup (firstn cl (skipn (pos - cl) orig)) o nw bold) in *.
  exists (f :: added). split; [rewrite <- app_assoc; reflexivity|].
  intros body Hb.
  assert (Uf : useful f).
  { unfold useful, f. cbn. unfold split_bold in SB. destruct (str_contains (lit "<BOLD>") n) eqn:SC.
    - injection SB as <- <-. now right.
    - injection SB as <- <-. now left. }
  destruct (fixup_apply_ok f body (pos - cl)) as (pre & l & post & l' & B1 & B2 & B3 & B4 & B5).
  { unfold f_needle, f. cbn [f_after f_old]. rewrite Hb. exact U. } { exact Uf. }
  assert (Lpre : List.length pre = pos).
  { rewrite B2. unfold f. cbn [f_after]. rewrite firstn_length, skipn_length. lia. }
  assert (Hl' : content l' = nw) by (apply apply_to_line_content in B4; exact B4).
  assert (Hset : pre ++ l' :: post = set_nth pos l' body) by (rewrite B1, <- Lpre, set_nth_app; reflexivity).
  destruct (Hadd (set_nth pos l' body)) as (body' & A1 & A2 & A3 & A4).
  { rewrite set_nth_map, Hb, Hl'. reflexivity. }
  assert (Lb : (pos < List.length body)%nat) by (rewrite <- (map_length content body), Hb; exact P1).
  assert (Hnw : nw = edited_text n).
  { unfold edited_text, edited_bold. unfold split_bold in SB. destruct (str_contains _ n); injection SB as _ <-; reflexivity. }
  assert (Hbl : bold = edited_bold n).
  { unfold split_bold in SB. unfold edited_bold. destruct (str_contains _ n); injection SB as <- _; reflexivity. }
  exists body'. split; [econstructor; [exact B5|]; rewrite Hset; exact A1|]. split; [|split].
  - rewrite A2. apply nth_error_ext. intros k. rewrite !edited_lines_nth, !set_nth_nth by assumption.
    destruct (Nat.eqb_spec k pos) as [->|]; [|reflexivity]. rewrite E1, E2. f_equal.
    unfold edited_at. rewrite str_eqb_refl. rewrite (proj2 (str_eqb_neq o n) Hon). exact Hnw.
  - intros k x Hk Heq. assert (k <> pos) by (intros ->; congruence).
    specialize (A3 k x Hk). rewrite !set_nth_nth in A3 by assumption.
    destruct (Nat.eqb_spec k pos); [contradiction|]. now apply A3.
  - intros k o' n' x Ho Hn Hx Hcb Hne. destruct (Nat.eq_dec k pos) as [->|Nk].
    + rewrite E1 in Ho. rewrite E2 in Hn. apply Some_inj in Ho, Hn. subst o' n'.
      specialize (A3 pos x Hx). rewrite !set_nth_nth, Nat.eqb_refl in A3 by assumption.
      specialize (A3 eq_refl). apply Some_inj in A3. subst x.
      destruct (apply_to_line_ok f l B3 Uf) as (l2 & Q & p & q & mid & _ & _ & _ & Q2).
      rewrite B4 in Q. apply Ok_inj in Q. subst l2.
      destruct Q2 as (_ & _ & Q3); [unfold f; cbn; congruence|].
      apply Q3. unfold f. cbn. rewrite Hbl. unfold changed_bold in Hcb. apply andb_true_iff in Hcb. apply Hcb.
    + apply (A4 k o' n' x); auto; rewrite set_nth_nth by assumption; destruct (Nat.eqb_spec k pos); congruence || auto.
Qed.

Lemma uf_loop_terminates fuel : forall fs orig new, List.length orig = List.length new ->
  (differing orig new < fuel)%nat -> uf_loop fuel fs orig new <> None /\ uf_loop fuel fs orig new <> Some Panic.
Proof.
  induction fuel as [|fuel IH]; intros fs orig new L H; cbn [uf_loop]; [lia|].
  destruct (change_position orig new) as [pos|] eqn:C; [|split; discriminate].
  destruct (context_len orig pos) as [cl|]; [|split; discriminate].
  destruct (split_bold (nth pos new [])) as [bold nw].
  apply change_some in C. destruct C as (o & n & E1 & E2 & Hon).
  assert (P1 : (pos < List.length orig)%nat) by (apply nth_error_Some; congruence).
  apply IH; [rewrite !set_nth_length; lia|].
  unfold differing in *. rewrite combine_set_nth by lia.
  pose proof (filter_set_nth (fun p => negb (str_eqb (fst p) (snd p))) (nw, nw) (combine orig new) pos (o, n)) as F.
  cbn [fst snd] in F. rewrite nth_error_combine, E1, E2 in F. specialize (F eq_refl).
  rewrite (proj2 (str_eqb_neq o n) Hon), str_eqb_refl in F. specialize (F eq_refl eq_refl). lia.
Qed.
Lemma filter_length_le {A} (p : A -> bool) l : (List.length (filter p l) <= List.length l)%nat.
Proof. induction l as [|a l IH]; cbn; [lia|]. destruct (p a); cbn; lia. Qed.
Lemma c24_terminates fs orig new : update_fixups fs orig new <> None /\ update_fixups fs orig new <> Some Panic.
Proof.
  unfold update_fixups. destruct (Nat.eqb_spec (List.length orig) (List.length new)); [|split; discriminate].
  apply uf_loop_terminates; [assumption|]. unfold differing.
  pose proof (filter_length_le (fun p => negb (str_eqb (fst p) (snd p))) (combine orig new)).
  rewrite combine_length in *. lia.
Qed.
Lemma c24_reproduces fs orig new fs' : update_fixups fs orig new = Some (Ok fs') ->
  List.length new = List.length orig /\
  exists added, fs' = fs ++ added /\
    forall body, map content body = orig ->
      exists body', applies_to added body body' /\ map content body' = edited_lines orig new /\
        (forall k l, nth_error body' k = Some l -> nth_error orig k = nth_error new k -> nth_error body k = Some l) /\
        (forall k o n l, nth_error orig k = Some o -> nth_error new k = Some n -> nth_error body' k = Some l ->
           changed_bold o n = true -> edited_text n <> [] -> l_bold l = true).
Proof.
  unfold update_fixups. destruct (Nat.eqb_spec (List.length orig) (List.length new)) as [L|]; [|discriminate].
  intros H. split; [auto|]. eapply uf_loop_ok; eassumption.
Qed.
Lemma edited_plain n : edited_bold n = false -> edited_text n = n.
Proof. unfold edited_text. intros ->. reflexivity. Qed.
Lemma edited_lines_plain : forall orig new, List.length orig = List.length new ->
  (forall n, In n new -> edited_bold n = false) -> edited_lines orig new = new.
Proof.
  induction orig as [|o orig IH]; intros [|n new] L H; cbn in *; try discriminate; [reflexivity|].
  rewrite IH by (auto with arith). f_equal. unfold edited_at. destruct (str_eqb o n); [reflexivity|]. apply edited_plain. auto.
Qed.
Lemma c25_reload fs raw new fs' : snd (fixups_apply fs raw) = Ok tt ->
  no_double_empty (fst (fixups_apply fs raw)) ->
  (forall l, In l (fst (fixups_apply fs raw)) -> trim (content l) = content l) ->
  update_fixups fs (editor_lines (fst (load_body fs raw))) new = Some (Ok fs') ->
  exists body', fixups_apply fs' raw = (body', Ok tt) /\
    map content body' = edited_lines (map content (fst (fixups_apply fs raw))) new.
Proof.
  intros H1 H2 H3 H4. unfold load_body in H4. destruct (fixups_apply fs raw) as [ls r] eqn:E. cbn [fst snd] in *. subst r.
  rewrite c26_fixed in H4 by assumption.
  assert (T : editor_lines ls = map content ls).
  { unfold editor_lines. apply map_ext_in. exact H3. }
  rewrite T in H4. apply c24_reproduces in H4. destruct H4 as (_ & added & -> & Hadd).
  destruct (Hadd ls eq_refl) as (body' & A & B & _). exists body'. split; [|exact B].
  apply applies_fixups. apply applies_fixups in E. eapply applies_app; eassumption.
Qed.
