(** Proofs about the structure parser: header lines (C28, C29, C31). *)
From Verif Require Import ProofBase ProofIdent ProofIdent2 ProofIdent4 ProofText ProofText2.
From Verif Require Export SpecStruct.

Lemma eat_inv c s r : eat c s = Some r -> s = c :: r.
Proof.
  destruct s as [|d s]; cbn; [discriminate|]. destruct (N.eqb_spec c d); [|discriminate].
  intros H. apply Some_inj in H. now subst.
Qed.
Lemma span_app (p : N -> bool) s a b : span p s = (a, b) -> s = a ++ b /\ forallb p a = true.
Proof.
  revert a b. induction s as [|c s IH]; intros a b; cbn.
  - intros H. injection H as <- <-. now split.
  - destruct (p c) eqn:E.
    + destruct (span p s) as [x y]. intros H. injection H as <- <-. destruct (IH x y eq_refl) as [-> F].
      split; [reflexivity|]. cbn. now rewrite E.
    + intros H. injection H as <- <-. now split.
Qed.
Lemma eat_digits_inv s d r : eat_digits s = Some (d, r) -> s = d ++ r /\ forallb is_digit d = true /\ d <> [].
Proof.
  unfold eat_digits. destruct (span is_digit s) as [a b] eqn:E. apply span_app in E. destruct E as [-> F].
  destruct a; cbn [is_empty]; [discriminate|]. intros H. apply Some_inj in H. injection H as <- <-.
  repeat split; [exact F|discriminate].
Qed.
Lemma eat_tail_inv s r : eat_tail s = Some r -> exists n, s = repeat (chr " ") (S n) ++ r.
Proof.
  unfold eat_tail. destruct (eat 32 s) as [s'|] eqn:E; [|discriminate]. apply eat_inv in E. subst s.
  destruct (span (N.eqb 32) s') as [a b] eqn:E. apply span_app in E. destruct E as [-> F]. cbn [snd].
  destruct (no_newline b); [|discriminate]. intros H. apply Some_inj in H. subst b.
  exists (List.length a). cbn [repeat app]. change (chr " ") with 32%N. f_equal. f_equal.
  induction a as [|c a IH]; [reflexivity|]. cbn in *. apply andb_true_iff in F. destruct F as [F1 F2].
  apply N.eqb_eq in F1. subst c. now rewrite <- IH.
Qed.
Ltac eats := repeat match goal with
  | H : None = Some _ |- _ => discriminate H
  | H : Some _ = Some _ |- _ => apply Some_inj in H
  | H : (_, _) = (_, _) |- _ => injection H as ? ?; subst
  | H : match eat ?c ?s with Some _ => _ | None => _ end = Some _ |- _ =>
      let E := fresh "E" in destruct (eat c s) eqn:E; [apply eat_inv in E; subst|discriminate H]
  | H : match eat_tail ?s with Some _ => _ | None => _ end = Some _ |- _ =>
      let E := fresh "E" in destruct (eat_tail s) eqn:E; [apply eat_tail_inv in E; destruct E as [? ?]; subst|discriminate H]
  | H : match eat_digits ?s with Some _ => _ | None => _ end = Some _ |- _ =>
      let E := fresh "E" in let d := fresh "ds" in let r := fresh "rs" in destruct (eat_digits s) as [[d r]|] eqn:E;
        [apply eat_digits_inv in E; destruct E as (? & ? & ?); subst|discriminate H]
  end.
Ltac apps := norm_lit; try match goal with E : _ :: _ = _ |- _ => rewrite E end; rewrite <- ?app_assoc; cbn [app]; rewrite <- ?app_assoc; reflexivity.
Lemma match_paragraph_inv s i r : match_paragraph s = Some (i, r) -> i <> [] /\
  exists n, s = (lit "(" ++ i ++ lit ")") ++ repeat (chr " ") (S n) ++ r.
Proof.
  unfold match_paragraph. intros H. eats.
  destruct rs as [|c s'].
  - eats. discriminate.
  - destruct (is_lower c).
    + eats. split; [now destruct ds|]. exists x. apps.
    + eats. split; [assumption|]. exists x. apps.
Qed.
Lemma match_numeric_inv s i r : match_numeric s = Some (i, r) ->
  exists n, s = (i ++ lit ".") ++ repeat (chr " ") (S n) ++ r.
Proof.
  unfold match_numeric. intros H. eats. destruct rs as [|c s'].
  - eats. discriminate.
  - destruct (is_lower c).
    + eats. exists x. apps.
    + destruct (N.eqb_spec c 47).
      * destruct s' as [|f s'']; [eats; discriminate|]. destruct (is_lower f).
        -- eats. exists x. apps.
        -- eats. discriminate.
      * eats. exists x. apps.
Qed.
Lemma match_alpha_inv s i r : match_alpha s = Some (i, r) ->
  exists n, s = (i ++ lit ")") ++ repeat (chr " ") (S n) ++ r.
Proof.
  unfold match_alpha. destruct s as [|c s1]; [discriminate|]. destruct (eat 41 s1) eqn:E.
  - apply eat_inv in E. subst. destruct (is_lower c); [|discriminate]. intros H. eats. exists x. reflexivity.
  - destruct s1 as [|d s2]; [discriminate|]. destruct (existsb _ digraphs); [|discriminate].
    intros H. eats. exists x. reflexivity.
Qed.
Lemma match_alpha_sub_inv s i r : match_alpha_sub s = Some (i, r) ->
  exists n, s = (i ++ lit ")") ++ repeat (chr " ") (S n) ++ r.
Proof.
  unfold match_alpha_sub. destruct s as [|c s1]; [discriminate|]. destruct (is_lower c); [|discriminate].
  destruct (eat 41 s1) eqn:E.
  - apply eat_inv in E. subst. intros H. eats. exists x. reflexivity.
  - destruct s1 as [|d s2]; [discriminate|]. destruct (is_lower d); [|discriminate].
    intros H. eats. exists x. reflexivity.
Qed.
Lemma eat_number_slash_inv s n r : eat_number_slash s = Some (n, r) -> s = n ++ r /\ n <> [] /\
  exists d t, n = d ++ t /\ forallb is_digit d = true /\ d <> [] /\ forallb (fun c => negb (c =? 58)%N) t = true.
Proof.
  unfold eat_number_slash. intros H. eats.
  assert (D : forall t : str, ds ++ t <> []) by (destruct ds; [congruence|discriminate]).
  destruct rs as [|c [|e s']].
  - eats. rewrite app_nil_r. split; [reflexivity|]. split; [assumption|]. exists n, []. now rewrite app_nil_r.
  - eats. split; [reflexivity|]. split; [assumption|]. exists n, []. now rewrite app_nil_r.
  - destruct ((c =? 47)%N && is_upper_az e) eqn:E.
    + eats. split; [now rewrite <- app_assoc|]. split; [apply D|]. exists ds, [c; e].
      apply andb_true_iff in E. destruct E as [E1 E2]. apply N.eqb_eq in E1. subst c.
      repeat split; [assumption|assumption|]. unfold is_upper_az in E2. cbn.
      destruct (N.eqb_spec e 58); [|reflexivity]. subst e. discriminate.
    + eats. split; [reflexivity|]. split; [assumption|]. exists n, []. now rewrite app_nil_r.
Qed.
(** The identifier text of an article header and the space before the section sign. *)
Lemma match_article_inv s i r : match_article s = Some (i, r) ->
  exists n sp, s = (i ++ lit "." ++ sp ++ lit "§") ++ repeat (chr " ") (S n) ++ r /\ (sp = [] \/ sp = lit " ") /\
    exists d c t, i = d ++ c /\ forallb is_digit d = true /\ d <> [] /\
      (c = t \/ exists e, c = 58%N :: e ++ t /\ forallb is_digit e = true /\ e <> []) /\
      forallb (fun c => negb (c =? 58)%N) t = true.
Proof.
  unfold match_article.
  set (book := match eat_digits s with
               | Some (d, s') => match eat 58 s' with Some s'' => Some (d ++ [58%N], s'') | None => None end
               | None => None end).
  assert (B : forall b s', (match book with Some (b, s') => (b, s') | None => ([], s) end) = (b, s') ->
     s = b ++ s' /\ (b = [] \/ exists d, b = d ++ [58%N] /\ forallb is_digit d = true /\ d <> [])).
  { intros b s' H. subst book. destruct (eat_digits s) as [[d x]|] eqn:E.
    - destruct (eat 58 x) eqn:E2.
      + injection H as <- <-. apply eat_inv in E2. subst x. apply eat_digits_inv in E. destruct E as (-> & F & G).
        split; [now rewrite <- app_assoc|]. right. now exists d.
      + injection H as <- <-. split; [reflexivity|now left].
    - injection H as <- <-. split; [reflexivity|now left]. }
  destruct (match book with Some (b, s') => (b, s') | None => ([], s) end) as [b s'].
  destruct (B b s' eq_refl) as [-> Hb]. clear B book.
  destruct (eat_number_slash s') as [[n s2]|] eqn:E; [|discriminate].
  apply eat_number_slash_inv in E. destruct E as (-> & Hn & d & t & -> & Fd & Gd & Ft).
  intros H. eats.
  assert (exists sp, (sp = [] \/ sp = lit " ") /\ s = sp ++ chr "§" :: repeat (chr " ") (S x) ++ r) as (sp & Hsp & ->).
  { destruct (eat 32 s) as [y|] eqn:E2.
    - exists (lit " "). apply eat_inv in E2. subst. split; [now right|reflexivity].
    - exists []. subst s. split; [now left|reflexivity]. }
  clear E. exists x, sp. split; [|split; [exact Hsp|]].
  - apps.
  - destruct Hb as [->|(e & -> & Fe & Ge)].
    + exists d, t, t. cbn [app]. repeat split; auto.
    + exists e, (58%N :: d ++ t), t. rewrite <- !app_assoc. cbn [app].
      split; [reflexivity|]. split; [exact Fe|]. split; [exact Ge|]. split; [|exact Ft].
      right. exists d. auto.
Qed.

Lemma glyphs_nil l : glyphs l = [] <-> content l = [].
Proof. rewrite <- glyphs_ch. destruct (glyphs l); cbn; split; congruence. Qed.
Lemma utf8_len_end s : char_position s (utf8_len s) = None.
Proof.
  destruct (char_position s (utf8_len s)) eqn:E; [|reflexivity]. apply char_position_some in E.
  destruct E as [E L]. exfalso. rewrite <- (firstn_skipn n s) in E at 2. rewrite utf8_len_app in E.
  assert (H : skipn n s <> []) by (intros H; apply (f_equal (@List.length _)) in H; rewrite skipn_length in H; cbn in H; lia).
  destruct (skipn n s) as [|c t]; [congruence|]. rewrite utf8_len_cons in E. pose proof (char_len_pos c). lia.
Qed.
(** What [parse_header] finds: the glyphs of the rest are the last glyphs of the line. *)
Lemma parse_header_inv {T} m (parse : str -> outcome T) bl l i r :
  parse_header m parse bl l = Ok (Some (i, r)) ->
  forall pre, (forall s rest, m (content l) = Some (s, rest) -> content l = pre s ++ rest) ->
  exists s g, m (content l) = Some (s, content r) /\ parse s = Ok i /\ glyphs l = g ++ glyphs r /\
    map g_ch g = pre s /\ glyphs r <> [] /\ existsb (fun b => starts_with b (content r)) bl = false.
Proof.
  unfold parse_header. intros H pre Hm. destruct (m (content l)) as [[s rest]|] eqn:Em; [|discriminate].
  destruct (parse s) as [id| |] eqn:Ep; [|discriminate|discriminate].
  specialize (Hm _ _ eq_refl). assert (Eu : (utf8_len (content l) - utf8_len rest)%N = utf8_len (pre s))
    by (rewrite Hm, utf8_len_app; lia).
  rewrite Eu in H.
  destruct rest as [|c rest'].
  { exfalso. rewrite app_nil_r in Hm. unfold slice_bytes in H. rewrite Hm, utf8_len_end in H. discriminate. }
  set (rest := c :: rest') in *.
  pose proof (slice_bytes_ok l (pre s) rest []) as S. rewrite app_nil_r in S.
  rewrite <- Hm in S. specialize (S eq_refl). rewrite S in H by discriminate. cbn [obind] in H.
  set (r0 := slice l (Z.of_nat (List.length (pre s))) (Some (Z.of_nat (List.length (content l))))) in *.
  destruct (existsb _ bl) eqn:Eb; [discriminate|]. apply Ok_inj, Some_inj in H. injection H as <- Hr.
  assert (G : glyphs r0 = skipn (List.length (pre s)) (glyphs l)).
  { subst r0. rewrite slice_glyphs_eq. rewrite !convert_index_nat.
    - rewrite content_len. rewrite firstn_all2; [reflexivity|]. rewrite skipn_length, glyphs_length. lia.
    - rewrite <- content_len, Hm, app_length. lia.
    - rewrite content_len. lia. }
  rewrite Hr in G.
  exists s, (firstn (List.length (pre s)) (glyphs l)).
  assert (Ec : content r = rest).
  { rewrite <- glyphs_ch, G, <- skipn_map, glyphs_ch, Hm. rewrite skipn_app, skipn_all, Nat.sub_diag. reflexivity. }
  repeat split.
  - now rewrite Ec.
  - exact Ep.
  - rewrite G. now rewrite firstn_skipn.
  - rewrite <- firstn_map, glyphs_ch, Hm. rewrite firstn_app, Nat.sub_diag, firstn_all. cbn. now rewrite app_nil_r.
  - intros E. apply glyphs_nil in E. rewrite Ec in E. discriminate.
  - now rewrite <- Hr.
Qed.
Lemma heads_content {I} (label : str -> I -> Prop) l i r : heads label l i r ->
  exists s n, label s i /\ content l = s ++ repeat (chr " ") (S n) ++ content r /\ content r <> [].
Proof.
  intros (s & n & g & L & M & G & R). exists s, n. split; [exact L|]. split.
  - rewrite <- (glyphs_ch l), G, map_app, M, glyphs_ch, <- app_assoc. reflexivity.
  - intros E. apply R. now apply glyphs_nil.
Qed.
Lemma parse_header_heads {T} m (parse : str -> outcome T) bl (label : str -> T -> Prop) l i r :
  (forall s x rest, m s = Some (x, rest) ->
     exists lb n, s = lb ++ repeat (chr " ") (S n) ++ rest /\ forall i, parse x = Ok i -> label lb i) ->
  parse_header m parse bl l = Ok (Some (i, r)) -> heads label l i r.
Proof.
  intros Hm H.
  destruct (m (content l)) as [[x rest]|] eqn:E.
  2:{ unfold parse_header in H. rewrite E in H. discriminate. }
  destruct (Hm _ _ _ E) as (lb & n & Hn & Hp).
  destruct (parse_header_inv _ _ _ _ _ _ H (fun s => lb ++ repeat (chr " ") (S n))) as (s & g & M & P & G & Mg & R & _).
  { intros s0 rest0 E0. rewrite E in E0. apply Some_inj in E0. injection E0 as <- <-. rewrite Hn. now rewrite <- app_assoc. }
  rewrite E in M. apply Some_inj in M. injection M as <- _.
  exists lb, n, g. auto.
Qed.

(** *** the five header functions *)
Lemma paragraph_header_heads l i r : paragraph_header l = Ok (Some (i, r)) -> heads par_label l i r.
Proof.
  apply parse_header_heads. intros s x rest H. apply match_paragraph_inv in H. destruct H as [Hx [n Hn]].
  eexists _, n. split; [exact Hn|]. clear i. intros i. unfold paragraph_parse. destruct x; [congruence|].
  cbn [is_empty]. intros H.
  destruct (numeric_parse (n0 :: x)) eqn:E; cbn in H; try discriminate. apply Ok_inj in H. subst i.
  apply numeric_parse_spelling in E. exists (n0 :: x), a. auto.
Qed.
Lemma numeric_header_heads l i r : numeric_header l = Ok (Some (i, r)) -> heads num_label l i r.
Proof.
  apply parse_header_heads. intros s x rest H. apply match_numeric_inv in H. destruct H as [n Hn].
  eexists _, n. split; [exact Hn|]. clear i. intros i H. apply numeric_parse_spelling in H. exists x. auto.
Qed.
Lemma alpha_header_heads l i r : alpha_point_header l = Ok (Some (i, r)) -> heads alpha_label l i r.
Proof.
  apply parse_header_heads. intros s x rest H. apply match_alpha_inv in H. destruct H as [n Hn].
  eexists _, n. split; [exact Hn|]. clear i. intros i H. apply hic_parse_spelling in H. exists x. auto.
Qed.
Lemma hic_of_char_spelling c x : hic_of_char c = Ok x -> spelling [c] x.
Proof.
  rewrite hic_of_char_ok, ascii_lower_range. unfold ascii_lower. intros [[H|H] ->].
  - replace ((65 <=? c) && (c <=? 90))%N with false by lia. now constructor.
  - replace ((65 <=? c) && (c <=? 90))%N with true by lia.
    replace [c] with [(c + 32 - 32)%N] by (f_equal; lia). constructor. lia.
Qed.
Lemma alpha_sub_header_heads p l i r : alpha_subpoint_header p l = Ok (Some (i, r)) ->
  heads alpha_sub_label l i r /\ p_prefix i = p.
Proof.
  unfold alpha_subpoint_header. intros H.
  destruct (parse_header match_alpha_sub prefixed_parse pont l) as [[[j r']|]| |] eqn:E; cbn in H; try discriminate.
  destruct (opt_eqb hic_eqb (p_prefix j) p) eqn:Ep; [|discriminate]. apply Ok_inj, Some_inj in H.
  injection H as -> ->. split.
  - revert E. apply parse_header_heads. intros s x rest H. apply match_alpha_sub_inv in H. destruct H as [n Hn].
    eexists _, n. split; [exact Hn|]. clear Ep i. intros i H. exists x. split; [reflexivity|].
    unfold prefixed_parse in H. destruct x as [|c [|d [|? ?]]]; try discriminate.
    + destruct (hic_of_char c) eqn:E; cbn in H; try discriminate. apply Ok_inj in H. subst i. cbn.
      now apply hic_of_char_spelling.
    + destruct (hic_of_char c) eqn:E; cbn in H; try discriminate.
      destruct (hic_of_char d) eqn:E2; cbn in H; try discriminate. apply Ok_inj in H. subst i. cbn.
      exists [c], [d]. split; [reflexivity|]. split; now apply hic_of_char_spelling.
  - destruct (p_prefix i) as [a|], p as [b|]; cbn in Ep; try discriminate; [|reflexivity].
    apply hic_eqb_eq in Ep. now subst.
Qed.
Lemma article_header_heads l i r : parse_header match_article article_parse [] l = Ok (Some (i, r)) ->
  heads article_label l i r.
Proof.
  apply parse_header_heads. intros s x rest H. apply match_article_inv in H.
  destruct H as (n & sp & Hn & Hsp & d & c & t & -> & Fd & Gd & Hc & Ft).
  eexists _, n. split; [exact Hn|]. clear i. intros i H. apply article_parse_exact in H.
  destruct H as [(j & Hj & ->)|(bs & b & js & j & E & Hb & Hb2 & Hj & ->)].
  - exists [], (d ++ c), sp. cbn [a_ident a_book app]. auto.
  - exists (bs ++ lit ":"), js, sp. cbn [a_ident a_book]. split; [exact Hj|]. split.
    { rewrite E. rewrite <- !app_assoc. reflexivity. }
    split; [exact Hsp|]. exists bs. split; [|reflexivity].
    destruct bs as [|e bs]; [inversion Hb as [? ? E0|s0 ? ? ? ? E0]; destruct s0; discriminate|].
    destruct d as [|d0 d]; [congruence|]. cbn in E. injection E as -> _.
    cbn in Fd. apply andb_true_iff in Fd. destruct Fd as [Fd _].
    unfold strip_plus in Hb. destruct (N.eqb_spec e 43); [subst e; discriminate|exact Hb].
Qed.
