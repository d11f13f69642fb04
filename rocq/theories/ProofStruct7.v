(** Panics of the structure parser (C32). *)
From Verif Require Import ProofBase ProofIdent ProofIdent2 ProofIdent3 ProofIdent4 ProofText ProofText2 ProofMk.
From Verif Require Export ProofStruct6.

Notation clean := not_ending_in_space.
Lemma obind_not_panic {A B} (x : outcome A) (f : A -> outcome B) :
  x <> Panic -> (forall a, x = Ok a -> f a <> Panic) -> obind x f <> Panic.
Proof. destruct x; cbn; intros H K; [now apply K|discriminate|congruence]. Qed.
Lemma ensure_not_panic b : ensure b <> Panic.
Proof. now destruct b. Qed.
Lemma omap_not_panic {A B} (f : A -> B) x : x <> Panic -> omap f x <> Panic.
Proof. now destruct x. Qed.
Lemma or_else_not_panic {A} (x y : outcome A) : x <> Panic -> y <> Panic -> or_else x y <> Panic.
Proof. now destruct x. Qed.
Lemma check_end_not_panic q : qc_check_end q <> Panic.
Proof. apply ensure_not_panic. Qed.

Lemma clean_suffix l r pre : clean l -> content l = pre ++ content r -> clean r.
Proof. intros H E s Er. apply (H (pre ++ s)). now rewrite E, Er, app_assoc. Qed.
Lemma heads_clean {I} (label : str -> I -> Prop) l i r : clean l -> heads label l i r -> clean r.
Proof.
  intros H K. apply heads_content in K. destruct K as (s & n & _ & E & _). apply (clean_suffix l r (s ++ repeat (chr " ") (S n))); [exact H|].
  now rewrite <- app_assoc.
Qed.
Lemma heads_nonempty {I} (label : str -> I -> Prop) l i r : heads label l i r -> l_empty r = false.
Proof.
  intros K. apply heads_content in K. destruct K as (s & n & _ & _ & E). destruct (l_empty r) eqn:Em; [|reflexivity].
  now apply empty_content in Em.
Qed.
Lemma parse_header_not_panic {T} m (parse : str -> outcome T) bl l :
  clean l -> (forall s, parse s <> Panic) ->
  (forall s i rest, m s = Some (i, rest) -> exists pre n, s = pre ++ repeat (chr " ") (S n) ++ rest) ->
  parse_header m parse bl l <> Panic.
Proof.
  intros Hc Hp Hm. unfold parse_header. destruct (m (content l)) as [[i rest]|] eqn:E; [|discriminate].
  apply Hm in E. destruct E as (pre & n & E). specialize (Hp i). destruct (parse i); [|discriminate|congruence].
  apply obind_not_panic; [|intros r _; destruct (existsb _ _); discriminate].
  destruct rest as [|c rest].
  { exfalso. rewrite app_nil_r in E. apply (Hc (pre ++ repeat (chr " ") n)). rewrite E, <- app_assoc. f_equal.
    change (S n) with (1 + n)%nat. rewrite Nat.add_comm, repeat_app. reflexivity. }
  replace (utf8_len (content l) - utf8_len (c :: rest))%N with (utf8_len (pre ++ repeat (chr " ") (S n))).
  2:{ rewrite E, !utf8_len_app. lia. }
  pose proof (slice_bytes_ok l (pre ++ repeat (chr " ") (S n)) (c :: rest) []) as S. rewrite app_nil_r, <- app_assoc in S.
  rewrite <- E in S. rewrite (S eq_refl) by discriminate. discriminate.
Qed.

Section Generic.
  Context {I C : Type} `{IdentCommon I}.
  Variable header : line -> outcome (option (I * line)).
  Variable children : pctx -> I -> option line -> list line -> outcome (em_result C).
  Hypothesis Hh : forall l, clean l -> header l <> Panic.
  Hypothesis Hr : forall l i r, clean l -> header l = Ok (Some (i, r)) -> clean r.
  Hypothesis Hc : forall ctx i prev body, body <> [] -> Forall clean body -> children ctx i prev body <> Panic.

  Lemma parse_scan_np ctx i body : forall q prev intro, Forall clean body -> parse_scan children ctx i q prev intro body <> Panic.
  Proof.
    induction body as [|l body IH]; intros q prev intro F; cbn [parse_scan].
    - apply obind_not_panic; [apply check_end_not_panic|discriminate].
    - apply obind_not_panic; [apply qc_step_not_panic|]. intros q' _.
      assert (N : parse_scan children ctx i q' (if l_empty l then prev else Some l) (append_to l intro) body <> Panic)
        by (apply IH; now inversion F).
      destruct (q_begin q'); [exact N|]. specialize (Hc ctx i prev (l :: body)).
      destruct (children ctx i prev (l :: body)); [discriminate|exact N|]. exfalso. apply Hc; [discriminate|exact F|reflexivity].
  Qed.
  Lemma sae_parse_np ctx mode i body : Forall clean body -> sae_parse children ctx mode i body <> Panic.
  Proof.
    intros F. unfold sae_parse. apply obind_not_panic; [now apply parse_scan_np|]. intros [s [e|]] _.
    - destruct mode; discriminate.
    - destruct ctx, mode; try discriminate. destruct (position _ body); discriminate.
  Qed.
  Lemma em_loop_np ctx hi lines : forall q i body elems, Forall clean body -> Forall clean lines ->
    em_loop header children ctx hi q i body elems lines <> Panic /\
    forall i' body' elems', em_loop header children ctx hi q i body elems lines = Ok (i', body', elems') -> Forall clean body'.
  Proof.
    induction lines as [|l lines IH]; intros q i body elems Fb Fl; cbn [em_loop].
    - split; [apply obind_not_panic; [apply check_end_not_panic|discriminate]|]. intros i' body' elems' E.
      apply obind_ok in E. destruct E as (u & _ & E). apply Ok_inj in E. now injection E as <- <- <-.
    - inversion Fl as [|? ? Cl Fl']; subst. destruct (qc_step q l) as [q'| |] eqn:Eq; cbn [obind];
        [|split; discriminate|now apply qc_step_not_panic in Eq].
      assert (K : (if q_begin q' then Ok None else check_header header i hi l) <> Panic /\
        forall i' r, (if q_begin q' then Ok None else check_header header i hi l) = Ok (Some (i', r)) -> clean r).
      { destruct (q_begin q'); [split; discriminate|]. unfold check_header. destruct (negb _); [split; discriminate|]. split.
        - apply obind_not_panic; [now apply Hh|]. intros [[j r]|] _; [destruct (id_next j i)|]; discriminate.
        - intros i' r E. apply obind_ok in E. destruct E as ([[j r0]|] & E & E'); [|discriminate].
          destruct (id_next j i); [|discriminate]. apply Ok_inj in E'. injection E' as <- <-. now apply (Hr l j). }
      destruct K as [K1 K2]. destruct (if q_begin q' then Ok None else check_header header i hi l) as [[[j r]|]| |] eqn:Eh; cbn [obind].
      + pose proof (sae_parse_np ctx KeepIt i body Fb) as Np. destruct (sae_parse children ctx KeepIt i body) as [[e w]| |]; cbn [obind];
          [|split; discriminate|congruence]. apply IH; [|exact Fl']. constructor; [|constructor]. now apply (K2 j).
      + apply IH; [|exact Fl']. destruct (l_empty l); [exact Fb|]. apply Forall_app. split; [exact Fb|now constructor].
      + split; discriminate.
      + congruence.
  Qed.
  Lemma Forall_firstn {A} (P : A -> Prop) n l : Forall P l -> Forall P (firstn n l).
  Proof. intros F. rewrite <- (firstn_skipn n l) in F. now apply Forall_app in F. Qed.
  Lemma extract_multiple_np ctx w c e ls : ls <> [] -> Forall clean ls -> extract_multiple header children ctx w c e ls <> Panic.
  Proof.
    destruct ls as [|l ls]; [congruence|]. intros _ F. inversion F as [|? ? Cl Fl]; subst. unfold extract_multiple.
    apply obind_not_panic; [now apply Hh|]. intros [[i r]|] E; [|discriminate].
    apply obind_not_panic; [apply ensure_not_panic|]. intros _ _.
    apply obind_not_panic; [apply qc_step_not_panic|]. intros q _.
    assert (Fr : Forall clean [r]) by (constructor; [now apply (Hr l i)|constructor]).
    destruct (em_loop_np ctx (indent l) ls q i [r] [] Fr Fl) as [N1 N2].
    apply obind_not_panic; [exact N1|]. intros [[i' body'] elems'] E'. apply N2 in E'. cbn [fst snd].
    apply obind_not_panic; [|intros r' _; apply obind_not_panic; [apply ensure_not_panic|discriminate]].
    unfold em_finish.
    destruct w, ctx; cbn zeta beta.
    - destruct (position _ body'); (apply obind_not_panic; [apply sae_parse_np; try apply Forall_firstn; exact E'|intros [? ?] _; discriminate]).
    - apply obind_not_panic; [now apply sae_parse_np|]. intros [x y] _. destruct (position _ y); discriminate.
    - apply obind_not_panic; [now apply sae_parse_np|]. intros [? ?] _. discriminate.
    - apply obind_not_panic; [now apply sae_parse_np|]. intros [? ?] _. discriminate.
  Qed.
End Generic.

Lemma paragraph_header_np l : clean l -> paragraph_header l <> Panic.
Proof.
  intros C. apply parse_header_not_panic; [exact C|apply paragraph_parse_not_panic|]. intros s i rest E. apply match_paragraph_inv in E.
  destruct E as (_ & n & E). eauto.
Qed.
Lemma numeric_header_np l : clean l -> numeric_header l <> Panic.
Proof.
  intros C. apply parse_header_not_panic; [exact C|apply numeric_parse_not_panic|]. intros s i rest E. apply match_numeric_inv in E.
  destruct E as (n & E). eauto.
Qed.
Lemma alpha_header_np l : clean l -> alpha_point_header l <> Panic.
Proof.
  intros C. apply parse_header_not_panic; [exact C|apply hic_parse_not_panic|]. intros s i rest E. apply match_alpha_inv in E.
  destruct E as (n & E). eauto.
Qed.
Lemma alpha_sub_header_np p l : clean l -> alpha_subpoint_header p l <> Panic.
Proof.
  intros C. apply obind_not_panic.
  - apply parse_header_not_panic; [exact C|apply prefixed_parse_not_panic|]. intros s i rest E. apply match_alpha_sub_inv in E.
    destruct E as (n & E). eauto.
  - intros [[i r]|] _; [destruct (opt_eqb _ _ _)|]; discriminate.
Qed.
Lemma no_children_np {I C} : forall ctx (i : I) prev body, body <> [] -> Forall clean body -> @no_children I C ctx i prev body <> Panic.
Proof. discriminate. Qed.
Lemma extract_num_subpoints_np ctx w c e ls : ls <> [] -> Forall clean ls -> extract_num_subpoints ctx w c e ls <> Panic.
Proof.
  apply extract_multiple_np; [apply numeric_header_np| |apply no_children_np].
  intros l i r C E. apply numeric_header_heads in E. now apply (heads_clean _ _ _ _ C) in E.
Qed.
Lemma extract_alpha_subpoints_np p ctx w c e ls : ls <> [] -> Forall clean ls -> extract_alpha_subpoints p ctx w c e ls <> Panic.
Proof.
  apply extract_multiple_np; [apply alpha_sub_header_np| |apply no_children_np].
  intros l i r C E. apply alpha_sub_header_heads in E. destruct E as [E _]. now apply (heads_clean _ _ _ _ C) in E.
Qed.
Lemma extract_num_points_np ctx w c e ls : ls <> [] -> Forall clean ls -> extract_num_points ctx w c e ls <> Panic.
Proof.
  apply extract_multiple_np; [apply numeric_header_np| |].
  - intros l i r C E. apply numeric_header_heads in E. now apply (heads_clean _ _ _ _ C) in E.
  - intros ctx' i prev body Hn F. apply omap_not_panic. now apply extract_alpha_subpoints_np.
Qed.
Lemma extract_alpha_points_np ctx w c e ls : ls <> [] -> Forall clean ls -> extract_alpha_points ctx w c e ls <> Panic.
Proof.
  apply extract_multiple_np; [apply alpha_header_np| |].
  - intros l i r C E. apply alpha_header_heads in E. now apply (heads_clean _ _ _ _ C) in E.
  - intros ctx' i prev body Hn F. apply or_else_not_panic; apply omap_not_panic; [now apply extract_num_subpoints_np|now apply extract_alpha_subpoints_np].
Qed.
Lemma qb_run_np ls : forall p, qb_run p ls <> Panic.
Proof.
  induction ls as [|l ls IH]; intros p; cbn [qb_run]; [discriminate|]. apply obind_not_panic; [|intros p' _; apply IH].
  unfold qb_line. apply obind_not_panic; [apply qc_step_not_panic|discriminate].
Qed.
Lemma extract_quoted_np prev ls : extract_quoted prev ls <> Panic.
Proof.
  unfold extract_quoted. destruct ls as [|l ls]; [discriminate|]. apply obind_not_panic; [apply ensure_not_panic|]. intros _ _.
  apply obind_not_panic; [apply qb_run_np|]. intros p _. apply obind_not_panic; [apply ensure_not_panic|]. intros _ _.
  apply obind_not_panic; [apply ensure_not_panic|discriminate].
Qed.
Lemma paragraph_children_np ctx i prev body : body <> [] -> Forall clean body -> paragraph_children ctx i prev body <> Panic.
Proof.
  intros Hn F. unfold paragraph_children. repeat apply or_else_not_panic; apply omap_not_panic;
    [apply extract_quoted_np|now apply extract_num_points_np|now apply extract_alpha_points_np].
Qed.
Lemma extract_paragraphs_np ctx w c e ls : ls <> [] -> Forall clean ls -> extract_paragraphs ctx w c e ls <> Panic.
Proof.
  apply extract_multiple_np; [apply paragraph_header_np| |apply paragraph_children_np].
  intros l i r C E. apply paragraph_header_heads in E. now apply (heads_clean _ _ _ _ C) in E.
Qed.
Lemma parse_paragraph_np ctx mode i ls : Forall clean ls -> parse_paragraph ctx mode i ls <> Panic.
Proof. apply sae_parse_np. apply paragraph_children_np. Qed.

(** ** Articles and acts *)
Lemma ends_append l t s : append_to l t = s ++ lit "]" -> ends_with (lit "]") t = false -> exists s', content l = s' ++ lit "]".
Proof.
  intros E Ht.
  assert (K : forall t', ends_with (lit "]") t' = false -> t' ++ content l = s ++ lit "]" -> exists s', content l = s' ++ lit "]").
  { intros t' Ht' E'. destruct (snoc_case (content l)) as [En|(c' & x & En)]; rewrite En in *.
    - rewrite app_nil_r in E'. exfalso. assert (ends_with (lit "]") t' = true) by (apply ends_with_spec; eauto). congruence.
    - rewrite app_assoc in E'. norm_lit. apply app_inj_tail in E' as [_ ->]. eauto. }
  destruct (append_to_spec l t) as [[_ E']|[_ E']]; rewrite E' in E; [|now apply (K t)].
  apply (K (t ++ lit " ")); [|now rewrite <- app_assoc]. destruct (ends_with (lit "]") (t ++ lit " ")) eqn:Ee; [|reflexivity].
  apply ends_with_spec in Ee. destruct Ee as (y & Ee). norm_lit. apply app_inj_tail in Ee as [_ Ee]. discriminate.
Qed.
Lemma title_loop_end ls : forall t title rest, title_loop t ls = (title, rest) -> ends_with (lit "]") title = true ->
  (rest = ls /\ title = t) \/ exists a l s, ls = a ++ l :: rest /\ content l = s ++ lit "]".
Proof.
  induction ls as [|l ls IH]; intros t title rest; cbn [title_loop]; destruct (ends_with (lit "]") t) eqn:Et; intros H He;
    try (injection H as <- <-; now left).
  destruct (IH _ _ _ H He) as [[-> ->]|(a & l' & s & -> & E)].
  - right. apply ends_with_spec in He. destruct He as (s & He). destruct (ends_append _ _ _ He Et) as (s' & E). exists [], l, s'. auto.
  - right. exists (l :: a), l', s. auto.
Qed.
Lemma extract_title_end ls o rest : extract_title ls = Ok (o, rest) ->
  rest = ls \/ exists a l s, ls = a ++ l :: rest /\ content l = s ++ lit "]".
Proof.
  unfold extract_title. destruct ls as [|l ls]; [discriminate|].
  assert (N : Ok (@None str, l :: ls) = Ok (o, rest) -> rest = l :: ls) by (intros H; apply Ok_inj in H; now injection H).
  destruct (content l) as [|c t] eqn:Ec; [auto|]. destruct (c =? 91)%N; [|auto]. clear N.
  destruct (title_loop t ls) as [title r] eqn:Et. destruct (ends_with (lit "]") title) eqn:Ee; [|discriminate].
  intros H. apply Ok_inj in H. injection H as _ <-. right. destruct (title_loop_end _ _ _ _ Et Ee) as [[-> ->]|(a & l' & s & -> & E)].
  - apply ends_with_spec in Ee. destruct Ee as (s & ->). exists [], l, (c :: s). split; [reflexivity|exact Ec].
  - exists (l :: a), l', s. auto.
Qed.
Lemma ap_finish_np ctx p l ls : ap_lines p = l :: ls -> l_empty l = false -> Forall clean (ap_lines p) ->
  (forall a x b s, ap_lines p = a ++ x :: b -> content x = s ++ lit "]" -> exists x' b', b = x' :: b' /\ l_parts x' <> []) ->
  ap_finish ctx p <> Panic.
Proof.
  intros El Em F T. unfold ap_finish. apply obind_not_panic.
  { unfold extract_title. rewrite El. destruct (content l) as [|c t]; [discriminate|]. destruct (c =? 91)%N; [|discriminate].
    destruct (title_loop t ls). destruct (ends_with _ _); discriminate. }
  intros [title rest] E.
  assert (K : exists y ys, rest = y :: ys /\ l_empty y = false /\ Forall clean rest).
  { apply extract_title_end in E. destruct E as [->|(a & x & s & E & Es)]; [rewrite El in *; eauto|].
    destruct (T _ _ _ _ E Es) as (x' & b' & -> & Hx). exists x', b'. split; [reflexivity|]. split.
    - destruct (l_empty x') eqn:Ex; [|reflexivity]. now apply l_empty_iff in Ex.
    - rewrite E in F. apply Forall_app in F. destruct F as [_ F]. now inversion F. }
  destruct K as (y & ys & -> & Ey & Fy). rewrite Ey.
  assert (P : extract_paragraphs ctx false true None (y :: ys) <> Panic) by (apply extract_paragraphs_np; [discriminate|exact Fy]).
  destruct (extract_paragraphs ctx false true None (y :: ys)) as [e| |] eqn:Ex; [| |congruence].
  - apply extract_paragraphs_inv in Ex. destruct Ex as (_ & _ & _ & _ & _ & _ & _ & _ & W & _). assert (W1 : em_wrap e = None) by now destruct (W eq_refl). rewrite W1. discriminate.
  - apply obind_not_panic; [now apply parse_paragraph_np|]. intros [? ?] _. discriminate.
Qed.
Lemma se_parse_identifier_np rf ty s : se_parse_identifier rf ty s <> Panic.
Proof.
  assert (B : num_from_hungarian s <> Panic) by apply from_hungarian_not_panic.
  assert (R : numeric_from_roman rf s <> Panic).
  { apply obind_not_panic; [apply split_suffix_not_panic|]. intros [n x] _. apply obind_not_panic; [|discriminate].
    now destruct (rf n). }
  destruct ty as [|[]| |]; cbn [se_parse_identifier]; try exact R; try (apply obind_not_panic; [exact B|discriminate]).
  unfold parse_special_part. repeat match goal with |- context [if ?b then _ else _] => destruct b end; discriminate.
Qed.
Lemma header_np rf up ctx f pe l : clean l -> act_header_line rf up ctx f pe l <> Panic.
Proof.
  intros C. unfold act_header_line. apply obind_not_panic.
  { generalize se_types. induction l0 as [|ty tys IH]; cbn [first_se]; [discriminate|]. apply obind_not_panic.
    - unfold try_se. destruct (match_se ty (content l)) as [i|]; [|discriminate]. pose proof (se_parse_identifier_np rf ty i).
      destruct (se_parse_identifier rf ty i); [discriminate|discriminate|congruence].
    - intros [p|] _; [discriminate|exact IH]. }
  intros [p|] _; [discriminate|]. apply obind_not_panic.
  { unfold try_subtitle. destruct (negb (l_bold l)); [discriminate|]. destruct (match_subtitle (content l)) as [[i t]|].
    - pose proof (numeric_parse_not_panic i). destruct (numeric_parse i); [discriminate|discriminate|congruence].
    - destruct (_ || _); [|discriminate]. destruct (content l) as [|c s]; [discriminate|]. destruct (up c); discriminate. }
  intros [p|] _; [discriminate|].
  assert (N : try_article ctx f None l <> Panic).
  { unfold try_article. apply obind_not_panic; [apply ensure_not_panic|]. intros _ _. apply obind_not_panic.
    - apply parse_header_not_panic; [exact C|apply article_parse_not_panic|]. intros s i rest E. apply match_article_inv in E.
      destruct E as (n & sp & E & _). eauto.
    - intros [[i r]|] _; [|discriminate]. apply obind_not_panic; [apply ensure_not_panic|discriminate]. }
  destruct (try_article ctx f None l) as [[f' p]| |]; [discriminate|discriminate|congruence].
Qed.
Lemma followed_suffix rf up ctx a b : brackets_followed rf up ctx (a ++ b) -> brackets_followed rf up ctx b.
Proof. intros H x l y s -> E. apply (H (a ++ x) l y s); [now rewrite <- app_assoc|exact E]. Qed.
(** [rest] is empty or starts with a header. *)
Definition stops rf up ctx (rest : list line) : Prop :=
  match rest with [] => True | l :: _ => ~ plain_line rf up ctx l end.
Lemma finish_np rf up ctx st seg rest : st = AsPreamble \/ seg_ok rf st seg -> Forall clean seg ->
  brackets_followed rf up ctx (seg ++ rest) -> stops rf up ctx rest -> act_finish ctx st <> Panic.
Proof.
  intros So F T Hn. destruct st as [|p|p|p]; cbn [act_finish]; try discriminate. destruct So as [So|So]; [discriminate|].
  destruct So as (hl & tl & r & -> & Hh & El). apply obind_not_panic; [|discriminate].
  inversion F as [|? ? Ch Ft]; subst.
  apply (ap_finish_np ctx p r tl El (heads_nonempty _ _ _ _ Hh)).
  { rewrite El. constructor; [now apply (heads_clean _ _ _ _ Ch Hh)|exact Ft]. }
  rewrite El. intros a x b s E Ex.
  assert (K : exists a' x' s', hl :: tl = a' ++ x' :: b /\ content x' = s' ++ lit "]").
  { destruct a as [|r' a]; cbn [app] in E; injection E as E1 E2.
    - subst x b. apply heads_content in Hh. destruct Hh as (p' & n & _ & Hh & _). exists [], hl.
      exists (p' ++ repeat (chr " ") (S n) ++ s). split; [reflexivity|]. now rewrite Hh, Ex, <- !app_assoc.
    - exists (hl :: a), x, s. split; [cbn; now rewrite E2|exact Ex]. }
  destruct K as (a' & x' & s' & Ea & Ex'). destruct (T a' x' (b ++ rest) s') as (y & b' & Eb & Hy & Hp); [|exact Ex'|].
  { rewrite Ea, <- app_assoc. reflexivity. }
  destruct b as [|z b]; cbn [app] in Eb.
  - exfalso. rewrite Eb in Hn. now apply Hn.
  - injection Eb as <- <-. eauto.
Qed.
Lemma act_loop_np rf up ctx : forall lines q f pe st seg pre done,
  st = AsPreamble \/ seg_ok rf st seg -> last_ok f -> Forall clean seg -> Forall clean lines -> brackets_followed rf up ctx (seg ++ lines) ->
  act_loop rf up ctx q f pe st pre done lines <> Panic /\
  forall st' pre' done', act_loop rf up ctx q f pe st pre done lines = Ok (st', pre', done') -> act_finish ctx st' <> Panic.
Proof.
  induction lines as [|l lines IH]; intros q f pe st seg pre done So Lf Fs Fl T; cbn [act_loop].
  - split; [apply obind_not_panic; [apply check_end_not_panic|discriminate]|]. intros st' pre' done' E.
    apply obind_ok in E. destruct E as (u & _ & E). apply Ok_inj in E. injection E as <- <- <-. exact (finish_np rf up ctx st seg [] So Fs T I).
  - inversion Fl as [|? ? Cl Fl']; subst. destruct (qc_step q l) as [q'| |] eqn:Eq; cbn [obind]; [|split; discriminate|now apply qc_step_not_panic in Eq].
    destruct (if q_begin q' then Ok None else act_header_line rf up ctx f pe l) as [[[st1 f1]|]| |] eqn:Eh; cbn [obind].
    + destruct (q_begin q'); [discriminate|].
      assert (Np : act_finish ctx st <> Panic).
      { apply (finish_np rf up ctx st seg (l :: lines) So Fs T). intros P. rewrite P in Eh. discriminate. }
      apply header_ok in Eh; [|exact Lf]. destruct Eh as (S1 & L1 & _).
      destruct (act_finish ctx st) as [c| |]; cbn [obind]; [|split; discriminate|congruence].
      apply (IH _ _ _ _ [l]); [now right|exact L1|now repeat constructor|exact Fl'|].
      apply (followed_suffix _ _ _ seg). exact T.
    + assert (G : forall pre', act_loop rf up ctx q' f (l_empty l) (feed st l) pre' done lines <> Panic /\
        forall st' pre2 done', act_loop rf up ctx q' f (l_empty l) (feed st l) pre' done lines = Ok (st', pre2, done') -> act_finish ctx st' <> Panic).
      { intros pre'. apply (IH _ _ _ _ (seg ++ [l])); [|exact Lf| |exact Fl'|rewrite <- app_assoc; exact T].
        - destruct So as [->|So]; [now left|right; now apply feed_ok].
        - apply Forall_app. split; [exact Fs|now repeat constructor]. }
      destruct st; apply G.
    + split; discriminate.
    + exfalso. destruct (q_begin q'); [discriminate|]. now apply header_np in Eh.
Qed.
Lemma parse_complex_body_np rf up ctx lines : Forall clean lines -> brackets_followed rf up ctx lines ->
  parse_complex_body rf up ctx lines <> Panic.
Proof.
  intros F T. unfold parse_complex_body.
  destruct (act_loop_np rf up ctx lines qc_default af_new true AsPreamble [] [] []) as [N1 N2]; try assumption; [now left|exact I|constructor|].
  apply obind_not_panic; [exact N1|]. intros [[st pre] done] E. apply N2 in E.
  apply obind_not_panic; [destruct st; [discriminate|exact E..]|]. intros c _.
  apply obind_not_panic; [apply ensure_not_panic|]. intros _ _. apply obind_not_panic; [apply ensure_not_panic|discriminate].
Qed.
