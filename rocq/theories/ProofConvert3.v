(** Converting whole acts (C35). *)
From Verif Require Import ProofBase ProofIdent ProofIdent2 ProofIdent3 ProofIdent4 ProofText ProofText2.
From Verif Require Export ProofConvert2.

Lemma candidate_dec p : (exists i q w x, s_body p = BChildren i (PcQuoted [q]) w /\ si_phrase (s_si p) = Some x /\
    match x with PhBlock _ | PhStructural _ => True | _ => False end) \/
  (~ candidate p /\ forall rf up, convert_paragraph rf up p = (p, Ok tt)).
Proof.
  unfold candidate, one_block, amending, convert_paragraph.
  destruct p as [i [t|intro c w] si ch]; cbn; [right; split; [|reflexivity]; intros (_ & q & i' & w' & E); discriminate|].
  destruct c as [l|l|qs|b|b]; cbn; try (right; split; [|reflexivity]; intros (_ & q & i' & w' & E); discriminate).
  destruct qs as [|q [|q' qs]]; cbn; try (right; split; [|reflexivity]; intros (_ & q0 & i' & w' & E); discriminate).
  destruct (si_phrase si) as [[b|b|b|b|b]|] eqn:Ph;
    try (right; split; [tauto|reflexivity]); left; exists intro, q, w; eexists; (split; [reflexivity|split; [reflexivity|exact I]]).
Qed.
Lemma convert_paragraph_fail rf up p : snd (convert_paragraph rf up p) <> Ok tt ->
  candidate p /\ intro_lost p (fst (convert_paragraph rf up p)).
Proof.
  destruct (candidate_dec p) as [(i & q & w & x & B & P & X)|(_ & E)].
  2:{ rewrite E. cbn. congruence. }
  assert (C : candidate p). { split; [unfold amending; now rewrite P|]. exists q, i, w. exact B. }
  unfold convert_paragraph, intro_lost. rewrite B, P.
  destruct x as [b|b|b|b|b]; try contradiction.
  - destruct (convert_simple _ _); cbn; [congruence| |]; intros _; (split; [exact C|]); exists i, q, w; now split.
  - destruct (convert_structural _ _ _ _); cbn; [congruence| |]; intros _; (split; [exact C|]); exists i, q, w; now split.
Qed.
Lemma convert_paragraph_ok rf up p u : snd (convert_paragraph rf up p) = Ok u -> treated rf p (fst (convert_paragraph rf up p)).
Proof.
  destruct (candidate_dec p) as [(i & q & w & x & B & P & X)|(N & E)].
  2:{ rewrite E. cbn. intros _. right. auto. }
  assert (C : candidate p). { split; [unfold amending; now rewrite P|]. exists q, i, w. exact B. }
  intros H. left. split; [exact C|]. revert H. unfold convert_paragraph, converted. rewrite B, P.
  destruct x as [b|b|b|b|b]; try contradiction.
  - destruct (convert_simple _ _) as [c| |] eqn:E; cbn; try discriminate. intros _. exists i, q, w. eexists. split; [reflexivity|].
    split; [reflexivity|]. exists c. split; [reflexivity|]. now apply convert_simple_holds.
  - destruct (convert_structural _ _ _ _) as [c| |] eqn:E; cbn; try discriminate. intros _. exists i, q, w. eexists. split; [reflexivity|].
    split; [reflexivity|]. exists c. split; [reflexivity|]. now apply convert_structural_holds in E.
Qed.
Lemma treated_fixed rf up p p' : treated rf p p' -> convert_paragraph rf up p' = (p', Ok tt).
Proof.
  intros [[_ (i & q & w & c & B & -> & H)]|[N ->]].
  - destruct (si_phrase (s_si p)) as [[b|b|b|b|b]|] eqn:P; try contradiction; destruct H as (x & -> & _); reflexivity.
  - destruct (candidate_dec p) as [(i & q & w & x & B & P & X)|(_ & E)]; [|apply E]. exfalso. apply N.
    split; [unfold amending; now rewrite P|]. exists q, i, w. exact B.
Qed.

Lemma c35_ok rf up a : snd (convert_act rf up a) = Ok tt -> same_act_but (treated rf) a (fst (convert_act rf up a)).
Proof. intros H. apply (convert_act_ok rf up _ a tt); [|exact H]. intros p u. apply convert_paragraph_ok. Qed.
Lemma c35_fail rf up a : snd (convert_act rf up a) <> Ok tt ->
  same_act_but head_kept a (fst (convert_act rf up a)) /\
  exists done done' p p' rest, act_pars a = done ++ p :: rest /\ act_pars (fst (convert_act rf up a)) = done' ++ p' :: rest /\
    Forall2 (treated rf) done done' /\ candidate p /\ intro_lost p p'.
Proof.
  intros H. split.
  { apply convert_act_frame; [now intros p|]. intros p. apply convert_paragraph_head. }
  destruct (convert_act_flat rf up a) as [E1 E2]. rewrite E1. rewrite E2 in H. pose proof H as H'.
  apply (try_each_fail (treated rf)) in H; [|intros p u; apply convert_paragraph_ok].
  destruct H as (d & d' & x & rest & Ea & Ef & F & Es).
  exists d, d', x, (fst (convert_paragraph rf up x)), rest. split; [exact Ea|]. split; [exact Ef|]. split; [exact F|].
  apply convert_paragraph_fail. now rewrite Es.
Qed.
Lemma forall2_id {A} (R : A -> A -> Prop) l l' : (forall x y, R x y -> y = x) -> Forall2 R l l' -> l' = l.
Proof. intros H. induction 1 as [|x y l l' E _ IH]; [reflexivity|]. apply H in E. now rewrite E, IH. Qed.
Lemma same_act_eq a b : same_act_but (fun p p' => p' = p) a b -> b = a.
Proof.
  intros (E1 & E2 & E3 & E4 & E5 & F). apply (forall2_id _ (ac_children a)) in F.
  - destruct a, b; cbn in *. congruence.
  - intros [e|s|x] [e'|s'|y]; cbn; try congruence. intros (I1 & I2 & I3 & Fy). apply (forall2_id _ (ar_children x)) in Fy; [|auto].
    destruct x, y; cbn in *. congruence.
Qed.
Lemma c35_none rf up a : (forall p, In p (act_pars a) -> ~ candidate p) -> convert_act rf up a = (a, Ok tt).
Proof.
  intros N. assert (T : forall ps, (forall p, In p ps -> ~ candidate p) -> try_each (convert_paragraph rf up) ps = (ps, Ok tt)).
  { clear. induction ps as [|p ps IH]; intros N; cbn; [reflexivity|].
    destruct (candidate_dec p) as [(i & q & w & x & B & P & X)|(_ & E)].
    - exfalso. apply (N p); [now left|]. split; [unfold amending; now rewrite P|]. exists q, i, w. exact B.
    - rewrite E, IH; [reflexivity|]. intros p' Hp. apply N. now right. }
  unfold act_pars, act_articles in N. rewrite flat_children in N.
  assert (C : forall cs, (forall p, In p (flat_map child_pars cs) -> ~ candidate p) -> try_each (convert_child rf up) cs = (cs, Ok tt)).
  { clear N. induction cs as [|c cs IH]; intros N; cbn; [reflexivity|].
    assert (E : convert_child rf up c = (c, Ok tt)).
    { destruct c as [e|s|x]; cbn; [reflexivity..|]. unfold convert_article. rewrite T; [now destruct x|].
      intros p Hp. apply N. cbn. apply in_or_app. now left. }
    rewrite E, IH; [reflexivity|]. intros p Hp. apply N. cbn. apply in_or_app. now right. }
  unfold convert_act. rewrite C by exact N. now destruct a.
Qed.
Lemma treated_not_candidate rf p p' : treated rf p p' -> ~ candidate p'.
Proof.
  intros [[_ (i & q & w & c & B & -> & H)]|[N ->]]; [|exact N].
  intros (_ & q' & i' & w' & E). cbn in E.
  destruct (si_phrase (s_si p)) as [[b|b|b|b|b]|] eqn:P; try contradiction; destruct H as (x & -> & _); discriminate.
Qed.
Lemma same_act_pars R a b : same_act_but R a b -> Forall2 R (act_pars a) (act_pars b).
Proof.
  intros (_ & _ & _ & _ & _ & F). unfold act_pars, act_articles. rewrite !flat_children.
  induction F as [|x y l l' H _ IH]; cbn; [constructor|]. apply Forall2_app; [|exact IH].
  destruct x as [e|s|x], y as [e'|s'|y]; cbn in *; try discriminate; try constructor. apply H.
Qed.
Lemma c35_idempotent rf up a : snd (convert_act rf up a) = Ok tt ->
  convert_act rf up (fst (convert_act rf up a)) = (fst (convert_act rf up a), Ok tt).
Proof.
  intros H. apply c35_none. apply c35_ok, same_act_pars in H. revert H. generalize (act_pars a), (act_pars (fst (convert_act rf up a))).
  intros l l' F. induction F as [|x y l l' T _ IH]; intros p []; [subst; now apply treated_not_candidate in T|now apply IH].
Qed.

(** ** Panics *)
Lemma try_article_np ctx f e l : clean l -> try_article ctx f e l <> Panic.
Proof.
  intros C. unfold try_article. apply obind_not_panic; [apply ensure_not_panic|]. intros _ _. apply obind_not_panic.
  - apply parse_header_not_panic; [exact C|apply article_parse_not_panic|]. intros s i rest E. apply match_article_inv in E.
    destruct E as (n & sp & E & _). eauto.
  - intros [[i r]|] _; [|discriminate]. apply obind_not_panic; [apply ensure_not_panic|discriminate].
Qed.
Lemma plain_no_article rf up ctx l f r : plain_line rf up ctx l -> try_article ctx f None l = Ok r -> False.
Proof.
  intros P E. specialize (P f true). unfold act_header_line in P.
  apply obind_ok in P. destruct P as ([p|] & _ & P); [discriminate|].
  apply obind_ok in P. destruct P as ([p|] & _ & P); [discriminate|]. rewrite E in P. destruct r. discriminate.
Qed.
Lemma ca_loop_np rf up ls : forall f p done seg, seg_ok rf (AsArticle p) seg -> last_ok f -> Forall clean seg -> Forall clean ls ->
  brackets_followed rf up BlockAm (seg ++ ls) -> ca_loop f p done ls <> Panic.
Proof.
  induction ls as [|l ls IH]; intros f p done seg So Lf Fs Fl T; cbn [ca_loop].
  - apply obind_not_panic; [|discriminate].
    pose proof (finish_np rf up BlockAm _ seg [] (or_intror So) Fs T I) as N. cbn in N. intros E. now rewrite E in N.
  - inversion Fl as [|? ? Cl Fl']; subst. destruct (try_article BlockAm f None l) as [[f' p']| |] eqn:E.
    + apply obind_not_panic.
      * assert (S : stops rf up BlockAm (l :: ls)) by (intros P; exact (plain_no_article _ _ _ _ _ _ P E)).
        pose proof (finish_np rf up BlockAm _ seg (l :: ls) (or_intror So) Fs T S) as N. cbn in N. intros E'. now rewrite E' in N.
      * intros a _. apply try_article_inv in E; [|exact Lf]. destruct E as (r & Hh & El & Ef' & Lf' & Hc).
        apply (IH _ _ _ [l]); [exists l, [], r; auto|exact Lf'|now repeat constructor|exact Fl'|]. now apply followed_suffix in T.
    + apply (IH _ _ _ (seg ++ [l])); [exact (feed_ok _ (AsArticle p) _ l So)|exact Lf| |exact Fl'|now rewrite <- app_assoc].
      apply Forall_app. split; [exact Fs|now repeat constructor].
    + now apply try_article_np in E.
Qed.
Lemma convert_structural_np rf up pos ls : ls <> [] -> Forall clean ls -> brackets_followed rf up BlockAm ls ->
  convert_structural rf up pos ls <> Panic.
Proof.
  intros Hn F T. unfold convert_structural.
  assert (Se : forall i ty, (let* r := convert_title_only_se rf i ty ls in Ok [r]) <> Panic).
  { intros i ty. apply obind_not_panic; [|discriminate]. destruct ls as [|l ls']; [congruence|]. apply obind_not_panic; [|discriminate].
    unfold try_se. destruct (match_se ty (content l)) as [x|]; [|discriminate]. pose proof (se_parse_identifier_np rf ty x).
    destruct (se_parse_identifier rf ty x); [discriminate|discriminate|congruence]. }
  assert (St : (let* r := convert_subtitle_only_se up ls in Ok [r]) <> Panic).
  { apply obind_not_panic; [|discriminate]. destruct ls as [|l ls']; [congruence|]. apply obind_not_panic.
    - unfold try_subtitle. destruct (negb (l_bold l)); [discriminate|]. destruct (match_subtitle (content l)) as [[i t]|].
      + pose proof (numeric_parse_not_panic i). destruct (numeric_parse i); [discriminate|discriminate|congruence].
      + cbn [orb]. destruct (content l) as [|c s]; [discriminate|]. destruct (up c); discriminate.
    - intros [h|] _; discriminate. }
  assert (Body : (let* r := parse_complex_body rf up BlockAm ls in Ok (snd r)) <> Panic).
  { apply obind_not_panic; [|discriminate]. now apply parse_complex_body_np. }
  destruct (sr_elem pos) as [i|i|i|i|i|s|a|a|a| |r] eqn:P.
  all: try (destruct (sr_title_only pos); [|exact Body]; unfold convert_title_only; rewrite P; auto; discriminate).
  unfold convert_articles. destruct ls as [|l ls']; [congruence|]. inversion F as [|? ? Cl Fl]; subst.
  apply obind_not_panic; [now apply try_article_np|]. intros [f p] E. apply try_article_inv in E; [|exact I].
  destruct E as (x & Hh & El & Ef & Lf & Hc). apply (ca_loop_np rf up _ _ _ _ [l]); [exists l, [], x; auto|exact Lf|now repeat constructor|exact Fl|exact T].
Qed.
Lemma convert_simple_np pos ls : Forall clean ls -> convert_simple pos ls <> Panic.
Proof.
  intros F. unfold convert_simple. destruct ls as [|l ls]; [discriminate|]. cbn [is_empty negb ensure obind].
  assert (Hn : l :: ls <> []) by discriminate.
  destruct (get_last_part pos) as [|ac|ar|p|[p|p]|[p|p]]; try discriminate; try (apply obind_not_panic; [|discriminate]).
  - apply obind_not_panic; [destruct (f_article pos); discriminate|]. intros a _. unfold trim_article_header. inversion F as [|? ? Cl Fl]; subst. destruct (starts_with _ (content l)) eqn:S.
    + apply obind_not_panic.
      * apply obind_not_panic; [|discriminate]. apply starts_with_spec in S. destruct S as (t & S). unfold slice_bytes.
        destruct t as [|x t].
        { exfalso. apply (Cl (article_show (r_start a) ++ lit ". §")). rewrite S, app_nil_r.
          change (lit ". § ") with (lit ". §" ++ lit " "). apply app_assoc. }
        now rewrite S, char_position_app.
      * intros ls' E. apply obind_ok in E. destruct E as (l' & E & E'). apply Ok_inj in E'. subst ls'.
        destruct (slice_bytes_text _ _ _ E S) as [Ec _]. apply obind_not_panic; [|discriminate].
        apply extract_paragraphs_np; [discriminate|]. constructor; [|exact Fl]. exact (clean_suffix _ _ _ Cl Ec).
    + cbn [obind]. apply obind_not_panic; [|discriminate]. now apply extract_paragraphs_np.
  - now apply extract_num_points_np.
  - now apply extract_alpha_points_np.
  - now apply extract_num_subpoints_np.
  - now apply extract_alpha_subpoints_np.
Qed.
Lemma try_each_np {A} (f : A -> A * outcome unit) l : (forall x, In x l -> snd (f x) <> Panic) -> snd (try_each f l) <> Panic.
Proof.
  induction l as [|a l IH]; cbn; [discriminate|]. intros H. pose proof (H a (or_introl eq_refl)) as Ha.
  destruct (f a) as [a' [u| |]]; cbn in *; [|discriminate|congruence]. destruct (try_each f l); cbn in *. auto.
Qed.
Lemma c35_no_panic rf up a :
  (forall p q, In p (act_pars a) -> amending p -> one_block p q ->
     qb_lines q <> [] /\ Forall not_ending_in_space (qb_lines q) /\ brackets_followed rf up BlockAm (qb_lines q)) ->
  snd (convert_act rf up a) <> Panic.
Proof.
  intros H. destruct (convert_act_flat rf up a) as [_ ->]. apply try_each_np. intros p Hp.
  destruct (candidate_dec p) as [(i & q & w & x & B & P & X)|(_ & E)]; [|now rewrite E].
  destruct (H p q Hp) as (Hn & F & T); [unfold amending; now rewrite P|exists i, w; exact B|].
  unfold convert_paragraph. rewrite B, P. destruct x as [b|b|b|b|b]; try contradiction.
  - pose proof (convert_simple_np (ba_position b) (qb_lines q) F). destruct (convert_simple _ _); [discriminate|discriminate|congruence].
  - pose proof (convert_structural_np rf up (sba_position b) (qb_lines q) Hn F T).
    destruct (convert_structural _ _ _ _); [discriminate|discriminate|congruence].
Qed.
