(** Proofs about the grammar: which texts are accepted, and reading the captured words. *)
From Verif Require Export ProofGrammar2.
From Coq Require Import Lia.
Local Open Scope peg_scope.
Local Open Scope N_scope.

(** ** Accepted texts *)
Lemma alt_err {A} (p q : parser A) c g g' : alt p q c g = (Err, g') -> exists g1, q c g1 = (Err, g').
Proof. unfold alt. destruct (p c g) as [[x| |] g1]; try discriminate. intros H. now exists g1. Qed.
Lemma many_n_end {A} (p : parser A) n : forall c g l c' g', many_n n p c g = (Ok (l, c'), g') -> exists g1, p c' g1 = (Err, g').
Proof.
  induction n as [|n IH]; intros c g l c' g'; cbn; [discriminate|]. destruct (p c g) as [[[a m]| |] g1] eqn:E; try discriminate.
  - destruct (many_n n p m g1) as [[[l' c'']| |] g2] eqn:F; try discriminate. intros [= <- <- <-]. exact (IH _ _ _ _ _ F).
  - intros [= <- <- <-]. now exists g.
Qed.
Lemma many_n_no_err {A} (p : parser A) n : forall c g g', many_n n p c g <> (Err, g').
Proof.
  induction n as [|n IH]; intros c g g'; cbn; [discriminate|]. destruct (p c g) as [[[a m]| |] g1]; try discriminate.
  pose proof (IH m g1) as H. destruct (many_n n p m g1) as [[[l' c'']| |] g2]; try discriminate. intros [= <-]. now apply (H g2).
Qed.
Lemma sk_any_err c g g' : sk any c g = (Err, g') -> snd (span is_ascii_ws (cu_rest c)) = [].
Proof.
  unfold sk, pbind, ws, any, chr_if. destruct (span is_ascii_ws (cu_rest c)) as [w r]. cbn. destruct r; [reflexivity|discriminate].
Qed.
Lemma span_blank s : snd (span is_ascii_ws s) = [] <-> spaces s.
Proof.
  unfold spaces. split.
  - intros E. pose proof (span_app is_ascii_ws s) as A. rewrite E, app_nil_r in A.
    pose proof (span_fst is_ascii_ws s) as F. rewrite A in F. apply Forall_forall. intros x I. rewrite forallb_forall in F.
    specialize (F x I). apply existsb_exists in F as (y & J & Y). now apply N.eqb_eq in Y as ->.
  - induction 1 as [|x l I _ IH]; [reflexivity|]. cbn [span].
    assert (F : is_ascii_ws x = true) by (unfold is_ascii_ws; apply existsb_exists; exists x; split; [exact I|apply N.eqb_refl]).
    rewrite F. now destruct (span is_ascii_ws l).
Qed.
Lemma span_snd_again s : snd (span is_ascii_ws (snd (span is_ascii_ws s))) = snd (span is_ascii_ws s).
Proof. now rewrite span_again. Qed.
Lemma simple_err c g g' : any_simple_expression c g = (Err, g') -> spaces (cu_rest c).
Proof.
  unfold any_simple_expression. intros H. apply alt_err in H as (g1 & H). apply alt_err in H as (g2 & H). apply alt_err in H as (g3 & H).
  unfold pbind at 1 in H. destruct (sk any_token c g3) as [[[u m]| |] g4] eqn:E; try discriminate. clear H.
  unfold sk, pbind in E. destruct (ws c g3) as [[[v c1]| |] g5] eqn:W; try discriminate.
  - unfold any_token in E. apply alt_err in E as (g6 & E). apply alt_err in E as (g7 & E). apply sk_any_err in E.
    unfold ws in W. pose proof (span_snd_again (cu_rest c)) as S. destruct (span is_ascii_ws (cu_rest c)) as [w r] eqn:P. cbn [snd] in S.
    injection W as <- <- <-. cbn in E. rewrite E in S. apply span_blank. rewrite P. cbn. now symmetry.
  - unfold ws in W. now destruct (span is_ascii_ws (cu_rest c)).
Qed.
Lemma sk_simple_err c g g' : sk any_simple_expression c g = (Err, g') -> spaces (cu_rest c).
Proof.
  unfold sk, pbind, ws. pose proof (span_snd_again (cu_rest c)) as S. destruct (span is_ascii_ws (cu_rest c)) as [w r] eqn:P. intros H. apply simple_err in H. cbn in H.
  apply span_blank in H. cbn [snd] in S. rewrite H in S. apply span_blank. rewrite P. now symmetry.
Qed.
Lemma sk_eoi_blank c g : spaces (cu_rest c) -> exists c', sk eoi c g = (Ok (tt, c'), g).
Proof.
  intros B. apply span_blank in B. unfold sk, pbind, ws. destruct (span is_ascii_ws (cu_rest c)) as [w r]. cbn in B. subst r. cbn. eexists. reflexivity.
Qed.
Lemma root_err c g g' : g_root_rule c g = (Err, g') -> spaces (cu_rest c).
Proof.
  unfold g_root_rule. intros H. do 6 (apply alt_err in H as (? & H)). clear - H.
  unfold sk at 1, pbind at 1 2 in H. destruct (ws c x4) as [[[u c1]| |] g1] eqn:W.
  2,3: unfold ws in W; now destruct (span is_ascii_ws (cu_rest c)).
  assert (B : spaces (cu_rest c1) -> spaces (cu_rest c)).
  { unfold ws in W. pose proof (span_snd_again (cu_rest c)) as S. destruct (span is_ascii_ws (cu_rest c)) as [w r] eqn:P. injection W as <- <- <-. cbn. intros B.
    apply span_blank in B. cbn [snd] in S. rewrite B in S. apply span_blank. rewrite P. now symmetry. }
  apply B. unfold list_of_simple_expressions, many1 in H. unfold pbind at 1 in H.
  destruct (sk any_simple_expression c1 g1) as [[[a m]| |] g2] eqn:E; [|exact (sk_simple_err _ _ _ E)|discriminate].
  exfalso. unfold pbind at 1, many in H. destruct (many_n _ _ m g2) as [[[l m']| |] g3] eqn:M; [|now apply many_n_no_err in M|discriminate].
  cbn [ret] in H. apply many_n_end in M as (g4 & M). apply sk_simple_err in M. destruct (sk_eoi_blank m' g3 M) as (c2 & F).
  unfold pbind in H. rewrite F in H. discriminate.
Qed.

(** Nothing is found in an empty text. *)
Lemma parse_abbreviation_nil known : Forall (fun k => k <> []) known -> parse_abbreviation known [] = None.
Proof. induction 1 as [|k l N _ IH]; [reflexivity|]. cbn. destruct k; [congruence|]. exact IH. Qed.
Lemma empty_act_reference o g : parse_abbreviation (gl_known g) [] = None -> act_reference (mkCur o []) g = (Err, g).
Proof.
  intros H. unfold act_reference, alt. replace ((n <- sk act_id_with_from_now_on ;; ret (GActId n)) (mkCur o []) g) with (@Err (g_act_ref * cur), g) by reflexivity.
  unfold sk at 1, g_abbreviation, located, pbind, sk, abbreviation_content, pbind. cbn [ws cu_rest span advance cu_off]. now rewrite H.
Qed.
Lemma empty_compound o g : parse_abbreviation (gl_known g) [] = None -> compound_reference (mkCur o []) g = (Err, g).
Proof.
  intros H. unfold compound_reference, alt, pbind at 1, opt.
  assert (S : forall A (p : parser A) g0, sk p (mkCur o []) g0 = p (mkCur o []) g0).
  { intros. unfold sk, pbind, ws. cbn [cu_rest span]. unfold advance. cbn [cu_off utf8_len]. now rewrite N.add_0_r. }
  rewrite S, empty_act_reference by exact H. unfold pbind at 1. rewrite S.
  replace (g_reference (mkCur o []) g) with (@Err (g_ref * cur), g) by reflexivity.
  unfold pbind. now rewrite S, empty_act_reference by exact H.
Qed.
Lemma empty_list o g : parse_abbreviation (gl_known g) [] = None -> list_of_simple_expressions (mkCur o []) g = (Err, g).
Proof.
  intros H. unfold list_of_simple_expressions, many1, pbind at 1.
  assert (S : forall A (p : parser A) g0, sk p (mkCur o []) g0 = p (mkCur o []) g0).
  { intros. unfold sk, pbind, ws. cbn [cu_rest span]. unfold advance. cbn [cu_off utf8_len]. now rewrite N.add_0_r. }
  rewrite S. unfold any_simple_expression, alt, pbind. rewrite !S.
  replace (g_quote (mkCur o []) g) with (@Err (str * cur), g) by reflexivity. cbv beta iota. rewrite S, empty_compound by exact H.
  cbv beta iota. rewrite S. replace (attachment_reference (mkCur o []) g) with (@Err (unit * cur), g) by reflexivity.
  cbv beta iota. rewrite S. reflexivity.
Qed.
Lemma blank_root c g : spaces (cu_rest c) -> parse_abbreviation (gl_known g) [] = None -> g_root_rule c g = (Err, g).
Proof.
  intros B H. apply span_blank in B.
  assert (S : exists o, forall A (p : parser A) g0, sk p c g0 = p (mkCur o []) g0).
  { unfold sk, pbind, ws. destruct (span is_ascii_ws (cu_rest c)) as [w r]. cbn in B. subst r. eexists. reflexivity. }
  destruct S as (o & S). unfold g_root_rule, alt, pbind. rewrite S.
  replace (block_amendment (mkCur o []) g) with (@Err (g_block * cur), g) by reflexivity. cbv beta iota. rewrite S.
  replace (block_amendment_with_subtitle (mkCur o []) g) with (@Err (g_block_sub * cur), g) by reflexivity. cbv beta iota. rewrite S.
  replace (block_amendment_structural (mkCur o []) g) with (@Err (g_block_struct * cur), g) by reflexivity. cbv beta iota. rewrite S.
  replace (g_text_amendment_rule (mkCur o []) g) with (@Err (g_text_amendment * cur), g) by reflexivity. cbv beta iota. rewrite S.
  replace (enforcement_date (mkCur o []) g) with (@Err (g_enforcement * cur), g) by reflexivity. cbv beta iota. rewrite S.
  replace (g_repeal_rule (mkCur o []) g) with (@Err (g_repeal * cur), g) by reflexivity. cbv beta iota. rewrite S.
  now rewrite empty_list.
Qed.
Theorem grammar_total t known : Forall (fun k => k <> []) known ->
  grammar_parse t known <> Panic /\ (grammar_parse t known = Err <-> spaces t).
Proof.
  intros E. pose proof (grammar_good t known E) as G. split; [intros H; now rewrite H in G|]. clear G.
  unfold grammar_parse. split.
  - destruct (g_root_rule (mkCur 0 t) (mkGlob known [] [])) as [[[r c]| |] g] eqn:P; try discriminate. intros _. exact (root_err _ _ _ P).
  - intros B. rewrite blank_root; [reflexivity|exact B|]. now apply parse_abbreviation_nil.
Qed.
