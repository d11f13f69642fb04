(** Proofs for C83 and C84: the act of the described sentences, and the whole way from lines to an act. *)
From Verif Require Export SpecSay12 ProofSay40 ProofInform.
From Verif Require ProofSem ProofWritten5 ProofWritten6 ProofMain5.

Lemma told_informed rf a is n m b : roman_from_reads rf -> all_named (ac_abbrevs a) -> is_map (ac_abbrevs a) -> texts_say (ac_abbrevs a) (act_tasks a) is n ->
  learned (ac_abbrevs a) n m -> informed a is m b ->
  exists ch, add_semantic_info rf grammar_parse a = (b, Ok ch) /\ (ch = true <-> exists l1 k x l2, n = l1 ++ (k, x) :: l2 /\ value_after (ac_abbrevs a) l1 k <> Some x).
Proof.
  intros R NM IM S [LM L] IN. destruct (told_act_all rf R a is n NM IM S) as (a' & ch & E & I & [LM' L'] & _ & C). exists ch. split; [|exact C].
  rewrite E. f_equal. pose proof (blank_rest rf grammar_parse a) as B. rewrite E in B.
  assert (M : ac_abbrevs a' = m) by (apply ProofSem.map_ext; [exact LM'|exact LM|]; intros k; now rewrite L', L).
  rewrite M in B. exact (informed_unique a is m a' b (Build_informed _ _ _ _ B I) IN).
Qed.
(** One article *)
Lemma told_article rf a pre x post is n m x' : roman_from_reads rf -> all_named (ac_abbrevs a) -> is_map (ac_abbrevs a) ->
  ac_children a = pre ++ ChArticle x :: post -> Forall (fun ch => forall y, ch = ChArticle y -> ar_ident y <> ar_ident x) pre ->
  texts_say (ac_abbrevs a) (article_tasks (ac_id a) x) is n -> learned (ac_abbrevs a) n m -> blank_article x' = blank_article x -> article_infos (ac_id a) x' = is ->
  exists ch, add_semantic_info_to_article rf grammar_parse (ar_ident x) a = (with_abbrevs (with_children a (pre ++ ChArticle x' :: post)) m, Ok ch) /\
    (ch = true <-> exists l1 k b l2, n = l1 ++ (k, b) :: l2 /\ value_after (ac_abbrevs a) l1 k <> Some b).
Proof.
  intros R NM IM E F S [LM L] BX IX. pose proof (ProofSem5.c50_article rf grammar_parse (ar_ident x) a) as C.
  pose proof (blank_rest_article rf grammar_parse (ar_ident x) a) as BR.
  destruct (add_semantic_info_to_article rf grammar_parse (ar_ident x) a) as [a' o]. destruct C as [(_ & _ & N)|(pre1 & y & y' & post1 & c' & E1 & E2 & F1 & Y & _ & A & W & M)].
  { rewrite E in N. apply Forall_app in N as [_ N]. apply Forall_inv in N. now elim (N x eq_refl). }
  assert (X : pre1 = pre /\ y = x /\ post1 = post).
  { rewrite E in E1. clear - E1 F F1 Y. revert pre1 F1 E1. induction pre as [|p pre IH]; intros [|q pre1] F1 E1; cbn in E1.
    - injection E1 as -> ->. auto.
    - injection E1 as <- ->. apply Forall_inv in F1. now elim (F1 x eq_refl).
    - injection E1 as -> _. apply Forall_inv in F. now elim (F y eq_refl).
    - injection E1 as -> E1. pose proof (Forall_inv_tail F) as G. pose proof (Forall_inv_tail F1) as G1. destruct (IH G pre1 G1 E1) as (-> & -> & ->). auto. }
  destruct X as (-> & -> & ->).
  pose proof (says_all_understood rf R _ _ _ _ S (cache_from (ac_abbrevs a)) eq_refl NM IM) as U.
  destruct (all_worked _ _ _ _ _ _ U _ _ _ _ W) as (Eo & Ei & ->). destruct o as [ch| |]; try discriminate Eo. destruct M as [M ->].
  exists (ca_changed (cache_add_multiple n (cache_from (ac_abbrevs a)))). split; [|apply ProofSem.c36_changed].
  assert (Em : ac_abbrevs a' = m).
  { apply ProofSem.map_ext; [rewrite M; now apply ProofSem.add_multiple_is_map|exact LM|]. intros k. rewrite M, L. exact (ProofSem.add_multiple_get n (cache_from (ac_abbrevs a)) k). }
  assert (By : y' = x').
  { apply (blank_article_same (ac_id a)); [|congruence]. rewrite BX. unfold blank_act in BR. injection BR as _ _ _ _ BR. rewrite E2 in BR. unfold with_abbrevs in BR. cbn [ac_children] in BR. rewrite E, !map_app in BR. cbn [map blank_child] in BR.
    apply app_inv_head in BR. exact (f_equal (fun l => match l with ChArticle z :: _ => z | _ => blank_article x end) BR). }
  rewrite A, E2, Em, By. reflexivity.
Qed.
Lemma lines_read rf up raw c : roman_from_reads rf -> act_of_lines rf up raw c ->
  exists a b ch, parse_act_structure rf up raw = Ok a /\ add_semantic_info rf grammar_parse a = (b, Ok ch) /\ convert_act rf up b = (c, Ok tt).
Proof.
  intros R [preamble cs a is n m b F W -> S L I C].
  destruct (told_informed rf (mkActS (ar_id raw) (ar_subject raw) preamble (ar_date raw) [] cs) is n m b R) as (ch & E & _); [intros x []|constructor|exact S|exact L|exact I|].
  exists (mkActS (ar_id raw) (ar_subject raw) preamble (ar_date raw) [] cs), b, ch. split; [now apply ProofWritten5.read_act_structure|]. split; [exact E|]. exact (ProofWritten6.read_blocks rf up b c C).
Qed.
Lemma lines_unique rf up raw c c' : roman_from_reads rf -> act_of_lines rf up raw c -> act_of_lines rf up raw c' -> c = c'.
Proof.
  intros R H H'. destruct (lines_read rf up raw c R H) as (a & b & ch & A & B & C), (lines_read rf up raw c' R H') as (a' & b' & ch' & A' & B' & C'). congruence.
Qed.
Lemma lines_done x g raw c : roman_from_reads (x_rf x) -> ag_until g = StepSemantic -> act_of_lines (x_rf x) (x_up x) raw c -> forall d, steps_done x g raw d <-> d = DAct c.
Proof.
  intros R U H d. destruct (lines_read _ _ raw c R H) as (a & b & ch & A & B & C). unfold steps_done. rewrite U. split.
  - intros (a' & b' & c' & k & A' & B' & C' & ->). congruence.
  - intros ->. now exists a, b, c, ch.
Qed.
Lemma lines_processed x g st raw raw' c s : roman_from_reads (x_rf x) -> ag_until g = StepSemantic -> ag_force g = false -> has_name (ar_id raw) -> fixed_act st raw raw' ->
  act_of_lines (x_rf x) (x_up x) raw' c -> printed x g (DAct c) s -> process_single_act x g st raw = (s, Ok tt).
Proof.
  intros R U NF N F H P.
  assert (W : written_act x g st raw = Ok s). { apply ProofMain5.written_iff. split; [exact N|]. exists raw', (DAct c). split; [exact F|]. split; [now apply (lines_done x g raw' c)|exact P]. }
  unfold process_single_act. rewrite W. unfold is_forced. now rewrite NF.
Qed.
