(** Proofs for C80: ordinary sentences in acts. *)
From Verif Require Export ProofSay35.
From Verif Require ProofSem3 ProofSem5 ProofSem6.
From Coq Require Import Lia.
Local Open Scope N_scope.

Lemma kept_unique a b l k k' : kept a b l k -> kept a b l k' -> k = k'.
Proof.
  intros H. revert k'. induction H as [|o l k R H IH|o l k R H IH]; intros k' K; inversion K; subst; try lia; try reflexivity.
  - f_equal. now apply IH.
  - now apply IH.
Qed.
Section Understood.
  Variables (rf : str -> option Z) (gp : str -> list str -> outcome g_root).
  Lemma understood_unique c t i c1 j c2 : understood rf gp c t i c1 -> understood rf gp c t j c2 -> i = j /\ c1 = c2.
  Proof.
    intros H K. inversion H as [x r n o k p S G N O KP P]; inversion K as [x' r' n' o' k' p' S' G' N' O' KP' P']; subst.
    rewrite (ProofSem3.sentence_unique _ _ _ S' S) in *. rewrite G in G'. injection G' as <-. rewrite N in N'. injection N' as <-. rewrite O in O'. injection O' as <-. rewrite P in P'. injection P' as <-.
    rewrite (kept_unique _ _ _ _ _ KP KP'). now split.
  Qed.
  Lemma all_worked c ts is c1 : all_understood rf gp c ts is c1 -> forall old new o c2, worked rf gp c ts old new o c2 -> o = Ok tt /\ new = is /\ c2 = c1.
  Proof.
    induction 1 as [c|c t ts i is c1 c2 U A IH]; intros old new o c3 W.
    - inversion W; subst; now split.
    - inversion W as [|? ? ? i' old' new' ? c1' ? j U' W'|? ? ? ? ? ? F]; subst.
      + destruct (understood_unique _ _ _ _ _ _ U U') as [<- <-]. destruct (IH _ _ _ _ W') as (-> & -> & ->). now split.
      + exfalso. exact (F _ _ U).
  Qed.
  Lemma extract_is st t i c' : understood rf gp (ad_cache st) (mkTask (top (ad_prefix st)) t (top (ad_postfix st)) false) i c' ->
    extract_semantic_info rf gp t st = (mkAdder (ad_prefix st) (ad_postfix st) c', Ok i).
  Proof.
    intros U. pose proof (ProofSem5.extract_understood rf gp st t false) as X. destruct (extract_semantic_info rf gp t st) as [st' [j| |]]; destruct X as (A & B & X); cbn [ProofSem5.kept_info] in X.
    - destruct (understood_unique _ _ _ _ _ _ U X) as [<- ->]. destruct st'. cbn in *. now rewrite A, B.
    - exfalso. exact (X _ _ U).
    - exfalso. exact (X _ _ U).
  Qed.
End Understood.

Section Prose.
  Variable rf : str -> option Z.
  Hypothesis roman : roman_from_reads rf.
  Lemma ordinary_understood c t i : all_named (ca_map c) -> ordinary_task (ca_map c) t i -> understood rf grammar_parse c t i c.
  Proof.
    intros NM [text l own S NE O P K]. destruct (prose_root rf c roman NM text O l NE P) as (gs & G & [(ls & R & <-) N]).
    replace (@None phrase) with (phrase_kept (t_intro t) None) by now destruct (t_intro t).
    apply (understood_ rf grammar_parse c t text (RList gs) [] (List.concat ls) own None S G); [|cbn|exact K|reflexivity].
    - unfold get_new_abbreviations. cbn [root_act_refs]. rewrite N. reflexivity.
    - rewrite R. reflexivity.
  Qed.
  Lemma ordinary_text pre post c own i : all_named (ca_map c) -> ordinary_task (ca_map c) (mkTask (top pre) own (top post) false) i ->
    extract_semantic_info rf grammar_parse own (mkAdder pre post c) = (mkAdder pre post c, Ok i).
  Proof. intros NM O. exact (extract_is rf grammar_parse (mkAdder pre post c) own i c (ordinary_understood c _ i NM O)). Qed.
  Lemma ordinary_act a is : all_named (ac_abbrevs a) -> Forall2 (ordinary_task (ac_abbrevs a)) (act_tasks a) is ->
    exists a', add_semantic_info rf grammar_parse a = (a', Ok false) /\ infos a' = is /\ bare_act a' = bare_act a.
  Proof.
    intros NM F. pose proof (ProofSem5.c50_act rf grammar_parse a) as C. destruct (add_semantic_info rf grammar_parse a) as [a' o]. destruct C as (c' & W & B & M).
    assert (A : all_understood rf grammar_parse (cache_from (ac_abbrevs a)) (act_tasks a) is (cache_from (ac_abbrevs a))).
    { clear W B M. induction F as [|t i ts is T F IH]; [constructor|]. econstructor; [|exact IH]. now apply ordinary_understood. }
    destruct (all_worked _ _ _ _ _ _ A _ _ _ _ W) as (E & <- & ->). destruct o as [ch| |]; try discriminate E. destruct M as [M ->]. cbn in M. exists a'. repeat split.
    rewrite B, M. now destruct a.
  Qed.
End Prose.
