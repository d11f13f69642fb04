(** Proofs for C81 and C82: sentences of every kind in acts. *)
From Verif Require Export SpecSay11 ProofSay39.
From Verif Require ProofSem ProofSem3 ProofSem5 ProofGrammar4.
From Coq Require Import Lia.
Local Open Scope N_scope.

Lemma kept_again b e len out k own : e <= len -> kept 0 len out k -> kept b e k own -> kept b e out own.
Proof.
  intros L H. revert own. induction H as [|o l k R H IH|o l k R H IH]; intros own K.
  - exact K.
  - inversion K as [|o' l' l'' R' K'|o' l' l'' R' K']; subst; cbn [o_start o_end o_ref] in *; rewrite ?N.sub_0_r in *; [apply kept_in|apply kept_out]; auto.
  - apply kept_out; [lia|]. now apply IH.
Qed.
Section Told.
  Variable rf : str -> option Z.
  Hypothesis roman : roman_from_reads rf.
  Lemma understood_again gp c s text t i c' own : sentence t text -> sentence (mkTask [] s [] false) text -> understood rf gp c (mkTask [] s [] false) i c' ->
    kept (utf8_len (t_before t)) (utf8_len text - utf8_len (t_after t)) (si_outgoing i) own ->
    understood rf gp c t (mkSi own (si_abbrevs i) (phrase_kept (t_intro t) (si_phrase i))) c'.
  Proof.
    intros S S0 U K. inversion U as [x r n o k p S' G N O KP P]; subst. rewrite (ProofSem3.sentence_unique _ _ _ S' S0) in *. cbn [t_before t_after t_intro phrase_kept si_outgoing si_abbrevs si_phrase] in *.
    apply (understood_ rf gp c t text r n o own p S G N O); [|exact P]. apply (kept_again _ _ (utf8_len text - 0) o k); [|exact KP|exact K]. apply N.sub_le_mono_l. apply N.le_0_l.
  Qed.
  Lemma special_read c s i : special (ca_map c) s i -> extract_semantic_info rf grammar_parse s (mkAdder [] [] c) = (mkAdder [] [] c, Ok i).
  Proof.
    intros [a r s' i' R A H|a r s' i' R A H|e s' H|a s' i' H|a s' i' H|e s' i' H|e s' H|a r ins s' i' H|a s' i' H|a s' i' H].
    - exact (replaced rf c roman [] [] a r _ _ eq_refl eq_refl R A H).
    - exact (inserted rf c roman [] [] a r _ _ eq_refl eq_refl R A H).
    - exact (enforced_read rf c [] [] e _ eq_refl eq_refl H).
    - exact (repealed rf c roman [] [] a _ _ eq_refl eq_refl H).
    - exact (exchanged rf c roman [] [] a _ _ eq_refl eq_refl H).
    - exact (parts_read rf c [] [] e _ _ eq_refl eq_refl H).
    - exact (except_read rf c [] [] e _ eq_refl eq_refl H).
    - exact (structural_read rf c roman [] [] a r ins _ _ eq_refl eq_refl H).
    - exact (ProofSay30.subtitle_read rf c roman [] [] a _ _ eq_refl eq_refl H).
    - exact (block_sentence_read rf c roman [] [] a _ _ eq_refl eq_refl H).
  Qed.
  Lemma special_plain m s i : special m s i -> si_abbrevs i = [].
  Proof. intros [a r s' i' R A []|a r s' i' R A []|e s' H|a s' i' []|a s' i' []|e s' i' []|e s' H|a r ins s' i' []|a s' i' []|a s' i' []]; reflexivity. Qed.
  Lemma says_understood c t i n : all_named (ca_map c) -> text_says (ca_map c) t i n -> understood rf grammar_parse c t i (cache_add_multiple n c).
  Proof.
    intros NM [i' n' H|s text i' own S S0 H K]; [now apply spoken_understood|].
    pose proof (ProofSem5.extract_understood rf grammar_parse (mkAdder [] [] c) s false) as X. rewrite (special_read c s i' H) in X. destruct X as (_ & _ & X). cbn [ProofSem5.kept_info ad_cache ad_prefix ad_postfix top] in X.
    pose proof (understood_again grammar_parse c s text t i' c own S S0 X K) as Y. rewrite (special_plain _ _ _ H) in Y. exact Y.
  Qed.
  Lemma speech_named m text all o b t l n : speech m text all o b t l n -> forall k, In k (map fst n) -> k <> [].
  Proof.
    intros H. induction H as [o b|o b x g t l n P N G H IH|o b s l g t l' n P N O G H IH|o b a x len new g t l n A N G H IH|o b a x len new s l g t l' n A S O G H IH]; intros k J; [destruct J|now apply IH|now apply IH| |];
      rewrite map_app in J; apply in_app_or in J as [J|J]; try now apply IH.
    all: inversion A as [| ? ? ? ? ? ? ? ? ? [(c & u & E & _) _] |]; subst; cbn [map fst In] in J; try contradiction; destruct J as [<-|[]]; discriminate.
  Qed.
  Lemma says_named m t i n : text_says m t i n -> forall k, In k (map fst n) -> k <> [].
  Proof. intros [? ? [text l own news ab S NE O P K MW]|]; [exact (speech_named _ _ _ _ _ _ _ _ P)|intros k []]. Qed.
  Lemma named_more c n : all_named (ca_map c) -> (forall k, In k (map fst n) -> k <> []) -> all_named (ca_map (cache_add_multiple n c)).
  Proof.
    intros NM H b J. apply (in_map fst) in J. cbn [fst] in J. apply (ProofGrammar4.cache_add_keys n c []) in J as [J|J].
    - apply in_map_iff in J as ([k a] & E & J). cbn [fst] in E. subst k. exact (NM a J).
    - exact (H [] J eq_refl).
  Qed.
  Lemma says_all_understood m ts is n : texts_say m ts is n -> forall c, ca_map c = m -> all_named m -> is_map m -> all_understood rf grammar_parse c ts is (cache_add_multiple n c).
  Proof.
    induction 1 as [m|m t ts i is n n' m1 S [M L] A IH]; intros c <- NM IM; [constructor|].
    pose proof (named_more c n NM (says_named _ _ _ _ S)) as NM'. pose proof (ProofSem.add_multiple_is_map n c IM) as IM'.
    assert (E : ca_map (cache_add_multiple n c) = m1) by (apply ProofSem.map_ext; [exact IM'|exact M|]; intros k; now rewrite ProofSem.add_multiple_get, L).
    rewrite ProofSem.add_multiple_app. econstructor; [exact (says_understood c t i n NM S)|]. rewrite E in NM', IM'. now apply IH.
  Qed.
  Lemma told_act_all a is n : all_named (ac_abbrevs a) -> is_map (ac_abbrevs a) -> texts_say (ac_abbrevs a) (act_tasks a) is n ->
    exists a' ch, add_semantic_info rf grammar_parse a = (a', Ok ch) /\ infos a' = is /\ learned (ac_abbrevs a) n (ac_abbrevs a') /\ bare_act a' = bare_act (with_abbrevs a (ac_abbrevs a')) /\
      (ch = true <-> exists l1 k b l2, n = l1 ++ (k, b) :: l2 /\ value_after (ac_abbrevs a) l1 k <> Some b).
  Proof.
    intros NM IM F. pose proof (ProofSem5.c50_act rf grammar_parse a) as C. destruct (add_semantic_info rf grammar_parse a) as [a' o]. destruct C as (c' & W & B & M).
    pose proof (says_all_understood _ _ _ _ F (cache_from (ac_abbrevs a)) eq_refl NM IM) as A.
    destruct (all_worked _ _ _ _ _ _ A _ _ _ _ W) as (E & <- & ->). destruct o as [ch| |]; try discriminate E. destruct M as [M ->]. exists a', (ca_changed (cache_add_multiple n (cache_from (ac_abbrevs a)))).
    split; [reflexivity|]. split; [reflexivity|]. split; [|split; [exact B|]].
    - rewrite M. split; [now apply ProofSem.add_multiple_is_map|]. intros k. exact (ProofSem.add_multiple_get n (cache_from (ac_abbrevs a)) k).
    - apply ProofSem.c36_changed.
  Qed.
  Lemma spoken_text pre post c own i n : all_named (ca_map c) -> spoken_task (ca_map c) (mkTask (top pre) own (top post) false) i n ->
    exists c', extract_semantic_info rf grammar_parse own (mkAdder pre post c) = (mkAdder pre post c', Ok i) /\ (is_map (ca_map c) -> learned (ca_map c) n (ca_map c')).
  Proof.
    intros NM H. exists (cache_add_multiple n c). split; [exact (extract_is rf grammar_parse (mkAdder pre post c) own i _ (spoken_understood rf c roman NM _ _ _ H))|].
    intros IM. split; [now apply ProofSem.add_multiple_is_map|]. intros k. apply ProofSem.add_multiple_get.
  Qed.
End Told.
