(** Proofs for C50: adding semantic information does not panic if the grammar does not. *)
From Verif Require Export ProofSem5 ProofStruct7 ProofMk ProofRef4.

Lemma ok_or_np {A} (o : option A) : ok_or o <> Panic.
Proof. destruct o; discriminate. Qed.
Lemma opt_ok_np {A B} (f : A -> outcome B) o : (forall x, f x <> Panic) -> opt_ok f o <> Panic.
Proof. intros H. destruct o as [x|]; cbn; [|discriminate]. specialize (H x). destruct (f x); cbn; congruence. Qed.
Lemma map_ok_np {A B} (f : A -> outcome B) l : (forall x, f x <> Panic) -> map_ok f l <> Panic.
Proof.
  intros H. induction l as [|x l IH]; cbn; [discriminate|]. specialize (H x). destruct (f x); cbn; try congruence.
  destruct (map_ok f l); cbn; congruence.
Qed.
Lemma transpose_np {A} (l : list (outcome A)) : Forall (fun x => x <> Panic) l -> transpose l <> Panic.
Proof. induction 1 as [|x l H F IH]; cbn; [discriminate|]. destruct x; cbn; try congruence. destruct (transpose l); cbn; congruence. Qed.
Create HintDb npdb.
Ltac np := repeat (first [ solve [auto 2 with npdb] | discriminate | apply ok_or_np | apply ensure_not_panic | apply numeric_parse_not_panic
  | apply parse_unsigned_not_panic | apply parse_signed_not_panic | apply c15_not_panic | apply se_parse_identifier_np
  | apply (proj1 (from_hungarian_not_panic _)) | apply omap_np | apply opt_ok_np; intros | apply map_ok_np; intros
  | apply ProofRef4.obind_not_panic; [|intros] ]).
Section NP.
  Variables (rf : str -> option Z).
  Lemma act_of_grammar_np a : act_of_grammar rf a <> Panic.
  Proof. unfold act_of_grammar. np. Qed.
  #[local] Hint Resolve act_of_grammar_np : npdb.
  Lemma new_abbrevs_np r : get_new_abbreviations rf r <> Panic.
  Proof.
    apply transpose_np; try apply Forall_forall. intros x I. apply in_flat_map in I. destruct I as (a & _ & I).
    destruct a as [[i [s|]]|s p]; cbn in I; try tauto. destruct I as [<-|[]]. apply omap_np, act_of_grammar_np.
  Qed.
  #[local] Hint Resolve new_abbrevs_np : npdb.
  Lemma subtitle_part_np s : subtitle_part s <> Panic.
  Proof. unfold subtitle_part. destruct (gsp_id s); np. destruct (gsp_start s), (gsp_end s); np. Qed.
  #[local] Hint Resolve subtitle_part_np : npdb.
  Lemma struct_kind_np k : struct_kind rf k <> Panic.
  Proof. destruct k; cbn [struct_kind]; try (apply omap_np, se_parse_identifier_np); [apply subtitle_part_np|discriminate]. Qed.
  #[local] Hint Resolve struct_kind_np : npdb.
  Lemma struct_ref_np g : struct_ref_of rf g <> Panic.
  Proof. unfold struct_ref_of. np; first [apply se_parse_identifier_np|apply struct_kind_np]. Qed.
  #[local] Hint Resolve struct_ref_np : npdb.
  Lemma struct_parent_np g : struct_parent_of rf g <> Panic.
  Proof. unfold struct_parent_of. np; try apply struct_kind_np. Qed.
  #[local] Hint Resolve struct_parent_np : npdb.
  Lemma single_article_np s : ModelSem.single_article s <> Panic.
  Proof.
    rewrite single_read. unfold first_article. pose proof (read_article_np (gs_part s)). destruct (read_article (gs_part s)) as [[]| |]; congruence.
  Qed.
  #[local] Hint Resolve single_article_np : npdb.
  Lemma relative_element_np r : relative_element r <> Panic.
  Proof. destruct r; apply omap_np, single_article_np. Qed.
  #[local] Hint Resolve relative_element_np : npdb.
  Lemma convert_act_np c a : convert_act_reference rf c a <> Panic.
  Proof. rewrite act_denoted. apply denoted_np. Qed.
  #[local] Hint Resolve convert_act_np : npdb.
  Lemma block_references_np c x : block_references rf c x <> Panic.
  Proof. rewrite block_run. apply omap_np, run_not_panic, root_np. Qed.
  #[local] Hint Resolve block_references_np : npdb.
  Lemma convert_block_np c x : convert_block_amendment rf c x <> Panic.
  Proof.
    unfold convert_block_amendment. apply ProofRef4.obind_not_panic; [apply block_references_np|intros refs _]. np.
    match goal with |- context [get_last_part ?p] => destruct (get_last_part p) end; np; try apply struct_parent_np.
  Qed.
  #[local] Hint Resolve convert_block_np : npdb.
  Lemma convert_structural_phrase_np c x : convert_structural_amendment rf c x <> Panic.
  Proof.
    unfold convert_structural_amendment. apply ProofRef4.obind_not_panic; [apply convert_act_np|intros a _].
    destruct (gbt_parent x), (gbt_book x); np; try apply struct_parent_np; try apply struct_ref_np; apply se_parse_identifier_np.
  Qed.
  #[local] Hint Resolve convert_structural_phrase_np : npdb.
  Lemma convert_subtitle_np c x : convert_subtitle_amendment rf c x <> Panic.
  Proof.
    unfold convert_subtitle_amendment. apply ProofRef4.obind_not_panic; [|intros; np; first [apply struct_parent_np|apply convert_act_np]].
    destruct (gws_article (gbs_ref x)); [apply omap_np, single_article_np|]. destruct (gbs_relative x); [apply relative_element_np|].
    destruct (gws_title (gbs_ref x)); [discriminate|]. destruct (gws_id (gbs_ref x)); [np|]. destruct (gbs_insertion x); discriminate.
  Qed.
  #[local] Hint Resolve convert_subtitle_np : npdb.
  Lemma convert_ta_ref_np a t b : convert_ta_ref rf a t b <> Panic.
  Proof.
    destruct t as [s|p ch|l|r o|]; cbn [convert_ta_ref].
    - rewrite feed_single_run. apply ProofRef4.obind_not_panic; [apply run_not_panic, single_np|discriminate].
    - unfold ta_struct_ref. np. destruct ch; np.
    - np.
    - rewrite feed_ref_run. apply ProofRef4.obind_not_panic; [apply run_not_panic, ref_np|discriminate].
    - discriminate.
  Qed.
  #[local] Hint Resolve convert_ta_ref_np : npdb.
  Lemma ta_loop_np a l : forall b, convert_ta_loop rf a l b <> Panic.
  Proof. induction l as [|t l IH]; intros b; cbn; [discriminate|]. np; first [apply convert_ta_ref_np|apply IH]. Qed.
  #[local] Hint Resolve ta_loop_np : npdb.
  Lemma feed_act_np c a b : feed_act rf c a b <> Panic.
  Proof. rewrite feed_act_run. apply run_not_panic, act_np. Qed.
  #[local] Hint Resolve feed_act_np : npdb.
  Lemma ta_references_np c a l : convert_ta_references rf c a l <> Panic.
  Proof. unfold convert_ta_references. np; first [apply convert_act_np|apply feed_act_np|apply ta_loop_np]. Qed.
  #[local] Hint Resolve ta_references_np : npdb.
  Lemma convert_date_np d : convert_date d <> Panic.
  Proof. unfold convert_date. np. unfold month_from_hungarian. destruct (ModelText.position _ _); np. Qed.
  #[local] Hint Resolve convert_date_np : npdb.
  Lemma convert_ordinal_np d : convert_ordinal d <> Panic.
  Proof. destruct d; cbn; np. Qed.
  #[local] Hint Resolve convert_ordinal_np : npdb.
  Lemma convert_ed_date_np d : convert_ed_date d <> Panic.
  Proof. destruct d as [[|]| |]; cbn; np; try apply convert_ordinal_np; try apply convert_date_np. Qed.
  #[local] Hint Resolve convert_ed_date_np : npdb.
  Lemma feed_ref_np r b : feed_ref r b <> Panic.
  Proof. rewrite feed_ref_run. apply run_not_panic, ref_np. Qed.
  #[local] Hint Resolve feed_ref_np : npdb.
  Lemma convert_ed_refs_np l : forall b acc, convert_ed_refs rf l b acc <> Panic.
  Proof.
    induction l as [|[g|ss|x|] l IH]; intros b acc; cbn; np; auto.
  Qed.
  #[local] Hint Resolve convert_ed_refs_np : npdb.
  Lemma special_phrase_np c r : extract_special_phrase rf c r <> Panic.
  Proof.
    destruct r as [x|x|x|x|x|x|l]; cbn [extract_special_phrase]; try apply omap_np; [..|discriminate].
    - apply convert_block_np.
    - apply convert_subtitle_np.
    - apply convert_structural_phrase_np.
    - unfold convert_text_amendment. np; first [apply feed_act_np|apply ta_references_np].
    - unfold convert_enforcement. np; first [apply convert_ed_refs_np|apply convert_ed_date_np|apply convert_date_np].
    - unfold convert_repeal, convert_element_repeal. destruct (is_empty (gre_texts x)); np; try apply ta_references_np; try apply feed_act_np.
      + destruct x0 as [? []| |]; discriminate.
      + destruct (is_empty (gre_refs x)); np; try apply convert_act_np.
  Qed.
  #[local] Hint Resolve special_phrase_np : npdb.
  Variable gp : str -> list str -> outcome g_root.
  (** What is true of the abbreviations all the time *)
  Variable I : cache -> Prop.
  Hypothesis G : forall s c, I c -> gp s (all_abbreviations c) <> Panic.
  Hypothesis K : forall s c r new, I c -> gp s (all_abbreviations c) = Ok r -> get_new_abbreviations rf r = Ok new -> I (cache_add_multiple new c).
  Notation J st := (I (ad_cache st)).
  Lemma extract_np t st : J st -> snd (extract_semantic_info rf gp t st) <> Panic /\ J (fst (extract_semantic_info rf gp t st)).
  Proof.
    intros H. unfold extract_semantic_info. cbn zeta. pose proof (G (assemble (top (ad_prefix st)) t (top (ad_postfix st))) (ad_cache st) H) as P.
    pose proof (K (assemble (top (ad_prefix st)) t (top (ad_postfix st))) (ad_cache st)) as Q.
    destruct (gp _ _) as [r| |]; cbn; try (split; [congruence|exact H]).
    pose proof (new_abbrevs_np r) as N. specialize (Q r). destruct (get_new_abbreviations rf r) as [new| |]; cbn; try (split; [congruence|exact H]).
    split; [|now apply Q]. np; first [apply c37_no_panic|apply special_phrase_np].
  Qed.
  Definition fine {A} (r : (A * adder) * outcome unit) : Prop := snd r <> Panic /\ J (snd (fst r)).
  Lemma fine_list {A} (f : A -> adder -> (A * adder) * outcome unit) l : (forall x st, J st -> fine (f x st)) -> forall st, J st -> fine (mut_list f l st).
  Proof.
    intros H. induction l as [|x l IH]; intros st S; [split; [discriminate|exact S]|]. cbn. specialize (H x st S).
    destruct (f x st) as [[x' s'] [[]| |]]; destruct H as [H H']; cbn in H, H'; try (split; cbn; [congruence|exact H']).
    specialize (IH s' H'). destruct (mut_list f l s') as [[l2 s2] o]. exact IH.
  Qed.
  Lemma fine_map {A B} (h : A -> B) r : fine r -> fine (mut_map h r).
  Proof. destruct r as [[x s] o]. exact (fun H => H). Qed.
  Lemma fine_elem k wc base r e st : relative_to (own_ref k (s_id e)) base = Ok r -> (forall c st, J st -> fine (wc r c st)) -> J st ->
    fine (mut_elem (sem_visitor rf gp) k wc base e st).
  Proof.
    intros R H S. unfold mut_elem. rewrite R. cbn [sem_visitor on_enter_mut on_exit_mut]. unfold sem_enter.
    assert (X : forall e st, J st -> fine (sem_exit k r e st)) by (intros e0 st0 S0; unfold fine, sem_exit; destruct (s_body e0); (split; [discriminate|exact S0])).
    destruct (s_body e) as [t|i c w] eqn:B.
    - destruct (extract_np t st S) as [P Q]. destruct (extract_semantic_info rf gp t st) as [st' [i| |]]; cbn in P, Q; [|split; [discriminate|exact Q]|congruence].
      cbn [and_then fst snd with_info s_body]. rewrite B. cbn [and_then fst snd]. now apply X.
    - destruct (extract_np i st S) as [P Q]. destruct (extract_semantic_info rf gp i st) as [st' [inf| |]]; cbn in P, Q; [|split; [discriminate|exact Q]|congruence].
      cbn [and_then fst snd with_info s_body]. rewrite B. cbn [and_then fst snd].
      match goal with |- context [wc r c ?s] => specialize (H c s Q); destruct (wc r c s) as [[c' s'] [[]| |]] end; destruct H as [H H']; cbn in H, H'; cbn [and_then fst snd];
        [now apply X|split; [discriminate|exact H']|congruence].
  Qed.
  Lemma fine_par c a e st : J st -> fine (mut_elem (sem_visitor rf gp) ModelWalk.KPar (mut_par_children (sem_visitor rf gp)) (pos_article c a) e st).
  Proof.
    intros S. apply (fine_elem ModelWalk.KPar) with (r := pos_par c a (s_id e)); [apply rel_par| |exact S].
    intros [l|l|l|b|b] s; cbn [mut_par_children]; try (intros S'; split; [discriminate|exact S']); intros S'; apply fine_map, fine_list; try exact S'; intros x s' S2.
    - apply (fine_elem ModelWalk.KAlpha) with (r := pos_point c a (s_id e) (at_alpha (s_id x))); [apply rel_alpha| |exact S2].
      intros [l'|l'] s2 S3; cbn [mut_alpha_children]; apply fine_map, fine_list; try exact S3; intros y s3 S4.
      + eapply (fine_elem ModelWalk.KAlphaSub); [apply rel_sub; try reflexivity; apply plain_alpha|intros []|exact S4].
      + eapply (fine_elem ModelWalk.KNumSub); [apply rel_sub; try reflexivity; apply plain_alpha|intros []|exact S4].
    - apply (fine_elem ModelWalk.KNum) with (r := pos_point c a (s_id e) (at_num (s_id x))); [apply rel_num| |exact S2].
      intros [l'] s2 S3; cbn [mut_num_children]; apply fine_map, fine_list; try exact S3; intros y s3 S4.
      eapply (fine_elem ModelWalk.KAlphaSub); [apply rel_sub; try reflexivity; apply plain_num|intros []|exact S4].
  Qed.
  Lemma fine_article c x st : J st -> fine (mut_article (sem_visitor rf gp) (ref_of_act c) x st).
  Proof. intros S. unfold mut_article. rewrite rel_article. apply fine_map, fine_list; [|exact S]. intros. now apply fine_par. Qed.
  Lemma invariant_no_panic a : I (cache_from (ac_abbrevs a)) -> snd (add_semantic_info rf gp a) <> Panic.
  Proof.
    intros S. assert (F : forall st, J st -> fine (mut_act (sem_visitor rf gp) a st)).
    { intros st S'. unfold mut_act. apply fine_map, fine_list; [|exact S']. intros [e|t|x] s S2; cbn [mut_child]; try (split; [discriminate|exact S2]). now apply fine_map, fine_article. }
    unfold add_semantic_info. specialize (F (mkAdder [] [] (cache_from (ac_abbrevs a))) S).
    destruct (mut_act _ _ _) as [[a' s] [[]| |]]; destruct F as [F _]; cbn in *; congruence.
  Qed.
  Lemma on_article_fst {T} i (f : article -> article * T) l l' t : on_article i f l = Some (l', t) -> exists x, snd (f x) = t.
  Proof.
    revert l'. induction l as [|[e|u|x] l IH]; intros l'; cbn; [discriminate|..].
    1,2: destruct (on_article i f l) as [[l2 t2]|]; [|discriminate]; intros [= <- <-]; now apply (IH l2).
    destruct (article_eqb (ar_ident x) i).
    - destruct (f x) as [x' t'] eqn:E. intros [= <- <-]. exists x. now rewrite E.
    - destruct (on_article i f l) as [[l2 t2]|]; [|discriminate]; intros [= <- <-]; now apply (IH l2).
  Qed.
  Lemma invariant_no_panic_article i a : I (cache_from (ac_abbrevs a)) -> snd (add_semantic_info_to_article rf gp i a) <> Panic.
  Proof.
    intros S. unfold add_semantic_info_to_article. destruct (on_article _ _ _) as [[l [s [[]| |]]]|] eqn:E; try discriminate.
    apply on_article_fst in E as (x & E). pose proof (fine_article (ac_id a) x (mkAdder [] [] (cache_from (ac_abbrevs a))) S) as [F _].
    destruct (mut_article _ _ _ _) as [[x' s'] o]. cbn in *. congruence.
  Qed.
End NP.
Lemma c50_no_panic rf gp : (forall s known, gp s known <> Panic) -> forall a, snd (add_semantic_info rf gp a) <> Panic.
Proof. intros G a. apply (invariant_no_panic rf gp (fun _ => True)); auto. Qed.
Lemma c50_no_panic_article rf gp : (forall s known, gp s known <> Panic) -> forall i a, snd (add_semantic_info_to_article rf gp i a) <> Panic.
Proof. intros G i a. apply (invariant_no_panic_article rf gp (fun _ => True)); auto. Qed.
Lemma kept_in_own t text own out k : sentence t text -> trimmed conjunctions (t_own t) own ->
  kept (utf8_len (t_before t)) (utf8_len text - utf8_len (t_after t)) out k ->
  Forall (fun o => (0 < o_end o <= utf8_len (own_sentence t own))%N) k.
Proof.
  intros S T K. apply kept_inside in K. rewrite (sentence_shape _ _ _ S T), !utf8_len_app in K.
  eapply Forall_impl; [|exact K]. cbn. intros o. lia.
Qed.
Lemma read_date_unique g d d' : read_date g d -> read_date g d' -> d = d'.
Proof. intros (A & B & C & _) (A' & B' & C' & _). destruct d, d'; cbn in *. congruence. Qed.
Lemma read_ed_date_unique g d d' : read_ed_date g d -> read_ed_date g d' -> d = d'.
Proof.
  intros H K. apply ed_date_spec in H. apply ed_date_spec in K. congruence.
Qed.
