(** What the program makes of texts can be stored: all steps together. *)
From Verif Require Import SpecKeep ProofIdent2 ProofSem ProofSem5 ProofSave ProofInform ProofKeep ProofKeep2 ProofGrammar4.
From Coq Require Import Lia.

(** ** An act fits if it fits without its semantic information and the information fits *)
Section Split.
Variable D : date -> Prop.
Lemma Forall_flat_iff {A B} (P : B -> Prop) (f : A -> list B) l : Forall P (flat_map f l) <-> Forall (fun x => Forall P (f x)) l.
Proof. induction l as [|x l IH]; cbn; [split; constructor|]. rewrite Forall_app, IH. split; [intros [A1 A2]; now constructor|intros H; inversion H; auto]. Qed.
Lemma sub_split {I} (P : I -> Prop) (e : sae I Empty_set) : sae_fits D P SpecSave.no_children e <-> sae_fits D P SpecSave.no_children (blank_sub e) /\ si_fits D (s_si e).
Proof.
  unfold sae_fits, blank_sub, SpecInform.blank. cbn. pose proof (si_default_fits D). destruct (s_body e) as [t|i [] w]; cbn; intuition.
Qed.
Lemma lists_split {A} (P : A -> Prop) (g : A -> A) (f : A -> node) l : (forall x, P x <-> P (g x) /\ Forall (si_fits D) (node_infos (f x))) ->
  (Forall P l <-> Forall P (map g l) /\ Forall (si_fits D) (flat_map node_infos (map f l))).
Proof.
  intros H. rewrite Forall_flat_iff. rewrite !Forall_map. induction l as [|x l IH]; [split; [split; constructor|constructor]|].
  rewrite !Forall_cons_iff, IH, (H x). tauto.
Qed.
Lemma one_iff {A} (P : A -> Prop) x : Forall P [x] <-> P x. Proof. rewrite Forall_cons_iff. intuition. Qed.
Lemma alpha_sub_split c a p q x : alpha_sub_fits D x <-> alpha_sub_fits D (blank_sub x) /\ Forall (si_fits D) (node_infos (alpha_sub_node c a p q x)).
Proof. unfold alpha_sub_node. rewrite node_infos_is. cbn [flat_map]. rewrite one_iff. apply sub_split. Qed.
Lemma num_sub_split c a p q x : num_sub_fits D x <-> num_sub_fits D (blank_sub x) /\ Forall (si_fits D) (node_infos (num_sub_node c a p q x)).
Proof. unfold num_sub_node. rewrite node_infos_is. cbn [flat_map]. rewrite one_iff. apply sub_split. Qed.
Lemma elem_split {I C} (P : I -> Prop) (Q : C -> Prop) (h : C -> C) (e : sae I C) (X : Prop) :
  (body_fits Q (s_body e) <-> body_fits Q (s_body (SpecInform.blank h e)) /\ X) -> (sae_fits D P Q e <-> sae_fits D P Q (SpecInform.blank h e) /\ (si_fits D (s_si e) /\ X)).
Proof. intros H. unfold sae_fits at 1. rewrite H. unfold sae_fits. cbn [SpecInform.blank s_id s_si s_change]. pose proof (si_default_fits D). tauto. Qed.
Lemma alpha_split c a p x : alpha_fits D x <-> alpha_fits D (blank_alpha x) /\ Forall (si_fits D) (node_infos (alpha_node c a p x)).
Proof.
  unfold alpha_node. rewrite node_infos_is, Forall_cons_iff. apply elem_split. destruct x as [i [t|n [l|l] w] si ch]; cbn; [split; auto| |]; apply lists_split; intros; [apply alpha_sub_split|apply num_sub_split].
Qed.
Lemma num_split c a p x : num_fits D x <-> num_fits D (blank_num x) /\ Forall (si_fits D) (node_infos (num_node c a p x)).
Proof.
  unfold num_node. rewrite node_infos_is, Forall_cons_iff. apply elem_split. destruct x as [i [t|n [l] w] si ch]; cbn; [split; auto|]; apply lists_split; intros; apply alpha_sub_split.
Qed.
Lemma par_split n c a x : paragraph_fits D (S n) x <-> paragraph_fits D (S n) (blank_par x) /\ Forall (si_fits D) (node_infos (par_node c a x)).
Proof.
  unfold par_node. rewrite node_infos_is, Forall_cons_iff. apply elem_split. destruct x as [i [t|m [l|l|l|b|b] w] si ch]; cbn [blank_par SpecInform.blank s_body body_fits par_children_fit]; try (cbn [flat_map]; intuition; fail).
  - apply lists_split. intros. apply alpha_split.
  - apply lists_split. intros. apply num_split.
Qed.
Lemma children_split n i l : Forall (child_fits D (paragraph_fits D (S n))) l <-> Forall (child_fits D (paragraph_fits D (S n))) (map blank_child l) /\
  Forall (si_fits D) (flat_map (fun a => flat_map node_infos (map (par_node i (ar_ident a)) (ar_children a))) (articles_of l)).
Proof.
  induction l as [|ch l IH]; [cbn; split; [split; constructor|constructor]|]. cbn [map]. rewrite !Forall_cons_iff, IH. destruct ch as [e|t|a]; cbn [articles_of child_article].
  - cbn [blank_child child_fits]. tauto.
  - cbn [blank_child child_fits]. tauto.
  - cbn [blank_child child_fits flat_map]. rewrite Forall_app. unfold article_fits. cbn [blank_article ar_ident ar_children ar_change].
    rewrite (lists_split (paragraph_fits D (S n)) blank_par (par_node i (ar_ident a)) (ar_children a)) by (intros; apply par_split). tauto.
Qed.
Lemma act_split n a : act_fits D (S n) a <-> act_fits D (S n) (blank_act a) /\ Forall (si_fits D) (infos a).
Proof.
  rewrite infos_is. unfold act_fits, blank_act. cbn [ac_id ac_date ac_abbrevs ac_children]. pose proof (children_split n (ac_id a) (ac_children a)) as H. fold (act_articles a) in H.
  tauto.
Qed.
End Split.

Section Understood.
Variable D : date -> Prop.
Variable rf : str -> option Z.
Hypothesis RF : roman_i32 rf.
Hypothesis DF : has_dates D.
Lemma kept_fits b e l l' : kept b e l l' -> outs_fit l -> Forall (fun o => o_start o < 2 ^ 64 /\ o_end o < 2 ^ 64)%N l' -> Forall out_fits l'.
Proof.
  induction 1 as [|o l l' H K IH|o l l' H K IH]; intros F P; [constructor| |]; inversion F; subst; auto. inversion P as [|? ? [P1 P2] P3]; subst. constructor; auto. refine (conj P1 (conj P2 _)). assumption.
Qed.
Lemma understood_fits gp c t i c2 : understood rf gp c t i c2 -> cache_fits c -> (places_fit i -> si_fits D i) /\ cache_fits c2.
Proof.
  intros [text root new out k p S P A O K X] C. pose proof (new_gives rf RF root new A) as N. cbv beta in N. pose proof (add_fits new c N C) as C2. split; [|exact C2]. intros L. refine (conj _ (conj _ _)); cbn.
  - apply (kept_fits _ _ _ _ K); [exact (outgoing_give rf RF _ _ C2 _ O)|exact L].
  - split; [apply map_of_is_map|]. apply (map_of_forall (fun p => act_id_fits (snd p))). exact N.
  - pose proof (phrase_gives D rf RF DF _ _ C2 _ X) as F. cbv beta in F. intros y Y. apply F. revert Y. unfold phrase_kept. destruct (t_intro t); [|auto]. destruct p as [[]|]; auto; discriminate.
Qed.
Lemma worked_fits gp c ts old new o c' : worked rf gp c ts old new o c' -> cache_fits c -> Forall (si_fits D) old -> Forall places_fit new -> Forall (si_fits D) new /\ (o = Ok tt -> cache_fits c').
Proof.
  induction 1 as [c|c t ts i old new o c1 c2 j U W IH|c t ts old o c1 N NO L]; intros C F P; [auto| |split; [exact F|intros ->; now elim NO]].
  destruct (understood_fits gp c t i c1 U C) as [U1 U2]. inversion F; subst. inversion P; subst. destruct (IH U2) as [I1 I2]; auto.
Qed.
Lemma inform_fits gp n a : act_fits D (S n) a -> forall b o, add_semantic_info rf gp a = (b, o) -> Forall places_fit (infos b) -> act_fits D (S n) b.
Proof.
  intros A b o E P. apply act_split in A as [A1 A2]. pose proof (blank_rest rf gp a) as B. pose proof (c50_act rf gp a) as C. rewrite E in B, C. destruct C as (c' & W & _ & M).
  assert (CF : cache_fits (cache_from (ac_abbrevs a))) by apply A1. destruct (worked_fits _ _ _ _ _ _ _ W CF A2 P) as [I K]. apply act_split. split; [|exact I]. rewrite B.
  destruct A1 as (A1 & A3 & A4 & A5). refine (conj A1 (conj A3 (conj _ A5))). cbn. destruct o as [ch| |]; [|rewrite M; exact A4..]. destruct M as [-> _]. apply K. reflexivity.
Qed.
(** ** The places recorded *)
Lemma boundary_le t k : boundary t k -> (k <= utf8_len t)%N.
Proof. intros (x & y & -> & <-). rewrite ProofBase.utf8_len_app. lia. Qed.
Lemma cuttable_places t l : (utf8_len t < 2 ^ 64)%N -> forall lo, cuttable t lo l -> Forall (fun o => o_start o < 2 ^ 64 /\ o_end o < 2 ^ 64)%N l.
Proof.
  intros H. induction l as [|o l IH]; intros lo C; [constructor|]. destruct C as (_ & _ & B1 & B2 & C). apply boundary_le in B1, B2. constructor; [lia|]. exact (IH _ C).
Qed.
Lemma worked_places c ts old new o c' : worked rf grammar_parse c ts old new o c' -> named c -> Forall (fun t => utf8_len (t_own t) + 1 < 2 ^ 64)%N ts -> Forall places_fit old -> Forall places_fit new.
Proof.
  induction 1 as [c|c t ts i old new o c1 c2 j U W IH|c t ts old o c1 N NO L]; intros NM T F; auto. inversion T; subst. inversion F; subst.
  destruct (understood_printable rf c t i c1 NM U) as [[P _] NM1]. constructor; [|now apply IH]. cbn [fst snd] in P. apply (cuttable_places (t_own t ++ lit ".")) with (lo := 0%N); [|exact P].
  rewrite ProofBase.utf8_len_app. assumption.
Qed.
Lemma inform_places a b o : Forall (fun k => k <> []) (map fst (ac_abbrevs a)) -> texts_short a -> Forall places_fit (infos a) -> add_semantic_info rf grammar_parse a = (b, o) -> Forall places_fit (infos b).
Proof.
  intros N T P E. pose proof (c50_act rf grammar_parse a) as C. rewrite E in C. destruct C as (c' & W & _). apply (worked_places _ _ _ _ _ _ W); auto.
  apply (proj1 (Forall_map t_own (fun s => utf8_len s + 1 < 2 ^ 64)%N _)). rewrite tasks_texts. apply Forall_map. exact T.
Qed.
End Understood.

(** ** Acts cut from an issue *)
Section Issue.
Variable D : date -> Prop.
Variable rf : str -> option Z.
Hypothesis RF : roman_i32 rf.
Hypothesis DF : has_dates D.
Definition ext_fits (e : extractor) : Prop := D (e_date e) /\ act_id_fits (ar_id (e_cur e)) /\ Forall (raw_fits D) (e_result e).
Lemma header_fits l id : act_header rf l = Some id -> act_id_fits id.
Proof.
  unfold act_header. destruct (match_act_header (content l)) as [[y n]|]; [|discriminate]. destruct (parse_i16 y) as [y'| |] eqn:Y; try discriminate. destruct (rf n) as [k|] eqn:K; [|discriminate].
  intros E. injection E as <-. unfold act_id_fits, act_ok. cbn [act_year act_number]. apply ProofIdent3.parse_signed_range in Y. apply RF in K. lia.
Qed.
Lemma body_after_fits e l : ext_fits e -> ext_fits (body_after e l).
Proof.
  intros (A & B & C). unfold body_after. destruct (_ && _); refine (conj A (conj _ _)); cbn; auto; try reflexivity. apply Forall_app. split; [exact C|]. constructor; [|constructor]. now split.
Qed.
Lemma feed_line_fits e l : ext_fits e -> ext_fits (feed_line rf e l).
Proof.
  intros F. pose proof F as (A & B & C). unfold feed_line. destruct (e_state e).
  - exact F.
  - destruct (act_header rf l) as [id|] eqn:E; [|exact F]. refine (conj A (conj _ C)). exact (header_fits _ _ E).
  - destruct (ends_with _ _); exact F.
  - unfold body_before. destruct (_ && _); [exact F|]. pose proof (body_after_fits e l F) as G. destruct (e_state (body_after e l)); exact G.
  - now apply body_after_fits.
Qed.
Lemma pages_fit ps : forall st, ext_fits (fst (fst st)) -> ext_fits (fst (fst (fold_left (do_page rf) ps st))).
Proof.
  assert (L : forall st l, ext_fits (fst (fst st)) -> ext_fits (fst (fst (page_line rf st l)))).
  { intros [[e x] s] l F. cbn [fst] in F. unfold page_line. destruct (is_section_start l); [exact F|]. destruct (is_section_end l); [exact F|]. destruct (x || _); [now apply feed_line_fits|exact F]. }
  assert (E : forall st, ext_fits (fst (fst st)) -> ext_fits (fst (fst (page_end rf st)))).
  { intros [[e x] s] F. cbn [fst] in F. unfold page_end. destruct x; [now apply feed_line_fits|exact F]. }
  induction ps as [|p ps IH]; intros st F; cbn [fold_left]; [exact F|]. apply IH. unfold do_page. apply E. revert st F. induction p as [|l p IHp]; intros st F; cbn [fold_left]; auto.
Qed.
Lemma hungarian_date ud s d : date_from_hungarian ud s = Ok d -> D d.
Proof.
  unfold date_from_hungarian. destruct (match_date ud s) as [[[y m] dd]|]; [|discriminate]. destruct (parse_i32 y) as [y'| |]; cbn [obind]; try discriminate. destruct (month_from_hungarian m) as [m'| |]; cbn [obind]; try discriminate.
  destruct (parse_u32 dd) as [d'| |]; cbn [obind]; try discriminate. destruct (from_ymd y' m' d') as [x|] eqn:E; cbn; [|discriminate]. intros X. apply Ok_inj in X. subst x. exact (DF _ _ _ _ E).
Qed.
Lemma issue_fits ud pages acts : parse_mk_pages ud rf pages = Ok acts -> Forall (raw_fits D) acts.
Proof.
  unfold parse_mk_pages. destruct pages as [|p0 [|p1 ps]]; try discriminate. destruct (cover_page ud p0) as [d| |] eqn:E; cbn [obind]; try discriminate.
  assert (DD : D d).
  { revert E. unfold cover_page. destruct (ensure _); cbn [obind]; try discriminate. destruct p0 as [|l0 [|l1 [|l2 [|l3 p0]]]]; try discriminate. destruct (ensure _); cbn [obind]; try discriminate. apply hungarian_date. }
  assert (F : ext_fits (fst (fst (ext_new d, false, false)))) by (refine (conj DD (conj eq_refl _)); constructor).
  apply (pages_fit (p0 :: p1 :: ps)) in F. destruct (fold_left _ _ _) as [[e x] s]. intros X. apply Ok_inj in X. subst acts. apply Forall_map. exact (proj2 (proj2 F)).
Qed.
End Issue.

(** ** All steps *)
Section Made.
Variable D : date -> Prop.
Variable rf : str -> option Z.
Hypothesis RF : roman_i32 rf.
Hypothesis DF : has_dates D.
Variable up : char -> bool.
Lemma structure_bare raw a : parse_act_structure rf up raw = Ok a -> ac_abbrevs a = [].
Proof. unfold parse_act_structure. destruct (parse_complex_body _ _ _ _) as [[pre cs]| |]; cbn; try discriminate. intros X. apply Ok_inj in X. now subst a. Qed.
Lemma fits_places i : si_fits D i -> places_fit i.
Proof. intros (A & _). revert A. apply Forall_impl. intros o (X & Y & _). auto. Qed.
Lemma made_fits raw a n : raw_fits D raw -> (forall s, parse_act_structure rf up raw = Ok s -> texts_short s) -> act_made rf up grammar_parse raw a -> act_fits D (S (S n)) a.
Proof.
  intros [R1 R2] T M.
  assert (B : forall s b o, parse_act_structure rf up raw = Ok s -> add_semantic_info rf grammar_parse s = (b, o) -> act_fits D (S (S n)) b).
  { intros s b o PS A. pose proof (structure_fits D (S n) rf up raw s PS R1 R2) as F. apply (inform_fits D rf RF DF grammar_parse (S n) s F b o A).
    apply (inform_places rf s b o); auto.
    - rewrite (structure_bare raw s PS). constructor.
    - apply act_split in F as [_ F]. revert F. apply Forall_impl. exact fits_places. }
  destruct M as [s PS|s b o PS A|s b c o o' PS A C].
  - exact (structure_fits D (S n) rf up raw s PS R1 R2).
  - exact (B s b o PS A).
  - pose proof (convert_fits D n rf up b (B s b o PS A)) as F. rewrite C in F. exact F.
Qed.
Lemma made_stored dp raw a n : reads_dates D dp -> raw_fits D raw -> (forall s, parse_act_structure rf up raw = Ok s -> texts_short s) -> act_made rf up grammar_parse raw a ->
  get_act dp (S (S n)) (put_act a) = Ok a.
Proof. intros R F T M. apply (save_roundtrip D); [exact R|]. now apply (made_fits raw). Qed.
End Made.
