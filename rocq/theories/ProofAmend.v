(** Proofs for C65: block amendments, special phrases and new abbreviations. *)
From Verif Require Export SpecAmend ProofSem4 ProofRef2 ProofRef5.
From Coq Require Import Lia.

(** ** The first and the last one *)
Definition ref_le (x y : reference) : Prop := x = y \/ reference_before x y.
Lemma ref_le_cmp x y : ref_le x y <-> ref_cmp x y <> Gt.
Proof.
  unfold ref_le. rewrite <- ref_lt. destruct c05_references as [(E & _ & _ & _) _]. rewrite <- (E x y). destruct (ref_cmp x y); split; auto; try (intros [H|H]); congruence.
Qed.
Lemma ref_le_refl x : ref_le x x. Proof. now left. Qed.
Lemma ref_le_trans x y z : ref_le x y -> ref_le y z -> ref_le x z.
Proof.
  unfold ref_le. rewrite <- !ref_lt. destruct c05_references as [(_ & _ & _ & T) _]. intros [->|A] [->|B]; auto. right. eapply T; eauto.
Qed.
Lemma ref_le_antisym x y : ref_le x y -> ref_le y x -> x = y.
Proof.
  rewrite !ref_le_cmp. destruct c05_references as [(E & _ & A & _) _]. rewrite (A x y). destruct (ref_cmp x y) eqn:C; cbn; try congruence. intros _ _. now apply E.
Qed.
Lemma ref_gt_le x y : ref_cmp x y = Gt -> ref_le y x.
Proof. intros C. apply ref_le_cmp. destruct c05_references as [(_ & _ & A & _) _]. rewrite (A x y), C. discriminate. Qed.
Lemma ref_min_le x y : ref_le (ref_min x y) x /\ ref_le (ref_min x y) y /\ (ref_min x y = x \/ ref_min x y = y).
Proof.
  unfold ref_min. destruct (ref_cmp x y) eqn:C.
  1,2: split; [apply ref_le_refl|]; split; [apply ref_le_cmp; congruence|auto].
  split; [now apply ref_gt_le|]. split; [apply ref_le_refl|auto].
Qed.
Lemma ref_max_le x y : ref_le x (ref_max x y) /\ ref_le y (ref_max x y) /\ (ref_max x y = x \/ ref_max x y = y).
Proof.
  unfold ref_max. destruct (ref_cmp x y) eqn:C.
  1,2: split; [apply ref_le_cmp; congruence|]; split; [apply ref_le_refl|auto].
  split; [apply ref_le_refl|]. split; [now apply ref_gt_le|auto].
Qed.
Lemma fold_min l : forall x, In (fold_left ref_min l x) (x :: l) /\ Forall (ref_le (fold_left ref_min l x)) (x :: l).
Proof.
  induction l as [|y l IH]; intros x; cbn [fold_left].
  - split; [now left|]. constructor; [apply ref_le_refl|constructor].
  - destruct (IH (ref_min x y)) as [I F]. destruct (ref_min_le x y) as (A & B & C). inversion F as [|? ? F0 F1]; subst. split.
    + destruct I as [I|I]; [|right; right; exact I]. destruct C as [C|C]; [left|right; left]; congruence.
    + constructor; [now apply ref_le_trans with (ref_min x y)|]. constructor; [now apply ref_le_trans with (ref_min x y)|exact F1].
Qed.
Lemma fold_max l : forall x, In (fold_left ref_max l x) (x :: l) /\ Forall (fun y => ref_le y (fold_left ref_max l x)) (x :: l).
Proof.
  induction l as [|y l IH]; intros x; cbn [fold_left].
  - split; [now left|]. constructor; [apply ref_le_refl|constructor].
  - destruct (IH (ref_max x y)) as [I F]. destruct (ref_max_le x y) as (A & B & C). inversion F as [|? ? F0 F1]; subst. split.
    + destruct I as [I|I]; [|right; right; exact I]. destruct C as [C|C]; [left|right; left]; congruence.
    + constructor; [now apply ref_le_trans with (ref_max x y)|]. constructor; [now apply ref_le_trans with (ref_max x y)|exact F1].
Qed.
Lemma starts_first f r : starts f r <-> f = first_in_range r.
Proof. split; [intros H; apply part_ext; intros l; now rewrite H, first_part|intros -> l; apply first_part]. Qed.
Lemma ends_last f r : ends f r <-> f = last_in_range r.
Proof. split; [intros H; apply part_ext; intros l; now rewrite H, last_part|intros -> l; apply last_part]. Qed.
Lemma earliest_spec rs f : fold1 ref_min (map first_in_range rs) = Some f <-> earliest rs f.
Proof.
  assert (X : forall f, fold1 ref_min (map first_in_range rs) = Some f -> earliest rs f).
  { intros g. destruct rs as [|r rs]; [discriminate|]. cbn [map fold1]. intros E. injection E as <-.
    destruct (fold_min (map first_in_range rs) (first_in_range r)) as [I F]. set (g := fold_left _ _ _) in *. clearbody g.
    change (first_in_range r :: map first_in_range rs) with (map first_in_range (r :: rs)) in *. rewrite Forall_forall in F. split.
    - apply in_map_iff in I. destruct I as (r0 & <- & I). exists r0. split; [exact I|now apply starts_first].
    - intros r0 h I0 S. apply starts_first in S. subst h. destruct (F (first_in_range r0)) as [E|L]; auto using in_map. }
  split; [apply X|]. intros E. destruct (fold1 ref_min (map first_in_range rs)) as [g|] eqn:G.
  - specialize (X g eq_refl). f_equal. destruct E as [(r & I & S) M], X as [(r' & I' & S') M']. apply ref_le_antisym; unfold ref_le.
    + destruct (M' _ _ I S); auto.
    + destruct (M _ _ I' S'); auto.
  - destruct E as [(r & I & S) M]. destruct rs; [destruct I|discriminate].
Qed.
Lemma latest_spec rs f : fold1 ref_max (map last_in_range rs) = Some f <-> latest rs f.
Proof.
  assert (X : forall f, fold1 ref_max (map last_in_range rs) = Some f -> latest rs f).
  { intros g. destruct rs as [|r rs]; [discriminate|]. cbn [map fold1]. intros E. injection E as <-.
    destruct (fold_max (map last_in_range rs) (last_in_range r)) as [I F]. set (g := fold_left _ _ _) in *. clearbody g.
    change (last_in_range r :: map last_in_range rs) with (map last_in_range (r :: rs)) in *. rewrite Forall_forall in F. split.
    - apply in_map_iff in I. destruct I as (r0 & <- & I). exists r0. split; [exact I|now apply ends_last].
    - intros r0 h I0 S. apply ends_last in S. subst h. destruct (F (last_in_range r0)) as [E|L]; auto using in_map. }
  split; [apply X|]. intros E. destruct (fold1 ref_max (map last_in_range rs)) as [g|] eqn:G.
  - specialize (X g eq_refl). f_equal. destruct E as [(r & I & S) M], X as [(r' & I' & S') M']. apply ref_le_antisym; unfold ref_le.
    + destruct (M _ _ I' S'); auto.
    + destruct (M' _ _ I S); auto.
  - destruct E as [(r & I & S) M]. destruct rs; [destruct I|discriminate].
Qed.

(** ** The position *)
Definition position_of (said : list reference) : outcome reference :=
  let all := filter (fun r => negb (is_act_only r)) said in
  let* first := ok_or (fold1 ref_min (map first_in_range all)) in
  let* last := ok_or (fold1 ref_max (map last_in_range all)) in
  make_range first last.
Lemma in_articles said r : In r (filter (fun r => negb (is_act_only r)) said) <-> In r said /\ present r LArticle.
Proof.
  rewrite filter_In. unfold is_act_only, present. cbn. destruct (f_article r); cbn; intuition congruence.
Qed.
Lemma earliest_ext rs rs' f : (forall r, In r rs <-> In r rs') -> earliest rs f -> earliest rs' f.
Proof. intros H [(r & I & S) M]. split; [exists r; split; [now apply H|exact S]|]. intros r0 g I0. apply M. now apply H. Qed.
Lemma latest_ext rs rs' f : (forall r, In r rs <-> In r rs') -> latest rs f -> latest rs' f.
Proof. intros H [(r & I & S) M]. split; [exists r; split; [now apply H|exact S]|]. intros r0 g I0. apply M. now apply H. Qed.
Lemma position_spec said p : Forall well_formed said -> position_of said = Ok p <-> amended_position said p.
Proof.
  intros W. unfold position_of, amended_position. set (all := filter _ said).
  assert (WF : forall f, earliest all f -> well_formed f).
  { intros f [(r & I & S) _]. apply starts_first in S. subst. apply wf_first. rewrite Forall_forall in W. apply W. now apply in_articles in I. }
  assert (WL : forall f, latest all f -> well_formed f).
  { intros f [(r & I & S) _]. apply ends_last in S. subst. apply wf_last. rewrite Forall_forall in W. apply W. now apply in_articles in I. }
  split.
  - destruct (fold1 ref_min (map first_in_range all)) as [f|] eqn:F; cbn [ok_or obind]; [|discriminate].
    destruct (fold1 ref_max (map last_in_range all)) as [l|] eqn:L; cbn [ok_or obind]; [|discriminate].
    apply earliest_spec in F. apply latest_spec in L. intros H. apply c15_make_range in H; auto.
    exists all, f, l. split; [apply in_articles|]. auto.
  - intros (rs & f & l & I & F & L & S).
    assert (I' : forall r, In r rs <-> In r all) by (intros r; rewrite I; symmetry; apply in_articles).
    apply (earliest_ext _ all) in F; auto. apply (latest_ext _ all) in L; auto.
    pose proof (WF _ F). pose proof (WL _ L).
    apply earliest_spec in F. apply latest_spec in L. rewrite F, L. cbn [ok_or obind]. now apply c15_make_range.
Qed.
Lemma recorded_wf ps s e evs l : recorded ps s e evs l -> Forall well_formed (map o_ref l).
Proof. induction 1; cbn; auto. constructor; auto. now apply (try_ref_ok r r). Qed.
Lemma last_article r : finest r LArticle \/ ~ finest r LArticle /\ forall a, get_last_part r <> PartArticle a.
Proof.
  destruct (get_last_part r) as [|x|a|x|x|x] eqn:G; try (right; split; [|congruence]; intros F; rewrite (c17_last _ _ F) in G; cbn in G; destruct (f_article r) eqn:A; [discriminate|destruct F as [P _]; unfold present in P; cbn in P; rewrite A in P; congruence]).
  left. unfold get_last_part in G. destruct (f_subpoint r) eqn:E1; [discriminate|]. destruct (f_point r) eqn:E2; [discriminate|].
  destruct (f_paragraph r) eqn:E3; [discriminate|]. destruct (f_article r) eqn:E4.
  - split; [unfold present; cbn; rewrite E4; discriminate|]. intros [] F P; unfold finer in F; cbn in F; try lia; unfold present in P; cbn in P; rewrite ?E1, ?E2, ?E3 in P; congruence.
  - destruct (f_act r); discriminate.
Qed.

Section Phrase.
  Variables (rf : str -> option Z) (c : cache).
  Lemma none_match {A} (o : option A) : is_none o = match o with None => true | Some _ => false end.
  Proof. now destruct o. Qed.
  Lemma block_spec x p : convert_block_amendment rf c x = Ok p <-> block_meaning rf (ca_map c) x p.
  Proof.
    pose proof (fun l => c37_meaning rf c (RBlock x) l eq_refl) as R. cbn [get_outgoing_references] in R.
    assert (E : convert_block_amendment rf c x =
      let* refs := block_references rf c x in
      let* position := position_of (map o_ref refs) in
      match get_last_part position with
      | PartArticle a =>
          let* p := opt_ok (struct_parent_of rf) (gb_parent x) in
          Ok (PhStructural (mkSbaPhrase (mkSRef (f_act position) None p (SeArticle a) false) (is_none (gb_amended x))))
      | _ => Ok (PhBlock (mkBaPhrase position (is_none (gb_amended x))))
      end).
    { unfold convert_block_amendment, position_of. destruct (block_references rf c x); cbn [obind]; auto.
      destruct (fold1 ref_min _); cbn [ok_or obind]; auto. destruct (fold1 ref_max _); cbn [ok_or obind]; auto. }
    rewrite E, none_match. clear E. split.
    - destruct (block_references rf c x) as [refs| |]; cbn [obind]; try discriminate. specialize (R refs). apply proj1 in R. specialize (R eq_refl).
      destruct (position_of (map o_ref refs)) as [q| |] eqn:P; cbn [obind]; try discriminate. apply position_spec in P; [|exact (recorded_wf _ _ _ _ _ R)].
      destruct (last_article q) as [F|[F N]].
      + rewrite (c17_last _ _ F). cbn [part]. destruct (f_article q) as [a|] eqn:A; [|destruct F as [F _]; unfold present in F; cbn in F; rewrite A in F; congruence].
        destruct (opt_ok _ _) as [z| |] eqn:Z; cbn [obind]; try discriminate. intros H. injection H as <-. apply parent_spec in Z. econstructor; eauto.
      + intros H. assert (p = PhBlock (mkBaPhrase q (match gb_amended x with None => true | Some _ => false end))) as -> by (destruct (get_last_part q) eqn:G; try congruence; now destruct (N a)).
        econstructor; eauto.
    - intros H. destruct H as [refs q a z Rl P F A Z|refs q Rl P F]; pose proof (recorded_wf _ _ _ _ _ Rl) as W; apply R in Rl; rewrite Rl; cbn [obind];
      apply position_spec in P; auto; rewrite P; cbn [obind].
      + rewrite (c17_last _ _ F). cbn [part]. rewrite A. apply parent_spec in Z. rewrite Z. reflexivity.
      + destruct (last_article q) as [F'|[_ N]]; [contradiction|]. destruct (get_last_part q) eqn:G; auto. now destruct (N a).
  Qed.
  Lemma structural_spec x p : convert_structural_amendment rf c x = Ok p <-> structural_meaning rf (ca_map c) x (PhStructural p).
  Proof.
    unfold convert_structural_amendment. rewrite act_denoted.
    assert (E : forall a, match gbt_parent x with
        | Some p => let* p := struct_parent_of rf p in let* s := struct_ref_of rf (gbt_ref x) in Ok (with_parent (Some p) (with_act (Some a) s))
        | None => let* s := struct_ref_of rf (gbt_ref x) in Ok (with_act (Some a) s)
        end = let* q := opt_ok (struct_parent_of rf) (gbt_parent x) in
              let* s := omap (with_act (Some a)) (struct_ref_of rf (gbt_ref x)) in Ok (with_parent q s)).
    { intros a. destruct (gbt_parent x) as [g|]; cbn [opt_ok obind].
      - destruct (struct_parent_of rf g); cbn [obind]; auto. destruct (struct_ref_of rf (gbt_ref x)); reflexivity.
      - unfold struct_ref_of. destruct (opt_ok _ _); cbn [obind omap]; auto. destruct (struct_kind _ _); reflexivity. }
    assert (B : forall s, match gbt_book x with
        | Some b => let* n := book_of_grammar rf b in Ok (with_book (Some n) s)
        | None => Ok s
        end = let* b := read_book (gbt_book x) in Ok (match b with Some n => with_book (Some n) s | None => s end)).
    { intros s. rewrite <- (book_read rf). destruct (gbt_book x) as [g|]; cbn [opt_ok obind]; auto. destruct (book_of_grammar rf g); reflexivity. }
    split.
    - destruct (denoted_act _ _ _) as [a| |] eqn:D; cbn [obind]; try discriminate. rewrite E.
      destruct (opt_ok _ (gbt_parent x)) as [q| |] eqn:Q; cbn [obind]; try discriminate. apply parent_spec in Q.
      destruct (omap _ _) as [s| |] eqn:S; cbn [obind]; try discriminate. apply struct_ref_spec in S. rewrite B.
      destruct (read_book _) as [b| |] eqn:Bk; cbn [obind]; try discriminate. intros H. injection H as <-.
      pose proof (structural_block rf (ca_map c) x a s q b D S Q Bk) as K. inversion S; subst. destruct b; exact K.
    - intros H. inversion H as [a s q b D S Q Bk EQ]. rewrite D. cbn [obind]. rewrite E.
      pose proof S as S'. apply parent_spec in Q. rewrite Q. cbn [obind]. apply struct_ref_spec in S'. rewrite S'. cbn [obind]. rewrite B, Bk. cbn [obind].
      inversion S; subst. destruct b; reflexivity.
  Qed.
  Lemma subtitle_spec x p : convert_subtitle_amendment rf c x = Ok p <-> subtitle_meaning rf (ca_map c) x (PhStructural p).
  Proof.
    unfold convert_subtitle_amendment. rewrite act_denoted. set (o := match gws_article (gbs_ref x) with Some _ => _ | None => _ end).
    assert (O : forall e, o = Ok e <-> subtitle_named x e).
    { intros e. subst o. split.
      - destruct (gws_article (gbs_ref x)) as [s|] eqn:A.
        + rewrite single_read. destruct (first_article s) eqn:F; cbn; try discriminate. intros H. injection H as <-. eapply named_article; eauto.
        + destruct (gbs_relative x) as [r|] eqn:Rl; [rewrite relative_read; intros H; eapply named_relative; eauto|].
          destruct (gws_title (gbs_ref x)) as [t|] eqn:T; [intros H; injection H as <-; now eapply named_title|].
          destruct (gws_id (gbs_ref x)) as [i|] eqn:I.
          * destruct (numeric_parse i) eqn:N; cbn; try discriminate. intros H. injection H as <-. eapply named_id; eauto.
          * destruct (gbs_insertion x) eqn:Ins; try discriminate. intros H. injection H as <-. now apply named_new.
      - intros H. destruct H as [s a A F|r e A Rl F|t A Rl T|i n A Rl T I N|A Rl T I N]; rewrite A, ?Rl, ?T, ?I, ?N; try reflexivity.
        + now rewrite single_read, F.
        + now rewrite relative_read. }
    clearbody o. split.
    - destruct o as [e| |]; cbn [obind]; try discriminate. destruct (opt_ok _ _) as [q| |] eqn:Q; cbn [obind]; try discriminate. apply parent_spec in Q.
      destruct (denoted_act _ _ _) as [a| |] eqn:D; cbn [obind]; try discriminate. intros H. injection H as <-. constructor; auto. now apply O.
    - intros H. inversion H as [e q a N Q D EQ]. apply O in N. rewrite N. cbn [obind]. apply parent_spec in Q. rewrite Q. cbn [obind]. now rewrite D.
  Qed.
  Lemma c65_phrase r p : extract_special_phrase rf c r = Ok p <-> phrase_meaning rf (ca_map c) r p.
  Proof.
    split.
    - destruct r as [x|x|x|x|x|x|l]; cbn [extract_special_phrase].
      + destruct (convert_block_amendment rf c x) eqn:E; cbn; try discriminate. intros H. injection H as <-. constructor. now apply block_spec.
      + destruct (convert_subtitle_amendment rf c x) eqn:E; cbn; try discriminate. intros H. injection H as <-. apply phrase_subtitle. now apply subtitle_spec.
      + destruct (convert_structural_amendment rf c x) eqn:E; cbn; try discriminate. intros H. injection H as <-. apply phrase_structural. now apply structural_spec.
      + destruct (convert_text_amendment rf c x) eqn:E; cbn; try discriminate. intros H. injection H as <-. apply c39_text in E. destruct E as (a0 & rs & D & T & P). eapply phrase_text; eauto.
      + destruct (convert_enforcement rf x) eqn:E; cbn; try discriminate. intros H. injection H as <-. apply c40_spec in E. destruct E as (rs & ss & d & ir & R & S & D & I & ->). now constructor.
      + destruct (convert_repeal rf c x) eqn:E; cbn; try discriminate. intros H. injection H as <-. apply c39_repeal in E. destruct E as (a0 & rs & D & T & P).
        destruct (gre_texts x) as [|t ts] eqn:G.
        * destruct P as (l & F & ->). eapply phrase_repeal; eauto.
        * destruct P as (l & F & ->). rewrite <- G in F. eapply phrase_text_repeal; eauto. congruence.
      + intros H. injection H as <-. constructor.
    - intros H. destruct H as [l|x p H|x p H|x p H|x refs ss d ir R S D I|x a rs l D T G F|x a rs l D T G F|x a rs l D T P]; cbn [extract_special_phrase].
      + reflexivity.
      + apply block_spec in H. now rewrite H.
      + inversion H as [a s q b D S Q Bk]; subst p. apply structural_spec in H. now rewrite H.
      + inversion H as [e q a N Q D]; subst p. apply subtitle_spec in H. now rewrite H.
      + erewrite (proj2 (c40_spec rf x _)); [reflexivity|]. exists refs, ss, d, ir. auto.
      + erewrite (proj2 (c39_repeal rf c x _)); [reflexivity|]. exists a, rs. rewrite G. eauto 6.
      + erewrite (proj2 (c39_repeal rf c x _)); [reflexivity|]. exists a, rs. split; [exact D|]. split; [exact T|].
        destruct (gre_texts x) as [|t ts] eqn:E; [congruence|]. exists l. auto.
      + erewrite (proj2 (c39_text rf c x _)); [reflexivity|]. eauto 6.
  Qed.
End Phrase.
(** At most one phrase *)
Lemma c65_determined rf c r p q : phrase_meaning rf (ca_map c) r p -> phrase_meaning rf (ca_map c) r q -> p = q.
Proof. intros H K. apply c65_phrase in H, K. congruence. Qed.

(** ** Abbreviations *)
Section Abbrev.
  Variable rf : str -> option Z.
  Lemma acts_named_of r l : acts_named r l <-> l = root_act_refs r.
  Proof.
    split.
    - induction 1 as [| | | | | | |a rs l ls H IH|rs l ls H IH|l ls H IH]; cbn; auto. now rewrite IH.
    - intros ->. destruct r as [x|x|x|x|x|x|l]; try constructor. induction l as [|[[[a|] rs]|] l IH]; cbn in *; now constructor.
  Qed.
  Lemma introduced_of l ns : transpose (flat_map (new_abbreviation rf) l) = Ok ns <-> introduced rf l ns.
  Proof.
    revert ns. induction l as [|a l IH]; intros ns; cbn [flat_map].
    - split; [intros H; injection H as <-; constructor|]. intros H. inversion H. reflexivity.
    - destruct a as [[i [s|]]|s p]; cbn [new_abbreviation app].
      + cbn [transpose]. unfold act_of_grammar. split.
        * destruct (parse_i16 (gai_year i)) as [y| |] eqn:Y; cbn [obind omap]; try discriminate.
          destruct (rf (gai_number i)) as [n|] eqn:N; cbn [obind omap ok_or]; try discriminate.
          destruct (transpose _) as [ns'| |] eqn:T; cbn [obind]; try discriminate. intros H. injection H as <-. constructor; auto. now apply IH.
        * intros H. inversion H as [| | |? ? y n ? ns' Y N T]; subst. rewrite Y. cbn [obind]. rewrite N. cbn [obind omap ok_or]. apply IH in T. now rewrite T.
      + rewrite IH. split; [now constructor|]. intros H. now inversion H.
      + rewrite IH. split; [now constructor|]. intros H. now inversion H.
  Qed.
  Lemma c65_abbreviations r ns : get_new_abbreviations rf r = Ok ns <-> exists l, acts_named r l /\ introduced rf l ns.
  Proof.
    unfold get_new_abbreviations. rewrite introduced_of. split.
    - intros H. exists (root_act_refs r). split; [now apply acts_named_of|exact H].
    - intros (l & A & I). apply acts_named_of in A. now subst.
  Qed.
End Abbrev.
