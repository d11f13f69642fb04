(** Proofs about references: endpoints and compact strings (C10, C16). *)
From Verif Require Export ProofRef3.

(** ** C16 *)
Lemma lexk_refl l : lexk key_cmp l l = Eq.
Proof. induction l as [|[x|] l IH]; cbn; auto. now rewrite (to_refl key_total_ord). Qed.
Lemma lexk_last_first l : kord key_cmp l -> lexk key_cmp (lasts l) (firsts l) <> Lt /\ lexk key_cmp (firsts l) (lasts l) <> Gt.
Proof.
  induction l as [|[[a b]|] l IH]; cbn; [split; discriminate| |auto].
  intros [H1 H2]. destruct (IH H2) as [I1 I2]. rewrite (to_opp _ key_total_ord a b).
  destruct (key_cmp a b); cbn; split; (auto || congruence).
Qed.
Lemma keys_first r : firsts (keys (first_in_range r)) = firsts (keys r) /\ lasts (keys (first_in_range r)) = firsts (keys r).
Proof. destruct r as [? [] [] [[]|] [[]|]]; split; reflexivity. Qed.
Lemma keys_last r : firsts (keys (last_in_range r)) = lasts (keys r) /\ lasts (keys (last_in_range r)) = lasts (keys r).
Proof. destruct r as [? [] [] [[]|] [[]|]]; split; reflexivity. Qed.
Lemma c16_contained r : ordered r -> contains r (first_in_range r) = true /\ contains r (last_in_range r) = true.
Proof.
  intros O. apply keys_ord, lexk_last_first in O as [O1 O2]. rewrite !contains_keys. cbn [f_act first_in_range last_in_range].
  rewrite (proj2 (act_part_eqb_eq _ _) eq_refl). unfold fcond, lcond.
  destruct (keys_first r) as [-> ->], (keys_last r) as [-> ->]. rewrite !lexk_refl.
  split; cbn [cmp_le cmp_ge orb andb].
  - destruct (lexk key_cmp (lasts (keys r)) (firsts (keys r))); cbn; [reflexivity|congruence|reflexivity].
  - destruct (lexk key_cmp (firsts (keys r)) (lasts (keys r))); cbn; [reflexivity|reflexivity|congruence].
Qed.
Lemma c16_idem r :
  first_in_range (first_in_range r) = first_in_range r /\ last_in_range (last_in_range r) = last_in_range r /\
  first_in_range (last_in_range r) = last_in_range r /\ last_in_range (first_in_range r) = first_in_range r.
Proof. destruct r as [? [] [] [[]|] [[]|]]; repeat split. Qed.
Lemma c16_single r l : ~ real_range (part (first_in_range r) l) /\ ~ real_range (part (last_in_range r) l).
Proof. rewrite first_part, last_part. split; [apply start_of_single|apply end_of_single]. Qed.

(** ** C10 *)
Lemma lower_not_digit c : is_lower_c c = true -> is_digit c = false.
Proof. intros H. apply digit_not_letter. auto. Qed.
Lemma numeric_parse_letter c s : is_lower_c c = true -> numeric_parse (c :: s) = Err.
Proof.
  intros H. destruct (numeric_parse (c :: s)) as [x| |] eqn:E; [|reflexivity|now apply numeric_parse_not_panic in E].
  exfalso. apply numeric_parse_spelling in E.
  assert (D : forall ds n t, denotes_dec ds n -> c :: s = ds ++ t -> False).
  { intros ds n t D X. apply denotes_dec_iff in D as (N & D & _). destruct ds as [|d ds]; [congruence|].
    injection X as <- _. cbn in D. rewrite (lower_not_digit _ H) in D. discriminate. }
  inversion E; subst; eapply D; try eassumption.
  - now rewrite app_nil_r.
  - symmetry; eassumption.
  - symmetry; eassumption.
Qed.
Lemma numeric_range_letter c s : is_lower_c c = true -> range_parse_compact (T:=numeric) (c :: s) = Err.
Proof.
  intros H. unfold range_parse_compact. norm_lit.
  destruct (split_once 45 (c :: s)) as [[a b]|] eqn:E.
  - cbn in E. destruct (N.eqb_spec c 45) as [->|N]; [discriminate|].
    destruct (split_once 45 s) as [[a' b']|]; [|discriminate]. injection E as <- <-.
    cbn [id_parse_compact numeric_common]. now rewrite numeric_parse_letter.
  - cbn [id_parse_compact numeric_common]. now rewrite numeric_parse_letter.
Qed.
Lemma hic_show_head x : hic_ok x = true -> exists c s, hic_show x = c :: s /\ is_lower_c c = true.
Proof.
  intros H. apply hic_show_lower in H. pose proof (hic_show_nonempty x) as N.
  destruct (hic_show x) as [|c s]; [congruence|]. cbn in H. apply andb_prop in H as [H _]. eauto.
Qed.
Lemma prefixed_show_head x : prefixed_ok x = true -> exists c s, prefixed_show x = c :: s /\ is_lower_c c = true.
Proof.
  unfold prefixed_ok, prefixed_show. intros H. apply andb_prop in H as [H1 H2].
  destruct (p_prefix x) as [p|].
  - destruct (hic_show_head p H1) as (c & s & -> & L). cbn. eauto.
  - destruct (hic_show_head _ H2) as (c & s & -> & L). cbn. eauto.
Qed.
Definition point_ok (p : ref_point) : Prop :=
  match p with
  | PtNum a => range_of (fun x => numeric_ok x = true) a
  | PtAlpha a => range_of (fun x => hic_ok x = true) a
  end.
Definition subpoint_ok (p : ref_subpoint) : Prop :=
  match p with
  | SpNum a => range_of (fun x => numeric_ok x = true) a
  | SpAlpha a => range_of (fun x => prefixed_ok x = true /\ prefixed_latin x = true) a
  end.
Lemma point_parse_show p : point_ok p -> point_parse_compact (point_show_compact p) = Ok p.
Proof.
  destruct p as [a|a]; cbn [point_ok point_show_compact]; intros [H1 H2]; unfold point_parse_compact.
  - rewrite (range_parse_show numeric_compact); auto.
  - rewrite (range_parse_show hic_compact) by auto.
    assert (E : exists c s, range_show_compact a = c :: s /\ is_lower_c c = true).
    { unfold range_show_compact. cbn [id_show_compact hic_common].
      destruct (hic_show_head _ H1) as (c & s & -> & L). cbn. eauto. }
    destruct E as (c & s & -> & L). now rewrite numeric_range_letter.
Qed.
Lemma subpoint_parse_show p : subpoint_ok p -> subpoint_parse_compact (subpoint_show_compact p) = Ok p.
Proof.
  destruct p as [a|a]; cbn [subpoint_ok subpoint_show_compact]; intros [H1 H2]; unfold subpoint_parse_compact.
  - rewrite (range_parse_show numeric_compact); auto.
  - rewrite (range_parse_show prefixed_compact) by auto.
    assert (E : exists c s, range_show_compact a = c :: s /\ is_lower_c c = true).
    { unfold range_show_compact. cbn [id_show_compact prefixed_common].
      destruct (prefixed_show_head _ (proj1 H1)) as (c & s & -> & L). cbn. eauto. }
    destruct E as (c & s & -> & L). now rewrite numeric_range_letter.
Qed.
Lemma point_show_nonempty p : point_ok p -> point_show_compact p <> [].
Proof.
  destruct p; intros [H _]; apply range_show_nonempty; cbn; [apply numeric_show_nonempty|apply hic_show_nonempty].
Qed.
Lemma subpoint_show_nonempty p : subpoint_ok p -> subpoint_show_compact p <> [].
Proof.
  destruct p; intros [H _]; apply range_show_nonempty; cbn; [apply numeric_show_nonempty|].
  apply prefixed_show_nonempty.
Qed.
Lemma opt_no_us {A} (f : A -> str) (o : option A) :
  (forall x, o = Some x -> no_char 95 (f x) = true) -> no_char 95 (opt_show_compact f o) = true.
Proof. destruct o as [x|]; cbn; [|reflexivity]. intros H. now apply H. Qed.
Lemma c10_roundtrip r : well_formed r -> parts_ok r -> ref_parse_compact (ref_show_compact r) = Ok r.
Proof.
  intros W (P1 & P2 & P3 & P4 & P5 & P6 & P7).
  assert (Q4 : forall p, f_point r = Some p -> point_ok p) by (intros [a|a] E; cbn; auto).
  assert (Q5 : forall p, f_subpoint r = Some p -> subpoint_ok p) by (intros [a|a] E; cbn; auto).
  unfold ref_parse_compact, ref_show_compact. norm_lit.
  assert (U1 : no_char 95 (opt_show_compact act_show_compact (f_act r)) = true)
    by (apply opt_no_us; intros; apply act_show_compact_no_us).
  assert (U2 : no_char 95 (opt_show_compact range_show_compact (f_article r)) = true).
  { apply opt_no_us. intros x E. destruct (P2 x E). now apply (range_show_no_us article_compact). }
  assert (U3 : no_char 95 (opt_show_compact range_show_compact (f_paragraph r)) = true).
  { apply opt_no_us. intros x E. destruct (P3 x E). now apply (range_show_no_us numeric_compact). }
  assert (U4 : no_char 95 (opt_show_compact point_show_compact (f_point r)) = true).
  { apply opt_no_us. intros x E. specialize (Q4 x E). destruct x, Q4; cbn.
    - now apply (range_show_no_us numeric_compact).
    - now apply (range_show_no_us hic_compact). }
  assert (U5 : no_char 95 (opt_show_compact subpoint_show_compact (f_subpoint r)) = true).
  { apply opt_no_us. intros x E. specialize (Q5 x E). destruct x, Q5; cbn.
    - now apply (range_show_no_us numeric_compact).
    - now apply (range_show_no_us prefixed_compact). }
  cbn [List.app].
  rewrite !split_on_app by assumption. rewrite split_on_single by assumption.
  rewrite (opt_parse_show _ _ (fun x => act_ok x = true)); auto using act_parse_show_compact, act_show_compact_nonempty. cbn [obind].
  rewrite (opt_parse_show _ _ (range_of (fun x => article_ok x = true))); auto;
    [|intros x [H1 H2]; now apply (range_parse_show article_compact)
     |intros x [H1 H2]; apply range_show_nonempty, article_show_compact_nonempty]. cbn [obind].
  rewrite (opt_parse_show _ _ (range_of (fun x => numeric_ok x = true))); auto;
    [|intros x [H1 H2]; now apply (range_parse_show numeric_compact)
     |intros x [H1 H2]; apply range_show_nonempty, numeric_show_nonempty]. cbn [obind].
  rewrite (opt_parse_show _ _ point_ok); auto using point_parse_show, point_show_nonempty. cbn [obind].
  rewrite (opt_parse_show _ _ subpoint_ok); auto using subpoint_parse_show, subpoint_show_nonempty. cbn [obind].
  destruct r. now apply try_ref_wf.
Qed.
Lemma opt_parse_some {A} (g : str -> outcome A) s x : opt_parse_compact g s = Ok (Some x) -> g s = Ok x.
Proof. unfold opt_parse_compact. destruct (is_empty s); [discriminate|]. destruct (g s); cbn; congruence. Qed.
Lemma range_parse_of {T} `{IdentCommon T} (P : T -> Prop) s (r : range T) :
  (forall t x, id_parse_compact t = Ok x -> P x) -> range_parse_compact s = Ok r -> range_of P r.
Proof.
  intros L. unfold range_parse_compact, range_of. destruct (split_once _ s) as [[a b]|].
  - destruct (id_parse_compact a) eqn:E1; try discriminate. cbn. destruct (id_parse_compact b) eqn:E2; try discriminate.
    cbn. intros X. apply Ok_inj in X. subst. cbn. eauto.
  - destruct (id_parse_compact s) eqn:E1; try discriminate. cbn. intros X. apply Ok_inj in X. subst. cbn. eauto.
Qed.
Lemma range_parse_not_panic {T} `{IdentCommon T} s :
  (forall t : str, id_parse_compact t <> Panic) -> range_parse_compact (T:=T) s <> Panic.
Proof.
  intros L. unfold range_parse_compact. destruct (split_once _ s) as [[a b]|].
  - specialize (L a) as L1. specialize (L b) as L2. destruct (id_parse_compact a), (id_parse_compact b); cbn; congruence.
  - specialize (L s). destruct (id_parse_compact s); cbn; congruence.
Qed.
Lemma opt_parse_not_panic {A} (g : str -> outcome A) s : g s <> Panic -> opt_parse_compact g s <> Panic.
Proof. unfold opt_parse_compact. destruct (is_empty s); [discriminate|]. destruct (g s); cbn; congruence. Qed.
Lemma obind_not_panic {A B} (x : outcome A) (f : A -> outcome B) :
  x <> Panic -> (forall a, x = Ok a -> f a <> Panic) -> obind x f <> Panic.
Proof. destruct x; cbn; auto; congruence. Qed.
Lemma c10_parse_not_panic s : ref_parse_compact s <> Panic.
Proof.
  unfold ref_parse_compact. destruct (split_on _ s) as [|x1 [|x2 [|x3 [|x4 [|x5 [|]]]]]]; try discriminate.
  apply obind_not_panic; [|intros ? _].
  { apply opt_parse_not_panic, act_parse_compact_not_panic. }
  apply obind_not_panic; [|intros ? _].
  { apply opt_parse_not_panic, range_parse_not_panic, article_parse_compact_not_panic. }
  apply obind_not_panic; [|intros ? _].
  { apply opt_parse_not_panic, range_parse_not_panic, numeric_parse_not_panic. }
  apply obind_not_panic; [|intros ? _].
  { apply opt_parse_not_panic. unfold point_parse_compact.
    destruct (range_parse_compact (T:=numeric) x4) eqn:E; [discriminate| |].
    + apply obind_not_panic; [|discriminate]. apply range_parse_not_panic, hic_parse_not_panic.
    + now apply range_parse_not_panic in E; [|apply numeric_parse_not_panic]. }
  apply obind_not_panic; [|intros ? _].
  { apply opt_parse_not_panic. unfold subpoint_parse_compact.
    destruct (range_parse_compact (T:=numeric) x5) eqn:E; [discriminate| |].
    + apply obind_not_panic; [|discriminate]. apply range_parse_not_panic, prefixed_parse_not_panic.
    + now apply range_parse_not_panic in E; [|apply numeric_parse_not_panic]. }
  apply try_ref_not_panic.
Qed.
(** What parses is well formed and made of valid identifiers, so it prints and parses back. *)
Lemma c10_parse_ok s r : ref_parse_compact s = Ok r -> well_formed r /\ parts_ok r.
Proof.
  intros H. split; [apply c08_wf; eapply ob_compact; exact H|].
  unfold ref_parse_compact in H. destruct (split_on _ s) as [|x1 [|x2 [|x3 [|x4 [|x5 [|]]]]]]; try discriminate.
  destruct (opt_parse_compact act_parse_compact x1) as [a| |] eqn:E1; cbn [obind] in H; try discriminate.
  destruct (opt_parse_compact range_parse_compact x2) as [b| |] eqn:E2; cbn [obind] in H; try discriminate.
  destruct (opt_parse_compact range_parse_compact x3) as [c| |] eqn:E3; cbn [obind] in H; try discriminate.
  destruct (opt_parse_compact point_parse_compact x4) as [d| |] eqn:E4; cbn [obind] in H; try discriminate.
  destruct (opt_parse_compact subpoint_parse_compact x5) as [e| |] eqn:E5; cbn [obind] in H; try discriminate.
  apply try_ref_ok in H as [-> _]. unfold parts_ok. cbn [f_act f_article f_paragraph f_point f_subpoint].
  assert (Q4 : forall p, d = Some p -> point_ok p).
  { intros p ->. apply opt_parse_some in E4. unfold point_parse_compact in E4.
    destruct (range_parse_compact (T:=numeric) x4) eqn:F; try discriminate.
    - apply Ok_inj in E4. subst. cbn. eapply range_parse_of; [|exact F]. intros t x. apply numeric_parse_ok.
    - destruct (range_parse_compact (T:=hic) x4) eqn:G; try discriminate. cbn in E4. apply Ok_inj in E4. subst. cbn.
      eapply range_parse_of; [|exact G]. intros t x. apply hic_parse_ok. }
  assert (Q5 : forall p, e = Some p -> subpoint_ok p).
  { intros p ->. apply opt_parse_some in E5. unfold subpoint_parse_compact in E5.
    destruct (range_parse_compact (T:=numeric) x5) eqn:F; try discriminate.
    - apply Ok_inj in E5. subst. cbn. eapply range_parse_of; [|exact F]. intros t x. apply numeric_parse_ok.
    - destruct (range_parse_compact (T:=prefixed) x5) eqn:G; try discriminate. cbn in E5. apply Ok_inj in E5. subst. cbn.
      eapply range_parse_of; [|exact G]. intros t x. apply prefixed_parse_latin. }
  repeat match goal with |- _ /\ _ => split end; intros x X; subst.
  - apply opt_parse_some in E1. now apply act_parse_compact_ok in E1.
  - apply opt_parse_some in E2. eapply range_parse_of; [|exact E2]. intros t y. apply article_parse_compact_ok.
  - apply opt_parse_some in E3. eapply range_parse_of; [|exact E3]. intros t y. apply numeric_parse_ok.
  - exact (Q4 _ eq_refl).
  - exact (Q4 _ eq_refl).
  - exact (Q5 _ eq_refl).
  - exact (Q5 _ eq_refl).
Qed.

(** ** C11, exactly *)
Lemma c11_exact a b r l0 : coarsest a l0 ->
  (relative_to a b = Ok r <->
   well_formed r /\ forall l, part r l = if Nat.ltb (depth l) (depth l0) then part b l else part a l).
Proof.
  intros C. split.
  - intros H. split; [|now apply c11_parts]. rewrite rel_raw_eq in H. apply try_ref_ok in H as [-> W]. exact W.
  - intros [W P]. rewrite rel_raw_eq. replace (rel_raw a b) with r; [now apply try_ref_wf|].
    apply part_ext. intros l. rewrite P. clear P W r.
    destruct l0; destruct C as [C1 C2];
    pose proof (C2 LAct) as G1; pose proof (C2 LArticle) as G2; pose proof (C2 LParagraph) as G3; pose proof (C2 LPoint) as G4; clear C2;
    rewrite ?present_act, ?present_article, ?present_paragraph, ?present_point, ?present_subpoint in *;
    unfold finer in *; cbn in G1, G2, G3, G4;
    destruct a as [[?|] [?|] [?|] [?|] [?|]]; cbn in *; try discriminate;
      first [ now (exfalso; apply G1; [lia|reflexivity]) | now (exfalso; apply G2; [lia|reflexivity])
            | now (exfalso; apply G3; [lia|reflexivity]) | now (exfalso; apply G4; [lia|reflexivity])
            | destruct l; reflexivity ].
Qed.
Lemma c11_empty_exact b r : relative_to empty_ref b = Ok r <-> well_formed b /\ r = b.
Proof. rewrite rel_raw_eq, try_ref_ok. cbn. tauto. Qed.
