(** Proofs about references: make_range, contains, compact strings (C10, C14-C16). *)
From Verif Require Export ProofRef.

(** ** C15 *)
Lemma builder_fields a b c d e :
  when_some set_subpoint e (when_some set_point d (when_some set_paragraph c (when_some set_article b
    (when_some set_act a empty_ref)))) = mkRef a b c d e.
Proof. destruct a, b, c, d, e; reflexivity. Qed.
Lemma make_range_same a : well_formed a -> make_range a a = Ok a.
Proof.
  intros W. unfold make_range.
  rewrite (proj2 (act_part_eqb_eq _ _) eq_refl), (proj2 (article_part_eqb_eq _ _) eq_refl),
    (proj2 (paragraph_part_eqb_eq _ _) eq_refl), (proj2 (point_part_eqb_eq _ _) eq_refl),
    (proj2 (subpoint_part_eqb_eq _ _) eq_refl). cbn [ensure obind negb].
  rewrite builder_fields. unfold build. replace (mkRef _ _ _ _ _) with a by (destruct a; reflexivity).
  now apply try_ref_wf.
Qed.
Definition range_result (a b r : reference) (l0 : level) : Prop :=
  finest a l0 /\ finest b l0 /\ (forall l, l <> l0 -> part a l = part b l) /\
  (forall l, l <> l0 -> part r l = part a l) /\ span_part (part a l0) (part b l0) = Some (part r l0).
Lemma level_dec (a b : level) : {a = b} + {a <> b}.
Proof. decide equality. Qed.
Lemma span_same p q : span_part p p = Some q -> q = p.
Proof. destruct p as [| | [] | [] | [[]|[]] | [[]|[]]]; cbn; intros H; try discriminate; congruence. Qed.
Lemma range_result_wf a b r l0 : well_formed a -> range_result a b r l0 -> well_formed r.
Proof.
  intros W (FA & FB & AB & R & S).
  assert (P : forall l, present r l <-> present a l).
  { intros l. destruct (level_dec l l0) as [->|N]; [|unfold present; rewrite R by auto; tauto].
    unfold present. split; intros X Y.
    - rewrite Y in S. discriminate.
    - rewrite Y in S. destruct (part a l0) as [| | | |[]|[]], (part b l0) as [| | | |[]|[]]; discriminate. }
  destruct W as [A B C]. constructor.
  - rewrite !P. exact A.
  - rewrite !P. intros X (l & F & Y). apply P in Y. apply B; eauto.
  - intros l l' X F Y. apply P in Y. destruct (level_dec l l0) as [->|N].
    + destruct FA as [_ FA]. now apply (FA l').
    + rewrite R in X by auto. now apply (C l l').
Qed.
Ltac done_level :=
  let l := fresh in let N := fresh in
  intros l N; destruct l; cbn [part f_act f_article f_paragraph f_point f_subpoint]; (congruence || reflexivity).
Lemma c15_make_range a b r : well_formed a -> well_formed b ->
  (make_range a b = Ok r <-> (a = b /\ r = a) \/ (exists l0, range_result a b r l0)).
Proof.
  intros WA WB. split.
  - unfold make_range.
    destruct a as [a1 a2 a3 a4 a5], b as [b1 b2 b3 b4 b5]. cbn [f_act f_article f_paragraph f_point f_subpoint].
    destruct (opt_dec _ act_part_eqb_eq a1 b1) as [[-> <-]|[-> N1]]; cbn [ensure obind]; [|discriminate].
    destruct (opt_dec _ article_part_eqb_eq a2 b2) as [[-> <-]|[-> N1]]; cbn [negb].
    2:{ destruct a3, b3, a4, b4, a5, b5; cbn [is_none is_some negb andb ensure obind]; try discriminate.
        destruct a2 as [a2|], b2 as [b2|]; try discriminate. unfold build. intros H. right. exists LArticle.
        apply try_ref_ok in H as [-> _].
        assert (E : set_article (mkRange (r_start a2) (r_end b2)) (when_some set_act a1 empty_ref)
                    = mkRef a1 (Some (mkRange (r_start a2) (r_end b2))) None None None) by (destruct a1; reflexivity).
        rewrite E. repeat split; try (cbn; discriminate); try (intros [] FF PP; unfold finer in FF; cbn in FF; try lia; apply PP; reflexivity);
        try (intros [] X; cbn; congruence). }
    destruct (opt_dec _ paragraph_part_eqb_eq a3 b3) as [[-> <-]|[-> N1]]; cbn [negb].
    2:{ destruct a4, b4, a5, b5; cbn [is_none is_some negb andb ensure obind]; try discriminate.
        destruct a3 as [a3|], b3 as [b3|]; try discriminate. unfold build. intros H. right. exists LParagraph.
        apply try_ref_ok in H as [-> _].
        assert (E : set_paragraph (mkRange (r_start a3) (r_end b3)) (when_some set_article a2 (when_some set_act a1 empty_ref))
                    = mkRef a1 a2 (Some (mkRange (r_start a3) (r_end b3))) None None) by (destruct a1, a2; reflexivity).
        rewrite E. repeat split; try (cbn; discriminate); try (intros [] FF PP; unfold finer in FF; cbn in FF; try lia; apply PP; reflexivity);
        try (intros [] X; cbn; congruence). }
    destruct (opt_dec _ point_part_eqb_eq a4 b4) as [[-> <-]|[-> N1]]; cbn [negb].
    2:{ destruct a5, b5; cbn [is_none is_some negb andb ensure obind]; try discriminate.
        destruct a4 as [a4|], b4 as [b4|]; try (try destruct a4; discriminate). unfold build. intros H. right. exists LPoint.
        assert (E : forall p, set_point p (when_some set_paragraph a3 (when_some set_article a2 (when_some set_act a1 empty_ref)))
                    = mkRef a1 a2 a3 (Some p) None) by (destruct a1, a2, a3; reflexivity).
        destruct a4, b4; try discriminate; rewrite E in H; apply try_ref_ok in H as [-> _];
        (repeat split; try (cbn; discriminate); try (intros [] FF PP; unfold finer in FF; cbn in FF; try lia; apply PP; reflexivity);
        try (intros [] X; cbn; congruence)). }
    destruct (opt_dec _ subpoint_part_eqb_eq a5 b5) as [[-> <-]|[-> N1]]; cbn [negb].
    + rewrite builder_fields. intros H. apply try_ref_ok in H as [-> _]. left; auto.
    + destruct a5 as [a5|], b5 as [b5|]; try (try destruct a5; discriminate). unfold build. intros H. right. exists LSubpoint.
        assert (E : forall p, set_subpoint p (when_some set_point a4 (when_some set_paragraph a3 (when_some set_article a2 (when_some set_act a1 empty_ref))))
                    = mkRef a1 a2 a3 a4 (Some p)) by (destruct a1, a2, a3, a4; reflexivity).
        destruct a5, b5; try discriminate; rewrite E in H; apply try_ref_ok in H as [-> _];
        (repeat split; try (cbn; discriminate); try (intros [] FF PP; unfold finer in FF; cbn in FF; try lia; apply PP; reflexivity);
        try (intros [] X; cbn; congruence)).
  - intros [[<- ->]|[l0 H]]; [now apply make_range_same|].
    pose proof (range_result_wf _ _ _ _ WA H) as WR. destruct H as (FA & FB & AB & R & S).
    destruct (level_dec l0 LAct) as [->|NA].
    { exfalso. cbn in S. destruct (f_act a); discriminate. }
    assert (SAME0 : part a l0 = part b l0 -> make_range a b = Ok r).
    { intros E. assert (a = b) as <-.
      { apply part_ext. intros l. destruct (level_dec l l0) as [->|N]; auto. }
      assert (r = a) as ->.
      { apply part_ext. intros l. destruct (level_dec l l0) as [->|N]; auto. now apply span_same in S. }
      now apply make_range_same. }
    assert (DEC : part a l0 = part b l0 \/ part a l0 <> part b l0).
    { destruct l0; [congruence
      |rewrite part_article_eq; destruct (opt_dec _ article_part_eqb_eq (f_article a) (f_article b)); tauto
      |rewrite part_paragraph_eq; destruct (opt_dec _ paragraph_part_eqb_eq (f_paragraph a) (f_paragraph b)); tauto
      |rewrite part_point_eq; destruct (opt_dec _ point_part_eqb_eq (f_point a) (f_point b)); tauto
      |rewrite part_subpoint_eq; destruct (opt_dec _ subpoint_part_eqb_eq (f_subpoint a) (f_subpoint b)); tauto]. }
    destruct DEC as [DEC|SAME]; [auto|]. clear SAME0.
    pose proof (AB LAct (not_eq_sym NA)) as E1. apply part_act_eq in E1.
    pose proof (R LAct (not_eq_sym NA)) as R1. apply part_act_eq in R1.
    unfold make_range. rewrite (proj2 (act_part_eqb_eq _ _) E1). cbn [ensure obind].
    destruct (level_dec l0 LArticle) as [->|NB].
    { kill_finer a LArticle FA. kill_finer b LArticle FB.
      destruct (opt_dec _ article_part_eqb_eq (f_article a) (f_article b)) as [[_ EE]|[-> N1]];
        [exfalso; apply SAME; now apply part_article_eq|].
      pose proof (R LParagraph ltac:(discriminate)) as R3. pose proof (R LPoint ltac:(discriminate)) as R4.
      pose proof (R LSubpoint ltac:(discriminate)) as R5.
      apply part_paragraph_eq in R3. apply part_point_eq in R4. apply part_subpoint_eq in R5.
      clear SAME R AB FA FB WA WB.
      destruct a as [a1 a2 [x3|] [x4|] [x5|]], b as [b1 b2 [y3|] [y4|] [y5|]], r as [r1 r2 r3 r4 r5]; cbn in * |- ; try discriminate; subst.
      cbn in S. destruct a2 as [a2|], b2 as [b2|], r2; cbn in S; try discriminate. injection S as <-.
      cbn [f_act f_article f_paragraph f_point f_subpoint negb is_none is_some andb ensure obind].
      unfold build. rewrite <- (try_ref_wf _ WR). f_equal. destruct b1; reflexivity. }
    pose proof (AB LArticle (not_eq_sym NB)) as E2. apply part_article_eq in E2.
    pose proof (R LArticle (not_eq_sym NB)) as R2. apply part_article_eq in R2.
    rewrite (proj2 (article_part_eqb_eq _ _) E2). cbn [negb].
    destruct (level_dec l0 LParagraph) as [->|NC].
    { kill_finer a LParagraph FA. kill_finer b LParagraph FB.
      destruct (opt_dec _ paragraph_part_eqb_eq (f_paragraph a) (f_paragraph b)) as [[_ EE]|[-> N1]];
        [exfalso; apply SAME; now apply part_paragraph_eq|].
      pose proof (R LPoint ltac:(discriminate)) as R4.
      pose proof (R LSubpoint ltac:(discriminate)) as R5.
      apply part_point_eq in R4. apply part_subpoint_eq in R5.
      clear SAME R AB FA FB WA WB.
      destruct a as [a1 a2 a3 [x4|] [x5|]], b as [b1 b2 b3 [y4|] [y5|]], r as [r1 r2 r3 r4 r5]; cbn in * |- ; try discriminate; subst.
      cbn in S. destruct a3 as [a3|], b3 as [b3|], r3; cbn in S; try discriminate. injection S as <-.
      cbn [f_act f_article f_paragraph f_point f_subpoint negb is_none is_some andb ensure obind].
      unfold build. rewrite <- (try_ref_wf _ WR). f_equal. destruct b1, b2; reflexivity. }
    pose proof (AB LParagraph (not_eq_sym NC)) as E3. apply part_paragraph_eq in E3.
    pose proof (R LParagraph (not_eq_sym NC)) as R3. apply part_paragraph_eq in R3.
    rewrite (proj2 (paragraph_part_eqb_eq _ _) E3). cbn [negb].
    destruct (level_dec l0 LPoint) as [->|ND].
    { kill_finer a LPoint FA. kill_finer b LPoint FB.
      destruct (opt_dec _ point_part_eqb_eq (f_point a) (f_point b)) as [[_ EE]|[-> N1]];
        [exfalso; apply SAME; now apply part_point_eq|].
      pose proof (R LSubpoint ltac:(discriminate)) as R5.
      apply part_subpoint_eq in R5.
      clear SAME R AB FA FB WA WB.
      destruct a as [a1 a2 a3 a4 [x5|]], b as [b1 b2 b3 b4 [y5|]], r as [r1 r2 r3 r4 r5]; cbn in * |- ; try discriminate; subst.
      cbn in S. destruct a4 as [[a4|a4]|], b4 as [[b4|b4]|], r4; cbn in S; try discriminate; injection S as <-;
      cbn [f_act f_article f_paragraph f_point f_subpoint negb is_none is_some andb ensure obind];
      unfold build; rewrite <- (try_ref_wf _ WR); f_equal; destruct b1, b2, b3; reflexivity. }
    pose proof (AB LPoint (not_eq_sym ND)) as E4. apply part_point_eq in E4.
    pose proof (R LPoint (not_eq_sym ND)) as R4. apply part_point_eq in R4.
    rewrite (proj2 (point_part_eqb_eq _ _) E4). cbn [negb].
    assert (l0 = LSubpoint) as -> by (destruct l0; congruence).
    destruct (opt_dec _ subpoint_part_eqb_eq (f_subpoint a) (f_subpoint b)) as [[_ EE]|[-> N1]];
        [exfalso; apply SAME; now apply part_subpoint_eq|].
    clear SAME R AB FA FB WA WB.
    destruct a as [a1 a2 a3 a4 a5], b as [b1 b2 b3 b4 b5], r as [r1 r2 r3 r4 r5]; cbn in * |- ; subst.
    cbn in S. destruct a5 as [[a5|a5]|], b5 as [[b5|b5]|], r5; cbn in S; try discriminate; injection S as <-;
      cbn [f_act f_article f_paragraph f_point f_subpoint negb is_none is_some andb ensure obind];
      unfold build; rewrite <- (try_ref_wf _ WR); f_equal; destruct b1, b2, b3, b4; reflexivity.
Qed.
Lemma c15_not_panic a b : make_range a b <> Panic.
Proof.
  unfold make_range, build, ensure. intros H.
  repeat (match type of H with
  | (let* _ := (if ?b then _ else _) in _) = _ => destruct b; cbn [obind] in H; try discriminate
  | (if ?b then _ else _) = _ => destruct b
  | match ?o with _ => _ end = _ => destruct o; try discriminate
  end); now apply try_ref_not_panic in H.
Qed.
Lemma c15_endpoints a b r : well_formed a -> well_formed b -> make_range a b = Ok r ->
  well_formed r /\ first_in_range r = first_in_range a /\ last_in_range r = last_in_range b.
Proof.
  intros WA WB H. apply c15_make_range in H as [[<- ->]|[l0 H]]; auto.
  split; [exact (range_result_wf _ _ _ _ WA H)|]. destruct H as (FA & FB & AB & R & S).
  split; apply part_ext; intros l.
  - rewrite !first_part. destruct (level_dec l l0) as [->|N]; [|now rewrite R].
    destruct (part a l0) as [| | | |[]|[]], (part b l0) as [| | | |[]|[]]; cbn in S; try discriminate; injection S as <-; reflexivity.
  - rewrite !last_part. destruct (level_dec l l0) as [->|N]; [|now rewrite R, AB].
    destruct (part a l0) as [| | | |[]|[]], (part b l0) as [| | | |[]|[]]; cbn in S; try discriminate; injection S as <-; reflexivity.
Qed.

(** ** C14: containment over generic keys *)
Section Keys.
  Context {K : Type} (cmp : K -> K -> comparison) (T : TotalOrd cmp).
  Definition kparts := list (option (K * K)).
  Definition kpos := list (option K).
  Definition eqk (x y : option K) : bool := match opt_cmp cmp x y with Eq => true | _ => false end.
  Fixpoint lexk (x y : kpos) : comparison :=
    match x, y with a :: x', b :: y' => lex (opt_cmp cmp a b) (lexk x' y') | _, _ => Eq end.
  Fixpoint park (x y : kpos) : bool :=
    match x, y with a :: x', b :: y' => if eqk a b then park x' y' else is_none a | _, _ => false end.
  Definition firsts : kparts -> kpos := map (option_map fst).
  Definition lasts : kparts -> kpos := map (option_map snd).
  Definition fcond l m := cmp_le (lexk (firsts l) (firsts m)) || park (firsts l) (firsts m).
  Definition lcond l m := cmp_ge (lexk (lasts l) (lasts m)) || park (lasts l) (lasts m).
  Definition all_none {A} (l : list (option A)) : Prop := Forall (fun o => o = None) l.
  Fixpoint kden (l : kparts) (p : kpos) : Prop :=
    match l, p with
    | [], _ => True
    | Some (a, b) :: l', Some k :: p' => cmp a k <> Gt /\ cmp k b <> Gt /\ kden l' p'
    | Some _ :: _, _ => False
    | None :: l', x :: p' => all_none l' \/ (x = None /\ kden l' p')
    | None :: l', [] => True
    end.
  Fixpoint kwf (l : kparts) : Prop :=
    match l with
    | [] => True
    | Some (a, b) :: l' => (a <> b -> all_none l') /\ kwf l'
    | None :: l' => kwf l'
    end.
  Fixpoint kord (l : kparts) : Prop :=
    match l with
    | [] => True
    | Some (a, b) :: l' => cmp a b <> Gt /\ kord l'
    | None :: l' => kord l'
    end.
  Fixpoint kskip (l m : kparts) : Prop :=
    match l, m with
    | None :: l', o :: m' => (all_none l' \/ o = None) /\ kskip l' m'
    | Some _ :: l', _ :: m' => kskip l' m'
    | _, _ => True
    end.
  Lemma all_none_dec {A} (l : list (option A)) : all_none l \/ ~ all_none l.
  Proof.
    induction l as [|[x|] l [IH|IH]]; [left; constructor| | | |].
    - right. intros H. inversion H. discriminate.
    - right. intros H. inversion H. discriminate.
    - left. constructor; auto.
    - right. intros H. inversion H. auto.
  Qed.
  Lemma all_none_map {A B} (f : A -> B) l : all_none (map (option_map f) l) <-> all_none l.
  Proof.
    unfold all_none. rewrite Forall_map. split; apply Forall_impl; intros []; cbn; congruence.
  Qed.
  Lemma cmp_refl_k x : cmp x x = Eq.
  Proof. apply (to_refl T). Qed.
  Lemma none_first l : forall m, all_none l -> List.length l = List.length m ->
    cmp_le (lexk l m) = true /\ (cmp_ge (lexk l m) || park l m) = true.
  Proof.
    induction l as [|o l IH]; intros [|x m] H E; try discriminate; [split; reflexivity|].
    inversion H as [|? ? H1 H2]; subst. cbn in E. injection E as E. destruct (IH m H2 E) as [I1 I2].
    destruct x as [x|]; cbn; auto.
  Qed.
  Lemma kden_firsts l : kord l -> kden l (firsts l).
  Proof.
    induction l as [|[[a b]|] l IH]; cbn; auto.
    - intros [H1 H2]. rewrite cmp_refl_k. repeat split; auto; discriminate.
  Qed.
  Lemma kden_lasts l : kord l -> kden l (lasts l).
  Proof.
    induction l as [|[[a b]|] l IH]; cbn; auto.
    - intros [H1 H2]. rewrite cmp_refl_k. repeat split; auto; discriminate.
  Qed.
  Lemma kden_none l p : all_none l -> kden l p.
  Proof.
    induction 1 as [|o l H1 H2 IH] in p |- *; cbn; auto. subst. destruct p; auto.
  Qed.
  (** One kind of key per level. *)
  Definition goodo (P : K -> Prop) (o : option K) : Prop := match o with Some k => P k | None => True end.
  Definition good (ks : list (K -> Prop)) (p : kpos) : Prop := Forall2 goodo ks p.
  Lemma good_len ks p : good ks p -> List.length p = List.length ks.
  Proof. induction 1; cbn; congruence. Qed.
  Lemma not_none_den l : ~ all_none l -> forall ks, List.length ks = List.length l -> exists p, good ks p /\ ~ kden l p.
  Proof.
    assert (NG : forall ks, good ks (map (fun _ => None) ks)) by (induction ks; constructor; cbn; auto).
    induction l as [|[[a b]|] l IH]; intros H ks E; [destruct H; constructor| |].
    - exists (map (fun _ => None) ks). split; [apply NG|]. destruct ks; [discriminate|]. cbn. auto.
    - assert (N : ~ all_none l) by (intros X; apply H; constructor; auto).
      destruct ks as [|k ks]; [discriminate|]. cbn in E. injection E as E.
      destruct (IH N ks E) as (p & G & D). exists (None :: p). split; [constructor; cbn; auto|]. cbn. tauto.
  Qed.
  Lemma eqk_some a b : eqk (Some a) (Some b) = match cmp a b with Eq => true | _ => false end.
  Proof. reflexivity. Qed.
  Lemma fcond_some a l c m : fcond (Some a :: l) (Some c :: m) =
    match cmp (fst a) (fst c) with Lt => true | Eq => fcond l m | Gt => false end.
  Proof. unfold fcond. cbn. unfold eqk. cbn. destruct (cmp (fst a) (fst c)); cbn; reflexivity. Qed.
  Lemma lcond_some a l c m : lcond (Some a :: l) (Some c :: m) =
    match cmp (snd a) (snd c) with Gt => true | Eq => lcond l m | Lt => false end.
  Proof. unfold lcond. cbn. unfold eqk. cbn. destruct (cmp (snd a) (snd c)); cbn; reflexivity. Qed.
  Lemma len_map l (m : kparts) : List.length l = List.length m -> List.length (firsts l) = List.length (firsts m)
    /\ List.length (lasts l) = List.length (lasts m).
  Proof. unfold firsts, lasts. rewrite !map_length. auto. Qed.
  Lemma contains_k l : forall m ks, List.length l = List.length m -> good ks (firsts m) -> good ks (lasts m) ->
    kwf l -> kord m -> kskip l m ->
    (fcond l m && lcond l m = true <-> forall p, good ks p -> kden m p -> kden l p).
  Proof.
    induction l as [|o l IH]; intros m ks EL GF GL W O S.
    { destruct m; [|discriminate]. cbn. intuition. }
    destruct (all_none_dec (o :: l)) as [AN|AN].
    { assert (C : fcond (o :: l) m && lcond (o :: l) m = true).
      { apply andb_true_iff. destruct (len_map _ _ EL) as [L1 L2].
        pose proof (none_first (firsts (o :: l)) (firsts m) (proj2 (all_none_map _ _) AN) L1) as [A _].
        pose proof (none_first (lasts (o :: l)) (lasts m) (proj2 (all_none_map _ _) AN) L2) as [_ B].
        unfold fcond, lcond. rewrite A, B. auto. }
      split; auto. intros _ p _ _. now apply kden_none. }
    destruct m as [|q m]; [discriminate|]. cbn in EL. injection EL as EL.
    pose proof GF as GF0. pose proof GL as GL0.
    destruct ks as [|k0 ks]; [inversion GF|]. inversion GF as [|? ? ? ? GF1 GF2]; subst.
    inversion GL as [|? ? ? ? GL1 GL2]; subst.
    destruct o as [[a b]|].
    - cbn in W. destruct W as [W1 W2]. destruct q as [[c d]|].
      + cbn in O. destruct O as [O1 O2]. cbn in S.
        rewrite fcond_some, lcond_some. cbn [fst snd].
        specialize (IH m ks EL GF2 GL2 W2 O2 S).
        destruct (cmp a b) eqn:AB.
        * apply (to_eq _ T) in AB. subst b.
          split.
          -- intros C p LP D. apply andb_true_iff in C as [C1 C2].
             assert (a = c /\ d = a) as [<- ->].
             { destruct (cmp a c) eqn:X; try discriminate.
               - apply (to_eq _ T) in X. subst c. split; auto. destruct (cmp a d) eqn:Y; try discriminate.
                 + now apply (to_eq _ T) in Y.
                 + congruence.
               - assert (cmp c a <> Gt).
                 { destruct (cmp a d) eqn:Y; try discriminate.
                   - apply (to_eq _ T) in Y. now subst.
                   - apply (to_le_trans T c d a); auto. rewrite (to_opp _ T a d), Y. discriminate. }
                 rewrite (to_opp _ T a c), X in H. destruct H; reflexivity. }
             rewrite cmp_refl_k in C1, C2. cbn in D. destruct p as [|[k|] p]; try contradiction.
             destruct D as (D1 & D2 & D3). cbn. repeat split; auto.
             apply (proj1 IH); auto; [now rewrite C1, C2|]. now inversion LP.
          -- intros H.
             pose proof (H _ GF0 (kden_firsts (Some (c, d) :: m) (conj O1 O2))) as HF.
             pose proof (H _ GL0 (kden_lasts (Some (c, d) :: m) (conj O1 O2))) as HL.
             cbn in HF, HL. destruct HF as (F1 & F2 & _), HL as (L1 & L2 & _).
             assert (c = a) as ->.
             { apply (to_eq _ T). destruct (cmp c a) eqn:X; auto; [|congruence].
               rewrite (to_opp _ T c a), X in F1. destruct F1; reflexivity. }
             assert (d = a) as ->.
             { apply (to_eq _ T). destruct (cmp d a) eqn:X; auto; [|congruence].
               rewrite (to_opp _ T d a), X in L1. destruct L1; reflexivity. }
             rewrite cmp_refl_k. apply IH. intros p LP D.
             specialize (H (Some a :: p)). cbn in H. rewrite cmp_refl_k in H.
             apply H; [constructor; auto|]. repeat split; auto; discriminate.
        * assert (N : all_none l) by (apply W1; intros ->; rewrite cmp_refl_k in AB; discriminate).
          assert (FL : fcond l m = true /\ lcond l m = true).
          { destruct (len_map _ _ EL) as [X1 X2].
            pose proof (none_first (firsts l) (firsts m) (proj2 (all_none_map _ _) N) X1) as [A _].
            pose proof (none_first (lasts l) (lasts m) (proj2 (all_none_map _ _) N) X2) as [_ B].
            unfold fcond, lcond. rewrite A, B. auto. }
          destruct FL as [-> ->].
          split.
          -- intros C p LP D. apply andb_true_iff in C as [C1 C2]. destruct p as [|[k|] p]; try contradiction.
             destruct D as (D1 & D2 & D3). cbn. split; [|split; [|now apply kden_none]].
             ++ apply (to_le_trans T a c k); auto. destruct (cmp a c); congruence.
             ++ apply (to_le_trans T k d b); auto. rewrite (to_opp _ T b d). destruct (cmp b d); cbn; congruence.
          -- intros H.
             pose proof (H _ GF0 (kden_firsts (Some (c, d) :: m) (conj O1 O2))) as HF.
             pose proof (H _ GL0 (kden_lasts (Some (c, d) :: m) (conj O1 O2))) as HL.
             cbn in HF, HL. destruct HF as (F1 & F2 & _), HL as (L1 & L2 & _).
             rewrite (to_opp _ T b d) in L2. destruct (cmp a c), (cmp b d); cbn in *; auto; congruence.
        * assert (N : all_none l) by (apply W1; intros ->; rewrite cmp_refl_k in AB; discriminate).
          assert (FL : fcond l m = true /\ lcond l m = true).
          { destruct (len_map _ _ EL) as [X1 X2].
            pose proof (none_first (firsts l) (firsts m) (proj2 (all_none_map _ _) N) X1) as [A _].
            pose proof (none_first (lasts l) (lasts m) (proj2 (all_none_map _ _) N) X2) as [_ B].
            unfold fcond, lcond. rewrite A, B. auto. }
          destruct FL as [-> ->].
          split.
          -- intros C p LP D. apply andb_true_iff in C as [C1 C2]. destruct p as [|[k|] p]; try contradiction.
             destruct D as (D1 & D2 & D3). cbn. split; [|split; [|now apply kden_none]].
             ++ apply (to_le_trans T a c k); auto. destruct (cmp a c); congruence.
             ++ apply (to_le_trans T k d b); auto. rewrite (to_opp _ T b d). destruct (cmp b d); cbn; congruence.
          -- intros H.
             pose proof (H _ GF0 (kden_firsts (Some (c, d) :: m) (conj O1 O2))) as HF.
             pose proof (H _ GL0 (kden_lasts (Some (c, d) :: m) (conj O1 O2))) as HL.
             cbn in HF, HL. destruct HF as (F1 & F2 & _), HL as (L1 & L2 & _).
             rewrite (to_opp _ T b d) in L2. destruct (cmp a c), (cmp b d); cbn in *; auto; congruence.
      + cbn in O. split.
        * unfold fcond. cbn. discriminate.
        * intros H. pose proof (H _ GF0 (kden_firsts (None :: m) O)) as HF. cbn in HF. contradiction.
    - assert (N : ~ all_none l) by (intros X; apply AN; constructor; auto).
      cbn in S. destruct S as [[S1|S1] S2]; [contradiction|]. subst q. cbn in W, O.
      specialize (IH m ks EL GF2 GL2 W O S2).
      assert (C : fcond (None :: l) (None :: m) && lcond (None :: l) (None :: m) = fcond l m && lcond l m) by reflexivity.
      rewrite C, IH. split.
      + intros H p LP D. destruct p as [|x p]; [inversion LP|]. inversion LP as [|? ? ? ? LP1 LP2]; subst. cbn.
        destruct D as [D|[-> D]]; [|right; auto].
        exfalso. destruct (not_none_den l N ks) as (p' & L' & D').
        { rewrite EL. apply good_len in GF2. rewrite <- GF2. unfold firsts. now rewrite map_length. }
        apply D'. apply H; auto. now apply kden_none.
      + intros H p LP D. specialize (H (None :: p)). cbn in H.
        destruct (H ltac:(constructor; cbn; auto) (or_intror (conj eq_refl D))) as [X|[_ X]]; [contradiction|exact X].
  Qed.
End Keys.

(** ** C14: references as lists of keys *)
Inductive key :=
| KArt (a : article_id) | KPar (n : numeric) | KPtN (n : numeric) | KPtA (h : hic) | KSpN (n : numeric) | KSpA (p : prefixed).
Definition key_cmp (x y : key) : comparison :=
  match x, y with
  | KArt a, KArt b => article_cmp a b
  | KPar a, KPar b => numeric_cmp a b
  | KPtN a, KPtN b => numeric_cmp a b
  | KPtA a, KPtA b => hic_cmp a b
  | KSpN a, KSpN b => numeric_cmp a b
  | KSpA a, KSpA b => prefixed_cmp a b
  | KArt _, _ => Lt | _, KArt _ => Gt
  | KPar _, _ => Lt | _, KPar _ => Gt
  | KPtN _, _ => Lt | _, KPtN _ => Gt
  | KPtA _, _ => Lt | _, KPtA _ => Gt
  | KSpN _, _ => Lt | _, KSpN _ => Gt
  end.
Lemma key_total_ord : TotalOrd key_cmp.
Proof.
  constructor.
  - intros [] []; cbn; try (split; discriminate);
    rewrite ?(to_eq _ article_total), ?(to_eq _ numeric_total), ?(to_eq _ hic_total), ?(to_eq _ prefixed_total);
    split; congruence.
  - intros [] []; cbn; try reflexivity;
    (apply article_total || apply numeric_total || apply hic_total || apply prefixed_total).
  - intros [] [] []; cbn; try discriminate; auto;
    (apply article_total || apply numeric_total || apply hic_total || apply prefixed_total).
Qed.
Definition pair_map {A} (f : A -> key) (r : range A) : key * key := (f (r_start r), f (r_end r)).
Definition keys (r : reference) : list (option (key * key)) :=
  [ option_map (pair_map KArt) (f_article r); option_map (pair_map KPar) (f_paragraph r);
    option_map (fun p => match p with PtNum n => pair_map KPtN n | PtAlpha a => pair_map KPtA a end) (f_point r);
    option_map (fun p => match p with SpNum n => pair_map KSpN n | SpAlpha a => pair_map KSpA a end) (f_subpoint r) ].
Definition pos_keys (p : position) : list (option key) :=
  [ option_map KArt (p_article p); option_map KPar (p_paragraph p);
    option_map (fun k => match k with KNum n => KPtN n | KAlpha a => KPtA a end) (p_point p);
    option_map (fun k => match k with KSNum n => KSpN n | KSAlpha a => KSpA a end) (p_subpoint p) ].
Definition kinds : list (key -> Prop) :=
  [ fun k => exists a, k = KArt a; fun k => exists a, k = KPar a;
    fun k => (exists a, k = KPtN a) \/ (exists a, k = KPtA a); fun k => (exists a, k = KSpN a) \/ (exists a, k = KSpA a) ].
Lemma good_first r : good kinds (firsts (keys r)).
Proof. destruct r as [? [] [] [[]|] [[]|]]; repeat apply Forall2_cons; try apply Forall2_nil; cbn; eauto. Qed.
Lemma good_last r : good kinds (lasts (keys r)).
Proof. destruct r as [? [] [] [[]|] [[]|]]; repeat apply Forall2_cons; try apply Forall2_nil; cbn; eauto. Qed.
Lemma good_pos a p : good kinds p <-> exists q, p_act q = a /\ pos_keys q = p.
Proof.
  split.
  - intros H. inversion H as [|? o1 ? t1 H1 G1]; subst. inversion G1 as [|? o2 ? t2 H2 G2]; subst.
    inversion G2 as [|? o3 ? t3 H3 G3]; subst. inversion G3 as [|? o4 ? t4 H4 G4]; subst. inversion G4; subst.
    assert (E1 : exists q, option_map KArt q = o1).
    { destruct o1; [destruct H1 as [a1 ->]; now exists (Some a1)|now exists None]. }
    assert (E2 : exists q, option_map KPar q = o2).
    { destruct o2; [destruct H2 as [a2 ->]; now exists (Some a2)|now exists None]. }
    assert (E3 : exists q, option_map (fun k => match k with KNum n => KPtN n | KAlpha a => KPtA a end) q = o3).
    { destruct o3; [destruct H3 as [[a3 ->]|[a3 ->]]; [now exists (Some (KNum a3))|now exists (Some (KAlpha a3))]|now exists None]. }
    assert (E4 : exists q, option_map (fun k => match k with KSNum n => KSpN n | KSAlpha a => KSpA a end) q = o4).
    { destruct o4; [destruct H4 as [[a4 ->]|[a4 ->]]; [now exists (Some (KSNum a4))|now exists (Some (KSAlpha a4))]|now exists None]. }
    destruct E1 as [q1 <-], E2 as [q2 <-], E3 as [q3 <-], E4 as [q4 <-].
    now exists (mkPos a q1 q2 q3 q4).
  - intros (q & _ & <-). destruct q as [? [] [] [[]|] [[]|]]; repeat apply Forall2_cons; try apply Forall2_nil; cbn; eauto.
Qed.
Lemma lex_same c : lex c c = c.
Proof. now destruct c. Qed.
Lemma ref_cmp_keys a b : ref_cmp (first_in_range a) (first_in_range b) =
    lex (opt_cmp act_cmp (f_act a) (f_act b)) (lexk key_cmp (firsts (keys a)) (firsts (keys b))) /\
  ref_cmp (last_in_range a) (last_in_range b) =
    lex (opt_cmp act_cmp (f_act a) (f_act b)) (lexk key_cmp (lasts (keys a)) (lasts (keys b))).
Proof.
  destruct a as [a1 a2 a3 a4 a5], b as [b1 b2 b3 b4 b5].
  unfold ref_cmp, first_in_range, last_in_range, keys, firsts, lasts. cbn [map lexk f_act f_article f_paragraph f_point f_subpoint].
  assert (L : forall x, lex x Eq = x) by (now intros []).
  rewrite !L.
  split; (f_equal; f_equal; [destruct a2, b2; cbn; unfold range_cmp; cbn; rewrite ?lex_same; reflexivity|];
    f_equal; [destruct a3, b3; cbn; unfold range_cmp; cbn; rewrite ?lex_same; reflexivity|];
    f_equal; [destruct a4 as [[]|], b4 as [[]|]; cbn; unfold range_cmp; cbn; rewrite ?lex_same; reflexivity|];
    destruct a5 as [[]|], b5 as [[]|]; cbn; unfold range_cmp; cbn; rewrite ?lex_same; reflexivity).
Qed.
Lemma eqk_key x y : eqk key_cmp x y = true <-> x = y.
Proof.
  unfold eqk. rewrite <- (to_eq _ (opt_total _ key_total_ord) x y). destruct (opt_cmp key_cmp x y); split; congruence.
Qed.
Lemma bool_iff (a b : bool) : (a = true <-> b = true) -> a = b.
Proof. destruct a, b; intuition congruence. Qed.
Ltac some_inj := repeat match goal with
  | H : Some _ = Some _ |- _ => injection H; clear H; intros
  | H : single _ = single _ |- _ => injection H; clear H; intros
  | H : mkRange _ _ = mkRange _ _ |- _ => injection H; clear H; intros
  | H : PtNum _ = PtNum _ |- _ => injection H; clear H; intros
  | H : PtAlpha _ = PtAlpha _ |- _ => injection H; clear H; intros
  | H : SpNum _ = SpNum _ |- _ => injection H; clear H; intros
  | H : SpAlpha _ = SpAlpha _ |- _ => injection H; clear H; intros
  end.
Lemma parent_keys a b :
  is_parent_of (first_in_range a) (first_in_range b) =
    (opt_eqb act_eqb (f_act a) (f_act b) && park key_cmp (firsts (keys a)) (firsts (keys b)))%bool /\
  is_parent_of (last_in_range a) (last_in_range b) =
    (opt_eqb act_eqb (f_act a) (f_act b) && park key_cmp (lasts (keys a)) (lasts (keys b)))%bool.
Proof.
  destruct a as [a1 a2 a3 a4 a5], b as [b1 b2 b3 b4 b5].
  unfold is_parent_of, first_in_range, last_in_range, keys, firsts, lasts. cbn [map park f_act f_article f_paragraph f_point f_subpoint].
  destruct (opt_eqb act_eqb a1 b1); cbn [negb andb]; [|auto].
  assert (F : forall (c : bool) (x y : bool), (if negb c then x else y) = (if c then y else x)) by (now intros []).
  rewrite !F. clear F.
  assert (G : forall (c c' : bool) (x y x' y' : bool), c = c' -> x = x' -> y = y' -> (if c then x else y) = (if c' then x' else y')) by (now intros; subst).
  split; repeat apply G; try reflexivity;
    try (destruct a2; reflexivity); try (destruct a3; reflexivity); try (destruct a4; reflexivity); try (destruct a5; reflexivity);
    apply bool_iff; rewrite eqk_key, ?article_part_eqb_eq, ?paragraph_part_eqb_eq, ?point_part_eqb_eq, ?subpoint_part_eqb_eq.
  - destruct a2, b2; cbn; split; intros E; some_inj; congruence.
  - destruct a3, b3; cbn; split; intros E; some_inj; congruence.
  - destruct a4 as [[]|], b4 as [[]|]; cbn; split; intros E; some_inj; congruence.
  - destruct a5 as [[]|], b5 as [[]|]; cbn; split; intros E; some_inj; congruence.
  - destruct a2, b2; cbn; split; intros E; some_inj; congruence.
  - destruct a3, b3; cbn; split; intros E; some_inj; congruence.
  - destruct a4 as [[]|], b4 as [[]|]; cbn; split; intros E; some_inj; congruence.
  - destruct a5 as [[]|], b5 as [[]|]; cbn; split; intros E; some_inj; congruence.
Qed.
Lemma contains_keys a b : contains a b =
  (opt_eqb act_eqb (f_act a) (f_act b) && (fcond key_cmp (keys a) (keys b) && lcond key_cmp (keys a) (keys b)))%bool.
Proof.
  unfold contains. destruct (ref_cmp_keys a b) as [-> ->], (parent_keys a b) as [-> ->].
  destruct (opt_dec _ act_part_eqb_eq (f_act a) (f_act b)) as [[-> ->]|[-> N]]; cbn [andb].
  - rewrite (to_refl (opt_total _ act_total)). reflexivity.
  - rewrite !orb_false_r. destruct (opt_cmp act_cmp (f_act a) (f_act b)) eqn:E; cbn [lex cmp_le cmp_ge andb].
    + apply (to_eq _ (opt_total _ act_total)) in E. contradiction.
    + reflexivity.
    + reflexivity.
Qed.
