(** Proofs about references: well-formedness, builder, parents, ranges (C08, C09, C11-C13, C15-C17). *)
From Verif Require Export SpecRef ProofIdent4.

Lemma eqb_false_iff {A} (eqb : A -> A -> bool) (H : forall x y, eqb x y = true <-> x = y) x y :
  eqb x y = false <-> x <> y.
Proof. rewrite <- (H x y). destruct (eqb x y); intuition congruence. Qed.
Lemma range_eqb_eq {T} `{IdentCommon T} (L : forall x y : T, id_eqb x y = true <-> x = y) (x y : range T) :
  range_eqb x y = true <-> x = y.
Proof.
  unfold range_eqb. rewrite andb_true_iff, !L. destruct x, y; cbn. split; [intros [-> ->]|intros [= -> ->]]; auto.
Qed.
Lemma is_range_iff {T} `{IdentCommon T} (L : forall x y : T, id_eqb x y = true <-> x = y) (x : range T) :
  is_range x = true <-> r_start x <> r_end x.
Proof. unfold is_range. rewrite negb_true_iff. apply eqb_false_iff, L. Qed.
Lemma point_eqb_eq x y : point_eqb x y = true <-> x = y.
Proof.
  destruct x, y; cbn; try (split; congruence).
  - rewrite (range_eqb_eq (H:=numeric_common) numeric_eqb_eq). split; [intros ->|intros [= ->]]; auto.
  - rewrite (range_eqb_eq (H:=hic_common) hic_eqb_eq). split; [intros ->|intros [= ->]]; auto.
Qed.
Lemma subpoint_eqb_eq x y : subpoint_eqb x y = true <-> x = y.
Proof.
  destruct x, y; cbn; try (split; congruence).
  - rewrite (range_eqb_eq (H:=numeric_common) numeric_eqb_eq). split; [intros ->|intros [= ->]]; auto.
  - rewrite (range_eqb_eq (H:=prefixed_common) prefixed_eqb_eq). split; [intros ->|intros [= ->]]; auto.
Qed.
Lemma article_part_eqb_eq x y : article_part_eqb x y = true <-> x = y.
Proof. apply opt_eqb_eq, (range_eqb_eq (H:=article_common) article_eqb_eq). Qed.
Lemma paragraph_part_eqb_eq x y : paragraph_part_eqb x y = true <-> x = y.
Proof. apply opt_eqb_eq, (range_eqb_eq (H:=numeric_common) numeric_eqb_eq). Qed.
Lemma point_part_eqb_eq x y : opt_eqb point_eqb x y = true <-> x = y.
Proof. apply opt_eqb_eq, point_eqb_eq. Qed.
Lemma subpoint_part_eqb_eq x y : opt_eqb subpoint_eqb x y = true <-> x = y.
Proof. apply opt_eqb_eq, subpoint_eqb_eq. Qed.
Lemma act_part_eqb_eq x y : opt_eqb act_eqb x y = true <-> x = y.
Proof. apply opt_eqb_eq, act_eqb_eq. Qed.
Lemma ref_eqb_eq x y : ref_eqb x y = true <-> x = y.
Proof.
  unfold ref_eqb. rewrite !andb_true_iff, act_part_eqb_eq, article_part_eqb_eq, paragraph_part_eqb_eq,
    point_part_eqb_eq, subpoint_part_eqb_eq.
  destruct x, y; cbn. split; [intros [[[[-> ->] ->] ->] ->]; auto | intros [= -> -> -> -> ->]; auto].
Qed.

(** ** Well-formedness *)
Lemma present_act r : present r LAct <-> is_some (f_act r) = true.
Proof. unfold present, part. destruct (f_act r); cbn; split; congruence. Qed.
Lemma present_article r : present r LArticle <-> is_some (f_article r) = true.
Proof. unfold present, part. destruct (f_article r); cbn; split; congruence. Qed.
Lemma present_paragraph r : present r LParagraph <-> is_some (f_paragraph r) = true.
Proof. unfold present, part. destruct (f_paragraph r); cbn; split; congruence. Qed.
Lemma present_point r : present r LPoint <-> is_some (f_point r) = true.
Proof. unfold present, part. destruct (f_point r); cbn; split; congruence. Qed.
Lemma present_subpoint r : present r LSubpoint <-> is_some (f_subpoint r) = true.
Proof. unfold present, part. destruct (f_subpoint r); cbn; split; congruence. Qed.
Lemma present_dec r l : present r l \/ ~ present r l.
Proof. unfold present. destruct (part r l); [right|left|left|left|left|left]; congruence. Qed.

Lemma check_parts_iff r : check_parts r = true <->
  (present r LSubpoint -> present r LArticle \/ present r LParagraph -> present r LPoint) /\
  (present r LAct -> (exists l, finer l LArticle /\ present r l) -> present r LArticle).
Proof.
  assert (E : (exists l, finer l LArticle /\ present r l) <->
              present r LParagraph \/ present r LPoint \/ present r LSubpoint).
  { split.
    - intros (l & F & P). destruct l; unfold finer in F; cbn in F; try lia; auto.
    - intros [P|[P|P]]; eexists; (split; [|exact P]); unfold finer; cbn; lia. }
  rewrite E, present_act, present_article, present_paragraph, present_point, present_subpoint.
  unfold check_parts. clear E.
  destruct (is_some (f_act r)), (is_some (f_article r)), (is_some (f_paragraph r)), (is_some (f_point r)),
    (is_some (f_subpoint r)); intuition congruence.
Qed.

Definition range_at (r : reference) (l : level) : bool :=
  match l with
  | LAct => false
  | LArticle => match f_article r with Some x => is_range x | None => false end
  | LParagraph => match f_paragraph r with Some x => is_range x | None => false end
  | LPoint => match f_point r with Some x => point_is_range x | None => false end
  | LSubpoint => match f_subpoint r with Some x => subpoint_is_range x | None => false end
  end.
Lemma range_at_iff r l : range_at r l = true <-> real_range (part r l).
Proof.
  destruct l; cbn [range_at part].
  - destruct (f_act r); cbn; intuition congruence.
  - destruct (f_article r); [apply (is_range_iff (H:=article_common) article_eqb_eq)|cbn; intuition congruence].
  - destruct (f_paragraph r); [apply (is_range_iff (H:=numeric_common) numeric_eqb_eq)|cbn; intuition congruence].
  - destruct (f_point r) as [[]|]; [apply (is_range_iff (H:=numeric_common) numeric_eqb_eq)|apply (is_range_iff (H:=hic_common) hic_eqb_eq)|cbn; intuition congruence].
  - destruct (f_subpoint r) as [[]|]; [apply (is_range_iff (H:=numeric_common) numeric_eqb_eq)|apply (is_range_iff (H:=prefixed_common) prefixed_eqb_eq)|cbn; intuition congruence].
Qed.
Lemma is_none_iff {A} (o : option A) : is_none o = true <-> ~ is_some o = true.
Proof. destruct o; cbn; split; congruence. Qed.
Lemma check_ranges_iff r : check_ranges r = true <->
  forall l l', real_range (part r l) -> finer l' l -> ~ present r l'.
Proof.
  assert (D : check_ranges r =
    (if range_at r LArticle then is_none (f_paragraph r) && is_none (f_point r) && is_none (f_subpoint r) else true)
    && (if range_at r LParagraph then is_none (f_point r) && is_none (f_subpoint r) else true)
    && (if range_at r LPoint then is_none (f_subpoint r) else true)).
  { unfold check_ranges, range_at. destruct (f_article r), (f_paragraph r), (f_point r); reflexivity. }
  rewrite D. clear D. split.
  - intros H l l' HR HF HP. apply range_at_iff in HR. unfold finer in HF.
    rewrite !andb_true_iff in H. destruct H as [[H1 H2] H3].
    destruct l; cbn in HF; try (cbn in HR; discriminate);
      [rewrite HR in H1; rewrite !andb_true_iff, !is_none_iff in H1
      |rewrite HR in H2; rewrite !andb_true_iff, !is_none_iff in H2
      |rewrite HR in H3; rewrite !is_none_iff in H3
      |destruct l'; cbn in HF; lia];
    destruct l'; cbn in HF; try lia; rewrite ?present_paragraph, ?present_point, ?present_subpoint in HP; tauto.
  - intros H. rewrite !andb_true_iff. repeat split.
    + destruct (range_at r LArticle) eqn:E; [|reflexivity]. apply range_at_iff in E.
      rewrite !andb_true_iff, !is_none_iff, <- present_paragraph, <- present_point, <- present_subpoint.
      repeat split; apply (H _ _ E); unfold finer; cbn; lia.
    + destruct (range_at r LParagraph) eqn:E; [|reflexivity]. apply range_at_iff in E.
      rewrite !andb_true_iff, !is_none_iff, <- present_point, <- present_subpoint.
      repeat split; apply (H _ _ E); unfold finer; cbn; lia.
    + destruct (range_at r LPoint) eqn:E; [|reflexivity]. apply range_at_iff in E.
      rewrite !is_none_iff, <- present_subpoint.
      apply (H _ _ E); unfold finer; cbn; lia.
Qed.
Lemma wf_check r : well_formed r <-> check_parts r = true /\ check_ranges r = true.
Proof.
  rewrite check_parts_iff, check_ranges_iff. split.
  - intros [A B C]. auto.
  - intros [[A B] C]. now constructor.
Qed.
Lemma try_ref_ok r x : try_ref r = Ok x <-> x = r /\ well_formed r.
Proof.
  rewrite wf_check. unfold try_ref. destruct (check_parts r), (check_ranges r); cbn; intuition congruence.
Qed.
Lemma try_ref_wf r : well_formed r -> try_ref r = Ok r.
Proof. intros H. now apply try_ref_ok. Qed.
Lemma try_ref_not_panic r : try_ref r <> Panic.
Proof. unfold try_ref. destruct (check_parts r), (check_ranges r); cbn; congruence. Qed.

(** same presence, and ranges only where the other had one *)
Lemma wf_shape a b :
  (forall l, present b l <-> present a l) -> (forall l, real_range (part b l) -> real_range (part a l)) ->
  well_formed a -> well_formed b.
Proof.
  intros P R [A B C]. constructor.
  - rewrite !P. exact A.
  - rewrite !P. intros X (l & F & Y). apply P in Y. apply B; eauto.
  - intros l l' X F Y. apply P in Y. apply (C l l'); auto.
Qed.
Lemma wf_parent r : well_formed r -> well_formed (parent r).
Proof.
  rewrite !wf_check. unfold parent, check_parts, check_ranges. destruct r as [[a|] [b|] [c|] [d|] [e|]]; cbn; intros [H1 H2];
  try discriminate; split; try reflexivity;
  rewrite ?andb_true_iff in *; intuition;
    repeat match goal with |- context [if ?b then _ else _] => destruct b end; cbn in *; intuition congruence.
Qed.
Lemma first_present r l : present (first_in_range r) l <-> present r l.
Proof.
  destruct l; rewrite ?present_act, ?present_article, ?present_paragraph, ?present_point, ?present_subpoint;
  cbn; destruct r as [[a|] [b|] [c|] [d|] [e|]]; cbn; tauto.
Qed.
Lemma last_present r l : present (last_in_range r) l <-> present r l.
Proof.
  destruct l; rewrite ?present_act, ?present_article, ?present_paragraph, ?present_point, ?present_subpoint;
  cbn; destruct r as [[a|] [b|] [c|] [d|] [e|]]; cbn; tauto.
Qed.
Lemma first_part r l : part (first_in_range r) l = start_of (part r l).
Proof. destruct l; cbn; destruct r as [[a|] [b|] [c|] [[]|] [[]|]]; reflexivity. Qed.
Lemma last_part r l : part (last_in_range r) l = end_of (part r l).
Proof. destruct l; cbn; destruct r as [[a|] [b|] [c|] [[]|] [[]|]]; reflexivity. Qed.
Lemma start_of_single p : ~ real_range (start_of p).
Proof. destruct p as [| | | |[]|[]]; cbn; tauto. Qed.
Lemma end_of_single p : ~ real_range (end_of p).
Proof. destruct p as [| | | |[]|[]]; cbn; tauto. Qed.
Lemma wf_first r : well_formed r -> well_formed (first_in_range r).
Proof.
  apply wf_shape; intros l; [apply first_present|]. rewrite first_part. intros H. now apply start_of_single in H.
Qed.
Lemma wf_last r : well_formed r -> well_formed (last_in_range r).
Proof.
  apply wf_shape; intros l; [apply last_present|]. rewrite last_part. intros H. now apply end_of_single in H.
Qed.
Lemma wf_without_act r : well_formed r -> well_formed (without_act r).
Proof.
  rewrite !wf_check. unfold check_parts, check_ranges. destruct r as [[a|] [b|] [c|] [d|] [e|]]; cbn;
  intros [H1 H2]; try discriminate; auto.
Qed.
Lemma wf_single_elem r : check_parts r && check_ranges r = true -> well_formed r.
Proof. rewrite andb_true_iff. apply wf_check. Qed.

Lemma make_range_try s e r : make_range s e = Ok r -> exists u, try_ref u = Ok r.
Proof.
  unfold make_range, build, ensure. intros H.
  repeat (match type of H with
  | (let* _ := (if ?b then _ else _) in _) = _ => destruct b; cbn [obind] in H; try discriminate
  | (if ?b then _ else _) = _ => destruct b
  | match ?o with _ => _ end = _ => destruct o; try discriminate
  end); eauto.
Qed.
Ltac wf_elem :=
  apply wf_single_elem; unfold check_ranges, check_parts, ref_of_act, ref_of_article, ref_of_act_article,
    ref_of_article_elem, ref_of_paragraph_elem, ref_of_numeric_point, ref_of_alpha_point, ref_of_numeric_subpoint,
    ref_of_alpha_subpoint, empty_ref;
  try (match goal with i : option numeric |- _ => destruct i end);
  cbn [f_act f_article f_paragraph f_point f_subpoint is_some is_none negb andb option_map];
  repeat match goal with |- context [if ?b then _ else _] => destruct b end; reflexivity.
Lemma c08_wf r : obtainable r -> well_formed r.
Proof.
  induction 1 as [|cs r H|u r H|s r H| | | | | | | | | |a b r _ _ _ _ H|a b r _ _ _ _ H|a _ IH|a _ IH|a _ IH|a _ IH].
  - wf_elem.
  - unfold build in H. apply try_ref_ok in H as [-> H]. exact H.
  - apply try_ref_ok in H as [-> H]. exact H.
  - unfold ref_parse_compact in H.
    destruct (split_on _ s) as [|x1 [|x2 [|x3 [|x4 [|x5 [|]]]]]]; try discriminate.
    do 5 (match type of H with (let* _ := ?e in _) = _ => destruct e; cbn [obind] in H; try discriminate end).
    apply try_ref_ok in H as [-> H]. exact H.
  - wf_elem.
  - wf_elem.
  - wf_elem.
  - wf_elem.
  - wf_elem.
  - wf_elem.
  - wf_elem.
  - wf_elem.
  - wf_elem.
  - apply make_range_try in H as [u H]. apply try_ref_ok in H as [-> H]. exact H.
  - unfold relative_to in H. apply try_ref_ok in H as [-> H]. exact H.
  - now apply wf_parent.
  - now apply wf_first.
  - now apply wf_last.
  - now apply wf_without_act.
Qed.

(** ** C09 *)
Lemma c09_parts cs l : part (do_calls cs) l = last_written (rev cs) l.
Proof.
  unfold do_calls. rewrite <- fold_left_rev_right. induction (rev cs) as [|c k IH].
  - destruct l; reflexivity.
  - cbn [fold_right last_written]. revert IH. generalize (fold_right (fun c b => do_call c b) empty_ref k).
    intros b IH. destruct c, l; cbn; cbn in IH; try reflexivity; exact IH.
Qed.
Lemma c09_build cs : (well_formed (do_calls cs) -> build (do_calls cs) = Ok (do_calls cs)) /\
  (~ well_formed (do_calls cs) -> build (do_calls cs) = Err).
Proof.
  split; unfold build.
  - apply try_ref_wf.
  - intros H. destruct (try_ref (do_calls cs)) eqn:E; [apply try_ref_ok in E; tauto|reflexivity|].
    now apply try_ref_not_panic in E.
Qed.
Lemma part_ext a b : (forall l, part a l = part b l) -> a = b.
Proof.
  intros H. destruct a as [a1 a2 a3 a4 a5], b as [b1 b2 b3 b4 b5].
  pose proof (H LAct) as H1; pose proof (H LArticle) as H2; pose proof (H LParagraph) as H3;
  pose proof (H LPoint) as H4; pose proof (H LSubpoint) as H5. clear H. cbn in *.
  destruct a1, b1; try discriminate; destruct a2, b2; try discriminate; destruct a3, b3; try discriminate;
  destruct a4, b4; try discriminate; destruct a5, b5; try discriminate;
  repeat match goal with H : _ _ = _ _ |- _ => injection H; clear H; intros; subst end; reflexivity.
Qed.

(** ** C11 *)
Definition rel_raw (self other : reference) : reference :=
    if is_some (f_act self) then self
    else if is_some (f_article self) then
      mkRef (f_act other) (f_article self) (f_paragraph self) (f_point self) (f_subpoint self)
    else if is_some (f_paragraph self) then
      mkRef (f_act other) (f_article other) (f_paragraph self) (f_point self) (f_subpoint self)
    else if is_some (f_point self) then
      mkRef (f_act other) (f_article other) (f_paragraph other) (f_point self) (f_subpoint self)
    else if is_some (f_subpoint self) then
      mkRef (f_act other) (f_article other) (f_paragraph other) (f_point other) (f_subpoint self)
    else other.
Lemma rel_raw_eq a b : relative_to a b = try_ref (rel_raw a b).
Proof. reflexivity. Qed.
Lemma rel_assoc_raw a b c : rel_raw (rel_raw a b) c = rel_raw a (rel_raw b c).
Proof.
  destruct a as [[?|] [?|] [?|] [?|] [?|]]; cbn; try reflexivity;
  destruct b as [[?|] [?|] [?|] [?|] [?|]]; cbn; reflexivity.
Qed.
Lemma c11_assoc a b c ab bc r1 r2 :
  relative_to a b = Ok ab -> relative_to ab c = Ok r1 ->
  relative_to b c = Ok bc -> relative_to a bc = Ok r2 -> r1 = r2.
Proof.
  rewrite !rel_raw_eq. intros H1 H2 H3 H4.
  apply try_ref_ok in H1 as [-> _], H2 as [-> _], H3 as [-> _], H4 as [-> _]. apply rel_assoc_raw.
Qed.
Lemma c11_parts a b r l0 : relative_to a b = Ok r -> coarsest a l0 ->
  forall l, part r l = if Nat.ltb (depth l) (depth l0) then part b l else part a l.
Proof.
  rewrite rel_raw_eq. intros H [P F]. apply try_ref_ok in H as [-> _]. intros l.
  assert (G : forall l', finer l0 l' -> part a l' = PartEmpty).
  { intros l' X. specialize (F l' X). unfold present in F. destruct (part a l'); [reflexivity| | | | |]; destruct F; congruence. }
  clear F. unfold rel_raw. destruct l0.
  - apply present_act in P. rewrite P. destruct l; reflexivity.
  - apply present_article in P. pose proof (G LAct ltac:(unfold finer; cbn; lia)) as G1.
    cbn in G1. destruct (f_act a); [discriminate|]. cbn [is_some]. rewrite P. destruct l; reflexivity.
  - apply present_paragraph in P. pose proof (G LAct ltac:(unfold finer; cbn; lia)) as G1.
    pose proof (G LArticle ltac:(unfold finer; cbn; lia)) as G2.
    cbn in G1, G2. destruct (f_act a); [discriminate|]. destruct (f_article a); [discriminate|].
    cbn [is_some]. rewrite P. destruct l; reflexivity.
  - apply present_point in P. pose proof (G LAct ltac:(unfold finer; cbn; lia)) as G1.
    pose proof (G LArticle ltac:(unfold finer; cbn; lia)) as G2.
    pose proof (G LParagraph ltac:(unfold finer; cbn; lia)) as G3.
    cbn in G1, G2, G3. destruct (f_act a); [discriminate|]. destruct (f_article a); [discriminate|].
    destruct (f_paragraph a); [discriminate|].
    cbn [is_some]. rewrite P. destruct l; reflexivity.
  - apply present_subpoint in P. pose proof (G LAct ltac:(unfold finer; cbn; lia)) as G1.
    pose proof (G LArticle ltac:(unfold finer; cbn; lia)) as G2.
    pose proof (G LParagraph ltac:(unfold finer; cbn; lia)) as G3.
    pose proof (G LPoint ltac:(unfold finer; cbn; lia)) as G4.
    cbn in G1, G2, G3, G4. destruct (f_act a); [discriminate|]. destruct (f_article a); [discriminate|].
    destruct (f_paragraph a); [discriminate|]. destruct (f_point a); [discriminate|].
    cbn [is_some]. rewrite P. destruct l; reflexivity.
Qed.
Lemma coarsest_ex r : r <> empty_ref -> exists l, coarsest r l.
Proof.
  intros H. unfold coarsest.
  destruct (present_dec r LAct); [exists LAct; split; [auto|intros []; unfold finer; cbn; lia]|].
  destruct (present_dec r LArticle); [exists LArticle; split; [auto|intros []; unfold finer; cbn; (lia || auto)]|].
  destruct (present_dec r LParagraph); [exists LParagraph; split; [auto|intros []; unfold finer; cbn; (lia || auto)]|].
  destruct (present_dec r LPoint); [exists LPoint; split; [auto|intros []; unfold finer; cbn; (lia || auto)]|].
  destruct (present_dec r LSubpoint); [exists LSubpoint; split; [auto|intros []; unfold finer; cbn; (lia || auto)]|].
  destruct H. apply part_ext. intros []; unfold present in *;
  match goal with |- part r ?l = _ => destruct (part r l) eqn:E; cbn; try reflexivity; exfalso end; intuition congruence.
Qed.
Lemma finest_ex r : r <> empty_ref -> exists l, finest r l.
Proof.
  intros H. unfold finest.
  destruct (present_dec r LSubpoint); [exists LSubpoint; split; [auto|intros []; unfold finer; cbn; lia]|].
  destruct (present_dec r LPoint); [exists LPoint; split; [auto|intros []; unfold finer; cbn; (lia || auto)]|].
  destruct (present_dec r LParagraph); [exists LParagraph; split; [auto|intros []; unfold finer; cbn; (lia || auto)]|].
  destruct (present_dec r LArticle); [exists LArticle; split; [auto|intros []; unfold finer; cbn; (lia || auto)]|].
  destruct (present_dec r LAct); [exists LAct; split; [auto|intros []; unfold finer; cbn; (lia || auto)]|].
  destruct H. apply part_ext. intros []; unfold present in *;
  match goal with |- part r ?l = _ => destruct (part r l) eqn:E; cbn; try reflexivity; exfalso end; intuition congruence.
Qed.
Lemma c11_empty_self b r : relative_to empty_ref b = Ok r -> r = b.
Proof. rewrite rel_raw_eq. intros H. apply try_ref_ok in H as [-> _]. reflexivity. Qed.
Lemma c11_empty_base a : well_formed a -> relative_to a empty_ref = Ok a.
Proof.
  intros H. rewrite rel_raw_eq. replace (rel_raw a empty_ref) with a; [now apply try_ref_wf|].
  destruct a as [[?|] [?|] [?|] [?|] [?|]]; reflexivity.
Qed.
Lemma c11_absolute a b : well_formed a -> f_act a <> None -> relative_to a b = Ok a.
Proof.
  intros H X. rewrite rel_raw_eq. unfold rel_raw. destruct (f_act a) eqn:E; [|congruence]. now apply try_ref_wf.
Qed.

(** ** C12, C17 *)
Ltac at_levels P F :=
  repeat match goal with
  | H : present _ LAct |- _ => apply present_act in H
  | H : present _ LArticle |- _ => apply present_article in H
  | H : present _ LParagraph |- _ => apply present_paragraph in H
  | H : present _ LPoint |- _ => apply present_point in H
  | H : present _ LSubpoint |- _ => apply present_subpoint in H
  end.
Lemma finest_none r l0 l : finest r l0 -> finer l l0 -> part r l = PartEmpty.
Proof.
  intros [_ F] X. specialize (F l X). unfold present in F. destruct (part r l); [reflexivity| | | | |]; destruct F; congruence.
Qed.
Ltac kill_finer r l0 F :=
  let go l := (let G := fresh in
     assert (G : part r l = PartEmpty) by (apply (finest_none r l0 l F); unfold finer; cbn; lia);
     cbn in G) in
  match l0 with
  | LAct => go LArticle; go LParagraph; go LPoint; go LSubpoint
  | LArticle => go LParagraph; go LPoint; go LSubpoint
  | LParagraph => go LPoint; go LSubpoint
  | LPoint => go LSubpoint
  | LSubpoint => idtac
  end.
Lemma c12_parent r l0 : finest r l0 ->
  forall l, part (parent r) l = match l, l0 with
    | LAct, LAct | LArticle, LArticle | LParagraph, LParagraph | LPoint, LPoint | LSubpoint, LSubpoint => PartEmpty
    | _, _ => part r l end.
Proof.
  intros F l. pose proof F as [P _].
  destruct l0; [kill_finer r LAct F|kill_finer r LArticle F|kill_finer r LParagraph F|kill_finer r LPoint F|];
  apply present_act in P || apply present_article in P || apply present_paragraph in P || apply present_point in P || apply present_subpoint in P;
  destruct r as [[?|] [?|] [?|] [?|] [?|]]; cbn in *; try discriminate; destruct l; reflexivity.
Qed.
Lemma c17_last r l0 : finest r l0 -> get_last_part r = part r l0.
Proof.
  intros F. pose proof F as [P _].
  destruct l0; [kill_finer r LAct F|kill_finer r LArticle F|kill_finer r LParagraph F|kill_finer r LPoint F|];
  apply present_act in P || apply present_article in P || apply present_paragraph in P || apply present_point in P || apply present_subpoint in P;
  destruct r as [[?|] [?|] [?|] [?|] [?|]]; cbn in *; try discriminate; reflexivity.
Qed.
Lemma c17_empty r : get_last_part r = PartEmpty <-> r = empty_ref.
Proof.
  split; [|intros ->; reflexivity]. destruct r as [[?|] [?|] [?|] [?|] [?|]]; cbn; try discriminate. reflexivity.
Qed.
Lemma c12_iterate r : Nat.iter 5 parent r = empty_ref.
Proof. destruct r as [[?|] [?|] [?|] [?|] [?|]]; reflexivity. Qed.
Lemma c12_not_own r : parent r = r -> r = empty_ref.
Proof. destruct r as [[?|] [?|] [?|] [?|] [?|]]; cbn; congruence. Qed.

(** ** C13 *)
Lemma part_act_eq a b : part a LAct = part b LAct <-> f_act a = f_act b.
Proof. cbn. destruct (f_act a), (f_act b); split; congruence. Qed.
Lemma part_article_eq a b : part a LArticle = part b LArticle <-> f_article a = f_article b.
Proof. cbn. destruct (f_article a), (f_article b); split; congruence. Qed.
Lemma part_paragraph_eq a b : part a LParagraph = part b LParagraph <-> f_paragraph a = f_paragraph b.
Proof. cbn. destruct (f_paragraph a), (f_paragraph b); split; congruence. Qed.
Lemma part_point_eq a b : part a LPoint = part b LPoint <-> f_point a = f_point b.
Proof. cbn. destruct (f_point a), (f_point b); split; congruence. Qed.
Lemma part_subpoint_eq a b : part a LSubpoint = part b LSubpoint <-> f_subpoint a = f_subpoint b.
Proof. cbn. destruct (f_subpoint a), (f_subpoint b); split; congruence. Qed.
Lemma all_levels (P : level -> Prop) :
  (forall l, P l) <-> P LAct /\ P LArticle /\ P LParagraph /\ P LPoint /\ P LSubpoint.
Proof. split; [intros H; repeat split; apply H | intros (?&?&?&?&?) []; auto]. Qed.
Lemma ex_levels (P : level -> Prop) :
  (exists l, P l) <-> P LAct \/ P LArticle \/ P LParagraph \/ P LPoint \/ P LSubpoint.
Proof. split; [intros [[] H]; tauto | intros [?|[?|[?|[?|?]]]]; eauto]. Qed.
Lemma opt_dec {A} (eqb : option A -> option A -> bool) (L : forall x y, eqb x y = true <-> x = y) (x y : option A) :
  (eqb x y = true /\ x = y) \/ (eqb x y = false /\ x <> y).
Proof. destruct (eqb x y) eqn:E; [left|right]; split; auto; [now apply L|]. intros G. apply L in G. congruence. Qed.
Lemma c13_parent_of a b : no_skip a -> (is_parent_of a b = true <-> proper_prefix a b).
Proof.
  intros NS. unfold proper_prefix. rewrite all_levels, ex_levels.
  assert (S1 : is_some (f_paragraph a) = true \/ is_some (f_point a) = true \/ is_some (f_subpoint a) = true -> is_some (f_article a) = true).
  { rewrite <- present_paragraph, <- present_point, <- present_subpoint, <- present_article.
    intros [X|[X|X]]; apply (NS _ LArticle X); unfold finer; cbn; (lia || discriminate). }
  assert (S2 : is_some (f_point a) = true \/ is_some (f_subpoint a) = true -> is_some (f_paragraph a) = true).
  { rewrite <- present_paragraph, <- present_point, <- present_subpoint.
    intros [X|X]; apply (NS _ LParagraph X); unfold finer; cbn; (lia || discriminate). }
  assert (S3 : is_some (f_subpoint a) = true -> is_some (f_point a) = true).
  { rewrite <- present_point, <- present_subpoint.
    intros X; apply (NS _ LPoint X); unfold finer; cbn; (lia || discriminate). }
  clear NS.
  rewrite !present_act, !present_article, !present_paragraph, !present_point, !present_subpoint,
    part_act_eq, part_article_eq, part_paragraph_eq, part_point_eq, part_subpoint_eq.
  unfold is_parent_of.
  destruct (opt_dec _ act_part_eqb_eq (f_act a) (f_act b)) as [[-> ->]|[-> N1]]; cbn [negb]; [|intuition congruence].
  destruct (opt_dec _ article_part_eqb_eq (f_article a) (f_article b)) as [[-> E1]|[-> N1]]; cbn [negb];
  [|destruct (f_article a), (f_article b); cbn in *; intuition congruence].
  destruct (opt_dec _ paragraph_part_eqb_eq (f_paragraph a) (f_paragraph b)) as [[-> E2]|[-> N1]]; cbn [negb];
  [|destruct (f_paragraph a), (f_paragraph b); cbn in *; rewrite ?E1 in *; intuition congruence].
  destruct (opt_dec _ point_part_eqb_eq (f_point a) (f_point b)) as [[-> E3]|[-> N1]]; cbn [negb];
  [|destruct (f_point a), (f_point b); cbn in *; rewrite ?E1, ?E2 in *; intuition congruence].
  destruct (opt_dec _ subpoint_part_eqb_eq (f_subpoint a) (f_subpoint b)) as [[-> E4]|[-> N1]]; cbn [negb].
  - rewrite E1, E2, E3, E4. intuition congruence.
  - destruct (f_subpoint a), (f_subpoint b); cbn in *; rewrite ?E1, ?E2, ?E3 in *; intuition congruence.
Qed.
