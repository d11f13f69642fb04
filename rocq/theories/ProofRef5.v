(** Proofs about the order of references and about references to whole acts. *)
From Verif Require Export ProofRef4 ProofIdent5.
From Coq Require Import Lia.

Lemma range_total {T} {C : IdentCommon T} : TotalOrd (@id_cmp T C) -> TotalOrd (@range_cmp T C).
Proof. intros TO. apply lex_total; [|exact TO|exact TO]. intros [a b] [c d]; cbn. congruence. Qed.
Lemma range_lt {T} {C : IdentCommon T} : TotalOrd (@id_cmp T C) -> forall x y, range_cmp x y = Lt <-> range_before id_cmp x y.
Proof.
  intros [E _ _] x y. unfold range_cmp, range_before, lex. destruct (id_cmp (r_start x) (r_start y)) eqn:D.
  - apply E in D. rewrite D. split; [auto|]. intros [X|[_ X]]; [discriminate|exact X].
  - split; auto.
  - split; [discriminate|]. intros [X|[X _]]; [congruence|]. apply E in X. congruence.
Qed.
Lemma sum_total {A B C} (f : A -> B + C) cb cc (cmp : A -> A -> comparison) :
  (forall x y, f x = f y -> x = y) -> TotalOrd cb -> TotalOrd cc ->
  (forall x y, cmp x y = match f x, f y with inl a, inl b => cb a b | inr a, inr b => cc a b
                         | inl _, inr _ => Lt | inr _, inl _ => Gt end) -> TotalOrd cmp.
Proof.
  intros I Hb Hc E. split.
  - intros x y. rewrite E. split.
    + intros H. apply I. destruct (f x), (f y); try discriminate; f_equal; [now apply (to_eq _ Hb)|now apply (to_eq _ Hc)].
    + intros ->. destruct (f y); [now apply (to_eq _ Hb)|now apply (to_eq _ Hc)].
  - intros x y. rewrite !E. destruct (f x), (f y); try reflexivity; [apply (to_opp _ Hb)|apply (to_opp _ Hc)].
  - intros x y z. rewrite !E. destruct (f x), (f y), (f z); try congruence; [apply (to_trans _ Hb)|apply (to_trans _ Hc)].
Qed.
Lemma point_total : TotalOrd point_cmp.
Proof.
  apply (sum_total (fun p => match p with PtNum a => inl a | PtAlpha a => inr a end) range_cmp range_cmp).
  - intros [] []; congruence.
  - apply range_total, numeric_total.
  - apply range_total, hic_total.
  - intros [] []; reflexivity.
Qed.
Lemma subpoint_total : TotalOrd subpoint_cmp.
Proof.
  apply (sum_total (fun p => match p with SpNum a => inl a | SpAlpha a => inr a end) range_cmp range_cmp).
  - intros [] []; congruence.
  - apply range_total, numeric_total.
  - apply range_total, prefixed_total.
  - intros [] []; reflexivity.
Qed.
Lemma ref_total : TotalOrd ref_cmp.
Proof.
  pose proof (opt_total _ act_total) as T1. pose proof (opt_total _ (range_total (C := article_common) article_total)) as T2.
  pose proof (opt_total _ (range_total (C := numeric_common) numeric_total)) as T3.
  pose proof (opt_total _ point_total) as T4. pose proof (opt_total _ subpoint_total) as T5.
  assert (X : TotalOrd (fun a b : option act_id * (option ref_article * (option ref_paragraph * (option ref_point * option ref_subpoint))) =>
    lex (opt_cmp act_cmp (fst a) (fst b)) (lex (opt_cmp range_cmp (fst (snd a)) (fst (snd b))) (lex (opt_cmp range_cmp (fst (snd (snd a))) (fst (snd (snd b))))
    (lex (opt_cmp point_cmp (fst (snd (snd (snd a)))) (fst (snd (snd (snd b))))) (opt_cmp subpoint_cmp (snd (snd (snd (snd a)))) (snd (snd (snd (snd b)))))))))).
  { apply (lex_total fst snd _ (fun a b => lex (opt_cmp range_cmp (fst a) (fst b)) (lex (opt_cmp range_cmp (fst (snd a)) (fst (snd b)))
      (lex (opt_cmp point_cmp (fst (snd (snd a))) (fst (snd (snd b)))) (opt_cmp subpoint_cmp (snd (snd (snd a))) (snd (snd (snd b)))))))); [intros [] []; cbn; congruence|exact T1|].
    apply (lex_total fst snd _ (fun a b => lex (opt_cmp range_cmp (fst a) (fst b))
      (lex (opt_cmp point_cmp (fst (snd a)) (fst (snd b))) (opt_cmp subpoint_cmp (snd (snd a)) (snd (snd b)))))); [intros [] []; cbn; congruence|exact T2|].
    apply (lex_total fst snd _ (fun a b => lex (opt_cmp point_cmp (fst a) (fst b)) (opt_cmp subpoint_cmp (snd a) (snd b)))); [intros [] []; cbn; congruence|exact T3|].
    apply (lex_total fst snd); [intros [] []; cbn; congruence|exact T4|exact T5]. }
  refine (key_total (fun r => (f_act r, (f_article r, (f_paragraph r, (f_point r, f_subpoint r))))) _ _ X).
  intros [] [] E. cbn in E. congruence.
Qed.

Lemma opt_cmp_lt {A} (c : A -> A -> comparison) x y : opt_cmp c x y = Lt <->
  match x, y with _, None => False | None, Some _ => True | Some a, Some b => c a b = Lt end.
Proof. destruct x, y; cbn; intuition congruence. Qed.
Lemma part_lt x y : (opt_cmp act_cmp (f_act x) (f_act y) = Lt <-> part_before (part x LAct) (part y LAct)) /\
  (opt_cmp range_cmp (f_article x) (f_article y) = Lt <-> part_before (part x LArticle) (part y LArticle)) /\
  (opt_cmp range_cmp (f_paragraph x) (f_paragraph y) = Lt <-> part_before (part x LParagraph) (part y LParagraph)) /\
  (opt_cmp point_cmp (f_point x) (f_point y) = Lt <-> part_before (part x LPoint) (part y LPoint)) /\
  (opt_cmp subpoint_cmp (f_subpoint x) (f_subpoint y) = Lt <-> part_before (part x LSubpoint) (part y LSubpoint)).
Proof.
  rewrite !opt_cmp_lt. cbn [part]. split; [|split; [|split; [|split]]].
  - destruct (f_act x), (f_act y); cbn; tauto.
  - destruct (f_article x), (f_article y); cbn; try tauto. apply (range_lt (C := article_common) article_total).
  - destruct (f_paragraph x), (f_paragraph y); cbn; try tauto. apply (range_lt (C := numeric_common) numeric_total).
  - destruct (f_point x) as [[]|], (f_point y) as [[]|]; cbn; try tauto; try (split; [discriminate|contradiction]).
    + apply (range_lt (C := numeric_common) numeric_total).
    + apply (range_lt (C := hic_common) hic_total).
  - destruct (f_subpoint x) as [[]|], (f_subpoint y) as [[]|]; cbn; try tauto; try (split; [discriminate|contradiction]).
    + apply (range_lt (C := numeric_common) numeric_total).
    + apply (range_lt (C := prefixed_common) prefixed_total).
Qed.
Lemma lex_lt a b : lex a b = Lt <-> a = Lt \/ (a = Eq /\ b = Lt).
Proof. destruct a; cbn; intuition congruence. Qed.
Lemma part_eqs x y : (opt_cmp act_cmp (f_act x) (f_act y) = Eq <-> part x LAct = part y LAct) /\
  (opt_cmp range_cmp (f_article x) (f_article y) = Eq <-> part x LArticle = part y LArticle) /\
  (opt_cmp range_cmp (f_paragraph x) (f_paragraph y) = Eq <-> part x LParagraph = part y LParagraph) /\
  (opt_cmp point_cmp (f_point x) (f_point y) = Eq <-> part x LPoint = part y LPoint).
Proof.
  rewrite (to_eq _ (opt_total _ act_total)), (to_eq _ (opt_total _ (range_total (C := article_common) article_total))),
    (to_eq _ (opt_total _ (range_total (C := numeric_common) numeric_total))), (to_eq _ (opt_total _ point_total)).
  cbn. repeat split.
  - intros ->; reflexivity. - destruct (f_act x), (f_act y); congruence.
  - intros ->; reflexivity. - destruct (f_article x), (f_article y); congruence.
  - intros ->; reflexivity. - destruct (f_paragraph x), (f_paragraph y); congruence.
  - intros ->; reflexivity. - destruct (f_point x), (f_point y); congruence.
Qed.
Lemma ref_lt x y : ref_cmp x y = Lt <-> reference_before x y.
Proof.
  unfold ref_cmp. rewrite !lex_lt. destruct (part_lt x y) as (A1 & A2 & A3 & A4 & A5). destruct (part_eqs x y) as (E1 & E2 & E3 & E4).
  rewrite A1, A2, A3, A4, A5, E1, E2, E3, E4. clear. unfold reference_before. split.
  - intros [H|[H1 [H|[H2 [H|[H3 [H|[H4 H]]]]]]]].
    + exists LAct. split; [|exact H]. intros [] F; unfold finer in F; cbn in F; lia.
    + exists LArticle. split; [|exact H]. intros [] F; unfold finer in F; cbn in F; try lia; assumption.
    + exists LParagraph. split; [|exact H]. intros [] F; unfold finer in F; cbn in F; try lia; assumption.
    + exists LPoint. split; [|exact H]. intros [] F; unfold finer in F; cbn in F; try lia; assumption.
    + exists LSubpoint. split; [|exact H]. intros [] F; unfold finer in F; cbn in F; try lia; assumption.
  - intros ([] & F & H).
    + now left.
    + right. split; [apply F; unfold finer; cbn; lia|]. now left.
    + do 2 (right; split; [apply F; unfold finer; cbn; lia|]). now left.
    + do 3 (right; split; [apply F; unfold finer; cbn; lia|]). now left.
    + do 4 (right; split; [apply F; unfold finer; cbn; lia|]). exact H.
Qed.
Theorem c05_references : strict_total ref_eqb ref_cmp /\ (forall x y, ref_cmp x y = Lt <-> reference_before x y).
Proof. split; [apply strict_total_of; [exact ref_eqb_eq|exact ref_total]|exact ref_lt]. Qed.

(** ** References to whole acts *)
Theorem c17_act_only r : well_formed r -> present r LAct -> (is_act_only r = true <-> finest r LAct).
Proof.
  intros W A. unfold is_act_only. split.
  - intros H. split; [exact A|]. intros l F P. assert (X : present r LArticle).
    { destruct l; unfold finer in F; cbn in F; try lia; [exact P|..]; apply (wf_act _ W A); [exists LParagraph|exists LPoint|exists LSubpoint];
      (split; [unfold finer; cbn; lia|exact P]). }
    unfold present in X. cbn in X. destruct (f_article r); [discriminate|congruence].
  - intros [_ F]. specialize (F LArticle). unfold present, finer in F. cbn in F.
    destruct (f_article r); [|reflexivity]. exfalso. apply F; [lia|discriminate].
Qed.
