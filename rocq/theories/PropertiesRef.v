(** Properties C08-C17: references. *)
From Verif Require Import ProofRef5.

(** Small builders for the examples. *)
Definition num (n : N) : numeric := mkNum n None.
Definition art (n : N) : article_id := mkArt None (num n).
Definition la (c : string) : hic := Latin (chr c).
Definition ex_act := mkAct 2012 1.
(** 2012. évi I. törvény 1. § (2) bekezdés 3. pont a) alpont *)
Definition ex_full : reference :=
  mkRef (Some ex_act) (Some (single (art 1))) (Some (single (num 2))) (Some (PtNum (single (num 3))))
    (Some (SpAlpha (single (mkPre None (la "a"))))).
(** 1. § a)-x) pont *)
Definition ex_range : reference :=
  mkRef None (Some (single (art 1))) None (Some (PtAlpha (mkRange (la "a") (la "x")))) None.

(** * C05, for references *)
Theorem C05_references : strict_total ref_eqb ref_cmp /\ (forall x y, ref_cmp x y = Lt <-> reference_before x y).
Proof. exact c05_references. Qed.
Print Assumptions C05_references.
Example C05_references_example :
  reference_before (ref_of_article_elem (art 1)) (mkRef None (Some (single (art 1))) (Some (single (num 2))) None None) /\
  ref_cmp (mkRef None (Some (mkRange (art 1) (art 9))) None None None) (mkRef None (Some (single (art 2))) None None None) = Lt.
Proof.
  split; [|reflexivity]. exists LParagraph. split; [|exact I]. intros [] F; unfold finer in F; cbn in F; try lia; reflexivity.
Qed.

(** * C08 *)
Theorem C08_obtainable_well_formed : forall r, obtainable r -> well_formed r.
Proof. exact c08_wf. Qed.
Print Assumptions C08_obtainable_well_formed.
Theorem C08_check_exact : forall u r, try_ref u = Ok r <-> r = u /\ well_formed u.
Proof. exact try_ref_ok. Qed.
Print Assumptions C08_check_exact.
Example C08_example : obtainable ex_full /\ obtainable (parent (first_in_range ex_range)) /\
  (exists u, try_ref u = Err) /\
  ~ well_formed (mkRef (Some ex_act) None (Some (single (num 1))) None None).
Proof.
  split; [|split; [|split]].
  - apply (ob_builder [CSetAct ex_act; CSetArticle (single (art 1)); CSetParagraph (single (num 2));
      CSetPoint (PtNum (single (num 3))); CSetSubpoint (SpAlpha (single (mkPre None (la "a"))))]). vm_compute. reflexivity.
  - apply ob_parent, ob_first. apply (ob_compact (lit "_1__a-x_")). vm_compute. reflexivity.
  - exists (mkRef None None (Some (single (num 20))) None (Some (SpNum (single (num 1))))). vm_compute. reflexivity.
  - intros [_ H _]. specialize (H ltac:(discriminate)). cbn in H. apply H; [|reflexivity].
    exists LParagraph. split; [unfold finer; cbn; lia|discriminate].
Qed.

(** * C09 *)
Theorem C09_builder_parts : forall calls l, part (do_calls calls) l = last_written (rev calls) l.
Proof. exact c09_parts. Qed.
Print Assumptions C09_builder_parts.
Theorem C09_build_exact : forall calls,
  (well_formed (do_calls calls) -> build (do_calls calls) = Ok (do_calls calls)) /\
  (~ well_formed (do_calls calls) -> build (do_calls calls) = Err).
Proof. exact c09_build. Qed.
Print Assumptions C09_build_exact.
Example C09_example :
  let calls := [CSetArticle (single (art 1)); CSetPoint (PtNum (single (num 3))); CSetParagraph (single (num 2));
                CSetSubpoint (SpNum (single (num 9)))] in
  last_written (rev calls) LArticle = PartArticle (single (art 1)) /\
  last_written (rev calls) LPoint = PartEmpty /\
  last_written (rev calls) LSubpoint = PartSubpoint (SpNum (single (num 9))) /\
  build (do_calls calls) = Err /\
  build (do_calls (calls ++ [CResetSubpoint])) =
    Ok (mkRef None (Some (single (art 1))) (Some (single (num 2))) None None).
Proof. vm_compute. repeat split. Qed.

(** * C10 *)
Theorem C10_compact_roundtrip : forall r, well_formed r -> parts_ok r ->
  ref_parse_compact (ref_show_compact r) = Ok r.
Proof. exact c10_roundtrip. Qed.
Print Assumptions C10_compact_roundtrip.
Theorem C10_compact_injective : forall r o, well_formed r -> parts_ok r -> well_formed o -> parts_ok o ->
  ref_show_compact r = ref_show_compact o -> r = o.
Proof.
  intros r o W1 P1 W2 P2 E. apply c10_roundtrip in W1, W2; auto. rewrite E in W1. congruence.
Qed.
Print Assumptions C10_compact_injective.
Theorem C10_compact_parse : forall s,
  ref_parse_compact s <> Panic /\ (forall r, ref_parse_compact s = Ok r -> well_formed r /\ parts_ok r).
Proof. intros s. split; [apply c10_parse_not_panic|apply c10_parse_ok]. Qed.
Print Assumptions C10_compact_parse.
(** A prefixed letter with a digraph does not survive (parsing never produces one, but the fields are public). *)
Theorem C10_digraph_refuted : exists r, well_formed r /\ ref_show_compact r = lit "____sz" /\
  f_subpoint r = Some (SpAlpha (single (mkPre None Sz))) /\
  ref_parse_compact (ref_show_compact r) = Ok (ref_of_alpha_subpoint (mkPre (Some (la "s")) (la "z"))).
Proof.
  exists (ref_of_alpha_subpoint (mkPre None Sz)). split; [apply c08_wf; constructor|]. vm_compute. repeat split.
Qed.
Print Assumptions C10_digraph_refuted.
Example C10_example : well_formed ex_range /\ parts_ok ex_range /\ ref_show_compact ex_range = lit "_1__a-x_" /\
  ref_parse_compact (lit "_1__a-x_") = Ok ex_range /\ ref_parse_compact (lit "_1__a-x") = Err.
Proof.
  assert (H : ref_parse_compact (lit "_1__a-x_") = Ok ex_range) by (vm_compute; reflexivity).
  split; [apply (c10_parse_ok _ _ H)|]. split; [apply (c10_parse_ok _ _ H)|]. vm_compute. repeat split.
Qed.

(** * C11 *)
Theorem C11_relative_exact : forall a b r l0, coarsest a l0 ->
  (relative_to a b = Ok r <->
   well_formed r /\ forall l, part r l = if Nat.ltb (depth l) (depth l0) then part b l else part a l).
Proof. exact c11_exact. Qed.
Print Assumptions C11_relative_exact.
Theorem C11_relative_empty : forall b r, relative_to empty_ref b = Ok r <-> well_formed b /\ r = b.
Proof. exact c11_empty_exact. Qed.
Print Assumptions C11_relative_empty.
Theorem C11_relative_total : forall a b, relative_to a b <> Panic.
Proof. intros. apply try_ref_not_panic. Qed.
Print Assumptions C11_relative_total.
Theorem C11_coarsest_exists : forall a, a <> empty_ref -> exists l0, coarsest a l0.
Proof. exact coarsest_ex. Qed.
Print Assumptions C11_coarsest_exists.
Theorem C11_relative_identity : forall a, well_formed a -> relative_to a empty_ref = Ok a.
Proof. exact c11_empty_base. Qed.
Print Assumptions C11_relative_identity.
Theorem C11_absolute_untouched : forall a b, well_formed a -> present a LAct -> relative_to a b = Ok a.
Proof. intros a b W P. apply c11_absolute; auto. intros E. unfold present, part in P. now rewrite E in P. Qed.
Print Assumptions C11_absolute_untouched.
Theorem C11_associative : forall a b c ab bc r1 r2,
  relative_to a b = Ok ab -> relative_to ab c = Ok r1 ->
  relative_to b c = Ok bc -> relative_to a bc = Ok r2 -> r1 = r2.
Proof. exact c11_assoc. Qed.
Print Assumptions C11_associative.
Example C11_example :
  let p5 := mkRef None None (Some (single (num 5))) None None in
  let a1 := mkRef None (Some (single (art 1))) (Some (single (num 1))) (Some (PtNum (single (num 1)))) None in
  coarsest p5 LParagraph /\
  relative_to p5 a1 = Ok (mkRef None (Some (single (art 1))) (Some (single (num 5))) None None) /\
  relative_to a1 (ref_of_act ex_act) = Ok (mkRef (Some ex_act) (f_article a1) (f_paragraph a1) (f_point a1) None) /\
  relative_to (ref_of_numeric_subpoint (num 1)) p5 = Err.
Proof.
  cbn zeta. split; [|vm_compute; repeat split].
  split; [discriminate|]. intros [] F X; unfold finer in F; cbn in F; try lia; now destruct X.
Qed.

(** * C12 *)
Theorem C12_parent_removes_finest : forall r l0, finest r l0 ->
  part (parent r) l0 = PartEmpty /\ forall l, l <> l0 -> part (parent r) l = part r l.
Proof.
  intros r l0 F. split; [rewrite (c12_parent r l0 F); now destruct l0|].
  intros l N. rewrite (c12_parent r l0 F). destruct l, l0; congruence.
Qed.
Print Assumptions C12_parent_removes_finest.
Theorem C12_finest_exists : forall r, r <> empty_ref -> exists l0, finest r l0.
Proof. exact finest_ex. Qed.
Print Assumptions C12_finest_exists.
Theorem C12_five_parents_empty : forall r, Nat.iter 5 parent r = empty_ref.
Proof. exact c12_iterate. Qed.
Print Assumptions C12_five_parents_empty.
Theorem C12_not_own_parent : forall r, r <> empty_ref -> parent r <> r.
Proof. intros r N E. apply N. now apply c12_not_own. Qed.
Print Assumptions C12_not_own_parent.
Theorem C12_parent_well_formed : forall r, well_formed r -> well_formed (parent r).
Proof. exact wf_parent. Qed.
Print Assumptions C12_parent_well_formed.
Example C12_example : finest ex_full LSubpoint /\ Nat.iter 4 parent ex_full = ref_of_act ex_act.
Proof. split; [split; [discriminate|intros []; unfold finer; cbn; lia]|reflexivity]. Qed.

(** * C13 *)
Theorem C13_parent_is_proper_prefix : forall a b, no_skip a -> (is_parent_of a b = true <-> proper_prefix a b).
Proof. exact c13_parent_of. Qed.
Print Assumptions C13_parent_is_proper_prefix.
(** 1. § a) is reported as a parent of 1. § (2). *)
Theorem C13_skipped_level_refuted : exists a b, well_formed a /\ well_formed b /\
  is_parent_of a b = true /\ part a LPoint <> PartEmpty /\ part b LPoint = PartEmpty.
Proof.
  exists (mkRef None (Some (single (art 1))) None (Some (PtAlpha (single (la "a")))) None),
         (mkRef None (Some (single (art 1))) (Some (single (num 2))) None None).
  split; [apply wf_check; vm_compute; auto|]. split; [apply wf_check; vm_compute; auto|].
  split; [reflexivity|]. split; [discriminate|reflexivity].
Qed.
Print Assumptions C13_skipped_level_refuted.
Example C13_example : no_skip (parent ex_full) /\ proper_prefix (parent ex_full) ex_full /\ ~ proper_prefix ex_full ex_full.
Proof.
  split; [|split].
  - intros [] [] P F N; unfold finer, present in *; cbn in *; try lia; congruence.
  - split; [reflexivity|split; [intros []; reflexivity || intros X; now destruct X|]].
    exists LSubpoint. split; [discriminate|intros X; now apply X].
  - intros (_ & _ & l & P & Q). contradiction.
Qed.

(** * C14 *)
Theorem C14_contains_is_inclusion : forall r o, well_formed r -> ordered o -> skips_agree r o ->
  (contains r o = true <-> forall p, denotes o p -> denotes r p).
Proof. exact c14_contains. Qed.
Print Assumptions C14_contains_is_inclusion.
Theorem C14_no_skip_suffices : forall r o, no_skip r -> skips_agree r o.
Proof. exact no_skip_agree. Qed.
Print Assumptions C14_no_skip_suffices.
Theorem C14_transitive : forall a b c, well_formed a -> well_formed b -> ordered b -> ordered c ->
  no_skip a -> no_skip b -> contains a b = true -> contains b c = true -> contains a c = true.
Proof. exact c14_trans. Qed.
Print Assumptions C14_transitive.
Theorem C14_reflexive : forall a, contains a a = true.
Proof. exact c14_refl. Qed.
Print Assumptions C14_reflexive.
(** "Empty reference contains everything" fails as soon as the other has an act. *)
Theorem C14_empty_contains_refuted : exists o, well_formed o /\ contains empty_ref o = false.
Proof. exists (ref_of_act ex_act). split; [apply c08_wf; constructor|reflexivity]. Qed.
Print Assumptions C14_empty_contains_refuted.
Theorem C14_empty_contains_relative : forall o, f_act o = None -> ordered o -> contains empty_ref o = true.
Proof.
  intros o E O. apply c14_contains; auto.
  - apply c08_wf, ob_default.
  - intros l l' _ _ _ P. destruct l'; now destruct P.
  - intros p (D & _). repeat split; cbn; try congruence; intros; exfalso;
    repeat match goal with H : _ \/ _ |- _ => destruct H end; match goal with H : present _ _ |- _ => now destruct H end.
Qed.
Print Assumptions C14_empty_contains_relative.
Theorem C14_skipped_level_refuted : exists a b, well_formed a /\ well_formed b /\ ordered a /\ ordered b /\
  contains a b = true /\ (exists p, denotes b p /\ ~ denotes a p).
Proof.
  exists (mkRef None (Some (single (art 1))) None (Some (PtAlpha (single (la "a")))) None),
         (mkRef None (Some (single (art 1))) (Some (single (num 2))) None None).
  split; [apply wf_check; vm_compute; auto|]. split; [apply wf_check; vm_compute; auto|].
  split; [repeat split; discriminate|]. split; [repeat split; discriminate|]. split; [reflexivity|].
  exists (mkPos None (Some (art 1)) (Some (num 2)) None None). split.
  - repeat split; try (intros [X|X]; now destruct X); try (intros X; now destruct X).
    + exists (art 1). repeat split; discriminate.
    + exists (num 2). repeat split; discriminate.
  - intros (_ & _ & H & _). discriminate (H ltac:(left; discriminate)).
Qed.
Print Assumptions C14_skipped_level_refuted.
Example C14_example :
  let a := mkRef None (Some (mkRange (art 1) (art 3))) None None None in
  let b := mkRef None (Some (single (art 2))) (Some (mkRange (num 2) (num 15))) None None in
  well_formed a /\ ordered b /\ no_skip a /\ contains a b = true /\ contains b a = false /\
  (exists p, denotes b p).
Proof.
  cbn zeta. split; [apply wf_check; vm_compute; auto|]. split; [repeat split; discriminate|].
  split; [intros [] [] P F N; unfold finer, present in *; cbn in *; try lia; congruence|].
  split; [reflexivity|]. split; [reflexivity|].
  exists (mkPos None (Some (art 2)) (Some (num 7)) (Some (KAlpha (la "f"))) None).
  repeat split; try (intros X; now destruct X).
  + exists (art 2). repeat split; discriminate.
  + exists (num 7). repeat split; discriminate.
Qed.

(** * C15 *)
Theorem C15_make_range_exact : forall a b r, well_formed a -> well_formed b ->
  (make_range a b = Ok r <->
   (a = b /\ r = a) \/
   (exists l0, finest a l0 /\ finest b l0 /\ (forall l, l <> l0 -> part a l = part b l) /\
      (forall l, l <> l0 -> part r l = part a l) /\ span_part (part a l0) (part b l0) = Some (part r l0))).
Proof. exact c15_make_range. Qed.
Print Assumptions C15_make_range_exact.
Theorem C15_make_range_endpoints : forall a b r, well_formed a -> well_formed b -> make_range a b = Ok r ->
  well_formed r /\ first_in_range r = first_in_range a /\ last_in_range r = last_in_range b.
Proof. exact c15_endpoints. Qed.
Print Assumptions C15_make_range_endpoints.
Theorem C15_make_range_same : forall a, well_formed a -> make_range a a = Ok a.
Proof. exact make_range_same. Qed.
Print Assumptions C15_make_range_same.
Theorem C15_make_range_total : forall a b, make_range a b <> Panic.
Proof. exact c15_not_panic. Qed.
Print Assumptions C15_make_range_total.
Example C15_example :
  let p n := mkRef (Some ex_act) (Some (single (art 1))) (Some (single (num n))) None None in
  make_range (p 2%N) (p 5%N) = Ok (mkRef (Some ex_act) (Some (single (art 1))) (Some (mkRange (num 2) (num 5))) None None)
  /\ make_range (p 2%N) ex_full = Err /\ well_formed (p 2%N).
Proof. cbn zeta. split; [reflexivity|]. split; [reflexivity|]. apply wf_check. vm_compute. auto. Qed.

(** * C16 *)
Theorem C16_endpoints_single : forall r l,
  ~ real_range (part (first_in_range r) l) /\ ~ real_range (part (last_in_range r) l).
Proof. exact c16_single. Qed.
Print Assumptions C16_endpoints_single.
Theorem C16_endpoints_parts : forall r l,
  part (first_in_range r) l = start_of (part r l) /\ part (last_in_range r) l = end_of (part r l) /\
  (present (first_in_range r) l <-> present r l) /\ (present (last_in_range r) l <-> present r l).
Proof. intros r l. auto using first_part, last_part, first_present, last_present. Qed.
Print Assumptions C16_endpoints_parts.
Theorem C16_endpoints_idempotent : forall r,
  first_in_range (first_in_range r) = first_in_range r /\ last_in_range (last_in_range r) = last_in_range r /\
  first_in_range (last_in_range r) = last_in_range r /\ last_in_range (first_in_range r) = first_in_range r.
Proof. exact c16_idem. Qed.
Print Assumptions C16_endpoints_idempotent.
Theorem C16_endpoints_contained : forall r, ordered r ->
  contains r (first_in_range r) = true /\ contains r (last_in_range r) = true.
Proof. exact c16_contained. Qed.
Print Assumptions C16_endpoints_contained.
Example C16_example : ordered ex_range /\
  last_in_range ex_range = mkRef None (Some (single (art 1))) None (Some (PtAlpha (single (la "x")))) None /\
  contains ex_range (last_in_range ex_range) = true /\ contains (last_in_range ex_range) ex_range = false.
Proof. repeat split; discriminate. Qed.

(** * C17 *)
Theorem C17_last_part_finest : forall r l0, finest r l0 -> get_last_part r = part r l0.
Proof. exact c17_last. Qed.
Print Assumptions C17_last_part_finest.
Theorem C17_last_part_empty : forall r, get_last_part r = PartEmpty <-> r = empty_ref.
Proof. exact c17_empty. Qed.
Print Assumptions C17_last_part_empty.
Example C17_example : finest ex_range LPoint /\ get_last_part ex_range = PartPoint (PtAlpha (mkRange (la "a") (la "x"))).
Proof. split; [split; [discriminate|intros [] F X; unfold finer in F; cbn in F; try lia; now destruct X]|reflexivity]. Qed.
(** A reference counts as one to a whole act exactly when nothing finer than the act is present... *)
Theorem C17_act_only : forall r, well_formed r -> present r LAct -> (is_act_only r = true <-> finest r LAct).
Proof. exact c17_act_only. Qed.
Print Assumptions C17_act_only.
(** ...but references without an act count as one too, as long as they have no article. *)
Theorem C17_act_only_relative_refuted : exists r, well_formed r /\ is_act_only r = true /\ ~ present r LAct /\ present r LParagraph.
Proof.
  exists (mkRef None None (Some (single (num 2))) None None). split; [apply wf_check; vm_compute; auto|]. split; [reflexivity|].
  split; [intros X; now apply X|discriminate].
Qed.
Print Assumptions C17_act_only_relative_refuted.
Example C17_act_only_example : well_formed (ref_of_act ex_act) /\ present (ref_of_act ex_act) LAct /\
  is_act_only (ref_of_act ex_act) = true /\ is_act_only ex_full = false.
Proof. split; [apply c08_wf; constructor|]. split; [discriminate|]. split; reflexivity. Qed.
