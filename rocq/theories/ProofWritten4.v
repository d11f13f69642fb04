(** Written quoted blocks and paragraphs are read back (C62). *)
From Verif Require Import ProofBase ProofIdent ProofText ProofText2 ProofText3 ProofStruct2 ProofStruct3 ProofStruct4 ProofStruct5.
From Verif Require Export ProofWritten3.
From Coq Require Import Lia.

Lemma first_in_iff cs l : first_in cs l = true <-> begins_in cs l.
Proof.
  unfold first_in, begins_in. destruct (content l) as [|c t].
  - split; [discriminate|]. intros (c & t & E & _). discriminate.
  - rewrite existsb_exists. split.
    + intros (x & I & E). apply N.eqb_eq in E. subst x. exists c, t. auto.
    + intros (c' & t' & E & I). injection E as -> ->. exists c'. split; [exact I|apply N.eqb_refl].
Qed.
Lemma last_in_iff cs l : last_in cs l = true <-> ends_with_in cs l.
Proof.
  unfold last_in, ends_with_in. destruct (rev (content l)) as [|c t] eqn:E.
  - split; [discriminate|]. intros (c & t & E' & _). rewrite E', rev_app_distr in E. discriminate.
  - assert (E2 : content l = rev t ++ [c]) by (rewrite <- (rev_involutive (content l)), E; reflexivity).
    rewrite existsb_exists. split.
    + intros (x & I & X). apply N.eqb_eq in X. subst x. exists c, (rev t). auto.
    + intros (c' & t' & E' & I). rewrite E2 in E'. apply app_inj_tail in E'. destruct E' as [_ ->]. exists c'. split; [exact I|apply N.eqb_refl].
Qed.
Lemma l_empty_content l : l_empty l = true <-> content l = [].
Proof. rewrite l_empty_glyphs. apply glyphs_nil. Qed.
Lemma without_first_content l c t : content l = c :: t -> content (without_first l) = t.
Proof. intros E. unfold without_first. exact (slice_rest l [c] t E). Qed.
Lemma begins_nonempty os l : begins_in os l -> l_empty l = false.
Proof. intros (c & t & E & _). destruct (l_empty l) eqn:X; [|reflexivity]. apply l_empty_content in X. congruence. Qed.
Lemma ends_nonempty os l : ends_with_in os l -> l_empty l = false.
Proof. intros (c & t & E & _). destruct (l_empty l) eqn:X; [|reflexivity]. apply l_empty_content in X. rewrite E in X. destruct t; discriminate. Qed.
Lemma without_first_ends cs l : ends_with_in cs (without_first l) -> ends_with_in cs l.
Proof.
  intros (c & t & E & I). destruct (content l) as [|x s] eqn:El.
  - exfalso. assert (X : content (without_first l) = []); [|rewrite X in E; destruct t; discriminate].
    unfold without_first. apply glyphs_nil. rewrite slice_glyphs_eq. apply glyphs_nil in El. rewrite El. now rewrite skipn_nil, firstn_nil.
  - rewrite (without_first_content l x s El) in E. exists c, (x :: t). rewrite El, E. auto.
Qed.
Lemma ends_without_first cs l : ends_with_in cs l -> (2 <= List.length (content l))%nat -> ends_with_in cs (without_first l).
Proof.
  intros (c & t & E & I) L. destruct t as [|x t]; [rewrite E in L; cbn in L; lia|]. exists c, t. split; [|exact I].
  apply (without_first_content l x). exact E.
Qed.
Lemma qc_step_full q l : (0 <= q_level q + depth (content l))%Z ->
  exists q', qc_step q l = Ok q' /\ q_level q' = (q_level q + depth (content l))%Z /\ q_end q' = (0 <? q_level q')%Z.
Proof.
  intros P. destruct (qc_step_ok q l P) as (q' & E & _). exists q'. split; [exact E|]. apply qc_step_inv in E. tauto.
Qed.
(** The line [l] after the lines [a] closes. *)
Definition closes (cs : str) (a : list line) (l : line) : Prop := balanced (a ++ [l]) /\ ends_with_in cs l.
Lemma closes_bool cs a l q : q_level q = depth (text (a ++ [l])) -> (0 <= q_level q)%Z -> q_end q = (0 <? q_level q)%Z ->
  (negb (l_empty l) && negb (q_end q) && last_in cs l = true <-> closes cs a l).
Proof.
  intros Q P E. rewrite !andb_true_iff, !negb_true_iff, last_in_iff, E, Q. unfold closes, balanced. split.
  - intros [[_ A] B]. split; [lia|exact B].
  - intros [A B]. split; [split; [now apply ends_nonempty in B|lia]|exact B].
Qed.
Definition nonneg (a b : list line) : Prop := forall x y, b = x ++ y -> (0 <= depth (text (a ++ x)))%Z.
Lemma nonneg_cons a l b : nonneg a (l :: b) -> nonneg (a ++ [l]) b.
Proof. intros H x y ->. rewrite <- app_assoc. apply (H (l :: x) y). reflexivity. Qed.
Lemma nonneg_one a l b : nonneg a (l :: b) -> (0 <= depth (text a) + depth (content l))%Z.
Proof. intros H. rewrite <- text_snoc_depth. apply (H [l] b). reflexivity. Qed.
Definition app_from (s : str) (ls : list line) : str := fold_left (fun s l => append_to l s) ls s.

Lemma run_inside : forall tl bl w i bw acc q a l' rest, q_level q = depth (text a) -> nonneg a (tl ++ [l']) ->
  (forall x l y, tl = x ++ l :: y -> ~ closes (lit "”") (a ++ x) l) -> closes (lit "”") (a ++ tl) l' ->
  exists q', q_level q' = 0%Z /\ qb_run (mkQP QInside bl w i bw acc q) (tl ++ l' :: rest) =
    qb_run (mkQP QWaitBlock (bl ++ [mkQb None (acc ++ tl ++ [without_last l']) None]) w i bw [] q') rest.
Proof.
  intros tl. induction tl as [|l tl IH]; intros bl w i bw acc q a l' rest Q P N Cl.
  - cbn [app qb_run]. unfold qb_line. cbn [qp_quote qp_state qp_blocks qp_wrap qp_intro qp_bwrap qp_lines].
    pose proof (nonneg_one _ _ _ P) as P1. rewrite app_nil_r in Cl.
    destruct (qc_step_full q l') as (q1 & -> & L & E); [lia|]. cbn [obind].
    unfold qs_inside. cbn [qp_quote qp_state qp_blocks qp_wrap qp_intro qp_bwrap qp_lines].
    assert (L' : q_level q1 = depth (text (a ++ [l']))) by (rewrite L, Q, text_snoc_depth; lia).
    pose proof (closes_bool (lit "”") a l' q1 L' ltac:(lia) E) as X. rewrite (proj2 X Cl). exists q1. split; [|reflexivity].
    rewrite L'. apply Cl.
  - cbn [app qb_run]. unfold qb_line at 1. cbn [qp_quote qp_state qp_blocks qp_wrap qp_intro qp_bwrap qp_lines].
    pose proof (nonneg_one _ _ _ P) as P1. destruct (qc_step_full q l) as (q1 & -> & L & E); [lia|]. cbn [obind].
    unfold qs_inside. cbn [qp_quote qp_state qp_blocks qp_wrap qp_intro qp_bwrap qp_lines].
    assert (L' : q_level q1 = depth (text (a ++ [l]))) by (rewrite L, Q, text_snoc_depth; lia).
    pose proof (closes_bool (lit "”") a l q1 L' ltac:(lia) E) as X.
    assert (Nl : negb (l_empty l) && negb (q_end q1) && last_in (lit "”") l = false).
    { apply Bool.not_true_iff_false. rewrite X. specialize (N [] l tl eq_refl). now rewrite app_nil_r in N. }
    rewrite Nl. destruct (IH bl w i bw (acc ++ [l]) q1 (a ++ [l]) l' rest L') as (q' & Q' & R).
    + exact (nonneg_cons _ _ _ P).
    + intros x m y ->. rewrite <- app_assoc. apply (N (l :: x) m y). reflexivity.
    + rewrite <- app_assoc. exact Cl.
    + exists q'. split; [exact Q'|]. rewrite R. rewrite <- app_assoc. reflexivity.
Qed.
Lemma run_intro : forall tl bl w i bw q a l' rest, q_level q = depth (text a) -> nonneg a (tl ++ [l']) ->
  (forall x l y, tl = x ++ l :: y -> ~ closes (lit ")]") (a ++ x) l) -> closes (lit ")]") (a ++ tl) l' ->
  exists q', q_level q' = 0%Z /\ qb_run (mkQP QIntro bl w i bw [] q) (tl ++ l' :: rest) =
    qb_run (mkQP QStartExpectIntro bl w (app_from i (tl ++ [without_last l'])) bw [] q') rest.
Proof.
  intros tl. induction tl as [|l tl IH]; intros bl w i bw q a l' rest Q P N Cl.
  - cbn [app qb_run]. unfold qb_line. cbn [qp_quote qp_state qp_blocks qp_wrap qp_intro qp_bwrap qp_lines].
    pose proof (nonneg_one _ _ _ P) as P1. rewrite app_nil_r in Cl.
    destruct (qc_step_full q l') as (q1 & -> & L & E); [lia|]. cbn [obind].
    unfold qs_intro. cbn [qp_quote qp_state qp_blocks qp_wrap qp_intro qp_bwrap qp_lines].
    assert (L' : q_level q1 = depth (text (a ++ [l']))) by (rewrite L, Q, text_snoc_depth; lia).
    pose proof (closes_bool close_brackets a l' q1 L' ltac:(lia) E) as X. rewrite (proj2 X Cl). exists q1. split; [|reflexivity].
    rewrite L'. apply Cl.
  - cbn [app qb_run]. unfold qb_line at 1. cbn [qp_quote qp_state qp_blocks qp_wrap qp_intro qp_bwrap qp_lines].
    pose proof (nonneg_one _ _ _ P) as P1. destruct (qc_step_full q l) as (q1 & -> & L & E); [lia|]. cbn [obind].
    unfold qs_intro. cbn [qp_quote qp_state qp_blocks qp_wrap qp_intro qp_bwrap qp_lines].
    assert (L' : q_level q1 = depth (text (a ++ [l]))) by (rewrite L, Q, text_snoc_depth; lia).
    pose proof (closes_bool close_brackets a l q1 L' ltac:(lia) E) as X.
    assert (Nl : negb (l_empty l) && negb (q_end q1) && last_in close_brackets l = false).
    { apply Bool.not_true_iff_false. rewrite X. specialize (N [] l tl eq_refl). now rewrite app_nil_r in N. }
    rewrite Nl. destruct (IH bl w (append_to l i) bw q1 (a ++ [l]) l' rest L') as (q' & Q' & R).
    + exact (nonneg_cons _ _ _ P).
    + intros x m y ->. rewrite <- app_assoc. apply (N (l :: x) m y). reflexivity.
    + rewrite <- app_assoc. exact Cl.
    + exists q'. split; [exact Q'|]. rewrite R. reflexivity.
Qed.
Lemma run_bwrap : forall tl bl w i bw q a l' rest, q_level q = depth (text a) -> nonneg a (tl ++ [l']) ->
  (forall x l y, tl = x ++ l :: y -> ~ closes (lit ")]") (a ++ x) l) -> closes (lit ")]") (a ++ tl) l' ->
  exists q', q_level q' = 0%Z /\ qb_run (mkQP QBlockWrap bl w i bw [] q) (tl ++ l' :: rest) =
    qb_run (mkQP QWaitWrap bl w i (app_from bw (tl ++ [without_last l'])) [] q') rest.
Proof.
  intros tl. induction tl as [|l tl IH]; intros bl w i bw q a l' rest Q P N Cl.
  - cbn [app qb_run]. unfold qb_line. cbn [qp_quote qp_state qp_blocks qp_wrap qp_intro qp_bwrap qp_lines].
    pose proof (nonneg_one _ _ _ P) as P1. rewrite app_nil_r in Cl.
    destruct (qc_step_full q l') as (q1 & -> & L & E); [lia|]. cbn [obind].
    unfold qs_block_wrap. cbn [qp_quote qp_state qp_blocks qp_wrap qp_intro qp_bwrap qp_lines].
    assert (L' : q_level q1 = depth (text (a ++ [l']))) by (rewrite L, Q, text_snoc_depth; lia).
    pose proof (closes_bool close_brackets a l' q1 L' ltac:(lia) E) as X. rewrite (proj2 X Cl). exists q1. split; [|reflexivity].
    rewrite L'. apply Cl.
  - cbn [app qb_run]. unfold qb_line at 1. cbn [qp_quote qp_state qp_blocks qp_wrap qp_intro qp_bwrap qp_lines].
    pose proof (nonneg_one _ _ _ P) as P1. destruct (qc_step_full q l) as (q1 & -> & L & E); [lia|]. cbn [obind].
    unfold qs_block_wrap. cbn [qp_quote qp_state qp_blocks qp_wrap qp_intro qp_bwrap qp_lines].
    assert (L' : q_level q1 = depth (text (a ++ [l]))) by (rewrite L, Q, text_snoc_depth; lia).
    pose proof (closes_bool close_brackets a l q1 L' ltac:(lia) E) as X.
    assert (Nl : negb (l_empty l) && negb (q_end q1) && last_in close_brackets l = false).
    { apply Bool.not_true_iff_false. rewrite X. specialize (N [] l tl eq_refl). now rewrite app_nil_r in N. }
    rewrite Nl. destruct (IH bl w i (append_to l bw) q1 (a ++ [l]) l' rest L') as (q' & Q' & R).
    + exact (nonneg_cons _ _ _ P).
    + intros x m y ->. rewrite <- app_assoc. apply (N (l :: x) m y). reflexivity.
    + rewrite <- app_assoc. exact Cl.
    + exists q'. split; [exact Q'|]. rewrite R. reflexivity.
Qed.
Lemma run_wrap : forall ls bl w i bw q a, q_level q = depth (text a) -> nonneg a ls ->
  exists q', qb_run (mkQP QWrap bl w i bw [] q) ls = Ok (mkQP QWrap bl (app_from w ls) i bw [] q').
Proof.
  intros ls. induction ls as [|l ls IH]; intros bl w i bw q a Q P; cbn [qb_run].
  - now exists q.
  - unfold qb_line. cbn [qp_quote qp_state qp_blocks qp_wrap qp_intro qp_bwrap qp_lines].
    pose proof (nonneg_one _ _ _ P) as P1. destruct (qc_step_full q l) as (q1 & -> & L & E); [lia|]. cbn [obind].
    unfold qs_wrap. cbn [qp_quote qp_state qp_blocks qp_wrap qp_intro qp_bwrap qp_lines].
    destruct (IH bl (append_to l w) i bw q1 (a ++ [l])) as (q' & R).
    + rewrite L, Q, text_snoc_depth. lia.
    + exact (nonneg_cons _ _ _ P).
    + exists q'. exact R.
Qed.
(** Empty lines between the groups *)
Definition waiting (s : qb_state) : Prop := s = QStart \/ s = QStartExpectIntro \/ s = QWaitBlock \/ s = QWaitWrap.
Lemma run_blank s : waiting s -> forall gap bl w i bw q rest, blank gap -> q_level q = 0%Z ->
  exists q', q_level q' = 0%Z /\ qb_run (mkQP s bl w i bw [] q) (gap ++ rest) = qb_run (mkQP s bl w i bw [] q') rest.
Proof.
  intros Ws gap. induction gap as [|l gap IH]; intros bl w i bw q rest B Q.
  - now exists q.
  - inversion B as [|x y Bl Bg]; subst. cbn [app qb_run]. unfold qb_line.
    cbn [qp_quote qp_state qp_blocks qp_wrap qp_intro qp_bwrap qp_lines].
    assert (El : l_empty l = true) by (unfold l_empty; now rewrite Bl).
    assert (Ec : content l = []) by now apply l_empty_content.
    destruct (qc_step_full q l) as (q1 & -> & L & _); [rewrite Ec, Q; change (depth []) with 0%Z; lia|]. cbn [obind].
    assert (L0 : q_level q1 = 0%Z) by (rewrite L, Ec, Q; reflexivity).
    destruct (IH bl w i bw q1 rest Bg L0) as (q' & Q' & R). exists q'. split; [exact Q'|]. rewrite <- R.
    destruct Ws as [->|[->|[->| ->]]]; unfold qs_start, qs_start_expect, qs_wait_block, qs_wait_wrap; now rewrite El.
Qed.
(** The first line of a group *)
Lemma closed_first os cs l ls inner : group os cs (l :: ls) inner -> begins_in os l /\ nonneg [] (l :: ls).
Proof.
  intros [B [[_ P] _]]. split; [inversion B; subst; assumption|]. intros x y E. exact (P x y E).
Qed.
Lemma group_quoted : forall s g inner, (s = QStart \/ s = QStartExpectIntro \/ s = QWaitBlock) -> group (lit "„“") (lit "”") g inner ->
  forall bl w i bw q rest, q_level q = 0%Z ->
  exists q', q_level q' = 0%Z /\ qb_run (mkQP s bl w i bw [] q) (g ++ rest) =
    qb_run (mkQP QWaitBlock (bl ++ [mkQb None inner None]) w i bw [] q') rest.
Proof.
  intros s g inner Ws G bl w i bw q rest Q.
  assert (Hl : exists l tl, g = l :: tl) by (destruct G as [[l _ _ _|l mid l' _ _] _]; eauto). destruct Hl as (l & tl & ->).
  destruct (closed_first _ _ _ _ _ G) as [Bl P]. cbn [app qb_run]. unfold qb_line at 1.
  cbn [qp_quote qp_state qp_blocks qp_wrap qp_intro qp_bwrap qp_lines].
  pose proof (nonneg_one _ _ _ P) as P1. change (depth (text [])) with 0%Z in P1.
  destruct (qc_step_full q l) as (q1 & -> & L & E); [lia|]. cbn [obind].
  assert (L' : q_level q1 = depth (text ([] ++ [l]))) by (cbn [app]; rewrite text_one; lia).
  set (p1 := mkQP QInside bl w i bw [] q1).
  assert (X : (match s with QStart => qs_start (mkQP s bl w i bw [] q1) l | QStartExpectIntro => qs_start_expect (mkQP s bl w i bw [] q1) l
               | QIntro => qs_intro (mkQP s bl w i bw [] q1) l | QBlockWrap => qs_block_wrap (mkQP s bl w i bw [] q1) l
               | QWaitBlock => qs_wait_block (mkQP s bl w i bw [] q1) l | QWaitWrap => qs_wait_wrap (mkQP s bl w i bw [] q1) l
               | QInside => qs_inside (mkQP s bl w i bw [] q1) l | QWrap => qs_wrap (mkQP s bl w i bw [] q1) l end) =
              qs_inside p1 (without_first l)).
  { pose proof (begins_nonempty _ _ Bl) as El. apply first_in_iff in Bl as Fl. change (lit "„“") with open_quotes in Fl.
    assert (Nb : first_in open_brackets l = false).
    { apply Bool.not_true_iff_false. rewrite first_in_iff. intros (c & t & Ec & Ic). destruct Bl as (c' & t' & Ec' & Ic').
      rewrite Ec in Ec'. injection Ec' as <- <-. revert Ic Ic'. unfold open_brackets. norm_lit. cbn [In]. intros [<-|[<-|[]]] [X|[X|[]]]; discriminate X. }
    destruct Ws as [->|[->| ->]]; unfold qs_start, qs_start_expect, qs_wait_block; rewrite El; rewrite ?Nb.
    - rewrite Fl. reflexivity.
    - unfold qs_start. rewrite El, Fl. reflexivity.
    - rewrite Fl. reflexivity. }
  rewrite X. clear X. unfold qs_inside. subst p1. cbn [qp_quote qp_state qp_blocks qp_wrap qp_intro qp_bwrap qp_lines].
  assert (Cb : forall m, m = without_first l -> (negb (l_empty m) && negb (q_end q1) && last_in (lit "”") m = true <->
      balanced [l] /\ ends_with_in (lit "”") m)).
  { intros m ->. rewrite !andb_true_iff, !negb_true_iff, last_in_iff, E, L'. unfold balanced. cbn [app]. split.
    - intros [[_ A] B]. split; [rewrite text_one in *; lia|exact B].
    - intros [A B]. split; [split; [now apply ends_nonempty in B|lia]|exact B]. }
  specialize (Cb _ eq_refl).
  destruct G as [B [[Bg Pg] N]]. inversion B as [l0 B1 B2 B3 E1 E2|l0 mid l' B1 B2 E1 E2]; subst.
  - assert (T : negb (l_empty (without_first l)) && negb (q_end q1) && last_in (lit "”") (without_first l) = true).
    { apply Cb. split; [exact Bg|now apply ends_without_first]. }
    rewrite T. cbn [app]. exists q1. split; [|reflexivity]. rewrite L'. exact Bg.
  - assert (T : negb (l_empty (without_first l)) && negb (q_end q1) && last_in (lit "”") (without_first l) = false).
    { apply Bool.not_true_iff_false. rewrite Cb. intros [A1 A2]. apply (N [] l (mid ++ [l']) eq_refl).
      - destruct mid; discriminate.
      - split; [exact A1|now apply without_first_ends]. }
    rewrite T. rewrite <- app_assoc. cbn [app].
    destruct (run_inside mid bl w i bw [without_first l] q1 [l] l' rest L') as (q' & Q' & R).
    + exact (nonneg_cons [] _ _ P).
    + intros x m y -> [C1 C2]. apply (N (l :: x) m (y ++ [l'])).
      * cbn [app]. now rewrite <- app_assoc.
      * destruct y; discriminate.
      * split; [exact C1|exact C2].
    + split; [|exact B2]. exact Bg.
    + exists q'. split; [exact Q'|]. exact R.
Qed.
Lemma group_intro : forall g inner, group (lit "([") (lit ")]") g inner -> forall bl w i bw q rest, q_level q = 0%Z ->
  exists q', q_level q' = 0%Z /\ qb_run (mkQP QStartExpectIntro bl w i bw [] q) (g ++ rest) =
    qb_run (mkQP QStartExpectIntro bl w (app_from i inner) bw [] q') rest.
Proof.
  intros g inner G bl w i bw q rest Q.
  assert (Hl : exists l tl, g = l :: tl) by (destruct G as [[l _ _ _|l mid l' _ _] _]; eauto). destruct Hl as (l & tl & ->).
  destruct (closed_first _ _ _ _ _ G) as [Bl P]. cbn [app qb_run]. unfold qb_line at 1.
  cbn [qp_quote qp_state qp_blocks qp_wrap qp_intro qp_bwrap qp_lines].
  pose proof (nonneg_one _ _ _ P) as P1. change (depth (text [])) with 0%Z in P1.
  destruct (qc_step_full q l) as (q1 & -> & L & E); [lia|]. cbn [obind].
  assert (L' : q_level q1 = depth (text ([] ++ [l]))) by (cbn [app]; rewrite text_one; lia).
  pose proof (begins_nonempty _ _ Bl) as El. apply first_in_iff in Bl as Fl. change (lit "([") with open_brackets in Fl.
  unfold qs_start_expect. rewrite El, Fl. change (slice l 1 None) with (without_first l).
  unfold qs_intro. cbn [qp_to qp_quote qp_state qp_blocks qp_wrap qp_intro qp_bwrap qp_lines].
  change close_brackets with (lit ")]").
  assert (Cb : (negb (l_empty (without_first l)) && negb (q_end q1) && last_in (lit ")]") (without_first l) = true <->
      balanced [l] /\ ends_with_in (lit ")]") (without_first l))).
  { rewrite !andb_true_iff, !negb_true_iff, last_in_iff, E, L'. unfold balanced. cbn [app]. split.
    - intros [[_ A] B]. split; [rewrite text_one in *; lia|exact B].
    - intros [A B]. split; [split; [now apply ends_nonempty in B|lia]|exact B]. }
  destruct G as [B [[Bg Pg] N]]. inversion B as [l0 B1 B2 B3 E1 E2|l0 mid l' B1 B2 E1 E2]; subst.
  - assert (T : negb (l_empty (without_first l)) && negb (q_end q1) && last_in (lit ")]") (without_first l) = true).
    { apply Cb. split; [exact Bg|now apply ends_without_first]. }
    rewrite T. cbn [app]. exists q1. split; [|reflexivity]. rewrite L'. exact Bg.
  - assert (T : negb (l_empty (without_first l)) && negb (q_end q1) && last_in (lit ")]") (without_first l) = false).
    { apply Bool.not_true_iff_false. rewrite Cb. intros [A1 A2]. apply (N [] l (mid ++ [l']) eq_refl).
      - destruct mid; discriminate.
      - split; [exact A1|now apply without_first_ends]. }
    rewrite T. rewrite <- app_assoc. cbn [app].
    destruct (run_intro mid bl w (append_to (without_first l) i) bw q1 [l] l' rest L') as (q' & Q' & R).
    + exact (nonneg_cons [] _ _ P).
    + intros x m y -> [C1 C2]. apply (N (l :: x) m (y ++ [l'])).
      * cbn [app]. now rewrite <- app_assoc.
      * destruct y; discriminate.
      * split; [exact C1|exact C2].
    + split; [|exact B2]. exact Bg.
    + exists q'. split; [exact Q'|]. exact R.
Qed.
Lemma group_bwrap : forall s g inner, (s = QWaitBlock \/ s = QWaitWrap) -> group (lit "([") (lit ")]") g inner -> forall bl w i bw q rest, q_level q = 0%Z ->
  exists q', q_level q' = 0%Z /\ qb_run (mkQP s bl w i bw [] q) (g ++ rest) =
    qb_run (mkQP QWaitWrap bl w i (app_from bw inner) [] q') rest.
Proof.
  intros s g inner Ws G bl w i bw q rest Q.
  assert (Hl : exists l tl, g = l :: tl) by (destruct G as [[l _ _ _|l mid l' _ _] _]; eauto). destruct Hl as (l & tl & ->).
  destruct (closed_first _ _ _ _ _ G) as [Bl P]. cbn [app qb_run]. unfold qb_line at 1.
  cbn [qp_quote qp_state qp_blocks qp_wrap qp_intro qp_bwrap qp_lines].
  pose proof (nonneg_one _ _ _ P) as P1. change (depth (text [])) with 0%Z in P1.
  destruct (qc_step_full q l) as (q1 & -> & L & E); [lia|]. cbn [obind].
  assert (L' : q_level q1 = depth (text ([] ++ [l]))) by (cbn [app]; rewrite text_one; lia).
  pose proof (begins_nonempty _ _ Bl) as El. apply first_in_iff in Bl as Fl. change (lit "([") with open_brackets in Fl.
  assert (Nb : first_in open_quotes l = false).
  { apply Bool.not_true_iff_false. rewrite first_in_iff. intros (c & t & Ec & Ic). destruct Bl as (c' & t' & Ec' & Ic').
    rewrite Ec in Ec'. injection Ec' as <- <-. revert Ic Ic'. unfold open_quotes. norm_lit. cbn [In]. intros [<-|[<-|[]]] [X|[X|[]]]; discriminate X. }
  assert (X : (match s with QStart => qs_start (mkQP s bl w i bw [] q1) l | QStartExpectIntro => qs_start_expect (mkQP s bl w i bw [] q1) l
               | QIntro => qs_intro (mkQP s bl w i bw [] q1) l | QBlockWrap => qs_block_wrap (mkQP s bl w i bw [] q1) l
               | QWaitBlock => qs_wait_block (mkQP s bl w i bw [] q1) l | QWaitWrap => qs_wait_wrap (mkQP s bl w i bw [] q1) l
               | QInside => qs_inside (mkQP s bl w i bw [] q1) l | QWrap => qs_wrap (mkQP s bl w i bw [] q1) l end) =
              qs_block_wrap (mkQP QBlockWrap bl w i bw [] q1) (without_first l)).
  { destruct Ws as [->| ->]; unfold qs_wait_block, qs_wait_wrap; rewrite El; rewrite ?Nb, Fl; reflexivity. }
  rewrite X. clear X.
  unfold qs_block_wrap. cbn [qp_to qp_quote qp_state qp_blocks qp_wrap qp_intro qp_bwrap qp_lines].
  change close_brackets with (lit ")]").
  assert (Cb : (negb (l_empty (without_first l)) && negb (q_end q1) && last_in (lit ")]") (without_first l) = true <->
      balanced [l] /\ ends_with_in (lit ")]") (without_first l))).
  { rewrite !andb_true_iff, !negb_true_iff, last_in_iff, E, L'. unfold balanced. cbn [app]. split.
    - intros [[_ A] B]. split; [rewrite text_one in *; lia|exact B].
    - intros [A B]. split; [split; [now apply ends_nonempty in B|lia]|exact B]. }
  destruct G as [B [[Bg Pg] N]]. inversion B as [l0 B1 B2 B3 E1 E2|l0 mid l' B1 B2 E1 E2]; subst.
  - assert (T : negb (l_empty (without_first l)) && negb (q_end q1) && last_in (lit ")]") (without_first l) = true).
    { apply Cb. split; [exact Bg|now apply ends_without_first]. }
    rewrite T. cbn [app]. exists q1. split; [|reflexivity]. rewrite L'. exact Bg.
  - assert (T : negb (l_empty (without_first l)) && negb (q_end q1) && last_in (lit ")]") (without_first l) = false).
    { apply Bool.not_true_iff_false. rewrite Cb. intros [A1 A2]. apply (N [] l (mid ++ [l']) eq_refl).
      - destruct mid; discriminate.
      - split; [exact A1|now apply without_first_ends]. }
    rewrite T. rewrite <- app_assoc. cbn [app].
    destruct (run_bwrap mid bl w i (append_to (without_first l) bw) q1 [l] l' rest L') as (q' & Q' & R).
    + exact (nonneg_cons [] _ _ P).
    + intros x m y -> [C1 C2]. apply (N (l :: x) m (y ++ [l'])).
      * cbn [app]. now rewrite <- app_assoc.
      * destruct y; discriminate.
      * split; [exact C1|exact C2].
    + split; [|exact B2]. exact Bg.
    + exists q'. split; [exact Q'|]. exact R.
Qed.
(** Several groups *)
Lemma app_from_app s a b : app_from s (a ++ b) = app_from (app_from s a) b.
Proof. unfold app_from. apply fold_left_app. Qed.
Lemma run_intros : forall igs il, spread igs il -> forall iin, Forall2 (group (lit "([") (lit ")]")) igs iin ->
  forall bl w i bw q rest, q_level q = 0%Z ->
  exists q', q_level q' = 0%Z /\ qb_run (mkQP QStartExpectIntro bl w i bw [] q) (il ++ rest) =
    qb_run (mkQP QStartExpectIntro bl w (app_from i (List.concat iin)) bw [] q') rest.
Proof.
  intros igs il S. induction S as [|gap g gs ls B S IH]; intros iin F bl w i bw q rest Q.
  - inversion F; subst. now exists q.
  - inversion F as [|x inn y iin' G F']; subst. rewrite <- !app_assoc.
    destruct (run_blank QStartExpectIntro ltac:(unfold waiting; auto) gap bl w i bw q (g ++ ls ++ rest) B Q) as (q1 & Q1 & ->).
    destruct (group_intro g inn G bl w i bw q1 (ls ++ rest) Q1) as (q2 & Q2 & ->).
    destruct (IH iin' F' bl w (app_from i inn) bw q2 rest Q2) as (q3 & Q3 & ->).
    exists q3. split; [exact Q3|]. cbn [List.concat]. now rewrite app_from_app.
Qed.
Lemma run_blocks : forall bgs bls, spread bgs bls -> forall bin, Forall2 (group (lit "„“") (lit "”")) bgs bin ->
  forall s bl w i bw q rest, (s = QStart \/ s = QStartExpectIntro \/ s = QWaitBlock) -> q_level q = 0%Z ->
  exists q', q_level q' = 0%Z /\ qb_run (mkQP s bl w i bw [] q) (bls ++ rest) =
    qb_run (mkQP (match bgs with [] => s | _ => QWaitBlock end) (bl ++ map (fun b => mkQb None b None) bin) w i bw [] q') rest.
Proof.
  intros bgs bls S. induction S as [|gap g gs ls B S IH]; intros bin F s bl w i bw q rest Ws Q.
  - inversion F; subst. exists q. split; [exact Q|]. cbn. now rewrite app_nil_r.
  - inversion F as [|x inn y bin' G F']; subst. rewrite <- !app_assoc.
    destruct (run_blank s ltac:(unfold waiting; tauto) gap bl w i bw q (g ++ ls ++ rest) B Q) as (q1 & Q1 & ->).
    destruct (group_quoted s g inn Ws G bl w i bw q1 (ls ++ rest) Q1) as (q2 & Q2 & ->).
    destruct (IH bin' F' QWaitBlock (bl ++ [mkQb None inn None]) w i bw q2 rest ltac:(auto) Q2) as (q3 & Q3 & ->).
    exists q3. split; [exact Q3|]. cbn [map]. rewrite <- app_assoc. cbn [app]. destruct gs; reflexivity.
Qed.
Lemma run_bwraps : forall wgs wrl, spread wgs wrl -> forall win, Forall2 (group (lit "([") (lit ")]")) wgs win ->
  forall s bl w i bw q rest, (s = QWaitBlock \/ s = QWaitWrap) -> q_level q = 0%Z ->
  exists q', q_level q' = 0%Z /\ qb_run (mkQP s bl w i bw [] q) (wrl ++ rest) =
    qb_run (mkQP (match wgs with [] => s | _ => QWaitWrap end) bl w i (app_from bw (List.concat win)) [] q') rest.
Proof.
  intros wgs wrl S. induction S as [|gap g gs ls B S IH]; intros win F s bl w i bw q rest Ws Q.
  - inversion F; subst. now exists q.
  - inversion F as [|x inn y win' G F']; subst. rewrite <- !app_assoc.
    destruct (run_blank s ltac:(unfold waiting; tauto) gap bl w i bw q (g ++ ls ++ rest) B Q) as (q1 & Q1 & ->).
    destruct (group_bwrap s g inn Ws G bl w i bw q1 (ls ++ rest) Q1) as (q2 & Q2 & ->).
    destruct (IH win' F' QWaitWrap bl w i (app_from bw inn) q2 rest ltac:(auto) Q2) as (q3 & Q3 & ->).
    exists q3. split; [exact Q3|]. cbn [List.concat]. rewrite app_from_app. destruct gs; reflexivity.
Qed.
(** The whole *)
Lemma app_from_len ls : forall s, (List.length s <= List.length (app_from s ls))%nat.
Proof.
  unfold app_from. induction ls as [|l ls IH]; intros s; cbn [fold_left]; [lia|]. etransitivity; [|apply IH].
  unfold append_to. cbv zeta. match goal with |- context [if ?b then s ++ _ else s] => destruct b end; rewrite !app_length; cbn; lia.
Qed.
Lemma append_to_nil l : append_to l [] = content l.
Proof. unfold append_to. rewrite orb_true_r. reflexivity. Qed.
Lemma wrap_text_join wl : match wl with l :: _ => l_parts l <> [] | [] => True end -> non_empty_str (join wl) = wrap_text wl.
Proof.
  intros H. destruct wl as [|l wl]; [reflexivity|]. unfold wrap_text, non_empty_str.
  assert (X : join (l :: wl) <> []); [|destruct (join (l :: wl)); [congruence|reflexivity]].
  intros E. unfold join in E. cbn [fold_left] in E. rewrite append_to_nil in E.
  pose proof (app_from_len wl (content l)) as L. unfold app_from in L. rewrite E in L. cbn in L.
  assert (content l = []) by (destruct (content l); [reflexivity|cbn in L; lia]). apply l_empty_content in H0.
  unfold l_empty in H0. destruct (l_parts l); [congruence|discriminate].
Qed.
Lemma blocks_eq intro w bin : set_last_wrap (set_first_intro (map (fun b => mkQb None b None) bin) intro) w = quoted_blocks intro bin w.
Proof.
  assert (X : forall bs, set_last_wrap (map (fun b => mkQb None b None) bs) w = quoted_blocks None bs w).
  { intros bs. induction bs as [|b bs IH]; [reflexivity|]. destruct bs as [|b' bs]; [reflexivity|].
    cbn [map quoted_blocks set_last_wrap] in *. rewrite IH. reflexivity. }
  destruct bin as [|b bs]; [reflexivity|]. destruct bs as [|b' bs]; [reflexivity|]. specialize (X (b' :: bs)).
  cbn [map set_first_intro qb_lines qb_wrap quoted_blocks set_last_wrap] in *. now rewrite X.
Qed.
Lemma some_text_eq s : non_empty_str s = some_text s.
Proof. destruct s; reflexivity. Qed.
Lemma colon_bool prev : (match prev with Some l => ends_with (lit ":") (content l) | None => false end) = true <-> colon_before prev.
Proof.
  unfold colon_before. destruct prev as [l|]; [rewrite ends_with_spec|]; split.
  - intros (t & E). exists l, t. auto.
  - intros (l' & t & E & E'). injection E as <-. eauto.
  - discriminate.
  - intros (l' & t & E & _). discriminate.
Qed.
Lemma spread_first os cs gs inn ls rest l t : spread gs ls -> gs <> [] -> Forall2 (group os cs) gs inn -> ls ++ rest = l :: t ->
  l_parts l <> [] -> begins_in os l.
Proof.
  intros S N F E H. destruct S as [|gap g gs ls B S]; [congruence|]. destruct gap as [|x gap].
  - inversion F as [|a b c d G _]; subst. destruct G as [B1 _]. destruct B1; injection E as <- <-; assumption.
  - inversion B; subst. injection E as <- <-. congruence.
Qed.
Lemma first_in_app a b l : first_in (a ++ b) l = first_in a l || first_in b l.
Proof. unfold first_in. destruct (content l) as [|c t]; [reflexivity|]. apply existsb_app. Qed.
Theorem read_quoted prev qs wl ls : w_quoted prev qs wl ls -> extract_quoted prev ls = Ok (mkEm qs (wrap_text wl) []).
Proof.
  intros (igs & iin & il & bgs & bin & bls & wgs & win & wrl & gap & El & Si & Sb & Sw & Bg & Fi & Fb & Fw & Hf & Nb & Hc & Hw & [Qw Pw] & ->).
  unfold extract_quoted. pose proof (colon_bool prev) as CB.
  set (ei := match prev with Some l => ends_with (lit ":") (content l) | None => false end) in *.
  destruct ls as [|l0 ls0]; [contradiction|].
  assert (F0 : first_in (if ei then open_brackets ++ open_quotes else open_quotes) l0 = true).
  { destruct igs as [|ig igs'].
    - inversion Si; subst il. cbn [app] in El. symmetry in El. pose proof (spread_first _ _ _ _ _ _ _ _ Sb Nb Fb El Hf) as X.
      apply first_in_iff in X. change (lit "„“") with open_quotes in X. destruct ei; rewrite ?first_in_app, X; [apply orb_true_r|reflexivity].
    - symmetry in El. pose proof (spread_first _ _ _ _ _ _ _ _ Si ltac:(discriminate) Fi El Hf) as X.
      apply first_in_iff in X. change (lit "([") with open_brackets in X.
      assert (Te : ei = true) by (apply CB, Hc; discriminate). rewrite Te, first_in_app, X. reflexivity. }
  rewrite F0. cbn [ensure obind]. rewrite El.
  assert (R1 : exists s q1, (s = QStart \/ s = QStartExpectIntro) /\ q_level q1 = 0%Z /\
    forall rest, exists q1', q_level q1' = 0%Z /\ qb_run (qb_new ei) (il ++ rest) = qb_run (mkQP s [] [] (join (List.concat iin)) [] [] q1') rest).
  { unfold qb_new. destruct ei.
    - exists QStartExpectIntro, qc_default. split; [auto|]. split; [reflexivity|]. intros rest.
      destruct (run_intros igs il Si iin Fi [] [] [] [] qc_default rest eq_refl) as (q' & Q' & R). exists q'. split; [exact Q'|exact R].
    - exists QStart, qc_default. split; [auto|]. split; [reflexivity|]. intros rest.
      assert (igs = []) by (destruct igs; [reflexivity|]; assert (false = true) by (apply CB, Hc; discriminate); discriminate). subst igs.
      inversion Si; subst. inversion Fi; subst. exists qc_default. split; reflexivity. }
  destruct R1 as (s & _ & Ws & _ & R1). destruct (R1 (bls ++ wrl ++ gap ++ wl)) as (q1 & Q1 & ->). clear R1.
  destruct (run_blocks bgs bls Sb bin Fb s [] [] (join (List.concat iin)) [] q1 (wrl ++ gap ++ wl) ltac:(tauto) Q1) as (q2 & Q2 & ->).
  destruct bgs as [|bg bgs]; [congruence|].
  cbn [app].
  destruct (run_bwraps wgs wrl Sw win Fw QWaitBlock (map (fun b => mkQb None b None) bin) [] (join (List.concat iin)) [] q2 (gap ++ wl) ltac:(auto) Q2) as (q3 & Q3 & ->).
  set (st := match wgs with [] => QWaitBlock | _ :: _ => QWaitWrap end).
  assert (Wst : st = QWaitBlock /\ wgs = [] \/ st = QWaitWrap) by (subst st; destruct wgs; auto).
  change (app_from [] (List.concat win)) with (join (List.concat win)).
  destruct (run_blank st ltac:(unfold waiting; tauto) gap (map (fun b => mkQb None b None) bin) [] (join (List.concat iin)) (join (List.concat win)) q3 wl Bg Q3) as (q4 & Q4 & ->).
  assert (Nbin : is_empty (map (fun b : list line => mkQb None b None) bin) = false) by (inversion Fb; subst; reflexivity).
  assert (Fin : exists st' q', qb_run (mkQP st (map (fun b => mkQb None b None) bin) [] (join (List.concat iin)) (join (List.concat win)) [] q4) wl =
      Ok (mkQP st' (map (fun b => mkQb None b None) bin) (join wl) (join (List.concat iin)) (join (List.concat win)) [] q') /\
      (st' = QWaitBlock \/ st' = QWrap \/ st' = QWaitWrap)).
  { destruct wl as [|l wl].
    - exists st, q4. split; [reflexivity|tauto].
    - destruct Hw as (Hl & Hb & Hq). cbn [qb_run]. unfold qb_line at 1. cbn [qp_quote qp_state qp_blocks qp_wrap qp_intro qp_bwrap qp_lines].
      assert (P1 : (0 <= 0 + depth (content l))%Z) by (pose proof (Pw [l] wl eq_refl) as P; rewrite text_one in P; lia).
      destruct (qc_step_full q4 l) as (q5 & -> & L & _); [lia|]. cbn [obind].
      assert (Ee : l_empty l = false) by (unfold l_empty; destruct (l_parts l); [congruence|reflexivity]).
      assert (Nbr : first_in open_brackets l = false) by (apply Bool.not_true_iff_false; rewrite first_in_iff; exact Hb).
      assert (X : (match st with QStart => qs_start (mkQP st (map (fun b => mkQb None b None) bin) [] (join (List.concat iin)) (join (List.concat win)) [] q5) l
         | QStartExpectIntro => qs_start_expect (mkQP st (map (fun b => mkQb None b None) bin) [] (join (List.concat iin)) (join (List.concat win)) [] q5) l
         | QIntro => qs_intro (mkQP st (map (fun b => mkQb None b None) bin) [] (join (List.concat iin)) (join (List.concat win)) [] q5) l
         | QBlockWrap => qs_block_wrap (mkQP st (map (fun b => mkQb None b None) bin) [] (join (List.concat iin)) (join (List.concat win)) [] q5) l
         | QWaitBlock => qs_wait_block (mkQP st (map (fun b => mkQb None b None) bin) [] (join (List.concat iin)) (join (List.concat win)) [] q5) l
         | QWaitWrap => qs_wait_wrap (mkQP st (map (fun b => mkQb None b None) bin) [] (join (List.concat iin)) (join (List.concat win)) [] q5) l
         | QInside => qs_inside (mkQP st (map (fun b => mkQb None b None) bin) [] (join (List.concat iin)) (join (List.concat win)) [] q5) l
         | QWrap => qs_wrap (mkQP st (map (fun b => mkQb None b None) bin) [] (join (List.concat iin)) (join (List.concat win)) [] q5) l end) =
         mkQP QWrap (map (fun b => mkQb None b None) bin) (append_to l []) (join (List.concat iin)) (join (List.concat win)) [] q5).
      { destruct Wst as [[-> Wn]| ->].
        - assert (Nq : first_in open_quotes l = false) by (apply Bool.not_true_iff_false; rewrite first_in_iff; exact (Hq Wn)).
          unfold qs_wait_block. rewrite Ee, Nq. unfold qs_wait_wrap. rewrite Ee, Nbr. reflexivity.
        - unfold qs_wait_wrap. rewrite Ee, Nbr. reflexivity. }
      rewrite X. clear X.
      destruct (run_wrap wl (map (fun b => mkQb None b None) bin) (append_to l []) (join (List.concat iin)) (join (List.concat win)) q5 [l]) as (q6 & ->).
      + rewrite text_one, L, Q4. lia.
      + intros x y ->. exact (Pw (l :: x) y eq_refl).
      + exists QWrap, q6. split; [reflexivity|tauto]. }
  destruct Fin as (st' & q' & -> & Wst'). cbn [obind qp_state qp_blocks qp_wrap qp_intro qp_bwrap qp_lines].
  rewrite Nbin. replace (match st' with QWaitBlock | QWrap | QWaitWrap => true | _ => false end) with true by (destruct Wst' as [->|[->| ->]]; reflexivity).
  cbn [ensure obind negb]. rewrite blocks_eq, !some_text_eq. f_equal. f_equal.
  rewrite <- some_text_eq. apply wrap_text_join. destruct wl as [|l wl]; [exact I|tauto].
Qed.
(** ** Paragraphs *)
Lemma quoted_err prev l ls : ~ begins_in (lit "„“") l -> ~ (colon_before prev /\ begins_in (lit "([") l) -> extract_quoted prev (l :: ls) = Err.
Proof.
  intros N1 N2. unfold extract_quoted. pose proof (colon_bool prev) as CB.
  set (ei := match prev with Some l => ends_with (lit ":") (content l) | None => false end) in *.
  assert (Nq : first_in open_quotes l = false) by (apply Bool.not_true_iff_false; rewrite first_in_iff; exact N1).
  destruct ei.
  - assert (Nb : first_in open_brackets l = false) by (apply Bool.not_true_iff_false; rewrite first_in_iff; intros B; apply N2; split; [now apply CB|exact B]).
    rewrite first_in_app, Nb, Nq. reflexivity.
  - rewrite Nq. reflexivity.
Qed.
Lemma ascii_not_opening c l t : content l = c :: t -> (48 <= c <= 57 \/ 97 <= c <= 122)%N -> ~ begins_in (lit "„“") l /\ ~ begins_in (lit "([") l.
Proof.
  intros E R. split; intros (c' & t' & E' & Ic); rewrite E in E'; injection E' as <- <-; revert Ic; norm_lit; cbn [In]; lia.
Qed.
Lemma par_children_read ctx : forall i (prev : option line) c wl g ls, Forall not_ending_in_space ls -> w_par_children ctx i prev c wl g ls ->
  ls <> [] /\ paragraph_children ctx i prev ls = Ok (mkEm c (wrap_text wl) g).
Proof.
  intros i prev c wl g ls N W. unfold paragraph_children. destruct c as [es|es|qs|b|b]; cbn [w_par_children] in W; try contradiction.
  - split; [exact (w_nonempty _ _ _ _ _ _ _ _ _ _ _ W)|].
    destruct (first_line _ _ _ _ _ _ _ _ _ _ _ W) as (hl & tl & j & r & El & Hj & _).
    destruct (alpha_first_char _ _ _ Hj) as (c & t & Ec & Sc).
    rewrite (read_alpha_points ctx es wl g ls N W). unfold extract_num_points. rewrite El in N |- *.
    apply Forall_cons_iff in N. destruct N as [N _].
    destruct (ascii_not_opening c hl t Ec ltac:(unfold small in Sc; lia)) as [N1 N2].
    rewrite quoted_err by (assumption || tauto). cbn [omap or_else].
    rewrite (extract_multiple_err _ _ _ _ ctx true true hl tl c61_number (only_space num_form) N); [reflexivity|].
    intros k r' Hk. elim (small_not_num hl c t Ec Sc k r' Hk).
  - split; [exact (w_nonempty _ _ _ _ _ _ _ _ _ _ _ W)|].
    destruct (first_line _ _ _ _ _ _ _ _ _ _ _ W) as (hl & tl & j & r & El & Hj & _).
    destruct (num_first_char _ _ _ Hj) as (c & t & Ec & Sc).
    rewrite (read_num_points ctx es wl g ls N W). rewrite El in N |- *.
    destruct (ascii_not_opening c hl t Ec ltac:(lia)) as [N1 N2].
    rewrite quoted_err by (assumption || tauto). reflexivity.
  - destruct W as [W ->]. split.
    + intros ->. destruct W as (igs & iin & il & bgs & bin & bls & wgs & win & wrl & gap & _ & _ & _ & _ & _ & _ & _ & _ & [] & _).
    + rewrite (read_quoted _ _ _ _ W). reflexivity.
Qed.
Lemma par_children_none ctx : forall i (prev : option line) l ls, not_ending_in_space l -> ~ opens_par i prev l ->
  paragraph_children ctx i prev (l :: ls) = Err.
Proof.
  intros i prev l ls N O. unfold paragraph_children, extract_num_points, extract_alpha_points, opens_par in *.
  rewrite quoted_err by tauto.
  rewrite (extract_multiple_err _ _ _ _ ctx true true l ls c61_number (only_space num_form) N).
  2:{ apply (not_first num_one); [apply num_first_iff|]. intros X. apply O. tauto. }
  rewrite (extract_multiple_err _ _ _ _ ctx true true l ls c61_letter (only_space alpha_form) N); [reflexivity|].
  apply (not_first alpha_a); [apply alpha_first_iff|]. intros X. apply O. tauto.
Qed.
Theorem read_paragraphs ctx es ls : Forall not_ending_in_space ls -> w_paragraphs ctx es ls ->
  extract_paragraphs ctx false true None ls = Ok (mkEm es None []).
Proof.
  intros N [W M]. unfold extract_paragraphs.
  refine (read_siblings _ _ _ _ _ _ _ _ c61_paragraph (only_space par_form) (proj1 good_par) (proj2 good_par)
    (par_children_read ctx) (par_children_none ctx) false par_one None true es [] [] ls _ (fun _ => M) N W).
  intros l i r _ F. now apply par_first_iff.
Qed.
