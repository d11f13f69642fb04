(** Proofs about the quoted block parser (C49). *)
From Verif Require Import ProofBase ProofIdent ProofText ProofText2.
From Verif Require Export ProofStruct2.

Lemma snoc_case {A} (l : list A) : l = [] \/ exists l' x, l = l' ++ [x].
Proof. destruct l as [|a l]; [now left|right]. destruct (exists_last (l := a :: l)) as (l' & x & ->); [discriminate|]. eauto. Qed.
Lemma blank_text ls : blank ls -> text ls = [].
Proof.
  induction 1 as [|l ls Hl _ IH]; [reflexivity|]. rewrite text_cons, IH, app_nil_r. unfold content. now rewrite Hl.
Qed.
Lemma spaced_blank gs c e : spaced gs c -> l_parts e = [] -> spaced gs (c ++ [e]).
Proof.
  intros H He. induction H as [gap Hg|gap g gs ls Hg Hs IH].
  - constructor. apply Forall_app. split; [exact Hg|]. now repeat constructor.
  - rewrite <- !app_assoc. now constructor.
Qed.
Lemma spaced_snoc gs c g : spaced gs c -> spaced (gs ++ [g]) (c ++ g).
Proof.
  intros H. induction H as [gap Hg|gap g0 gs ls Hg Hs IH]; cbn [app].
  - replace (gap ++ g) with (gap ++ g ++ []) by now rewrite app_nil_r. constructor; [exact Hg|]. constructor. constructor.
  - rewrite <- !app_assoc. now constructor.
Qed.
Lemma spaced_balanced gs c : spaced gs c -> Forall balanced gs -> balanced c.
Proof.
  intros H. induction H as [gap Hg|gap g0 gs ls Hg Hs IH]; intros Hf.
  - unfold balanced. now rewrite (blank_text _ Hg).
  - inversion Hf; subst. apply balanced_app; [unfold balanced; now rewrite (blank_text _ Hg)|].
    apply balanced_app; auto.
Qed.
Lemma l_empty_glyphs l : l_empty l = true <-> glyphs l = [].
Proof.
  rewrite l_empty_iff. unfold glyphs. destruct (l_parts l); cbn; split; congruence.
Qed.
Lemma first_in_inv cs l : first_in cs l = true ->
  exists a, glyphs l = a :: glyphs (slice l 1 None) /\ In (g_ch a) cs.
Proof.
  unfold first_in. pose proof (glyphs_ch l) as G. rewrite <- G. destruct (glyphs l) as [|a gs] eqn:E; [discriminate|].
  cbn [map]. intros H. exists a. split.
  - f_equal. rewrite slice_glyphs_eq, E. change 1%Z with (Z.of_nat 1). rewrite convert_index_nat.
    + cbn [skipn]. rewrite firstn_all2; [reflexivity|]. pose proof (glyphs_length l) as L. rewrite E in L. cbn in L. lia.
    + pose proof (glyphs_length l) as L. rewrite E in L. cbn in L. lia.
  - apply existsb_exists in H. destruct H as (x & Hx & E2). apply N.eqb_eq in E2. now subst.
Qed.
Lemma last_in_inv cs l : last_in cs l = true ->
  exists b, glyphs l = glyphs (slice l 0 (Some (-1)%Z)) ++ [b] /\ In (g_ch b) cs.
Proof.
  unfold last_in. pose proof (glyphs_ch l) as G. rewrite <- G.
  destruct (rev (map g_ch (glyphs l))) as [|c r] eqn:E; [discriminate|].
  rewrite <- map_rev in E. destruct (rev (glyphs l)) as [|b gs] eqn:E1; [discriminate|]. cbn in E. injection E as Eb _.
  intros H. exists b. assert (Gl : glyphs l = rev gs ++ [b]) by (rewrite <- (rev_involutive (glyphs l)), E1; reflexivity).
  pose proof (glyphs_length l) as L. rewrite Gl, app_length in L. cbn in L. split.
  - rewrite slice_glyphs_eq. rewrite convert_index_0. change (-1)%Z with (- Z.of_nat 1)%Z.
    rewrite convert_index_neg by lia. cbn [skipn]. rewrite Gl. f_equal.
    rewrite firstn_app. replace (l_len l - 1 - 0 - List.length (rev gs))%nat with 0%nat by lia.
    rewrite firstn_all2 by lia. now rewrite app_nil_r.
  - apply existsb_exists in H. destruct H as (x & Hx & E2). apply N.eqb_eq in E2. subst x. now rewrite Eb.
Qed.
Lemma last_in_ends cs l : ends_in cs l -> last_in cs l = true.
Proof.
  intros (g & b & G & H). unfold last_in. rewrite <- glyphs_ch, G, map_app, rev_app_distr. cbn.
  apply existsb_exists. exists (g_ch b). split; [exact H|apply N.eqb_refl].
Qed.

(** A group that has been opened but not closed: raw lines and inner lines. *)
Inductive opened (os : str) : list line -> list line -> Prop :=
| op l m mid a : glyphs l = a :: glyphs m -> In (g_ch a) os -> opened os (l :: mid) (m :: mid).
Lemma opened_snoc os cur inner l : opened os cur inner -> opened os (cur ++ [l]) (inner ++ [l]).
Proof. intros H. inversion H; subst. cbn. econstructor; eassumption. Qed.
Lemma opened_close os cs cur inner l m : opened os (cur ++ [l]) (inner ++ [m]) -> last_in cs m = true ->
  enclosed os cs (cur ++ [l]) (inner ++ [slice m 0 (Some (-1)%Z)]).
Proof.
  intros H Hm. apply last_in_inv in Hm. destruct Hm as (b & Gb & Hb).
  inversion H as [l0 m0 mid a Ga Ha E1 E2].
  destruct (snoc_case mid) as [->|(mid' & x & ->)]; [|rename mid' into mid].
  - destruct cur as [|? [|? ?]]; try discriminate. destruct inner as [|? [|? ?]]; try discriminate.
    cbn in E1, E2. injection E1 as ->. injection E2 as ->. cbn. apply enc_one with a b; [|exact Ha|exact Hb].
    now rewrite Ga, Gb.
  -
    change (l0 :: mid ++ [x]) with ((l0 :: mid) ++ [x]) in E1. apply app_inj_tail in E1. destruct E1 as [<- <-].
    change (m0 :: mid ++ [x]) with ((m0 :: mid) ++ [x]) in E2. apply app_inj_tail in E2. destruct E2 as [<- <-].
    cbn. eapply enc_many; eassumption.
Qed.
Lemma opened_ends os cs cur inner l m : opened os (cur ++ [l]) (inner ++ [m]) -> (forall c, In c os -> ~ In c cs) ->
  ends_in cs l -> last_in cs m = true /\ l_empty m = false.
Proof.
  intros H Hd (g & b & Gl & Hb).
  assert (E : ends_in cs m).
  { inversion H as [l0 m0 mid a Ga Ha E1 E2]. destruct (snoc_case mid) as [->|(mid' & x & ->)]; [|rename mid' into mid].
    - destruct cur as [|? [|? ?]]; try discriminate. destruct inner as [|? [|? ?]]; try discriminate.
      cbn in E1, E2. injection E1 as ->. injection E2 as ->. rewrite Ga in Gl.
      destruct g as [|y g]; cbn in Gl; injection Gl as Ea Em.
      + subst b. exfalso. eapply Hd; eassumption.
      + exists g, b. auto 10.
    -
      change (l0 :: mid ++ [x]) with ((l0 :: mid) ++ [x]) in E1. apply app_inj_tail in E1. destruct E1 as [_ ->].
      change (m0 :: mid ++ [l]) with ((m0 :: mid) ++ [l]) in E2. apply app_inj_tail in E2. destruct E2 as [_ <-].
      exists g, b. auto. }
  split; [now apply last_in_ends|]. destruct E as (g' & b' & G' & _). destruct (l_empty m) eqn:Em; [|reflexivity].
  apply l_empty_glyphs in Em. rewrite Em in G'. now destruct g'.
Qed.

Definition no_close (cur : list line) : Prop :=
  forall a x b, cur = a ++ x :: b -> ~ (balanced (a ++ [x]) /\ ends_in (lit "”") x).
Definition brackets := enclosed (lit "([") (lit ")]").
Definition quotes := enclosed (lit "„“") (lit "”").
(** Invariant: the groups finished so far and the unfinished one. *)
Record frame (p : qb_parser) (igs iin bgs wgs win : list (list line)) (closed : list line) : Prop := mkFrame {
  fr_spaced : spaced (igs ++ bgs ++ wgs) closed;
  fr_intros : Forall2 brackets igs iin; fr_ibal : Forall balanced igs;
  fr_blocks : Forall2 quotes bgs (map qb_lines (qp_blocks p)); fr_whole : Forall whole_quote bgs;
  fr_wraps : Forall2 brackets wgs win; fr_wbal : Forall balanced wgs;
  fr_none : Forall (fun b => qb_intro b = None /\ qb_wrap b = None) (qp_blocks p) }.
Definition st_inv (p : qb_parser) (iin bgs wgs win : list (list line)) (cur : list line) : Prop :=
  match qp_state p with
  | QStart | QStartExpectIntro => cur = [] /\ bgs = [] /\ wgs = [] /\ qp_lines p = [] /\
      qp_intro p = join (List.concat iin) /\ qp_bwrap p = [] /\ qp_wrap p = []
  | QIntro => exists inner, opened (lit "([") cur inner /\ bgs = [] /\ wgs = [] /\ qp_lines p = [] /\
      qp_intro p = join (List.concat iin ++ inner) /\ qp_bwrap p = [] /\ qp_wrap p = []
  | QInside => opened (lit "„“") cur (qp_lines p) /\ no_close cur /\ wgs = [] /\
      qp_intro p = join (List.concat iin) /\ qp_bwrap p = [] /\ qp_wrap p = []
  | QWaitBlock => cur = [] /\ wgs = [] /\ qp_lines p = [] /\
      qp_intro p = join (List.concat iin) /\ qp_bwrap p = [] /\ qp_wrap p = []
  | QWaitWrap => cur = [] /\ qp_lines p = [] /\
      qp_intro p = join (List.concat iin) /\ qp_bwrap p = join (List.concat win) /\ qp_wrap p = []
  | QBlockWrap => exists inner, opened (lit "([") cur inner /\ qp_lines p = [] /\
      qp_intro p = join (List.concat iin) /\ qp_bwrap p = join (List.concat win ++ inner) /\ qp_wrap p = []
  | QWrap => qp_lines p = [] /\
      qp_intro p = join (List.concat iin) /\ qp_bwrap p = join (List.concat win) /\ qp_wrap p = join cur
  end.
Definition qinv (p : qb_parser) (done : list line) : Prop :=
  exists igs iin bgs wgs win closed cur,
    done = closed ++ cur /\ frame p igs iin bgs wgs win closed /\ st_inv p iin bgs wgs win cur.
Lemma frame_balanced p igs iin bgs wgs win closed : frame p igs iin bgs wgs win closed -> balanced closed.
Proof.
  intros F. eapply spaced_balanced; [apply F|]. apply Forall_app. split; [apply F|]. apply Forall_app. split; [|apply F].
  eapply Forall_impl; [|apply F]. intros a [H _]. exact H.
Qed.
Lemma frame_to p s igs iin bgs wgs win closed : frame p igs iin bgs wgs win closed -> frame (qp_to p s) igs iin bgs wgs win closed.
Proof. intros [? ? ? ? ? ? ? ?]. now constructor. Qed.
Lemma frame_blank p igs iin bgs wgs win closed l : frame p igs iin bgs wgs win closed -> l_empty l = true ->
  frame p igs iin bgs wgs win (closed ++ [l]).
Proof. intros [? ? ? ? ? ? ? ?] He. apply l_empty_iff in He. constructor; try assumption. now apply spaced_blank. Qed.
Lemma disjoint_quotes : forall c, In c (lit "„“") -> ~ In c (lit "”").
Proof. norm_lit. cbn. intros c H K. repeat match goal with X : _ \/ _ |- _ => destruct X end; try contradiction; subst; discriminate. Qed.

Section Step.
  Variables (p : qb_parser) (igs iin bgs wgs win : list (list line)) (closed : list line).
  Hypothesis F : frame p igs iin bgs wgs win closed.
  Variables (done : list line) (l : line).
  Hypothesis Qe : q_end (qp_quote p) = (0 <? depth (text (done ++ [l])))%Z.
  Hypothesis Q0 : (0 <= depth (text (done ++ [l])))%Z.

  Lemma level0 cur : done = closed ++ cur -> q_end (qp_quote p) = false -> balanced (cur ++ [l]).
  Proof.
    intros -> E. rewrite E in Qe. symmetry in Qe. apply Z.ltb_ge in Qe. unfold balanced.
    pose proof (frame_balanced _ _ _ _ _ _ _ F) as B. unfold balanced in B.
    rewrite <- app_assoc in *. rewrite (depth_text_app closed) in *. lia.
  Qed.
  Lemma level0_inv cur : done = closed ++ cur -> balanced (cur ++ [l]) -> q_end (qp_quote p) = false.
  Proof.
    intros -> E. rewrite Qe. apply Z.ltb_ge. unfold balanced in E.
    pose proof (frame_balanced _ _ _ _ _ _ _ F) as B. unfold balanced in B.
    rewrite <- app_assoc. rewrite (depth_text_app closed). lia.
  Qed.
  Lemma step_inside cur m : done = closed ++ cur -> qp_state p = QInside ->
    opened (lit "„“") (cur ++ [l]) (qp_lines p ++ [m]) -> no_close cur -> wgs = [] ->
    qp_intro p = join (List.concat iin) -> qp_bwrap p = [] -> qp_wrap p = [] ->
    qinv (qs_inside p m) (done ++ [l]).
  Proof.
    intros Hd Hs Ho Hn Hw Hi Hbw Hwr. unfold qs_inside.
    destruct (negb (l_empty m) && negb (q_end (qp_quote p)) && last_in (lit "”") m) eqn:E.
    - apply andb_true_iff in E. destruct E as [E E3]. apply andb_true_iff in E. destruct E as [_ E2].
      apply negb_true_iff in E2. pose proof (level0 _ Hd E2) as B.
      exists igs, iin, (bgs ++ [cur ++ [l]]), [], win, (closed ++ cur ++ [l]), [].
      split; [rewrite Hd; now rewrite app_nil_r, <- app_assoc|]. split.
      + destruct F as [a b c d e f g h]. subst wgs. constructor; cbn [qp_blocks]; try assumption.
        * rewrite app_nil_r in *. rewrite app_assoc. now apply spaced_snoc.
        * rewrite map_app. apply Forall2_app; [exact d|]. constructor; [|constructor]. cbn [qb_lines].
          now apply opened_close.
        * apply Forall_app. split; [exact e|]. constructor; [|constructor]. split; [exact B|].
          intros x y z Hx Hz. destruct (snoc_case z) as [->|(z' & z0 & ->)]; [congruence|rename z' into z].
          rewrite app_comm_cons, app_assoc in Hx. apply app_inj_tail in Hx. destruct Hx as [Hx _]. now apply (Hn x y z).
        * apply Forall_app. split; [exact h|]. repeat constructor.
      + unfold st_inv. cbn [qp_state qp_lines qp_intro qp_bwrap qp_wrap]. auto 10.
    - exists igs, iin, bgs, wgs, win, closed, (cur ++ [l]). split; [rewrite Hd; now rewrite <- app_assoc|].
      split; [destruct F; now constructor|]. unfold st_inv. cbn [qp_state qp_lines qp_intro qp_bwrap qp_wrap]. rewrite Hs.
      split; [exact Ho|]. split; [|auto 10].
      intros a x b Hx [Hb He]. destruct (snoc_case b) as [->|(b' & b0 & ->)]; [|rename b' into b].
      + apply app_inj_tail in Hx. destruct Hx as [<- <-].
        destruct (opened_ends _ _ _ _ _ _ Ho disjoint_quotes He) as [E1 E2].
        rewrite E1, E2, (level0_inv _ Hd Hb) in E. discriminate.
      + rewrite app_comm_cons, app_assoc in Hx. apply app_inj_tail in Hx. destruct Hx as [Hx _].
        now apply (Hn a x b).
  Qed.
  Lemma step_intro cur inner m : done = closed ++ cur -> qp_state p = QIntro ->
    opened (lit "([") (cur ++ [l]) (inner ++ [m]) -> bgs = [] -> wgs = [] -> qp_lines p = [] ->
    qp_intro p = join (List.concat iin ++ inner) -> qp_bwrap p = [] -> qp_wrap p = [] ->
    qinv (qs_intro p m) (done ++ [l]).
  Proof.
    intros Hd Hs Ho Hb Hw Hl Hi Hbw Hwr. unfold qs_intro.
    destruct (negb (l_empty m) && negb (q_end (qp_quote p)) && last_in close_brackets m) eqn:E.
    - apply andb_true_iff in E. destruct E as [E E3]. apply andb_true_iff in E. destruct E as [_ E2].
      apply negb_true_iff in E2. pose proof (level0 _ Hd E2) as B.
      exists (igs ++ [cur ++ [l]]), (iin ++ [inner ++ [slice m 0 (Some (-1)%Z)]]), [], [], win, (closed ++ cur ++ [l]), [].
      split; [rewrite Hd; now rewrite app_nil_r, <- app_assoc|]. split.
      + destruct F as [a b c d e f g h]. subst bgs wgs. constructor; cbn [qp_blocks]; try assumption.
        * rewrite !app_nil_r in *. now apply spaced_snoc.
        * apply Forall2_app; [exact b|]. constructor; [|constructor]. now apply opened_close.
        * apply Forall_app. split; [exact c|]. now repeat constructor.
      + unfold st_inv. cbn [qp_state qp_lines qp_intro qp_bwrap qp_wrap]. rewrite Hi.
        rewrite concat_app. cbn [List.concat]. rewrite app_nil_r, app_assoc, c20_join_snoc. repeat split; assumption.
    - exists igs, iin, bgs, wgs, win, closed, (cur ++ [l]). split; [rewrite Hd; now rewrite <- app_assoc|].
      split; [destruct F; now constructor|]. unfold st_inv. cbn [qp_state qp_lines qp_intro qp_bwrap qp_wrap]. rewrite Hs.
      exists (inner ++ [m]). rewrite app_assoc, c20_join_snoc, <- Hi. auto 10.
  Qed.
  Lemma step_bwrap cur inner m : done = closed ++ cur -> qp_state p = QBlockWrap ->
    opened (lit "([") (cur ++ [l]) (inner ++ [m]) -> qp_lines p = [] ->
    qp_intro p = join (List.concat iin) -> qp_bwrap p = join (List.concat win ++ inner) -> qp_wrap p = [] ->
    qinv (qs_block_wrap p m) (done ++ [l]).
  Proof.
    intros Hd Hs Ho Hl Hi Hbw Hwr. unfold qs_block_wrap.
    destruct (negb (l_empty m) && negb (q_end (qp_quote p)) && last_in close_brackets m) eqn:E.
    - apply andb_true_iff in E. destruct E as [E E3]. apply andb_true_iff in E. destruct E as [_ E2].
      apply negb_true_iff in E2. pose proof (level0 _ Hd E2) as B.
      exists igs, iin, bgs, (wgs ++ [cur ++ [l]]), (win ++ [inner ++ [slice m 0 (Some (-1)%Z)]]), (closed ++ cur ++ [l]), [].
      split; [rewrite Hd; now rewrite app_nil_r, <- app_assoc|]. split.
      + destruct F as [a b c d e f g h]. constructor; cbn [qp_blocks]; try assumption.
        * rewrite !app_assoc in *. rewrite <- (app_assoc closed). now apply spaced_snoc.
        * apply Forall2_app; [exact f|]. constructor; [|constructor]. now apply opened_close.
        * apply Forall_app. split; [exact g|]. now repeat constructor.
      + unfold st_inv. cbn [qp_state qp_lines qp_intro qp_bwrap qp_wrap]. rewrite Hbw.
        rewrite concat_app. cbn [List.concat]. rewrite app_nil_r, app_assoc, c20_join_snoc. repeat split; assumption.
    - exists igs, iin, bgs, wgs, win, closed, (cur ++ [l]). split; [rewrite Hd; now rewrite <- app_assoc|].
      split; [destruct F; now constructor|]. unfold st_inv. cbn [qp_state qp_lines qp_intro qp_bwrap qp_wrap]. rewrite Hs.
      exists (inner ++ [m]). rewrite app_assoc, c20_join_snoc, <- Hbw. auto 10.
  Qed.
  Lemma step_wrap cur : done = closed ++ cur -> qp_state p = QWrap -> qp_lines p = [] ->
    qp_intro p = join (List.concat iin) -> qp_bwrap p = join (List.concat win) -> qp_wrap p = join cur ->
    qinv (qs_wrap p l) (done ++ [l]).
  Proof.
    intros Hd Hs Hl Hi Hbw Hwr. unfold qs_wrap. exists igs, iin, bgs, wgs, win, closed, (cur ++ [l]).
    split; [rewrite Hd; now rewrite <- app_assoc|]. split; [destruct F; now constructor|].
    unfold st_inv. cbn [qp_state qp_lines qp_intro qp_bwrap qp_wrap]. rewrite Hs, Hwr, c20_join_snoc. auto 10.
  Qed.
End Step.
Section Step2.
  Variables (p : qb_parser) (igs iin bgs wgs win : list (list line)) (done : list line) (l : line).
  Hypothesis F : frame p igs iin bgs wgs win done.
  Hypothesis Qe : q_end (qp_quote p) = (0 <? depth (text (done ++ [l])))%Z.
  Hypothesis Q0 : (0 <= depth (text (done ++ [l])))%Z.
  Hypothesis Hl : qp_lines p = [].
  Hypothesis Hi : qp_intro p = join (List.concat iin).
  Hypothesis Hwr : qp_wrap p = [].
  Lemma done_nil : done = done ++ [].
  Proof. now rewrite app_nil_r. Qed.
  Lemma wgs_win : wgs = [] -> win = [].
  Proof. intros E. pose proof (fr_wraps _ _ _ _ _ _ _ F) as W. rewrite E in W. now inversion W. Qed.
  Lemma stay : l_empty l = true -> st_inv p iin bgs wgs win [] -> qinv p (done ++ [l]).
  Proof.
    intros He Hs. exists igs, iin, bgs, wgs, win, (done ++ [l]), []. rewrite app_nil_r. split; [reflexivity|].
    split; [now apply frame_blank|exact Hs].
  Qed.
  Lemma enter_wrap : qp_bwrap p = join (List.concat win) -> qinv (qs_wrap (qp_to p QWrap) l) (done ++ [l]).
  Proof.
    intros Hb. apply (step_wrap _ igs iin bgs wgs win done) with (cur := []); try assumption; try reflexivity.
    - now apply frame_to.
    - apply done_nil.
  Qed.
  Lemma enter_inside : wgs = [] -> qp_bwrap p = [] -> first_in open_quotes l = true ->
    qinv (qs_inside (qp_to p QInside) (slice l 1 None)) (done ++ [l]).
  Proof.
    intros Hw Hb Hf. apply first_in_inv in Hf. destruct Hf as (a & G & Ha).
    apply (step_inside _ igs iin bgs wgs win done) with (cur := []); try assumption; try reflexivity.
    - now apply frame_to.
    - apply done_nil.
    - cbn [qp_lines qp_to]. rewrite Hl. cbn [app]. now apply op with a.
    - intros x y z H. now destruct x.
  Qed.
  Lemma run_start s : qp_state p = s -> s = QStart -> bgs = [] -> wgs = [] -> qp_bwrap p = [] ->
    qinv (qs_start p l) (done ++ [l]).
  Proof.
    intros Hs -> Hb Hw Hbw. unfold qs_start. destruct (l_empty l) eqn:E.
    - apply stay; [exact E|]. unfold st_inv. rewrite Hs. auto 10.
    - destruct (first_in open_quotes l) eqn:Eq; [now apply enter_inside|].
      apply enter_wrap. rewrite (wgs_win Hw). exact Hbw.
  Qed.
  Lemma run_wait_wrap : qp_state p = QWaitWrap -> qp_bwrap p = join (List.concat win) ->
    qinv (qs_wait_wrap p l) (done ++ [l]).
  Proof.
    intros Hs Hbw. unfold qs_wait_wrap. destruct (l_empty l) eqn:E.
    - apply stay; [exact E|]. unfold st_inv. rewrite Hs. auto 10.
    - destruct (first_in open_brackets l) eqn:Eq; [|now apply enter_wrap].
      apply first_in_inv in Eq. destruct Eq as (a & G & Ha).
      apply (step_bwrap _ igs iin bgs wgs win done) with (cur := []) (inner := []); try assumption; try reflexivity.
      + now apply frame_to.
      + apply done_nil.
      + now apply op with a.
      + cbn [qp_bwrap qp_to]. now rewrite app_nil_r.
  Qed.
End Step2.
Lemma run_start_expect p igs iin bgs wgs win done l : frame p igs iin bgs wgs win done ->
  q_end (qp_quote p) = (0 <? depth (text (done ++ [l])))%Z -> (0 <= depth (text (done ++ [l])))%Z ->
  qp_lines p = [] -> qp_intro p = join (List.concat iin) -> qp_wrap p = [] ->
  qp_state p = QStartExpectIntro -> bgs = [] -> wgs = [] -> qp_bwrap p = [] ->
  qinv (qs_start_expect p l) (done ++ [l]).
Proof.
  intros F Qe Q0 Hl Hi Hwr Hs Hb Hw Hbw. unfold qs_start_expect. destruct (l_empty l) eqn:E.
  - eapply stay; [exact F|exact E|]. unfold st_inv. rewrite Hs. auto 10.
  - destruct (first_in open_brackets l) eqn:Eq.
    + apply first_in_inv in Eq. destruct Eq as (a & G & Ha).
      apply (step_intro _ igs iin bgs wgs win done) with (cur := []) (inner := []); try assumption; try reflexivity.
      * now apply frame_to.
      * now rewrite app_nil_r.
      * now apply op with a.
      * cbn [qp_intro qp_to]. now rewrite app_nil_r.
    + apply (run_start _ igs iin bgs wgs win) with (s := QStart); try assumption; try reflexivity. now apply frame_to.
Qed.
Lemma run_wait_block p igs iin bgs wgs win done l : frame p igs iin bgs wgs win done ->
  q_end (qp_quote p) = (0 <? depth (text (done ++ [l])))%Z -> (0 <= depth (text (done ++ [l])))%Z ->
  qp_lines p = [] -> qp_intro p = join (List.concat iin) -> qp_wrap p = [] ->
  qp_state p = QWaitBlock -> wgs = [] -> qp_bwrap p = [] ->
  qinv (qs_wait_block p l) (done ++ [l]).
Proof.
  intros F Qe Q0 Hl Hi Hwr Hs Hw Hbw. unfold qs_wait_block. destruct (l_empty l) eqn:E.
  - eapply stay; [exact F|exact E|]. unfold st_inv. rewrite Hs. auto 10.
  - destruct (first_in open_quotes l) eqn:Eq.
    + eapply enter_inside; eassumption.
    + apply (run_wait_wrap _ igs iin bgs wgs win); try assumption; try reflexivity.
      * now apply frame_to.
      * rewrite (wgs_win _ _ _ _ _ _ _ F Hw). exact Hbw.
Qed.
Lemma qs_inside_quote p l : qp_quote (qs_inside p l) = qp_quote p.
Proof. unfold qs_inside. now destruct (_ && _). Qed.
Lemma qs_intro_quote p l : qp_quote (qs_intro p l) = qp_quote p.
Proof. unfold qs_intro. now destruct (_ && _). Qed.
Lemma qs_block_wrap_quote p l : qp_quote (qs_block_wrap p l) = qp_quote p.
Proof. unfold qs_block_wrap. now destruct (_ && _). Qed.
Lemma qs_start_quote p l : qp_quote (qs_start p l) = qp_quote p.
Proof. unfold qs_start. destruct (l_empty l); [reflexivity|]. destruct (first_in _ _); [now rewrite qs_inside_quote|reflexivity]. Qed.
Lemma qs_wait_wrap_quote p l : qp_quote (qs_wait_wrap p l) = qp_quote p.
Proof. unfold qs_wait_wrap. destruct (l_empty l); [reflexivity|]. destruct (first_in _ _); [now rewrite qs_block_wrap_quote|reflexivity]. Qed.
Lemma qb_line_inv p l p' done : qb_line p l = Ok p' -> qinv p done -> q_level (qp_quote p) = depth (text done) ->
  qinv p' (done ++ [l]) /\ q_level (qp_quote p') = depth (text (done ++ [l])).
Proof.
  unfold qb_line. intros H (igs & iin & bgs & wgs & win & closed & cur & Hd & F & S) Hq.
  apply obind_ok in H. destruct H as (q & Eq & H). apply qc_step_inv in Eq. destruct Eq as (L & _ & E & P).
  apply Ok_inj in H.
  set (p1 := mkQP (qp_state p) (qp_blocks p) (qp_wrap p) (qp_intro p) (qp_bwrap p) (qp_lines p) q) in *.
  assert (F1 : frame p1 igs iin bgs wgs win closed) by (destruct F; now constructor).
  assert (L1 : q_level q = depth (text (done ++ [l]))) by (rewrite depth_text_app, text_one; lia).
  assert (Qe : q_end (qp_quote p1) = (0 <? depth (text (done ++ [l])))%Z) by (cbn; now rewrite <- L1).
  assert (Q0 : (0 <= depth (text (done ++ [l])))%Z) by lia.
  assert (QQ : qp_quote p' = q).
  { subst p'. destruct (qp_state p1); rewrite ?qs_inside_quote, ?qs_intro_quote, ?qs_block_wrap_quote, ?qs_start_quote, ?qs_wait_wrap_quote; try reflexivity.
    - unfold qs_start_expect. destruct (l_empty l); [reflexivity|]. destruct (first_in _ _);
        rewrite ?qs_intro_quote, ?qs_start_quote; reflexivity.
    - unfold qs_wait_block. destruct (l_empty l); [reflexivity|]. destruct (first_in _ _);
        rewrite ?qs_inside_quote, ?qs_wait_wrap_quote; reflexivity. }
  split; [|now rewrite QQ].
  subst p'. change (qp_state p1) with (qp_state p). unfold st_inv in S. destruct (qp_state p) eqn:Es.
  - destruct S as (-> & Hb & Hw & Hl & Hi & Hbw & Hwr). rewrite app_nil_r in Hd. subst closed.
    eapply (run_start p1); eauto.
  - destruct S as (-> & Hb & Hw & Hl & Hi & Hbw & Hwr). rewrite app_nil_r in Hd. subst closed.
    eapply (run_start_expect p1); eauto.
  - destruct S as (inner & Ho & Hb & Hw & Hl & Hi & Hbw & Hwr).
    eapply (step_intro p1); eauto using opened_snoc.
  - destruct S as (inner & Ho & Hl & Hi & Hbw & Hwr). eapply (step_bwrap p1); eauto using opened_snoc.
  - destruct S as (-> & Hw & Hl & Hi & Hbw & Hwr). rewrite app_nil_r in Hd. subst closed.
    eapply (run_wait_block p1); eauto.
  - destruct S as (-> & Hl & Hi & Hbw & Hwr). rewrite app_nil_r in Hd. subst closed.
    eapply (run_wait_wrap p1); eauto.
  - destruct S as (Ho & Hn & Hw & Hi & Hbw & Hwr). eapply (step_inside p1); eauto using opened_snoc.
  - destruct S as (Hl & Hi & Hbw & Hwr). eapply (step_wrap p1); eauto.
Qed.
Lemma qb_run_inv ls : forall p p' done, qb_run p ls = Ok p' -> qinv p done -> q_level (qp_quote p) = depth (text done) ->
  qinv p' (done ++ ls).
Proof.
  induction ls as [|l ls IH]; intros p p' done H Hp Hq; cbn [qb_run] in H.
  - apply Ok_inj in H. subst. now rewrite app_nil_r.
  - apply obind_ok in H. destruct H as (p1 & H1 & H). destruct (qb_line_inv _ _ _ _ H1 Hp Hq) as [A B].
    rewrite (app_assoc done [l] ls : done ++ l :: ls = (done ++ [l]) ++ ls). eapply IH; eassumption.
Qed.
Lemma some_text_non_empty s : non_empty_str s = some_text s.
Proof. now destruct s. Qed.
Lemma set_last_wrap_map bs w : map qb_lines (set_last_wrap bs w) = map qb_lines bs.
Proof. induction bs as [|b bs IH]; [reflexivity|]. destruct bs; [reflexivity|]. cbn in *. now rewrite IH. Qed.
Lemma set_first_intro_map bs w : map qb_lines (set_first_intro bs w) = map qb_lines bs.
Proof. now destruct bs. Qed.
Lemma set_last_wrap_nth bs w : forall k q, nth_error (set_last_wrap bs w) k = Some q ->
  exists b, nth_error bs k = Some b /\ qb_intro q = qb_intro b /\
    qb_wrap q = if (S k =? List.length bs)%nat then w else qb_wrap b.
Proof.
  induction bs as [|b bs IH]; intros k q H; [destruct k; discriminate|].
  destruct bs as [|c bs].
  - destruct k as [|k]; [|destruct k; discriminate]. cbn in H. apply Some_inj in H. subst. exists b. now cbn.
  - change (set_last_wrap (b :: c :: bs) w) with (b :: set_last_wrap (c :: bs) w) in H. destruct k as [|k].
    + cbn in H. apply Some_inj in H. subst. exists q. now cbn.
    + cbn [nth_error] in *. destruct (IH _ _ H) as (b' & Hb & Hi & Hw). exists b'. auto.
Qed.
Lemma set_last_wrap_length bs w : List.length (set_last_wrap bs w) = List.length bs.
Proof. now rewrite <- (map_length qb_lines), set_last_wrap_map, map_length. Qed.
Lemma extract_quoted_inv prev ls e : extract_quoted prev ls = Ok e ->
  em_rest e = [] /\ lay_quoted (em_elems e) (em_wrap e) ls.
Proof.
  unfold extract_quoted. destruct ls as [|first rest]; [discriminate|]. intros H.
  apply obind_ok in H. destruct H as (u1 & _ & H). apply obind_ok in H. destruct H as (p & Hp & H).
  apply obind_ok in H. destruct H as (u2 & Hs & H). apply ensure_ok in Hs.
  apply obind_ok in H. destruct H as (u3 & Hb & H). apply ensure_ok in Hb. apply Ok_inj in H. subst e. cbn [em_elems em_wrap em_rest].
  split; [reflexivity|]. apply (qb_run_inv _ _ _ []) in Hp; [|..|reflexivity].
  2:{ exists [], [], [], [], [], [], []. split; [reflexivity|]. split; [repeat constructor|].
      unfold st_inv, qb_new. cbn. destruct (match prev with Some l => _ | None => _ end); auto 10. }
  cbn [app] in Hp. set (ls := first :: rest) in *.
  destruct Hp as (igs & iin & bgs & wgs & win & closed & cur & Hd & F & S).
  assert (S' : qp_intro p = join (List.concat iin) /\ qp_bwrap p = join (List.concat win) /\ qp_wrap p = join cur).
  { unfold st_inv in S. destruct (qp_state p); try discriminate.
    - destruct S as (-> & Hw & Hl & Hi & Hbw & Hwr). rewrite (wgs_win _ _ _ _ _ _ _ F Hw). auto.
    - destruct S as (-> & Hl & Hi & Hbw & Hwr). auto.
    - destruct S as (Hl & Hi & Hbw & Hwr). auto. }
  destruct S' as (Si & Sb & Sw). destruct F as [a b c d ee f g h].
  exists igs, iin, bgs, wgs, win, closed, cur.
  split; [exact Hd|]. split; [exact a|]. split; [exact b|]. split; [exact c|].
  split; [now rewrite set_last_wrap_map, set_first_intro_map|]. split; [exact ee|]. split; [exact f|]. split; [exact g|].
  rewrite !some_text_non_empty.
  destruct (qp_blocks p) as [|b0 bs] eqn:Eb; [discriminate|]. cbn [set_first_intro].
  split.
  { intros E. apply (f_equal (@List.length _)) in E. rewrite set_last_wrap_length in E. discriminate. }
  split; [|now rewrite Sw].
  intros k q Hk. rewrite set_last_wrap_length. apply set_last_wrap_nth in Hk. destruct Hk as (b' & Hb' & Hi & Hw).
  rewrite Hi, Hw. inversion h as [|? ? [N1 N2] N3]; subst. destruct k as [|k]; cbn [nth_error] in Hb'.
  - apply Some_inj in Hb'. subst b'. cbn [qb_intro qb_wrap Nat.eqb List.length]. rewrite N2, Si, Sb. split; [reflexivity|].
    now destruct (List.length bs).
  - rewrite Forall_forall in N3. apply nth_error_In in Hb'. destruct (N3 _ Hb') as [M1 M2].
    cbn [Nat.eqb]. rewrite M1, M2, Sb. cbn [List.length]. split; [reflexivity|].
    now destruct (k =? List.length bs)%nat.
Qed.
