(** Proofs for C66: all operations of a page. *)
From Verif Require Export ProofPlace.
From Coq Require Import Lia.

Section Ops.
  Variable fl : floats.
  Variable inv : flt fl -> flt fl.
  Hypothesis FT : field_theory (f_zero fl) (f_one fl) (f_add fl) (f_mul fl) (f_sub fl) (f_neg fl) (f_div fl) inv eq.
  Variable crop : crop_box fl.
  Variable fonts : N -> pdf_font fl.
  Local Notation rel := (rel fl crop).
  Local Notation good := (good fl fonts).

  Lemma plain_good r o r' : good r -> handle_plain fl r o = Ok r' -> good r'.
  Proof. intros G H. pose proof (plain_both fl fonts r r o (good_alike fl fonts r G)) as B. rewrite H in B. exact (proj1 B). Qed.

  (** Fonts *)
  Lemma bold_spec f : match ff_name fl f with Some n => str_contains (lit "bold") n || str_contains (lit "Bold") n | None => false end = true <-> bold_name (ff_name _ f).
  Proof.
    unfold bold_name. destruct (ff_name fl f) as [n|].
    - rewrite orb_true_iff, !contains_spec. split.
      + intros [(a & b & E)|(a & b & E)]; exists n, a, b; auto.
      + intros (s & a & b & E & H). injection E as <-. destruct H as [H|H]; [left|right]; eauto.
    - split; [discriminate|]. intros (s & a & b & E & _). discriminate.
  Qed.
  Lemma space_spec f : space_width fl f (let w := f_div fl (ff_widths _ f 32) (f_thousand fl) in if f_eq fl w (f_zero fl) || f_eq fl w (f_one fl) then f_quarter fl else w).
  Proof.
    unfold space_width, width_of. cbn zeta. set (w := f_div fl _ _). destruct (f_eq fl w (f_zero fl)) eqn:A; cbn [orb]; [left; auto|].
    destruct (f_eq fl w (f_one fl)) eqn:B; [left; auto|]. right. auto.
  Qed.
  Lemma space_unique f a b : space_width fl f a -> space_width fl f b -> a = b.
  Proof. unfold space_width. cbn zeta. intros [[[H|H] ->]|(H & K & ->)] [[[H'|H'] ->]|(H' & K' & ->)]; congruence. Qed.
  Lemma bool_iff (a b : bool) P : (a = true <-> P) -> (b = true <-> P) -> a = b.
  Proof. destruct a, b; intuition congruence. Qed.
  Lemma font_sound a p size r c r' : rel r c -> good r -> fonts a = p -> set_font fl a p size r = Ok r' -> exists c', takes_font fl p size c c' /\ rel r' c'.
  Proof.
    intros [P S M T K] G E. unfold set_font. pose proof (cache_get fl fonts _ a p (proj1 G) E) as X. destruct (convert_font fl p) as [f| |] eqn:C; [|rewrite X; discriminate..].
    destruct X as (c1 & -> & _). cbn [obind fst snd]. intros H. injection H as <-. eexists. split; [econstructor; [exact C|apply bold_spec|apply space_spec]|].
    constructor; cbn; auto.
    - destruct P. constructor; cbn; auto.
    - now rewrite K.
  Qed.
  Lemma font_complete a p size r c c' : rel r c -> good r -> fonts a = p -> takes_font fl p size c c' -> exists r', set_font fl a p size r = Ok r' /\ rel r' c'.
  Proof.
    intros [P S M T K] G E H. destruct H as [f b w C B W]. unfold set_font. pose proof (cache_get fl fonts _ a p (proj1 G) E) as X. rewrite C in X.
    destruct X as (c1 & -> & _). cbn [obind fst snd]. eexists. split; [reflexivity|]. constructor; cbn; auto.
    - subst n. destruct P. constructor; cbn; auto.
    - rewrite K. cbn. unfold font_changed. f_equal; [eapply space_unique; [apply space_spec|exact W]|eapply bool_iff; [apply bold_spec|exact B]].
  Qed.

  Lemma simple_sound r o c r' : rel r c -> good r -> handle_plain fl r o = Ok r' -> (forall n, o <> OXObject _ n) ->
    exists c', simple fl crop (rr_res _ r) c o c' /\ rel r' c'.
  Proof.
    intros R G H NX. pose proof R as [P S M T K]. destruct o as [t| | | |n|n size| | |x|x|x|x|x|x y|m| |b|l|n|]; cbn [handle_plain] in H.
    - destruct t as [t|]; injection H as <-; eexists.
      + split; [apply do_given|]. constructor; cbn; auto; [now rewrite M|constructor].
      + split; [apply do_mark|]. constructor; cbn; auto. now rewrite M.
    - rewrite M in H. destruct (cv_marks fl c) as [|[|] l] eqn:EM; [discriminate| |].
      + cbn [rr_actual rr_set_marked] in H. inversion T as [Ea Ec|t Ea Ec|t x y w sc g Ga Gu Gw Ea Ec].
        * rewrite <- Ea in H. injection H as <-. eexists. split; [apply do_given_lost; [exact EM|rewrite <- Ec; discriminate]|]. constructor; cbn; auto. constructor.
        * rewrite <- Ea in H. cbn in H. injection H as <-. eexists. split; [apply do_given_lost; [exact EM|rewrite <- Ec; discriminate]|]. constructor; cbn; auto. constructor.
        * rewrite <- Ea in H. cbn [at_finish at_params at_text] in H. cbn [rr_coll rr_set_marked] in H. rewrite K in H.
          match type of H with context [render_multiple fl ?x ?y ?w ?sc t ?k] => destruct (render_multiple_drawn fl x y w sc t k) as (ls & D & E) end.
          rewrite E in H. injection H as <-. eexists. split; [eapply do_given_end; [exact EM|now rewrite <- Ec|]|].
          { rewrite Ga, Gu. cbn [fst snd]. exists ls. split; [reflexivity|]. rewrite <- Gw. exact D. }
          constructor; cbn; auto. constructor.
      + injection H as <-. eexists. split; [apply do_unmark; exact EM|]. constructor; cbn; auto.
    - injection H as <-. eexists. split; [constructor|]. constructor; cbn; auto.
    - destruct (rr_stack fl r) as [|s l]; [discriminate|]. injection H as <-. inversion S as [|s0 n l0 l' Pn S' Es Ec]; subst. eexists. split; [apply do_restore; symmetry; exact Ec|].
      constructor; cbn; auto.
    - destruct (rr_res fl r) as [res|] eqn:ER; [|discriminate]. cbn [ok_or obind] in H. destruct (rs_states _ res n) as [[[f sz]|]|] eqn:ES; cbn [ok_or obind] in H; [| |discriminate].
      + destruct f as [[a p]|]; [|discriminate]. cbn [ok_or obind fst snd] in H. destruct (font_sound a p sz r c r' R G (proj2 (proj2 G _ ER) _ _ _ _ ES) H) as (c' & F & R').
        exists c'. split; [eapply do_state_font; eauto|exact R'].
      + injection H as <-. exists c. split; [eapply do_no_font; eauto|exact R].
    - destruct (rr_res fl r) as [res|] eqn:ER; [|discriminate]. cbn [ok_or obind] in H. destruct (rs_fonts _ res n) as [[a p]|] eqn:ES; [|discriminate]. cbn [ok_or obind fst snd] in H.
      destruct (font_sound a p size r c r' R G (proj1 (proj2 G _ ER) _ _ _ ES) H) as (c' & F & R'). exists c'. split; [eapply do_font; eauto|exact R'].
    - injection H as <-. eexists. split; [constructor|]. constructor; cbn; auto. apply (both_placed fl inv FT); [apply (mapped_identity fl inv FT)|exact P].
    - injection H as <-. eexists. split; [constructor|exact R].
    - injection H as <-. eexists. split; [constructor|]. constructor; cbn; auto. destruct P. constructor; cbn; auto.
    - injection H as <-. eexists. split; [constructor|]. constructor; cbn; auto. destruct P. constructor; cbn; auto.
    - injection H as <-. eexists. split; [constructor|]. constructor; cbn; auto. destruct P. constructor; cbn; auto.
    - injection H as <-. eexists. split; [constructor|]. constructor; cbn; auto. destruct P. constructor; cbn; auto.
    - injection H as <-. eexists. split; [constructor|]. constructor; cbn; auto. destruct P. constructor; cbn; auto.
    - injection H as <-. eexists. split; [constructor|]. constructor; cbn; auto. now apply (move_placed fl inv FT).
    - injection H as <-. eexists. split; [constructor|]. constructor; cbn; auto. now apply (both_placed fl inv FT).
    - injection H as <-. eexists. split; [constructor|]. constructor; cbn; auto. rewrite (pl_leading _ _ _ P). now apply (move_placed fl inv FT).
    - destruct (text_sound fl inv FT crop _ _ _ _ R H) as (c' & X & R'). exists c'. split; [now constructor|exact R'].
    - destruct (items_sound fl inv FT crop _ _ _ _ R H) as (c' & X & R'). exists c'. split; [now constructor|exact R'].
    - now destruct (NX n).
    - injection H as <-. eexists. split; [constructor|exact R].
  Qed.
  Lemma simple_complete r o c c' : rel r c -> good r -> simple fl crop (rr_res _ r) c o c' ->
    exists r', handle_plain fl r o = Ok r' /\ rel r' c' /\ forall n, o <> OXObject _ n.
  Proof.
    intros R G H. pose proof R as [P S M T K].
    destruct H as [|t|l EM|l t g cs EM ET D|l EM ET| |n l ES|res n ER ES|res n a p sz c' ER ES F|res n a p sz c' ER ES F| | |x|x|x|x|x|x y|m| |b c' X|l c' X|]; cbn [handle_plain].
    - eexists. split; [reflexivity|]. split; [|discriminate]. constructor; cbn; auto. now rewrite M.
    - eexists. split; [reflexivity|]. split; [|discriminate]. constructor; cbn; auto; [now rewrite M|constructor].
    - rewrite M, EM. eexists. split; [reflexivity|]. split; [|discriminate]. constructor; cbn; auto.
    - rewrite M, EM. cbn [rr_actual rr_set_marked]. rewrite ET in T. inversion T as [Ea Ec|t1 Ea Ec|t0 x y w sc g0 Ga Gu Gw Ea Ec]; subst. eexists. split; [reflexivity|]. split; [|discriminate].
      rewrite Ga in D. cbn [fst snd] in D.
      constructor; cbn; auto; [constructor|]. rewrite K. apply (proj1 (string_exact fl _ _ _ _ _ (mkColl fl (cv_chars fl c) (cv_space fl c) (cv_bold fl c) crop) cs)). exact D.
    - rewrite M, EM. cbn [rr_actual rr_set_marked]. inversion T as [Ea Ec|t Ea Ec|t x y w sc g Ga Gu Gw Ea Ec].
      + eexists. split; [reflexivity|]. split; [|discriminate]. constructor; cbn; auto. constructor.
      + eexists. split; [reflexivity|]. split; [|discriminate]. constructor; cbn; auto. constructor.
      + now destruct (ET t g).
    - eexists. split; [reflexivity|]. split; [|discriminate]. constructor; cbn; auto.
    - rewrite ES in S. inversion S as [|s n0 l0 l' Pn S' Es]; subst. eexists. split; [reflexivity|]. split; [|discriminate]. constructor; cbn; auto.
    - rewrite ER. cbn [ok_or obind]. rewrite ES. eexists. split; [reflexivity|]. split; [exact R|discriminate].
    - rewrite ER. cbn [ok_or obind]. rewrite ES. cbn [ok_or obind fst snd]. destruct (font_complete a p sz r c c' R G (proj2 (proj2 G _ ER) _ _ _ _ ES) F) as (r' & Er & R').
      exists r'. split; [exact Er|]. split; [exact R'|discriminate].
    - rewrite ER. cbn [ok_or obind]. rewrite ES. cbn [ok_or obind fst snd]. destruct (font_complete a p sz r c c' R G (proj1 (proj2 G _ ER) _ _ _ ES) F) as (r' & Er & R').
      exists r'. split; [exact Er|]. split; [exact R'|discriminate].
    - eexists. split; [reflexivity|]. split; [|discriminate]. constructor; cbn; auto. apply (both_placed fl inv FT); [apply (mapped_identity fl inv FT)|exact P].
    - eexists. split; [reflexivity|]. split; [exact R|discriminate].
    - eexists. split; [reflexivity|]. split; [|discriminate]. constructor; cbn; auto. destruct P. constructor; cbn; auto.
    - eexists. split; [reflexivity|]. split; [|discriminate]. constructor; cbn; auto. destruct P. constructor; cbn; auto.
    - eexists. split; [reflexivity|]. split; [|discriminate]. constructor; cbn; auto. destruct P. constructor; cbn; auto.
    - eexists. split; [reflexivity|]. split; [|discriminate]. constructor; cbn; auto. destruct P. constructor; cbn; auto.
    - eexists. split; [reflexivity|]. split; [|discriminate]. constructor; cbn; auto. destruct P. constructor; cbn; auto.
    - eexists. split; [reflexivity|]. split; [|discriminate]. constructor; cbn; auto. now apply (move_placed fl inv FT).
    - eexists. split; [reflexivity|]. split; [|discriminate]. constructor; cbn; auto. now apply (both_placed fl inv FT).
    - eexists. split; [reflexivity|]. split; [|discriminate]. constructor; cbn; auto. rewrite (pl_leading _ _ _ P). now apply (move_placed fl inv FT).
    - destruct (text_complete fl inv FT crop _ _ _ _ R X) as (r' & E & R'). exists r'. split; [exact E|]. split; [exact R'|discriminate].
    - destruct (items_complete fl inv FT crop _ _ _ X _ R) as (r' & E & R'). exists r'. split; [exact E|]. split; [exact R'|discriminate].
    - eexists. split; [reflexivity|]. split; [exact R|discriminate].
  Qed.

  (** ** All operations *)
  Variable get : N -> option (xobject fl).
  Hypothesis GF : all_fonts_of fl fonts get.
  Lemma op_good d r o r' : good r -> handle_op fl get d r o = Ok r' -> good r'.
  Proof. intros G H. pose proof (op_both fl fonts get GF d r r o (good_alike fl fonts r G)) as B. rewrite H in B. exact (proj1 B). Qed.
  Lemma op_plain d r o : (forall n, o <> OXObject _ n) -> handle_op fl get d r o = handle_plain fl r o.
  Proof. intros H. destruct d, o; try reflexivity; now destruct (H name). Qed.
  Lemma op_cases (o : op fl) : (exists n, o = OXObject _ n) \/ forall n, o <> OXObject _ n.
  Proof. destruct o; (left; eexists; reflexivity) || (right; discriminate). Qed.
  Lemma painted_sound : forall d ops r c r', rel r c -> good r -> handle_ops fl get d ops r = Ok r' ->
    exists c', painted fl crop get (rr_res _ r) ops c c' /\ rel r' c'.
  Proof.
    assert (Step : forall d, (forall ops r c r', rel r c -> good r -> ofold (deeper fl get d) ops r = Ok r' ->
      exists c', painted fl crop get (rr_res _ r) ops c c' /\ rel r' c') ->
      forall ops r c r', rel r c -> good r -> handle_ops fl get d ops r = Ok r' -> exists c', painted fl crop get (rr_res _ r) ops c c' /\ rel r' c').
    { intros d IH. induction ops as [|o ops IHo]; intros r c r' R G H; cbn in H.
      { injection H as <-. exists c. split; [constructor|exact R]. }
      destruct (handle_op fl get d r o) as [r1| |] eqn:E1; try discriminate. cbn [obind] in H. pose proof (op_good _ _ _ _ G E1) as G1.
      destruct (op_cases o) as [[n ->]|NX].
      - rewrite handle_xobject_op in E1. unfold handle_xobject in E1. destruct (rr_res fl r) as [res|] eqn:ER; [|discriminate]. cbn [ok_or obind] in E1.
        destruct (rs_xobjects _ res n) as [i|] eqn:EX; [|discriminate]. cbn [ok_or obind] in E1. destruct (get i) as [[fr fops|]|] eqn:EG; [| |discriminate]; cbn [ok_or obind] in E1.
        + destruct fops as [fops|]; [|discriminate]. cbn [ok_or obind] in E1.
          set (r0 := rr_set_stack fl (rr_state fl (match fr with Some x => rr_set_res fl (Some x) r | None => r end) :: rr_stack fl (match fr with Some x => rr_set_res fl (Some x) r | None => r end)) (match fr with Some x => rr_set_res fl (Some x) r | None => r end)) in *.
          assert (R0 : rel r0 (with_saved fl (cv_pen _ c :: cv_saved _ c) c)) by (destruct R, fr; constructor; cbn; auto).
          assert (G0 : good r0).
          { destruct fr as [fr|]; [|exact G]. split; [exact (proj1 G)|]. intros res' [= <-]. exact (GF _ _ _ EG). }
          assert (Q0 : rr_res _ r0 = Some (match fr with Some x => x | None => res end)) by (destruct fr; [reflexivity|exact ER]).
          destruct (ofold (deeper fl get d) fops r0) as [r2| |] eqn:E2; try discriminate. cbn [obind] in E1. destruct (IH _ _ _ _ R0 G0 E2) as (c2 & P2 & R2).
          rewrite Q0 in P2. destruct R2 as [P S M T K]. destruct (rr_stack fl r2) as [|s l] eqn:ES; [discriminate|]. injection E1 as <-.
          inversion S as [|s' p l' cl Pp Sl Ea Ec]; subst.
          match type of H with ofold _ _ ?r1 = _ => assert (R1 : rel r1 (with_pen fl p (with_saved fl cl c2))) by (constructor; cbn; auto) end.
          destruct (IHo _ _ _ R1 G1 H) as (c3 & P3 & R3). exists c3. split; [|exact R3]. cbn [rr_res rr_set_res rr_set_state rr_set_stack] in P3. eapply paint_form; eauto.
        + injection E1 as <-. destruct (IHo _ _ _ R G1 H) as (c3 & P3 & R3). exists c3. split; [|exact R3]. rewrite ER in P3. eapply paint_image; eauto.
      - rewrite op_plain in E1 by exact NX. destruct (simple_sound _ _ _ _ R G E1 NX) as (c1 & S1 & R1). destruct (IHo _ _ _ R1 G1 H) as (c2 & P2 & R2).
        exists c2. split; [|exact R2]. rewrite (plain_res fl _ _ _ E1) in P2. econstructor; eauto. }
    induction d as [|d IH]; apply Step; [|exact IH].
    intros [|o ops] r c r' R G H; cbn in H; [|discriminate]. injection H as <-. exists c. split; [constructor|exact R].
  Qed.
  Lemma painted_complete res ops c c' : painted fl crop get res ops c c' -> exists d0, forall d r, (d0 <= d)%nat -> rel r c -> good r -> rr_res _ r = res ->
    exists r', handle_ops fl get d ops r = Ok r' /\ rel r' c'.
  Proof.
    induction 1 as [res c|res o ops c c1 c2 S P [d0 IH]|res n i ops c c2 EX EG P [d0 IH]|res n i fr fops ops c c1 p l c2 EX EG P1 [d1 IH1] ES P2 [d0 IH]].
    - exists O. intros d r _ R G E. exists r. split; [reflexivity|exact R].
    - exists d0. intros d r L R G E. subst res. destruct (simple_complete _ _ _ _ R G S) as (r1 & E1 & R1 & NX). unfold handle_ops. cbn [ofold]. rewrite op_plain, E1 by exact NX. cbn [obind].
      apply IH; auto; [exact (plain_good _ _ _ G E1)|exact (plain_res fl _ _ _ E1)].
    - exists d0. intros d r L R G E. unfold handle_ops. cbn [ofold]. rewrite handle_xobject_op. unfold handle_xobject. rewrite E. cbn [ok_or obind]. rewrite EX. cbn [ok_or obind]. rewrite EG. cbn [ok_or obind]. apply IH; auto.
    - exists (Datatypes.S (Nat.max d0 d1)). intros d r L R G E. destruct d as [|d]; [lia|]. unfold handle_ops. cbn [ofold].
      assert (O : exists r1, handle_op fl get (Datatypes.S d) r (OXObject fl n) = Ok r1 /\ rel r1 (with_pen fl p (with_saved fl l c1)) /\ rr_res _ r1 = Some res).
      { rewrite handle_xobject_op. unfold handle_xobject. rewrite E. cbn [ok_or obind]. rewrite EX. cbn [ok_or obind]. rewrite EG. cbn [ok_or obind deeper].
        set (r0 := rr_set_stack fl (rr_state fl (match fr with Some x => rr_set_res fl (Some x) r | None => r end) :: rr_stack fl (match fr with Some x => rr_set_res fl (Some x) r | None => r end)) (match fr with Some x => rr_set_res fl (Some x) r | None => r end)) in *.
        assert (R0 : rel r0 (with_saved fl (cv_pen _ c :: cv_saved _ c) c)) by (destruct R, fr; constructor; cbn; auto).
        assert (G0 : good r0).
        { destruct fr as [fr|]; [|exact G]. split; [exact (proj1 G)|]. intros res' [= <-]. exact (GF _ _ _ EG). }
        assert (Q0 : rr_res _ r0 = Some (match fr with Some x => x | None => res end)) by (destruct fr; [reflexivity|exact E]).
        destruct (IH1 d r0 ltac:(lia) R0 G0 Q0) as (r2 & E2 & [P S M T K]). unfold handle_ops in E2. rewrite E2. cbn [obind]. rewrite ES in S.
        inversion S as [|s' p' l' cl Pp Sl Ea Ec]; subst. eexists. split; [reflexivity|]. split; [constructor; cbn; auto|reflexivity]. }
      destruct O as (r1 & E1 & R1 & Q1). rewrite E1. cbn [obind]. apply IH; auto; [lia|exact (op_good _ _ _ _ G E1)].
  Qed.
End Ops.

(** * Pages *)
Definition begun fl crop (res : option (resources fl)) k : renderer fl := new_renderer fl res k (new_collector fl crop).
Lemma begun_good fl crop fonts res k : (forall r, res = Some r -> fonts_of fl fonts r) -> cache_ok fl fonts k -> good fl fonts (begun fl crop res k).
Proof. intros F C. split; [exact C|exact F]. Qed.
Lemma c66_sound fl crop fonts get : exact fl -> all_fonts_of fl fonts get -> forall res k d ops r',
  (forall r, res = Some r -> fonts_of fl fonts r) -> cache_ok fl fonts k ->
  handle_ops fl get d ops (new_renderer fl res k (new_collector fl crop)) = Ok r' ->
  exists c, painted fl crop get res ops (blank fl) c /\ cl_chars _ (rr_coll _ r') = cv_chars _ c.
Proof.
  intros [inv FT] GF res k d ops r' F C H. destruct (painted_sound fl inv FT crop fonts get GF d ops _ _ r' (new_rel fl inv FT crop res k) (begun_good fl crop fonts res k F C) H) as (c & P & R).
  exists c. split; [exact P|]. now rewrite (re_coll _ _ _ _ R).
Qed.
Lemma c66_complete fl crop fonts get : exact fl -> all_fonts_of fl fonts get -> forall res k ops c,
  (forall r, res = Some r -> fonts_of fl fonts r) -> cache_ok fl fonts k -> painted fl crop get res ops (blank fl) c ->
  exists d0, forall d, (d0 <= d)%nat -> exists r', handle_ops fl get d ops (new_renderer fl res k (new_collector fl crop)) = Ok r' /\ cl_chars _ (rr_coll _ r') = cv_chars _ c.
Proof.
  intros [inv FT] GF res k ops c F C P. destruct (painted_complete fl inv FT crop fonts get GF res ops _ _ P) as [d0 H]. exists d0. intros d L.
  destruct (H d (begun fl crop res k) L (new_rel fl inv FT crop res k) (begun_good fl crop fonts res k F C) eq_refl) as (r' & E & R). exists r'. split; [exact E|]. now rewrite (re_coll _ _ _ _ R).
Qed.
Lemma empty_cache_ok fl fonts : cache_ok fl fonts [].
Proof. intros a f. discriminate. Qed.
Lemma c66_determined fl crop fonts get : exact fl -> all_fonts_of fl fonts get -> forall res ops c c',
  (forall r, res = Some r -> fonts_of fl fonts r) -> painted fl crop get res ops (blank fl) c -> painted fl crop get res ops (blank fl) c' -> cv_chars _ c = cv_chars _ c'.
Proof.
  intros X GF res ops c c' F P P'. destruct (c66_complete fl crop fonts get X GF res [] ops c F (empty_cache_ok fl fonts) P) as [d H].
  destruct (c66_complete fl crop fonts get X GF res [] ops c' F (empty_cache_ok fl fonts) P') as [d' H'].
  destruct (H (d + d')%nat ltac:(lia)) as (r & E & Q). destruct (H' (d + d')%nat ltac:(lia)) as (r' & E' & Q'). congruence.
Qed.
