(** Proofs for C66: where characters are drawn. *)
From Verif Require Export SpecPlace ProofBase ProofPdf5.
From Coq Require Import Lia Field.

Lemma contains_spec pat s : str_contains pat s = true <-> exists a b, s = a ++ pat ++ b.
Proof.
  induction s as [|c s IH]; cbn [str_contains]; rewrite orb_true_iff.
  - rewrite starts_with_spec. split.
    + intros [[r E]|]; [|discriminate]. exists [], r. exact E.
    + intros (a & b & E). left. destruct a; [now exists b|discriminate].
  - rewrite starts_with_spec, IH. split.
    + intros [[r E]|(a & b & ->)]; [exists [], r; exact E|]. now exists (c :: a), b.
    + intros (a & b & E). destruct a as [|x a]; [left; now exists b|]. injection E as <- E. right. now exists a, b.
Qed.
Lemma nth_error_ext_eq {A} (l l' : list A) : List.length l = List.length l' ->
  (forall n, (n < List.length l)%nat -> nth_error l n = nth_error l' n) -> l = l'.
Proof.
  revert l'. induction l as [|x l IH]; intros [|y l'] L H; cbn in L; try discriminate; [reflexivity|]. f_equal.
  - specialize (H O ltac:(cbn; lia)). cbn in H. congruence.
  - apply IH; [congruence|]. intros n N. apply (H (S n)). cbn. lia.
Qed.
Section Place.
  Variable fl : floats.
  Local Notation F := (flt fl).
  Variable inv : F -> F.
  Hypothesis FT : field_theory (f_zero fl) (f_one fl) (f_add fl) (f_mul fl) (f_sub fl) (f_neg fl) (f_div fl) inv eq.
  Add Field Ff : FT.
  Local Notation point := (point fl).
  Local Notation mapped := (mapped fl).
  Local Notation pen := (pen fl).
  Local Notation "a + b" := (f_add fl a b).
  Local Notation "a - b" := (f_sub fl a b).
  Local Notation "a * b" := (f_mul fl a b).
  Local Notation "a / b" := (f_div fl a b).
  Lemma div_mul a b : a / b = a * inv b.
  Proof. exact (Fdiv_def FT a b). Qed.
  Lemma pair_eq (a b : F) (p : F * F) : fst p = a -> snd p = b -> p = (a, b).
  Proof. destruct p. cbn. congruence. Qed.

  Lemma mapped_then a b p : mapped (mx_then fl a b) p = mapped b (mapped a p).
  Proof. unfold SpecPlace.mapped. cbn. f_equal; ring. Qed.
  Lemma mapped_identity p : mapped (mx_identity fl) p = p.
  Proof. unfold SpecPlace.mapped. destruct p. cbn. f_equal; ring. Qed.
  Lemma mapped_translation x y p : mapped (mx_translation fl x y) p = (fst p + x, snd p + y).
  Proof. unfold SpecPlace.mapped. cbn. f_equal; ring. Qed.

  (** ** A text state and a pen *)
  Record placed_at (s : text_state fl) (n : pen) : Prop := {
    pl_line : forall p, mapped (ts_line _ s) p = pn_line _ n p;
    pl_text : forall p, mapped (ts_matrix _ s) p = pn_line _ n (fst p + pn_x _ n, snd p);
    pl_char : ts_char_sp _ s = pn_char _ n; pl_word : ts_word_sp _ s = pn_word _ n; pl_scale : ts_hscale _ s = pn_scale _ n;
    pl_leading : ts_leading _ s = pn_leading _ n; pl_font : ts_font _ s = pn_font _ n; pl_size : ts_size _ s = pn_size _ n;
    pl_rise : ts_rise _ s = pn_rise _ n }.
  Lemma ahead_mapped s n d : placed_at s n -> ahead fl d n = mapped (ts_matrix _ s) (d, pn_rise _ n).
  Proof. intros P. rewrite (pl_text _ _ P). unfold ahead. cbn. do 2 f_equal. ring. Qed.
  Lemma rendering_here s n : placed_at s n -> (m31 _ (rendering_matrix fl s), m32 _ (rendering_matrix fl s)) = ahead fl (f_zero fl) n.
  Proof.
    intros P. rewrite (ahead_mapped s) by exact P. rewrite <- (pl_rise _ _ P). unfold SpecPlace.mapped. cbn. f_equal; ring.
  Qed.
  Lemma rendering_ahead s n w : placed_at s n ->
    w * m11 _ (rendering_matrix fl s) = fst (ahead fl (w * pn_size _ n * pn_scale _ n) n) - fst (ahead fl (f_zero fl) n).
  Proof.
    intros P. rewrite !(ahead_mapped s) by exact P. rewrite <- (pl_rise _ _ P), <- (pl_scale _ _ P), <- (pl_size _ _ P). unfold SpecPlace.mapped. cbn. ring.
  Qed.
  Lemma rendering_unit s n : placed_at s n ->
    m11 _ (rendering_matrix fl s) = fst (ahead fl (pn_size _ n * pn_scale _ n) n) - fst (ahead fl (f_zero fl) n).
  Proof.
    intros P. rewrite !(ahead_mapped s) by exact P. rewrite <- (pl_rise _ _ P), <- (pl_scale _ _ P), <- (pl_size _ _ P). unfold SpecPlace.mapped. cbn. ring.
  Qed.
  Lemma advance_placed s n d : placed_at s n -> placed_at (ts_advance fl d s) (pushed fl d n).
  Proof.
    intros P. destruct P as [A B]. constructor; cbn; auto. intros p. rewrite mapped_then, B, mapped_translation. cbn. do 2 f_equal; ring.
  Qed.
  Lemma pushed_eq n d d' : d = d' -> pushed fl d n = pushed fl d' n.
  Proof. now intros ->. Qed.
  Lemma by_char_placed s n f cid : placed_at s n -> pn_font _ n = Some f -> placed_at (ts_advance_by_char fl cid s) (after_glyph fl f cid n).
  Proof.
    intros P E. unfold ts_advance_by_char, after_glyph. erewrite pushed_eq; [now apply advance_placed|].
    rewrite (pl_font _ _ P), E, (pl_size _ _ P), (pl_char _ _ P), (pl_word _ _ P), (pl_scale _ _ P). unfold glyph_length, width_of.
    destruct (cid =? 32)%N; ring.
  Qed.
  Lemma both_placed s n m l : (forall p, mapped m p = l p) -> placed_at s n -> placed_at (ts_set_both fl m s) (on_line fl l n).
  Proof.
    intros H P. destruct P as [A B]. constructor; cbn; auto. intros p. rewrite H. destruct p. cbn. do 2 f_equal. ring.
  Qed.
  Lemma move_placed s n x y : placed_at s n -> placed_at (ts_set_both fl (mx_then fl (mx_translation fl x y) (ts_line _ s)) s) (next_line fl x y n).
  Proof. intros P. apply both_placed; [|exact P]. intros p. now rewrite mapped_then, mapped_translation, (pl_line _ _ P). Qed.

  (** ** Drawing is determined *)
  Variable crop : crop_box fl.
  Lemma drawn_unique k x y w sc c l l' : drawn fl k x y w sc c l -> drawn fl k x y w sc c l' -> l = l'.
  Proof.
    intros (a & U & H) (b & V & K). rewrite (unquirked_unique _ _ _ V U) in K.
    destruct H as [(H1 & H2 & ->)|[H ->]], K as [(K1 & K2 & ->)|[K ->]]; auto; exfalso; auto.
  Qed.
  Lemma drawn_string_unique k x y w sc s l l' : drawn_string fl k x y w sc s l -> drawn_string fl k x y w sc s l' -> l = l'.
  Proof.
    intros (a & -> & H) (b & -> & K). f_equal. revert b K. induction H; intros b K; inversion K; subst; auto. f_equal; auto. eapply drawn_unique; eauto.
  Qed.
  Lemma character_exact x y w sc c k l : drawn fl k x y w sc c l <-> render_character fl x y w sc c k = with_chars fl k l.
  Proof.
    destruct (render_character_drawn fl x y w sc c k) as (l0 & D & E). split.
    - intros H. now rewrite (drawn_unique _ _ _ _ _ _ _ _ H D).
    - rewrite E. intros H. unfold with_chars in H. injection H as H. apply app_inv_head in H. now subst.
  Qed.
  Lemma string_exact x y w sc c k l : drawn_string fl k x y w sc c l <-> render_multiple fl x y w sc c k = with_chars fl k l.
  Proof.
    destruct (render_multiple_drawn fl x y w sc c k) as (ls & D & E). assert (D' : drawn_string fl k x y w sc c (List.concat ls)) by (exists ls; auto). split.
    - intros H. now rewrite (drawn_string_unique _ _ _ _ _ _ _ _ H D').
    - rewrite E. intros H. unfold with_chars in H. injection H as H. apply app_inv_head in H. now subst.
  Qed.
  (** Only the box, the boldness and the width of the space matter *)
  Lemma drawn_chars cs sp b x y w sc c l : drawn fl (mkColl fl cs sp b crop) x y w sc c l <-> drawn fl (mkColl fl [] sp b crop) x y w sc c l.
  Proof. reflexivity. Qed.

  (** ** A renderer and a canvas *)
  Inductive given_rel : option (actual_text fl) -> option (str * option (given fl)) -> Prop :=
  | gr_none : given_rel None None
  | gr_empty t : given_rel (Some (mkAt fl t None)) (Some (t, None))
  | gr_some t x y w sc g : gv_at _ g = (x, y) -> gv_unit _ g = sc -> w = gv_end _ g - x ->
      given_rel (Some (mkAt fl t (Some (x, y, w, sc)))) (Some (t, Some g)).
  Record rel (r : renderer fl) (c : canvas fl) : Prop := {
    re_pen : placed_at (rr_state _ r) (cv_pen _ c);
    re_saved : Forall2 placed_at (rr_stack _ r) (cv_saved _ c);
    re_marks : rr_marked _ r = cv_marks _ c;
    re_text : given_rel (rr_actual _ r) (cv_text _ c);
    re_coll : rr_coll _ r = mkColl fl (cv_chars _ c) (cv_space _ c) (cv_bold _ c) crop }.
  Lemma new_rel res k : rel (new_renderer fl res k (new_collector fl crop)) (blank fl).
  Proof.
    constructor; cbn; auto; [|constructor]. constructor; cbn; auto; intros p; rewrite mapped_identity; auto. destruct p. cbn. f_equal. ring.
  Qed.

  (** One glyph *)
  Lemma cid_here r c cid f : rel r c -> pn_font _ (cv_pen _ c) = Some f ->
    rr_render_cid fl r cid =
    match rr_actual _ r with
    | Some a =>
        let '(x, y, sc) := match at_params _ a with Some (x, y, _, sc) => (x, y, sc) | None => (fst (here fl c), snd (here fl c), unit_here fl c) end in
        Ok (rr_set_actual fl (Some (mkAt fl (at_text _ a) (Some (x, y, glyph_end fl f cid c - x, sc)))) (rr_set_state fl (ts_advance_by_char fl cid (rr_state _ r)) r))
    | None =>
        let* k := match to_unicode fl f cid with
                  | TuUnknown => Err
                  | TuChar ch => Ok (render_character fl (fst (here fl c)) (snd (here fl c)) (glyph_end fl f cid c - fst (here fl c)) (unit_here fl c) ch (rr_coll _ r))
                  | TuString t => Ok (render_multiple fl (fst (here fl c)) (snd (here fl c)) (glyph_end fl f cid c - fst (here fl c)) (unit_here fl c) t (rr_coll _ r))
                  end in
        Ok (rr_set_coll fl k (rr_set_state fl (ts_advance_by_char fl cid (rr_state _ r)) r))
    end.
  Proof.
    intros [P S M T K] E. unfold rr_render_cid. pose proof (pl_font _ _ P) as PF. rewrite E in PF. rewrite PF. cbn [ok_or obind].
    pose proof (rendering_here _ _ P) as H0. pose proof (rendering_ahead _ _ (width_of fl f cid) P) as H1. pose proof (rendering_unit _ _ P) as H2.
    fold (here fl c) in H0, H1, H2. fold (unit_here fl c) in H2. fold (glyph_length fl f cid (cv_pen fl c)) in H1. fold (glyph_end fl f cid c) in H1.
    assert (HX : fst (here fl c) = m31 _ (rendering_matrix fl (rr_state _ r)) /\ snd (here fl c) = m32 _ (rendering_matrix fl (rr_state _ r))) by (rewrite <- H0; auto).
    destruct HX as [HX HY]. unfold coll_render_cid, at_render_cid. rewrite HX in H1. unfold width_of in H1. rewrite HX, HY, H1, H2.
    destruct (rr_actual fl r) as [a|].
    - assert (Q : forall z, m31 fl (rendering_matrix fl (rr_state fl r)) - z + (glyph_end fl f cid c - m31 fl (rendering_matrix fl (rr_state fl r))) = glyph_end fl f cid c - z) by (intros z; ring).
      destruct (at_params fl a) as [[[[x y] w] sc]|]; now rewrite Q.
    - destruct (to_unicode fl f cid); reflexivity.
  Qed.
  Lemma glyph_sound r c cid f r' : rel r c -> pn_font _ (cv_pen _ c) = Some f -> rr_render_cid fl r cid = Ok r' ->
    exists c', glyph fl crop f cid c c' /\ rel r' c'.
  Proof.
    intros R E. rewrite (cid_here _ _ _ _ R E). destruct R as [P S M T K]. pose proof (by_char_placed _ _ f cid P E) as A.
    inversion T as [Ea Ec|t Ea Ec|t x y w sc g Ga Gu Gw Ea Ec].
    - rewrite K. destruct (to_unicode fl f cid) as [|ch|s] eqn:U; cbn [obind]; try discriminate.
      + match goal with |- context [render_character fl ?x ?y ?w ?sc ch ?k] => destruct (render_character_drawn fl x y w sc ch k) as (l & D & ->) end.
        intros H. injection H as <-. eexists. split; [eapply glyph_char; [congruence|exact U|exact D]|]. constructor; cbn; auto.
      + match goal with |- context [render_multiple fl ?x ?y ?w ?sc s ?k] => destruct (render_multiple_drawn fl x y w sc s k) as (l & D & ->) end.
        intros H. injection H as <-. eexists. split; [eapply glyph_string; [congruence|exact U|exists l; split; [reflexivity|exact D]]|]. constructor; cbn; auto.
    - cbn [at_params at_text]. intros H. injection H as <-. eexists. split; [eapply glyph_first; now rewrite <- Ec|]. constructor; cbn; auto. constructor; cbn; auto. now destruct (here fl c).
    - cbn [at_params at_text]. intros H. injection H as <-. eexists. split; [eapply glyph_next; now rewrite <- Ec|]. constructor; cbn; auto. constructor; cbn; auto.
  Qed.
  Lemma glyph_complete r c cid f c' : rel r c -> pn_font _ (cv_pen _ c) = Some f -> glyph fl crop f cid c c' ->
    exists r', rr_render_cid fl r cid = Ok r' /\ rel r' c'.
  Proof.
    intros R E H. rewrite (cid_here _ _ _ _ R E). destruct R as [P S M T K]. pose proof (by_char_placed _ _ f cid P E) as A.
    destruct H as [ch l N U D|s l N U D|t N|t g N]; rewrite N in T; inversion T as [Ea Ec|t0 Ea Ec|t0 x y w sc g0 Ga Gu Gw Ea Ec]; subst.
    - rewrite U, K. cbn [obind]. apply (drawn_chars (cv_chars fl c)) in D. apply character_exact in D. rewrite D. eexists. split; [reflexivity|].
      constructor; cbn; auto; rewrite N, <- Ea; constructor.
    - rewrite U, K. cbn [obind]. assert (D' : drawn_string fl (mkColl fl (cv_chars fl c) (cv_space fl c) (cv_bold fl c) crop) (fst (here fl c)) (snd (here fl c)) (glyph_end fl f cid c - fst (here fl c)) (unit_here fl c) s l) by exact D.
      apply string_exact in D'. rewrite D'. eexists. split; [reflexivity|]. constructor; cbn; auto; rewrite N, <- Ea; constructor.
    - cbn [at_params at_text]. eexists. split; [reflexivity|]. constructor; cbn; auto. constructor; cbn; auto. now destruct (here fl c).
    - cbn [at_params at_text]. eexists. split; [reflexivity|]. constructor; cbn; auto. constructor; cbn; auto.
  Qed.
  Lemma glyph_font f cid c c' : glyph fl crop f cid c c' -> pn_font _ (cv_pen _ c') = pn_font _ (cv_pen _ c).
  Proof. intros H. destruct H; reflexivity. Qed.
  Lemma glyphs_sound f cids : forall r c r', rel r c -> pn_font _ (cv_pen _ c) = Some f -> ofold (rr_render_cid fl) cids r = Ok r' ->
    exists c', glyphs fl crop f cids c c' /\ rel r' c'.
  Proof.
    induction cids as [|cid cids IH]; intros r c r' R E; cbn [ofold].
    - intros H. injection H as <-. exists c. split; [constructor|exact R].
    - destruct (rr_render_cid fl r cid) as [r1| |] eqn:H1; cbn [obind]; try discriminate. intros H.
      destruct (glyph_sound _ _ _ _ _ R E H1) as (c1 & G & R1). assert (E1 : pn_font _ (cv_pen _ c1) = Some f) by now rewrite (glyph_font _ _ _ _ G).
      destruct (IH _ _ _ R1 E1 H) as (c2 & G2 & R2).
      exists c2. split; [econstructor; eauto|exact R2].
  Qed.
  Lemma glyphs_complete f cids c c' : glyphs fl crop f cids c c' -> forall r, rel r c -> pn_font _ (cv_pen _ c) = Some f ->
    exists r', ofold (rr_render_cid fl) cids r = Ok r' /\ rel r' c'.
  Proof.
    induction 1 as [c|cid cids c c1 c2 G Gs IH]; intros r R E; cbn [ofold].
    - eauto.
    - destruct (glyph_complete _ _ _ _ _ R E G) as (r1 & -> & R1). cbn [obind]. apply IH; auto. now rewrite (glyph_font _ _ _ _ G).
  Qed.

  (** Codes *)
  Lemma pairs_coded b : coded true b (pairs b).
  Proof.
    cut (forall n b, (List.length b <= n)%nat -> coded true b (pairs b)); [intros H; exact (H _ _ (le_n _))|].
    induction n as [|n IH]; intros [|hi [|lo b']] L; cbn in L; try lia.
    1,2: split; [reflexivity|]; intros [|i] hi lo H; cbn in H; [discriminate|]; now destruct i.
    - split; [reflexivity|]. intros [|i] hi' lo H K; cbn in K; [discriminate|]. destruct (i + _ + 1)%nat; discriminate.
    - destruct (IH b' ltac:(lia)) as [A B]. split; [cbn; now rewrite A|]. intros [|i] h l; cbn [pairs nth_error].
      + cbn. congruence.
      + replace (2 * S i)%nat with (S (S (2 * i))) by lia. cbn [nth_error]. apply B.
  Qed.
  Lemma coded_unique two b x y : coded two b x -> coded two b y -> x = y.
  Proof.
    destruct two; cbn; [|congruence]. intros [A B] [C D]. apply nth_error_ext_eq; [congruence|]. intros i L. rewrite A in L.
    assert (X : (2 * i + 1 < List.length b)%nat) by (pose proof (Nat.div2_odd (List.length b)); destruct (Nat.odd _); cbn in *; lia).
    destruct (nth_error b (2 * i)) as [hi|] eqn:E1; [|apply nth_error_None in E1; lia].
    destruct (nth_error b (2 * i + 1)) as [lo|] eqn:E2; [|apply nth_error_None in E2; lia].
    now rewrite (B _ _ _ E1 E2), (D _ _ _ E1 E2).
  Qed.
  Lemma codes_coded (two : bool) b : coded two b (if two then pairs b else b).
  Proof. destruct two; [apply pairs_coded|reflexivity]. Qed.
  Lemma text_sound r c b r' : rel r c -> render_text fl r b = Ok r' -> exists c', text fl crop b c c' /\ rel r' c'.
  Proof.
    intros R. unfold render_text. rewrite (pl_font _ _ (re_pen _ _ R)). destruct (pn_font _ (cv_pen fl c)) as [f|] eqn:E; cbn [ok_or obind]; try discriminate.
    intros H. destruct (glyphs_sound _ _ _ _ _ R E H) as (c' & G & R'). exists c'. split; [|exact R']. exists f, (if ff_cid fl f then pairs b else b). auto using codes_coded.
  Qed.
  Lemma text_complete r c b c' : rel r c -> text fl crop b c c' -> exists r', render_text fl r b = Ok r' /\ rel r' c'.
  Proof.
    intros R (f & cids & E & C & G). unfold render_text. rewrite (pl_font _ _ (re_pen _ _ R)), E. cbn [ok_or obind].
    rewrite (coded_unique _ _ _ _ (codes_coded (ff_cid fl f) b) C). now apply (glyphs_complete _ _ _ _ G).
  Qed.
  Lemma kern_rel r c d : rel r c ->
    rel (rr_set_state fl (ts_advance fl (f_neg fl d * ts_hscale _ (rr_state _ r) * ts_size _ (rr_state _ r) / f_thousand fl) (rr_state _ r)) r)
      (with_pen fl (pushed fl (f_neg fl (d / f_thousand fl * pn_size _ (cv_pen _ c) * pn_scale _ (cv_pen _ c))) (cv_pen _ c)) c).
  Proof.
    intros [P S M T K]. constructor; cbn; auto. erewrite pushed_eq; [now apply advance_placed|]. rewrite (pl_scale _ _ P), (pl_size _ _ P), !div_mul. ring.
  Qed.
  Lemma items_sound l : forall r c r', rel r c -> ofold (draw_item fl) l r = Ok r' -> exists c', items fl crop l c c' /\ rel r' c'.
  Proof.
    induction l as [|[b|d] l IH]; intros r c r' R; cbn [ofold draw_item].
    - intros H. injection H as <-. exists c. split; [constructor|exact R].
    - destruct (render_text fl r b) as [r1| |] eqn:H1; cbn [obind]; try discriminate. intros H.
      destruct (text_sound _ _ _ _ R H1) as (c1 & G & R1). destruct (IH _ _ _ R1 H) as (c2 & G2 & R2). exists c2. split; [econstructor; eauto|exact R2].
    - cbn [obind]. intros H. destruct (IH _ _ _ (kern_rel _ _ d R) H) as (c2 & G2 & R2). exists c2. split; [now constructor|exact R2].
  Qed.
  Lemma items_complete l c c' : items fl crop l c c' -> forall r, rel r c -> exists r', ofold (draw_item fl) l r = Ok r' /\ rel r' c'.
  Proof.
    induction 1 as [c|b l c c1 c2 G Gs IH|d l c c2 Gs IH]; intros r R; cbn [ofold draw_item].
    - eauto.
    - destruct (text_complete _ _ _ _ R G) as (r1 & -> & R1). cbn [obind]. auto.
    - cbn [obind]. apply IH. now apply kern_rel.
  Qed.
End Place.
