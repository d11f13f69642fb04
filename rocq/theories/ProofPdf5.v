(** The font cache and independence of pages (C56). *)
From Verif Require Export ProofPdf4.
From Coq Require Import Lia.

Section Run.
  Variable fl : floats.
  Local Notation renderer := (renderer fl).
  Local Notation op := (op fl).
  Variable fonts : N -> pdf_font fl.

  Definition cached (c : font_cache fl) (o : outcome renderer) : outcome renderer :=
    match o with Ok r => Ok (rr_set_cache _ c r) | Err => Err | Panic => Panic end.
  Lemma set_cache_same (r : renderer) : rr_set_cache fl (rr_cache fl r) r = r.
  Proof. now destruct r. Qed.
  Lemma ofold_cached {B} (f : renderer -> B -> outcome renderer) : (forall c r x, f (rr_set_cache _ c r) x = cached c (f r x)) ->
    forall l c r, ofold f l (rr_set_cache _ c r) = cached c (ofold f l r).
  Proof. intros H. induction l as [|x l IH]; intros c r; cbn; [reflexivity|]. rewrite H. destruct (f r x); cbn; auto. Qed.
  Lemma cid_cached c r cid : rr_render_cid fl (rr_set_cache _ c r) cid = cached c (rr_render_cid fl r cid).
  Proof.
    unfold rr_render_cid. cbn [rr_state rr_actual rr_coll rr_set_cache]. destruct (ts_font _ _); [|reflexivity]. cbn [ok_or obind]. destruct (rr_actual _ r).
    - destruct (at_render_cid _ _ _ _ _). reflexivity.
    - destruct (coll_render_cid _ _ _ _ _); reflexivity.
  Qed.
  Lemma text_cached c r b : render_text fl (rr_set_cache _ c r) b = cached c (render_text fl r b).
  Proof. unfold render_text. cbn [rr_state rr_set_cache]. destruct (ts_font _ _); [|reflexivity]. cbn [ok_or obind]. apply ofold_cached. intros. apply cid_cached. Qed.

  (** Renderers that only differ in their caches *)
  Definition good (r : renderer) : Prop := cache_ok fl fonts (rr_cache _ r) /\ forall res, rr_res _ r = Some res -> fonts_of fl fonts res.
  Definition alike (r1 r2 : renderer) : Prop := good r1 /\ good r2 /\ r2 = rr_set_cache _ (rr_cache _ r2) r1.
  Definition both (a b : outcome renderer) : Prop :=
    match a, b with Ok r1, Ok r2 => alike r1 r2 | Err, Err => True | Panic, Panic => True | _, _ => False end.
  Lemma ofold_both {B} (f : renderer -> B -> outcome renderer) l : (forall r1 r2 x, In x l -> alike r1 r2 -> both (f r1 x) (f r2 x)) ->
    forall r1 r2, alike r1 r2 -> both (ofold f l r1) (ofold f l r2).
  Proof.
    induction l as [|x l IH]; intros H r1 r2 A; cbn; [exact A|]. specialize (H r1 r2 x (or_introl eq_refl) A) as K.
    destruct (f r1 x), (f r2 x); cbn in *; try contradiction; try exact I. apply IH; [|exact K]. intros. apply H; [now right|assumption].
  Qed.
  Lemma both_refl r1 r2 : alike r1 r2 -> both (Ok r1) (Ok r2).
  Proof. auto. Qed.
  (** A function that ignores the cache *)
  Lemma both_cached (f : renderer -> outcome renderer) r1 r2 : (forall c r, f (rr_set_cache _ c r) = cached c (f r)) ->
    (forall r r', f r = Ok r' -> rr_res _ r' = rr_res _ r) -> alike r1 r2 -> both (f r1) (f r2).
  Proof.
    intros H R (G1 & G2 & E). rewrite E, H. pose proof (H (rr_cache _ r1) r1) as S. rewrite set_cache_same in S.
    destruct (f r1) as [r'| |] eqn:F; cbn; [|exact I..]. cbn in S. specialize (R _ _ F). assert (C : rr_cache _ r' = rr_cache _ r1) by (injection S as ->; reflexivity).
    split; [|split; [|reflexivity]]; unfold good; cbn [rr_cache rr_res rr_set_cache]; rewrite R, ?C.
    - exact G1.
    - split; [exact (proj1 G2)|exact (proj2 G1)].
  Qed.
  Lemma cache_get c a p : cache_ok fl fonts c -> fonts a = p ->
    match convert_font fl p with
    | Ok f => exists c', fc_get fl c a p = Ok (c', f) /\ cache_ok fl fonts c'
    | Err => fc_get fl c a p = Err
    | Panic => fc_get fl c a p = Panic
    end.
  Proof.
    intros C E. unfold fc_get. destruct (fc_find fl a c) as [f|] eqn:Fi.
    - pose proof (C _ _ Fi) as K. rewrite E in K. rewrite K. eauto.
    - destruct (convert_font fl p) as [f| |] eqn:K; cbn; [|reflexivity..]. eexists. split; [reflexivity|]. intros a' f' H. cbn in H.
      destruct (N.eqb_spec a' a) as [->|]; [|now apply C]. injection H as <-. now rewrite E.
  Qed.
  Lemma font_both a p sz r1 r2 : fonts a = p -> alike r1 r2 -> both (set_font fl a p sz r1) (set_font fl a p sz r2).
  Proof.
    intros E (G1 & G2 & Q). unfold set_font. pose proof (cache_get _ a p (proj1 G1) E) as K1. pose proof (cache_get _ a p (proj1 G2) E) as K2.
    destruct (convert_font fl p) as [f| |]; [|rewrite K1, K2; exact I..]. destruct K1 as (c1 & -> & C1), K2 as (c2 & -> & C2). cbn.
    destruct G1 as [_ G1], G2 as [_ G2]. split; [now split|]. split; [now split|]. rewrite Q. reflexivity.
  Qed.
  Lemma plain_res r o r' : handle_plain fl r o = Ok r' -> rr_res _ r' = rr_res _ r.
  Proof. intros H. now apply plain_frame in H. Qed.
  Lemma plain_both r1 r2 o : alike r1 r2 -> both (handle_plain fl r1 o) (handle_plain fl r2 o).
  Proof.
    intros A. destruct (match o with OGraphicsState _ _ | OTextFont _ _ _ => true | _ => false end) eqn:K.
    - pose proof A as (G1 & G2 & Q). assert (R : rr_res _ r2 = rr_res _ r1) by now rewrite Q. destruct o; try discriminate; cbn [handle_plain]; rewrite R.
      + destruct (rr_res _ r1) as [res|] eqn:E; [|exact I]. cbn [ok_or obind]. destruct (rs_states _ res name) as [[[f sz]|]|] eqn:ES; [|exact A|exact I].
        cbn [ok_or obind]. destruct f as [[a p]|]; [|exact I]. cbn [ok_or obind fst snd]. apply font_both; [|exact A]. exact (proj2 (proj2 G1 _ E) _ _ _ _ ES).
      + destruct (rr_res _ r1) as [res|] eqn:E; [|exact I]. cbn [ok_or obind]. destruct (rs_fonts _ res name) as [[a p]|] eqn:ES; [|exact I].
        cbn [ok_or obind fst snd]. apply font_both; [|exact A]. exact (proj1 (proj2 G1 _ E) _ _ _ ES).
    - apply (both_cached (fun r => handle_plain fl r o)); [|intros r r'; apply plain_res|exact A]. intros c r. destruct o; try discriminate; cbn [handle_plain]; try reflexivity.
      + destruct t; reflexivity.
      + cbn [rr_marked rr_set_cache]. destruct (rr_marked _ r) as [|[] l]; try reflexivity. cbn [rr_actual rr_set_cache rr_set_marked]. destruct (rr_actual _ r); reflexivity.
      + cbn [rr_stack rr_set_cache]. destruct (rr_stack _ r); reflexivity.
      + apply text_cached.
      + apply ofold_cached. intros c' r' [x|x]; [apply text_cached|reflexivity].
  Qed.
  Variable get : N -> option (xobject fl).
  Hypothesis GF : all_fonts_of fl fonts get.
  Lemma op_both d : forall r1 r2 o, alike r1 r2 -> both (handle_op fl get d r1 o) (handle_op fl get d r2 o).
  Proof.
    assert (K : forall d, (forall r1 r2 o, alike r1 r2 -> both (deeper fl get d r1 o) (deeper fl get d r2 o)) ->
      forall r1 r2 o, alike r1 r2 -> both (handle_op fl get d r1 o) (handle_op fl get d r2 o)).
    { clear d. intros d IH r1 r2 o A. destruct (match o with OXObject _ n => Some n | _ => None end) as [n|] eqn:X.
      - destruct o; try discriminate. injection X as <-. rewrite !handle_xobject_op. unfold handle_xobject. pose proof A as (G1 & G2 & Q).
        assert (R : rr_res _ r2 = rr_res _ r1) by now rewrite Q. rewrite R. destruct (rr_res _ r1) as [res|] eqn:E; [|exact I]. cbn [ok_or obind].
        destruct (rs_xobjects _ res name) as [x|]; [|exact I]. cbn [ok_or obind]. destruct (get x) as [[fr ops|]|] eqn:EG; [|exact A|exact I]. cbn [ok_or obind].
        destruct ops as [ops|]; [|exact I]. cbn [ok_or obind].
        match goal with |- both (obind (ofold _ ops ?a) _) (obind (ofold _ ops ?b) _) => assert (B : alike a b) end.
        { destruct fr as [fr|].
          - split; [|split]; [..|rewrite Q; reflexivity].
            + split; [exact (proj1 G1)|]. intros res' [= <-]. exact (GF _ _ _ EG).
            + split; [exact (proj1 G2)|]. intros res' [= <-]. exact (GF _ _ _ EG).
          - split; [exact G1|]. split; [exact G2|]. rewrite Q. reflexivity. }
        pose proof (ofold_both (deeper fl get d) ops (fun a b x _ => IH a b x) _ _ B) as H.
        destruct (ofold _ ops _) as [s1| |], (ofold _ ops _) as [s2| |]; cbn [both] in H; try contradiction; try exact I. cbn [obind].
        destruct H as (H1 & H2 & H). assert (rr_stack _ s2 = rr_stack _ s1) as -> by now rewrite H. destruct (rr_stack _ s1) as [|s l]; [exact I|]. cbn [both].
        split; [|split]; [..|rewrite H; reflexivity].
        + split; [exact (proj1 H1)|]. intros res' [= <-]. exact (proj2 G1 _ E).
        + split; [exact (proj1 H2)|]. intros res' [= <-]. exact (proj2 G1 _ E).
      - assert (P : forall r, handle_op fl get d r o = handle_plain fl r o) by (intros r; destruct d, o; try reflexivity; discriminate).
        rewrite !P. now apply plain_both. }
    induction d as [|d IH]; apply K; [intros; exact I|exact IH].
  Qed.
  Lemma ops_both d ops r1 r2 : alike r1 r2 -> both (handle_ops fl get d ops r1) (handle_ops fl get d ops r2).
  Proof. apply ofold_both. intros a b x _. apply op_both. Qed.
  Lemma good_alike r : good r -> alike r r.
  Proof. intros G. split; [exact G|]. split; [exact G|]. symmetry. apply set_cache_same. Qed.
  Lemma ops_good d ops r r' : good r -> handle_ops fl get d ops r = Ok r' -> good r'.
  Proof. intros G H. pose proof (ops_both d ops r r (good_alike r G)) as B. rewrite H in B. exact (proj1 B). Qed.
  (** Setting a font sets the one that is named. *)
  Lemma c56_font d ops r r' n sz r'' : good r -> handle_ops fl get d ops r = Ok r' -> handle_op fl get d r' (OTextFont _ n sz) = Ok r'' ->
    exists res a p f, rr_res _ r = Some res /\ rs_fonts _ res n = Some (a, p) /\ convert_font fl p = Ok f /\
      ts_font _ (rr_state _ r'') = Some f /\ ts_size _ (rr_state _ r'') = sz.
  Proof.
    intros G H. pose proof (ops_good _ _ _ _ G H) as G'. apply ops_res in H. replace (handle_op fl get d r' (OTextFont _ n sz)) with (handle_plain fl r' (OTextFont _ n sz)) by now destruct d.
    cbn [handle_plain]. rewrite H. destruct (rr_res _ r) as [res|] eqn:E; [|discriminate]. cbn [ok_or obind]. destruct (rs_fonts _ res n) as [[a p]|] eqn:EF; [|discriminate]. cbn [ok_or obind fst snd].
    unfold set_font. pose proof (cache_get _ a p (proj1 G') (proj1 (proj2 G' res H) _ _ _ EF)) as K. destruct (convert_font fl p) as [f| |] eqn:C; [|rewrite K; discriminate..].
    destruct K as (c' & -> & _). cbn [obind]. intros [= <-]. exists res, a, p, f. now repeat split.
  Qed.
  (** The pages are independent. *)
  Variable sort : (pchar fl -> pchar fl -> comparison) -> list (pchar fl) -> list (pchar fl).
  Lemma empty_ok : cache_ok fl fonts [].
  Proof. intros a f. discriminate. Qed.
  Lemma c56_pages d crop pages : (forall res ops, In (Some res, ops) pages -> fonts_of fl fonts res) -> forall c ls, cache_ok fl fonts c ->
    parse_pages fl sort get d crop pages c = Ok ls <-> Forall2 (fun p l => parse_pages fl sort get d crop [p] [] = Ok [l]) pages ls.
  Proof.
    induction pages as [|[res ops] pages IH]; intros FO c ls C.
    - cbn. split; [intros [= <-]; constructor|]. inversion 1. reflexivity.
    - cbn [parse_pages]. destruct ops as [ops|]; cbn [ok_or obind]; [|split; [discriminate|]; inversion 1; subst; discriminate].
      assert (A : alike (new_renderer fl res c (new_collector fl crop)) (new_renderer fl res [] (new_collector fl crop))).
      { assert (F' : forall r, res = Some r -> fonts_of fl fonts r) by (intros r ->; eapply FO; now left). split; [|split]; [now split|split; [apply empty_ok|exact F']|reflexivity]. }
      pose proof (ops_both d ops _ _ A) as B.
      assert (Q : forall x, parse_pages fl sort get d crop [(res, Some ops)] [] = Ok [x] <-> exists r', handle_ops fl get d ops (new_renderer fl res [] (new_collector fl crop)) = Ok r' /\ page_of_lines fl sort (rr_coll _ r') = x).
      { intros x. cbn [parse_pages ok_or obind]. destruct (handle_ops fl get d ops (new_renderer fl res [] _)) as [r2| |]; cbn [obind].
        - split; [intros [= <-]; eauto|]. now intros (r' & [= <-] & ->).
        - split; [discriminate|]. now intros (r' & ? & _).
        - split; [discriminate|]. now intros (r' & ? & _). }
      destruct (handle_ops fl get d ops (new_renderer fl res c _)) as [r1| |] eqn:H1; cbn [obind].
      + destruct (handle_ops fl get d ops (new_renderer fl res [] _)) as [r2| |] eqn:H2; cbn [both] in B; try contradiction. destruct B as (B1 & B2 & B).
        assert (E : rr_coll _ r2 = rr_coll _ r1) by now rewrite B.
        specialize (IH (fun r o I => FO r o (or_intror I)) (rr_cache _ r1)). destruct (parse_pages fl sort get d crop pages (rr_cache _ r1)) as [ls'| |] eqn:PP; cbn [obind].
        * split.
          -- intros [= <-]. constructor; [apply Q; exists r2; now rewrite E|]. now apply IH; [exact (proj1 B1)|].
          -- inversion 1 as [|? ? ? ls2 P1 P2]; subst. apply Q in P1 as (r' & [= <-] & <-). apply IH in P2; [|exact (proj1 B1)]. injection P2 as ->. now rewrite E.
        * split; [discriminate|]. inversion 1 as [|? ? ? ls2 P1 P2]; subst. apply IH in P2; [discriminate|exact (proj1 B1)].
        * split; [discriminate|]. inversion 1 as [|? ? ? ls2 P1 P2]; subst. apply IH in P2; [discriminate|exact (proj1 B1)].
      + split; [discriminate|]. inversion 1 as [|? ? ? ls2 P1 P2]; subst. apply Q in P1 as (r' & P1 & _). rewrite P1 in B. contradiction.
      + split; [discriminate|]. inversion 1 as [|? ? ? ls2 P1 P2]; subst. apply Q in P1 as (r' & P1 & _). rewrite P1 in B. contradiction.
  Qed.
End Run.
