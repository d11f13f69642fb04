(** Shown text (C45), fonts (C55) and the font cache (C56). *)
From Verif Require Export ProofPdf3.
From Coq Require Import Lia.

Section Run.
  Variable fl : floats.
  Local Notation renderer := (renderer fl).
  Local Notation op := (op fl).

  (** ** Shown text *)
  Lemma advance_font cid s : ts_font fl (ts_advance_by_char fl cid s) = ts_font fl s.
  Proof. reflexivity. Qed.
  Lemma drawn_with k l x y w sc c l' : drawn fl (with_chars fl k l) x y w sc c l' <-> drawn fl k x y w sc c l'.
  Proof. reflexivity. Qed.
  Lemma shows_with k l f s cids l' s' : shows fl (with_chars fl k l) f s cids l' s' -> shows fl k f s cids l' s'.
  Proof. induction 1; [constructor|eapply Shows_char; eassumption|eapply Shows_string; eassumption]. Qed.
  Lemma shows_cids f cids : forall r r', rr_actual _ r = None -> ts_font _ (rr_state _ r) = Some f -> ofold (rr_render_cid fl) cids r = Ok r' ->
    exists l s', shows fl (rr_coll _ r) f (rr_state _ r) cids l s' /\ r' = rr_set_coll _ (with_chars fl (rr_coll _ r) l) (rr_set_state _ s' r).
  Proof.
    induction cids as [|cid cids IH]; intros r r' A Fo; cbn [ofold].
    - intros [= <-]. exists [], (rr_state _ r). split; [constructor|]. unfold with_chars. rewrite app_nil_r. destruct r as [? [] ? ? ? ? ?]. reflexivity.
    - unfold rr_render_cid at 1. rewrite Fo, A. cbn [ok_or obind]. unfold coll_render_cid.
      destruct (to_unicode fl f cid) as [|c|t] eqn:T; cbn [obind fst snd]; [discriminate|..].
      + match goal with |- context [render_character fl ?x ?y ?w ?sc c ?k] => destruct (render_character_drawn fl x y w sc c k) as (l & D & ->) end.
        intros H. apply IH in H as (l' & s' & S & ->); [|exact A|exact Fo]. cbn [rr_coll rr_state rr_set_coll rr_set_state] in *.
        exists (l ++ l'), s'. split; [eapply Shows_char; [exact T|exact D|exact (shows_with _ _ _ _ _ _ _ S)]|].
        unfold with_chars. cbn. now rewrite app_assoc.
      + match goal with |- context [render_multiple fl ?x ?y ?w ?sc t ?k] => destruct (render_multiple_drawn fl x y w sc t k) as (l & D & ->) end.
        intros H. apply IH in H as (l' & s' & S & ->); [|exact A|exact Fo]. cbn [rr_coll rr_state rr_set_coll rr_set_state] in *.
        exists (List.concat l ++ l'), s'. split; [eapply Shows_string; [exact T|exists l; split; [reflexivity|exact D]|exact (shows_with _ _ _ _ _ _ _ S)]|].
        unfold with_chars. cbn. now rewrite app_assoc.
  Qed.
  Lemma cids_error f cids : forall r, rr_actual _ r = None -> ts_font _ (rr_state _ r) = Some f ->
    ofold (rr_render_cid fl) cids r = Err <-> exists cid, In cid cids /\ to_unicode fl f cid = TuUnknown.
  Proof.
    induction cids as [|cid cids IH]; intros r A Fo; cbn [ofold].
    - split; [discriminate|]. now intros (c & [] & _).
    - unfold rr_render_cid at 1. rewrite Fo, A. cbn [ok_or obind]. unfold coll_render_cid.
      destruct (to_unicode fl f cid) as [|c|t] eqn:T; cbn [obind fst snd].
      + split; [|reflexivity]. intros _. exists cid. split; [now left|exact T].
      + rewrite IH; [|exact A|exact Fo]. split; intros (c' & I & U); exists c'; (split; [|exact U]); [now right|]. destruct I as [<-|I]; [congruence|exact I].
      + rewrite IH; [|exact A|exact Fo]. split; intros (c' & I & U); exists c'; (split; [|exact U]); [now right|]. destruct I as [<-|I]; [congruence|exact I].
  Qed.
  Variable get : N -> option (xobject fl).
  Lemma draw_op d r b : handle_op fl get d r (ODraw _ b) = render_text fl r b.
  Proof. now destruct d. Qed.
  Lemma c45_shown d r b r' f : rr_actual _ r = None -> ts_font _ (rr_state _ r) = Some f -> handle_op fl get d r (ODraw _ b) = Ok r' ->
    exists l s', shows fl (rr_coll _ r) f (rr_state _ r) (codes_of fl f b) l s' /\ r' = rr_set_coll _ (with_chars fl (rr_coll _ r) l) (rr_set_state _ s' r).
  Proof. intros A Fo. rewrite draw_op. unfold render_text. rewrite Fo. cbn [ok_or obind]. now apply shows_cids. Qed.
  Lemma c45_unknown d r b f : rr_actual _ r = None -> ts_font _ (rr_state _ r) = Some f ->
    handle_op fl get d r (ODraw _ b) = Err <-> exists cid, In cid (codes_of fl f b) /\ to_unicode fl f cid = TuUnknown.
  Proof. intros A Fo. rewrite draw_op. unfold render_text. rewrite Fo. cbn [ok_or obind]. now apply cids_error. Qed.
  (** Text given for glyphs *)
  Lemma actual_cids f cids : forall r a, rr_actual _ r = Some a -> ts_font _ (rr_state _ r) = Some f -> exists a',
    ofold (rr_render_cid fl) cids r = Ok (rr_set_actual _ (Some a') (rr_set_state _ (after fl (rr_state _ r) cids) r)) /\
    at_text _ a' = at_text _ a /\
    (forall x y w sc, at_params _ a = Some (x, y, w, sc) -> exists w', at_params _ a' = Some (x, y, w', sc) /\
      forall pre last, cids = pre ++ [last] -> w' = width_to fl f x (after fl (rr_state _ r) pre) last) /\
    (at_params _ a = None -> forall c cids', cids = c :: cids' -> exists w', at_params _ a' = Some (m31 _ (rendering_matrix fl (rr_state _ r)), m32 _ (rendering_matrix fl (rr_state _ r)), w', m11 _ (rendering_matrix fl (rr_state _ r))) /\
      forall pre last, cids = pre ++ [last] -> w' = width_to fl f (m31 _ (rendering_matrix fl (rr_state _ r))) (after fl (rr_state _ r) pre) last) /\
    (cids = [] -> a' = a).
  Proof.
    induction cids as [|cid cids IH]; intros r a A Fo; cbn [ofold after].
    - exists a. repeat split.
      + f_equal. destruct r; cbn in *. now rewrite A.
      + intros x y w sc E. exists w. split; [exact E|]. intros pre last C. now destruct pre.
      + discriminate.
    - unfold rr_render_cid at 1. rewrite Fo, A. cbn [ok_or obind]. unfold at_render_cid.
      destruct (match at_params fl a with Some p => p | None => _ end) as [[[x y] w] sc] eqn:P. cbn [obind].
      match goal with |- context [ofold _ cids ?r0] => destruct (IH r0 _ eq_refl Fo) as (a' & -> & T & S & _ & Z) end.
      cbn [rr_state rr_set_actual rr_set_state at_text at_params] in *.
      assert (Q : exists w', at_params _ a' = Some (x, y, w', sc) /\ forall pre last, cid :: cids = pre ++ [last] -> w' = width_to fl f x (after fl (rr_state _ r) pre) last).
      { destruct (S _ _ _ _ eq_refl) as (w' & E & K). exists w'. split; [exact E|]. intros pre last C. destruct pre as [|p pre].
        - injection C as <- ->. cbn [after]. rewrite (Z eq_refl) in E. cbn [at_params] in E. now injection E as <-.
        - injection C as <- C. cbn [after]. now apply K. }
      exists a'. repeat split.
      + exact T.
      + intros x0 y0 w0 sc0 E. rewrite E in P. injection P as -> -> -> ->. exact Q.
      + intros E c cids' _. rewrite E in P. apply pair_equal_spec in P as [P Hs]. apply pair_equal_spec in P as [P _]. apply pair_equal_spec in P as [Hx Hy].
        rewrite Hx, Hy, Hs. exact Q.
      + discriminate.
  Qed.
  Lemma c45_actual d r b t f pre last : ts_font _ (rr_state _ r) = Some f -> codes_of fl f b = pre ++ [last] ->
    exists l, drawn_string fl (rr_coll _ r) (m31 _ (rendering_matrix fl (rr_state _ r))) (m32 _ (rendering_matrix fl (rr_state _ r)))
      (width_to fl f (m31 _ (rendering_matrix fl (rr_state _ r))) (after fl (rr_state _ r) pre) last) (m11 _ (rendering_matrix fl (rr_state _ r))) t l /\
    handle_ops fl get d [OBeginMarked _ (Some t); ODraw _ b; OEndMarked _] r =
      Ok (rr_set_actual _ None (rr_set_coll _ (with_chars fl (rr_coll _ r) l) (rr_set_state _ (after fl (rr_state _ r) (pre ++ [last])) r))).
  Proof.
    intros Fo C. unfold handle_ops. cbn [ofold].
    replace (handle_op fl get d r (OBeginMarked _ (Some t))) with (handle_plain fl r (OBeginMarked _ (Some t))) by now destruct d.
    cbn [handle_plain obind]. rewrite draw_op. unfold render_text. cbn [rr_state rr_set_marked rr_set_actual]. rewrite Fo. cbn [ok_or obind]. fold (codes_of fl f b). rewrite C.
    match goal with |- context [ofold _ _ ?r0] => destruct (actual_cids f (pre ++ [last]) r0 (mkAt fl t None) eq_refl Fo) as (a' & -> & T & _ & S & _) end.
    cbn [rr_state rr_set_marked rr_set_actual at_text] in *. destruct (pre ++ [last]) as [|c cs] eqn:E; [now destruct pre|]. destruct (S eq_refl c cs eq_refl) as (w' & P & K).
    specialize (K pre last (eq_sym E)). cbn [obind].
    match goal with |- context [handle_op fl get d ?r0 (OEndMarked _)] => replace (handle_op fl get d r0 (OEndMarked _)) with (handle_plain fl r0 (OEndMarked _)) by now destruct d end.
    cbn [handle_plain rr_marked rr_set_marked rr_set_actual rr_set_state rr_actual rr_coll]. unfold at_finish. rewrite P, T, <- K.
    match goal with |- context [render_multiple fl ?x ?y ?w ?sc t ?k] => destruct (render_multiple_drawn fl x y w sc t k) as (l & D & R) end.
    exists (List.concat l). split; [now exists l|]. rewrite R. reflexivity.
  Qed.
  Lemma c45_actual_lost d r b t f : ts_font _ (rr_state _ r) = Some f -> codes_of fl f b = [] ->
    handle_ops fl get d [OBeginMarked _ (Some t); ODraw _ b; OEndMarked _] r = Ok (rr_set_actual _ None r).
  Proof.
    intros Fo C. unfold handle_ops. cbn [ofold].
    replace (handle_op fl get d r (OBeginMarked _ (Some t))) with (handle_plain fl r (OBeginMarked _ (Some t))) by now destruct d.
    cbn [handle_plain obind]. rewrite draw_op. unfold render_text. cbn [rr_state rr_set_marked rr_set_actual]. rewrite Fo. cbn [ok_or obind]. fold (codes_of fl f b). rewrite C.
    cbn [ofold obind].
    match goal with |- context [handle_op fl get d ?r0 (OEndMarked _)] => replace (handle_op fl get d r0 (OEndMarked _)) with (handle_plain fl r0 (OEndMarked _)) by now destruct d end.
    reflexivity.
  Qed.

End Run.

Section Fonts.
  Variable fl : floats.
  Lemma last_of_snoc {A} (p : A -> bool) l x : last_of p (l ++ [x]) = if p x then Some x else last_of p l.
  Proof. induction l as [|y l IH]; cbn; [now destruct (p x)|]. rewrite IH. destruct (p x); [reflexivity|]. now destruct (last_of p l). Qed.
  Lemma nth_set l : forall i j c, nth j (set_nth l i c) 0%N = if (j =? i)%nat then c else nth j l 0%N.
  Proof.
    assert (N : forall i j c, nth j (set_nth [] i c) 0%N = if (j =? i)%nat then c else 0%N).
    { induction i as [|i IH]; intros [|j] c; cbn; auto. now destruct j. }
    induction l as [|x l IH]; intros i j c; [rewrite N; now destruct (j =? i)%nat, j|]. destruct i as [|i], j as [|j]; cbn; auto.
  Qed.
  Lemma mapping_string cid m f : is_string_mapping m = true ->
    smap_get cid (ff_smap _ (add_mapping fl (fst m) (snd m) f)) = (if (fst m =? cid)%N then Some (snd m) else smap_get cid (ff_smap _ f)) /\
    ff_cmap _ (add_mapping fl (fst m) (snd m) f) = ff_cmap _ f.
  Proof.
    destruct m as [c s]. unfold is_string_mapping, add_mapping. cbn [fst snd]. intros H. assert (forall k, smap_get cid ((c, s) :: k) = if (c =? cid)%N then Some s else smap_get cid k) as G by (intros k; cbn; now rewrite N.eqb_sym).
    destruct s as [|x [|y s]]; [now split; [apply G|]| |now split; [apply G|]]. cbn in H. rewrite orb_false_r in H. rewrite H. now split; [apply G|].
  Qed.
  Lemma mapping_char m f : is_string_mapping m = false -> exists c, snd m = [c] /\
    ff_smap _ (add_mapping fl (fst m) (snd m) f) = ff_smap _ f /\ ff_cmap _ (add_mapping fl (fst m) (snd m) f) = set_nth (ff_cmap _ f) (N.to_nat (fst m)) c.
  Proof.
    destruct m as [c s]. unfold is_string_mapping, add_mapping. cbn [fst snd]. intros [H L]%orb_false_iff. destruct s as [|x [|y s]]; try discriminate L. exists x. now rewrite H.
  Qed.
  Lemma add_identity l : forall f, ff_identity _ (add_mappings fl l f) = ff_identity _ f /\ ff_cid _ (add_mappings fl l f) = ff_cid _ f /\
    ff_name _ (add_mappings fl l f) = ff_name _ f /\ ff_widths _ (add_mappings fl l f) = ff_widths _ f.
  Proof.
    unfold add_mappings. induction l as [|m l IH]; intros f; [now repeat split|]. cbn [fold_left]. destruct (IH (add_mapping fl (fst m) (snd m) f)) as (-> & -> & -> & ->).
    unfold add_mapping. destruct (snd m) as [|x [|y s]]; [now repeat split| |now repeat split]. destruct (1000 <? fst m)%N; now repeat split.
  Qed.
  Lemma add_maps cid l f : 
    smap_get cid (ff_smap _ (add_mappings fl l f)) =
      match last_of (fun m => code_of cid m && is_string_mapping m) l with Some m => Some (snd m) | None => smap_get cid (ff_smap _ f) end /\
    nth (N.to_nat cid) (ff_cmap _ (add_mappings fl l f)) 0%N =
      match last_of (fun m => code_of cid m && negb (is_string_mapping m)) l with Some m => nth 0 (snd m) 0%N | None => nth (N.to_nat cid) (ff_cmap _ f) 0%N end.
  Proof.
    unfold add_mappings. induction l as [|m l [IH1 IH2]] using rev_ind; [now split|]. rewrite fold_left_app. cbn [fold_left]. rewrite !last_of_snoc. unfold code_of in *.
    set (f' := fold_left _ l f) in *. clearbody f'. destruct (is_string_mapping m) eqn:S; cbn [negb].
    - destruct (mapping_string cid m f' S) as [A B]. rewrite A, B, andb_false_r, andb_true_r. destruct (fst m =? cid)%N; now split.
    - destruct (mapping_char m f' S) as (c & E & A & B). rewrite A, B, andb_false_r, andb_true_r, nth_set. split; [exact IH1|].
      destruct (N.eqb_spec (fst m) cid) as [D|D].
      + rewrite D, Nat.eqb_refl, E. reflexivity.
      + destruct (Nat.eqb_spec (N.to_nat cid) (N.to_nat (fst m))) as [Q|Q]; [apply N2Nat.inj in Q; congruence|exact IH2].
  Qed.
  Lemma last_of_sound {A} (p : A -> bool) l m : last_of p l = Some m -> In m l /\ p m = true.
  Proof.
    induction l as [|x l IH]; cbn; [discriminate|]. destruct (last_of p l) as [y|]; [intros [= ->]; destruct (IH eq_refl); auto|]. destruct (p x) eqn:E; [|discriminate]. intros [= <-]. auto.
  Qed.
  Lemma scalar_spec n : char_from_u32 n = Some n /\ scalar n \/ char_from_u32 n = None /\ ~ scalar n.
  Proof.
    unfold char_from_u32, scalar. destruct (N.ltb_spec n 55296); cbn; [left; split; [reflexivity|lia]|].
    destruct (N.leb_spec 57344 n); cbn; [|right; split; [reflexivity|lia]]. destruct (N.ltb_spec n 1114112); [left|right]; (split; [reflexivity|lia]).
  Qed.
  Lemma means_unicode f l cid : ff_cmap _ f = [] -> ff_smap _ f = [] -> means (ff_identity _ f) l cid (to_unicode fl (add_mappings fl l f) cid).
  Proof.
    intros Cm Sm. unfold to_unicode. destruct (add_identity l f) as (-> & _ & _ & _). destruct (add_maps cid l f) as [A B]. rewrite A, Sm. rewrite Cm in B.
    destruct (last_of (fun m => code_of cid m && is_string_mapping m) l) as [m|] eqn:L1; [now apply Means_string|]. cbn [smap_get].
    set (cm := ff_cmap _ (add_mappings fl l f)) in *. clearbody cm.
    assert (R : forall r, match nth_error cm (N.to_nat cid) with Some c => if (c =? 0)%N then r else TuChar c | None => r end =
      if (nth (N.to_nat cid) cm 0 =? 0)%N then r else TuChar (nth (N.to_nat cid) cm 0%N)).
    { intros r. destruct (nth_error cm (N.to_nat cid)) as [c|] eqn:E; [now rewrite (nth_error_nth _ _ _ E)|]. apply nth_error_None in E. now rewrite nth_overflow. }
    rewrite R, B. clear R B cm.
    assert (Q : (forall m, last_of (fun m => code_of cid m && negb (is_string_mapping m)) l = Some m -> snd m = [0%N]) ->
      means (ff_identity fl f) l cid match (if ff_identity fl f then char_from_u32 cid else None) with Some c => TuChar c | None => TuUnknown end).
    { intros Z. destruct (ff_identity _ f); [|apply Means_nothing; [assumption..|]; now intros [? _]].
      destruct (scalar_spec cid) as [[-> S]|[-> S]]; [now apply Means_itself|apply Means_nothing; [assumption..|tauto]]. }
    destruct (last_of (fun m => code_of cid m && negb _) l) as [m|] eqn:L2.
    - destruct (last_of_sound _ _ _ L2) as [_ P]. cbv beta in P. apply andb_true_iff in P as [_ P]. apply negb_true_iff in P.
      unfold is_string_mapping in P. apply orb_false_iff in P as [_ P]. apply negb_false_iff, Nat.eqb_eq in P. destruct (snd m) as [|c [|]] eqn:Sn; try discriminate.
      cbn [nth]. destruct (N.eqb_spec c 0) as [->|Z].
      + apply Q. intros m' [= <-]. exact Sn.
      + eapply Means_char; eassumption.
    - destruct (N.to_nat cid); cbn; apply Q; discriminate.
  Qed.
  Lemma in_codes cid : In cid codes <-> (cid < 255)%N.
  Proof.
    unfold codes. rewrite in_map_iff. split.
    - intros (n & <- & I). apply in_seq in I. lia.
    - intros L. exists (N.to_nat cid). rewrite N2Nat.id. split; [reflexivity|]. apply in_seq. lia.
  Qed.
  Lemma codes_nodup : NoDup codes.
  Proof. unfold codes. apply FinFun.Injective_map_NoDup; [intros a b; apply Nat2N.inj|apply seq_NoDup]. Qed.
  Lemma once_nodup (g : N -> list (N * str)) l : (forall c, g c = [] \/ exists s, g c = [(c, s)]) -> NoDup l -> NoDup (map fst (flat_map g l)).
  Proof.
    intros G N. induction N as [|c l I N IH]; cbn; [constructor|]. rewrite map_app. destruct (G c) as [->|[s ->]]; [exact IH|]. cbn. constructor; [|exact IH].
    rewrite in_map_iff. intros ([c' s'] & E & J). cbn in E. subst c'. apply in_flat_map in J as (d & D & J). destruct (G d) as [Q|[t Q]]; rewrite Q in J; [easy|]. destruct J as [[= -> ->]|[]]. contradiction.
  Qed.
  Lemma c55_meaning p f : convert_font fl p = Ok f -> exists b diffs uni identity base,
    pf_encoding _ p = Some (b, diffs) /\ pf_unicode _ p = Some uni /\ base_maps b identity base /\ NoDup (map fst base) /\
    (forall cid, means identity (base ++ diffs ++ uni) cid (to_unicode fl f cid)) /\
    ff_cid _ f = pf_cid _ p /\ ff_name _ f = pf_name _ p /\ pf_widths _ p = Some (ff_widths _ f).
  Proof.
    unfold convert_font. destruct (pf_widths _ p) as [w|]; [|discriminate]. cbn [ok_or obind]. destruct (pf_encoding _ p) as [[b diffs]|]; [|discriminate]. cbn [ok_or obind fst snd].
    destruct (process_encoding _ _ _ _) as [f1| |] eqn:E; try discriminate. cbn [obind]. destruct (pf_unicode _ p) as [uni|]; [|discriminate]. cbn [ok_or obind]. intros [= <-].
    set (start i := mkFont fl [] [] i (pf_cid _ p) (pf_name _ p) w).
    assert (K : exists identity base, base_maps b identity base /\ NoDup (map fst base) /\ f1 = add_mappings fl (base ++ diffs) (start identity)).
    { unfold process_encoding in E. destruct b as [t|t| | |]; cbn [obind] in E; [..|discriminate]; injection E as <-.
      - exists false, (base_mappings t). unfold base_mappings, base_maps. split; [split; [reflexivity|]|split].
        + intros cid s. rewrite in_flat_map. split.
          * intros (c & I & J). apply in_codes in I. destruct (t c) as [x|] eqn:T; [|easy]. destruct J as [[= <- <-]|[]]. eauto.
          * intros (c & -> & T & L). exists cid. rewrite T. split; [now apply in_codes|now left].
        + apply once_nodup; [|apply codes_nodup]. intros c. destruct (t c); eauto.
        + unfold add_mappings. now rewrite fold_left_app.
      - exists false, (winansi_mappings t). unfold winansi_mappings, base_maps. split; [split; [reflexivity|]|split].
        + intros cid s. rewrite in_flat_map. split.
          * intros (c & I & J). apply in_codes in I. destruct (t c) as [x|] eqn:T; [destruct J as [[= <- <-]|[]]; eauto|].
            destruct (N.ltb_spec 30 c); [|easy]. destruct J as [[= <- <-]|[]]. eauto 8.
          * intros (L & c & -> & T). exists cid. split; [now apply in_codes|]. destruct T as [->|(-> & T & ->)]; [now left|]. apply N.ltb_lt in T. rewrite T. now left.
        + apply once_nodup; [|apply codes_nodup]. intros c. destruct (t c); [eauto|]. destruct (30 <? c)%N; eauto.
        + unfold add_mappings. now rewrite fold_left_app.
      - exists true, []. repeat split. constructor.
      - exists false, []. repeat split. constructor. }
    destruct K as (identity & base & B & N & ->). exists b, diffs, uni, identity, base. repeat (split; [now auto|]).
    assert (A : add_mappings fl uni (add_mappings fl (base ++ diffs) (start identity)) = add_mappings fl (base ++ diffs ++ uni) (start identity)).
    { unfold add_mappings. now rewrite <- fold_left_app, <- app_assoc. }
    rewrite A. split; [intros cid; apply (means_unicode (start identity)); reflexivity|].
    destruct (add_identity (base ++ diffs ++ uni) (start identity)) as (_ & -> & -> & ->). now repeat split.
  Qed.
  Lemma means_unique i l cid r r' : means i l cid r -> means i l cid r' -> r = r'.
  Proof.
    intros A B. destruct A as [m A|m c A1 A2 A3 A4|A1 A2 A3 A4|A1 A2 A3]; destruct B as [m' B|m' c' B1 B2 B3 B4|B1 B2 B3 B4|B1 B2 B3]; try congruence; try tauto.
    - specialize (B2 _ A2). rewrite A3 in B2. injection B2 as ->. now destruct A4.
    - specialize (B2 _ A2). rewrite A3 in B2. injection B2 as ->. now destruct A4.
    - specialize (A2 _ B2). rewrite B3 in A2. injection A2 as ->. now destruct B4.
    - specialize (A2 _ B2). rewrite B3 in A2. injection A2 as ->. now destruct B4.
  Qed.
End Fonts.
