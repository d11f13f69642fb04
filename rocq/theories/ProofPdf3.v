(** Saved states (C44), shown text (C45), fonts and the font cache (C55, C56). *)
From Verif Require Export ProofPdf2.
From Coq Require Import Lia.

Section Run.
  Variable fl : floats.
  Local Notation renderer := (renderer fl).
  Local Notation op := (op fl).

  (** ** Stacks *)
  Inductive effect := Push | Pop | Keep.
  Section Stack.
    Variable X : Type.
    Variable proj : renderer -> list X.
    Variable kind : op -> effect.
    Fixpoint count (n : nat) (ops : list op) : option nat :=
      match ops with
      | [] => Some n
      | o :: ops' => match kind o with
                     | Push => count (S n) ops'
                     | Pop => match n with O => None | S n' => count n' ops' end
                     | Keep => count n ops'
                     end
      end.
    Definition moved (e : effect) (a b : list X) : Prop :=
      match e with Push => exists x, b = x :: a | Pop => exists x, a = x :: b | Keep => b = a end.
    Definition disciplined (run : renderer -> op -> outcome renderer) : Prop :=
      forall r o r', run r o = Ok r' -> moved (kind o) (proj r) (proj r').
    Variable run : renderer -> op -> outcome renderer.
    Hypothesis D : disciplined run.
    Lemma stack_base ops : forall r r' top base m, ofold run ops r = Ok r' -> proj r = top ++ base -> count (List.length top) ops = Some m ->
      exists top', proj r' = top' ++ base /\ List.length top' = m.
    Proof.
      induction ops as [|o ops IH]; intros r r' top base m; cbn [ofold count].
      - intros [= <-] E [= <-]. now exists top.
      - destruct (run r o) as [r1| |] eqn:R; try discriminate. cbn [obind]. intros O E. pose proof (D r o r1 R) as M. destruct (kind o); cbn [moved] in M.
        + destruct M as [x M]. apply (IH r1 r' (x :: top) base m O). now rewrite M, E.
        + destruct M as [x M]. destruct top as [|y top]; [discriminate|]. cbn [List.length]. apply (IH r1 r' top base m O). rewrite E in M. now injection M.
        + apply (IH r1 r' top base m O). congruence.
    Qed.
    Lemma stack_count ops : forall r r', ofold run ops r = Ok r' -> count (List.length (proj r)) ops = Some (List.length (proj r')).
    Proof.
      induction ops as [|o ops IH]; intros r r'; cbn [ofold count].
      - now intros [= <-].
      - destruct (run r o) as [r1| |] eqn:R; try discriminate. cbn [obind]. intros O. pose proof (D r o r1 R) as M. rewrite <- (IH r1 r' O). destruct (kind o); cbn [moved] in M.
        + destruct M as [x ->]. reflexivity.
        + destruct M as [x ->]. reflexivity.
        + now rewrite M.
    Qed.
  End Stack.
  Definition save_kind (o : op) : effect := match o with OSave _ => Push | ORestore _ => Pop | _ => Keep end.
  Definition mark_kind (o : op) : effect := match o with OBeginMarked _ _ => Push | OEndMarked _ => Pop | _ => Keep end.
  Lemma saves_count ops : forall n, saves fl n ops = count save_kind n ops.
  Proof. induction ops as [|o ops IH]; intros n; [reflexivity|]. destruct o; cbn [saves count save_kind]; auto. destruct n; auto. Qed.
  Lemma marks_count ops : forall n, marks fl n ops = count mark_kind n ops.
  Proof. induction ops as [|o ops IH]; intros n; [reflexivity|]. destruct o; cbn [marks count mark_kind]; auto. destruct n; auto. Qed.

  (** What drawing text leaves alone *)
  Definition frame (r r' : renderer) : Prop :=
    rr_stack _ r' = rr_stack _ r /\ rr_marked _ r' = rr_marked _ r /\ rr_res _ r' = rr_res _ r.
  Lemma frame_refl r : frame r r.
  Proof. now repeat split. Qed.
  Lemma frame_trans a b c : frame a b -> frame b c -> frame a c.
  Proof. unfold frame. intuition congruence. Qed.
  Lemma frame_cid r cid r' : rr_render_cid fl r cid = Ok r' -> frame r r'.
  Proof.
    unfold rr_render_cid. destruct (ts_font _ (rr_state _ r)) as [f|]; [|discriminate]. cbn. destruct (rr_actual _ r) as [a|].
    - destruct (at_render_cid _ _ _ _ _). intros [= <-]. now repeat split.
    - destruct (coll_render_cid _ _ _ _ _) as [p| |]; try discriminate. intros [= <-]. now repeat split.
  Qed.
  Lemma frame_text r b r' : render_text fl r b = Ok r' -> frame r r'.
  Proof. unfold render_text. destruct (ts_font _ _); [|discriminate]. cbn. apply ofold_rel; [apply frame_refl|apply frame_trans|apply frame_cid]. Qed.
  Lemma frame_font a p sz r r' : set_font fl a p sz r = Ok r' -> frame r r'.
  Proof. unfold set_font. destruct (fc_get _ _ _ _) as [c| |]; try discriminate. intros [= <-]. now repeat split. Qed.
  Lemma plain_frame r o r' : handle_plain fl r o = Ok r' ->
    rr_res _ r' = rr_res _ r /\ moved (text_state fl) (save_kind o) (rr_stack _ r) (rr_stack _ r') /\ moved bool (mark_kind o) (rr_marked _ r) (rr_marked _ r').
  Proof.
    assert (Fr : frame r r' -> save_kind o = Keep -> mark_kind o = Keep ->
      rr_res _ r' = rr_res _ r /\ moved (text_state fl) (save_kind o) (rr_stack _ r) (rr_stack _ r') /\ moved bool (mark_kind o) (rr_marked _ r) (rr_marked _ r')).
    { intros (A & B & C) -> ->. cbn. auto. }
    destruct o; cbn [handle_plain save_kind mark_kind moved] in *;
      try (intros [= <-]; apply Fr; [now repeat split|reflexivity|reflexivity]).
    - destruct t; intros [= <-]; cbn; eauto.
    - destruct (rr_marked _ r) as [|m l]; [discriminate|]. intros [= <-]. destruct m; [cbn [rr_actual rr_set_marked]; destruct (rr_actual _ r)|]; cbn; eauto.
    - intros [= <-]. cbn. eauto.
    - destruct (rr_stack _ r) as [|s l]; [discriminate|]. intros [= <-]. cbn. eauto.
    - destruct (rr_res _ r) as [res|] eqn:E; [|discriminate]. cbn [ok_or obind]. destruct (rs_states _ res name) as [[[f sz]|]|]; [|intros [= <-]; apply Fr; [apply frame_refl|reflexivity..]|discriminate].
      cbn. destruct f; [|discriminate]. cbn. intros H. apply frame_font in H. rewrite <- E in *. now apply Fr.
    - destruct (rr_res _ r) as [res|] eqn:E; [|discriminate]. cbn [ok_or obind]. destruct (rs_fonts _ res name) as [f|]; [|discriminate]. cbn. intros H. apply frame_font in H. rewrite <- E in *. now apply Fr.
    - intros H. apply frame_text in H. now apply Fr.
    - intros H. apply Fr; [|reflexivity..]. revert H. apply ofold_rel; [apply frame_refl|apply frame_trans|]. intros a [b|d] a'; [apply frame_text|]. intros [= <-]. now repeat split.
  Qed.
  Variable get : N -> option (xobject fl).
  Definition deeper (d : nat) : renderer -> op -> outcome renderer := match d with S d => handle_op fl get d | O => fun _ _ => Panic end.
  Lemma handle_xobject_op d r n : handle_op fl get d r (OXObject _ n) = handle_xobject fl get (deeper d) n r.
  Proof. now destruct d. Qed.
  Lemma xobject_inv d r n r' : handle_op fl get d r (OXObject _ n) = Ok r' -> r' = r \/
    exists res x fr ops r2 s l, rr_res _ r = Some res /\ rs_xobjects _ res n = Some x /\ get x = Some (XForm _ fr (Some ops)) /\
    ofold (deeper d) ops (rr_set_stack _ (rr_state _ r :: rr_stack _ r) (rr_set_res _ (match fr with Some _ => fr | None => rr_res _ r end) r)) = Ok r2 /\
    rr_stack _ r2 = s :: l /\ r' = rr_set_res _ (rr_res _ r) (rr_set_state _ s (rr_set_stack _ l r2)).
  Proof.
    rewrite handle_xobject_op. unfold handle_xobject. destruct (rr_res _ r) as [res|] eqn:ER; [|discriminate]. cbn [ok_or obind].
    destruct (rs_xobjects _ res n) as [x|] eqn:EX; [|discriminate]. cbn [ok_or obind]. destruct (get x) as [[fr ops|]|] eqn:EG; [|intros [= <-]; now left|discriminate].
    cbn [ok_or obind]. destruct ops as [ops|]; [|discriminate]. cbn [ok_or obind]. destruct (ofold _ ops _) as [r2| |] eqn:E; try discriminate. cbn [obind].
    destruct (rr_stack _ r2) as [|s l] eqn:S; [discriminate|]. intros [= <-]. right. exists res, x, fr, ops, r2, s, l. repeat (split; [now auto|]).
    split; [|now auto]. rewrite <- E. destruct fr; [reflexivity|]. f_equal. destruct r; cbn in *. now rewrite ER.
  Qed.
  Lemma op_res d r o r' : handle_op fl get d r o = Ok r' -> rr_res _ r' = rr_res _ r.
  Proof.
    intros H. destruct (match o with OXObject _ n => Some n | _ => None end) as [n|] eqn:E.
    - destruct o; try discriminate. apply xobject_inv in H as [->|(res & x & fr & ops & r2 & s & l & _ & _ & _ & _ & _ & ->)]; reflexivity.
    - assert (handle_plain fl r o = Ok r') as P by (destruct d, o; try exact H; discriminate). now apply plain_frame in P.
  Qed.
  Lemma ops_res d ops : forall r r', handle_ops fl get d ops r = Ok r' -> rr_res _ r' = rr_res _ r.
  Proof. intros r r'. apply (ofold_rel (fun a b => rr_res _ b = rr_res _ a)); [reflexivity|congruence|apply op_res]. Qed.
  Lemma op_stack d : forms_satisfy fl (balanced fl) get -> disciplined (text_state fl) (rr_stack _) save_kind (handle_op fl get d).
  Proof.
    intros B. assert (K : forall d, disciplined (text_state fl) (rr_stack _) save_kind (deeper d) -> disciplined (text_state fl) (rr_stack _) save_kind (handle_op fl get d)).
    { intros d' IH r o r' H. destruct (match o with OXObject _ n => Some n | _ => None end) as [n|] eqn:E.
      - destruct o; try discriminate; apply xobject_inv in H as [->|(res & x & fr & ops & r2 & s & l & _ & _ & G & H & S & ->)]; [reflexivity|].
        cbn. specialize (B _ _ _ G). unfold balanced in B. rewrite saves_count in B.
        destruct (stack_base _ _ _ _ IH _ _ _ [] (rr_state _ r :: rr_stack _ r) 0 H eq_refl B) as (top' & T & L). destruct top'; [|discriminate].
        rewrite S in T. now injection T.
      - assert (handle_plain fl r o = Ok r') as P by (destruct d', o; try exact H; discriminate). now apply plain_frame in P. }
    induction d as [|d IH]; apply K; [discriminate|exact IH].
  Qed.
  Lemma op_marked d : forms_satisfy fl (fun ops => marks fl 0 ops = Some 0) get -> disciplined bool (rr_marked _) mark_kind (handle_op fl get d).
  Proof.
    intros B. assert (K : forall d, disciplined bool (rr_marked _) mark_kind (deeper d) -> disciplined bool (rr_marked _) mark_kind (handle_op fl get d)).
    { intros d' IH r o r' H. destruct (match o with OXObject _ n => Some n | _ => None end) as [n|] eqn:E.
      - destruct o; try discriminate; apply xobject_inv in H as [->|(res & x & fr & ops & r2 & s & l & _ & _ & G & H & S & ->)]; [reflexivity|].
        cbn. specialize (B _ _ _ G). cbv beta in B. rewrite marks_count in B.
        destruct (stack_base _ _ _ _ IH _ _ _ [] (rr_marked _ r) 0 H eq_refl B) as (top' & T & L). destruct top'; [|discriminate]. exact T.
      - assert (handle_plain fl r o = Ok r') as P by (destruct d', o; try exact H; discriminate). now apply plain_frame in P. }
    induction d as [|d IH]; apply K; [discriminate|exact IH].
  Qed.
  Lemma c44_depth d ops r r' : forms_satisfy fl (balanced fl) get -> handle_ops fl get d ops r = Ok r' ->
    saves fl (List.length (rr_stack _ r)) ops = Some (List.length (rr_stack _ r')).
  Proof. intros B H. rewrite saves_count. exact (stack_count _ _ _ _ (op_stack d B) _ _ _ H). Qed.
  Lemma c44_balanced d ops r r' : forms_satisfy fl (balanced fl) get -> balanced fl ops -> handle_ops fl get d ops r = Ok r' -> rr_stack _ r' = rr_stack _ r.
  Proof.
    intros B N H. unfold balanced in N. rewrite saves_count in N.
    destruct (stack_base _ _ _ _ (op_stack d B) _ _ _ [] (rr_stack _ r) 0 H eq_refl N) as (top' & T & L). destruct top'; [|discriminate]. exact T.
  Qed.
  Lemma ofold_app {A B} (f : A -> B -> outcome A) l l' a : ofold f (l ++ l') a = obind (ofold f l a) (ofold f l').
  Proof. revert a. induction l as [|x l IH]; intros a; [reflexivity|]. cbn. destruct (f a x); cbn; auto. Qed.
  Lemma c44_restored d ops r r' : forms_satisfy fl (balanced fl) get -> balanced fl ops -> handle_ops fl get d (OSave _ :: ops ++ [ORestore _]) r = Ok r' ->
    rr_state _ r' = rr_state _ r /\ rr_stack _ r' = rr_stack _ r /\ rr_res _ r' = rr_res _ r.
  Proof.
    intros B N H. assert (rr_res _ r' = rr_res _ r) as R by now apply ops_res in H. revert H. unfold handle_ops. cbn [ofold]. replace (handle_op fl get d r (OSave _)) with (handle_plain fl r (OSave _)) by now destruct d.
    cbn [handle_plain obind]. rewrite ofold_app. destruct (ofold _ ops _) as [r2| |] eqn:E; try discriminate. cbn [obind].
    apply c44_balanced in E; [|assumption..]. cbn [rr_stack rr_set_stack] in E. cbn [ofold].
    replace (handle_op fl get d r2 (ORestore _)) with (handle_plain fl r2 (ORestore _)) by now destruct d. cbn [handle_plain]. rewrite E. cbn [obind]. intros [= <-].
    now repeat split.
  Qed.
  Lemma c44_form d n r r' : forms_satisfy fl (balanced fl) get -> handle_op fl get d r (OXObject _ n) = Ok r' ->
    rr_state _ r' = rr_state _ r /\ rr_stack _ r' = rr_stack _ r /\ rr_res _ r' = rr_res _ r.
  Proof.
    intros B H. apply xobject_inv in H as [->|(res & x & fr & ops & r2 & s & l & _ & _ & G & H & S & ->)]; [now repeat split|].
    destruct d as [|d].
    - cbn [deeper] in H. destruct ops; [|discriminate]. injection H as <-. injection S as <- <-. now repeat split.
    - apply (c44_balanced d) in H; [|assumption|exact (B _ _ _ G)]. rewrite S in H. cbn [rr_stack rr_set_stack] in H. injection H as -> ->. now repeat split.
  Qed.
  Lemma c44_marks d ops r r' : forms_satisfy fl (fun ops => marks fl 0 ops = Some 0) get -> handle_ops fl get d ops r = Ok r' ->
    marks fl (List.length (rr_marked _ r)) ops = Some (List.length (rr_marked _ r')).
  Proof. intros B H. rewrite marks_count. exact (stack_count _ _ _ _ (op_marked d B) _ _ _ H). Qed.

  (** ** No panics *)
  Lemma ofold_not_panic {A B} (P : A -> Prop) (f : A -> B -> outcome A) l : (forall a x, P a -> In x l -> f a x <> Panic /\ forall a', f a x = Ok a' -> P a') ->
    forall a, P a -> ofold f l a <> Panic.
  Proof.
    induction l as [|x l IH]; intros H a Pa; cbn; [discriminate|]. destruct (H a x Pa (or_introl eq_refl)) as [N K]. destruct (f a x) as [a'| |]; cbn; [|discriminate|now destruct N].
    apply IH; [|now apply K]. intros b y Pb I. apply H; [exact Pb|now right].
  Qed.
  Lemma cid_not_panic r cid : rr_render_cid fl r cid <> Panic.
  Proof.
    unfold rr_render_cid. destruct (ts_font _ _); [|discriminate]. cbn. destruct (rr_actual _ r).
    - destruct (at_render_cid _ _ _ _ _). discriminate.
    - unfold coll_render_cid. destruct (to_unicode _ _ _); discriminate.
  Qed.
  Lemma text_not_panic r b : render_text fl r b <> Panic.
  Proof.
    unfold render_text. destruct (ts_font _ _); [|discriminate]. cbn. apply (ofold_not_panic (fun _ => True)); [|exact I].
    intros a x _ _. split; [apply cid_not_panic|trivial].
  Qed.
  Lemma font_not_panic a p sz r : set_font fl a p sz r <> Panic.
  Proof.
    unfold set_font, fc_get. destruct (fc_find _ _ _); [discriminate|]. unfold convert_font. destruct (pf_widths _ p); [|discriminate]. cbn.
    destruct (pf_encoding _ p) as [[b l]|]; [|discriminate]. cbn. unfold process_encoding. destruct b; cbn; try discriminate; destruct (pf_unicode _ p); discriminate.
  Qed.
  Lemma plain_not_panic r o : handle_plain fl r o <> Panic.
  Proof.
    destruct o; cbn [handle_plain]; try discriminate.
    - destruct (rr_marked _ r); discriminate.
    - destruct (rr_stack _ r); discriminate.
    - destruct (rr_res _ r) as [res|]; [|discriminate]. cbn. destruct (rs_states _ res name) as [[[f sz]|]|]; try discriminate. cbn. destruct f; [|discriminate]. apply font_not_panic.
    - destruct (rr_res _ r) as [res|]; [|discriminate]. cbn. destruct (rs_fonts _ res name); [|discriminate]. apply font_not_panic.
    - apply text_not_panic.
    - apply (ofold_not_panic (fun _ => True)); [|exact I]. intros a x _ _. split; [|trivial]. destruct x; [apply text_not_panic|discriminate].
  Qed.
  Lemma c44_no_panic rank : forms_ranked fl rank get -> forall d ops r, drawn_below fl rank (rr_res _ r) d ops -> handle_ops fl get d ops r <> Panic.
  Proof.
    intros R. induction d as [|d IH]; intros ops r B; unfold handle_ops.
    all: apply (ofold_not_panic (fun r' => rr_res _ r' = rr_res _ r)); [|reflexivity]; intros r1 o E I; (split; [|intros r2 H; apply op_res in H; congruence]).
    all: destruct (match o with OXObject _ n => Some n | _ => None end) as [n|] eqn:X; [destruct o; try discriminate|destruct o; try discriminate X; apply plain_not_panic].
    all: rewrite handle_xobject_op; unfold handle_xobject; (destruct (rr_res _ r1) as [res|]; [|discriminate]); cbn [ok_or obind].
    all: destruct (rs_xobjects _ res name) as [x|] eqn:EX; [|discriminate]; cbn [ok_or obind]; pose proof (B _ _ _ (eq_sym E) I EX) as L.
    { lia. }
    destruct (get x) as [[fr ops'|]|] eqn:G; try discriminate. cbn [ok_or obind]. destruct ops' as [ops'|]; [|discriminate]. cbn [ok_or obind].
    destruct (R _ _ _ G) as (res' & -> & Q). cbn [deeper]. match goal with |- context [ofold _ ops' ?r0] => assert (N : ofold (handle_op fl get d) ops' r0 <> Panic) end.
    { apply IH. intros r2 n2 j [= <-] I2 E2. specialize (Q _ _ _ eq_refl I2 E2). lia. }
    destruct (ofold _ ops' _) as [r2| |]; [|discriminate|now destruct N]. cbn [obind]. destruct (rr_stack _ r2); discriminate.
  Qed.
End Run.
