(** Collected characters (C45) and saved states (C44). *)
From Verif Require Export ProofPdf.
From Coq Require Import Lia.

Lemma in_quirks x : In x (lit "ÕõÛû") <-> x = chr "Õ" \/ x = chr "õ" \/ x = chr "Û" \/ x = chr "û".
Proof. split; [intros [E|[E|[E|[E|[]]]]]; rewrite <- E; [left|right; left|right; right; left|right; right; right]; reflexivity|]. intros [->|[->|[->| ->]]]; vm_compute; tauto. Qed.
Lemma fix_quirks_unquirked c : unquirked c (fix_quirks c).
Proof.
  unfold unquirked, fix_quirks. destruct (N.eqb_spec c (chr "Õ")) as [->|A]; [tauto|]. destruct (N.eqb_spec c (chr "õ")) as [->|B]; [tauto|].
  destruct (N.eqb_spec c (chr "Û")) as [->|C]; [tauto|]. destruct (N.eqb_spec c (chr "û")) as [->|D]; [tauto|].
  right. right. right. right. split; [|reflexivity]. rewrite in_quirks. tauto.
Qed.
Lemma unquirked_unique c a b : unquirked c a -> unquirked c b -> a = b.
Proof.
  unfold unquirked. rewrite in_quirks.
  assert (chr "Õ" <> chr "õ" /\ chr "Õ" <> chr "Û" /\ chr "Õ" <> chr "û" /\ chr "õ" <> chr "Û" /\ chr "õ" <> chr "û" /\ chr "Û" <> chr "û") by (repeat split; discriminate).
  intuition congruence.
Qed.
Lemma fix_quirks_out c : ~ In (fix_quirks c) (lit "ÕõÛû").
Proof.
  destruct (fix_quirks_unquirked c) as [[_ ->]|[[_ ->]|[[_ ->]|[[_ ->]|[H ->]]]]]; [..|exact H]; vm_compute; intuition discriminate.
Qed.
Lemma fix_quirks_twice c : fix_quirks (fix_quirks c) = fix_quirks c.
Proof.
  apply (unquirked_unique (fix_quirks c)); [apply fix_quirks_unquirked|]. right. right. right. right. split; [apply fix_quirks_out|reflexivity].
Qed.

Section Run.
  Variable fl : floats.
  Local Notation renderer := (renderer fl).
  Local Notation collector := (collector fl).
  Local Notation op := (op fl).

  Lemma is_inside_spec c x y : is_inside fl c x y = true <-> inside fl c x y.
  Proof. unfold is_inside, inside. rewrite !andb_true_iff. tauto. Qed.

  Lemma render_character_drawn x y w sc c k : exists l, drawn fl k x y w sc c l /\ render_character fl x y w sc c k = with_chars fl k l.
  Proof.
    unfold render_character, drawn, with_chars. destruct (negb _ && _) eqn:E.
    - apply andb_true_iff in E as [E F]. apply negb_true_iff in E. apply is_inside_spec in F.
      eexists. split; [|reflexivity]. exists (fix_quirks c). split; [apply fix_quirks_unquirked|]. left. now split.
    - exists []. split; [|rewrite app_nil_r; now destruct k]. exists (fix_quirks c). split; [apply fix_quirks_unquirked|]. right. split; [|reflexivity].
      intros [I W]. apply is_inside_spec in I. rewrite I, W in E. discriminate.
  Qed.
  Lemma drawn_ok k x y w sc c l : drawn fl k x y w sc c l -> Forall (collected_ok fl (cl_crop _ k)) l.
  Proof.
    intros (c' & U & [(I & W & ->)|[_ ->]]); [|constructor]. constructor; [|constructor]. split; [exact I|]. split; [exact W|]. cbn [pc_ch].
    rewrite (unquirked_unique _ _ _ U (fix_quirks_unquirked c)). apply fix_quirks_out.
  Qed.
  Lemma drawn_same k k' x y w sc c l : cl_crop _ k' = cl_crop _ k -> cl_space _ k' = cl_space _ k -> cl_bold _ k' = cl_bold _ k ->
    drawn fl k' x y w sc c l -> drawn fl k x y w sc c l.
  Proof. unfold drawn. now intros -> -> ->. Qed.
  Lemma render_multiple_drawn x y w sc s k : exists ls,
    Forall2 (fun p l => drawn fl k (fst p) y (f_div fl w (f_of_nat fl (List.length s))) sc (snd p) l) (spread fl x (f_div fl w (f_of_nat fl (List.length s))) 0 s) ls /\
    render_multiple fl x y w sc s k = with_chars fl k (List.concat ls).
  Proof.
    unfold render_multiple. set (step := f_div fl w _). clearbody step.
    assert (H : forall i k', cl_crop _ k' = cl_crop _ k -> cl_space _ k' = cl_space _ k -> cl_bold _ k' = cl_bold _ k -> exists ls,
      Forall2 (fun p l => drawn fl k (fst p) y step sc (snd p) l) (spread fl x step i s) ls /\
      snd (fold_left (fun (a : nat * collector) c =>
        (S (fst a), render_character fl (f_add fl x (f_mul fl (f_of_nat fl (fst a)) step)) y step sc c (snd a))) s (i, k')) = with_chars fl k' (List.concat ls)).
    { induction s as [|c s IH]; intros i k' E1 E2 E3.
      - exists []. split; [constructor|]. cbn. unfold with_chars. rewrite app_nil_r. now destruct k'.
      - cbn [fold_left fst snd spread]. destruct (render_character_drawn (f_add fl x (f_mul fl (f_of_nat fl i) step)) y step sc c k') as (l & D & R). rewrite R.
        destruct (IH (S i) (with_chars fl k' l) E1 E2 E3) as (ls & F & ->). exists (l :: ls). split.
        + constructor; [|exact F]. eapply drawn_same; eassumption.
        + unfold with_chars. cbn. now rewrite app_assoc. }
    exact (H O k eq_refl eq_refl eq_refl).
  Qed.

  (** ** Everything collected is inside the box *)
  Lemma grows_same r r' : rr_coll _ r' = rr_coll _ r -> grows fl r r'.
  Proof. intros E. unfold grows. rewrite E. split; [reflexivity|]. exists []. now rewrite app_nil_r. Qed.
  Lemma grows_trans a b c : grows fl a b -> grows fl b c -> grows fl a c.
  Proof.
    intros [C1 (l1 & E1 & F1)] [C2 (l2 & E2 & F2)]. split; [congruence|]. exists (l1 ++ l2). split; [now rewrite E2, E1, app_assoc|].
    rewrite C1 in F2. now apply Forall_app.
  Qed.
  Lemma grows_multiple r k x y w sc s : rr_coll _ k = render_multiple fl x y w sc s (rr_coll _ r) -> grows fl r k.
  Proof.
    intros E. unfold grows. rewrite E. destruct (render_multiple_drawn x y w sc s (rr_coll _ r)) as (ls & D & ->). split; [reflexivity|].
    exists (List.concat ls). split; [reflexivity|]. induction D as [|p l ps ls D _ IH]; cbn; [constructor|]. apply Forall_app. split; [|exact IH]. now apply drawn_ok in D.
  Qed.
  Lemma grows_character r k x y w sc c : rr_coll _ k = render_character fl x y w sc c (rr_coll _ r) -> grows fl r k.
  Proof.
    intros E. unfold grows. rewrite E. destruct (render_character_drawn x y w sc c (rr_coll _ r)) as (l & D & ->). split; [reflexivity|].
    exists l. split; [reflexivity|]. now apply drawn_ok in D.
  Qed.
  Lemma ofold_rel {A B} (R : A -> A -> Prop) (f : A -> B -> outcome A) : (forall a, R a a) -> (forall a b c, R a b -> R b c -> R a c) ->
    (forall a x a', f a x = Ok a' -> R a a') -> forall l a a', ofold f l a = Ok a' -> R a a'.
  Proof.
    intros Rr Rt H. induction l as [|x l IH]; intros a a'; cbn; [intros [= <-]; apply Rr|].
    destruct (f a x) as [b| |] eqn:E; try discriminate. cbn. intros E'. eapply Rt; eauto.
  Qed.
  Lemma grows_cid r cid r' : rr_render_cid fl r cid = Ok r' -> grows fl r r'.
  Proof.
    unfold rr_render_cid. destruct (ts_font _ (rr_state _ r)) as [f|]; [|discriminate]. cbn. destruct (rr_actual _ r) as [a|].
    - destruct (at_render_cid _ _ _ _ _) as [s a']. intros [= <-]. now apply grows_same.
    - unfold coll_render_cid. destruct (to_unicode _ f cid); cbn; [discriminate|intros [= <-]..].
      + now eapply grows_character.
      + now eapply grows_multiple.
  Qed.
  Lemma grows_refl r : grows fl r r.
  Proof. now apply grows_same. Qed.
  Lemma grows_text r b r' : render_text fl r b = Ok r' -> grows fl r r'.
  Proof.
    unfold render_text. destruct (ts_font _ _); [|discriminate]. cbn. apply ofold_rel; [apply grows_refl|apply grows_trans|apply grows_cid].
  Qed.
  Lemma grows_font a p sz r r' : set_font fl a p sz r = Ok r' -> grows fl r r'.
  Proof.
    unfold set_font. destruct (fc_get _ _ _ _) as [c| |]; try discriminate. cbn. intros [= <-]. split; [reflexivity|]. exists []. now rewrite app_nil_r.
  Qed.
  Lemma grows_plain r o r' : handle_plain fl r o = Ok r' -> grows fl r r'.
  Proof.
    destruct o; cbn [handle_plain]; try (intros [= <-]; now apply grows_same).
    - destruct t; intros [= <-]; now apply grows_same.
    - destruct (rr_marked _ r) as [|[] l]; [discriminate|intros [= <-]..]; [|now apply grows_same].
      cbn [rr_actual rr_set_marked]. destruct (rr_actual _ r) as [a|]; [|now apply grows_same]. unfold at_finish.
      destruct (at_params _ a) as [[[[x y] w] sc]|]; [|now apply grows_same]. now eapply grows_multiple.
    - destruct (rr_stack _ r) as [|s l]; [discriminate|]. intros [= <-]. now apply grows_same.
    - destruct (rr_res _ r) as [res|]; [|discriminate]. cbn. destruct (rs_states _ res name) as [[[f sz]|]|]; [|intros [= <-]; apply grows_refl|discriminate].
      cbn. destruct f; [|discriminate]. apply grows_font.
    - destruct (rr_res _ r) as [res|]; [|discriminate]. cbn. destruct (rs_fonts _ res name) as [f|]; [|discriminate]. apply grows_font.
    - apply grows_text.
    - apply ofold_rel; [apply grows_refl|apply grows_trans|]. intros a [b'|d] a'; [apply grows_text|]. intros [= <-]. now apply grows_same.
  Qed.
  Variable get : N -> option (xobject fl).
  Lemma grows_op d : forall r o r', handle_op fl get d r o = Ok r' -> grows fl r r'.
  Proof.
    induction d as [|d IH]; intros r o r'; (destruct o; try exact (grows_plain r _ r')).
    all: cbn [handle_op]; unfold handle_xobject; (destruct (rr_res _ r) as [res|]; [|discriminate]); cbn [ok_or obind].
    all: (destruct (rs_xobjects _ res name) as [x|]; [|discriminate]); cbn [ok_or obind]; (destruct (get x) as [[fr ops|]|]; [|intros [= <-]; apply grows_refl|discriminate]).
    all: cbn [ok_or obind]; (destruct ops as [ops|]; [|discriminate]); cbn [ok_or obind]; (destruct (ofold _ ops _) as [r2| |] eqn:E; try discriminate); cbn [obind].
    all: apply (ofold_rel (grows fl) _ grows_refl grows_trans) in E; [|first [exact IH|discriminate]]; (destruct (rr_stack _ r2) as [|s l]; [discriminate|]); intros [= <-].
    all: eapply grows_trans; [|eapply grows_trans; [exact E|now apply grows_same]]; apply grows_same; now destruct fr.
  Qed.
  Lemma c45_collected d ops r r' : handle_ops fl get d ops r = Ok r' -> grows fl r r'.
  Proof. apply ofold_rel; [apply grows_refl|apply grows_trans|apply grows_op]. Qed.
End Run.
