(** Proofs for C88: files of fixups. *)
From Verif Require Import ModelFixup ProofBase ProofIdent2 ProofMain7 ProofSave SpecMain.
Local Open Scope list_scope.

Lemma codec_fixup : codec (fun _ => True) put_fixup get_fixup.
Proof.
  intros [a o n b] _. split; [discriminate|]. unfold get_fixup, put_fixup. cbn [get_fields obind f_after f_old f_new f_bold].
  erewrite (default_put (Forall (fun _ : str => True)) (put_list VStr) (get_list get_str)); [cbn [obind]|apply codec_list, codec_str|keys| |].
  - rewrite (field_put (fun _ => True) VStr get_str "old" _ o codec_str) by (keys || exact I). cbn [obind].
    rewrite (field_put (fun _ => True) VStr get_str "new" _ n codec_str) by (keys || exact I). cbn [obind].
    erewrite (default_put (fun _ => True) put_bool get_bool); [reflexivity|apply codec_bool|keys|exact I|destruct b; [discriminate|reflexivity]].
  - now induction a; constructor.
  - destruct a; [reflexivity|discriminate].
Qed.
Lemma codec_fixups : codec (fun _ => True) (put_list put_fixup) (get_list get_fixup).
Proof. apply (codec_weaken (Forall (fun _ => True))); [|apply codec_list, codec_fixup]. intros l _. now induction l; constructor. Qed.
Lemma sound_fixup : sound (fun _ => True) get_fixup.
Proof.
  intros v. change (good (fun _ => True) (get_fixup v)). unfold get_fixup. got.
  apply (good_bind (Forall (fun _ : str => True))); [apply good_default; [apply sound_list, sound_str|constructor]|intros a' _].
  apply (good_bind (fun _ => True)); [apply good_field, sound_str|intros o _]. apply (good_bind (fun _ => True)); [apply good_field, sound_str|intros n _].
  apply (good_bind (fun _ => True)); [apply good_default; [apply sound_bool|exact I]|intros b _]. exact I.
Qed.

Lemma slash_cut (a b c d : str) : ~ In (chr "/") a -> ~ In (chr "/") b -> a ++ chr "/" :: c = b ++ chr "/" :: d -> a = b /\ c = d.
Proof.
  revert b. induction a as [|x a IH]; intros [|y b] A B E; cbn in E.
  - injection E as ->. auto.
  - injection E as <- _. exfalso. apply B. now left.
  - injection E as -> _. exfalso. apply A. now left.
  - injection E as -> E. destruct (IH b) as [-> ->]; auto; intros X; [apply A|apply B]; now right.
Qed.
Lemma year_no_slash z : ~ In (chr "/") (show_Z z).
Proof.
  intros X. pose proof (show_Z_no_char (chr "/") z eq_refl ltac:(discriminate)) as N. unfold no_char in N. rewrite forallb_forall in N.
  specialize (N _ X). rewrite N.eqb_refl in N. discriminate N.
Qed.
Lemma year_nonempty z : show_Z z <> [].
Proof. unfold show_Z. destruct z; try discriminate; apply show_N_nonempty. Qed.
Lemma join_form dir : exists p, (forall f, join_path dir f = p ++ f).
Proof. unfold join_path. destruct (_ || _); [exists dir|exists (dir ++ lit "/")]; intros f; rewrite ?app_assoc; reflexivity. Qed.
Lemma ends_slash_no p s : s <> [] -> ~ In (chr "/") s -> ends_with (lit "/") (p ++ s) = false.
Proof.
  intros N S. destruct (ends_with (lit "/") (p ++ s)) eqn:E; [|reflexivity]. exfalso.
  apply ends_with_spec in E. destruct E as [r E]. destruct (exists_last N) as (s' & c & ->). rewrite app_assoc in E. apply app_inj_tail in E.
  destruct E as [_ ->]. apply S. apply in_or_app. right. now left.
Qed.
Lemma path_inj base a b p : fixup_path base a = Ok p -> fixup_path base b = Ok p -> a = b.
Proof.
  unfold fixup_path. destruct (act_show a) as [na| |] eqn:A; try discriminate. destruct (act_show b) as [nb| |] eqn:B; try discriminate. cbn [obind].
  destruct (join_form base) as (q & J). rewrite !J. unfold join_path.
  rewrite !(ends_slash_no q) by (apply year_nonempty || apply year_no_slash).
  assert (E : forall z, is_empty (q ++ show_Z z) = false) by (intros z; pose proof (year_nonempty z); destruct q, (show_Z z); (reflexivity || congruence)).
  rewrite !E. cbn [orb]. intros X Y. injection X as X. injection Y as Y. rewrite <- X in Y. clear X E.
  rewrite <- !app_assoc in Y. apply app_inv_head in Y. destruct (slash_cut _ _ _ _ (year_no_slash _) (year_no_slash _) Y) as [_ E].
  apply app_inv_tail in E. subst nb. exact (act_show_inj _ _ _ A B).
Qed.

Lemma path_show base i : fixup_path base i = Panic <-> act_show i = Panic.
Proof. unfold fixup_path. destruct (act_show i); cbn; split; congruence. Qed.
Section S.
Variables (wr : value -> str) (rd : str -> outcome value) (base : str).
Hypothesis RW : forall v, rd (wr v) = Ok v.
Lemma saved_loaded d i fs d' : save_to wr d base i fs = Ok d' -> load_from rd d' base i = Ok fs.
Proof.
  unfold save_to, load_from. destruct (fixup_path base i) as [p| |]; try discriminate. cbn [obind]. intros E. injection E as <-.
  rewrite (proj2 (str_eqb_eq p p) eq_refl). rewrite RW. exact (proj2 (codec_fixups fs I)).
Qed.
Lemma saved_others d i fs d' j : save_to wr d base i fs = Ok d' -> j <> i -> load_from rd d' base j = load_from rd d base j.
Proof.
  unfold save_to, load_from. destruct (fixup_path base i) as [p| |] eqn:P; try discriminate. cbn [obind]. intros E N. injection E as <-.
  destruct (fixup_path base j) as [q| |] eqn:Q; try reflexivity. cbn [obind]. destruct (str_eqb q p) eqn:E; [|reflexivity].
  apply str_eqb_eq in E. subst q. exfalso. apply N. exact (path_inj base j i p Q P).
Qed.
Lemma saved_store d i fs d' j : save_to wr d base i fs = Ok d' -> load_from rd d' base j = load_fixups (store_set (load_from rd d base) i fs) j.
Proof.
  intros E. unfold load_fixups, store_set. destruct (act_eqb i j) eqn:Q.
  - apply act_eqb_eq in Q. subst j. rewrite (saved_loaded _ _ _ _ E). unfold save_to, fixup_path in E. destruct (act_show i); try discriminate E. reflexivity.
  - rewrite (saved_others _ _ _ _ j E) by (intros ->; rewrite (proj2 (act_eqb_eq i i) eq_refl) in Q; discriminate Q).
    unfold load_from, fixup_path. destruct (act_show j); reflexivity.
Qed.
End S.
Lemma load_no_panic rd d base i : (forall s, rd s <> Panic) -> act_show i <> Panic -> load_from rd d base i <> Panic.
Proof.
  intros R A. unfold load_from, fixup_path. destruct (act_show i) as [n| |]; try discriminate; [|congruence]. cbn [obind].
  destruct (d _) as [s|]; [|discriminate]. pose proof (R s). destruct (rd s) as [v| |]; try discriminate; [|congruence]. cbn [obind].
  pose proof (sound_list _ _ sound_fixup v) as X. destruct (get_list get_fixup v); [discriminate|discriminate|destruct X].
Qed.

Lemma place_slash d i name : act_show i = Ok name -> fixup_path (d ++ lit "/") i = Ok (d ++ lit "/" ++ show_Z (act_year i) ++ lit "/" ++ name ++ lit ".yml").
Proof.
  intros A. unfold fixup_path. rewrite A. cbn [obind]. f_equal. unfold join_path at 2.
  assert (E : ends_with (lit "/") (d ++ lit "/") = true) by (apply ends_with_spec; eauto). rewrite E, orb_true_r.
  unfold join_path. rewrite (ends_slash_no (d ++ lit "/")) by (apply year_nonempty || apply year_no_slash).
  assert (F : is_empty ((d ++ lit "/") ++ show_Z (act_year i)) = false) by (destruct d; reflexivity). rewrite F. cbn [orb]. now rewrite <- !app_assoc.
Qed.
Lemma place_none i name : act_show i = Ok name -> fixup_path [] i = Ok (show_Z (act_year i) ++ lit "/" ++ name ++ lit ".yml").
Proof.
  intros A. unfold fixup_path. rewrite A. cbn [obind]. f_equal. unfold join_path at 2. cbn [is_empty orb app].
  unfold join_path. pose proof (ends_slash_no [] (show_Z (act_year i)) (year_nonempty _) (year_no_slash _)) as E. cbn [app] in E. rewrite E.
  assert (F : is_empty (show_Z (act_year i)) = false) by (pose proof (year_nonempty (act_year i)); destruct (show_Z (act_year i)); (reflexivity || congruence)).
  rewrite F. reflexivity.
Qed.
Lemma place_other d i name : act_show i = Ok name -> d <> [] -> (forall r, d <> r ++ lit "/") ->
  fixup_path d i = Ok (d ++ lit "/" ++ show_Z (act_year i) ++ lit "/" ++ name ++ lit ".yml").
Proof.
  intros A N S. rewrite <- (place_slash d i name A). unfold fixup_path. rewrite A. cbn [obind]. do 2 f_equal. unfold join_path.
  destruct (ends_with (lit "/") d) eqn:E; [apply ends_with_spec in E; destruct E as [r E]; now apply S in E|].
  assert (E2 : ends_with (lit "/") (d ++ lit "/") = true) by (apply ends_with_spec; eauto). rewrite E2, orb_true_r.
  destruct d; [congruence|]. cbn [is_empty orb]. now rewrite <- app_assoc.
Qed.
Lemma fixup_form a o n b : put_fixup (mkFixup a o n b) = VMap ((match a with [] => [] | _ => [(lit "after", VSeq (map VStr a))] end) ++
  [(lit "old", VStr o); (lit "new", VStr n)] ++ if b then [(lit "set_bold", VBool true)] else []).
Proof. destruct a, b; reflexivity. Qed.
Lemma load_none rd d base i p : fixup_path base i = Ok p -> d p = None -> load_from rd d base i = Ok [].
Proof. intros A B. unfold load_from. rewrite A. cbn [obind]. now rewrite B. Qed.
