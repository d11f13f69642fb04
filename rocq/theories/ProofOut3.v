(** When the text output can be written (C54). *)
From Verif Require Export ProofOut2.
Local Open Scope N_scope.

Lemma to_hungarian_no_panic n : num_to_hungarian n <> Panic.
Proof. unfold num_to_hungarian, ok_or. now destruct (nth_error _ _). Qed.
Lemma to_roman_no_panic i : numeric_to_roman i <> Panic.
Proof. unfold numeric_to_roman, ok_or. now destruct (roman_to _). Qed.
Lemma se_header_no_panic ty i : se_header ty i <> Panic.
Proof.
  pose proof (to_hungarian_no_panic (n_num i)). pose proof (to_roman_no_panic i).
  destruct ty as [|[]| |]; cbn [se_header]; unfold numeric_to_hungarian.
  1,3: destruct (num_to_hungarian (n_num i)); (discriminate || contradiction).
  1: repeat destruct (numeric_eqb _ _); discriminate.
  all: destruct (numeric_to_roman i); (discriminate || contradiction).
Qed.

Definition wide (p : oparams) (n : N) : Prop := 5 * (op_level p + n) <= op_width p.
Definition safe (n : N) (f : oparams -> outcome str) : Prop := forall p, wide p n -> f p <> Panic.
Definition uncut (x : str * list out_ref) : Prop := cuttable (fst x) 0 (snd x).
Lemma wide_le p n m : m <= n -> wide p n -> wide p m.
Proof. unfold wide. lia. Qed.
Lemma max_of_le {T} (f : T -> N) l x : In x l -> f x <= max_of f l.
Proof. unfold max_of. induction l as [|y l IH]; cbn; [easy|]. intros [->|H]; [lia|]. specialize (IH H). lia. Qed.
Lemma Forall_flat {A B} (Q : B -> Prop) (f : A -> list B) l x : Forall Q (flat_map f l) -> In x l -> Forall Q (f x).
Proof. intros F I. apply Forall_forall. intros y Y. rewrite Forall_forall in F. apply F, in_flat_map. now exists x. Qed.

Section Safe.
  Variable wrap : str -> N -> list str.
  Lemma wrapped_safe p t : wide p 0 -> exists a, write_wrapped wrap p t = Ok a /\ forall n, wide p n -> wide (snd a) n.
  Proof.
    unfold wide, write_wrapped. intros W. destruct (N.ltb_spec (op_width p) (op_level p * 5)); [lia|]. eexists. split; [reflexivity|].
    intros n. cbn. now destruct (is_empty _).
  Qed.
  Lemma opt_safe p f o : wide p 0 -> exists a, write_opt wrap p f o = Ok a /\ forall n, wide p n -> wide (snd a) n.
  Proof. destruct o; cbn; [apply wrapped_safe|]. intros _. now eexists. Qed.
  Lemma safe_list {T} (f : T -> oparams -> outcome str) l n : (forall x, In x l -> safe n (f x)) -> safe n (write_list f l).
  Proof.
    intros H p W. revert p W. induction l as [|x l IH]; intros p W; cbn; [discriminate|].
    pose proof (H x (or_introl eq_refl) p W). destruct (f x p); [|discriminate|contradiction]. cbn.
    specialize (IH (fun y I => H y (or_intror I)) (op_set_next true p) W).
    destruct (write_list f l (op_set_next true p)); (discriminate || contradiction).
  Qed.
  Lemma sae_text_safe t p i : uncut (t, si_outgoing i) -> exists x, colorize_sae t p i = Ok x.
  Proof. intros U. unfold colorize_sae. destruct (proj1 (c38_cut t (si_outgoing i)) U) as [l ->]. cbn. eauto. Qed.
  Lemma safe_sae {I C} (h : I -> str) wc (e : sae I C) refs levels :
    Forall uncut (elem_refs refs e) -> (forall i c w, s_body e = BChildren i c w -> Forall uncut (refs c) -> safe (levels c) (wc c)) ->
    safe (elem_levels levels e) (write_sae wrap h wc e).
  Proof.
    intros U H p W. unfold write_sae, elem_levels, elem_refs in *. set (p' := op_indented (op_set_next false p)).
    assert (W' : wide p' 0) by (unfold wide in *; cbn; lia).
    destruct (s_body e) as [t|i c w].
    - inversion U as [|? ? U1 _]; subst. destruct (sae_text_safe t p' (s_si e) U1) as [x ->]. cbn [obind].
      destruct (wrapped_safe p' x W') as (a & -> & _). discriminate.
    - inversion U as [|? ? U1 U2]; subst. destruct (sae_text_safe i p' (s_si e) U1) as [x ->]. cbn [obind].
      destruct (wrapped_safe p' x W') as (a & -> & Wa). cbn [obind].
      specialize (H _ _ _ eq_refl U2 (snd a)). destruct (wc c (snd a)) as [b| |]; [|discriminate|].
      + cbn [obind]. destruct (opt_safe (snd a) (fun t => t) w (Wa _ W')) as (d & -> & _). discriminate.
      + exfalso. apply H; [|reflexivity]. apply Wa. unfold wide in *. cbn. lia.
  Qed.
  Lemma safe_sub {I} (h : I -> str) (e : sae I Empty_set) : Forall uncut (sub_refs e) -> safe 1 (write_sub wrap h e).
  Proof.
    intros U p W. apply (safe_sae h _ e _ (fun c : Empty_set => match c with end) U); [intros i []|]. unfold elem_levels.
    destruct (s_body e) as [t|i [] w]. exact W.
  Qed.
  Lemma safe_subs {I} (h : I -> str) l : Forall uncut (flat_map sub_refs l) -> safe 1 (write_list (write_sub wrap h) l).
  Proof. intros U. apply safe_list. intros x X. apply safe_sub. eapply Forall_flat; eassumption. Qed.
  Lemma safe_point {I C} (h : I -> str) wc (e : sae I C) refs : Forall uncut (elem_refs refs e) ->
    (forall c, Forall uncut (refs c) -> safe 1 (wc c)) -> safe 2 (write_sae wrap h wc e).
  Proof.
    intros U H p W. apply (safe_sae h wc e refs (fun _ => 1) U); [intros i c w _; apply H|].
    eapply wide_le; [|exact W]. unfold elem_levels. destruct (s_body e); lia.
  Qed.
  Lemma safe_alpha e : Forall uncut (alpha_refs e) -> safe 2 (write_alpha wrap e).
  Proof. intros U. eapply safe_point; [exact U|]. intros [l|l] V; now apply safe_subs. Qed.
  Lemma safe_num e : Forall uncut (num_refs e) -> safe 2 (write_num wrap e).
  Proof. intros U. eapply safe_point; [exact U|]. intros [l] V; now apply safe_subs. Qed.
  Lemma safe_quoted q : safe 0 (write_quoted wrap q).
  Proof.
    intros p W. unfold write_quoted. destruct (opt_safe p (fun t => t) (qb_intro q) W) as (a & -> & Wa). cbn [obind].
    destruct (wrapped_safe (snd a) (lit "„") (Wa _ W)) as (b & -> & Wb). cbn [obind]. apply Wa, Wb in W.
    destruct (write_list _ (qb_lines q) (snd b)) as [ls| |] eqn:L; [|discriminate|].
    - cbn [obind]. destruct (wrapped_safe (if is_empty (qb_lines q) then snd b else op_set_next true (snd b)) (lit "”")) as (c & -> & Wc); [now destruct (is_empty _)|].
      cbn [obind]. destruct (opt_safe (snd c) (fun t => t) (qb_wrap q)) as (d & -> & _); [|discriminate]. apply Wc. now destruct (is_empty _).
    - exfalso. revert L. apply (safe_list (fun l p => Ok (write_quoted_line (min_indent (qb_lines q)) l p)) (qb_lines q) 0); [|exact W]. intros x _ p' _. discriminate.
  Qed.
  Lemma safe_amendment i w wc n : safe n wc -> safe (1 + n) (write_amendment wrap i w wc).
  Proof.
    intros H p W. assert (W0 : wide p 0) by (eapply wide_le; [|exact W]; lia). unfold write_amendment. cbv zeta.
    match goal with |- context [write_opt wrap p ?f i] => destruct (opt_safe p f i W0) as (a & -> & Wa) end. cbn [obind].
    destruct (wrapped_safe (snd a) (lit "„") (Wa _ W0)) as (b & -> & Wb). cbn [obind].
    specialize (H (op_indented (snd b))). destruct (wc (op_indented (snd b))) as [c| |]; [|discriminate|].
    - cbn [obind]. destruct (wrapped_safe (snd b) (lit "”")) as (d & -> & Wd); [now apply Wb, Wa|]. cbn [obind].
      match goal with |- context [write_opt wrap (snd d) ?g w] => destruct (opt_safe (snd d) g w) as (f & -> & _) end; [now apply Wd, Wb, Wa|]. discriminate.
    - exfalso. apply H; [|reflexivity]. apply Wa, Wb in W. unfold wide in *. cbn. lia.
  Qed.
  Lemma safe_child {P} (wp : P -> oparams -> outcome str) refs levels c :
    Forall uncut (child_refs refs c) ->
    (forall a x, c = ChArticle a -> In x (ar_children a) -> Forall uncut (refs x) -> safe (levels x) (wp x)) ->
    safe (child_levels levels c) (write_child wrap wp c).
  Proof.
    intros U H p W. destruct c as [e|t|a]; cbn [write_child child_levels child_refs] in *.
    - unfold write_structural. pose proof (se_header_no_panic (se_ty e) (se_id e)). destruct (se_header _ _) as [h| |]; [|discriminate|contradiction]. cbn [obind].
      destruct (wrapped_safe p (colorize p h code_italic) W) as (a & -> & Wa). cbn [obind]. destruct (is_empty _); [discriminate|].
      destruct (wrapped_safe (snd a) (colorize p (se_title e) code_italic) (Wa _ W)) as (b & -> & _). discriminate.
    - unfold write_subtitle. edestruct (wrapped_safe p) as (a & -> & _); [exact W|discriminate].
    - unfold write_article. set (p' := op_indented (op_indented (op_set_next false p))).
      assert (Wp : wide p' (max_of levels (ar_children a))) by (unfold wide in *; cbn; lia).
      match goal with |- context [write_opt wrap p' ?g _] => destruct (opt_safe p' g (ar_title a)) as (t & -> & Wt) end; [eapply wide_le; [|exact Wp]; lia|]. cbn [obind].
      destruct (write_list wp (ar_children a) (snd t)) as [c| |] eqn:L; [discriminate|discriminate|].
      exfalso. revert L. apply (safe_list wp _ (max_of levels (ar_children a))); [|now apply Wt]. intros x X q Q.
      eapply (H a x eq_refl X); [eapply Forall_flat; eassumption|]. eapply wide_le; [|exact Q]. now apply max_of_le.
  Qed.
  Lemma safe_pc c : Forall uncut (pc_refs c) -> safe (pc_levels c) (write_pc wrap c).
  Proof.
    assert (P : forall l, Forall (below_par (fun c => Forall uncut (pc_refs c) -> safe (pc_levels c) (write_pc wrap c))) l ->
      forall x, In x l -> Forall uncut (elem_refs pc_refs x) -> safe (elem_levels pc_levels x) (write_sae wrap par_header (write_pc wrap) x)).
    { intros l F x X U. rewrite Forall_forall in F. specialize (F x X). eapply safe_sae; [exact U|]. intros i d w E V.
      unfold below_par in F. rewrite E in F. exact (F V). }
    induction c as [l|l|l|b IH|b IH] using pc_induction; cbn [write_pc pc_levels pc_refs]; intros U.
    - apply safe_list. intros x X. apply safe_alpha. eapply Forall_flat; eassumption.
    - apply safe_list. intros x X. apply safe_num. eapply Forall_flat; eassumption.
    - apply safe_list. intros x X. apply safe_quoted.
    - apply safe_amendment. unfold paragraph in *. destruct (bk_children b) as [l|l|l|l|l]; try (now apply safe_subs).
      + apply safe_list. intros x X q Q. eapply (P l (IH l eq_refl) x X); [eapply Forall_flat; eassumption|]. eapply wide_le; [|exact Q]. now apply max_of_le.
      + apply safe_list. intros x X. apply safe_alpha. eapply Forall_flat; eassumption.
      + apply safe_list. intros x X. apply safe_num. eapply Forall_flat; eassumption.
    - apply safe_amendment. apply safe_list. intros x X q Q. rewrite Forall_forall in IH. specialize (IH x X).
      eapply (safe_child _ (elem_refs pc_refs) (elem_levels pc_levels)); [eapply Forall_flat; eassumption| |eapply wide_le; [|exact Q]; now apply (max_of_le (child_levels (elem_levels pc_levels)))].
      intros a y -> Y V. exact (P _ IH y Y V).
  Qed.
  Lemma safe_children l : Forall uncut (flat_map (child_refs (elem_refs pc_refs)) l) ->
    forall la, safe (max_of (child_levels (elem_levels pc_levels)) l) (write_children wrap la l).
  Proof.
    induction l as [|c l IH]; intros U la p W; cbn [write_children]; [discriminate|].
    cbn in U. apply Forall_app in U as [U V]. set (nl := negb la || negb (is_article c)). set (p' := if nl then op_set_next true p else p).
    assert (W' : forall n, wide p n -> wide p' n) by (intros n; unfold p'; now destruct nl).
    assert (A : write_child wrap (write_par wrap) c p' <> Panic).
    { apply (safe_child _ (elem_refs pc_refs) (elem_levels pc_levels)); [exact U| |].
      - intros a x _ _ Vx. eapply safe_sae; [exact Vx|]. intros i d w _. apply safe_pc.
      - apply W'. eapply wide_le; [|exact W]. cbn. lia. }
    destruct (write_child wrap (write_par wrap) c p'); [|discriminate|contradiction]. cbn [obind].
    specialize (IH V (is_article c) p'). destruct (write_children wrap (is_article c) l p'); [discriminate|discriminate|].
    exfalso. apply IH; [|reflexivity]. apply W'. eapply wide_le; [|exact W]. cbn. unfold max_of. lia.
  Qed.
  Lemma c54_no_panic w colored a :
    5 * act_levels a <= w -> act_show (ac_id a) <> Panic -> Forall uncut (act_refs a) -> act_output wrap w colored a <> Panic.
  Proof.
    intros W S U. unfold act_output, write_act. destruct (act_show (ac_id a)) as [i| |]; [|discriminate|contradiction]. cbn [obind].
    set (p := op_indented (op_new w colored)).
    assert (Wp : wide (op_set_next true p) (max_of (child_levels (elem_levels pc_levels)) (ac_children a))) by (unfold wide, act_levels in *; cbn; lia).
    destruct (wrapped_safe (op_set_next true p) (ac_preamble a)) as (b & -> & Wb); [eapply wide_le; [|exact Wp]; lia|]. cbn [obind].
    assert (H : write_children wrap true (ac_children a) (op_set_next true (snd b)) <> Panic) by (apply safe_children; [exact U|now apply Wb]).
    destruct (write_children _ _ _ _); [discriminate|discriminate|contradiction].
  Qed.
End Safe.
