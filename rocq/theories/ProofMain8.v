(** Proofs for C70: runs without panics. *)
From Verif Require Export ProofMk3 ProofMain7.
From Coq Require Import Lia.
Local Notation length := List.length.

Lemma collect_np {A B} (f : A -> outcome B) l : (forall a, f a <> Panic) -> collect_ok f l <> Panic.
Proof.
  intros F. induction l as [|a l IH]; cbn [collect_ok]; [discriminate|]. specialize (F a). destruct (f a); cbn [obind]; try congruence.
  destruct (collect_ok f l); cbn [obind]; congruence.
Qed.
Lemma mk_parse_np s : mk_parse s <> Panic.
Proof.
  unfold mk_parse. destruct (split_on _ s) as [|y [|n [|? ?]]]; try discriminate. unfold parse_i64.
  pose proof (parse_signed_not_panic i64_min i64_max y). destruct (parse_signed _ _ y); cbn [obind]; try congruence.
  pose proof (parse_signed_not_panic i64_min i64_max n). destruct (parse_signed _ _ n); cbn [obind]; congruence.
Qed.
Lemma act_parse_np rf s : act_parse rf s <> Panic.
Proof. unfold act_parse. destruct (try_classic rf s); [discriminate|]. destruct (try_decimal s); discriminate. Qed.
Lemma parse_mk_pages_np ud rf pages : parse_mk_pages ud rf pages <> Panic.
Proof.
  unfold parse_mk_pages. destruct pages as [|p0 [|p1 ps]]; try discriminate. pose proof (c27_cover_total ud p0) as C.
  destruct (cover_page ud p0); cbn [obind]; try congruence. destruct (fold_left _ _ _) as [[e ?] ?]. discriminate.
Qed.
Lemma all_issues_np x g : x_records x <> Panic -> (ag_mk g = false -> forall s a, In s (ag_ids g) -> act_parse (x_rf x) s = Ok a -> has_name a) -> all_issues x g <> Panic.
Proof.
  intros R N. unfold all_issues. destruct (ag_mk g).
  - pose proof (collect_np mk_parse (ag_ids g) mk_parse_np). destruct (collect_ok mk_parse (ag_ids g)); cbn [obind]; congruence.
  - pose proof (collect_np _ (ag_ids g) (act_parse_np (x_rf x))). destruct (collect_ok (act_parse (x_rf x)) (ag_ids g)) as [acts| |] eqn:A; cbn [obind]; try congruence.
    destruct (x_records x) as [rows| |]; cbn [obind]; try congruence.
    assert (RR : forall r, read_record x r <> Panic).
    { intros r. unfold read_record. pose proof (mk_parse_np (fst r)). destruct (mk_parse (fst r)); cbn [obind]; try congruence.
      pose proof (act_parse_np (x_rf x) (snd r)). destruct (act_parse (x_rf x) (snd r)); cbn [obind]; congruence. }
    pose proof (collect_np _ rows RR). destruct (collect_ok (read_record x) rows) as [records| |]; cbn [obind]; try congruence.
    destruct (get_issues records acts) eqn:G; cbn [obind]; try discriminate. exfalso. apply get_issues_spec in G as (a & (pre & post & E & _) & NN).
    apply NN. apply collect_ok_iff in A. assert (I : In a acts) by (rewrite E; apply in_elt).
    clear - A I N. specialize (N eq_refl). induction A as [|s b ids acts F FF IH]; [destruct I|]. destruct I as [->|I]; [apply (N s); [now left|exact F]|].
    apply IH; [|exact I]. intros s' a' S. apply N. now right.
Qed.
Lemma run_acts_np x g acts : ag_interactive g = false -> forall raws st, (forall raw, In raw raws -> has_name (ar_id raw)) ->
  (forall raw, In raw raws -> requested acts raw -> snd (process_single_act x g (pg_store st) raw) <> Panic) ->
  forall st' h o, run_acts x g acts st raws = Some (st', h, o) -> o <> Panic /\ pg_store st' = pg_store st.
Proof.
  intros NI raws. induction raws as [|raw raws IH]; intros st N W st' h o E; cbn [run_acts] in E.
  - injection E as <- <- <-. split; [discriminate|reflexivity].
  - destruct (has_name_show _ (N raw (or_introl eq_refl))) as (name & Na). rewrite Na in E.
    destruct (negb (is_empty acts) && _) eqn:Rq.
    { eapply IH; [|intros r I; apply W; now right|exact E]. intros r I. apply N. now right. }
    assert (R : requested acts raw).
    { destruct (existsb (act_eqb (ar_id raw)) acts) eqn:X.
      - right. apply existsb_exists in X as (b & I & X). apply act_eqb_eq in X. now subst b.
      - left. destruct acts; [reflexivity|discriminate Rq]. }
    pose proof (output_spec x g name) as O. destruct (get_output x g name) as [hd [t| |]]; [| |contradiction].
    2: { injection E as <- <- <-. split; [discriminate|reflexivity]. }
    rewrite NI in E. specialize (W raw (or_introl eq_refl) R) as W0. destruct (process_single_act x g (pg_store st) raw) as [s o1] eqn:P. cbn [snd] in W0.
    assert (E' : exists st2 h2 o2, run_acts x g acts (mkProgress (pg_answers st) (pg_store st) (pg_ok st && is_ok o1)) raws = Some (st2, h2, o2) /\ st' = st2 /\ o = o2).
    { destruct o1; [| |congruence]; (destruct (run_acts _ _ _ _ raws) as [[[st2 h2] o2]|]; [|discriminate E]; injection E as <- <- <-; exists st2, h2, o2; auto). }
    destruct E' as (st2 & h2 & o2 & E' & -> & ->). apply IH in E'; [exact E'| |].
    + intros r I. apply N. now right.
    + intros r I Q. cbn [pg_store]. apply W; [now right|exact Q].
Qed.
Lemma c70_no_panic x g answers st : ag_interactive g = false ->
  x_records x <> Panic -> (forall i, x_pages x i <> Panic) -> (forall f d, x_serialize x f d <> Panic) ->
  (ag_mk g = false -> forall s a, In s (ag_ids g) -> act_parse (x_rf x) s = Ok a -> has_name a) ->
  (forall issues acts i pages raws raw, asked_for x (terminal_colors g) issues acts -> In i issues -> x_pages x i = Ok pages -> parse_mk_pages (x_ud x) (x_rf x) pages = Ok raws ->
     In raw raws -> has_name (ar_id raw) /\ (requested acts raw -> snd (process_single_act x (terminal_colors g) st raw) <> Panic)) ->
  forall st' h, main x g answers st <> Some (st', h, Panic).
Proof.
  intros NI XR XP XS N W st' h. rewrite main_format. pose proof (all_issues_np x (terminal_colors g) XR N) as A.
  destruct (all_issues x (terminal_colors g)) as [[issues acts]| |] eqn:Q; [|discriminate|congruence]. apply all_issues_iff in Q.
  assert (K : forall l p p' h' o, incl l issues -> pg_store p = st -> run_issues x (terminal_colors g) acts p l = Some (p', h', o) -> o <> Panic).
  { induction l as [|i l IH]; intros p p' h' o IN S E; cbn [run_issues] in E; [injection E as <- <- <-; discriminate|].
    destruct (run_issue x (terminal_colors g) acts p i) as [[[st1 h1] o1]|] eqn:R; [|discriminate E].
    assert (R' : o1 <> Panic /\ pg_store st1 = st).
    { unfold run_issue in R. specialize (XP i). destruct (x_pages x i) as [pages| |] eqn:XI; [| |congruence].
      2: { injection R as <- <- <-. split; [discriminate|exact S]. }
      destruct (step_eqb _ _).
      - pose proof (output_spec x (terminal_colors g) (lit "mk_" ++ show_Z (mk_year i) ++ lit "_" ++ show_Z (mk_issue_no i))) as O.
        destruct (get_output _ _ _) as [hd [t| |]]; [| |contradiction].
        2: { injection R as <- <- <-. split; [discriminate|exact S]. }
        assert (D : cli_output x (ag_width (terminal_colors g)) (ag_format (terminal_colors g)) (DPages pages) <> Panic).
        { unfold cli_output. destruct (ag_format (terminal_colors g)); try discriminate; apply XS. }
        destruct (cli_output _ _ _ _); [| |congruence]; injection R as <- <- <-; (split; [discriminate|exact S]).
      - pose proof (parse_mk_pages_np (x_ud x) (x_rf x) pages) as MP. destruct (parse_mk_pages _ _ pages) as [raws| |] eqn:P; [| |congruence].
        2: { injection R as <- <- <-. split; [discriminate|exact S]. }
        subst st. assert (II : In i issues) by (apply IN; now left). eapply run_acts_np in R; [exact R|exact NI| |].
        + intros raw I. exact (proj1 (W issues acts i pages raws raw Q II XI P I)).
        + intros raw I Rq. exact (proj2 (W issues acts i pages raws raw Q II XI P I) Rq). }
    destruct R' as [R1 R2].
    assert (E' : exists h2, run_issues x (terminal_colors g) acts st1 l = Some (p', h2, o)).
    { destruct o1; [| |congruence]; (destruct (run_issues _ _ _ st1 l) as [[[st2 h2] o2]|]; [|discriminate E]; injection E as <- <- <-; eauto). }
    destruct E' as (h2 & E'). eapply IH; [|exact R2|exact E']. intros j J. apply IN. now right. }
  destruct (run_issues x (terminal_colors g) acts _ issues) as [[[p h1] o1]|] eqn:R; [|discriminate].
  apply K in R; [|apply incl_refl|reflexivity]. destruct o1; [destruct (pg_ok p)| |]; congruence.
Qed.
(** Up to the lines of acts, only names matter. *)
Lemma c70_lines_np x g st raw : ag_until g = ActLines -> (forall f d, x_serialize x f d <> Panic) -> st (ar_id raw) <> Panic -> has_name (ar_id raw) ->
  snd (process_single_act x g st raw) <> Panic.
Proof.
  intros U XS S N. unfold process_single_act, written_act, load_fixups. destruct (has_name_show _ N) as (name & Na). rewrite Na. cbn [obind].
  destruct (st (ar_id raw)) as [fs| |]; cbn [obind]; [|discriminate|congruence].
  assert (FA : forall fs ls, snd (fixups_apply fs ls) <> Panic).
  { clear. induction fs as [|f fs IH]; intros ls; cbn [fixups_apply]; [discriminate|]. pose proof (fixup_apply_not_panic f ls). destruct (fixup_apply f ls); [apply IH|discriminate|congruence]. }
  unfold load_body. specialize (FA fs (ar_body raw)). destruct (fixups_apply fs (ar_body raw)) as [ls o]. cbn [snd] in FA. destruct o; cbn [obind]; [|discriminate|congruence].
  rewrite U. cbn [step_eqb]. set (raw' := ModelMk.set_body _ _).
  assert (D : cli_output x (ag_width g) (ag_format g) (DRaw raw') <> Panic).
  { unfold cli_output, cli_plain, show_raw. change (ar_id raw') with (ar_id raw). rewrite Na. cbn [obind]. destruct (ag_format g); try discriminate; apply XS. }
  destruct (cli_output _ _ _ _); [cbn; destruct (is_forced g); discriminate|discriminate|congruence].
Qed.
