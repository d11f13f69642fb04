(** Proofs for C70: the whole program. *)
From Verif Require Export ProofMain4 ProofMk.
From Coq Require Import Lia.
Local Notation length := List.length.

Lemma collapsed_once a b : collapsed a b -> no_double_empty b -> b = remove_double_empty a.
Proof.
  assert (LE : forall l, l_empty l = true <-> l_parts l = []) by (intros l; unfold l_empty; destruct (l_parts l); cbn; split; congruence).
  induction 1 as [|l a b C IH|l l' a b E E' C IH]; intros N; [reflexivity| |].
  - assert (Nb : no_double_empty b) by (destruct b; cbn in N; [exact I|apply N]). rewrite (IH Nb) in *. destruct a as [|m a]; [reflexivity|].
    cbn [remove_double_empty rde_loop] in *. cbn [no_double_empty] in N. destruct N as [N _].
    destruct (l_empty l) eqn:A; [|reflexivity]. destruct (l_empty m) eqn:B; [|reflexivity]. exfalso. apply N. split; now apply LE.
  - rewrite (IH N). cbn [remove_double_empty rde_loop]. apply LE in E, E'. now rewrite E, E'.
Qed.
Lemma act_show_ok a name : act_show a = Ok name -> has_name a.
Proof. intros E. destruct (act_show_cases a) as [[H _]|[_ H]]; [exact H|congruence]. Qed.
Lemma has_name_show a : has_name a -> exists name, act_show a = Ok name.
Proof. intros N. destruct (act_show_cases a) as [[_ H]|[H _]]; [exact H|contradiction]. Qed.
Lemma printed_iff x g d s : cli_output x (ag_width g) (ag_format g) d = Ok s <-> printed x g d s.
Proof.
  unfold cli_output, printed, cli_plain. destruct (ag_format g), d; split; intros H; try exact H; try congruence.
Qed.
Lemma set_body_eta raw raw' : ar_id raw' = ar_id raw -> ar_subject raw' = ar_subject raw -> ar_date raw' = ar_date raw -> raw' = ModelMk.set_body raw (ar_body raw').
Proof. destruct raw, raw'; cbn. now intros -> -> ->. Qed.
Lemma fixed_iff st raw raw' : fixed_act st raw raw' <->
  exists fs body, st (ar_id raw) = Ok fs /\ load_body fs (ar_body raw) = (body, Ok tt) /\ raw' = ModelMk.set_body raw body.
Proof.
  unfold fixed_act, load_body. split.
  - intros (fs & body & S & A & C & N & I1 & I2 & I3). apply applies_fixups in A. exists fs, (ar_body raw'). rewrite A. split; [exact S|].
    split; [now rewrite (collapsed_once _ _ C N)|now apply set_body_eta].
  - intros (fs & body & S & L & ->). destruct (fixups_apply fs (ar_body raw)) as [ls r] eqn:E. injection L as <- ->.
    exists fs, ls. cbn. split; [exact S|]. split; [now apply applies_fixups|]. split; [apply c26_collapsed|]. split; [apply c26_no_double|auto].
Qed.
Lemma written_iff x g st raw s : written_act x g st raw = Ok s <-> text_of x g st raw s.
Proof.
  unfold written_act, load_fixups, text_of. split.
  - intros H. destruct (act_show (ar_id raw)) as [name| |] eqn:N; try discriminate H. split; [now apply act_show_ok in N|]. cbn [obind] in H.
    destruct (st (ar_id raw)) as [fs| |] eqn:S; try discriminate H. cbn [obind] in H.
    destruct (load_body fs (ar_body raw)) as [body [[]| |]] eqn:L; try discriminate H. cbn [obind] in H.
    assert (F : fixed_act st raw (ModelMk.set_body raw body)) by (apply fixed_iff; eauto).
    destruct (ag_until g) eqn:U; cbn [step_eqb] in H; unfold steps_done; rewrite U.
    1, 4: destruct (parse_act_structure _ _ _) as [a| |] eqn:P; try discriminate H; cbn [obind] in H;
      destruct (add_semantic_info _ _ a) as [b [k| |]] eqn:Q; try discriminate H; cbn [obind] in H;
      destruct (convert_act _ _ b) as [c [[]| |]] eqn:R; try discriminate H; cbn [obind] in H;
      exists (ModelMk.set_body raw body), (DAct c); (split; [exact F|split; [exists a, b, c, k; auto|now apply printed_iff]]).
    + exists (ModelMk.set_body raw body), (DRaw (ModelMk.set_body raw body)). split; [exact F|]. split; [reflexivity|now apply printed_iff].
    + destruct (parse_act_structure _ _ _) as [a| |] eqn:P; try discriminate H; cbn [obind] in H.
      exists (ModelMk.set_body raw body), (DAct a). split; [exact F|]. split; [eauto|now apply printed_iff].
  - intros (N & raw' & d & F & T & P). apply fixed_iff in F as (fs & body & S & L & ->). destruct (has_name_show _ N) as (name & ->). cbn [obind]. rewrite S. cbn [obind].
    rewrite L. cbn [obind]. apply printed_iff in P. unfold steps_done in T. destruct (ag_until g); cbn [step_eqb].
    1, 4: destruct T as (a & b & c & k & -> & Q & R & ->); cbn [obind]; rewrite Q; cbn [obind]; rewrite R; exact P.
    + now subst d.
    + destruct T as (a & -> & ->). exact P.
Qed.
Lemma forced_iff g : is_forced g = true <-> forced g.
Proof.
  unfold is_forced, forced. rewrite !andb_true_iff, !negb_true_iff. destruct (ag_until g); cbn [step_eqb]; intuition congruence.
Qed.
Lemma process_spec x g st raw : match snd (process_single_act x g st raw) with
  | Ok _ => text_of x g st raw (fst (process_single_act x g st raw)) /\ ~ forced g
  | Err => (text_of x g st raw (fst (process_single_act x g st raw)) /\ forced g) \/ ((forall s, ~ text_of x g st raw s) /\ fst (process_single_act x g st raw) = [])
  | Panic => (forall s, ~ text_of x g st raw s)
  end.
Proof.
  unfold process_single_act. destruct (written_act x g st raw) as [s| |] eqn:W; cbn [fst snd].
  - apply written_iff in W. destruct (is_forced g) eqn:F.
    + left. split; [exact W|now apply forced_iff].
    + split; [exact W|]. intros H. apply forced_iff in H. congruence.
  - right. split; [|reflexivity]. intros s T. apply written_iff in T. congruence.
  - intros s T. apply written_iff in T. congruence.
Qed.
Lemma output_spec x g name : match get_output x g name with
  | (h, Ok t) => output_to x g name h t
  | (h, Err) => no_output x g name /\ h = []
  | (_, Panic) => False
  end.
Proof.
  unfold get_output, output_to, no_output. destruct (ag_dir g) as [dir|]; [|auto].
  assert (F : file_of g dir name (join_path dir (name ++ lit "." ++ extension (ag_format g)))).
  { exists (extension (ag_format g)), (name ++ lit "." ++ extension (ag_format g)). split; [reflexivity|]. split; [reflexivity|].
    unfold join_path. destruct dir as [|c dir]; [left; auto|]. cbn [is_empty orb]. destruct (ends_with (lit "/") (c :: dir)) eqn:E.
    - left. split; [right; apply ends_with_spec in E as (d & E); now exists d|reflexivity].
    - right. split; [discriminate|]. split; [|reflexivity]. intros d D. assert (ends_with (lit "/") (c :: dir) = true); [|congruence]. apply ends_with_spec. now exists d. }
  destruct (x_creatable x _) eqn:C; [exists (join_path dir (name ++ lit "." ++ extension (ag_format g))); auto|].
  split; [|reflexivity]. exists dir, (join_path dir (name ++ lit "." ++ extension (ag_format g))). auto.
Qed.
Lemma requested_bool acts raw : negb (is_empty acts) && negb (existsb (act_eqb (ar_id raw)) acts) = true <-> ~ requested acts raw.
Proof.
  unfold requested. destruct acts as [|a acts]; [cbn; split; [discriminate|intros H; exfalso; apply H; now left]|]. cbn [is_empty negb andb].
  rewrite negb_true_iff. split.
  - intros E [H|H]; [discriminate|]. assert (existsb (act_eqb (ar_id raw)) (a :: acts) = true); [|congruence]. apply existsb_exists. exists (ar_id raw).
    split; [exact H|now apply act_eqb_eq].
  - intros H. destruct (existsb _ _) eqn:E; [|reflexivity]. exfalso. apply H. right. apply existsb_exists in E as (b & I & E). apply act_eqb_eq in E. now subst b.
Qed.
Lemma lower_space c : is_whitespace (lower_ascii c) = is_whitespace c.
Proof.
  unfold lower_ascii. destruct ((65 <=? c) && (c <=? 90))%N eqn:E; [|reflexivity]. unfold is_whitespace. lia.
Qed.
Lemma trim_nothing s : is_empty (trim s) = forallb is_whitespace s.
Proof.
  unfold trim. assert (A : forall t, is_empty (trim_start t) = forallb is_whitespace t) by (induction t as [|c t IH]; [reflexivity|cbn; destruct (is_whitespace c); [exact IH|reflexivity]]).
  destruct (trim_start s) as [|c t] eqn:E; [rewrite <- (A s), E; reflexivity|]. rewrite <- (A s), E. cbn [is_empty].
  assert (W : is_whitespace c = false).
  { clear A. revert E. induction s as [|d s IH]; [discriminate|]. cbn. destruct (is_whitespace d) eqn:D; [exact IH|]. intros E. now injection E as -> _. }
  destruct (rev (trim_start (rev (c :: t)))) eqn:R; [|reflexivity]. exfalso. apply (f_equal (@rev _)) in R. rewrite rev_involutive in R. cbn [rev] in R.
  assert (Q : is_empty (trim_start (rev t ++ [c])) = true) by now rewrite R. rewrite A, forallb_app in Q. cbn in Q. rewrite W in Q. now rewrite andb_false_r in Q.
Qed.
Lemma confirmed_iff t : confirmed t = true <-> agrees t.
Proof.
  unfold confirmed, agrees. cbv zeta. rewrite orb_true_iff, trim_nothing.
  assert (E : forallb is_whitespace (map lower_ascii t) = forallb is_whitespace t) by (induction t as [|c t IH]; [reflexivity|cbn [map forallb]; now rewrite lower_space, IH]).
  match goal with |- (?a = true \/ _) <-> _ => change a with (forallb is_whitespace (map lower_ascii t)) end. rewrite E. apply or_iff_compat_l. destruct t as [|c t]; [split; [discriminate|intros (r & [D|D]); discriminate]|].
  cbn [map]. rewrite starts_with_spec. change (lit "y") with [121%N]. unfold lower_ascii. change (chr "y") with 121%N. change (chr "Y") with 89%N. split.
  - intros (u & H). apply (f_equal (hd 0%N)) in H. unfold hd, app in H. exists t. destruct ((65 <=? c) && (c <=? 90))%N eqn:Q; [right|left]; f_equal; lia.
  - intros (r & [D|D]); injection D as -> ->; eexists; reflexivity.
Qed.
Lemma process_cases x g st raw s o : process_single_act x g st raw = (s, o) ->
  match o with Ok _ => text_of x g st raw s /\ ~ forced g | Err => attempt_fails x g st raw s | Panic => True end.
Proof. intros E. pose proof (process_spec x g st raw) as T. rewrite E in T. cbn [fst snd] in T. destruct o; [exact T|exact T|exact I]. Qed.
Lemma interactive_spec x g : ag_interactive g = true -> forall an st raw an' st' s o, interactive x g an st raw = Some (an', st', s, o) -> o <> Panic ->
  act_did x g an st raw an' st' s (is_ok o).
Proof.
  intros NI an. induction an as [|[typed e] an IH]; intros st raw an' st' s o E P; cbn [interactive] in E;
    destruct (process_single_act x g st raw) as [s1 o1] eqn:W; apply process_cases in W; (destruct o1 as [u| |]; [| |congruence]); try discriminate E.
  - injection E as <- <- <- <-. now apply act_done.
  - injection E as <- <- <- <-. now apply act_done.
  - destruct typed as [t| |]; [| |congruence].
    2: { injection E as <- <- <- <-. now apply act_unanswered. }
    destruct (confirmed t) eqn:C.
    2: { injection E as <- <- <- <-. apply act_refused; auto. intros A. apply confirmed_iff in A. congruence. }
    apply confirmed_iff in C.
    set (go := let* fs := load_fixups st (ar_id raw) in _) in E.
    assert (G : forall st1, go = Ok st1 <-> has_name (ar_id raw) /\ exists raw', fixed_act st raw raw' /\ run_fixup_editor e st raw' = Ok st1).
    { intros st1. subst go. unfold load_fixups. split.
      - intros G. destruct (act_show (ar_id raw)) as [nm| |] eqn:N; try discriminate G. split; [now apply act_show_ok in N|]. cbn [obind] in G.
        destruct (st (ar_id raw)) as [fs| |] eqn:S; try discriminate G. cbn [obind] in G. destruct (load_body fs (ar_body raw)) as [body [[]| |]] eqn:L; try discriminate G. cbn [obind] in G.
        exists (ModelMk.set_body raw body). split; [apply fixed_iff; eauto|exact G].
      - intros (N & raw' & F & R). apply fixed_iff in F as (fs & body & S & L & ->). destruct (has_name_show _ N) as (nm & ->). cbn [obind]. rewrite S. cbn [obind]. rewrite L. exact R. }
    destruct go as [st1| |]; [| |congruence].
    + destruct (proj1 (G st1) eq_refl) as (_ & raw' & F & R). destruct (interactive x g an st1 raw) as [[[[an2 st2] s2] o2]|] eqn:I; [|discriminate E].
      injection E as <- <- <- <-. eapply act_edited; try eassumption. apply IH; assumption.
    + injection E as <- <- <- <-. eapply act_not_edited; try eassumption. intros raw' st2 F R.
      assert (Q : Err = Ok st2); [|discriminate Q]. apply G. split; [|eauto]. unfold run_fixup_editor in R. 
      assert (Ei : ar_id raw' = ar_id raw) by (apply fixed_iff in F as (? & ? & _ & _ & ->); reflexivity). rewrite Ei in R.
      destruct (act_show (ar_id raw)) as [nm| |] eqn:N; try discriminate R. now apply act_show_ok in N.
Qed.
Lemma run_acts_spec x g acts : forall raws st st' h o, run_acts x g acts st raws = Some (st', h, o) -> o <> Panic ->
  exists fine, acts_did x g acts (pg_answers st) (pg_store st) raws (pg_answers st') (pg_store st') h fine (is_ok o) /\ pg_ok st' = pg_ok st && fine.
Proof.
  intros raws. induction raws as [|raw raws IH]; intros st st' h o E P; cbn [run_acts] in E.
  - injection E as <- <- <-. exists true. split; [constructor|now rewrite andb_true_r].
  - destruct (act_show (ar_id raw)) as [name| |] eqn:N; [|destruct (act_show_cases (ar_id raw)) as [[_ (s & Q)]|[_ Q]]; congruence|congruence].
    destruct (negb (is_empty acts) && _) eqn:Rq.
    { apply requested_bool in Rq. destruct (IH _ _ _ _ E P) as (fine & A & B).
      exists fine. split; [apply did_skip; auto; now apply act_show_ok in N|auto]. }
    assert (R : requested acts raw).
    { destruct (existsb (act_eqb (ar_id raw)) acts) eqn:X.
      - right. apply existsb_exists in X as (b & I & X). apply act_eqb_eq in X. now subst b.
      - left. destruct acts; [reflexivity|discriminate Rq]. }
    pose proof (output_spec x g name) as O. destruct (get_output x g name) as [hd [t| |]]; [| |contradiction].
    2: { destruct O as [O ->]. injection E as <- <- <-. exists true. split; [eapply did_stop; eassumption|now rewrite andb_true_r]. }
    assert (T : exists an fx s (o1 : outcome unit), (o1 <> Panic -> act_did x g (pg_answers st) (pg_store st) raw an fx s (is_ok o1)) /\
      match o1 with
      | Panic => Some (mkProgress an fx (pg_ok st && is_ok o1), hd ++ [Wrote t s], Panic)
      | _ => match run_acts x g acts (mkProgress an fx (pg_ok st && is_ok o1)) raws with
             | Some (st'', h', o') => Some (st'', hd ++ [Wrote t s] ++ h', o')
             | None => None
             end
      end = Some (st', h, o)).
    { destruct (ag_interactive g) eqn:NI.
      - destruct (interactive x g (pg_answers st) (pg_store st) raw) as [[[[an fx] s] o1]|] eqn:I; [|discriminate E]. exists an, fx, s, o1.
        split; [intros Q; eapply interactive_spec; eassumption|exact E].
      - destruct (process_single_act x g (pg_store st) raw) as [s o1] eqn:W. exists (pg_answers st), (pg_store st), s, o1. split; [|exact E].
        apply process_cases in W. destruct o1; intros Q; [now apply act_done|now apply act_failed|congruence]. }
    clear E. destruct T as (an & fx & s & o1 & D & E). assert (O1 : o1 <> Panic) by (intros ->; congruence). specialize (D O1).
    assert (E' : exists h', run_acts x g acts (mkProgress an fx (pg_ok st && is_ok o1)) raws = Some (st', h', o) /\ h = hd ++ [Wrote t s] ++ h').
    { destruct o1; [| |congruence]; (destruct (run_acts _ _ _ _ raws) as [[[st2 h2] o2]|]; [|discriminate E]; injection E as <- <- <-; exists h2; auto). }
    destruct E' as (h' & E' & ->). destruct (IH _ _ _ _ E' P) as (fine & A & B). cbn [pg_answers pg_store pg_ok] in *.
    exists (is_ok o1 && fine). split; [eapply did_act; eassumption|]. now rewrite B, andb_assoc.
Qed.
Lemma run_issue_spec x g acts : forall i st st' h o, run_issue x g acts st i = Some (st', h, o) -> o <> Panic ->
  exists fine, issue_did x g acts (pg_answers st) (pg_store st) i (pg_answers st') (pg_store st') (h ++ or_error (is_ok o)) fine /\ pg_ok st' = pg_ok st && fine.
Proof.
  intros i st st' h o E P. unfold run_issue in E.
  destruct (x_pages x i) as [pages| |] eqn:X; [| |congruence].
  2: { injection E as <- <- <-. exists true. split; [now apply did_unread|now rewrite andb_true_r]. }
  destruct (step_eqb (ag_until g) PdfLines) eqn:U.
  - assert (U' : ag_until g = PdfLines) by (destruct (ag_until g); cbn in U; congruence).
    pose proof (output_spec x g (issue_name i)) as O. change (lit "mk_" ++ show_Z (mk_year i) ++ lit "_" ++ show_Z (mk_issue_no i)) with (issue_name i) in E.
    destruct (get_output x g (issue_name i)) as [hd [t| |]]; [| |contradiction].
    + destruct (cli_output x (ag_width g) (ag_format g) (DPages pages)) as [s| |] eqn:D; [| |congruence].
      * apply printed_iff in D. injection E as <- <- <-. exists true. split; [|now rewrite andb_true_r].
        cbn [is_ok or_error]. rewrite app_nil_r. eapply did_pages; eassumption.
      * injection E as <- <- <-. exists true. split; [|now rewrite andb_true_r].
        eapply did_pages_fail; try eassumption. intros s S. apply printed_iff in S. congruence.
    + destruct O as [O ->]. injection E as <- <- <-. exists true. split; [|now rewrite andb_true_r].
      eapply did_pages_stop; eassumption.
  - assert (U' : ag_until g <> PdfLines) by (intros Q; rewrite Q in U; discriminate).
    destruct (parse_mk_pages (x_ud x) (x_rf x) pages) as [raws| |] eqn:Q; [| |congruence].
    + destruct (run_acts_spec x g acts _ _ _ _ _ E P) as (fine & A & B).
      exists fine. split; [|exact B]. eapply did_acts; eassumption.
    + injection E as <- <- <-. exists true. split; [eapply did_no_acts; eassumption|now rewrite andb_true_r].
Qed.
Lemma run_issues_spec x g acts : forall l st st' h o, run_issues x g acts st l = Some (st', h, o) -> o <> Panic ->
  o = Ok tt /\ exists fine, issues_did x g acts (pg_answers st) (pg_store st) l (pg_answers st') (pg_store st') h fine /\ pg_ok st' = pg_ok st && fine.
Proof.
  intros l. induction l as [|i l IH]; intros st st' h o E P; cbn [run_issues] in E.
  - injection E as <- <- <-. split; [reflexivity|]. exists true. split; [constructor|now rewrite andb_true_r].
  - destruct (run_issue x g acts st i) as [[[st1 h1] o1]|] eqn:R; [|discriminate E].
    assert (o1 <> Panic) by (intros ->; congruence). destruct (run_issue_spec x g acts _ _ _ _ _ R H) as (fine & A & B).
    assert (E' : exists h', run_issues x g acts st1 l = Some (st', h', o) /\ h = (h1 ++ or_error (is_ok o1)) ++ h').
    { destruct o1 as [u| |]; [| |congruence]; (destruct (run_issues x g acts st1 l) as [[[st2 h2] o2]|]; [|discriminate E]; injection E as <- <- <-;
      exists h2; split; [reflexivity|now rewrite <- app_assoc]). }
    destruct E' as (h' & E' & ->). destruct (IH _ _ _ _ E' P) as (O & fine' & A' & B'). split; [exact O|].
    exists (fine && fine'). split; [econstructor; eassumption|]. rewrite B', B. now rewrite andb_assoc.
Qed.
Lemma collect_ok_iff {A B} (f : A -> outcome B) l : forall r, collect_ok f l = Ok r <-> Forall2 (fun a b => f a = Ok b) l r.
Proof.
  induction l as [|a l IH]; intros r; cbn [collect_ok].
  - split; [intros E; injection E as <-; constructor|intros F; inversion F; reflexivity].
  - split.
    + intros E. destruct (f a) as [b| |] eqn:Fa; try discriminate E. cbn [obind] in E. destruct (collect_ok f l) as [r'| |] eqn:M; try discriminate E.
      cbn [obind] in E. injection E as <-. constructor; [exact Fa|now apply IH].
    + intros F. inversion F as [|? b ? r' Fa Fl]; subst. rewrite Fa. cbn [obind]. apply IH in Fl. now rewrite Fl.
Qed.
Lemma Forall2_to {A B} (P Q : A -> B -> Prop) l r : (forall a b, P a b -> Q a b) -> Forall2 P l r -> Forall2 Q l r.
Proof. induction 2; constructor; auto. Qed.
Lemma records_iff x rows records : collect_ok (read_record x) rows = Ok records <->
  Forall2 (fun row r => mk_parse (fst row) = Ok (fst r) /\ act_parse (x_rf x) (snd row) = Ok (snd r)) rows records.
Proof.
  rewrite collect_ok_iff. split; intros F; (eapply Forall2_to; [|exact F]); intros row [i a]; unfold read_record; cbn [fst snd].
  - destruct (mk_parse (fst row)) as [i'| |]; try discriminate. cbn [obind]. destruct (act_parse (x_rf x) (snd row)) as [a'| |]; try discriminate. cbn [obind]. intros E. injection E as <- <-. auto.
  - intros [-> ->]. reflexivity.
Qed.
Lemma all_issues_ok x g issues acts : all_issues x g = Ok (issues, acts) -> asked_for x g issues acts.
Proof.
  unfold all_issues, asked_for. destruct (ag_mk g); intros E.
  - destruct (collect_ok mk_parse (ag_ids g)) as [l| |] eqn:M; try discriminate E. cbn [obind] in E. injection E as <- <-. split; [now apply collect_ok_iff|reflexivity].
  - destruct (collect_ok (act_parse (x_rf x)) (ag_ids g)) as [l| |] eqn:M; try discriminate E. cbn [obind] in E.
    destruct (x_records x) as [rows| |] eqn:R; try discriminate E. cbn [obind] in E. destruct (collect_ok (read_record x) rows) as [records| |] eqn:Q; try discriminate E. cbn [obind] in E.
    destruct (get_issues records l) as [is| |] eqn:G; try discriminate E. cbn [obind] in E. injection E as <- <-.
    split; [now apply collect_ok_iff|]. exists rows, records. split; [reflexivity|]. split; [now apply records_iff|].
    apply (proj1 (get_issues_spec records l)) in G. exact G.
Qed.
Lemma increasing_lt a l : increasing (a :: l) -> forall b, In b l -> issue_lt a b.
Proof.
  revert a. induction l as [|c l IH]; intros a H b I; [destruct I|]. inversion H as [| |? ? ? L H']; subst. destruct I as [->|I]; [exact L|].
  specialize (IH c H' b I). unfold issue_lt in *. lia.
Qed.
Lemma increasing_tl a l : increasing (a :: l) -> increasing l.
Proof. intros H. inversion H; subst; [constructor|assumption]. Qed.
Lemma increasing_unique l : forall r, increasing l -> increasing r -> (forall i, In i l <-> In i r) -> l = r.
Proof.
  induction l as [|a l IH]; intros [|b r] A B S; [reflexivity| | |].
  - exfalso. apply (S b). now left.
  - exfalso. apply (S a). now left.
  - pose proof (increasing_lt a l A) as La. pose proof (increasing_lt b r B) as Lb.
    assert (X : a = b).
    { destruct (proj1 (S a) (or_introl eq_refl)) as [E|I]; [auto|]. destruct (proj2 (S b) (or_introl eq_refl)) as [E|J]; [auto|].
      specialize (La _ J). specialize (Lb _ I). unfold issue_lt in *. lia. }
    subst b. f_equal. apply IH; [exact (increasing_tl _ _ A)|exact (increasing_tl _ _ B)|].
    intros i. split; intros I.
    + destruct (proj1 (S i) (or_intror I)) as [E|J]; [|exact J]. subst i. specialize (La _ I). unfold issue_lt in La. lia.
    + destruct (proj2 (S i) (or_intror I)) as [E|J]; [|exact J]. subst i. specialize (Lb _ I). unfold issue_lt in Lb. lia.
Qed.
Lemma all_issues_iff x g issues acts : all_issues x g = Ok (issues, acts) <-> asked_for x g issues acts.
Proof.
  split; [apply all_issues_ok|]. unfold all_issues, asked_for. destruct (ag_mk g).
  - intros [F ->]. apply collect_ok_iff in F. now rewrite F.
  - intros (F & rows & records & R & Q & I & K & M). apply collect_ok_iff in F. rewrite F. cbn [obind]. rewrite R. cbn [obind].
    apply records_iff in Q. rewrite Q. cbn [obind]. destruct (get_issues_spec records acts) as (G1 & G2 & G3).
    assert (NU : forall a, ~ first_unknown records acts a).
    { intros a (pre & post & E & _ & U). destruct (K a) as (i & Hi); [rewrite E; apply in_elt|]. exact (U i Hi). }
    destruct (get_issues records acts) as [r| |].
    + cbn [obind]. destruct (G1 r eq_refl) as (I' & _ & M'). rewrite (increasing_unique issues r I I'); [reflexivity|]. intros i. now rewrite M, M'.
    + destruct (proj1 G2 eq_refl) as (a & U & _). now apply NU in U.
    + destruct (proj1 G3 eq_refl) as (a & U & _). now apply NU in U.
Qed.
Lemma main_format x g answers st : main x g answers st =
  match all_issues x (terminal_colors g) with
  | Ok (issues, acts) =>
      match run_issues x (terminal_colors g) acts (mkProgress answers st true) issues with
      | Some (st', h, Ok _) => Some (pg_store st', h, if pg_ok st' then Ok tt else Err)
      | Some (st', h, o) => Some (pg_store st', h, o)
      | None => None
      end
  | Err => Some (st, [], Err)
  | Panic => Some (st, [], Panic)
  end.
Proof.
  unfold main. assert (E : (match ag_dir g, ag_format g with None, Plain => with_format g Colored | _, _ => g end) = terminal_colors g).
  { unfold terminal_colors, with_format. destruct g as [a b c d e f h i]; cbn. destruct h, c; reflexivity. }
  now rewrite E.
Qed.
Lemma c70_run x g answers st st' h o : main x g answers st = Some (st', h, o) -> o <> Panic ->
  (st' = st /\ h = [] /\ o = Err /\ forall issues acts, ~ asked_for x (terminal_colors g) issues acts) \/
  exists issues acts rest fine, asked_for x (terminal_colors g) issues acts /\
    issues_did x (terminal_colors g) acts answers st issues rest st' h fine /\ o = (if fine then Ok tt else Err).
Proof.
  intros E P. rewrite main_format in E. destruct (all_issues x (terminal_colors g)) as [[issues acts]| |] eqn:A; [| |congruence].
  - right. destruct (run_issues _ _ acts _ issues) as [[[st1 h1] o1]|] eqn:R; [|discriminate E].
    assert (o1 <> Panic) by (intros ->; congruence). destruct (run_issues_spec x (terminal_colors g) acts _ _ _ _ _ R H) as (-> & fine & D & K).
    cbn [pg_answers pg_store pg_ok andb] in *. injection E as <- <- <-. exists issues, acts, (pg_answers st1), fine. split; [now apply all_issues_iff|].
    split; [exact D|]. now rewrite K.
  - left. injection E as <- <- <-. repeat split. intros issues acts Q. apply all_issues_iff in Q. congruence.
Qed.
Lemma run_acts_ends x g acts : ag_interactive g = false -> forall raws st, run_acts x g acts st raws <> None.
Proof.
  intros NI raws. induction raws as [|raw raws IH]; intros st; cbn [run_acts]; [discriminate|]. destruct (act_show (ar_id raw)); try discriminate.
  destruct (negb _ && _); [apply IH|]. destruct (get_output x g a) as [hd [t| |]]; try discriminate. rewrite NI. destruct (process_single_act x g (pg_store st) raw) as [s o].
  destruct o; try discriminate;
  (destruct (run_acts x g acts _ raws) as [[[? ?] ?]|] eqn:R; [discriminate|exact (fun _ => IH _ R)]).
Qed.
Lemma run_issue_ends x g acts : ag_interactive g = false -> forall i st, run_issue x g acts st i <> None.
Proof.
  intros NI i st. unfold run_issue. destruct (x_pages x i); try discriminate. destruct (step_eqb _ _).
  - destruct (get_output _ _ _) as [hd [t| |]]; try discriminate. destruct (cli_output _ _ _ _); discriminate.
  - destruct (parse_mk_pages _ _ _); try discriminate. now apply run_acts_ends.
Qed.
Lemma run_issues_ends x g acts : ag_interactive g = false -> forall l st, run_issues x g acts st l <> None.
Proof.
  intros NI l. induction l as [|i l IH]; intros st; cbn [run_issues]; [discriminate|].
  destruct (run_issue x g acts st i) as [[[st1 h1] o1]|] eqn:R; [|exact (fun _ => run_issue_ends x g acts NI i st R)].
  destruct o1; try discriminate; (destruct (run_issues x g acts st1 l) as [[[? ?] ?]|] eqn:Q; [discriminate|exact (fun _ => IH _ Q)]).
Qed.
Lemma c70_ends x g answers st : ag_interactive g = false -> main x g answers st <> None.
Proof.
  intros NI. rewrite main_format. destruct (all_issues _ _) as [[issues acts]| |]; try discriminate.
  destruct (run_issues x (terminal_colors g) acts _ issues) as [[[? ?] [?| |]]|] eqn:R; try discriminate. exact (fun _ => run_issues_ends x (terminal_colors g) acts NI _ _ R).
Qed.
