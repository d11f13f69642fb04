(** Proofs for C87: the texts a run leaves. *)
From Verif Require Import SpecDisk ProofMain ProofSave ProofKeep ProofKeep3.

Local Open Scope list_scope.
Section P.
Variables (x : external) (wr : format -> value -> str) (rd : format -> str -> outcome value) (D : date -> Prop) (dp : str -> outcome date) (g : args).
Hypotheses (RF : roman_i32 (x_rf x)) (HD : has_dates D) (RD : reads_dates D dp) (TR : texts_read wr rd) (AT : acts_through x wr)
  (GF : ag_format g = Json \/ ag_format g = Yaml) (GU : ag_until g = StepStructure \/ ag_until g = StepSemantic).

Lemma out_act w a s : cli_output x w (ag_format g) (DAct a) = Ok s -> s = wr (ag_format g) (put_act a).
Proof. destruct GF as [->| ->]; cbn [cli_output]; rewrite AT; intros E; now injection E as <-. Qed.

Lemma raw_fits_fixed raw b : raw_fits D raw -> raw_fits D (ModelMk.set_body raw b).
Proof. intros H. exact H. Qed.

Lemma written_good (from : store -> Prop) st raw s : from st -> of_issues x raw -> written_act x g st raw = Ok s -> good_text x rd dp g from s.
Proof.
  intros F I E. right.
  assert (R : raw_fits D raw).
  { destruct I as (i & pages & raws & _ & P & J). pose proof (issue_fits D _ RF HD _ _ _ P) as A. rewrite Forall_forall in A. exact (A raw J). }
  unfold written_act, load_fixups in E. destruct (act_show (ar_id raw)) as [nm| |]; try discriminate E. cbn [obind] in E.
  destruct (st (ar_id raw)) as [fs| |] eqn:SI; try discriminate E. cbn [obind] in E.
  destruct (load_body fs (ar_body raw)) as [body o] eqn:LB. destruct o as [[]| |]; try discriminate E. cbn [obind] in E.
  assert (NA : step_eqb (ag_until g) ActLines = false) by (destruct GU as [->| ->]; reflexivity). rewrite NA in E.
  set (raw2 := ModelMk.set_body raw body) in *.
  assert (X : fixed st raw raw2) by (exists fs, body; repeat split; assumption).
  destruct (parse_act_structure (x_rf x) (x_up x) raw2) as [a| |] eqn:PS; try discriminate E. cbn [obind] in E.
  assert (W : forall c, act_at x raw2 (ag_until g) c -> act_made (x_rf x) (x_up x) grammar_parse raw2 c -> s = wr (ag_format g) (put_act c) ->
    exists st raw raw2 a, from st /\ of_issues x raw /\ fixed st raw raw2 /\ act_at x raw2 (ag_until g) a /\
      (short_texts x raw2 -> gives_act rd dp (ag_format g) s a)).
  { intros c AA M ->. exists st, raw, raw2, c. refine (conj F (conj I (conj X (conj AA _)))). intros SH. exists (put_act c). split; [apply TR|].
    exact (made_stored D _ RF HD _ _ _ _ 0 RD (raw_fits_fixed _ _ R) SH M). }
  destruct GU as [GU'|GU']; rewrite GU' in *; cbn [step_eqb] in E.
  - apply (W a); [now constructor|now constructor|exact (out_act _ _ _ E)].
  - destruct (add_semantic_info (x_rf x) grammar_parse a) as [b o] eqn:A. destruct o as [ch| |]; try discriminate E. cbn [obind] in E.
    destruct (convert_act (x_rf x) (x_up x) b) as [c o] eqn:C. destruct o as [[]| |]; try discriminate E. cbn [obind] in E.
    apply (W c); [exact (at_semantic _ _ _ _ _ _ PS A C)|exact (made_converted _ _ _ _ _ _ _ _ _ PS A C)|exact (out_act _ _ _ E)].
Qed.

Lemma single_good (from : store -> Prop) st raw s o : from st -> of_issues x raw -> process_single_act x g st raw = (s, o) -> good_text x rd dp g from s.
Proof.
  intros F I. unfold process_single_act. destruct (written_act x g st raw) as [t| |] eqn:W; intros E; injection E as <- _.
  - exact (written_good from st raw t F I W).
  - now left.
  - now left.
Qed.

Lemma interactive_good raw : is_forced g = false -> of_issues x raw ->
  forall an st r st' s o, interactive x g an st raw = Some (r, st', s, o) -> good_text x rd dp g (fun _ => True) s.
Proof.
  intros NF I. induction an as [|[typed edit] rest IH]; intros st r st' s o; cbn [interactive]; unfold process_single_act; rewrite NF;
    destruct (written_act x g st raw) as [t| |] eqn:W.
  - intros E. injection E as _ _ <- _. exact (written_good _ st raw t Logic.I I W).
  - discriminate.
  - intros E. injection E as _ _ <- _. now left.
  - intros E. injection E as _ _ <- _. exact (written_good _ st raw t Logic.I I W).
  - destruct typed as [t| |]; [|intros E; injection E as _ _ <- _; now left..].
    destruct (confirmed t); [|intros E; injection E as _ _ <- _; now left].
    match goal with |- context[match ?m with Ok _ => _ | Err => _ | Panic => _ end] => destruct m as [st2| |] end; [|intros E; injection E as _ _ <- _; now left..].
    destruct (interactive x g rest st2 raw) as [[[[r' st''] s'] o']|] eqn:R; [|discriminate].
    intros E. injection E as _ _ <- _. exact (IH _ _ _ _ _ R).
  - intros E. injection E as _ _ <- _. now left.
Qed.

(** One act of a run *)
Definition step_of (st : progress) (raw : act_raw) :=
  if ag_interactive g then interactive x g (pg_answers st) (pg_store st) raw
  else let '(s, o) := process_single_act x g (pg_store st) raw in Some (pg_answers st, pg_store st, s, o).

Variable from : store -> Prop.
Hypothesis STEP : forall st raw an fx s o, from (pg_store st) -> of_issues x raw -> step_of st raw = Some (an, fx, s, o) -> from fx /\ good_text x rd dp g from s.

Lemma output_good name h t : get_output x g name = (h, t) -> Forall (good_happening x rd dp g from) h.
Proof.
  unfold get_output. destruct (ag_dir g) as [d|]; [destruct (x_creatable x _)|]; intros E; injection E as <- _; repeat constructor.
Qed.

Lemma acts_good acts raws : Forall (of_issues x) raws -> forall st st' h o, from (pg_store st) -> run_acts x g acts st raws = Some (st', h, o) ->
  from (pg_store st') /\ Forall (good_happening x rd dp g from) h.
Proof.
  induction raws as [|raw raws IH]; intros FR st st' h o F; cbn [run_acts].
  - intros E. injection E as <- <- _. split; [exact F|constructor].
  - inversion FR as [|? ? I FR']; subst. destruct (act_show (ar_id raw)) as [name| |]; [|intros E; injection E as <- <- _; split; [exact F|constructor]..].
    destruct (_ && _); [exact (IH FR' st st' h o F)|]. destruct (get_output x g name) as [h0 t] eqn:GO. pose proof (output_good _ _ _ GO) as G0.
    destruct t as [t| |]; [|intros E; injection E as <- <- _; split; [exact F|exact G0]..].
    fold (step_of st raw). destruct (step_of st raw) as [[[[an fx] s] o1]|] eqn:ST; [|discriminate].
    destruct (STEP _ _ _ _ _ _ F I ST) as [F1 G1]. cbv zeta.
    assert (G2 : Forall (good_happening x rd dp g from) (h0 ++ [Wrote t s])) by (apply Forall_app; split; [exact G0|constructor; [exact G1|constructor]]).
    assert (Z : forall z, match run_acts x g acts (mkProgress an fx z) raws with Some (st'', h', o') => Some (st'', h0 ++ [Wrote t s] ++ h', o') | None => None end
      = Some (st', h, o) -> from (pg_store st') /\ Forall (good_happening x rd dp g from) h).
    { intros z. destruct (run_acts x g acts (mkProgress an fx z) raws) as [[[st2 h2] o2]|] eqn:RA; [|discriminate]. intros E. injection E as <- <- _.
      destruct (IH FR' (mkProgress an fx z) st2 h2 o2 F1 RA) as [A B]. split; [exact A|]. apply Forall_app. split; [exact G0|]. constructor; [exact G1|exact B]. }
    destruct o1 as [u| |]; [exact (Z _)|exact (Z _)|]. intros E. injection E as <- <- _. split; [exact F1|exact G2].
Qed.

Lemma issue_good acts st i st' h o : from (pg_store st) -> run_issue x g acts st i = Some (st', h, o) ->
  from (pg_store st') /\ Forall (good_happening x rd dp g from) h.
Proof.
  intros F. unfold run_issue. destruct (x_pages x i) as [pages| |] eqn:XP; [|intros E; injection E as <- <- _; split; [exact F|constructor]..].
  assert (NP : step_eqb (ag_until g) PdfLines = false) by (destruct GU as [->| ->]; reflexivity). rewrite NP.
  destruct (parse_mk_pages (x_ud x) (x_rf x) pages) as [raws| |] eqn:PP; [|intros E; injection E as <- <- _; split; [exact F|constructor]..].
  apply acts_good; [|exact F]. apply Forall_forall. intros raw J. exists i, pages, raws. auto.
Qed.

Lemma issues_good acts l : forall st st' h o, from (pg_store st) -> run_issues x g acts st l = Some (st', h, o) ->
  from (pg_store st') /\ Forall (good_happening x rd dp g from) h.
Proof.
  induction l as [|i l IH]; intros st st' h o F; cbn [run_issues].
  - intros E. injection E as <- <- _. split; [exact F|constructor].
  - destruct (run_issue x g acts st i) as [[[st1 h1] o1]|] eqn:RI; [|discriminate]. destruct (issue_good _ _ _ _ _ _ F RI) as [F1 G1].
    assert (Z : forall e, Forall (good_happening x rd dp g from) e ->
      match run_issues x g acts st1 l with Some (st'', h', o') => Some (st'', h1 ++ e ++ h', o') | None => None end = Some (st', h, o) ->
      from (pg_store st') /\ Forall (good_happening x rd dp g from) h).
    { intros e Ge. destruct (run_issues x g acts st1 l) as [[[st2 h2] o2]|] eqn:RS; [|discriminate]. intros E. injection E as <- <- _.
      destruct (IH _ _ _ _ F1 RS) as [A B]. split; [exact A|]. apply Forall_app. split; [exact G1|]. apply Forall_app. split; assumption. }
    destruct o1 as [u| |]; [apply Z; constructor|apply Z; repeat constructor|]. intros E. injection E as <- <- _. split; assumption.
Qed.

Lemma main_good answers st st' h o : from st -> main x g answers st = Some (st', h, o) -> Forall (good_happening x rd dp g from) h.
Proof.
  intros F. unfold main. assert (K : match ag_dir g, ag_format g with None, Plain => with_format g Colored | _, _ => g end = g)
    by (destruct GF as [->| ->]; destruct (ag_dir g); reflexivity). rewrite K. cbv zeta.
  destruct (all_issues x g) as [[issues acts]| |]; [|intros E; injection E as _ <- _; constructor..].
  destruct (run_issues x g acts (mkProgress answers st true) issues) as [[[st1 h1] o1]|] eqn:RI; [|discriminate].
  destruct (issues_good acts issues (mkProgress answers st true) st1 h1 o1 F RI) as [_ B]. destruct o1 as [u| |]; intros E; injection E as _ <- _; exact B.
Qed.
End P.

Lemma main_alone x wr rd D dp g : roman_i32 (x_rf x) -> has_dates D -> reads_dates D dp -> texts_read wr rd -> acts_through x wr ->
  ag_format g = Json \/ ag_format g = Yaml -> ag_until g = StepStructure \/ ag_until g = StepSemantic -> ag_interactive g = false ->
  forall answers st st' h o, main x g answers st = Some (st', h, o) -> Forall (good_happening x rd dp g (eq st)) h.
Proof.
  intros RF HD RD TR AT GF GU NI answers st st' h o. apply (main_good x rd dp g GF GU (eq st)); [|reflexivity].
  intros p raw an fx s o1 F I. unfold step_of. rewrite NI. destruct (process_single_act x g (pg_store p) raw) as [s' o'] eqn:P. intros E. injection E as _ <- <- _.
  split; [exact F|]. exact (single_good x wr rd D dp g RF HD RD TR AT GF GU (eq st) (pg_store p) raw s' o' F I P).
Qed.
Lemma main_session x wr rd D dp g : roman_i32 (x_rf x) -> has_dates D -> reads_dates D dp -> texts_read wr rd -> acts_through x wr ->
  ag_format g = Json \/ ag_format g = Yaml -> ag_until g = StepStructure \/ ag_until g = StepSemantic -> ag_interactive g = true -> is_forced g = false ->
  forall answers st st' h o, main x g answers st = Some (st', h, o) -> Forall (good_happening x rd dp g (fun _ => True)) h.
Proof.
  intros RF HD RD TR AT GF GU YI NF answers st st' h o. apply (main_good x rd dp g GF GU (fun _ => True)); [|exact I].
  intros p raw an fx s o1 F J. unfold step_of. rewrite YI. intros E. split; [exact I|].
  exact (interactive_good x wr rd D dp g RF HD RD TR AT GF GU raw NF J _ _ _ _ _ _ E).
Qed.
