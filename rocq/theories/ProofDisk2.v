(** Proofs for C87: a successful run leaves all acts. *)
From Verif Require Import SpecDisk SpecMain ProofMain ProofMain5 ProofSave ProofKeep ProofKeep3 ProofDisk.
Local Open Scope list_scope.

Section P.
Variables (x : external) (wr : format -> value -> str) (rd : format -> str -> outcome value) (D : date -> Prop) (dp : str -> outcome date) (g : args).
Hypotheses (RF : roman_i32 (x_rf x)) (HD : has_dates D) (RD : reads_dates D dp) (TR : texts_read wr rd) (AT : acts_through x wr)
  (GF : ag_format g = Json \/ ag_format g = Yaml) (GU : ag_until g = StepStructure \/ ag_until g = StepSemantic) (NI : ag_interactive g = false).

Lemma written_one st raw s : of_issues x raw -> written_act x g st raw = Ok s ->
  exists raw2 a, fixed st raw raw2 /\ act_at x raw2 (ag_until g) a /\ (short_texts x raw2 -> gives_act rd dp (ag_format g) s a).
Proof.
  intros I E.
  assert (R : raw_fits D raw).
  { destruct I as (i & pages & raws & _ & P & J). pose proof (issue_fits D _ RF HD _ _ _ P) as A. rewrite Forall_forall in A. exact (A raw J). }
  unfold written_act, load_fixups in E. destruct (act_show (ar_id raw)) as [nm| |]; try discriminate E. cbn [obind] in E.
  destruct (st (ar_id raw)) as [fs| |] eqn:SI; try discriminate E. cbn [obind] in E.
  destruct (load_body fs (ar_body raw)) as [body o] eqn:LB. destruct o as [[]| |]; try discriminate E. cbn [obind] in E.
  assert (NA : step_eqb (ag_until g) ActLines = false) by (destruct GU as [->| ->]; reflexivity). rewrite NA in E.
  set (raw2 := ModelMk.set_body raw body) in *.
  assert (X : fixed st raw raw2) by (exists fs, body; repeat split; assumption).
  destruct (parse_act_structure (x_rf x) (x_up x) raw2) as [a| |] eqn:PS; try discriminate E. cbn [obind] in E.
  assert (W : forall c, act_at x raw2 (ag_until g) c -> act_made (x_rf x) (x_up x) grammar_parse raw2 c -> s = wr (ag_format g) (put_act c) ->
    exists raw2 a, fixed st raw raw2 /\ act_at x raw2 (ag_until g) a /\ (short_texts x raw2 -> gives_act rd dp (ag_format g) s a)).
  { intros c AA M ->. exists raw2, c. refine (conj X (conj AA _)). intros SH. exists (put_act c). split; [apply TR|].
    exact (made_stored D _ RF HD _ _ _ _ 0 RD (raw_fits_fixed _ _ _ R) SH M). }
  destruct GU as [GU'|GU']; rewrite GU' in *; cbn [step_eqb] in E.
  - apply (W a); [now constructor|now constructor|exact (out_act x wr g AT GF _ _ _ E)].
  - destruct (add_semantic_info (x_rf x) grammar_parse a) as [b o] eqn:A. destruct o as [ch| |]; try discriminate E. cbn [obind] in E.
    destruct (convert_act (x_rf x) (x_up x) b) as [c o] eqn:C. destruct o as [[]| |]; try discriminate E. cbn [obind] in E.
    apply (W c); [exact (at_semantic _ _ _ _ _ _ PS A C)|exact (made_converted _ _ _ _ _ _ _ _ _ PS A C)|exact (out_act x wr g AT GF _ _ _ E)].
Qed.

(** An act of an issue is in its place. *)
Definition in_place (st : store) (h : list happening) (raw : act_raw) : Prop :=
  exists name before t s, act_show (ar_id raw) = Ok name /\ output_to x g name before t /\ In (Wrote t s) h /\ written_act x g st raw = Ok s.
Lemma in_place_more st h h' raw : (forall e, In e h -> In e h') -> in_place st h raw -> in_place st h' raw.
Proof. intros M (n & b & t & s & A & B & C & E). exists n, b, t, s. auto. Qed.
Lemma acts_all acts raws : forall st st' h o, run_acts x g acts st raws = Some (st', h, o) -> pg_ok st' = true -> o <> Panic ->
  pg_store st' = pg_store st /\ pg_ok st = true /\ (o = Ok tt -> forall raw, In raw raws -> requested acts raw -> in_place (pg_store st) h raw).
Proof.
  induction raws as [|raw raws IH]; intros st st' h o; cbn [run_acts].
  - intros E K P. injection E as <- <- <-. repeat split; [exact K|]. intros _ r [].
  - destruct (act_show (ar_id raw)) as [name| |] eqn:AS; [|intros E K P; injection E as <- <- <-; repeat split; [exact K|discriminate]..].
    destruct (_ && _) eqn:RQ.
    + intros E K P. destruct (IH _ _ _ _ E K P) as (A & B & C). refine (conj A (conj B _)). intros Q r [<-|I] R; [|exact (C Q r I R)].
      exfalso. exact (proj1 (requested_bool acts raw) RQ R).
    + pose proof (output_spec x g name) as OS. destruct (get_output x g name) as [h0 t].
      destruct t as [t| |]; [|intros E K P; injection E as <- <- <-; repeat split; [exact K|discriminate]..].
      rewrite NI. destruct (process_single_act x g (pg_store st) raw) as [s o1] eqn:PA. cbv zeta.
      assert (Z : match run_acts x g acts (mkProgress (pg_answers st) (pg_store st) (pg_ok st && is_ok o1)) raws with
        | Some (st'', h', o') => Some (st'', h0 ++ [Wrote t s] ++ h', o') | None => None end = Some (st', h, o) -> pg_ok st' = true -> o <> Panic ->
        pg_store st' = pg_store st /\ pg_ok st = true /\ (o = Ok tt -> forall r, In r (raw :: raws) -> requested acts r -> in_place (pg_store st) h r)).
      { destruct (run_acts x g acts _ raws) as [[[st2 h2] o2]|] eqn:RA; [|discriminate]. intros E K P. injection E as <- <- <-.
        destruct (IH _ _ _ _ RA K P) as (A & B & C). cbn [pg_store pg_ok] in A, B, C. apply andb_prop in B. destruct B as [B1 B2].
        refine (conj A (conj B1 _)). intros Q r [<-|I] R.
        - exists name, h0, t, s. refine (conj AS (conj OS (conj _ _))); [apply in_or_app; right; now left|].
          unfold process_single_act in PA. destruct (written_act x g (pg_store st) raw) as [w| |]; injection PA as <- <-; [reflexivity|discriminate B2..].
        - apply (in_place_more _ h2); [|exact (C Q r I R)]. intros e J. apply in_or_app. right. right. exact J. }
      destruct o1 as [u| |]; [exact Z|exact Z|]. intros E K P. injection E as _ _ <-. congruence.
Qed.
Lemma issues_all acts l : forall st st' h, run_issues x g acts st l = Some (st', h, Ok tt) -> pg_ok st' = true -> ~ In IssueError h ->
  pg_ok st = true /\ pg_store st' = pg_store st /\ forall i, In i l -> exists pages raws, x_pages x i = Ok pages /\ parse_mk_pages (x_ud x) (x_rf x) pages = Ok raws /\
    forall raw, In raw raws -> requested acts raw -> in_place (pg_store st) h raw.
Proof.
  induction l as [|i l IH]; intros st st' h; cbn [run_issues].
  - intros E K N. injection E as <- <-. repeat split; [exact K|]. intros i [].
  - destruct (run_issue x g acts st i) as [[[st1 h1] o1]|] eqn:RI; [|discriminate].
    assert (OK : o1 = Ok tt \/ o1 = Err \/ o1 = Panic) by (destruct o1 as [[]| |]; auto). destruct OK as [->|[->| ->]]; [| |discriminate].
    + destruct (run_issues x g acts st1 l) as [[[st2 h2] o2]|] eqn:RS; [|discriminate]. intros E K N. injection E as <- <- ->.
      destruct (IH _ _ _ RS K) as (A & B & C). { intros J. apply N. apply in_or_app. now right. }
      unfold run_issue in RI. destruct (x_pages x i) as [pages| |] eqn:XP; try discriminate RI.
      assert (NP : step_eqb (ag_until g) PdfLines = false) by (destruct GU as [->| ->]; reflexivity). rewrite NP in RI.
      destruct (parse_mk_pages (x_ud x) (x_rf x) pages) as [raws| |] eqn:PP; try discriminate RI.
      destruct (acts_all _ _ _ _ _ _ RI A ltac:(discriminate)) as (F & G & H). rewrite <- F. refine (conj G (conj B _)). intros j [<-|J].
      * exists pages, raws. refine (conj XP (conj PP _)). intros raw J R. rewrite F. apply (in_place_more _ h1); [|exact (H eq_refl raw J R)].
        intros e Q. apply in_or_app. now left.
      * destruct (C j J) as (pg & rw & P1 & P2 & P3). exists pg, rw. refine (conj P1 (conj P2 _)). intros raw J2 R.
        apply (in_place_more _ h2); [|exact (P3 raw J2 R)]. intros e Q. apply in_or_app. right. exact Q.
    + destruct (run_issues x g acts st1 l) as [[[st2 h2] o2]|] eqn:RS; [|discriminate]. intros E K N. injection E as <- <- ->.
      exfalso. apply N. apply in_or_app. right. now left.
Qed.
Lemma main_complete answers st st' h : main x g answers st = Some (st', h, Ok tt) -> ~ In IssueError h ->
  exists issues acts, asked_for x g issues acts /\ forall i, In i issues -> exists pages raws, x_pages x i = Ok pages /\
    parse_mk_pages (x_ud x) (x_rf x) pages = Ok raws /\ forall raw, In raw raws -> requested acts raw ->
    exists name before t s raw2 a, act_show (ar_id raw) = Ok name /\ output_to x g name before t /\ In (Wrote t s) h /\
      fixed st raw raw2 /\ act_at x raw2 (ag_until g) a /\ (short_texts x raw2 -> gives_act rd dp (ag_format g) s a).
Proof.
  unfold main. assert (K : match ag_dir g, ag_format g with None, Plain => with_format g Colored | _, _ => g end = g)
    by (destruct GF as [->| ->]; destruct (ag_dir g); reflexivity). rewrite K. cbv zeta.
  destruct (all_issues x g) as [[issues acts]| |] eqn:AI; try discriminate.
  destruct (run_issues x g acts (mkProgress answers st true) issues) as [[[st1 h1] o1]|] eqn:RI; [|discriminate].
  destruct o1 as [[]| |]; try discriminate. destruct (pg_ok st1) eqn:PO; intros E; try discriminate E. injection E as _ <-. intros N.
  destruct (issues_all _ _ _ _ _ RI PO N) as (_ & _ & C). exists issues, acts. split; [exact (all_issues_ok _ _ _ _ AI)|].
  intros i J. destruct (C i J) as (pages & raws & P1 & P2 & P3). exists pages, raws. refine (conj P1 (conj P2 _)). intros raw I R.
  destruct (P3 raw I R) as (name & before & t & s & A & B & W & WA). cbn [pg_store] in WA.
  assert (OI : of_issues x raw) by (exists i, pages, raws; auto). destruct (written_one st raw s OI WA) as (raw2 & a & F1 & F2 & F3).
  exists name, before, t, s, raw2, a. auto 8.
Qed.
End P.
