(** C87: the files a run of the program leaves can be loaded. *)
From Verif Require Import SpecDisk SpecMain ProofDisk ProofDisk2 SampleDisk ProofKeep4 PropertiesMk PropertiesMain PropertiesKeep.

(** ** C87 *)
(** Run to the structure or to the end, with JSON or YAML as the format and no questions asked, the program writes for an act nothing or a text from which
    the act made of its lines and its stored fixups is read back; also if the run ends with an error or a panic. *)
Theorem C87_alone : forall x wr rd D dp g, roman_i32 (x_rf x) -> has_dates D -> reads_dates D dp -> texts_read wr rd -> acts_through x wr ->
  ag_format g = Json \/ ag_format g = Yaml -> ag_until g = StepStructure \/ ag_until g = StepSemantic -> ag_interactive g = false ->
  forall answers st st' h o, main x g answers st = Some (st', h, o) -> forall t s, In (Wrote t s) h ->
  s = [] \/ exists raw raw2 a, of_issues x raw /\ fixed st raw raw2 /\ act_at x raw2 (ag_until g) a /\ (short_texts x raw2 -> gives_act rd dp (ag_format g) s a).
Proof.
  exact (fun x wr rd D dp g A B C E F G H I answers st st' h o M t s J =>
    match proj1 (Forall_forall _ _) (main_alone x wr rd D dp g A B C E F G H I answers st st' h o M) _ J with
    | or_introl N => or_introl N
    | or_intror (ex_intro _ st0 (ex_intro _ raw (ex_intro _ raw2 (ex_intro _ a (conj Q (conj Y (conj X R))))))) =>
        or_intror (ex_intro _ raw (ex_intro _ raw2 (ex_intro _ a (conj Y (conj (eq_ind_r (fun z => fixed z raw raw2) X Q) R))))) end).
Qed.
Print Assumptions C87_alone.
(** The same with questions asked, for fixups stored at some time; when the output is forced several texts can follow each other (C70). *)
Theorem C87_session : forall x wr rd D dp g, roman_i32 (x_rf x) -> has_dates D -> reads_dates D dp -> texts_read wr rd -> acts_through x wr ->
  ag_format g = Json \/ ag_format g = Yaml -> ag_until g = StepStructure \/ ag_until g = StepSemantic -> ag_interactive g = true -> is_forced g = false ->
  forall answers st st' h o, main x g answers st = Some (st', h, o) -> forall t s, In (Wrote t s) h ->
  s = [] \/ exists st1 raw raw2 a, of_issues x raw /\ fixed st1 raw raw2 /\ act_at x raw2 (ag_until g) a /\ (short_texts x raw2 -> gives_act rd dp (ag_format g) s a).
Proof.
  exact (fun x wr rd D dp g A B C E F G H I I' answers st st' h o M t s J =>
    match proj1 (Forall_forall _ _) (main_session x wr rd D dp g A B C E F G H I I' answers st st' h o M) _ J with
    | or_introl N => or_introl N
    | or_intror (ex_intro _ st0 (ex_intro _ raw (ex_intro _ raw2 (ex_intro _ a (conj _ R))))) =>
        or_intror (ex_intro _ st0 (ex_intro _ raw (ex_intro _ raw2 (ex_intro _ a R)))) end).
Qed.
Print Assumptions C87_session.
(** If a run without questions was successful and no error of an issue was printed, all issues asked for were read, and every act asked for in them was written to
    its place, so that it is read back. *)
Theorem C87_complete : forall x wr rd D dp g, roman_i32 (x_rf x) -> has_dates D -> reads_dates D dp -> texts_read wr rd -> acts_through x wr ->
  ag_format g = Json \/ ag_format g = Yaml -> ag_until g = StepStructure \/ ag_until g = StepSemantic -> ag_interactive g = false ->
  forall answers st st' h, main x g answers st = Some (st', h, Ok tt) -> ~ In IssueError h ->
  exists issues acts, asked_for x g issues acts /\ forall i, In i issues -> exists pages raws, x_pages x i = Ok pages /\
    parse_mk_pages (x_ud x) (x_rf x) pages = Ok raws /\ forall raw, In raw raws -> requested acts raw ->
    exists name before t s raw2 a, act_show (ar_id raw) = Ok name /\ output_to x g name before t /\ In (Wrote t s) h /\
      fixed st raw raw2 /\ act_at x raw2 (ag_until g) a /\ (short_texts x raw2 -> gives_act rd dp (ag_format g) s a).
Proof. exact main_complete. Qed.
Print Assumptions C87_complete.
(** Texts like these exist. *)
Theorem C87_texts : texts_read wr_text rd_text.
Proof. exact texts_are_read. Qed.
Print Assumptions C87_texts.

(** The issue of C70 with two acts, written as JSON *)
Definition json_world : external := mkExternal small_roman (fun _ => true) is_digit (fun s _ => [s])
  (fun i => if (mk_issue_no i =? 71)%Z then Ok sample_pages else Err) (Ok [])
  (fun f d => match d with DAct a => Ok (wr_text f (put_act a)) | _ => Err end) (fun _ => true).
Definition json_call (ask : bool) : args := mkArgs [lit "2012/71"] true Json StepSemantic ask false (Some (lit "out")) 100.
Definition loaded (s : str) : outcome act := let* v := rd_text Json s in get_act ProofKeep4.read_date 2 v.
Definition json_files (ask : bool) : list (str * outcome act) :=
  match main json_world (json_call ask) [] no_fixups with
  | Some (_, h, _) => flat_map (fun e => match e with Wrote (Some p) s => [(p, loaded s)] | _ => [] end) h
  | None => []
  end.
Definition made_of (n : Z) (body : list line) : outcome act :=
  all_steps small_roman (fun _ => true) (mkRaw (mkAct 2012 n) (lit "a próbáról") (mkDate 2012 6 28) body).
Example C87_world : roman_i32 (x_rf json_world) /\ has_dates calendar /\ reads_dates calendar ProofKeep4.read_date /\ texts_read wr_text rd_text /\ acts_through json_world wr_text.
Proof. exact (conj small_roman_i32 (conj calendar_has (conj calendar_read (conj texts_are_read (fun f a => eq_refl))))). Qed.
Example C87_run : json_files false = json_files true /\
  json_files false = [(lit "out/2012. évi I. törvény.json", made_of 1 [ln "1. § E törvény célja"; ln "a próba."]);
    (lit "out/2012. évi XI. törvény.json", made_of 11 [ln "1. § E törvény"; ln "hatályba lép."])] /\
  (exists a, made_of 1 [ln "1. § E törvény célja"; ln "a próba."] = Ok a) /\ (exists a, made_of 11 [ln "1. § E törvény"; ln "hatályba lép."] = Ok a).
Proof. split; [|split; [|split; eexists]]; vm_compute; reflexivity. Qed.
Example C87_success : exists st' h, main json_world (json_call false) [] no_fixups = Some (st', h, Ok tt) /\ ~ In IssueError h.
Proof.
  assert (K : match main json_world (json_call false) [] no_fixups with
    | Some (_, h, Ok tt) => forallb (fun e => match e with IssueError => false | _ => true end) h | _ => false end = true) by (vm_compute; reflexivity).
  destruct (main json_world (json_call false) [] no_fixups) as [[[st' h] [[]| |]]|]; try discriminate K. exists st', h. split; [reflexivity|].
  intros I. rewrite forallb_forall in K. discriminate (K _ I).
Qed.
