(** Specification of plain outputs, of editor sessions and of the whole program (C68-C70). *)
From Verif Require Export ModelMain SpecText SpecMk SpecIdent.

(** ** Lines as text (C68) *)
Definition marks (tags : bool) (l : line) : str :=
  if tags then (if l_bold l then lit "<BOLD>" else []) ++ (if l_just l then [] else lit "<NJ>") else [].
(** The column of a line: one for every five points *)
Definition column (l : line) (n : nat) : Prop :=
  ((indent l < 0)%Z /\ n = O) \/ (5 * unit_pt * Z.of_nat n <= indent l < 5 * unit_pt * (Z.of_nat n + 1))%Z.
(** The text is in its column, or after the marks if they reach over it. *)
Definition shown_line (tags : bool) (l : line) (s : str) : Prop :=
  exists n, column l n /\ s = marks tags l ++ repeat (chr " ") (n - List.length (marks tags l)) ++ content l.
(** Text made of rows, each closed by a line feed *)
Definition of_rows (rows : list str) : str := List.concat (map (fun r => r ++ [10%N]) rows).
Inductive rows_of_pages (tags : bool) (all : N) : N -> list (list line) -> list str -> Prop :=
| rows_none k : rows_of_pages tags all k [] []
| rows_page k p ps shown rest : Forall2 (shown_line tags) p shown -> rows_of_pages tags all (k + 1) ps rest ->
    rows_of_pages tags all k (p :: ps) ([[]; lit "------- page " ++ show_N k ++ lit "/" ++ show_N all ++ lit " -------"; []] ++ shown ++ rest).
(** A date as in 2012-01-09 *)
Definition two_digits (n : N) (s : str) : Prop := List.length s = 2%nat /\ forallb is_digit s = true /\ digits_value s = n.
Definition iso_date (d : date) (s : str) : Prop :=
  exists y m x, s = y ++ lit "-" ++ m ++ lit "-" ++ x /\
    List.length y = 4%nat /\ forallb is_digit y = true /\ digits_value y = Z.to_N (d_year d) /\ two_digits (d_month d) m /\ two_digits (d_day d) x.
(** Texts that the test helper can take apart: no spaces at the beginning, no two spaces together, no marks *)
Fixpoint single_spaces (s : str) : Prop :=
  match s with
  | a :: (b :: _) as t => ~ (a = chr " " /\ b = chr " ") /\ single_spaces t
  | _ => True
  end.
Definition part_of (p s : str) : Prop := exists a b, s = a ++ p ++ b.
Definition testable (s : str) : Prop :=
  s <> [] /\ (forall t, s <> chr " " :: t) /\ single_spaces s /\ ~ part_of (lit "<BOLD>") s /\ ~ part_of (lit "<NJ>") s.

(** ** Editor sessions (C69) *)
Definition tidy (l : line) : Prop := (forall t, content l <> chr " " :: t) /\ (forall t, content l <> t ++ [chr " "]).
(** Quotes open at the end of line [k] *)
Definition quotes_at (ls : list line) (k : nat) : Z := depth (text (firstn (S k) ls)).
Definition aligned (w : nat) (s : str) : str := repeat (chr " ") (w - List.length s) ++ s.
Definition editor_row (ls : list line) (k : nat) (l : line) (row : str) : Prop :=
  exists t, shown_line false l t /\ row = aligned 4 (show_Z (quotes_at ls k)) ++ [chr " "] ++ t.
Definition editor_rows (ls : list line) (rows : list str) : Prop :=
  List.length rows = List.length ls /\ forall k l row, nth_error ls k = Some l -> nth_error rows k = Some row -> editor_row ls k l row.
(** The line where the editor is opened: the first where more quotes are closed than opened; or that after the last
    where none is open; or the first *)
Definition opened_at (ls : list line) (i : nat) : Prop :=
  ((i < List.length ls)%nat /\ (quotes_at ls i < 0)%Z /\ forall j, (j < i)%nat -> (0 <= quotes_at ls j)%Z) \/
  ((forall j, (j < List.length ls)%nat -> (0 <= quotes_at ls j)%Z) /\ (i <= List.length ls)%nat /\
   (forall j, (i <= j < List.length ls)%nat -> (0 < quotes_at ls j)%Z) /\ (forall j, i = S j -> quotes_at ls j = 0%Z)).
(** A file left by the editor: every row has five bytes that are not read, then a text *)
Definition left_rows (rows : list (str * str)) : Prop :=
  Forall (fun r => utf8_len (fst r) = 5%N /\ ~ In 10%N (fst r ++ snd r) /\ ~ In 13%N (fst r)) rows.
Definition left_file (rows : list (str * str)) : str := of_rows (map (fun r => fst r ++ snd r) rows).

(** ** The whole program (C70) *)
(** An act after its fixups, without double empty lines *)
Definition fixed_act (st : store) (raw raw' : act_raw) : Prop :=
  exists fs body, st (ar_id raw) = Ok fs /\ applies_to fs (ar_body raw) body /\ collapsed body (ar_body raw') /\ no_double_empty (ar_body raw') /\
    ar_id raw' = ar_id raw /\ ar_subject raw' = ar_subject raw /\ ar_date raw' = ar_date raw.
(** What the steps make of an act, up to the last one asked for *)
Definition steps_done (x : external) (g : args) (raw : act_raw) (d : document) : Prop :=
  match ag_until g with
  | ActLines => d = DRaw raw
  | StepStructure => exists a, parse_act_structure (x_rf x) (x_up x) raw = Ok a /\ d = DAct a
  | _ => exists a b c k, parse_act_structure (x_rf x) (x_up x) raw = Ok a /\ add_semantic_info (x_rf x) grammar_parse a = (b, Ok k) /\
           convert_act (x_rf x) (x_up x) b = (c, Ok tt) /\ d = DAct c
  end.
(** A document in a format; see C54, C68 for what the plain texts are *)
Definition printed (x : external) (g : args) (d : document) (s : str) : Prop :=
  match ag_format g, d with
  | Json, _ | Yaml, _ => x_serialize x (ag_format g) d = Ok s
  | f, DPages p => s = show_pages (match f with TestPlain => true | _ => false end) p
  | f, DRaw r => show_raw (match f with TestPlain => true | _ => false end) r = Ok s
  | f, DAct a => act_output (x_wrap x) (ag_width g) (match f with Colored => true | _ => false end) a = Ok s
  end.
Definition text_of (x : external) (g : args) (st : store) (raw : act_raw) (s : str) : Prop :=
  has_name (ar_id raw) /\ exists raw' d, fixed_act st raw raw' /\ steps_done x g raw' d /\ printed x g d s.
(** After the last step, the force flag makes a failure of success. *)
Definition forced (g : args) : Prop := ag_force g = true /\ ag_until g <> ActLines /\ ag_until g <> StepStructure.
(** The file of a name: in the directory, with the extension of the format *)
Definition file_of (g : args) (dir name path : str) : Prop :=
  exists ext file, ext = match ag_format g with Json => lit "json" | Yaml => lit "yml" | _ => lit "txt" end /\ file = name ++ lit "." ++ ext /\
    (((dir = [] \/ exists d, dir = d ++ [chr "/"]) /\ path = dir ++ file) \/
     (dir <> [] /\ (forall d, dir <> d ++ [chr "/"]) /\ path = dir ++ [chr "/"] ++ file)).
(** Where a named output goes: a new file, or the standard output under a heading *)
Definition output_to (x : external) (g : args) (name : str) (h : list happening) (t : option str) : Prop :=
  match ag_dir g with
  | Some dir => exists p, file_of g dir name p /\ x_creatable x p = true /\ h = [Created p] /\ t = Some p
  | None => h = [Heading name] /\ t = None
  end.
Definition no_output (x : external) (g : args) (name : str) : Prop :=
  exists dir p, ag_dir g = Some dir /\ file_of g dir name p /\ x_creatable x p = false.
Definition requested (acts : list act_id) (raw : act_raw) : Prop := acts = [] \/ In (ar_id raw) acts.
(** A failed attempt, and what it wrote: nothing, or all of the text if the failure is only forced *)
Definition attempt_fails (x : external) (g : args) (st : store) (raw : act_raw) (s : str) : Prop :=
  (text_of x g st raw s /\ forced g) \/ ((forall t, ~ text_of x g st raw t) /\ s = []).
(** Nothing, or anything that begins with the letter y *)
Definition agrees (t : str) : Prop := forallb is_whitespace t = true \/ exists r, t = chr "y" :: r \/ t = chr "Y" :: r.
(** An act: answers left and fixups before and after, what is written, and if it succeeded. When it is interactive, the
    attempt is repeated as long as the person agrees to it and the editor session is successful. *)
Inductive act_did (x : external) (g : args) : list answer -> store -> act_raw -> list answer -> store -> str -> bool -> Prop :=
| act_done an st raw s : text_of x g st raw s -> ~ forced g -> act_did x g an st raw an st s true
| act_failed an st raw s : ag_interactive g = false -> attempt_fails x g st raw s -> act_did x g an st raw an st s false
| act_refused t e an st raw s : ag_interactive g = true -> attempt_fails x g st raw s -> ~ agrees t -> act_did x g ((Ok t, e) :: an) st raw an st s false
| act_unanswered e an st raw s : ag_interactive g = true -> attempt_fails x g st raw s -> act_did x g ((Err, e) :: an) st raw an st s false
| act_not_edited t e an st raw s : ag_interactive g = true -> attempt_fails x g st raw s -> agrees t ->
    (forall raw' st', fixed_act st raw raw' -> run_fixup_editor e st raw' <> Ok st') -> act_did x g ((Ok t, e) :: an) st raw an st s false
| act_edited t e an st raw s raw' st1 an' st' s' ok : ag_interactive g = true -> attempt_fails x g st raw s -> agrees t ->
    fixed_act st raw raw' -> run_fixup_editor e st raw' = Ok st1 -> act_did x g an st1 raw an' st' s' ok ->
    act_did x g ((Ok t, e) :: an) st raw an' st' (s ++ s') ok.
(** The acts of an issue: every requested act is written to its own output, in their order. [fine]: no act failed;
    [finished]: not stopped by an output that could not be made *)
Inductive acts_did (x : external) (g : args) (acts : list act_id)
  : list answer -> store -> list act_raw -> list answer -> store -> list happening -> bool -> bool -> Prop :=
| did_end an st : acts_did x g acts an st [] an st [] true true
| did_skip an st raw raws an' st' h fine finished : has_name (ar_id raw) -> ~ requested acts raw -> acts_did x g acts an st raws an' st' h fine finished ->
    acts_did x g acts an st (raw :: raws) an' st' h fine finished
| did_act an st raw raws name before t an1 st1 s this an' st' h fine finished : act_show (ar_id raw) = Ok name -> requested acts raw ->
    output_to x g name before t -> act_did x g an st raw an1 st1 s this -> acts_did x g acts an1 st1 raws an' st' h fine finished ->
    acts_did x g acts an st (raw :: raws) an' st' (before ++ [Wrote t s] ++ h) (this && fine) finished
| did_stop an st raw raws name : act_show (ar_id raw) = Ok name -> requested acts raw -> no_output x g name ->
    acts_did x g acts an st (raw :: raws) an st [] true false.
Definition issue_name (i : mk_issue) : str := lit "mk_" ++ show_Z (mk_year i) ++ lit "_" ++ show_Z (mk_issue_no i).
Definition or_error (b : bool) : list happening := if b then [] else [IssueError].
(** An issue: its pages, or its acts *)
Inductive issue_did (x : external) (g : args) (acts : list act_id) : list answer -> store -> mk_issue -> list answer -> store -> list happening -> bool -> Prop :=
| did_unread an st i : x_pages x i = Err -> issue_did x g acts an st i an st [IssueError] true
| did_pages an st i pages before t s : x_pages x i = Ok pages -> ag_until g = PdfLines -> output_to x g (issue_name i) before t ->
    printed x g (DPages pages) s -> issue_did x g acts an st i an st (before ++ [Wrote t s]) true
| did_pages_fail an st i pages before t : x_pages x i = Ok pages -> ag_until g = PdfLines -> output_to x g (issue_name i) before t ->
    (forall s, ~ printed x g (DPages pages) s) -> issue_did x g acts an st i an st (before ++ [IssueError]) true
| did_pages_stop an st i pages : x_pages x i = Ok pages -> ag_until g = PdfLines -> no_output x g (issue_name i) -> issue_did x g acts an st i an st [IssueError] true
| did_no_acts an st i pages : x_pages x i = Ok pages -> ag_until g <> PdfLines -> parse_mk_pages (x_ud x) (x_rf x) pages = Err ->
    issue_did x g acts an st i an st [IssueError] true
| did_acts an st i pages raws an' st' h fine finished : x_pages x i = Ok pages -> ag_until g <> PdfLines -> parse_mk_pages (x_ud x) (x_rf x) pages = Ok raws ->
    acts_did x g acts an st raws an' st' h fine finished -> issue_did x g acts an st i an' st' (h ++ or_error finished) fine.
Inductive issues_did (x : external) (g : args) (acts : list act_id) : list answer -> store -> list mk_issue -> list answer -> store -> list happening -> bool -> Prop :=
| did_no_more an st : issues_did x g acts an st [] an st [] true
| did_issue an st i l an1 st1 an' st' h h' f f' : issue_did x g acts an st i an1 st1 h f -> issues_did x g acts an1 st1 l an' st' h' f' ->
    issues_did x g acts an st (i :: l) an' st' (h ++ h') (f && f').
(** The issues to be read, and the acts asked for: none when issues are given *)
Definition asked_for (x : external) (g : args) (issues : list mk_issue) (acts : list act_id) : Prop :=
  if ag_mk g then Forall2 (fun s i => mk_parse s = Ok i) (ag_ids g) issues /\ acts = []
  else
    Forall2 (fun s a => act_parse (x_rf x) s = Ok a) (ag_ids g) acts /\
    exists rows records, x_records x = Ok rows /\
      Forall2 (fun row r => mk_parse (fst row) = Ok (fst r) /\ act_parse (x_rf x) (snd row) = Ok (snd r)) rows records /\
      increasing issues /\ (forall a, In a acts -> exists i, issue_of records a i) /\
      (forall i, In i issues <-> exists a, In a acts /\ issue_of records a i).
(** Texts for a terminal are coloured. *)
Definition terminal_colors (g : args) : args :=
  mkArgs (ag_ids g) (ag_mk g) (match ag_dir g, ag_format g with None, Plain => Colored | _, f => f end)
    (ag_until g) (ag_interactive g) (ag_force g) (ag_dir g) (ag_width g).
