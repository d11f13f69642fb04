(** Model of src/bin/hun_law/main.rs, of the editor session in src/bin/hun_law/fixup_editor.rs and of src/output/mod.rs.
    No proofs in this file.

    Simplifications: writing to an opened file or to the standard output does not fail, and neither does saving
    fixups; what was written before a failure of [cli_output] is not kept; logging is left out, except that it
    displays acts. Everything outside the program is in [external]: the pages of an issue (mk_downloader.rs and
    parser/pdf, which have their own models), the CSV file of issues, JSON and YAML, which files can be created, and
    the externals of the other models. *)
From Verif Require Export ModelOut ModelGrammar ModelMk ModelStruct.

(** * src/output/mod.rs *)
(** output/mod.rs:31-46 OutputFormat *)
Inductive format := Plain | TestPlain | Colored | Json | Yaml.
(** What can be written out: Vec<PageOfLines>, ActRawText, Act *)
Inductive document := DPages (p : list (list line)) | DRaw (r : act_raw) | DAct (a : act).

(** output/mod.rs:100-117 PageOfLines *)
Definition show_page (tags : bool) (ls : list line) : str := List.concat (map (fun l => quick_display l tags ++ newline) ls).
(** output/mod.rs:79-98 Vec<PageOfLines>; [n] pages were written *)
Fixpoint show_pages_from (tags : bool) (all n : N) (ps : list (list line)) : str :=
  match ps with
  | [] => []
  | p :: ps' =>
      newline ++ lit "------- page " ++ show_N (n + 1) ++ lit "/" ++ show_N all ++ lit " -------" ++ newline ++ newline
      ++ show_page tags p ++ show_pages_from tags all (n + 1) ps'
  end.
Definition show_pages (tags : bool) (ps : list (list line)) : str := show_pages_from tags (N.of_nat (List.length ps)) 0 ps.
(** [{:?}] of chrono's NaiveDate (external): at least four digits of the year, and a sign outside of 0 to 9999 *)
Definition show_date (d : date) : str :=
  (if ((0 <=? d_year d) && (d_year d <=? 9999))%Z then pad_Z 4 (d_year d)
   else if (d_year d <? 0)%Z then pad_Z 5 (d_year d) else lit "+" ++ pad_Z 4 (d_year d))
  ++ lit "-" ++ pad_Z 2 (Z.of_N (d_month d)) ++ lit "-" ++ pad_Z 2 (Z.of_N (d_day d)).
(** output/mod.rs:119-139 ActRawText *)
Definition show_raw (tags : bool) (r : act_raw) : outcome str :=
  let* i := act_show (ar_id r) in
  Ok (lit "Act ID: " ++ i ++ lit " - " ++ ar_subject r ++ newline ++ lit "Pub date: " ++ show_date (ar_date r) ++ newline ++ newline
      ++ show_page tags (ar_body r)).

(** What is outside of the program *)
Record external := mkExternal {
  x_rf : str -> option Z; x_up : char -> bool; x_ud : char -> bool; x_wrap : str -> N -> list str;
  x_pages : mk_issue -> outcome (list (list line));
  x_records : outcome (list (str * str));
  x_serialize : format -> document -> outcome str;
  x_creatable : str -> bool }.
(** output/mod.rs:54-77 cli_output, 141-152 Act *)
Definition cli_plain (x : external) (width : N) (tags color : bool) (d : document) : outcome str :=
  match d with
  | DPages p => Ok (show_pages tags p)
  | DRaw r => show_raw tags r
  | DAct a => act_output (x_wrap x) width color a
  end.
Definition cli_output (x : external) (width : N) (f : format) (d : document) : outcome str :=
  match f with
  | Plain => cli_plain x width false false d
  | Colored => cli_plain x width false true d
  | TestPlain => cli_plain x width true false d
  | Json | Yaml => x_serialize x f d
  end.

(** * src/bin/hun_law/fixup_editor.rs: an editor session *)
(** [format!("{:>4}")] *)
Definition pad_left (n : nat) (s : str) : str := repeat 32%N (n - List.length s) ++ s.
(** fixup_editor.rs:36-61: the file given to the editor *)
Fixpoint editor_file (q : quote_check) (ls : list line) : outcome str :=
  match ls with
  | [] => Ok []
  | l :: ls' =>
      let* _ := ensure (negb (ends_with (lit " ") (content l))) in
      let* _ := ensure (negb (starts_with (lit " ") (content l))) in
      let q' := fst (qc_update q l) in
      let* s := editor_file q' ls' in
      Ok (pad_left 4 (show_Z (q_level q')) ++ lit " " ++ quick_display l false ++ newline ++ s)
  end.
(** fixup_editor.rs:33-53, 64: the line where the editor is opened, from zero: the first with an error in its quotes,
    or that after the last that does not end within a quote *)
Fixpoint editor_place (q : quote_check) (i : nat) (unquoted : option nat) (ls : list line) : option nat :=
  match ls with
  | [] => unquoted
  | l :: ls' =>
      let '(q', r) := qc_update q l in
      if negb (is_ok r) then Some i
      else editor_place q' (S i) (if q_end q' then unquoted else Some (S i)) ls'
  end.
Definition open_at_line (ls : list line) : nat := match editor_place qc_default 0 None ls with Some i => i | None => O end.
(** [str::lines] *)
Definition strip_cr (s : str) : str := match rev s with c :: r => if (c =? 13)%N then rev r else s | [] => s end.
Definition str_lines (s : str) : list str :=
  match rev (split_on 10%N s) with
  | [] => []
  | last :: before => map strip_cr (rev before) ++ (if is_empty last then [] else [last])
  end.
(** fixup_editor.rs:77: [l[5..].trim()]; panics when the line has less than five bytes or the fifth is within a
    character *)
Fixpoint texts_after_five (ls : list str) : outcome (list str) :=
  match ls with
  | [] => Ok []
  | l :: ls' =>
      match split_at_byte l 5 with
      | Some (_, t) => let* r := texts_after_five ls' in Ok (trim t :: r)
      | None => Panic
      end
  end.
(** Stored fixups; a file with errors is [Err]. *)
Definition store := act_id -> outcome (list fixup).
Definition store_set (st : store) (i : act_id) (fs : list fixup) : store := fun j => if act_eqb i j then Ok fs else st j.
(** fixups.rs:53-70 load: the path contains the displayed act *)
Definition load_fixups (st : store) (i : act_id) : outcome (list fixup) := let* _ := act_show i in st i.
(** The editor gets a line and a file, and leaves a file; [Err] if it cannot be started or leaves something that is
    not text. *)
Definition editor := nat -> str -> outcome str.
(** fixup_editor.rs:28-81 run_fixup_editor. [update_fixups] always ends (C24). *)
Definition run_fixup_editor (edit : editor) (st : store) (raw : act_raw) : outcome store :=
  let* _ := act_show (ar_id raw) in
  let* file := editor_file qc_default (ar_body raw) in
  let* contents := edit (S (open_at_line (ar_body raw))) file in
  let* new := texts_after_five (str_lines contents) in
  let* fs := load_fixups st (ar_id raw) in
  match update_fixups fs (editor_lines (ar_body raw)) new with
  | Some o => let* fs := o in Ok (store_set st (ar_id raw) fs)
  | None => Panic
  end.

(** * src/bin/hun_law/main.rs *)
(** main.rs:76-86 ParsingStep *)
Inductive parsing_step := PdfLines | ActLines | StepStructure | StepSemantic.
Definition step_eqb (a b : parsing_step) : bool :=
  match a, b with PdfLines, PdfLines | ActLines, ActLines | StepStructure, StepStructure | StepSemantic, StepSemantic => true | _, _ => false end.
(** main.rs:41-74 HunLawArgs *)
Record args := mkArgs {
  ag_ids : list str; ag_mk : bool; ag_format : format; ag_until : parsing_step;
  ag_interactive : bool; ag_force : bool; ag_dir : option str; ag_width : N }.

(** main.rs:250-277 process_single_act: what is written, and the result *)
Definition written_act (x : external) (g : args) (st : store) (raw : act_raw) : outcome str :=
  let* fs := load_fixups st (ar_id raw) in
  let '(body, o) := load_body fs (ar_body raw) in
  let* _ := o in
  let raw := ModelMk.set_body raw body in
  if step_eqb (ag_until g) ActLines then cli_output x (ag_width g) (ag_format g) (DRaw raw)
  else
    let* a := parse_act_structure (x_rf x) (x_up x) raw in
    if step_eqb (ag_until g) StepStructure then cli_output x (ag_width g) (ag_format g) (DAct a)
    else
      let '(a, o) := add_semantic_info (x_rf x) grammar_parse a in
      let* _ := o in
      let '(a, o) := convert_act (x_rf x) (x_up x) a in
      let* _ := o in
      cli_output x (ag_width g) (ag_format g) (DAct a).
(** main.rs:266-276: only the last step can be forced to fail *)
Definition is_forced (g : args) : bool :=
  ag_force g && negb (step_eqb (ag_until g) ActLines) && negb (step_eqb (ag_until g) StepStructure).
Definition process_single_act (x : external) (g : args) (st : store) (raw : act_raw) : str * outcome unit :=
  match written_act x g st raw with
  | Ok s => (s, if is_forced g then Err else Ok tt)
  | Err => ([], Err)
  | Panic => ([], Panic)
  end.

(** main.rs:279-285 confirm *)
Definition lower_ascii (c : char) : char := if ((65 <=? c) && (c <=? 90))%N then (c + 32)%N else c.
Definition confirmed (line : str) : bool :=
  let b := map lower_ascii line in is_empty (trim b) || starts_with (lit "y") b.
(** The person at the terminal: what they type at a question, or [Err] if it cannot be read, and what they do in the
    editor if it is opened after that *)
Definition answer : Type := outcome str * editor.
(** main.rs:229-248 process_single_act_interactive; [None] when still waiting for an answer at the end of the list *)
Fixpoint interactive (x : external) (g : args) (answers : list answer) (st : store) (raw : act_raw)
  : option (list answer * store * str * outcome unit) :=
  let '(s, o) := process_single_act x g st raw in
  match o with
  | Ok _ => Some (answers, st, s, Ok tt)
  | Panic => Some (answers, st, s, Panic)
  | Err =>
      match answers with
      | [] => None
      | (typed, edit) :: rest =>
          match typed with
          | Ok t =>
              if confirmed t then
                match (let* fs := load_fixups st (ar_id raw) in
                       let '(body, o) := load_body fs (ar_body raw) in
                       let* _ := o in
                       run_fixup_editor edit st (ModelMk.set_body raw body)) with
                | Ok st' =>
                    match interactive x g rest st' raw with
                    | Some (r, st'', s', o') => Some (r, st'', s ++ s', o')
                    | None => None
                    end
                | Err => Some (rest, st, s, Err)
                | Panic => Some (rest, st, s, Panic)
                end
              else Some (rest, st, s, Err)
          | Err => Some (rest, st, s, Err)
          | Panic => Some (rest, st, s, Panic)
          end
      end
  end.

(** What can be observed of a run: a heading on the standard output, the creation of a file, text written to a file or to the
    standard output, and the error of an issue printed *)
Inductive happening := Heading (name : str) | Created (path : str) | Wrote (path : option str) (s : str) | IssueError.
(** [PathBuf::join] with a relative path *)
Definition join_path (dir file : str) : str :=
  if is_empty dir || ends_with (lit "/") dir then dir ++ file else dir ++ lit "/" ++ file.
(** main.rs:150-169 get_output *)
Definition extension (f : format) : str := match f with Json => lit "json" | Yaml => lit "yml" | _ => lit "txt" end.
Definition get_output (x : external) (g : args) (name : str) : list happening * outcome (option str) :=
  match ag_dir g with
  | Some d =>
      let p := join_path d (name ++ lit "." ++ extension (ag_format g)) in
      if x_creatable x p then ([Created p], Ok (Some p)) else ([], Err)
  | None => ([Heading name], Ok None)
  end.

(** What changes during a run: the answers not yet given, the stored fixups, and main.rs:106 everything_ok *)
Record progress := mkProgress { pg_answers : list answer; pg_store : store; pg_ok : bool }.
(** main.rs:121-139: the acts of an issue *)
Fixpoint run_acts (x : external) (g : args) (acts : list act_id) (st : progress) (raws : list act_raw)
  : option (progress * list happening * outcome unit) :=
  match raws with
  | [] => Some (st, [], Ok tt)
  | raw :: raws' =>
      match act_show (ar_id raw) with
      | Ok name =>
          if negb (is_empty acts) && negb (existsb (act_eqb (ar_id raw)) acts) then run_acts x g acts st raws'
          else
            let '(h, t) := get_output x g name in
            match t with
            | Ok t =>
                match (if ag_interactive g then interactive x g (pg_answers st) (pg_store st) raw
                       else let '(s, o) := process_single_act x g (pg_store st) raw in Some (pg_answers st, pg_store st, s, o)) with
                | None => None
                | Some (an, fx, s, o) =>
                    let st' := mkProgress an fx (pg_ok st && is_ok o) in
                    match o with
                    | Panic => Some (st', h ++ [Wrote t s], Panic)
                    | _ =>
                        match run_acts x g acts st' raws' with
                        | Some (st'', h', o') => Some (st'', h ++ [Wrote t s] ++ h', o')
                        | None => None
                        end
                    end
                end
            | Err => Some (st, h, Err)
            | Panic => Some (st, h, Panic)
            end
      | Err => Some (st, [], Err)
      | Panic => Some (st, [], Panic)
      end
  end.
(** main.rs:109-141: an issue *)
Definition run_issue (x : external) (g : args) (acts : list act_id) (st : progress) (i : mk_issue)
  : option (progress * list happening * outcome unit) :=
  match x_pages x i with
  | Ok pages =>
      if step_eqb (ag_until g) PdfLines then
        let '(h, t) := get_output x g (lit "mk_" ++ show_Z (mk_year i) ++ lit "_" ++ show_Z (mk_issue_no i)) in
        match t with
        | Ok t =>
            match cli_output x (ag_width g) (ag_format g) (DPages pages) with
            | Ok s => Some (st, h ++ [Wrote t s], Ok tt)
            | Err => Some (st, h, Err)
            | Panic => Some (st, h, Panic)
            end
        | Err => Some (st, h, Err)
        | Panic => Some (st, h, Panic)
        end
      else
        match parse_mk_pages (x_ud x) (x_rf x) pages with
        | Ok raws => run_acts x g acts st raws
        | Err => Some (st, [], Err)
        | Panic => Some (st, [], Panic)
        end
  | Err => Some (st, [], Err)
  | Panic => Some (st, [], Panic)
  end.
(** main.rs:108-143: the error of an issue is printed, and the next comes *)
Fixpoint run_issues (x : external) (g : args) (acts : list act_id) (st : progress) (l : list mk_issue)
  : option (progress * list happening * outcome unit) :=
  match l with
  | [] => Some (st, [], Ok tt)
  | i :: l' =>
      match run_issue x g acts st i with
      | None => None
      | Some (st', h, Panic) => Some (st', h, Panic)
      | Some (st', h, o) =>
          match run_issues x g acts st' l' with
          | Some (st'', h', o') => Some (st'', h ++ (if is_ok o then [] else [IssueError]) ++ h', o')
          | None => None
          end
      end
  end.
(** main.rs:189-226 get_issues; [collect] stops at the first failure *)
Fixpoint collect_ok {A B} (f : A -> outcome B) (l : list A) : outcome (list B) :=
  match l with [] => Ok [] | a :: l' => let* b := f a in let* r := collect_ok f l' in Ok (b :: r) end.
Definition read_record (x : external) (r : str * str) : outcome (mk_issue * act_id) :=
  let* i := mk_parse (fst r) in let* a := act_parse (x_rf x) (snd r) in Ok (i, a).
Definition all_issues (x : external) (g : args) : outcome (list mk_issue * list act_id) :=
  if ag_mk g then let* l := collect_ok mk_parse (ag_ids g) in Ok (l, [])
  else
    let* acts := collect_ok (act_parse (x_rf x)) (ag_ids g) in
    let* rows := x_records x in
    let* records := collect_ok (read_record x) rows in
    let* issues := get_issues records acts in
    Ok (issues, acts).
(** main.rs:94-148 main *)
Definition with_format (g : args) (f : format) : args :=
  mkArgs (ag_ids g) (ag_mk g) f (ag_until g) (ag_interactive g) (ag_force g) (ag_dir g) (ag_width g).
Definition main (x : external) (g : args) (answers : list answer) (st : store) : option (store * list happening * outcome unit) :=
  let g := match ag_dir g, ag_format g with None, Plain => with_format g Colored | _, _ => g end in
  match all_issues x g with
  | Ok (issues, acts) =>
      match run_issues x g acts (mkProgress answers st true) issues with
      | Some (st', h, Ok _) => Some (pg_store st', h, if pg_ok st' then Ok tt else Err)
      | Some (st', h, o) => Some (pg_store st', h, o)
      | None => None
      end
  | Err => Some (st, [], Err)
  | Panic => Some (st, [], Panic)
  end.
