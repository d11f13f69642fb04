(** C68-C70: plain outputs, editor sessions and the whole program. *)
From Verif Require Export ProofMain8.
From Verif Require PropertiesMk.
Import PropertiesMk(ln, bl, rf0).

(** * C68 *)
(** A line is written in its column: one column for every five points, after its marks. *)
Theorem C68_line : forall tags l s, quick_display l tags = s <-> shown_line tags l s.
Proof. exact (fun tags l s => c68_line_iff tags l s). Qed.
Print Assumptions C68_line.
(** Pages are written one after another, each under its number. *)
Theorem C68_pages : forall tags ps s, show_pages tags ps = s <->
  exists rows, rows_of_pages tags (N.of_nat (List.length ps)) 1 ps rows /\ s = of_rows rows.
Proof. exact c68_pages. Qed.
Print Assumptions C68_pages.
(** The lines of an act are written under its name, subject and date. *)
Theorem C68_raw : forall tags r i, act_show (ar_id r) = Ok i -> (0 <= d_year (ar_date r) <= 9999)%Z -> (d_month (ar_date r) < 100)%N -> (d_day (ar_date r) < 100)%N ->
  exists d shown, iso_date (ar_date r) d /\ Forall2 (shown_line tags) (ar_body r) shown /\
    show_raw tags r = Ok (of_rows ([lit "Act ID: " ++ i ++ lit " - " ++ ar_subject r; lit "Pub date: " ++ d; []] ++ shown)).
Proof. exact c68_raw. Qed.
Print Assumptions C68_raw.
(** A line written with its marks is read back by the helper of the tests, at most two columns to the right. *)
Theorem C68_read_back : forall l n, testable (content l) -> column l n ->
  let l' := from_test_str (quick_display l true) in
  content l' = content l /\ l_bold l' = l_bold l /\ l_just l' = l_just l /\
  indent l' = (5 * unit_pt * (Z.of_nat (Nat.max n (List.length (marks true l))) + 2))%Z.
Proof. exact c68_read_back. Qed.
Print Assumptions C68_read_back.
Definition shifted (n : Z) (s : String.string) : line :=
  mkLine (match lit s with [] => [] | c :: r => mkPart (5 * unit_pt * n) c false :: map (fun c => mkPart 1 c false) r end) true false.
Example C68_ex :
  quick_display (shifted 4 "a) pont") false = lit "    a) pont" /\ quick_display (bl "Cím") true = lit "<BOLD><NJ>Cím" /\
  show_pages false [[shifted 2 "x"]; []] = of_rows [[]; lit "------- page 1/2 -------"; []; lit "  x"; []; lit "------- page 2/2 -------"; []] /\
  show_raw false (mkRaw (mkAct 2012 1) (lit "a próbáról") (mkDate 2012 1 9) [shifted 2 "x"]) =
    Ok (of_rows [lit "Act ID: 2012. évi I. törvény - a próbáról"; lit "Pub date: 2012-01-09"; []; lit "  x"]).
Proof. vm_compute. repeat split. Qed.
Example C68_read_back_ex : testable (content (shifted 4 "a) pont")) /\ column (shifted 4 "a) pont") 4.
Proof.
  split; [|right; vm_compute; split; [discriminate|reflexivity]].
  split; [discriminate|]. split; [intros t E; vm_compute in E; discriminate|]. split; [vm_compute; repeat split; intros [A B]; discriminate|].
  split; intros (a & b & E); assert (I : In 60%N (content (shifted 4 "a) pont"))) by (rewrite E; apply in_or_app; right; now left);
    vm_compute in I; repeat (destruct I as [I|I]; [discriminate|]); exact I.
Qed.

(** * C69 *)
(** The file shown in the editor, a row for every line: the number of quotes open at its end, and the line. *)
Theorem C69_file : forall ls, (Forall tidy ls -> exists rows, editor_file qc_default ls = Ok (of_rows rows) /\ editor_rows ls rows) /\
  (Exists (fun l => ~ tidy l) ls -> editor_file qc_default ls = Err).
Proof. exact (fun ls => conj (c69_file ls) (fun H => editor_file_fails ls H qc_default)). Qed.
Print Assumptions C69_file.
(** It is opened where the quotes go wrong. *)
Theorem C69_opened : forall ls, opened_at ls (open_at_line ls).
Proof. exact c69_place. Qed.
Print Assumptions C69_opened.
(** A session: everything after the first five bytes of a row is a new line, and fixups are made of the differences. *)
Theorem C69_session : forall edit st raw name fs rows, act_show (ar_id raw) = Ok name -> st (ar_id raw) = Ok fs -> Forall tidy (ar_body raw) -> left_rows rows ->
  (forall i shown, opened_at (ar_body raw) i -> editor_rows (ar_body raw) shown -> edit (S i) (of_rows shown) = Ok (left_file rows)) ->
  run_fixup_editor edit st raw =
    match update_fixups fs (editor_lines (ar_body raw)) (map (fun r => trim (snd r)) rows) with
    | Some (Ok fs') => Ok (store_set st (ar_id raw) fs')
    | Some Err => Err
    | _ => Panic
    end.
Proof. exact c69_session. Qed.
Print Assumptions C69_session.
(** Leaving the editor without a change changes nothing. *)
Theorem C69_untouched : forall st raw name fs, act_show (ar_id raw) = Ok name -> st (ar_id raw) = Ok fs -> Forall tidy (ar_body raw) ->
  (forall l, In l (ar_body raw) -> ~ In 10%N (content l)) ->
  (forall k, (k < List.length (ar_body raw))%nat -> (-10000 < quotes_at (ar_body raw) k < 100000)%Z) ->
  exists st', run_fixup_editor (fun _ file => Ok file) st raw = Ok st' /\ forall j, st' j = st j.
Proof. exact c69_untouched. Qed.
Print Assumptions C69_untouched.
(** After a session the act is read with the lines left in the editor; other acts are not affected. *)
Theorem C69_next_load : forall edit st raw raw' fs st' rows,
  st (ar_id raw) = Ok fs -> applies_to fs (ar_body raw) (ar_body raw') -> no_double_empty (ar_body raw') -> (forall l, In l (ar_body raw') -> trim (content l) = content l) ->
  ar_id raw' = ar_id raw -> left_rows rows ->
  (forall i shown, opened_at (ar_body raw') i -> editor_rows (ar_body raw') shown -> edit (S i) (of_rows shown) = Ok (left_file rows)) ->
  run_fixup_editor edit st raw' = Ok st' ->
  (forall j, j <> ar_id raw -> st' j = st j) /\
  exists fs' body, st' (ar_id raw) = Ok fs' /\ applies_to fs' (ar_body raw) body /\
    map content body = edited_lines (map content (ar_body raw')) (map (fun r => trim (snd r)) rows).
Proof. exact c69_next_load. Qed.
Print Assumptions C69_next_load.
Definition edit_raw : act_raw := mkRaw (mkAct 2012 1) (lit "a próbáról") default_date [ln "1. § Az „idézet"; ln "szövege”"; ln "és mas."].
Definition no_fixups : store := fun _ => Ok [].
Definition shown_rows : list str := [lit "   1 1. § Az „idézet"; lit "   0 szövege”"; lit "   0 és mas."].
Definition left_after : list (str * str) := [(lit "   1 ", lit "1. § Az „idézet"); (lit "   0 ", lit "szövege”"); (lit "   0 ", lit "és más.")].
Example C69_ex :
  editor_file qc_default (ar_body edit_raw) = Ok (of_rows shown_rows) /\ open_at_line (ar_body edit_raw) = 3%nat /\
  (match run_fixup_editor (fun _ _ => Ok (left_file left_after)) no_fixups edit_raw with
   | Ok st' => st' (mkAct 2012 1) = Ok [mkFixup [] (lit "és mas.") (lit "és más.") false] /\ st' (mkAct 2012 11) = Ok []
   | _ => False
   end) /\ left_rows left_after.
Proof.
  split; [vm_compute; reflexivity|]. split; [vm_compute; reflexivity|]. split; [vm_compute; repeat split|].
  do 3 (constructor; [split; [vm_compute; reflexivity|split; intros I; vm_compute in I; repeat (destruct I as [I|I]; [discriminate|]); exact I]|]). constructor.
Qed.
(** Removing all of a row, as the error for changed line numbers suggests, panics. *)
Theorem C69_empty_line_refuted : ~ (forall edit st raw, act_show (ar_id raw) <> Panic -> st (ar_id raw) <> Panic -> run_fixup_editor edit st raw <> Panic).
Proof.
  intros H. apply (H (fun _ _ => Ok (of_rows [lit "   1 1. § Az „idézet"; []; lit "   0 és mas."])) no_fixups edit_raw); [discriminate|discriminate|vm_compute; reflexivity].
Qed.
Print Assumptions C69_empty_line_refuted.

(** * C70 *)
(** What a run does unless it panics. The issues and the acts are those asked for (the first unknown one ends it
    before anything is done); issues are read in order, and in each every requested act is written to its own output, in
    their order; a failure stays with the act or the issue where it happened. The run is successful if all acts were. *)
Theorem C70_run : forall x g answers st st' h o, main x g answers st = Some (st', h, o) -> o <> Panic ->
  (st' = st /\ h = [] /\ o = Err /\ forall issues acts, ~ asked_for x (terminal_colors g) issues acts) \/
  exists issues acts rest fine, asked_for x (terminal_colors g) issues acts /\
    issues_did x (terminal_colors g) acts answers st issues rest st' h fine /\ o = (if fine then Ok tt else Err).
Proof. exact c70_run. Qed.
Print Assumptions C70_run.
(** Without questions it ends, and changes no fixups. *)
Theorem C70_alone : forall x g answers st, ag_interactive g = false ->
  main x g answers st <> None /\ forall st' h o, main x g answers st = Some (st', h, o) -> o <> Panic -> st' = st.
Proof.
  exact (fun x g answers st NI => conj (c70_ends x g answers st NI) (fun st' h o E P =>
    match c70_run x g answers st st' h o E P with
    | or_introl H => proj1 H
    | or_intror (ex_intro _ _ (ex_intro _ _ (ex_intro _ _ (ex_intro _ _ (conj _ (conj D _)))))) => proj2 (issues_did_alone x (terminal_colors g) _ _ _ _ _ _ _ _ NI D)
    end)).
Qed.
Print Assumptions C70_alone.
(** Everything written is the text of a requested act in an issue that was read, or nothing if the act failed; *)
Theorem C70_written : forall x g acts an st l an' st' h fine, issues_did x g acts an st l an' st' h fine -> ag_until g <> PdfLines ->
  forall t s, In (Wrote t s) h -> exists i pages raws raw name before an1 st1 an2 st2 ok, In i l /\ x_pages x i = Ok pages /\ parse_mk_pages (x_ud x) (x_rf x) pages = Ok raws /\
    In raw raws /\ requested acts raw /\ act_show (ar_id raw) = Ok name /\ output_to x g name before t /\ act_did x g an1 st1 raw an2 st2 s ok /\ (fine = true -> ok = true).
Proof. exact issues_did_written. Qed.
Print Assumptions C70_written.
(** all requested acts are written if all outputs can be made; *)
Theorem C70_all_written : forall x g acts an st l an' st' h fine, (forall p, x_creatable x p = true) -> issues_did x g acts an st l an' st' h fine ->
  forall i pages raws raw, In i l -> x_pages x i = Ok pages -> ag_until g <> PdfLines -> parse_mk_pages (x_ud x) (x_rf x) pages = Ok raws -> In raw raws -> requested acts raw ->
  exists name before t s, act_show (ar_id raw) = Ok name /\ output_to x g name before t /\ In (Wrote t s) h.
Proof. exact issues_did_all. Qed.
Print Assumptions C70_all_written.
(** different acts have different files. *)
Theorem C70_files : forall g dir a b na nb p, act_show a = Ok na -> act_show b = Ok nb -> file_of g dir na p -> file_of g dir nb p -> a = b.
Proof. exact c70_distinct. Qed.
Print Assumptions C70_files.
(** An act, also when interactive: the text is made with the fixups stored at the end. They are added to those there were,
    and no other act has its fixups changed. *)
Theorem C70_act : forall x g an st raw an' st' s ok, act_did x g an st raw an' st' s ok ->
  (exists used, an = used ++ an') /\ (forall j, j <> ar_id raw -> st' j = st j) /\
  (forall fs, st (ar_id raw) = Ok fs -> exists added, st' (ar_id raw) = Ok (fs ++ added)) /\
  (~ forced g -> if ok then text_of x g st' raw s else s = [] /\ forall t, ~ text_of x g st' raw t) /\
  (forced g -> ok = false).
Proof.
  exact (fun x g an st raw an' st' s ok D => match act_did_others x g an st raw an' st' s ok D with
    | conj A (conj B C) => conj A (conj B (conj C (conj (act_did_text x g an st raw an' st' s ok D) (act_did_forced x g an st raw an' st' s ok D)))) end).
Qed.
Print Assumptions C70_act.
(** No panic if every act given or found has a name and no act panics; *)
Theorem C70_no_panic : forall x g answers st, ag_interactive g = false ->
  x_records x <> Panic -> (forall i, x_pages x i <> Panic) -> (forall f d, x_serialize x f d <> Panic) ->
  (ag_mk g = false -> forall s a, In s (ag_ids g) -> act_parse (x_rf x) s = Ok a -> has_name a) ->
  (forall issues acts i pages raws raw, asked_for x (terminal_colors g) issues acts -> In i issues -> x_pages x i = Ok pages -> parse_mk_pages (x_ud x) (x_rf x) pages = Ok raws ->
     In raw raws -> has_name (ar_id raw) /\ (requested acts raw -> snd (process_single_act x (terminal_colors g) st raw) <> Panic)) ->
  forall st' h, main x g answers st <> Some (st', h, Panic).
Proof. exact c70_no_panic. Qed.
Print Assumptions C70_no_panic.
(** up to the lines of the acts none does. *)
Theorem C70_lines_no_panic : forall x g st raw, ag_until g = ActLines -> (forall f d, x_serialize x f d <> Panic) -> st (ar_id raw) <> Panic -> has_name (ar_id raw) ->
  snd (process_single_act x g st raw) <> Panic.
Proof. exact c70_lines_np. Qed.
Print Assumptions C70_lines_no_panic.
(** An issue with two acts *)
Definition signed : list line := [empty_line; ln "Dr. A s. k.,  Dr. B s. k.,"; ln "köztársasági elnök az Országgyűlés elnöke"].
Definition printed_act (title : String.string) (body : list line) : list line := [empty_line; bl title; bl "a próbáról*"] ++ body ++ signed.
Definition sample_pages : list (list line) :=
  [[bl "MAGYAR KÖZLÖNY 71. szám"; empty_line; ln "A MAGYAR KÖZTÁRSASÁG HIVATALOS LAPJA"; ln "2012. június 28., kedd"; ln "tartalom"];
   [bl "II. Törvények"] ++ printed_act "2012. évi I. törvény" [ln "1. § E törvény célja"; ln "a próba."] ++ [ln "x"] ++
   printed_act "2012. évi XI. törvény" [ln "1. § E törvény"; ln "hatályba lép."] ++ [bl "III. Kormányrendeletek"]].
Definition world : external := mkExternal rf0 (fun _ => true) is_digit (fun s _ => [s])
  (fun i => if (mk_issue_no i =? 71)%Z then Ok sample_pages else Err)
  (Ok [(lit "2012/71", lit "2012. évi I. törvény"); (lit "2012/72", lit "2012. évi XI. törvény")]) (fun _ _ => Err) (fun _ => true).
Definition call (ids : list String.string) (mk force ask : bool) : args :=
  mkArgs (map (fun s => lit s) ids) mk TestPlain StepSemantic ask force (Some (lit "out")) 100.
(** A fixup of the second act that cannot be applied *)
Definition bad_fixups : store := fun i => if act_eqb i (mkAct 2012 11) then Ok [mkFixup [] (lit "nincs ilyen") [] false] else Ok [].
Definition file1 : str := lit "out/2012. évi I. törvény.txt".
Definition file2 : str := lit "out/2012. évi XI. törvény.txt".
Definition text1 : str := of_rows (map (fun s => lit s) ["     2012. évi I. törvény a próbáról"; ""; "     "; ""; "     1. §           E törvény célja a próba."]%string).
Definition text2 : str := of_rows (map (fun s => lit s) ["     2012. évi XI. törvény a próbáról"; ""; "     "; ""; "     1. §           E törvény hatályba lép."]%string).
Definition result (r : option (store * list happening * outcome unit)) := match r with Some (_, h, o) => Some (h, o) | None => None end.
Example C70_ex :
  result (main world (call ["2012/71"%string] true false false) [] no_fixups) =
    Some ([Created file1; Wrote (Some file1) text1; Created file2; Wrote (Some file2) text2], Ok tt) /\
  result (main world (call ["2012. évi I. törvény"%string] false false false) [] no_fixups) = Some ([Created file1; Wrote (Some file1) text1], Ok tt) /\
  result (main world (call ["2012/71"%string] true false false) [] bad_fixups) =
    Some ([Created file1; Wrote (Some file1) text1; Created file2; Wrote (Some file2) []], Err) /\
  result (main world (call ["2012. évi II. törvény"%string] false false false) [] no_fixups) = Some ([], Err).
Proof. vm_compute. repeat split. Qed.
(** The exit status says nothing about issues that could not be read. *)
Theorem C70_exit_status_refuted : ~ (forall x g st st' h, main x g [] st = Some (st', h, Ok tt) -> ~ In IssueError h).
Proof.
  intros H. specialize (H world (call ["2012/70"%string] true false false) no_fixups no_fixups [IssueError]).
  apply H; [vm_compute; reflexivity|now left].
Qed.
Print Assumptions C70_exit_status_refuted.
(** Nor of acts that were asked for but are not in their issue. *)
Definition wrong_world : external := mkExternal rf0 (fun _ => true) is_digit (fun s _ => [s]) (x_pages world) (Ok [(lit "2012/71", lit "2012. évi I. törvény"); (lit "2012/71", lit "2013. évi I. törvény")])
  (fun _ _ => Err) (fun _ => true).
Theorem C70_missing_act_refuted : ~ (forall x g st st' h, main x g [] st = Some (st', h, Ok tt) -> ag_ids g <> [] -> h <> []).
Proof.
  intros H. specialize (H wrong_world (call ["2013. évi I. törvény"%string] false false false) no_fixups no_fixups []).
  apply H; [vm_compute; reflexivity|discriminate|reflexivity].
Qed.
Print Assumptions C70_missing_act_refuted.
(** The file of a failed act is left empty, whatever was in it before. *)
Theorem C70_empty_file_refuted : ~ (forall x g st st' h o p, main x g [] st = Some (st', h, o) -> In (Created p) h -> exists s, s <> [] /\ In (Wrote (Some p) s) h).
Proof.
  intros H. specialize (H world (call ["2012/71"%string] true false false) bad_fixups bad_fixups
    [Created file1; Wrote (Some file1) text1; Created file2; Wrote (Some file2) []] Err file2).
  destruct H as (s & N & I); [vm_compute; reflexivity|right; right; now left|].
  destruct I as [I|[I|[I|[I|[]]]]]; try discriminate I. injection I as <-. now apply N.
Qed.
Print Assumptions C70_empty_file_refuted.
(** When the editor is forced, the texts of all attempts are written after one another. *)
Theorem C70_forced_refuted : exists x ids an st p s, s <> [] /\
  result (main x (call ids false false true) an st) = Some ([Created p; Wrote (Some p) s], Ok tt) /\
  result (main x (call ids false true true) an st) = Some ([Created p; Wrote (Some p) (s ++ s)], Err).
Proof.
  exists world, ["2012. évi I. törvény"%string], [(Ok [], fun _ f => Ok f); (Ok (lit "n"), fun _ f => Ok f)], no_fixups, file1, text1.
  split; [discriminate|]. split; vm_compute; reflexivity.
Qed.
Print Assumptions C70_forced_refuted.
(** An interactive run: the person is asked, declines or agrees, and corrects the act in the editor. *)
Definition wrong_raw : act_raw := mkRaw (mkAct 2012 1) (lit "a próbáról") default_date [ln "1. § E törvény „célja"; ln "a próba."].
Definition correct : editor := fun _ _ => Ok (left_file [(lit "   0 ", lit "1. § E törvény célja"); (lit "   0 ", lit "a próba.")]).
Definition attempt (an : list answer) := match interactive world (call [] true false true) an no_fixups wrong_raw with
  | Some (rest, st, s, o) => Some (List.length rest, st (mkAct 2012 1), s, o) | None => None end.
Example C70_interactive_ex :
  attempt [(Ok (lit "no"), correct); (Ok [], correct)] = Some (1%nat, Ok [], [], Err) /\
  attempt [(Ok (lit "Yes"), correct)] =
    Some (0%nat, Ok [mkFixup [] (lit "1. § E törvény „célja") (lit "1. § E törvény célja") false], text1, Ok tt) /\
  attempt [] = None.
Proof. vm_compute. repeat split. Qed.
