(** C28-C32, C47, C49: the structure parser. *)
From Verif Require Import ProofStruct11 SpecIdent.
From Coq Require String.
Local Open Scope N_scope.

Definition tls (l : list String.string) : list line := map (fun s => from_test_str (lit s)) l.
(** Stand-ins for the external functions: a roman numeral reader and an upper case test *)
Definition rf1 (s : str) : option Z := if str_eqb s (lit "I") then Some 1%Z else if str_eqb s (lit "II") then Some 2%Z else None.
Definition up1 (c : char) : bool := ((65 <=? c) && (c <=? 90))%N.
Definition num (n : N) : numeric := mkNum n None.

(** * C28 *)
(** Everything below an article is consecutive: the paragraphs, and at each level below the points and
    subpoints; lists have at least two elements and start with the first identifier. *)
Theorem C28_article : forall ctx p a, ap_finish ctx p = Ok a -> ordered_article a.
Proof. exact (fun ctx p a H => proj1 (proj2 (proj2 (proj2 (ap_finish_inv ctx p a H))))). Qed.
Print Assumptions C28_article.
(** Every article of a parsed body is such, and the article identifiers follow one another. *)
Theorem C28_body : forall rf up ctx ls p cs, parse_complex_body rf up ctx ls = Ok (p, cs) ->
  (forall a, In (ChArticle a) cs -> ordered_article a) /\ chain article_succ (article_ids cs) /\
  (ctx = FullAct -> match article_ids cs with i :: _ => article_one i | [] => True end).
Proof. exact c28_body. Qed.
Print Assumptions C28_body.
Theorem C28_act : forall rf up raw a, parse_act_structure rf up raw = Ok a ->
  (forall x, In (ChArticle x) (ac_children a) -> ordered_article x) /\ chain article_succ (article_ids (ac_children a)) /\
  match article_ids (ac_children a) with i :: _ => article_one i | [] => True end.
Proof. exact c28_act. Qed.
Print Assumptions C28_act.
(** In a converted block amendment the list starts with the first identifier of the amended position. *)
Theorem C28_amendment : forall pos ls c, convert_simple pos ls = Ok c -> ba_ordered pos c.
Proof. exact convert_simple_ordered. Qed.
Print Assumptions C28_amendment.
(** Hence the identifiers are strictly increasing in legal order, without repetition. *)
Theorem C28_increasing_numbers : forall ids, consecutive num_one num_succ ids -> (N.of_nat (List.length ids) <= 65535)%N ->
  increasing numeric_before ids.
Proof. exact (fun ids H => num_increasing ids (proj2 H)). Qed.
Print Assumptions C28_increasing_numbers.
Theorem C28_increasing_paragraphs : forall ids, consecutive par_one par_succ ids -> (N.of_nat (List.length ids) <= 65535)%N ->
  increasing par_before ids.
Proof. exact (fun ids H => par_increasing ids (proj2 H)). Qed.
Print Assumptions C28_increasing_paragraphs.
Theorem C28_increasing_letters : forall ids, chain follows ids -> increasing before ids.
Proof. exact alpha_increasing. Qed.
Print Assumptions C28_increasing_letters.
Theorem C28_increasing_subpoints : forall ids, chain sub_succ ids -> increasing prefixed_before ids.
Proof. exact sub_increasing. Qed.
Print Assumptions C28_increasing_subpoints.
(** Without the bound of 65535 this fails: the numbers wrap around. An amendment may start anywhere. *)
Definition wrap_pos : reference :=
  mkRef None (Some (mkRange (mkArt None (num 1)) (mkArt None (num 1)))) None (Some (PtNum (mkRange (num 65535) (num 65535)))) None.
Theorem C28_increasing_refuted : exists pos ls l, convert_simple pos ls = Ok (BcNum l) /\ ~ increasing numeric_before (map s_id l).
Proof.
  exists wrap_pos, (tls ["65535. a"; "0. b"]%string). eexists. split; [vm_compute; reflexivity|]. cbn [map s_id].
  intros [S _]. inversion S as [|x l _ F]; subst. inversion F as [|x l H _]; subst. revert H. vm_compute. intuition discriminate.
Qed.
Print Assumptions C28_increasing_refuted.
Definition sample_lines : list line := tls
  ["(1) Az alábbiak";
   "    a) első";
   "        aa) tétel,";
   "        ab) tétel,";
   "    b) második";
   "        1. szám,";
   "        2. szám,";
   "    közös.";
   "(2) Valamint:";
   "    1. egyik:";
   "        a) tétel,";
   "        b) tétel,";
   "    2. másik."]%string.
Definition sample_article : article_parser := mkAP (mkArt None (num 7)) sample_lines.
Definition shape (a : article) : list (paragraph_id * list str) :=
  map (fun p => (s_id p, match s_body p with
    | BChildren _ (PcAlpha l) _ => map (fun x => hic_show (s_id x)) l
    | BChildren _ (PcNum l) _ => map (fun x => numeric_show (s_id x)) l
    | _ => [] end)) (ar_children a).
Example C28_article_ex : omap shape (ap_finish FullAct sample_article) =
  Ok [(Some (num 1), [lit "a"; lit "b"]); (Some (num 2), [lit "1"; lit "2"])].
Proof. vm_compute. reflexivity. Qed.
Definition sample_act : list line := tls
  ["Bevezető.";
   "";
   "I. Fejezet";
   "ALAPOK";
   "";
   "<BOLD>1. Cím rendje";
   "";
   "1. § [A cím]";
   "(1) Az alábbiak „idézet";
   "2. § nem új";
   "szakasz” és";
   "    a) első,";
   "    b) második.";
   "(2) Szöveg.";
   "2. § Szöveg."]%string.
Definition sample_raw : act_raw := mkRaw (mkAct 2020 1) (lit "a próbáról") default_date sample_act.
Example C28_act_ex : omap (fun a => (ac_preamble a, article_ids (ac_children a), List.length (ac_children a))) (parse_act_structure rf1 up1 sample_raw)
  = Ok (lit "Bevezető.", [mkArt None (num 1); mkArt None (num 2)], 4%nat).
Proof. vm_compute. reflexivity. Qed.
Definition sub_pos : reference :=
  mkRef None (Some (mkRange (mkArt None (num 1)) (mkArt None (num 1)))) None
    (Some (PtAlpha (mkRange (Latin (chr "b")) (Latin (chr "b")))))
    (Some (SpAlpha (mkRange (mkPre (Some (Latin (chr "b"))) (Latin (chr "c"))) (mkPre (Some (Latin (chr "b"))) (Latin (chr "d")))))).
Example C28_amendment_ex : omap (fun c => match c with BcAlphaSub l => map (fun x => prefixed_show (s_id x)) l | _ => [] end)
  (convert_simple sub_pos (tls ["bc) egy,"; "bd) kettő"]%string)) = Ok [lit "bc"; lit "bd"].
Proof. vm_compute. reflexivity. Qed.
Example C28_increasing_numbers_ex : consecutive num_one num_succ [num 1; mkNum 1 (Some (Latin (chr "a"))); num 2].
Proof.
  split; [cbn; lia|]. split; [|reflexivity].
  apply ch_cons; [left; now vm_compute|]. apply ch_cons; [left; now vm_compute|]. apply ch_one.
Qed.

(** * C29 *)
(** For each kind of list: the labels, intros, texts and wrap ups of the elements in order, then the wrap up
    of the list and the lines handed back, are the given lines, spaces apart. *)
Theorem C29_numeric_subpoints : forall ctx w c e ls r, extract_num_subpoints ctx w c e ls = Ok r ->
  exists m, list_text (elem_text num_label no_text) (em_elems r) m /\
    no_spaces (text ls) = m ++ no_spaces (opt_str (em_wrap r)) ++ no_spaces (text (em_rest r)).
Proof. exact c29_num_sub. Qed.
Print Assumptions C29_numeric_subpoints.
Theorem C29_alphabetic_subpoints : forall p ctx w c e ls r, extract_alpha_subpoints p ctx w c e ls = Ok r ->
  exists m, list_text (elem_text alpha_sub_label no_text) (em_elems r) m /\
    no_spaces (text ls) = m ++ no_spaces (opt_str (em_wrap r)) ++ no_spaces (text (em_rest r)).
Proof. exact c29_alpha_sub. Qed.
Print Assumptions C29_alphabetic_subpoints.
Theorem C29_numeric_points : forall ctx w c e ls r, extract_num_points ctx w c e ls = Ok r ->
  exists m, list_text (elem_text num_label num_children_text) (em_elems r) m /\
    no_spaces (text ls) = m ++ no_spaces (opt_str (em_wrap r)) ++ no_spaces (text (em_rest r)).
Proof. exact c29_num. Qed.
Print Assumptions C29_numeric_points.
Theorem C29_alphabetic_points : forall ctx w c e ls r, extract_alpha_points ctx w c e ls = Ok r ->
  exists m, list_text (elem_text alpha_label alpha_children_text) (em_elems r) m /\
    no_spaces (text ls) = m ++ no_spaces (opt_str (em_wrap r)) ++ no_spaces (text (em_rest r)).
Proof. exact c29_alpha. Qed.
Print Assumptions C29_alphabetic_points.
Theorem C29_paragraphs : forall ctx w c e ls r, extract_paragraphs ctx w c e ls = Ok r ->
  exists m, list_text (elem_text par_label par_children_text) (em_elems r) m /\
    no_spaces (text ls) = m ++ no_spaces (opt_str (em_wrap r)) ++ no_spaces (text (em_rest r)).
Proof. exact c29_par. Qed.
Print Assumptions C29_paragraphs.
(** An article: its title in brackets, then its paragraphs. *)
Theorem C29_article : forall ctx p a, ap_finish ctx p = Ok a -> article_body_text a (no_spaces (text (ap_lines p))).
Proof. exact c29_article. Qed.
Print Assumptions C29_article.
(** The labels are those of the input, not the printed ones: a label may be written in several ways. *)
Theorem C29_printed_labels_refuted : exists ls r, extract_num_points BlockAm true true None ls = Ok r /\
  Forall (fun e => exists t, s_body e = BText t) (em_elems r) /\
  no_spaces (text ls) <>
    List.concat (map (fun e => no_spaces (num_header (s_id e) ++ match s_body e with BText t => t | _ => [] end)) (em_elems r)).
Proof.
  exists (tls ["01. a"; "2. b"]%string). eexists. split; [vm_compute; reflexivity|]. split; [repeat constructor; eexists; reflexivity|].
  vm_compute. discriminate.
Qed.
Print Assumptions C29_printed_labels_refuted.
Definition texts {I C} (e : sae I C) : list str :=
  match s_body e with BText t => [t] | BChildren i _ w => [i; opt_str w] end.
Example C29_paragraphs_ex : omap (fun r => map texts (em_elems r)) (extract_paragraphs FullAct false true None sample_lines) =
  Ok [[lit "Az alábbiak"; lit "közös."]; [lit "Valamint:"; lit ""]].
Proof. vm_compute. reflexivity. Qed.
Example C29_alphabetic_points_ex : omap (fun r => (map texts (em_elems r), em_wrap r))
    (extract_alpha_points FullAct true true None (firstn 7 (skipn 1 sample_lines))) =
  Ok ([[lit "első"; lit ""]; [lit "második"; lit ""]], Some (lit "közös.")).
Proof. vm_compute. reflexivity. Qed.
Example C29_numeric_points_ex : omap (fun r => map texts (em_elems r))
    (extract_num_points FullAct true true None (skipn 9 sample_lines)) = Ok [[lit "egyik:"; lit ""]; [lit "másik."]].
Proof. vm_compute. reflexivity. Qed.
Example C29_numeric_subpoints_ex : omap (fun r => (map texts (em_elems r), em_wrap r))
    (extract_num_subpoints FullAct true true None (firstn 3 (skipn 5 sample_lines))) =
  Ok ([[lit "szám,"]; [lit "szám,"]], Some (lit "közös.")).
Proof. vm_compute. reflexivity. Qed.
Example C29_alphabetic_subpoints_ex : omap (fun r => map texts (em_elems r))
    (extract_alpha_subpoints (Some (Latin (chr "a"))) FullAct true true None (firstn 2 (skipn 2 sample_lines))) =
  Ok [[lit "tétel,"]; [lit "tétel,"]].
Proof. vm_compute. reflexivity. Qed.
Example C29_article_ex : omap (fun a => map texts (ar_children a)) (ap_finish FullAct sample_article) =
  Ok [[lit "Az alábbiak"; lit "közös."]; [lit "Valamint:"; lit ""]].
Proof. vm_compute. reflexivity. Qed.

(** * C30 *)
(** The lines are the preamble followed by the children, each on its own consecutive lines in order. *)
Theorem C30_lines : forall rf up ctx ls p cs, parse_complex_body rf up ctx ls = Ok (p, cs) ->
  exists pl body, ls = pl ++ body /\ p = join pl /\ balanced pl /\ lay_act rf cs body /\
    chain article_succ (article_ids cs) /\ (ctx = BlockAm -> p = []).
Proof. exact c30_body. Qed.
Print Assumptions C30_lines.
(** No text is lost either. *)
Theorem C30_text : forall rf up ctx ls p cs, parse_complex_body rf up ctx ls = Ok (p, cs) ->
  exists ts, Forall2 (act_child_text rf) cs ts /\ no_spaces (text ls) = no_spaces p ++ List.concat ts.
Proof. exact parse_complex_body_text. Qed.
Print Assumptions C30_text.
Definition child_shape (c : act_child) : str :=
  match c with
  | ChStruct e => se_title e | ChSubtitle s => st_title s
  | ChArticle a => opt_str (ar_title a) ++ lit "/" ++ List.concat (List.concat (map texts (ar_children a)))
  end.
Example C30_lines_ex : omap (fun r => (fst r, map child_shape (snd r))) (parse_complex_body rf1 up1 FullAct sample_act) =
  Ok (lit "Bevezető.", [lit "ALAPOK"; lit "Cím rendje"; lit "A cím/Az alábbiak „idézet 2. § nem új szakasz” ésSzöveg."; lit "/Szöveg."]).
Proof. vm_compute. reflexivity. Qed.

(** * C31 *)
(** Children of an act, and elements of any list, are only started where all quotes are closed. *)
Theorem C31_act : forall rf up ctx ls p cs, parse_complex_body rf up ctx ls = Ok (p, cs) ->
  exists pl body, ls = pl ++ body /\ balanced pl /\ balanced body /\ opened_outside_quotes (act_header rf) cs body.
Proof. exact c31_body. Qed.
Print Assumptions C31_act.
Theorem C31_paragraphs : forall ctx w c e ls r, extract_paragraphs ctx w c e ls = Ok r ->
  opened_outside_quotes (sibling_header par_label) (em_elems r) ls /\ balanced ls.
Proof. exact c31_par. Qed.
Print Assumptions C31_paragraphs.
Theorem C31_alphabetic_points : forall ctx w c e ls r, extract_alpha_points ctx w c e ls = Ok r ->
  opened_outside_quotes (sibling_header alpha_label) (em_elems r) ls /\ balanced ls.
Proof. exact c31_alpha. Qed.
Print Assumptions C31_alphabetic_points.
Theorem C31_numeric_points : forall ctx w c e ls r, extract_num_points ctx w c e ls = Ok r ->
  opened_outside_quotes (sibling_header num_label) (em_elems r) ls /\ balanced ls.
Proof. exact c31_num. Qed.
Print Assumptions C31_numeric_points.
Theorem C31_alphabetic_subpoints : forall p ctx w c e ls r, extract_alpha_subpoints p ctx w c e ls = Ok r ->
  opened_outside_quotes (sibling_header alpha_sub_label) (em_elems r) ls /\ balanced ls.
Proof. exact c31_alpha_sub. Qed.
Print Assumptions C31_alphabetic_subpoints.
Theorem C31_numeric_subpoints : forall ctx w c e ls r, extract_num_subpoints ctx w c e ls = Ok r ->
  opened_outside_quotes (sibling_header num_label) (em_elems r) ls /\ balanced ls.
Proof. exact c31_num_sub. Qed.
Print Assumptions C31_numeric_subpoints.
(** The text before the first child of a paragraph has its quotes closed as well, and so on below. *)
Theorem C31_paragraph_body : forall ctx id ls e g, parse_paragraph ctx KeepIt id ls = Ok (e, g) ->
  lay_body lay_par_children id (s_body e) [] ls.
Proof. exact c31_parts. Qed.
Print Assumptions C31_paragraph_body.
Definition quoted_lines : list line := tls
  ["(1) Egy „idézet"; "(2) nem új"; "2. § sem ez"; "bekezdés”."; "(2) Ez új."]%string.
Example C31_paragraphs_ex : omap (fun r => map texts (em_elems r)) (extract_paragraphs FullAct false true None quoted_lines) =
  Ok [[lit "Egy „idézet (2) nem új 2. § sem ez bekezdés”."]; [lit "Ez új."]].
Proof. vm_compute. reflexivity. Qed.
Example C31_paragraph_body_ex : omap (fun r => texts (fst r)) (parse_paragraph FullAct KeepIt (Some (num 1))
    (tls ["Az „idézett"; "a) nem pont"; "b) ez sem” és"; "a) egyik,"; "b) másik."]%string)) =
  Ok [lit "Az „idézett a) nem pont b) ez sem” és"; lit ""].
Proof. vm_compute. reflexivity. Qed.

(** * C32 *)
(** No panic if no line ends in a space and every line ending in a closing bracket is followed by a line
    with text that starts nothing new. *)
Theorem C32_no_panic : forall rf up ctx ls, Forall not_ending_in_space ls -> brackets_followed rf up ctx ls ->
  parse_complex_body rf up ctx ls <> Panic.
Proof. exact parse_complex_body_np. Qed.
Print Assumptions C32_no_panic.
(** In general it does panic: an article may consist of its title alone; *)
Theorem C32_title_only_refuted : exists raw, parse_act_structure rf1 up1 raw = Panic /\ Forall not_ending_in_space (ar_body raw).
Proof.
  exists (mkRaw (mkAct 2020 1) (lit "a próbáról") default_date (tls ["1. § [A cím]"]%string)).
  split; [vm_compute; reflexivity|]. constructor; [|constructor]. intros s E. apply (f_equal (@rev _)) in E.
  rewrite rev_app_distr in E. vm_compute in E. discriminate.
Qed.
Print Assumptions C32_title_only_refuted.
(** or have nothing after the title but one empty line; *)
Theorem C32_empty_after_title_refuted : exists raw, parse_act_structure rf1 up1 raw = Panic.
Proof.
  exists (mkRaw (mkAct 2020 1) (lit "a próbáról") default_date (tls ["1. § [A cím]"; ""]%string)). vm_compute. reflexivity.
Qed.
Print Assumptions C32_empty_after_title_refuted.
(** and a header may be followed by spaces alone. *)
Theorem C32_header_only_refuted : exists l, parse_act_structure rf1 up1 (mkRaw (mkAct 2020 1) [] default_date [l]) = Panic /\
  content l = lit "1. § ".
Proof. exists (mkLine (map (fun c => mkPart 1 c false) (lit "1. § ")) false false). split; vm_compute; reflexivity. Qed.
Print Assumptions C32_header_only_refuted.
Example C32_no_panic_ex : let ls := tls ["1. § [A cím]"; "Szöveg"]%string in
  Forall not_ending_in_space ls /\ brackets_followed rf1 up1 FullAct ls.
Proof.
  cbv zeta. split.
  - repeat constructor; intros s E; apply (f_equal (@rev _)) in E; rewrite rev_app_distr in E; vm_compute in E; discriminate.
  - intros a l b s E Es. destruct a as [|x [|y a]].
    + injection E as <- <-. eexists _, _. split; [reflexivity|]. split; [vm_compute; discriminate|].
      apply plain_line_by; [vm_compute; reflexivity|intros []; vm_compute; reflexivity|vm_compute; reflexivity].
    + injection E as <- <- <-. apply (f_equal (@rev _)) in Es. rewrite rev_app_distr in Es. vm_compute in Es. discriminate.
    + destruct a; discriminate.
Qed.

(** * C47 *)
(** A printed header is recognised, with the same type and identifier, unless it is a book or part with a suffix. *)
Theorem C47_round_trip : forall rf ty i h l, roman_from_reads rf -> numeric_ok i = true ->
  (ty = TBook \/ ty = TPart false -> n_suffix i = None) ->
  se_header ty i = Ok h -> content l = h -> first_se rf se_types l = Ok (Some (mkSP i [] ty)).
Proof. exact c47_round_trip. Qed.
Print Assumptions C47_round_trip.
(** These are the identifiers that have a header. *)
Theorem C47_printable : forall ty i, (exists h, se_header ty i = Ok h) <->
  match ty with
  | TPart true => n_suffix i = None /\ (1 <= n_num i <= 3)%N
  | TBook | TPart false => (n_num i <= 100)%N
  | _ => (1 <= n_num i <= 3999)%N
  end.
Proof. exact c47_printable. Qed.
Print Assumptions C47_printable.
(** Books and parts with a suffix print a header that is not recognised. *)
Theorem C47_suffixed_refuted : forall rf, exists i h h', numeric_ok i = true /\
  se_header TBook i = Ok h /\ first_se rf se_types (from_test_str h) = Ok None /\
  se_header (TPart false) i = Ok h' /\ first_se rf se_types (from_test_str h') = Ok None.
Proof.
  intros rf. exists (mkNum 1 (Some (Latin (chr "a")))). eexists _, _. split; [vm_compute; reflexivity|].
  split; [vm_compute; reflexivity|]. split; [vm_compute; reflexivity|]. split; [vm_compute; reflexivity|]. vm_compute; reflexivity.
Qed.
Print Assumptions C47_suffixed_refuted.
Example C47_round_trip_ex :
  (se_header TBook (num 6), se_header (TPart true) (num 2), se_header TTitle (num 14), se_header TChapter (mkNum 9 (Some (Latin (chr "b"))))) =
  (Ok (lit "HATODIK KÖNYV"), Ok (lit "KÜLÖNÖS RÉSZ"), Ok (lit "XIV. CÍM"), Ok (lit "IX/b. FEJEZET")).
Proof. vm_compute. reflexivity. Qed.

(** * C49 *)
(** Each block is a run of lines with balanced quotes that ends at the first line where the quotes are
    balanced and the last character is a closing quote; its lines are these without the enclosing quotes. *)
Theorem C49_blocks : forall prev ls r, extract_quoted prev ls = Ok r ->
  lay_quoted (em_elems r) (em_wrap r) ls /\ em_rest r = [].
Proof. exact c49_quoted. Qed.
Print Assumptions C49_blocks.
Theorem C49_text : forall prev ls r, extract_quoted prev ls = Ok r ->
  exists m, quoted_text (em_elems r) m /\ no_spaces (text ls) = m ++ no_spaces (opt_str (em_wrap r)).
Proof. exact c49_text. Qed.
Print Assumptions C49_text.
Theorem C49_inner_balanced : forall prev ls r, extract_quoted prev ls = Ok r -> Forall (fun q => balanced (qb_lines q)) (em_elems r).
Proof. exact c49_inner. Qed.
Print Assumptions C49_inner_balanced.
Definition quoted_sample : list line := tls
  ["(Bevezető)"; "„Külső"; "„belső” és"; "vége”"; ""; "„Másik”"; "(záró)"]%string.
Example C49_blocks_ex : omap (fun r => (map (fun q => (qb_intro q, map content (qb_lines q), qb_wrap q)) (em_elems r), em_wrap r))
    (extract_quoted (Some (from_test_str (lit "lép:"))) quoted_sample) =
  Ok ([(Some (lit "Bevezető"), [lit "Külső"; lit "„belső” és"; lit "vége"], None); (None, [lit "Másik"], Some (lit "záró"))], None).
Proof. vm_compute. reflexivity. Qed.
