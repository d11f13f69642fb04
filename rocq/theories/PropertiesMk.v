(** C27, C41, C42, C46: act extraction, Hungarian words and dates, gazette issues. *)
From Verif Require Import ProofMk3.

(** A line of text; bold or not. *)
Definition ln (s : String.string) : line := mkLine (map (fun c => mkPart 1 c false) (lit s)) false false.
Definition bl (s : String.string) : line := mkLine (map (fun c => mkPart 1 c true) (lit s)) false true.
Definition rf0 (s : str) : option Z := if str_eqb s (lit "I") then Some 1%Z else if str_eqb s (lit "XI") then Some 11%Z else None.

(** * C27 *)
(** One act per block, in order, with exactly the body lines; everything else is dropped. *)
Theorem C27_extracts_blocks : forall rf d ls acts, act_blocks rf d ls acts ->
  e_result (feed_lines rf (ext_new d) ls) = acts.
Proof. exact (fun rf d ls acts H => run_blocks rf d ls acts H []). Qed.
Print Assumptions C27_extracts_blocks.
(** The pages of an issue: the acts of the acts section, with double empty lines removed. *)
Theorem C27_issue : forall ud rf p0 p1 pages d m acts,
  cover_page ud p0 = Ok d -> section_lines (page_stream (p0 :: p1 :: pages)) m -> act_blocks rf d m acts ->
  exists result, parse_mk_pages ud rf (p0 :: p1 :: pages) = Ok result /\
    Forall2 (fun r a => ar_id r = ar_id a /\ ar_subject r = ar_subject a /\ ar_date r = d /\
               no_double_empty (ar_body r) /\ collapsed (ar_body a) (ar_body r)) result acts.
Proof. exact c27_issue. Qed.
Print Assumptions C27_issue.
(** On any input whatsoever, the bodies are fed lines in their order: nothing is invented or reordered. *)
Theorem C27_bodies_are_fed_lines : forall rf d ls,
  subseq (flat_map ar_body (e_result (feed_lines rf (ext_new d) ls))) ls.
Proof. exact c27_bodies. Qed.
Print Assumptions C27_bodies_are_fed_lines.
Definition act1 (star : list line) : list line :=
  [ln "rubbish"; empty_line; bl "2012. évi I. törvény"; bl "a próbáról"; bl "és másról*"; ln "1. §"; ln "Szöveg"] ++ star ++
  [ln "2. §"; empty_line; ln "Dr. A s. k.,  Dr. B s. k.,"; ln "köztársasági elnök az Országgyűlés elnöke"].
Example C27_extracts_blocks_ex :
  act_blocks rf0 default_date (act1 [] ++ act1 [empty_line; ln "* Footer."; empty_line] ++ [empty_line; ln "end"])
    [mkRaw (mkAct 2012 1) (lit "a próbáról és másról") default_date [ln "1. §"; ln "Szöveg"; ln "2. §"];
     mkRaw (mkAct 2012 1) (lit "a próbáról és másról") default_date [ln "1. §"; ln "Szöveg"; empty_line; ln "2. §"]].
Proof.
  assert (Hns : noise rf0 [ln "rubbish"]).
  { split; [intros l [<-|[]]; vm_compute; reflexivity|]. intros p l E. destruct p as [|? [|? ?]]; try discriminate E. injection E as <-. discriminate. }
  assert (Hs : subject_lines [bl "a próbáról"; bl "és másról*"] (lit "a próbáról és másról")).
  { split; [discriminate|]. split; [vm_compute; reflexivity|]. intros p N (x & r & E) t.
    destruct p as [|y p]; [congruence|]. cbn in E. injection E as <- E. destruct p as [|z p].
    - intros K. apply (f_equal (@rev _)) in K. rewrite rev_app_distr in K. vm_compute in K. discriminate.
    - cbn in E. injection E as <- E. destruct p; discriminate. }
  apply (blocks_cons _ _ (act1 [])).
  - apply (block _ _ [ln "rubbish"] empty_line (bl "2012. évi I. törvény") (mkAct 2012 1) [bl "a próbáról"; bl "és másról*"]);
      [exact Hns|reflexivity|vm_compute; reflexivity|exact Hs|].
    apply (body_plain [ln "1. §"; ln "Szöveg"; ln "2. §"]); [cbn; lia|reflexivity|now left| |].
    + apply footer_check. vm_compute. reflexivity.
    + apply signed_check'. vm_compute. reflexivity.
  - apply (blocks_cons _ _ (act1 [empty_line; ln "* Footer."; empty_line])).
    + apply (block _ _ [ln "rubbish"] empty_line (bl "2012. évi I. törvény") (mkAct 2012 1) [bl "a próbáról"; bl "és másról*"]);
        [exact Hns|reflexivity|vm_compute; reflexivity|exact Hs|].
      apply (body_footer [ln "1. §"; ln "Szöveg"] empty_line (ln "* Footer.") empty_line
              [ln "2. §"; empty_line; ln "Dr. A s. k.,  Dr. B s. k.,"; ln "köztársasági elnök az Országgyűlés elnöke"] _
              empty_line (ln "Dr. A s. k.,  Dr. B s. k.,") (ln "köztársasági elnök az Országgyűlés elnöke"));
        [cbn; lia|reflexivity|reflexivity|exists (lit " Footer."); reflexivity| | |discriminate|reflexivity|cbn; lia|reflexivity|now left|].
      * apply footer_check'. vm_compute. reflexivity.
      * apply signed_check'. vm_compute. reflexivity.
      * intros p _ (x & r & E). apply signed_check' with
          (ls := [ln "1. §"; ln "Szöveg"; empty_line; ln "2. §"; empty_line; ln "Dr. A s. k.,  Dr. B s. k.,"; ln "köztársasági elnök az Országgyűlés elnöke"]);
          [vm_compute; reflexivity|]. exists x, r. cbn [app] in E |- *. do 3 f_equal. exact E.
    + apply blocks_nil. intros l [<-|[<-|[]]]; vm_compute; reflexivity.
Qed.
Example C27_issue_ex :
  parse_mk_pages is_digit rf0
    [[bl "MAGYAR KÖZLÖNY 71. szám"; empty_line; ln "A MAGYAR KÖZTÁRSASÁG HIVATALOS LAPJA"; ln "2012. június 28., kedd"; ln "tartalom"];
     [bl "II. Törvények"] ++ act1 []; act1 [empty_line; ln "* Footer."; empty_line] ++ [bl "III. Kormányrendeletek"]; act1 []] =
  Ok [mkRaw (mkAct 2012 1) (lit "a próbáról és másról") (mkDate 2012 6 28) [ln "1. §"; ln "Szöveg"; ln "2. §"];
      mkRaw (mkAct 2012 1) (lit "a próbáról és másról") (mkDate 2012 6 28) [ln "1. §"; ln "Szöveg"; empty_line; ln "2. §"]].
Proof. vm_compute. reflexivity. Qed.
(** The texts the block shape is built from. *)
Theorem C27_delimiters : forall l,
  (In (content l) sign_lines <-> signature (content l)) /\
  (is_sign l = true <-> signature (content l)) /\
  (is_section_start l = true <-> l_bold l = true /\ content l = lit "II. Törvények") /\
  (is_section_end l = true <-> l_bold l = true /\ section_heading (content l)) /\
  (forall s, has_act_title s = true <-> titled s).
Proof.
  exact (fun l => conj (iff_trans (iff_sym (is_sign_spec l)) (c27_signature l)) (conj (c27_signature l)
    (conj (c27_section_start l) (conj (c27_section_end l) c27_title)))).
Qed.
Print Assumptions C27_delimiters.
Theorem C27_header : forall s y n, match_act_header s = Some (y, n) <-> header_text s y n.
Proof. exact c27_header. Qed.
Print Assumptions C27_header.
Theorem C27_header_id : forall rf l id, act_header rf l = Some id <->
  exists y n k, header_text (content l) y n /\ parse_i16 y = Ok (act_year id) /\ rf n = Some k /\ k = act_number id.
Proof. exact c27_header_id. Qed.
Print Assumptions C27_header_id.
Theorem C27_cover_page : forall ud page,
  (forall d, cover_page ud page = Ok d <->
     exists l0 l1 l2 l3 rest, page = l0 :: l1 :: l2 :: l3 :: rest /\ begins (lit "MAGYAR KÖZLÖNY") (content l0) /\
       date_from_hungarian ud (content l3) = Ok d) /\ cover_page ud page <> Panic.
Proof. exact (fun ud page => conj (c27_cover ud page) (c27_cover_total ud page)). Qed.
Print Assumptions C27_cover_page.
Example C27_header_ex : match_act_header (lit "2012. évi XLI. törvény a próbáról") = Some (lit "2012", lit "XLI") /\
  match_act_header (lit "2112. évi XLI. törvény") = None /\ has_act_title (lit "1. A 2012. évi C. törvény") = true /\
  cover_page is_digit [bl "KÖZLÖNY"; empty_line; empty_line; ln "2012. június 28., kedd"] = Err /\
  is_section_end (bl "VII. A Kúria határozatai (1)") = true /\ is_section_end (ln "VII. A Kúria határozatai") = false.
Proof. vm_compute. repeat split. Qed.
(** The block shape demands that the line before the separating empty line is not empty: after two
    empty lines the header is missed and the act is lost. *)
Theorem C27_double_empty_refuted : exists rf d ns e h subj subject x b id,
  (forall l, In l ns -> act_header rf l = None) /\ empty e /\ act_header rf h = Some id /\ subject_lines subj subject /\
  body_lines x b /\ e_result (feed_lines rf (ext_new d) (ns ++ [e; h] ++ subj ++ x)) = [].
Proof.
  exists rf0, default_date, [empty_line], empty_line, (bl "2012. évi I. törvény"), [bl "a próbáról*"], (lit "a próbáról"),
    [ln "1. §"; ln "Szöveg"; empty_line; ln "Dr. A s. k.,  Dr. B s. k.,"; ln "köztársasági elnök az Országgyűlés elnöke"],
    [ln "1. §"; ln "Szöveg"], (mkAct 2012 1).
  split; [intros l [<-|[]]; vm_compute; reflexivity|]. split; [reflexivity|]. split; [vm_compute; reflexivity|].
  split; [|split; [|vm_compute; reflexivity]].
  - split; [discriminate|]. split; [vm_compute; reflexivity|]. intros p N (x & r & E) t.
    destruct p as [|y [|z p]]; [congruence|cbn in E; discriminate E|cbn in E; discriminate E].
  - apply (body_plain [ln "1. §"; ln "Szöveg"]); [cbn; lia|reflexivity|now left| |].
    + apply footer_check. vm_compute. reflexivity.
    + apply signed_check'. vm_compute. reflexivity.
Qed.
Print Assumptions C27_double_empty_refuted.

(** * C41 *)
Theorem C41_range : forall n, (exists w, num_to_hungarian n = Ok w) <-> (n <= 100)%N.
Proof. exact to_hungarian_range. Qed.
Print Assumptions C41_range.
(** The words themselves. *)
Theorem C41_words : forall n, num_to_hungarian n = ok_or (nth_error (map lit ordinal_words) (N.to_nat n)).
Proof. exact c41_words. Qed.
Print Assumptions C41_words.
Theorem C41_round_trip : forall n w, num_to_hungarian n = Ok w ->
  num_from_hungarian w = Ok n /\ num_from_hungarian (to_uppercase w) = Ok n /\ num_from_hungarian (capitalize w) = Ok n.
Proof. exact c41_roundtrip. Qed.
Print Assumptions C41_round_trip.
Theorem C41_injective : forall n m w, num_to_hungarian n = Ok w -> num_to_hungarian m = Ok w -> n = m.
Proof. exact c41_injective. Qed.
Print Assumptions C41_injective.
(** Every other string is rejected. *)
Theorem C41_accepts_only : forall s n, num_from_hungarian s = Ok n ->
  exists w, num_to_hungarian n = Ok w /\ (s = w \/ s = to_uppercase w \/ s = capitalize w).
Proof. exact c41_accepts. Qed.
Print Assumptions C41_accepts_only.
Theorem C41_never_panics : (forall s, num_from_hungarian s <> Panic) /\ (forall n, num_to_hungarian n <> Panic).
Proof. exact (conj (fun s => proj1 (from_hungarian_not_panic s)) (proj2 (from_hungarian_not_panic []))). Qed.
Print Assumptions C41_never_panics.
Example C41_ex : num_to_hungarian 42 = Ok (lit "negyvenkettedik") /\ num_from_hungarian (lit "NEGYVENKETTEDIK") = Ok 42%N /\
  num_to_hungarian 1 = Ok (lit "első") /\ num_from_hungarian (lit "Ötödik") = Ok 5%N /\ num_from_hungarian (lit "egyedik") = Err /\
  num_to_hungarian 101 = Err.
Proof. vm_compute. repeat split. Qed.

(** * C42 *)
Theorem C42_reads_written_date : forall ud y m d rest, digit_class ud -> (0 <= y <= 9999)%Z -> valid_date y m d ->
  date_from_hungarian ud (year4 y ++ lit ". " ++ month_name m ++ lit " " ++ show_N d ++ lit "." ++ rest) = Ok (mkDate y m d).
Proof. exact c42_written. Qed.
Print Assumptions C42_reads_written_date.
(** Exactly which strings are accepted, and as which date. *)
Theorem C42_accepts_iff : forall ud s dt, digit_class ud -> (date_from_hungarian ud s = Ok dt <-> dated ud s dt).
Proof. exact (fun ud s dt D => conj (c42_accepts_only ud s dt D) (c42_accepts ud s dt D)). Qed.
Print Assumptions C42_accepts_iff.
Theorem C42_never_panics : forall ud s, date_from_hungarian ud s <> Panic.
Proof. exact date_not_panic. Qed.
Print Assumptions C42_never_panics.
Example C42_ex : digit_class is_digit /\ valid_date 2012 2 29 /\
  date_from_hungarian is_digit (lit "2012. február 29., szerda") = Ok (mkDate 2012 2 29) /\
  date_from_hungarian is_digit (lit "2011. február 29., kedd") = Err.
Proof.
  split; [intros c _; reflexivity|]. split; [|vm_compute; split; reflexivity].
  exists 29%N. split; [|lia]. split; [reflexivity|]. intros H. exfalso. apply H. left. split; [exists 503%Z; reflexivity|intros [k K]; lia].
Qed.
(** The claim fails without the final dot: "28" is read as day 2, and the dots may be any character. *)
Theorem C42_missing_dot_refuted :
  date_from_hungarian is_digit (lit "2011. június 28") = Ok (mkDate 2011 6 2) /\
  date_from_hungarian is_digit (lit "2011x június 2y") = Ok (mkDate 2011 6 2).
Proof. vm_compute. split; reflexivity. Qed.
Print Assumptions C42_missing_dot_refuted.

(** * C46 *)
Theorem C46_parse_iff : forall s i, mk_parse s = Ok i <->
  exists a b, s = a ++ lit "/" ++ b /\ ~ In (chr "/") a /\ ~ In (chr "/") b /\
    parse_i64 a = Ok (mk_year i) /\ parse_i64 b = Ok (mk_issue_no i).
Proof. exact c46_parse. Qed.
Print Assumptions C46_parse_iff.
Theorem C46_parse_round_trip : forall i, (i64_min <= mk_year i <= i64_max)%Z -> (i64_min <= mk_issue_no i <= i64_max)%Z ->
  mk_parse (show_Z (mk_year i) ++ lit "/" ++ show_Z (mk_issue_no i)) = Ok i.
Proof. exact c46_roundtrip. Qed.
Print Assumptions C46_parse_round_trip.
Theorem C46_cache_key_injective : forall i j, cache_key i = cache_key j -> i = j.
Proof. exact c46_cache_key. Qed.
Print Assumptions C46_cache_key_injective.
Theorem C46_url_injective : forall i j, (0 <= mk_year i)%Z -> (0 <= mk_year j)%Z -> (mk_year i / 100 = mk_year j / 100)%Z ->
  (0 <= mk_issue_no i)%Z -> (0 <= mk_issue_no j)%Z -> mk_url i = mk_url j -> i = j.
Proof. exact c46_url. Qed.
Print Assumptions C46_url_injective.
Theorem C46_url_centuries_refuted : exists i j, i <> j /\ mk_url i = mk_url j.
Proof. exists (mkIssue 1912 1), (mkIssue 2012 1). split; [discriminate|vm_compute; reflexivity]. Qed.
Print Assumptions C46_url_centuries_refuted.
(** The issues to download for a list of acts: sorted, without repetition, exactly the issues of the acts;
    otherwise the first unknown act decides: an error, or a panic if it has no name. *)
Theorem C46_get_issues : forall records acts,
  (forall r, get_issues records acts = Ok r ->
     increasing r /\ (forall a, In a acts -> exists i, issue_of records a i) /\
     forall i, In i r <-> exists a, In a acts /\ issue_of records a i) /\
  (get_issues records acts = Err <-> exists a, first_unknown records acts a /\ has_name a) /\
  (get_issues records acts = Panic <-> exists a, first_unknown records acts a /\ ~ has_name a).
Proof. exact get_issues_spec. Qed.
Print Assumptions C46_get_issues.
Example C46_ex : mk_parse (lit "2012/131") = Ok (mkIssue 2012 131) /\ mk_parse (lit "2012/1/2") = Err /\
  mk_url (mkIssue 2012 31) = lit "http://www.kozlonyok.hu/nkonline/MKPDF/hiteles/MK12031.pdf" /\
  get_issues [(mkIssue 2012 5, mkAct 2012 1); (mkIssue 2011 9, mkAct 2011 3); (mkIssue 2012 5, mkAct 2012 2)]
    [mkAct 2012 1; mkAct 2011 3; mkAct 2012 2] = Ok [mkIssue 2011 9; mkIssue 2012 5].
Proof. vm_compute. repeat split. Qed.
(** An unknown act given with a number over 3999 is a panic, not an error. *)
Theorem C46_unknown_act_refuted : exists rf s a, act_parse rf s = Ok a /\ forall records, (forall i, ~ issue_of records a i) -> get_issues records [a] = Panic.
Proof.
  exists (fun _ => None), (lit "2012/5000"), (mkAct 2012 5000). split; [vm_compute; reflexivity|]. intros records N.
  apply get_issues_spec. exists (mkAct 2012 5000). split; [exists [], []; repeat split; [intros b []|exact N]|]. unfold has_name. cbn. intros [_ H]. now apply H.
Qed.
Print Assumptions C46_unknown_act_refuted.
