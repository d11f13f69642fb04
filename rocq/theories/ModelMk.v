(** Model of src/util/hun_str.rs, build.rs, src/mk_downloader.rs, src/parser/mk_act_section.rs and
    the issue lookup of src/bin/hun_law/main.rs.

    External code: [chrono::NaiveDate] is a (year, month, day) triple with the proleptic Gregorian
    validity rule; [roman::from] is the argument [rf]; the regex class [\d] (Unicode decimal digit)
    is the argument [ud]. *)
From Verif Require Export ModelIdent ModelText.

(** ** build.rs: the generated tables *)
(** build.rs:32-37 the special values *)
Definition hun_special (n : nat) : option str :=
  match n with
  | 1 => Some (lit "első") | 2 => Some (lit "második") | 10 => Some (lit "tizedik")
  | 20 => Some (lit "huszadik") | 30 => Some (lit "harmincadik") | 40 => Some (lit "negyvenedik")
  | 50 => Some (lit "ötvenedik") | 60 => Some (lit "hatvanadik") | 70 => Some (lit "hetvenedik")
  | 80 => Some (lit "nyolcvanadik") | 90 => Some (lit "kilencvenedik") | 100 => Some (lit "századik")
  | _ => None
  end%nat.
(** build.rs:48-71 ones_digit, tens_digit *)
Definition hun_ones : list str :=
  map lit ["nulladik"; "egyedik"; "kettedik"; "harmadik"; "negyedik"; "ötödik"; "hatodik"; "hetedik";
           "nyolcadik"; "kilencedik"]%string.
Definition hun_tens : list str :=
  map lit [""; "tizen"; "huszon"; "harminc"; "negyven"; "ötven"; "hatvan"; "hetven"; "nyolcvan";
           "kilencven"]%string.
(** build.rs:72-85 the double loop of generate_hun_strs *)
Definition hun_word (tens ones : nat) : str :=
  match hun_special (tens * 10 + ones) with
  | Some t => t
  | None => nth tens hun_tens [] ++ nth ones hun_ones []
  end.
Definition hun_strs : list str :=
  flat_map (fun t => map (hun_word t) (seq 0 10)) (seq 0 10) ++ [lit "századik"].
(** [str::to_uppercase] restricted to the letters that occur in the table: ASCII and á é í ó ö ő ú ü ű. *)
Definition hun_upper (c : char) : char :=
  if ((97 <=? c) && (c <=? 122))%N then (c - 32)%N
  else if ((224 <=? c) && (c <=? 252) && negb (c =? 247))%N then (c - 32)%N
  else if ((c =? 337) || (c =? 369))%N then (c - 1)%N
  else c.
Definition to_uppercase (s : str) : str := map hun_upper s.
(** build.rs:24-30 capitalize *)
Definition capitalize (s : str) : str := match s with [] => [] | c :: s' => hun_upper c :: s' end.
(** build.rs:90-104 the map entries, in insertion order *)
Definition hun_entries : list (str * N) :=
  flat_map (fun p => [(fst p, snd p); (to_uppercase (fst p), snd p); (capitalize (fst p), snd p)])
    (combine hun_strs (map N.of_nat (seq 0 101))).
(** [phf::Map::get]: the entry with that key (phf_codegen refuses duplicate keys). *)
Fixpoint assoc {A} (k : str) (l : list (str * A)) : option A :=
  match l with [] => None | (k', v) :: l' => if str_eqb k k' then Some v else assoc k l' end.
(** src/util/hun_str.rs:49-70 from_hungarian / to_hungarian for u8 and u16. *)
Definition num_from_hungarian (s : str) : outcome N := ok_or (assoc s hun_entries).
Definition num_to_hungarian (n : N) : outcome str := ok_or (nth_error hun_strs (N.to_nat n)).

(** src/util/hun_str.rs:75-91 text_to_month_hun *)
Definition hun_months : list str :=
  map lit ["január"; "február"; "március"; "április"; "május"; "június"; "július"; "augusztus";
           "szeptember"; "október"; "november"; "december"]%string.
Definition month_from_hungarian (s : str) : outcome N :=
  match position (str_eqb s) hun_months with Some k => Ok (N.of_nat (S k)) | None => Err end.

(** ** Dates (external: chrono) *)
Record date := mkDate { d_year : Z; d_month : N; d_day : N }.
Definition is_leap (y : Z) : bool := ((y mod 4 =? 0) && (negb (y mod 100 =? 0) || (y mod 400 =? 0)))%Z.
Definition days_in_month (y : Z) (m : N) : N :=
  (if (m =? 2) then (if is_leap y then 29 else 28)
   else if (m =? 4) || (m =? 6) || (m =? 9) || (m =? 11) then 30 else 31)%N.
(** [NaiveDate::from_ymd_opt]; years are limited to -262144 ..= 262143. *)
Definition from_ymd (y : Z) (m d : N) : option date :=
  if ((-262144 <=? y) && (y <=? 262143))%Z && ((1 <=? m) && (m <=? 12) && (1 <=? d) && (d <=? days_in_month y m))%N
  then Some (mkDate y m d) else None.
Definition default_date : date := mkDate 1970 1 1.

(** [.] of a regex: any character but a line feed *)
Definition any_char (c : char) : bool := negb (c =? 10)%N.
Definition parse_u32 := parse_unsigned 4294967295.

(** src/util/hun_str.rs:32-34, the regex [^(\d{4}). ([^ ]+) (\d{1,2}).]: year, month and day groups.
    [\d{1,2}] is greedy, and gives back a digit if nothing follows. *)
Definition match_date (ud : char -> bool) (s : str) : option (str * str * str) :=
  match s with
  | a :: b :: c :: d :: p :: sp :: rest =>
      if ud a && ud b && ud c && ud d && any_char p && (sp =? 32)%N then
        let '(month, rest) := span (fun c => negb (c =? 32)%N) rest in
        if is_empty month then None
        else match rest with
             | _ :: e :: f :: rest' =>
                 if ud e then
                   match rest' with
                   | g :: _ => if ud f && any_char g then Some ([a; b; c; d], month, [e; f])
                               else if any_char f then Some ([a; b; c; d], month, [e]) else None
                   | [] => if any_char f then Some ([a; b; c; d], month, [e]) else None
                   end
                 else None
             | _ => None
             end
      else None
  | _ => None
  end.
(** src/util/hun_str.rs:29-45 NaiveDate::from_hungarian *)
Definition date_from_hungarian (ud : char -> bool) (s : str) : outcome date :=
  match match_date ud s with
  | None => Err
  | Some (y, m, d) =>
      let* y := parse_i32 y in
      let* m := month_from_hungarian m in
      let* d := parse_u32 d in
      ok_or (from_ymd y m d)
  end.

(** ** src/mk_downloader.rs *)
(** mk_downloader.rs:26-30 MkIssue *)
Record mk_issue := mkIssue { mk_year : Z; mk_issue_no : Z }.
(** mk_downloader.rs:40-42 cache_key *)
Definition cache_key (i : mk_issue) : str :=
  lit "MK/" ++ show_Z (mk_year i) ++ lit "/" ++ show_Z (mk_issue_no i) ++ lit ".pdf".
(** [{:0w}] for a signed integer: zeros after the sign up to the total width *)
Definition pad_Z (w : nat) (z : Z) : str :=
  let digits := show_N (Z.to_N (Z.abs z)) in
  let sign := if (z <? 0)%Z then [45%N] else [] in
  sign ++ repeat 48%N (w - List.length sign - List.length digits) ++ digits.
(** mk_downloader.rs:44-50 url; [%] truncates towards zero *)
Definition mk_url (i : mk_issue) : str :=
  lit "http://www.kozlonyok.hu/nkonline/MKPDF/hiteles/MK" ++ pad_Z 2 (Z.rem (mk_year i) 100) ++
  pad_Z 3 (mk_issue_no i) ++ lit ".pdf".
(** mk_downloader.rs:53-66 from_str *)
Definition mk_parse (s : str) : outcome mk_issue :=
  match split_on (chr "/") s with
  | [y; n] => let* y := parse_i64 y in let* n := parse_i64 n in Ok (mkIssue y n)
  | _ => Err
  end.
(** derived [Ord] of MkIssue (year, then issue) *)
Definition mk_cmp (a b : mk_issue) : comparison :=
  lex (Z.compare (mk_year a) (mk_year b)) (Z.compare (mk_issue_no a) (mk_issue_no b)).
(** [BTreeSet::insert] *)
Fixpoint set_insert (x : mk_issue) (s : list mk_issue) : list mk_issue :=
  match s with
  | [] => [x]
  | y :: s' => match mk_cmp x y with Lt => x :: s | Eq => s | Gt => y :: set_insert x s' end
  end.
(** src/bin/hun_law/main.rs:210-225 get_issues for act ids: [records] are the rows of the CSV file. The text of the
    error contains the act, so it panics for acts that cannot be displayed. *)
Fixpoint find_issue (records : list (mk_issue * act_id)) (a : act_id) : option mk_issue :=
  match records with
  | [] => None
  | (i, b) :: r => if act_eqb b a then Some i else find_issue r a
  end.
Fixpoint get_issues_loop (records : list (mk_issue * act_id)) (acts : list act_id) (s : list mk_issue)
  : outcome (list mk_issue) :=
  match acts with
  | [] => Ok s
  | a :: acts' =>
      match find_issue records a with
      | Some i => get_issues_loop records acts' (set_insert i s)
      | None => let* _ := act_show a in Err
      end
  end.
Definition get_issues (records : list (mk_issue * act_id)) (acts : list act_id) : outcome (list mk_issue) :=
  get_issues_loop records acts [].

(** ** src/parser/mk_act_section.rs *)
(** mk_act_section.rs:27-33 ActRawText; [remove_double_empty_lines] is in ModelText. *)
Record act_raw := mkRaw { ar_id : act_id; ar_subject : str; ar_date : date; ar_body : list line }.
Definition default_raw : act_raw := mkRaw (mkAct 0 0) [] default_date [].

(** mk_act_section.rs:55-62 ActExtractionState *)
Inductive ext_state := WaitNewline | WaitHeader | InSubject | BodyBefore | BodyAfter.
(** mk_act_section.rs:48-53 ActExtractor *)
Record extractor := mkExt { e_date : date; e_cur : act_raw; e_result : list act_raw; e_state : ext_state }.
(** mk_act_section.rs:66-73 new *)
Definition ext_new (d : date) : extractor := mkExt d default_raw [] WaitNewline.

(** [[IVXLC]+. törvény]: the longest run of roman digits which leaves one more character and
    " törvény". Returns the run. *)
Definition is_act_roman (c : char) : bool := existsb (N.eqb c) (lit "IVXLC").
Definition torveny : str := lit " törvény".
Fixpoint roman_run (k : nat) (s : str) : option str :=
  match k with
  | O => None
  | S k' =>
      match skipn k s with
      | c :: rest => if any_char c && starts_with torveny rest then Some (firstn k s) else roman_run k' s
      | [] => roman_run k' s
      end
  end.
Definition match_roman (s : str) : option str := roman_run (List.length (fst (span is_act_roman s))) s.
(** mk_act_section.rs:96-99, the regex [^([12][09][0-9][0-9]). évi ([IVXLC]+). törvény] *)
Definition match_act_header (s : str) : option (str * str) :=
  match s with
  | a :: b :: c :: d :: p :: rest =>
      if ((a =? 49) || (a =? 50))%N && ((b =? 48) || (b =? 57))%N && is_digit c && is_digit d && any_char p then
        match strip_prefix (lit " évi ") rest with
        | Some r => match match_roman r with Some n => Some ([a; b; c; d], n) | None => None end
        | None => None
        end
      else None
  | _ => None
  end.
(** mk_act_section.rs:95-110: the identifier a header line announces *)
Definition act_header (rf : str -> option Z) (l : line) : option act_id :=
  match match_act_header (content l) with
  | Some (y, n) =>
      match parse_i16 y, rf n with
      | Ok y, Some n => Some (mkAct y n)
      | _, _ => None
      end
  | None => None
  end.

(** mk_act_section.rs:163-167 the last line of the signature block *)
Definition sign_lines : list str :=
  map lit ["köztársasági elnök az Országgyűlés elnöke"; "köztársasági elnök az Országgyűlés alelnöke";
           "az Országgyűlés elnöke, az Országgyűlés alelnöke,"]%string.
Definition is_sign (l : line) : bool := existsb (str_eqb (content l)) sign_lines.

Definition with_state (e : extractor) (s : ext_state) : extractor := mkExt (e_date e) (e_cur e) (e_result e) s.
Definition with_cur (e : extractor) (c : act_raw) (s : ext_state) : extractor := mkExt (e_date e) c (e_result e) s.
Definition set_body (a : act_raw) (b : list line) : act_raw := mkRaw (ar_id a) (ar_subject a) (ar_date a) b.

(** mk_act_section.rs:151-178 parse_body_after_footer *)
Definition body_after (e : extractor) (l : line) : extractor :=
  let cur := e_cur e in
  let body := ar_body cur ++ [l] in
  let n := List.length body in
  if (4 <? n)%nat && l_empty (nth (n - 3) body empty_line) && is_sign l then
    let act := mkRaw (ar_id cur) (ar_subject cur) (e_date e) (firstn (n - 3) body) in
    mkExt (e_date e) default_raw (e_result e ++ [act]) WaitNewline
  else with_cur e (set_body cur body) BodyAfter.
(** mk_act_section.rs:128-149 parse_body_before_footer *)
Definition body_before (e : extractor) (l : line) : extractor :=
  let body := ar_body (e_cur e) in
  let n := List.length body in
  if l_empty l && (2 <? n)%nat && l_empty (nth (n - 2) body empty_line)
     && starts_with (lit "*") (content (nth (n - 1) body empty_line)) then
    with_cur e (set_body (e_cur e) (firstn (n - 1) body)) BodyAfter
  else
    let e' := body_after e l in
    match e_state e' with BodyAfter => with_state e' BodyBefore | _ => e' end.
(** mk_act_section.rs:75-83 feed_line, with :85-91 wait_for_header_newline, :93-110
    wait_for_header, :112-126 parse_act_subject *)
Definition feed_line (rf : str -> option Z) (e : extractor) (l : line) : extractor :=
  match e_state e with
  | WaitNewline => with_state e (if l_empty l then WaitHeader else WaitNewline)
  | WaitHeader =>
      match act_header rf l with
      | Some id => with_cur e (mkRaw id (ar_subject (e_cur e)) (ar_date (e_cur e)) (ar_body (e_cur e))) InSubject
      | None => with_state e WaitNewline
      end
  | InSubject =>
      let cur := e_cur e in
      let subject := append_to l (ar_subject cur) in
      if ends_with (lit "*") subject then
        with_cur e (mkRaw (ar_id cur) (removelast subject) (ar_date cur) (ar_body cur)) BodyBefore
      else with_cur e (mkRaw (ar_id cur) subject (ar_date cur) (ar_body cur)) InSubject
  | BodyBefore => body_before e l
  | BodyAfter => body_after e l
  end.
Definition feed_lines (rf : str -> option Z) (e : extractor) (ls : list line) : extractor :=
  fold_left (feed_line rf) ls e.

(** mk_act_section.rs:183-195 section start and stops *)
Definition section_start : str := lit "II. Törvények".
Definition section_stops : list str :=
  map lit ["III. Kormányrendeletek"; "IV. A Magyar Nemzeti Bank elnökének rendeletei";
           "V. A Kormány tagjainak rendeletei"; "VI. Az Alkotmánybíróság határozatai";
           "VII. A Kúria határozatai"; "IX. Határozatok Tára"]%string.
(** mk_act_section.rs:218-227 line_is_act_section_start, line_is_act_section_end *)
Definition is_section_start (l : line) : bool := l_bold l && str_eqb (content l) section_start.
Definition is_section_end (l : line) : bool :=
  l_bold l && existsb (fun p => starts_with p (content l)) section_stops.
(** mk_act_section.rs:243, the unanchored regex [[0-9]+. évi [CLXVI]+. törvény]. The shortest match of
    [[0-9]+] is one digit, so it matches iff some suffix is a digit, any character, " évi ", ... *)
Fixpoint has_act_title (s : str) : bool :=
  match s with
  | [] => false
  | d :: s' =>
      (is_digit d &&
       match s' with
       | c :: rest => any_char c &&
           match strip_prefix (lit " évi ") rest with Some r => is_some (match_roman r) | None => false end
       | [] => false
       end) || has_act_title s'
  end.
(** mk_act_section.rs:197-216 parse_mk_cover_page *)
Definition cover_page (ud : char -> bool) (page : list line) : outcome date :=
  let* _ := ensure (4 <=? List.length page)%nat in
  match page with
  | l0 :: _ :: _ :: l3 :: _ =>
      let* _ := ensure (starts_with (lit "MAGYAR KÖZLÖNY") (content l0)) in
      date_from_hungarian ud (content l3)
  | _ => Panic
  end.

(** mk_act_section.rs:229-256 parse_mk_pages_into_acts: one line, then a page, then all pages. The
    state is (extractor, extracting, seen_a_proper_header). *)
Definition page_line (rf : str -> option Z) (st : extractor * bool * bool) (l : line) : extractor * bool * bool :=
  let '(e, extracting, seen) := st in
  let extracting := extracting || (negb seen && l_bold l && has_act_title (content l)) in
  if is_section_start l then (e, true, true)
  else if is_section_end l then (e, false, true)
  else if extracting then (feed_line rf e l, extracting, seen)
  else (e, extracting, seen).
Definition page_end (rf : str -> option Z) (st : extractor * bool * bool) : extractor * bool * bool :=
  let '(e, extracting, seen) := st in
  if extracting then (feed_line rf e empty_line, extracting, seen) else st.
Definition do_page (rf : str -> option Z) (st : extractor * bool * bool) (page : list line) :=
  page_end rf (fold_left (page_line rf) page st).
Definition clean_act (a : act_raw) : act_raw := set_body a (remove_double_empty (ar_body a)).
Definition parse_mk_pages (ud : char -> bool) (rf : str -> option Z) (pages : list (list line)) : outcome (list act_raw) :=
  match pages with
  | p0 :: _ :: _ =>
      let* d := cover_page ud p0 in
      let '(e, _, _) := fold_left (do_page rf) pages (ext_new d, false, false) in
      Ok (map clean_act (e_result e))
  | _ => Err
  end.
