(** Specifications for the Hungarian words, dates, gazette issues and act extraction
    (C27, C41, C42, C46). *)
From Verif Require Export ModelMk SpecText.

(** ** Dates *)
Definition leap_year (y : Z) : Prop := ((4 | y) /\ ~ (100 | y) \/ (400 | y))%Z.
(** Length of each month; February is given for both kinds of years. *)
Definition month_length (m : N) (leap : Prop) (n : N) : Prop :=
  match m with
  | 1 => n = 31 | 2 => (leap -> n = 29) /\ (~ leap -> n = 28) | 3 => n = 31 | 4 => n = 30 | 5 => n = 31 | 6 => n = 30
  | 7 => n = 31 | 8 => n = 31 | 9 => n = 30 | 10 => n = 31 | 11 => n = 30 | 12 => n = 31 | _ => False
  end%N.
Definition valid_date (y : Z) (m d : N) : Prop := exists n, month_length m (leap_year y) n /\ (1 <= d <= n)%N.
Definition month_name (m : N) : str :=
  match m with
  | 1 => lit "január" | 2 => lit "február" | 3 => lit "március" | 4 => lit "április" | 5 => lit "május"
  | 6 => lit "június" | 7 => lit "július" | 8 => lit "augusztus" | 9 => lit "szeptember" | 10 => lit "október"
  | 11 => lit "november" | 12 => lit "december" | _ => []
  end%N.
Definition year4 (y : Z) : str := map (fun k => (48 + Z.to_N ((y / k) mod 10))%N) [1000; 100; 10; 1]%Z.
(** The Unicode digit class restricted to ASCII is 0-9. *)
Definition digit_class (ud : char -> bool) : Prop := forall c, (c < 128)%N -> ud c = is_digit c.

(** Nothing, or nothing on the same line, follows. *)
Definition line_ends (s : str) : Prop := match s with [] => True | c :: _ => c = 10%N end.
(** [s] starts with a date: four digits, one character, a space, the month name, a space, the day in one or
    two digits (two whenever possible), one character; all of it naming the valid date [dt]. *)
Definition dated (ud : char -> bool) (s : str) (dt : date) : Prop :=
  exists ys p ms ds q rest,
    s = ys ++ [p; 32%N] ++ ms ++ [32%N] ++ ds ++ q :: rest /\
    List.length ys = 4%nat /\ forallb is_digit ys = true /\ d_year dt = Z.of_N (digits_value ys) /\
    ms = month_name (d_month dt) /\
    (List.length ds = 2%nat \/ List.length ds = 1%nat /\ (ud q = true -> line_ends rest)) /\
    forallb is_digit ds = true /\ d_day dt = digits_value ds /\ p <> 10%N /\ q <> 10%N /\
    valid_date (d_year dt) (d_month dt) (d_day dt).

(** ** Gazette issues *)
Definition issue_lt (a b : mk_issue) : Prop :=
  (mk_year a < mk_year b)%Z \/ mk_year a = mk_year b /\ (mk_issue_no a < mk_issue_no b)%Z.
Inductive increasing : list mk_issue -> Prop :=
| inc_nil : increasing []
| inc_one a : increasing [a]
| inc_cons a b l : issue_lt a b -> increasing (b :: l) -> increasing (a :: b :: l).
(** The issue of an act is that of the first record naming it. *)
Definition issue_of (records : list (mk_issue * act_id)) (a : act_id) (i : mk_issue) : Prop :=
  exists pre post, records = pre ++ (i, a) :: post /\ forall j, ~ In (j, a) pre.
(** The first act that is in no record *)
Definition first_unknown (records : list (mk_issue * act_id)) (acts : list act_id) (a : act_id) : Prop :=
  exists pre post, acts = pre ++ a :: post /\ (forall b, In b pre -> exists i, issue_of records b i) /\ forall i, ~ issue_of records a i.
Definition has_name (a : act_id) : Prop := (1 <= act_number a <= 3999)%Z.

(** ** Act extraction *)
Definition empty (l : line) : Prop := l_parts l = [].
(** A signature block at the end of the lines: empty line, names, offices; at least two lines before. *)
Definition ends_signed (ls : list line) : Prop :=
  exists b e n s, ls = b ++ [e; n; s] /\ (2 <= List.length b)%nat /\ empty e /\ In (content s) sign_lines.
(** An asterisk footer at the end of the lines: empty line, a line starting with '*', empty line. *)
Definition ends_footer (ls : list line) : Prop :=
  exists b e f e', ls = b ++ [e; f; e'] /\ (1 <= List.length b)%nat /\ empty e /\ empty e' /\ begins (lit "*") (content f).
Definition prefix_of {A} (p l : list A) : Prop := exists r, l = p ++ r.
Definition strict_prefix_of {A} (p l : list A) : Prop := exists x r, l = p ++ x :: r.
(** The lines [x] after the subject, up to and including the signature, hold the body [b]. *)
Inductive body_lines : list line -> list line -> Prop :=
| body_plain b e n s :
    (2 <= List.length b)%nat -> empty e -> In (content s) sign_lines ->
    (forall p, prefix_of p (b ++ [e; n; s]) -> ~ ends_footer p) ->
    (forall p, strict_prefix_of p (b ++ [e; n; s]) -> ~ ends_signed p) ->
    body_lines (b ++ [e; n; s]) b
| body_footer b1 e f e' rest b e2 n s :
    (1 <= List.length b1)%nat -> empty e -> empty e' -> begins (lit "*") (content f) ->
    (forall p, strict_prefix_of p (b1 ++ [e; f; e']) -> ~ ends_footer p) ->
    (forall p, strict_prefix_of p (b1 ++ [e; f; e']) -> ~ ends_signed p) ->
    rest <> [] -> b1 ++ [e] ++ rest = b ++ [e2; n; s] ->
    (2 <= List.length b)%nat -> empty e2 -> In (content s) sign_lines ->
    (forall p, p <> [] -> strict_prefix_of p rest -> ~ ends_signed (b1 ++ [e] ++ p)) ->
    body_lines (b1 ++ [e; f; e'] ++ rest) b.
(** Subject lines: their joined text ends in the first '*' at a line end. *)
Definition subject_lines (ls : list line) (subject : str) : Prop :=
  ls <> [] /\ join ls = subject ++ lit "*" /\
  forall p, p <> [] -> strict_prefix_of p ls -> forall t, join p <> t ++ lit "*".
(** Lines that cannot start an act: no headers, and not ending in an empty line. *)
Definition noise (rf : str -> option Z) (ls : list line) : Prop :=
  (forall l, In l ls -> act_header rf l = None) /\ (forall p l, ls = p ++ [l] -> ~ empty l).
(** One published act: noise, an empty line, the header, the subject, the body, the signature. *)
Inductive act_block (rf : str -> option Z) (d : date) : list line -> act_raw -> Prop :=
| block ns e h id subj subject x b :
    noise rf ns -> empty e -> act_header rf h = Some id -> subject_lines subj subject -> body_lines x b ->
    act_block rf d (ns ++ [e; h] ++ subj ++ x) (mkRaw id subject d b).
Inductive act_blocks (rf : str -> option Z) (d : date) : list line -> list act_raw -> Prop :=
| blocks_nil ls : (forall l, In l ls -> act_header rf l = None) -> act_blocks rf d ls []
| blocks_cons x a ls acts : act_block rf d x a -> act_blocks rf d ls acts -> act_blocks rf d (x ++ ls) (a :: acts).

(** The lines of the pages with an empty line after each page. *)
Definition page_stream (pages : list (list line)) : list line := flat_map (fun p => p ++ [empty_line]) pages.
Definition start_line (l : line) : Prop := l_bold l = true /\ content l = section_start.
Definition stop_line (l : line) : Prop := l_bold l = true /\ exists p, In p section_stops /\ begins p (content l).
Definition title_line (l : line) : Prop := l_bold l = true /\ has_act_title (content l) = true.
Definition plain (ls : list line) : Prop := forall l, In l ls -> ~ start_line l /\ ~ stop_line l.
(** The lines of the acts section of an issue. *)
Inductive section_lines : list line -> list line -> Prop :=
| section_closed a s m t z :
    (forall l, In l a -> ~ start_line l /\ ~ title_line l /\ ~ stop_line l) -> start_line s -> plain m -> stop_line t ->
    (forall l, In l z -> ~ start_line l) ->
    section_lines (a ++ [s] ++ m ++ [t] ++ z) m
| section_open a s m :
    (forall l, In l a -> ~ start_line l /\ ~ title_line l /\ ~ stop_line l) -> start_line s -> plain m ->
    section_lines (a ++ [s] ++ m) m.
(** [a] is [b] with some elements left out. *)
Inductive subseq {A} : list A -> list A -> Prop :=
| sub_nil l : subseq [] l
| sub_keep x a b : subseq a b -> subseq (x :: a) (x :: b)
| sub_skip x a b : subseq a b -> subseq a (x :: b).

(** ** Hungarian ordinal numbers from 0 to 100, written out *)
Definition ordinal_words : list string :=
  [
    "nulladik"; "első"; "második"; "harmadik"; "negyedik"; "ötödik"; "hatodik"; "hetedik"; "nyolcadik";
    "kilencedik"; "tizedik"; "tizenegyedik"; "tizenkettedik"; "tizenharmadik"; "tizennegyedik"; "tizenötödik";
    "tizenhatodik"; "tizenhetedik"; "tizennyolcadik"; "tizenkilencedik"; "huszadik"; "huszonegyedik";
    "huszonkettedik"; "huszonharmadik"; "huszonnegyedik"; "huszonötödik"; "huszonhatodik"; "huszonhetedik";
    "huszonnyolcadik"; "huszonkilencedik"; "harmincadik"; "harmincegyedik"; "harminckettedik"; "harmincharmadik";
    "harmincnegyedik"; "harmincötödik"; "harminchatodik"; "harminchetedik"; "harmincnyolcadik";
    "harminckilencedik"; "negyvenedik"; "negyvenegyedik"; "negyvenkettedik"; "negyvenharmadik"; "negyvennegyedik";
    "negyvenötödik"; "negyvenhatodik"; "negyvenhetedik"; "negyvennyolcadik"; "negyvenkilencedik"; "ötvenedik";
    "ötvenegyedik"; "ötvenkettedik"; "ötvenharmadik"; "ötvennegyedik"; "ötvenötödik"; "ötvenhatodik";
    "ötvenhetedik"; "ötvennyolcadik"; "ötvenkilencedik"; "hatvanadik"; "hatvanegyedik"; "hatvankettedik";
    "hatvanharmadik"; "hatvannegyedik"; "hatvanötödik"; "hatvanhatodik"; "hatvanhetedik"; "hatvannyolcadik";
    "hatvankilencedik"; "hetvenedik"; "hetvenegyedik"; "hetvenkettedik"; "hetvenharmadik"; "hetvennegyedik";
    "hetvenötödik"; "hetvenhatodik"; "hetvenhetedik"; "hetvennyolcadik"; "hetvenkilencedik"; "nyolcvanadik";
    "nyolcvanegyedik"; "nyolcvankettedik"; "nyolcvanharmadik"; "nyolcvannegyedik"; "nyolcvanötödik";
    "nyolcvanhatodik"; "nyolcvanhetedik"; "nyolcvannyolcadik"; "nyolcvankilencedik"; "kilencvenedik";
    "kilencvenegyedik"; "kilencvenkettedik"; "kilencvenharmadik"; "kilencvennegyedik"; "kilencvenötödik";
    "kilencvenhatodik"; "kilencvenhetedik"; "kilencvennyolcadik"; "kilencvenkilencedik"; "századik"]%string.

(** ** The texts that delimit the acts of an issue, written out *)
Definition signature (s : str) : Prop :=
  s = lit "köztársasági elnök az Országgyűlés elnöke" \/ s = lit "köztársasági elnök az Országgyűlés alelnöke" \/
  s = lit "az Országgyűlés elnöke, az Országgyűlés alelnöke,".
Definition section_heading (s : str) : Prop :=
  begins (lit "III. Kormányrendeletek") s \/ begins (lit "IV. A Magyar Nemzeti Bank elnökének rendeletei") s \/
  begins (lit "V. A Kormány tagjainak rendeletei") s \/ begins (lit "VI. Az Alkotmánybíróság határozatai") s \/
  begins (lit "VII. A Kúria határozatai") s \/ begins (lit "IX. Határozatok Tára") s.
(** An act header: a year between 1000 and 2999 with 0 or 9 as its second digit, "évi", a roman number and "törvény".
    The number is followed by one more character, usually a dot; it is the longest one possible. *)
Definition roman_then_torveny (s n : str) : Prop :=
  exists c rest, s = n ++ c :: lit " törvény" ++ rest /\ n <> [] /\ c <> 10%N /\
    Forall (fun d => In d (lit "IVXLC")) n.
Definition header_text (s y n : str) : Prop :=
  exists a b c d p r, s = [a; b; c; d; p] ++ lit " évi " ++ r /\ y = [a; b; c; d] /\
    (a = chr "1" \/ a = chr "2") /\ (b = chr "0" \/ b = chr "9") /\
    (48 <= c <= 57)%N /\ (48 <= d <= 57)%N /\ p <> 10%N /\
    roman_then_torveny r n /\ (forall n', roman_then_torveny r n' -> (List.length n' <= List.length n)%nat).
(** Somewhere in the text there is an act title. *)
Definition titled (s : str) : Prop :=
  exists pre d c r n, s = pre ++ [d; c] ++ lit " évi " ++ r /\ (48 <= d <= 57)%N /\ c <> 10%N /\ roman_then_torveny r n.
