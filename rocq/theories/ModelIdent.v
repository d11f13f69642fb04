(** Model of src/identifier/*.rs, src/util/compact_string.rs and the parts of
    src/util/mod.rs they use.  No proofs in this file. *)
From Verif Require Export Base.

(** ** src/identifier/alphabetic.rs *)

(** alphabetic.rs:33-51 [HungarianIdentifierChar].  The payload of [Latin] is a [u8]. *)
Inductive hic :=
| Latin (b : N)
| Cs | Dz | Gy | Ly | Ny | Sz | Ty | Zs.

(** alphabetic.rs:30 derived [PartialEq]. *)
Definition hic_eqb (x y : hic) : bool :=
  match x, y with
  | Latin a, Latin b => (a =? b)%N
  | Cs, Cs | Dz, Dz | Gy, Gy | Ly, Ly | Ny, Ny | Sz, Sz | Ty, Ty | Zs, Zs => true
  | _, _ => false
  end.

(** alphabetic.rs:58-70 [ord_helper] (u16 arithmetic; 2*255+1 fits). *)
Definition ord_helper (x : hic) : N :=
  match x with
  | Latin b => b * 2
  | Cs => chr "c" * 2 + 1
  | Dz => chr "d" * 2 + 1
  | Gy => chr "g" * 2 + 1
  | Ly => chr "l" * 2 + 1
  | Ny => chr "n" * 2 + 1
  | Sz => chr "s" * 2 + 1
  | Ty => chr "t" * 2 + 1
  | Zs => chr "z" * 2 + 1
  end%N.

(** alphabetic.rs:73-77 [Ord::cmp]. *)
Definition hic_cmp (x y : hic) : comparison := (ord_helper x ?= ord_helper y)%N.

(** alphabetic.rs:86-108 [is_next_from].  Arms in source order. *)
Definition hic_next (self other : hic) : bool :=
  match self, other with
  | Latin s, Latin o =>
      if ((o <? s) && (s - o =? 1))%N then true
      else ((s =? chr "r") && (o =? chr "p"))%N
  | Cs, Latin o => (o =? chr "c")%N
  | Dz, Latin o => (o =? chr "d")%N
  | Gy, Latin o => (o =? chr "g")%N
  | Ly, Latin o => (o =? chr "l")%N
  | Ny, Latin o => (o =? chr "n")%N
  | Sz, Latin o => (o =? chr "s")%N
  | Ty, Latin o => (o =? chr "t")%N
  | Zs, Latin o => (o =? chr "z")%N
  | Latin s, Cs => (s =? chr "d")%N
  | Latin s, Dz => (s =? chr "e")%N
  | Latin s, Gy => (s =? chr "h")%N
  | Latin s, Ly => (s =? chr "m")%N
  | Latin s, Ny => (s =? chr "o")%N
  | Latin s, Sz => (s =? chr "t")%N
  | Latin s, Ty => (s =? chr "u")%N
  | _, _ => false
  end.

(** alphabetic.rs:110-112 [is_first]. *)
Definition hic_first (x : hic) : bool := hic_eqb x (Latin (chr "a")).

(** alphabetic.rs:115-126 [TryFrom<char>]. *)
Definition hic_of_char (c : char) : outcome hic :=
  let c := ascii_lower c in
  if ((chr "a" <=? c) && (c <=? chr "z"))%N then Ok (Latin c) else Err.

(** alphabetic.rs:135-145: the table of digraph spellings, in source order. *)
Definition digraph_table : list (str * hic) :=
  [ (lit "cs", Cs); (lit "Cs", Cs); (lit "CS", Cs);
    (lit "dz", Dz); (lit "Dz", Dz); (lit "DZ", Dz);
    (lit "gy", Gy); (lit "Gy", Gy); (lit "GY", Gy);
    (lit "ly", Ly); (lit "Ly", Ly); (lit "LY", Ly);
    (lit "ny", Ny); (lit "Ny", Ny); (lit "NY", Ny);
    (lit "sz", Sz); (lit "Sz", Sz); (lit "SZ", Sz);
    (lit "ty", Ty); (lit "Ty", Ty); (lit "TY", Ty);
    (lit "zs", Zs); (lit "Zs", Zs); (lit "ZS", Zs) ].
Fixpoint assoc_str {A} (s : str) (l : list (str * A)) : option A :=
  match l with
  | [] => None
  | (k, v) :: l' => if str_eqb k s then Some v else assoc_str s l'
  end.

(** alphabetic.rs:128-147 [FromStr].  [value.len() == 1] is a byte length. *)
Definition hic_parse (s : str) : outcome hic :=
  if (utf8_len s =? 1)%N then
    match s with c :: _ => hic_of_char c | [] => Panic end
  else ok_or (assoc_str s digraph_table).

(** alphabetic.rs:149-163 [Display]. *)
Definition hic_show (x : hic) : str :=
  match x with
  | Latin b => [b]
  | Cs => lit "cs" | Dz => lit "dz" | Gy => lit "gy" | Ly => lit "ly"
  | Ny => lit "ny" | Sz => lit "sz" | Ty => lit "ty" | Zs => lit "zs"
  end.

(** alphabetic.rs:185-201 [Display for UppercaseHungarianIdentifierChar].  [char::to_uppercase] is
    modelled by the ASCII map, which agrees with it on 'a'..'z' (the documented range of [Latin]). *)
Definition hic_show_upper (x : hic) : str :=
  match x with
  | Latin b => [ascii_upper b]
  | Cs => lit "CS" | Dz => lit "DZ" | Gy => lit "GY" | Ly => lit "LY"
  | Ny => lit "NY" | Sz => lit "SZ" | Ty => lit "TY" | Zs => lit "ZS"
  end.

(** Representation invariant documented at alphabetic.rs:34. *)
Definition hic_ok (x : hic) : bool :=
  match x with Latin b => ((97 <=? b) && (b <=? 122))%N | _ => true end.

(** ** src/identifier/numeric.rs *)

(** numeric.rs:33-36 *)
Record numeric := mkNum { n_num : N; n_suffix : option hic }.
(** u16 range of [num] and validity of the suffix. *)
Definition numeric_ok (x : numeric) : bool :=
  (n_num x <=? u16_max)%N && match n_suffix x with Some c => hic_ok c | None => true end.

(** numeric.rs:30 derived [PartialEq], [Ord]. *)
Definition numeric_eqb (x y : numeric) : bool :=
  (n_num x =? n_num y)%N && opt_eqb hic_eqb (n_suffix x) (n_suffix y).
Definition numeric_cmp (x y : numeric) : comparison :=
  lex (n_num x ?= n_num y)%N (opt_cmp hic_cmp (n_suffix x) (n_suffix y)).

(** util/mod.rs:27-28 *)
Definition is_roman_digit (c : char) : bool := existsb (N.eqb c) (lit "IVXLCDM").

(** numeric.rs:47-69 [split_suffix]. [suffix_str.is_empty()] at line 60 can never hold (the suffix
    starts with a disallowed char, and the '/' case was rejected), it is kept for fidelity. *)
Definition split_suffix (allowed : char -> bool) (s : str) : outcome (str * option hic) :=
  let '(prefix, suffix_str) := span allowed s in
  match suffix_str with
  | [] => Ok (s, None)
  | c :: rest =>
      let* suffix_str :=
        (if (c =? chr "/")%N then (if is_empty rest then Err else Ok rest) else Ok suffix_str) in
      if is_empty suffix_str then Ok (prefix, None)
      else let* x := hic_parse suffix_str in Ok (prefix, Some x)
  end.

(** wrapping subtraction on u16 / u8 *)
Definition wsub (modulus a b : N) : N := ((a + modulus - b) mod modulus)%N.

(** numeric.rs:93-99 [is_next_from] *)
Definition numeric_next (self other : numeric) : bool :=
  match n_suffix self, n_suffix other with
  | None, _ => (wsub 65536 (n_num self) (n_num other) =? 1)%N
  | Some ss, None => (n_num self =? n_num other)%N && hic_first ss
  | Some ss, Some so => (n_num self =? n_num other)%N && hic_next ss so
  end.
(** numeric.rs:101-107 [is_first] *)
Definition numeric_first (self : numeric) : bool := numeric_eqb self (mkNum 1 None).

(** numeric.rs:110-122 [FromStr] *)
Definition numeric_parse (s : str) : outcome numeric :=
  let* (num_str, suffix) := split_suffix is_digit s in
  if is_empty num_str then Err
  else let* n := parse_u16 num_str in Ok (mkNum n suffix).

(** numeric.rs:124-131 [Display] *)
Definition numeric_show (x : numeric) : str :=
  match n_suffix x with
  | Some c => show_N (n_num x) ++ hic_show c
  | None => show_N (n_num x)
  end.
(** numeric.rs:177-184 [Display for NumericIdentifierWithSlash] *)
Definition numeric_show_slash (x : numeric) : str :=
  match n_suffix x with
  | Some c => show_N (n_num x) ++ [chr "/"] ++ hic_show_upper c
  | None => show_N (n_num x)
  end.

(** External crate `roman` 0.1: [roman::to] (None outside 1..=3999) by the usual greedy table.
    [roman::from] is never fixed: functions using it take it as an argument [rf]. *)
Definition roman_table : list (N * str) :=
  [ (1000, lit "M"); (900, lit "CM"); (500, lit "D"); (400, lit "CD");
    (100, lit "C"); (90, lit "XC"); (50, lit "L"); (40, lit "XL");
    (10, lit "X"); (9, lit "IX"); (5, lit "V"); (4, lit "IV"); (1, lit "I") ]%N.
Fixpoint rep_str (n : nat) (s : str) : str := match n with O => [] | S k => s ++ rep_str k s end.
Fixpoint roman_aux (t : list (N * str)) (n : N) : str :=
  match t with
  | [] => []
  | (v, s) :: t' => rep_str (N.to_nat (n / v)) s ++ roman_aux t' (n mod v)%N
  end.
Definition roman_to (z : Z) : option str :=
  if ((1 <=? z) && (z <=? 3999))%Z then Some (roman_aux roman_table (Z.to_N z)) else None.

(** numeric.rs:39-45 [from_roman]; [as u16] truncates. *)
Definition numeric_from_roman (rf : str -> option Z) (s : str) : outcome numeric :=
  let* (num_str, suffix) := split_suffix is_roman_digit s in
  let* z := ok_or (rf num_str) in
  Ok (mkNum (Z.to_N (z mod 65536)) suffix).
(** numeric.rs:82-89 [to_roman] *)
Definition numeric_to_roman (x : numeric) : outcome str :=
  let* r := ok_or (roman_to (Z.of_N (n_num x))) in
  Ok (match n_suffix x with Some c => r ++ [chr "/"] ++ hic_show c | None => r end).

(** ** src/identifier/article.rs *)
(** article.rs:31-34 *)
Record article_id := mkArt { a_book : option N; a_ident : numeric }.
Definition article_ok (x : article_id) : bool :=
  match a_book x with Some b => (b <=? u8_max)%N | None => true end && numeric_ok (a_ident x).
Definition article_eqb (x y : article_id) : bool :=
  opt_eqb N.eqb (a_book x) (a_book y) && numeric_eqb (a_ident x) (a_ident y).
Definition article_cmp (x y : article_id) : comparison :=
  lex (opt_cmp N.compare (a_book x) (a_book y)) (numeric_cmp (a_ident x) (a_ident y)).
(** article.rs:43-50 *)
Definition article_next (self other : article_id) : bool :=
  match a_book self, a_book other with
  | None, None => numeric_next (a_ident self) (a_ident other)
  | Some bs, Some bo =>
      if (bs =? bo)%N then numeric_next (a_ident self) (a_ident other)
      else if (wsub 256 bs bo =? 1)%N then numeric_first (a_ident self)
      else false
  | _, _ => false
  end.
(** article.rs:52-58 *)
Definition article_first (self : article_id) : bool :=
  match a_book self with
  | Some b => (b =? 1)%N && numeric_first (a_ident self)
  | None => numeric_first (a_ident self)
  end.
(** article.rs:61-78 *)
Definition article_parse (s : str) : outcome article_id :=
  match split_once (chr ":") s with
  | Some (book_str, id_str) =>
      let* b := parse_u8 book_str in
      let* i := numeric_parse id_str in
      Ok (mkArt (Some b) i)
  | None => let* i := numeric_parse s in Ok (mkArt None i)
  end.
(** article.rs:80-87 *)
Definition article_show (x : article_id) : str :=
  match a_book x with Some b => show_N b ++ [chr ":"] | None => [] end
  ++ numeric_show_slash (a_ident x).
(** article.rs:109-131 *)
Definition article_show_compact (x : article_id) : str :=
  match a_book x with Some b => show_N b ++ [chr "."] | None => [] end
  ++ numeric_show (a_ident x).
Definition article_parse_compact (s : str) : outcome article_id :=
  match split_once (chr ".") s with
  | Some (book_str, id_str) =>
      let* b := parse_u8 book_str in
      let* i := numeric_parse id_str in
      Ok (mkArt (Some b) i)
  | None => let* i := numeric_parse s in Ok (mkArt None i)
  end.

(** ** src/identifier/paragraph.rs *)
(** paragraph.rs:28-32: a newtype around [Option<NumericIdentifier>]. *)
Definition paragraph_id := option numeric.
Definition paragraph_ok (x : paragraph_id) : bool :=
  match x with Some n => numeric_ok n | None => true end.
Definition paragraph_eqb : paragraph_id -> paragraph_id -> bool := opt_eqb numeric_eqb.
Definition paragraph_cmp : paragraph_id -> paragraph_id -> comparison := opt_cmp numeric_cmp.
(** paragraph.rs:41-46 *)
Definition paragraph_first (x : paragraph_id) : bool :=
  match x with Some n => numeric_first n | None => false end.
(** paragraph.rs:48-53 *)
Definition paragraph_next (self other : paragraph_id) : bool :=
  match self, other with Some x, Some o => numeric_next x o | _, _ => false end.
(** paragraph.rs:60-71 *)
Definition paragraph_parse (s : str) : outcome paragraph_id :=
  if is_empty s then Ok None else let* n := numeric_parse s in Ok (Some n).
(** paragraph.rs:73-81 *)
Definition paragraph_show (x : paragraph_id) : str :=
  match x with Some n => numeric_show n | None => [] end.

(** ** src/identifier/prefixed_alphabetic.rs *)
(** prefixed_alphabetic.rs:31-34 *)
Record prefixed := mkPre { p_prefix : option hic; p_chr : hic }.
Definition prefixed_ok (x : prefixed) : bool :=
  match p_prefix x with Some c => hic_ok c | None => true end && hic_ok (p_chr x).
Definition is_latin (x : hic) : bool := match x with Latin _ => true | _ => false end.
(** Values FromStr can produce (line 65-75: both letters come from [TryFrom<char>]). *)
Definition prefixed_latin (x : prefixed) : bool :=
  match p_prefix x with Some c => is_latin c | None => true end && is_latin (p_chr x).
Definition prefixed_eqb (x y : prefixed) : bool :=
  opt_eqb hic_eqb (p_prefix x) (p_prefix y) && hic_eqb (p_chr x) (p_chr y).
Definition prefixed_cmp (x y : prefixed) : comparison :=
  lex (opt_cmp hic_cmp (p_prefix x) (p_prefix y)) (hic_cmp (p_chr x) (p_chr y)).
(** prefixed_alphabetic.rs:47-57 *)
Definition prefixed_first (x : prefixed) : bool := hic_first (p_chr x).
Definition prefixed_next (self other : prefixed) : bool :=
  match p_prefix self, p_prefix other with
  | None, None => hic_next (p_chr self) (p_chr other)
  | Some ps, Some po => if hic_eqb ps po then hic_next (p_chr self) (p_chr other) else false
  | _, _ => false
  end.
(** prefixed_alphabetic.rs:63-78: counts chars, not bytes. *)
Definition prefixed_parse (s : str) : outcome prefixed :=
  match s with
  | [c] => let* x := hic_of_char c in Ok (mkPre None x)
  | [c1; c2] =>
      let* x1 := hic_of_char c1 in
      let* x2 := hic_of_char c2 in
      Ok (mkPre (Some x1) x2)
  | _ => Err
  end.
(** prefixed_alphabetic.rs:81-88 *)
Definition prefixed_show (x : prefixed) : str :=
  match p_prefix x with Some c => hic_show c | None => [] end ++ hic_show (p_chr x).

(** ** src/identifier/act.rs *)
(** act.rs:29-32 *)
Record act_id := mkAct { act_year : Z; act_number : Z }.
Definition act_ok (x : act_id) : bool :=
  ((i16_min <=? act_year x) && (act_year x <=? i16_max)
   && (i32_min <=? act_number x) && (act_number x <=? i32_max))%Z.
Definition act_eqb (x y : act_id) : bool :=
  ((act_year x =? act_year y) && (act_number x =? act_number y))%Z.
Definition act_cmp (x y : act_id) : comparison :=
  lex (act_year x ?= act_year y)%Z (act_number x ?= act_number y)%Z.
(** act.rs:34-43 [Display]; [roman::to(..).unwrap()] panics for numbers without a roman numeral. *)
Definition act_show (x : act_id) : outcome str :=
  match roman_to (act_number x) with
  | Some r => Ok (show_Z (act_year x) ++ lit ". évi " ++ r ++ lit ". törvény")
  | None => Panic
  end.
(** act.rs:51-73 [FromStr].  Leftmost match of the unanchored regex
    [([0-9]{4}). évi ([IVXLCDM]+). törvény]: try every start position in order; at one position the
    greedy [+] must stop exactly where a single arbitrary char (not '\n') and " törvény" follow, and it may
    backtrack to a shorter run. *)
Definition take_digits4 (s : str) : option (str * str) :=
  match s with
  | a :: b :: c :: d :: r =>
      if is_digit a && is_digit b && is_digit c && is_digit d then Some ([a; b; c; d], r) else None
  | _ => None
  end.
Definition any_char (s : str) : option str :=
  match s with c :: r => if (c =? 10)%N then None else Some r | [] => None end.
(** Candidate splits of a run of roman digits, longest first. *)
Fixpoint roman_runs (s : str) : list (str * str) :=
  match s with
  | c :: s' =>
      if is_roman_digit c then
        map (fun '(a, b) => (c :: a, b)) (roman_runs s') ++ [([c], s')]
      else []
  | [] => []
  end.
Definition classic_tail (run_rest : str * str) : bool :=
  match any_char (snd run_rest) with
  | Some r => starts_with (lit " törvény") r
  | None => false
  end.
Definition classic_at (s : str) : option (str * str) :=
  match take_digits4 s with
  | Some (year, r) =>
      match any_char r with
      | Some r =>
          match strip_prefix (lit " évi ") r with
          | Some r =>
              match find classic_tail (roman_runs r) with
              | Some (num, _) => Some (year, num)
              | None => None
              end
          | None => None
          end
      | None => None
      end
  | None => None
  end.
Fixpoint leftmost {A} (f : str -> option A) (s : str) : option A :=
  match f s with
  | Some x => Some x
  | None => match s with [] => None | _ :: s' => leftmost f s' end
  end.
Definition try_classic (rf : str -> option Z) (s : str) : option act_id :=
  match leftmost classic_at s with
  | Some (year, num) =>
      match to_opt (parse_i16 year), rf num with
      | Some y, Some n => Some (mkAct y n)
      | _, _ => None
      end
  | None => None
  end.
(** [([0-9]{4})[/_\.-]([0-9]+)], unanchored, greedy. *)
Definition decimal_at (s : str) : option (str * str) :=
  match take_digits4 s with
  | Some (year, c :: r) =>
      if existsb (N.eqb c) (lit "/_.-") then
        let '(num, _) := span is_digit r in
        if is_empty num then None else Some (year, num)
      else None
  | _ => None
  end.
Definition try_decimal (s : str) : option act_id :=
  match leftmost decimal_at s with
  | Some (year, num) =>
      match to_opt (parse_i16 year), to_opt (parse_i32 num) with
      | Some y, Some n => Some (mkAct y n)
      | _, _ => None
      end
  | None => None
  end.
Definition act_parse (rf : str -> option Z) (s : str) : outcome act_id :=
  match try_classic rf s with
  | Some a => Ok a
  | None => ok_or (try_decimal s)
  end.
(** act.rs:75-91 [CompactString] *)
Definition act_show_compact (x : act_id) : str :=
  show_Z (act_year x) ++ [chr "."] ++ show_Z (act_number x).
Definition act_parse_compact (s : str) : outcome act_id :=
  match split_once (chr ".") s with
  | Some (y, n) =>
      let* y := parse_i16 y in
      let* n := parse_i32 n in
      Ok (mkAct y n)
  | None => Err
  end.

(** ** src/identifier/mod.rs:34-43 trait [IdentifierCommon] (with its supertraits). *)
Class IdentCommon (T : Type) := {
  id_ok : T -> bool;          (** representation invariant (not code) *)
  id_eqb : T -> T -> bool;
  id_cmp : T -> T -> comparison;
  id_first : T -> bool;
  id_next : T -> T -> bool;
  id_show_compact : T -> str;
  id_parse_compact : str -> outcome T
}.
#[global] Instance hic_common : IdentCommon hic :=
  {| id_ok := hic_ok; id_eqb := hic_eqb; id_cmp := hic_cmp; id_first := hic_first; id_next := hic_next;
     id_show_compact := hic_show; id_parse_compact := hic_parse |}.
#[global] Instance numeric_common : IdentCommon numeric :=
  {| id_ok := numeric_ok; id_eqb := numeric_eqb; id_cmp := numeric_cmp; id_first := numeric_first;
     id_next := numeric_next; id_show_compact := numeric_show; id_parse_compact := numeric_parse |}.
#[global] Instance article_common : IdentCommon article_id :=
  {| id_ok := article_ok; id_eqb := article_eqb; id_cmp := article_cmp; id_first := article_first;
     id_next := article_next; id_show_compact := article_show_compact;
     id_parse_compact := article_parse_compact |}.
#[global] Instance paragraph_common : IdentCommon paragraph_id :=
  {| id_ok := paragraph_ok; id_eqb := paragraph_eqb; id_cmp := paragraph_cmp;
     id_first := paragraph_first; id_next := paragraph_next; id_show_compact := paragraph_show;
     id_parse_compact := paragraph_parse |}.
#[global] Instance prefixed_common : IdentCommon prefixed :=
  {| id_ok := prefixed_ok; id_eqb := prefixed_eqb; id_cmp := prefixed_cmp; id_first := prefixed_first;
     id_next := prefixed_next; id_show_compact := prefixed_show; id_parse_compact := prefixed_parse |}.

(** ** src/identifier/range.rs *)
(** range.rs:28-31 *)
Record range (T : Type) := mkRange { r_start : T; r_end : T }.
Arguments mkRange {T}.
Arguments r_start {T}.
Arguments r_end {T}.
(** range.rs:52-54, 59-63 *)
Definition single {T} (x : T) : range T := mkRange x x.
Section Range.
  Context {T : Type} `{IdentCommon T}.
  Definition range_eqb (x y : range T) : bool :=
    id_eqb (r_start x) (r_start y) && id_eqb (r_end x) (r_end y).
  (** derived [Ord]: start, then end *)
  Definition range_cmp (x y : range T) : comparison :=
    lex (id_cmp (r_start x) (r_start y)) (id_cmp (r_end x) (r_end y)).
  (** range.rs:34-36 *)
  Definition is_range (x : range T) : bool := negb (id_eqb (r_start x) (r_end x)).
  (** range.rs:46-48 *)
  Definition range_contains (x : range T) (i : T) : bool :=
    cmp_le (id_cmp (r_start x) i) && cmp_ge (id_cmp (r_end x) i).
  (** range.rs:79-86 *)
  Definition range_show_compact (x : range T) : str :=
    id_show_compact (r_start x) ++
    (if is_range x then [chr "-"] ++ id_show_compact (r_end x) else []).
  (** range.rs:88-98 *)
  Definition range_parse_compact (s : str) : outcome (range T) :=
    match split_once (chr "-") s with
    | Some (l, r) =>
        let* a := id_parse_compact l in
        let* b := id_parse_compact r in
        Ok (mkRange a b)
    | None => let* a := id_parse_compact s in Ok (single a)
    end.
End Range.

(** ** src/util/compact_string.rs:38-54 *)
Definition opt_show_compact {A} (f : A -> str) (o : option A) : str :=
  match o with Some x => f x | None => [] end.
Definition opt_parse_compact {A} (f : str -> outcome A) (s : str) : outcome (option A) :=
  if is_empty s then Ok None else let* x := f s in Ok (Some x).
