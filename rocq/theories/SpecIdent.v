(** Independent specifications for the identifier properties (C01-C07, C52).
    These do not use the model's parsing, printing or comparison helpers. *)
From Verif Require Export ModelIdent.

(** The Hungarian identifier alphabet in legal order. *)
Definition alphabet : list hic :=
  [ Latin 97; Latin 98; Latin 99; Cs; Latin 100; Dz; Latin 101; Latin 102; Latin 103; Gy;
    Latin 104; Latin 105; Latin 106; Latin 107; Latin 108; Ly; Latin 109; Latin 110; Ny;
    Latin 111; Latin 112; Latin 113; Latin 114; Latin 115; Sz; Latin 116; Ty; Latin 117;
    Latin 118; Latin 119; Latin 120; Latin 121; Latin 122; Zs ]%N.
(** Letters that drafters may leave out: digraphs and 'q'. *)
Definition optional_letters : list hic := [Cs; Dz; Gy; Ly; Ny; Sz; Ty; Zs; Latin 113%N].

(** [y] comes before [x] in the alphabet. *)
Definition before (y x : hic) : Prop := exists l1 l2 l3, alphabet = l1 ++ y :: l2 ++ x :: l3.
(** [x] may directly follow [y]: only optional letters are between them. *)
Definition follows (x y : hic) : Prop :=
  exists l1 l2 l3, alphabet = l1 ++ y :: l2 ++ x :: l3 /\ Forall (fun c => In c optional_letters) l2.

(** How a letter identifier may be written: one ASCII letter in either case, or a digraph in lower
    case, capitalised, or in upper case. *)
Definition lower_str (s : str) : str := map ascii_lower s.
Inductive spelling : str -> hic -> Prop :=
| sp_lower : forall c, (97 <= c <= 122)%N -> spelling [c] (Latin c)
| sp_upper : forall c, (97 <= c <= 122)%N -> spelling [(c - 32)%N] (Latin c)
| sp_digraph : forall a b d s, In (a, b, d)
    [ (99, 115, Cs); (100, 122, Dz); (103, 121, Gy); (108, 121, Ly);
      (110, 121, Ny); (115, 122, Sz); (116, 121, Ty); (122, 115, Zs) ]%N ->
    In s [ [a; b]; [a - 32; b]; [a - 32; b - 32] ]%N -> spelling s d.

(** A run of decimal digits denoting [n]: defined by appending digits. *)
Inductive denotes_dec : str -> N -> Prop :=
| dd_one : forall d, (d <= 9)%N -> denotes_dec [(48 + d)%N] d
| dd_snoc : forall s n d, denotes_dec s n -> (d <= 9)%N ->
    denotes_dec (s ++ [(48 + d)%N]) (10 * n + d).

(** How a numeric identifier may be written. *)
Inductive numeric_spelling : str -> numeric -> Prop :=
| ns_plain : forall ds n, denotes_dec ds n -> (n <= 65535)%N -> numeric_spelling ds (mkNum n None)
| ns_suffix : forall ds n ls c, denotes_dec ds n -> (n <= 65535)%N -> spelling ls c ->
    numeric_spelling (ds ++ ls) (mkNum n (Some c))
| ns_slash : forall ds n ls c, denotes_dec ds n -> (n <= 65535)%N -> spelling ls c ->
    numeric_spelling (ds ++ [47%N] ++ ls) (mkNum n (Some c)).

(** Legal order of numeric identifiers: 1 < 1a < 1b < 2. *)
Definition numeric_before (x y : numeric) : Prop :=
  (n_num x < n_num y)%N \/
  (n_num x = n_num y /\
   match n_suffix x, n_suffix y with
   | None, Some _ => True
   | Some a, Some b => before a b
   | _, None => False
   end).
Definition article_before (x y : article_id) : Prop :=
  match a_book x, a_book y with
  | Some a, Some b => (a < b)%N \/ (a = b /\ numeric_before (a_ident x) (a_ident y))
  | None, Some _ => True
  | Some _, None => False
  | None, None => numeric_before (a_ident x) (a_ident y)
  end.

(** Legal succession of numeric identifiers: the next number, or the next letter of the same number. *)
Definition numeric_follows (x y : numeric) : Prop :=
  match n_suffix x, n_suffix y with
  | None, _ => n_num x = (n_num y + 1)%N
  | Some a, None => n_num x = n_num y /\ a = Latin 97%N
  | Some a, Some b => n_num x = n_num y /\ follows a b
  end.
Definition article_follows (x y : article_id) : Prop :=
  match a_book x, a_book y with
  | None, None => numeric_follows (a_ident x) (a_ident y)
  | Some a, Some b =>
      (a = b /\ numeric_follows (a_ident x) (a_ident y)) \/
      (a = (b + 1)%N /\ a_ident x = mkNum 1 None)
  | _, _ => False
  end.

(** Every element is in relation with the one directly before it. *)
Inductive chain {A} (R : A -> A -> Prop) : list A -> Prop :=
| ch_nil : chain R []
| ch_one : forall x, chain R [x]
| ch_cons : forall x y l, R y x -> chain R (y :: l) -> chain R (x :: y :: l).

(** The standard roman numeral notation as a relation on thousands/hundreds/tens/units. *)
Definition roman_digit (one five ten : char) (d : N) : str :=
  match d with
  | 0 => [] | 1 => [one] | 2 => [one; one] | 3 => [one; one; one] | 4 => [one; five]
  | 5 => [five] | 6 => [five; one] | 7 => [five; one; one] | 8 => [five; one; one; one]
  | 9 => [one; ten] | _ => []
  end%N.
Definition roman_standard (n : N) : str :=
  (roman_digit 77 77 77 (n / 1000) ++ roman_digit 67 68 77 (n / 100 mod 10)
  ++ roman_digit 88 76 67 (n / 10 mod 10) ++ roman_digit 73 86 88 (n mod 10))%N%list.
(** What is assumed of the external [roman::from]: it reads standard numerals back. *)
Definition roman_from_reads (rf : str -> option Z) : Prop :=
  forall n : N, (1 <= n <= 3999)%N -> rf (roman_standard n) = Some (Z.of_N n).

Definition range_of {T} (p : T -> Prop) (r : range T) : Prop := p (r_start r) /\ p (r_end r).
(** A strict total order agreeing with [==], spelled out. *)
Definition strict_total {T} (eqb : T -> T -> bool) (cmp : T -> T -> comparison) : Prop :=
  (forall x y, cmp x y = Eq <-> x = y) /\ (forall x y, eqb x y = true <-> x = y) /\
  (forall x y, cmp y x = CompOpp (cmp x y)) /\
  (forall x y z, cmp x y = Lt -> cmp y z = Lt -> cmp x z = Lt).
(** Legal order of prefixed letters. *)
Definition prefixed_before (x y : prefixed) : Prop :=
  match p_prefix x, p_prefix y with
  | None, Some _ => True
  | Some a, Some b => before a b \/ (a = b /\ before (p_chr x) (p_chr y))
  | None, None => before (p_chr x) (p_chr y)
  | Some _, None => False
  end.

(** A simple reader of roman numerals, only used to show that [roman_from_reads] is satisfiable. *)
Definition roman_value_of (c : char) : Z :=
  (if (c =? 73)%N then 1 else if (c =? 86)%N then 5 else if (c =? 88)%N then 10 else if (c =? 76)%N then 50
   else if (c =? 67)%N then 100 else if (c =? 68)%N then 500 else if (c =? 77)%N then 1000 else 0)%Z.
Fixpoint roman_read (s : str) : Z :=
  match s with
  | [] => 0
  | c :: s' =>
      match s' with
      | d :: _ => if (roman_value_of c <? roman_value_of d)%Z then roman_read s' - roman_value_of c
                  else roman_read s' + roman_value_of c
      | [] => roman_value_of c
      end
  end%Z.

(** Decimal digits without leading zeros; letters of one case. *)
Definition plain_digits (s : str) (n : N) : Prop := denotes_dec s n /\ forall s', s = 48%N :: s' -> s' = [].
Definition small_letters (s : str) (x : hic) : Prop := spelling s x /\ Forall (fun c => 97 <= c <= 122)%N s.
Definition capital_letters (s : str) (x : hic) : Prop := spelling s x /\ Forall (fun c => 65 <= c <= 90)%N s.
(** How a numeric identifier is printed: "12cs", and "12/CS" in the form with a slash. *)
Definition printed_numeric (s : str) (x : numeric) : Prop :=
  exists ds ls, s = ds ++ ls /\ plain_digits ds (n_num x) /\
  match n_suffix x with Some c => small_letters ls c | None => ls = [] end.
Definition printed_slash (s : str) (x : numeric) : Prop :=
  exists ds ls, s = ds ++ ls /\ plain_digits ds (n_num x) /\
  match n_suffix x with Some c => exists cs, ls = 47%N :: cs /\ capital_letters cs c | None => ls = [] end.
(** "3:12/B" *)
Definition printed_article (s : str) (x : article_id) : Prop :=
  match a_book x with
  | Some b => exists ds is_, s = ds ++ 58%N :: is_ /\ plain_digits ds b /\ printed_slash is_ (a_ident x)
  | None => printed_slash s (a_ident x)
  end.
