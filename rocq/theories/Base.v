(** Strings, outcomes and number formatting shared by every model file.

    Representation choices (see DESIGN.md, section 1):
    - a Rust [char] is a Unicode scalar value, here an [N];
    - a Rust [&str]/[String] is the list of its chars, here [str = list N];
    - byte lengths are computed with [utf8_len];
    - a fallible function returns [outcome]: [Ok], [Err] (a returned error, the message is not
      modelled) or [Panic] (the Rust code would panic). *)
From Coq Require Export List NArith ZArith Bool String Ascii Lia.
From Coq Require Export ZifyBool ZifyNat ZifyN.
Export ListNotations.
#[global] Open Scope list_scope.

(** Keep [cbn]/[simpl] from unfolding binary arithmetic. *)
#[global] Arguments N.add : simpl never.
#[global] Arguments N.sub : simpl never.
#[global] Arguments N.mul : simpl never.
#[global] Arguments N.div : simpl never.
#[global] Arguments N.modulo : simpl never.
#[global] Arguments N.eqb : simpl never.
#[global] Arguments N.leb : simpl never.
#[global] Arguments N.ltb : simpl never.
#[global] Arguments N.compare : simpl never.
#[global] Arguments Z.add : simpl never.
#[global] Arguments Z.sub : simpl never.
#[global] Arguments Z.mul : simpl never.
#[global] Arguments Z.opp : simpl never.
#[global] Arguments Z.eqb : simpl never.
#[global] Arguments Z.leb : simpl never.
#[global] Arguments Z.ltb : simpl never.
#[global] Arguments Z.compare : simpl never.

Notation char := N (only parsing).
Definition str := list char.

(** ** Outcomes *)
Inductive outcome (A : Type) : Type :=
| Ok (a : A)
| Err
| Panic.
Arguments Ok {A} a.
Arguments Err {A}.
Arguments Panic {A}.

Definition obind {A B} (x : outcome A) (f : A -> outcome B) : outcome B :=
  match x with Ok a => f a | Err => Err | Panic => Panic end.
Notation "'let*' x ':=' e 'in' k" := (obind e (fun x => k))
  (at level 200, x pattern, e at level 200, k at level 200, right associativity).
Definition omap {A B} (f : A -> B) (x : outcome A) : outcome B :=
  match x with Ok a => Ok (f a) | Err => Err | Panic => Panic end.
Definition ensure (b : bool) : outcome unit := if b then Ok tt else Err.
Definition is_ok {A} (x : outcome A) : bool := match x with Ok _ => true | _ => false end.
Definition ok_or {A} (o : option A) : outcome A := match o with Some a => Ok a | None => Err end.
Definition to_opt {A} (x : outcome A) : option A := match x with Ok a => Some a | _ => None end.

(** ** String literals: decode the UTF-8 bytes of a Coq string literal into code points. *)
Fixpoint bytes_of (s : string) : list N :=
  match s with
  | EmptyString => []
  | String a s' => N_of_ascii a :: bytes_of s'
  end.

Fixpoint utf8_decode (bs : list N) (pending : nat) (acc : N) : str :=
  match bs with
  | [] => []
  | b :: bs' =>
      match pending with
      | O =>
          if (b <? 128)%N then b :: utf8_decode bs' 0 0
          else if (b <? 224)%N then utf8_decode bs' 1 (b - 192)%N
          else if (b <? 240)%N then utf8_decode bs' 2 (b - 224)%N
          else utf8_decode bs' 3 (b - 240)%N
      | S O => (acc * 64 + (b - 128))%N :: utf8_decode bs' 0 0
      | S k => utf8_decode bs' k (acc * 64 + (b - 128))%N
      end
  end.
Definition lit (s : string) : str := utf8_decode (bytes_of s) 0 0.
(** One-character literals. *)
Definition chr (s : string) : char := hd 0%N (lit s).
#[global] Arguments lit : simpl never.
#[global] Arguments chr : simpl never.

(** ** Elementary string functions of [core::str] *)
Definition str_eqb (a b : str) : bool :=
  if list_eq_dec N.eq_dec a b then true else false.

(** [char::len_utf8] and [str::len] (bytes). *)
Definition char_len (c : char) : N :=
  if (c <? 128)%N then 1 else if (c <? 2048)%N then 2 else if (c <? 65536)%N then 3 else 4.
Definition utf8_len (s : str) : N := fold_right (fun c n => (char_len c + n)%N) 0%N s.

Definition is_empty {A} (l : list A) : bool := match l with [] => true | _ => false end.
Definition is_some {A} (o : option A) : bool := match o with Some _ => true | None => false end.
Definition is_none {A} (o : option A) : bool := negb (is_some o).

(** [s.find(|c| !p(c))] together with [split_at]: longest prefix whose chars satisfy [p], and the rest. *)
Fixpoint span (p : char -> bool) (s : str) : str * str :=
  match s with
  | [] => ([], [])
  | c :: s' => if p c then let '(a, b) := span p s' in (c :: a, b) else ([], s)
  end.

(** [str::split_once(char)] *)
Fixpoint split_once (sep : char) (s : str) : option (str * str) :=
  match s with
  | [] => None
  | c :: s' =>
      if (c =? sep)%N then Some ([], s')
      else match split_once sep s' with
           | Some (a, b) => Some (c :: a, b)
           | None => None
           end
  end.

(** [str::split(char)] collected: always at least one piece. *)
Fixpoint split_on (sep : char) (s : str) : list str :=
  match s with
  | [] => [[]]
  | c :: s' =>
      if (c =? sep)%N then [] :: split_on sep s'
      else match split_on sep s' with
           | p :: ps => (c :: p) :: ps
           | [] => [[c]]
           end
  end.

(** [str::strip_prefix(&str)], [starts_with], [ends_with], [strip_suffix]. *)
Fixpoint strip_prefix (p s : str) : option str :=
  match p, s with
  | [], _ => Some s
  | _ :: _, [] => None
  | a :: p', b :: s' => if (a =? b)%N then strip_prefix p' s' else None
  end.
Definition starts_with (p s : str) : bool := is_some (strip_prefix p s).
Definition strip_suffix (p s : str) : option str :=
  match strip_prefix (rev p) (rev s) with Some r => Some (rev r) | None => None end.
Definition ends_with (p s : str) : bool := is_some (strip_suffix p s).

(** [char::to_ascii_lowercase], [char::to_ascii_uppercase], [char::is_ascii_digit]. *)
Definition ascii_lower (c : char) : char := if ((65 <=? c) && (c <=? 90))%N then (c + 32)%N else c.
Definition ascii_upper (c : char) : char := if ((97 <=? c) && (c <=? 122))%N then (c - 32)%N else c.
Definition is_digit (c : char) : bool := ((48 <=? c) && (c <=? 57))%N.

(** ** Decimal numbers *)
(** [Display] of an unsigned integer. The fuel [S (N.size_nat n)] always suffices. *)
Fixpoint dec_aux (fuel : nat) (n : N) (acc : str) : str :=
  match fuel with
  | O => acc
  | S f =>
      let acc' := (48 + n mod 10)%N :: acc in
      if (n / 10 =? 0)%N then acc' else dec_aux f (n / 10)%N acc'
  end.
Definition show_N (n : N) : str := dec_aux (S (N.size_nat n)) n [].
#[global] Arguments show_N : simpl never.
(** [Display] of a signed integer. *)
Definition show_Z (z : Z) : str :=
  if (z <? 0)%Z then 45%N :: show_N (Z.to_N (- z)) else show_N (Z.to_N z).

Definition digits_value (s : str) : N := fold_left (fun acc c => (acc * 10 + (c - 48))%N) s 0%N.

(** [<uN as FromStr>::from_str]: optional '+', at least one digit, value at most [max]. *)
Definition strip_plus (s : str) : str :=
  match s with c :: s' => if (c =? 43)%N then s' else s | [] => s end.
Definition parse_unsigned (max : N) (s : str) : outcome N :=
  let d := strip_plus s in
  if is_empty d then Err
  else if forallb is_digit d then
    (if (digits_value d <=? max)%N then Ok (digits_value d) else Err)
  else Err.
(** [<iN as FromStr>::from_str]: optional sign, at least one digit, value in [min, max]. *)
Definition parse_signed (min max : Z) (s : str) : outcome Z :=
  let '(neg, d) :=
    match s with
    | c :: s' => if (c =? 45)%N then (true, s') else (false, strip_plus s)
    | [] => (false, s)
    end in
  if is_empty d then Err
  else if forallb is_digit d then
    let v := Z.of_N (digits_value d) in
    let v := if neg then (- v)%Z else v in
    (if ((min <=? v) && (v <=? max))%Z then Ok v else Err)
  else Err.

Definition u8_max : N := 255.
Definition u16_max : N := 65535.
Definition i16_min : Z := (-32768)%Z.
Definition i16_max : Z := 32767%Z.
Definition i32_min : Z := (-2147483648)%Z.
Definition i32_max : Z := 2147483647%Z.
Definition i64_min : Z := (-9223372036854775808)%Z.
Definition i64_max : Z := 9223372036854775807%Z.
Definition parse_u8 := parse_unsigned u8_max.
Definition parse_u16 := parse_unsigned u16_max.
Definition parse_i16 := parse_signed i16_min i16_max.
Definition parse_i32 := parse_signed i32_min i32_max.
Definition parse_i64 := parse_signed i64_min i64_max.

(** ** Lexicographic comparison helpers for derived [Ord]s. *)
Definition lex (a b : comparison) : comparison := match a with Eq => b | _ => a end.
Definition opt_cmp {A} (cmp : A -> A -> comparison) (x y : option A) : comparison :=
  match x, y with
  | None, None => Eq
  | None, Some _ => Lt
  | Some _, None => Gt
  | Some a, Some b => cmp a b
  end.
Definition opt_eqb {A} (eqb : A -> A -> bool) (x y : option A) : bool :=
  match x, y with
  | None, None => true
  | Some a, Some b => eqb a b
  | _, _ => false
  end.
Definition cmp_le (c : comparison) : bool := match c with Gt => false | _ => true end.
Definition cmp_ge (c : comparison) : bool := match c with Lt => false | _ => true end.
