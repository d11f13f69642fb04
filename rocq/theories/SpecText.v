(** Specifications for lines, quotes and fixups (C18-C26), independent of the code's helpers. *)
From Verif Require Export ModelText.

(** A line as a list of glyphs: absolute x coordinate, character, boldness. *)
Record glyph := mkGlyph { g_x : Z; g_ch : char; g_bold : bool }.
Fixpoint glyphs_from (x : Z) (ps : list lpart) : list glyph :=
  match ps with
  | [] => []
  | p :: ps' => mkGlyph (x + p_dx p)%Z (p_ch p) (p_bold p) :: glyphs_from (x + p_dx p)%Z ps'
  end.
Definition glyphs (l : line) : list glyph := glyphs_from 0 (l_parts l).

(** Positions and characters, without boldness. *)
Definition placed (l : line) : list (Z * char) := map (fun g => (g_x g, g_ch g)) (glyphs l).

(** Index [i] (negative: counted from the end, out of range: clamped) means position [k] of [len]. *)
Definition index_of (len : nat) (i : Z) (k : nat) : Prop :=
  ((0 <= i)%Z -> Z.of_nat k = Z.min i (Z.of_nat len)) /\
  ((i < 0)%Z -> Z.of_nat k = Z.max 0 (Z.of_nat len + i)).
Definition end_index (len : nat) (i : option Z) (k : nat) : Prop :=
  match i with Some i => index_of len i k | None => k = len end.
(** [m] is the part of [l] from position [f] (inclusive) to [t] (exclusive). *)
Definition is_sublist {A} (l : list A) (f t : nat) (m : list A) : Prop :=
  forall k, nth_error m k = if (k <? t - f)%nat then nth_error l (f + k) else None.

(** Number of elements with a property. *)
Fixpoint count {A} (p : A -> bool) (l : list A) : Z :=
  match l with [] => 0%Z | a :: l' => ((if p a then 1 else 0) + count p l')%Z end.
Definition bold_ratio (l : line) : Prop :=
  (3 * count g_bold (glyphs l) > 2 * Z.of_nat (List.length (glyphs l)))%Z.

(** Text without spaces. *)
Definition no_spaces (s : str) : str := filter (fun c => negb (c =? chr " ")%N) s.
(** The separator the joining rule asks for between the text so far and the next line. *)
Definition ends_in_hyphen (s : str) : Prop := exists r, s = r ++ lit "-".
Definition begins (p s : str) : Prop := exists r, s = p ++ r.
Definition needs_space (s t : str) : Prop :=
  s <> [] /\ t <> [] /\ (ends_in_hyphen s -> begins (lit "és ") t \/ begins (lit "vagy ") t).

(** Quotes *)
Definition opening (c : char) : bool := (c =? chr "„")%N || (c =? chr "“")%N.
Definition closing (c : char) : bool := (c =? chr "”")%N.
(** Openings minus closings of a text *)
Definition depth (s : str) : Z := (count opening s - count closing s)%Z.
Definition text (ls : list line) : str := List.concat (map content ls).
(** Feed a list of lines, ignoring errors; and feed until the first error. *)
Definition qc_feed (q : quote_check) (ls : list line) : quote_check := fold_left (fun q l => fst (qc_update q l)) ls q.
Fixpoint qc_run (q : quote_check) (ls : list line) : outcome quote_check :=
  match ls with
  | [] => Ok q
  | l :: ls' => let '(q', r) := qc_update q l in let* _ := r in qc_run q' ls'
  end.

(** Fixups: [needle] occurs at index [i] of [texts]. *)
Definition occurs_at (needle texts : list str) (i : nat) : Prop :=
  exists pre post, texts = pre ++ needle ++ post /\ List.length pre = i.
Definition unique_at (needle texts : list str) (i : nat) : Prop :=
  occurs_at needle texts i /\ forall j, occurs_at needle texts j -> j = i.
(** The fixup asks for a change. *)
Definition useful (f : fixup) : Prop := f_old f <> f_new f \/ f_bold f = true.
(** Two lists agree on their first [n] / last [n] elements. *)
Definition same_prefix {A} (n : nat) (a b : list A) : Prop := firstn n a = firstn n b.
Definition same_suffix {A} (n : nat) (a b : list A) : Prop := firstn n (rev a) = firstn n (rev b).
(** [n] is the length of the longest common prefix. *)
Definition longest_common_prefix (a b : str) (n : nat) : Prop :=
  firstn n a = firstn n b /\ (n <= List.length a)%nat /\ (n <= List.length b)%nat /\
  forall m, (m <= List.length a)%nat -> (m <= List.length b)%nat -> firstn m a = firstn m b -> (m <= n)%nat.
(** Composition of single fixups, as a relation. *)
Inductive applies_to : list fixup -> list line -> list line -> Prop :=
| applies_nil ls : applies_to [] ls ls
| applies_cons f fs ls ls' ls'' :
    fixup_apply f ls = Ok ls' -> applies_to fs ls' ls'' -> applies_to (f :: fs) ls ls''.

(** The text an edited line stands for: without the <BOLD> marker. *)
Definition edited_bold (s : str) : bool := str_contains (lit "<BOLD>") s.
Definition edited_text (s : str) : str := if edited_bold s then trim (str_replace (lit "<BOLD>") [] s) else s.
(** The text wanted on each line; unchanged lines are kept literally. *)
Definition edited_at (o n : str) : str := if str_eqb o n then n else edited_text n.
Definition changed_bold (o n : str) : bool := negb (str_eqb o n) && edited_bold n.
Fixpoint edited_lines (orig new : list str) : list str :=
  match orig, new with o :: orig', n :: new' => edited_at o n :: edited_lines orig' new' | _, _ => [] end.

(** No two adjacent empty lines. *)
Fixpoint no_double_empty (ls : list line) : Prop :=
  match ls with
  | a :: (b :: _) as tl => ~ (l_parts a = [] /\ l_parts b = []) /\ no_double_empty tl
  | _ => True
  end.
Definition nonempty (ls : list line) : list line := filter (fun l => negb (l_empty l)) ls.
(** [b] is [a] with some empty lines deleted, each next to an empty line that is kept. *)
Inductive collapsed : list line -> list line -> Prop :=
| col_nil : collapsed [] []
| col_keep l a b : collapsed a b -> collapsed (l :: a) (l :: b)
| col_drop l l' a b : l_parts l = [] -> l_parts l' = [] -> collapsed (l :: a) b -> collapsed (l :: l' :: a) b.

(** Byte offset [b] is the start of character [k] of [s]. *)
Definition char_start (s : str) (b : N) (k : nat) : Prop :=
  (k < List.length s)%nat /\ utf8_len (firstn k s) = b.
(** The end of a byte range: nothing or anything past the text means its end. *)
Definition byte_end (s : str) (b : option N) (k : nat) : Prop :=
  match b with
  | None => k = List.length s
  | Some b => ((utf8_len s <= b)%N /\ k = List.length s) \/ ((b < utf8_len s)%N /\ char_start s b k)
  end.
(** The last line with any text in it. *)
Definition last_nonempty (ls : list line) (l : line) : Prop :=
  exists a b, ls = a ++ l :: b /\ l_parts l <> [] /\ Forall (fun m => l_parts m = []) b.
