(** Specification for sentences which replace or add chapters, parts and titles (C77). *)
From Verif Require Export SpecSay SpecStruct.

(** ** Elements: "III. Fejezet", "Második Rész", "IV/A. Cím" *)
Definition capital_letter (c : char) : Prop := (65 <= c <= 90)%N \/ In c (lit "ÉÁŐÚÖÜÓÍŰ").
Definition word_ending (e : str) : Prop := Forall (fun c => small_letter c \/ capital_letter c) e.
(** A roman number, and perhaps a letter after it *)
Inductive roman_said : numeric -> str -> Prop :=
| roman_plain n : (1 <= n <= 3999)%N -> roman_said (mkNum n None) (roman_standard n)
| roman_lettered n c : (1 <= n <= 3999)%N -> (65 <= c <= 90)%N -> roman_said (mkNum n (Some (Latin (c + 32)))) (roman_standard n ++ lit "/" ++ [c]).
Definition ordinals_begun : list str := map lit
  ["Első"; "Második"; "Harmadik"; "Negyedik"; "Ötödik"; "Hatodik"; "Hetedik"; "Nyolcadik"; "Kilencedik"; "Tizedik";
   "Tizenegyedik"; "Tizenkettedik"; "Tizenharmadik"; "Tizennegyedik"; "Tizenötödik"; "Tizenhatodik"; "Tizenhetedik";
   "Tizennyolcadik"; "Tizenkilencedik"]%string.
Definition ordinals_in_capitals : list str := map lit
  ["ELSŐ"; "MÁSODIK"; "HARMADIK"; "NEGYEDIK"; "ÖTÖDIK"; "HATODIK"; "HETEDIK"; "NYOLCADIK"; "KILENCEDIK"; "TIZEDIK";
   "TIZENEGYEDIK"; "TIZENKETTEDIK"; "TIZENHARMADIK"; "TIZENNEGYEDIK"; "TIZENÖTÖDIK"; "TIZENHATODIK"; "TIZENHETEDIK";
   "TIZENNYOLCADIK"; "TIZENKILENCEDIK"]%string.
(** The first word of the list is for 1. *)
Inductive capital_ordinal : N -> str -> Prop :=
| ordinal_small k w : nth_error ordinals_begun k = Some w -> capital_ordinal (N.of_nat (S k)) w
| ordinal_big k w : nth_error ordinals_in_capitals k = Some w -> capital_ordinal (N.of_nat (S k)) w.
Definition words_for_book : list str := map lit ["könyv"; "Könyv"; "KÖNYV"]%string.
Definition words_for_part : list str := map lit ["rész"; "Rész"; "RÉSZ"]%string.
Definition words_for_chapter : list str := map lit ["fejezet"; "Fejezet"; "FEJEZET"]%string.
Definition words_for_title : list str := map lit ["cím"; "Cím"; "CÍM"]%string.
(** As something which others are in, and as what is amended *)
Inductive element_said : sr_parent -> sr_element -> str -> Prop :=
| chapter_said n i w e : roman_said n i -> In w words_for_chapter -> word_ending e -> element_said (SpChapter n) (SeChapter n) (i ++ lit "." ++ lit " " ++ w ++ e)
| title_said n i w e : roman_said n i -> In w words_for_title -> word_ending e -> element_said (SpTitle n) (SeTitle n) (i ++ lit "." ++ lit " " ++ w ++ e)
| part_said n i w e : capital_ordinal n i -> In w words_for_part -> word_ending e -> element_said (SpPart (mkNum n None)) (SePart (mkNum n None)) (i ++ lit " " ++ w ++ e).
Inductive book_said : numeric -> str -> Prop :=
| book_named n i w e : capital_ordinal n i -> In w words_for_book -> word_ending e -> book_said (mkNum n None) (i ++ lit " " ++ w ++ e).
(** "... címe": only the title of the element *)
Inductive title_only_said : bool -> str -> Prop :=
| the_whole : title_only_said false []
| the_title : title_only_said true (lit " " ++ lit "címe")
| the_titles : title_only_said true (lit " " ++ lit "címei")
| of_the_title e : Forall small_letter e -> title_only_said true (lit " " ++ lit "címé" ++ e).
Inductive element_in_book : option numeric -> sr_element -> str -> Prop :=
| not_in_book p k s : element_said p k s -> element_in_book None k s
| in_book b sb p k s : book_said b sb -> element_said p k s -> element_in_book (Some b) k (sb ++ lit " " ++ s).

(** ** Sentences *)
Definition structural_words : list str := map lit ["lép"; "alcím lép"; "alcím cím lép"; "cím lép"; "fejezet lép"; "Fejezet lép"; "rész lép"]%string.
Definition structural_endings : list str :=
  replacement_endings ++ flat_map (fun f => map (fun w => lit " helyébe " ++ f ++ lit " " ++ w ++ lit ":") structural_words) following.
Definition restructured (before name : str) (a : act_id) (r : struct_ref) (i : bool) : sem_info :=
  mkSi [mkOut (utf8_len before) (utf8_len (before ++ name)) (only_act a)] [] (Some (PhStructural (mkSbaPhrase r i))).
(** What is said after the name of the act *)
Inductive structural_change (a : act_id) : struct_ref -> bool -> str -> Prop :=
| element_replaced b k t s s' e : element_in_book b k s -> title_only_said t s' -> In e structural_endings ->
    structural_change a (mkSRef (Some a) b None k t) false (lit " " ++ s ++ s' ++ e)
| element_replaced_in p k' b k t sp s s' e : element_said p k' sp -> element_in_book b k s -> title_only_said t s' -> In e structural_endings ->
    structural_change a (mkSRef (Some a) b (Some p) k t) false (lit " " ++ sp ++ lit " " ++ s ++ s' ++ e)
| element_added b k f s e : In f following -> element_in_book b k s -> In e insertion_endings ->
    structural_change a (mkSRef (Some a) b None k false) true (lit " " ++ f ++ lit " " ++ s ++ e)
| element_added_to_book b p k sb f s e : book_said b sb -> In f following -> element_said p k s -> In e insertion_endings ->
    structural_change a (mkSRef (Some a) (Some b) None k false) true (lit " " ++ sb ++ lit " " ++ f ++ lit " " ++ s ++ e)
| element_added_in p k' b k sp f s e : element_said p k' sp -> In f following -> element_in_book b k s -> In e insertion_endings ->
    structural_change a (mkSRef (Some a) b (Some p) k false) true (lit " " ++ sp ++ lit " " ++ f ++ lit " " ++ s ++ e).
Inductive structural_sentence (m : list (str * act_id)) (a : act_id) : struct_ref -> bool -> str -> sem_info -> Prop :=
| structural_sentence_of az title name r i s : In az the -> act_named m a s title name -> structural_change a r i s ->
    structural_sentence m a r i (az ++ title ++ name ++ s) (restructured (az ++ title) name a r i).
