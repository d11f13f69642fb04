(** Specification for amending sentences (C71-): how they are written, and what is to be read from them. *)
From Verif Require Export SpecShow SpecAmend ModelGrammar.

(** ** The beginning: "A fogyasztóvédelemről szóló 1997. évi CLV. törvény " *)
Definition in_text (k s : str) : Prop := exists a b, s = a ++ k ++ b.
Definition begins_with (k s : str) : Prop := exists b, s = k ++ b.
Definition digit (c : char) : Prop := (48 <= c <= 57)%N.
Definition white (c : char) : Prop := In c [32; 9; 10; 12; 13]%N.
Definition the : list str := map lit ["A "; "Az "; "a "; "az "]%string.
(** An act is named by its number, with a title before it, or by a known abbreviation; [rest] is after the name.
    There are no digits in the title, and no known abbreviation in the sentence other than the one meant. *)
Inductive act_named (m : list (str * act_id)) (a : act_id) (rest : str) : str -> str -> Prop :=
| by_number title name : act_ok a = true -> (0 <= act_year a)%Z -> act_show a = Ok name ->
    Forall (fun c => ~ digit c) title -> title = [] \/ (exists t, title = t ++ lit " ") ->
    (forall k b, In (k, b) m -> ~ in_text k (title ++ name ++ rest)) -> act_named m a rest title name
| by_abbreviation c k : ~ digit c -> ~ white c -> In (c :: k, a) m -> (forall b, In (c :: k, b) m -> b = a) ->
    (forall k' b, In (k', b) m -> begins_with k' (c :: k ++ rest) -> k' = c :: k) -> act_named m a rest [] (c :: k).

(** ** Replacement: "... 5. § (2) bekezdése helyébe a következő rendelkezés lép:" *)
Definition replacement_endings : list str := map lit
  [" helyébe a következő rendelkezés lép:"; " helyébe a következő rendelkezések lépnek:";
   " helyébe az alábbi rendelkezés lép:"; " helyébe az alábbi rendelkezések lépnek:";
   " a következő szöveggel lép hatályba:"; " az alábbi szöveggel lép hatályba:";
   " az alábbiak szerint módosul:"]%string.
Definition only_act (a : act_id) : reference := mkRef (Some a) None None None None.
(** Whole articles are put under a structural element, anything else under an article. *)
Definition amendment (r : reference) (insertion : bool) : phrase :=
  match lower_parts r with
  | [PartArticle x] => PhStructural (mkSbaPhrase (mkSRef (f_act r) None None (SeArticle x) false) insertion)
  | _ => PhBlock (mkBaPhrase r insertion)
  end.
(** [before], the name of the act, [gap], the phrase of the reference: both are found at their places. *)
Definition amending (before name gap s : str) (a : act_id) (r : reference) (p : phrase) : sem_info :=
  mkSi [mkOut (utf8_len before) (utf8_len (before ++ name)) (only_act a);
        mkOut (utf8_len (before ++ name ++ gap)) (utf8_len (before ++ name ++ gap ++ s)) r] [] (Some p).
Inductive replacement (m : list (str * act_id)) (a : act_id) (r : reference) : str -> sem_info -> Prop :=
| replacement_of az title name s e : In az the -> act_named m a (lit " " ++ s ++ e) title name ->
    said_ended (lower_parts r) s -> In e replacement_endings ->
    replacement m a r (az ++ title ++ name ++ lit " " ++ s ++ e) 
      (amending (az ++ title) name (lit " ") s a r (amendment r false)).

(** ** Insertion: "... 5. §-a a következő (3) bekezdéssel egészül ki:" *)
Definition following : list str := map lit ["a következő"; "az alábbi"]%string.
Definition insertion_endings : list str := map lit [" egészül ki:"; " kiegészülve lép hatályba:"]%string.
(** The new element is the last part; those before it say where it is put. First what is before the reference, then
    the reference. *)
Inductive inserted_phrase : list any_part -> str -> str -> Prop :=
| inserted_article x f s : In f following -> said_ended [PartArticle x] s -> inserted_phrase [PartArticle x] (lit " " ++ f ++ lit " ") s
| inserted_under ps p s f s' : ps <> [] -> said_ended ps s -> In f following -> said_ended [p] s' ->
    inserted_phrase (ps ++ [p]) (lit " ") (s ++ lit " " ++ f ++ lit " " ++ s').
Inductive insertion (m : list (str * act_id)) (a : act_id) (r : reference) : str -> sem_info -> Prop :=
| insertion_of az title name gap s e : In az the -> act_named m a (gap ++ s ++ e) title name ->
    inserted_phrase (lower_parts r) gap s -> In e insertion_endings ->
    insertion m a r (az ++ title ++ name ++ gap ++ s ++ e) (amending (az ++ title) name gap s a r (amendment r true)).
