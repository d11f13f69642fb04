(** Specification for sentences which replace and add in a part of an act, or do both (C79): "... Második Része 5. §-a
    helyébe a következő rendelkezés lép, és az Fgytv. Második Része a következő 5/A. §-sal egészül ki:" *)
From Verif Require Export SpecSay5 SpecSay7.

(** In a structural element, whole articles are put under it. *)
Definition amendment_in (p : option sr_parent) (r : reference) (insertion : bool) : phrase :=
  match lower_parts r with
  | [PartArticle x] => PhStructural (mkSbaPhrase (mkSRef (f_act r) None p (SeArticle x) false) insertion)
  | _ => PhBlock (mkBaPhrase r insertion)
  end.
(** What is found at [s] after [before] *)
Definition found_at (before s : str) (r : reference) : out_ref := mkOut (utf8_len before) (utf8_len (before ++ s)) r.
(** ", és", " valamint ezzel egyidejűleg" *)
Definition joining_words : list str := map lit ["és"; "valamint"; "ezzel"; "egyidejűleg"]%string.
Inductive words_joined : str -> Prop :=
| no_word_joined : words_joined []
| word_joined w s : In w joining_words -> words_joined s -> words_joined (lit " " ++ w ++ s).
Inductive joined_by : str -> Prop :=
| joined_words c s : In c [[]; lit ","] -> words_joined s -> s <> [] -> joined_by (c ++ s).
(** The act may be named again. *)
Inductive named_again (m : list (str * act_id)) (a : act_id) (rest : str) : str -> Prop :=
| not_named_again : unnamed m rest -> named_again m a rest []
| again_named z name : In z (map lit ["a "; "az "]%string) -> act_named m a rest [] name -> named_again m a rest (lit " " ++ z ++ name).
(** What is said after the name of the act: [r] is the position. *)
Inductive block_change (m : list (str * act_id)) (a : act_id) (before : str) : option sr_parent -> reference -> bool -> list out_ref -> str -> Prop :=
| block_replaced p sp r s e : within_element p sp -> readable_ref r -> f_act r = Some a -> said_ended (lower_parts r) s -> In e replacement_endings ->
    block_change m a before p r false [found_at (before ++ sp ++ lit " ") s r] (sp ++ lit " " ++ s ++ e)
| block_added p sp r gap s e : within_element p sp -> readable_ref r -> f_act r = Some a -> inserted_phrase (lower_parts r) gap s -> In e insertion_endings ->
    block_change m a before p r true [found_at (before ++ sp ++ gap) s r] (sp ++ gap ++ s ++ e)
| block_replaced_and_added p sp r s e j n sp' r' gap s' e' x :
    within_element p sp -> readable_ref r -> f_act r = Some a -> said_ended (lower_parts r) s -> In (e ++ lit ":") replacement_endings ->
    joined_by j -> named_again m a (sp' ++ gap ++ s' ++ e') n -> sp' = [] \/ within_element p sp' ->
    readable_ref r' -> f_act r' = Some a -> inserted_phrase (lower_parts r') gap s' -> In e' insertion_endings ->
    amended_position [r; r'] x ->
    block_change m a before p x false
      [found_at (before ++ sp ++ lit " ") s r; found_at (before ++ sp ++ lit " " ++ s ++ e ++ j ++ n ++ sp' ++ gap) s' r']
      (sp ++ lit " " ++ s ++ e ++ j ++ n ++ sp' ++ gap ++ s' ++ e').
Inductive block_sentence (m : list (str * act_id)) (a : act_id) : str -> sem_info -> Prop :=
| block_sentence_of az title name p r i l s : In az the -> act_named m a s title name -> block_change m a (az ++ title ++ name) p r i l s ->
    block_sentence m a (az ++ title ++ name ++ s) (mkSi (act_found (az ++ title) name a :: l) [] (Some (amendment_in p r i))).
