(** Specification for whole acts (C82): sentences of every kind, one after the other. *)
From Verif Require Export SpecSay8 SpecSay10.

(** The sentences with a special meaning (C71-C79): amendments, sentences about force, repeals and changes of texts *)
Inductive special (m : list (str * act_id)) : str -> sem_info -> Prop :=
| special_replacement a r s i : readable_ref r -> f_act r = Some a -> replacement m a r s i -> special m s i
| special_insertion a r s i : readable_ref r -> f_act r = Some a -> insertion m a r s i -> special m s i
| special_enforced e s : enforced e s -> special m s (mkSi [] [] (Some (PhEnforcement e)))
| special_repeal a s i : repeal m a s i -> special m s i
| special_text a s i : text_exchange m a s i -> special m s i
| special_parts e s i : parts_enforced m e s i -> special m s i
| special_except e s : enforced_except e s -> special m s (mkSi [] [] (Some (PhEnforcement e)))
| special_structural a r ins s i : structural_sentence m a r ins s i -> special m s i
| special_subtitle a s i : subtitle_sentence m a s i -> special m s i
| special_block a s i : block_sentence m a s i -> special m s i.
(** What is to be read from a text in its sentence, and the abbreviations it introduces. A special sentence may be the text alone or
    with the words before and after it; the references ending in the text are its own. *)
Inductive text_says (m : list (str * act_id)) (t : task) : sem_info -> list (str * act_id) -> Prop :=
| says_speech i n : spoken_task m t i n -> text_says m t i n
| says_special s text i own : sentence t text -> sentence (mkTask [] s [] false) text -> special m s i ->
    kept (utf8_len (t_before t)) (utf8_len text - utf8_len (t_after t)) (si_outgoing i) own ->
    text_says m t (mkSi own [] (phrase_kept (t_intro t) (si_phrase i))) [].
(** One text after the other; what a sentence introduces is known in those after it. *)
Inductive texts_say : list (str * act_id) -> list task -> list sem_info -> list (str * act_id) -> Prop :=
| texts_say_none m : texts_say m [] [] []
| texts_say_more m t ts i is n n' m1 : text_says m t i n -> learned m n m1 -> texts_say m1 ts is n' -> texts_say m (t :: ts) (i :: is) (n ++ n').
