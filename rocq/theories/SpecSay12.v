(** Specification for the whole way from lines to an act (C84). *)
From Verif Require Export SpecConvert SpecWritten SpecMain SpecInform SpecSay11.

(** The act written in the lines of [raw]: its elements are written in the lines (C63); every text of it says what the sentences in it
    say, with the abbreviations introduced before (C82), which is put in (C83); and every quoted amendment becomes the elements it is a
    written form of (C64). *)
Inductive act_of_lines (rf : str -> option Z) (up : char -> bool) (raw : act_raw) (c : act) : Prop :=
| act_of_lines_is preamble cs a is n m b :
    Forall not_ending_in_space (ar_body raw) -> w_act rf up FullAct preamble cs (ar_body raw) ->
    a = mkActS (ar_id raw) (ar_subject raw) preamble (ar_date raw) [] cs ->
    texts_say [] (act_tasks a) is n -> learned [] n m -> informed a is m b ->
    same_act_but (fun p p' => (candidate p /\ becomes rf up p p') \/ (~ candidate p /\ p' = p)) b c -> act_of_lines rf up raw c.
