(** Specification for what is found in the files a run leaves (C87). *)
From Verif Require Export SpecKeep ModelMain.

(** serde_json and serde_yaml (external): [wr] makes a text of a tree of values, [rd] reads it back, and acts are written with them. *)
Definition texts_read (wr : format -> value -> str) (rd : format -> str -> outcome value) : Prop := forall f v, rd f (wr f v) = Ok v.
Definition acts_through (x : external) (wr : format -> value -> str) : Prop := forall f a, x_serialize x f (DAct a) = Ok (wr f (put_act a)).
(** A text gives an act, with at most one level of acts in amendments. *)
Definition gives_act (rd : format -> str -> outcome value) (dp : str -> outcome date) (f : format) (s : str) (a : act) : Prop :=
  exists v, rd f s = Ok v /\ get_act dp 2 v = Ok a.
(** An act of one of the issues, and its lines after stored fixups *)
Definition of_issues (x : external) (raw : act_raw) : Prop :=
  exists i pages raws, x_pages x i = Ok pages /\ parse_mk_pages (x_ud x) (x_rf x) pages = Ok raws /\ In raw raws.
Definition short_texts (x : external) (raw : act_raw) : Prop := forall s, parse_act_structure (x_rf x) (x_up x) raw = Ok s -> texts_short s.
(** The act made of lines at the step where the program was told to stop *)
Inductive act_at (x : external) (raw : act_raw) : parsing_step -> act -> Prop :=
| at_structure a : parse_act_structure (x_rf x) (x_up x) raw = Ok a -> act_at x raw StepStructure a
| at_semantic a b c ch : parse_act_structure (x_rf x) (x_up x) raw = Ok a -> add_semantic_info (x_rf x) grammar_parse a = (b, Ok ch) ->
    convert_act (x_rf x) (x_up x) b = (c, Ok tt) -> act_at x raw StepSemantic c.
(** The lines of a text after the fixups stored for it *)
Definition fixed (st : store) (raw raw2 : act_raw) : Prop :=
  exists fs body, st (ar_id raw) = Ok fs /\ load_body fs (ar_body raw) = (body, Ok tt) /\ raw2 = ModelMk.set_body raw body.
(** What a written text is: nothing, or the act made of an act of the issues, which can be read back *)
Definition good_text (x : external) (rd : format -> str -> outcome value) (dp : str -> outcome date) (g : args) (from : store -> Prop) (s : str) : Prop :=
  s = [] \/ exists st raw raw2 a, from st /\ of_issues x raw /\ fixed st raw raw2 /\ act_at x raw2 (ag_until g) a /\
    (short_texts x raw2 -> gives_act rd dp (ag_format g) s a).
Definition good_happening (x : external) (rd : format -> str -> outcome value) (dp : str -> outcome date) (g : args) (from : store -> Prop) (e : happening) : Prop :=
  match e with Wrote _ s => good_text x rd dp g from s | _ => True end.
