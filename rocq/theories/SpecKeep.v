(** Specification for what the program makes of texts and whether it can be stored (C86). *)
From Verif Require Export SpecSave SpecInform.

(** [roman::from] gives an i32. *)
Definition roman_i32 (rf : str -> option Z) : Prop := forall s z, rf s = Some z -> (i32_min <= z <= i32_max)%Z.
(** All dates of the calendar are among [D]. *)
Definition has_dates (D : date -> Prop) : Prop := forall y m d x, from_ymd y m d = Some x -> D x.
(** Places in texts are usize in the code. *)
Definition places_fit (i : sem_info) : Prop := Forall (fun o => o_start o < 2 ^ 64 /\ o_end o < 2 ^ 64)%N (si_outgoing i).
(** Texts of elements, with a full stop, have less than 2^64 bytes. *)
Definition texts_short (a : act) : Prop := Forall (fun p => utf8_len (own_text (snd p)) + 1 < 2 ^ 64)%N (elements a).
(** The identifiers and the date of a text cut from an issue are possible. *)
Definition raw_fits (D : date -> Prop) (raw : act_raw) : Prop := act_id_fits (ar_id raw) /\ D (ar_date raw).
(** An act as it is left by the steps of the program, whether or not the last two succeed *)
Inductive act_made (rf : str -> option Z) (up : char -> bool) (gp : str -> list str -> outcome g_root) (raw : act_raw) : act -> Prop :=
| made_structure a : parse_act_structure rf up raw = Ok a -> act_made rf up gp raw a
| made_informed a b o : parse_act_structure rf up raw = Ok a -> add_semantic_info rf gp a = (b, o) -> act_made rf up gp raw b
| made_converted a b c o o' : parse_act_structure rf up raw = Ok a -> add_semantic_info rf gp a = (b, o) -> convert_act rf up b = (c, o') -> act_made rf up gp raw c.
