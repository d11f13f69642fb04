(** Specification for sentences bringing parts of an act into force (C76): "A 3. § és az 5. § (2) bekezdése 2013. január 1-jén lép hatályba." *)
From Verif Require Export SpecSay4.

(** No act is named: the number of an act has "évi" in it. *)
Record unnamed (m : list (str * act_id)) (s : str) : Prop := {
  un_number : ~ in_text (lit "évi") s; un_known : forall k b, In (k, b) m -> ~ in_text k s }.
Definition no_reference : reference := mkRef None None None None None.
Definition the_capital : list str := map lit ["A "; "Az "]%string.
(** What is listed is brought into force, and nothing else. *)
Inductive parts_enforced (m : list (str * act_id)) (e : enforcement) : str -> sem_info -> Prop :=
| parts_enforced_of az s l w r : In az the_capital -> said_list no_reference (utf8_len az) s l -> ~ begins_with (lit "a") s ->
    coming_into_force (ed_date e) w -> then_repealed (ed_repeal e) r -> unnamed m (s ++ lit " " ++ w ++ lit " lép hatályba" ++ r ++ lit ".") ->
    ed_positions e = map o_ref l -> ed_structural e = [] -> ed_default e = false ->
    parts_enforced m e (az ++ s ++ lit " " ++ w ++ lit " lép hatályba" ++ r ++ lit ".") (mkSi l [] (Some (PhEnforcement e))).

(** "Ez a törvény – a 3. §-ban foglalt kivétellel – 2013. január 1-jén lép hatályba." The exception is told elsewhere. *)
Definition dashes : list str := map lit [""; "- "; "– "; "− "]%string.
Inductive exception_said : str -> Prop :=
| exception_of d r s k e e' d' : In d dashes -> readable_ref r -> f_act r = None -> said_ended (lower_parts r) s ->
    In k (map lit ["szerinti"; "foglalt"]%string) -> Forall small_letter e -> Forall small_letter e' -> In d' dashes ->
    exception_said (d ++ lit "a " ++ s ++ lit " " ++ k ++ e ++ lit " kivétel" ++ e' ++ lit " " ++ d').
Inductive enforced_except (e : enforcement) : str -> Prop :=
| enforced_except_of t x s r : In t this_act -> exception_said x -> coming_into_force (ed_date e) s -> then_repealed (ed_repeal e) r ->
    ed_positions e = [] -> ed_structural e = [] -> ed_default e = true ->
    enforced_except e (t ++ x ++ s ++ lit " lép hatályba" ++ r ++ lit ".").
