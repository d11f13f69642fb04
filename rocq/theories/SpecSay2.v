(** Specification for sentences of enforcement (C73): "Ez a törvény 2013. január 1-jén lép hatályba." *)
From Verif Require Export SpecSay SpecMk.

Definition this_act : list str := map lit ["Ez a törvény "; "E törvény "]%string.
(** "2013. január 1-jén" *)
Inductive on_day (d : date) : str -> Prop :=
| on_day_of y dd e : (d_year d <= 262143)%Z -> valid_date (d_year d) (d_month d) (d_day d) -> (0 <= d_year d)%Z ->
    denotes_dec y (Z.to_N (d_year d)) -> denotes_dec dd (d_day d) -> In e (map lit ["-án"; "-jén"; "-én"; ". napján"]%string) ->
    on_day d (y ++ lit ". " ++ month_name (d_month d) ++ lit " " ++ dd ++ e).
(** "tizenötödik" or "15." *)
Definition ordinal_values : list N :=
  [1; 2; 3; 4; 5; 6; 7; 8; 9; 10; 11; 12; 13; 14; 15; 16; 17; 18; 19; 20; 30; 40; 50; 60; 70; 80; 90]%N.
Definition in_words (n : N) (s : str) : Prop := In (s, n) (combine ordinals ordinal_values).
Inductive ordinal_said (n : N) : str -> Prop :=
| ordinal_word s : in_words n s -> ordinal_said n s
| ordinal_digits s : denotes_dec s n -> (n <= 65535)%N -> ordinal_said n (s ++ lit ".").
(** "a kihirdetését követő" *)
Definition publishing : list str := flat_map (fun p => map (fun k => p ++ k ++ lit " követő ") (map lit ["kihirdetését"; "kihirdetést"]%string))
  (map lit ["a "; "e törvény "; "az e törvény "; ""]%string).
Inductive coming_into_force : ed_type -> str -> Prop :=
| on_a_date d s : on_day d s -> coming_into_force (EdDate d) s
| on_the_next_day p : In p publishing -> coming_into_force (EdDaysAfter 1) (p ++ lit "napon")
| after_days p n s : In p publishing -> ordinal_said n s -> coming_into_force (EdDaysAfter n) (p ++ s ++ lit " napon")
| in_next_month p n s : In p publishing -> ordinal_said n s -> coming_into_force (EdDayInMonth None n) (p ++ lit "hónap " ++ s ++ lit " napján")
| in_month p m w n s : In p publishing -> in_words m w -> ordinal_said n s ->
    coming_into_force (EdDayInMonth (Some m) n) (p ++ w ++ lit " hónap " ++ s ++ lit " napján").
(** ", és 2014. január 1-jén hatályát veszti" *)
Definition and_it : list str := flat_map (fun p => map (fun k => p ++ k) (map lit [" és "; " és ez a törvény "; " és e törvény "]%string)) [[]; lit ","].
Inductive then_repealed : option date -> str -> Prop :=
| stays_in_force : then_repealed None []
| repealed_on d p s : In p and_it -> on_day d s -> then_repealed (Some d) (p ++ s ++ lit " hatályát veszti").
(** Nothing is named, so it is the whole act that comes into force. *)
Inductive enforced (e : enforcement) : str -> Prop :=
| enforced_act t s r : In t this_act -> coming_into_force (ed_date e) s -> then_repealed (ed_repeal e) r ->
    ed_positions e = [] -> ed_structural e = [] -> ed_default e = true ->
    enforced e (t ++ s ++ lit " lép hatályba" ++ r ++ lit ".").
