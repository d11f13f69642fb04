(** Specification for what semantic information changes in an act (C83): the information, and nothing else. *)
From Verif Require Export SpecSem.

(** An act without its semantic information; unlike [bare_act] this keeps the last changes of the elements. *)
Definition blank {I C} (f : C -> C) (e : sae I C) : sae I C :=
  mkSae (s_id e) (match s_body e with BText t => BText t | BChildren i c w => BChildren i (f c) w end) si_default (s_change e).
Definition blank_sub {I} (e : sae I Empty_set) : sae I Empty_set := blank (fun c => c) e.
Definition blank_alpha (e : alpha_point) : alpha_point :=
  blank (fun c => match c with AcAlpha l => AcAlpha (map blank_sub l) | AcNum l => AcNum (map blank_sub l) end) e.
Definition blank_num (e : num_point) : num_point := blank (fun c => match c with NcAlpha l => NcAlpha (map blank_sub l) end) e.
Definition blank_par (e : paragraph) : paragraph :=
  blank (fun c => match c with PcAlpha l => PcAlpha (map blank_alpha l) | PcNum l => PcNum (map blank_num l) | _ => c end) e.
Definition blank_article (a : article) : article := mkArticle (ar_ident a) (ar_title a) (map blank_par (ar_children a)) (ar_change a).
Definition blank_child (c : act_child) : act_child := match c with ChArticle a => ChArticle (blank_article a) | _ => c end.
Definition blank_act (a : act) : act :=
  mkActS (ac_id a) (ac_subject a) (ac_preamble a) (ac_date a) (ac_abbrevs a) (map blank_child (ac_children a)).
(** The act [a] with the information [is] for its elements, in document order, and the abbreviations [m] *)
Record informed (a : act) (is : list sem_info) (m : list (str * act_id)) (b : act) : Prop := {
  in_rest : blank_act b = blank_act (with_abbrevs a m); in_infos : infos b = is }.
