(** Specifications for the text output (C38, C53, C54). *)
From Verif Require Export ModelOut SpecSem.
Local Open Scope N_scope.

(** ** Cutting a text at references (C38) *)
Definition boundary (t : str) (n : N) : Prop := exists a b, t = a ++ b /\ utf8_len a = n.
(** The references follow each other, and begin and end at characters of the text. *)
Fixpoint cuttable (t : str) (lo : N) (refs : list out_ref) : Prop :=
  match refs with
  | [] => True
  | o :: refs' => lo <= o_start o /\ o_start o <= o_end o /\ boundary t (o_start o) /\ boundary t (o_end o) /\ cuttable t (o_end o) refs'
  end.
(** Plain and marked pieces alternate, beginning and ending with a plain one. *)
Fixpoint alternating (l : list (str * bool)) : Prop :=
  match l with
  | [(_, false)] => True
  | (_, false) :: (_, true) :: l' => alternating l'
  | _ => False
  end.
Definition marked (l : list (str * bool)) : list str := map fst (filter snd l).

(** ** What is written (C53) *)
Definition solid (s : str) : str := filter (fun c => negb (is_whitespace c)) s.
Definition opt_text (o : option str) : str := match o with Some s => s | None => [] end.
Definition note (o : option str) : str := match o with Some s => lit "(" ++ s ++ lit ")" | None => [] end.
Definition elem_texts {I C} (header : I -> str) (below : C -> str) (e : sae I C) : str :=
  header (s_id e) ++
  match s_body e with BText t => t | BChildren i c w => i ++ below c ++ opt_text w end.
Definition sub_texts {I} (header : I -> str) : sae I Empty_set -> str := elem_texts header (fun c : Empty_set => match c with end).
Definition alpha_texts : alpha_point -> str :=
  elem_texts alpha_header (fun c => match c with AcAlpha l => flat_map (sub_texts alpha_sub_header) l | AcNum l => flat_map (sub_texts num_header) l end).
Definition num_texts : num_point -> str :=
  elem_texts num_header (fun c => match c with NcAlpha l => flat_map (sub_texts alpha_sub_header) l end).
Definition quoted_texts (q : quoted_block) : str :=
  opt_text (qb_intro q) ++ lit "„" ++ flat_map content (qb_lines q) ++ lit "”" ++ opt_text (qb_wrap q).
Definition structural_texts (e : struct_elem) : str :=
  match se_header (se_ty e) (se_id e) with Ok h => h | _ => [] end ++ se_title e.
Definition subtitle_texts (s : subtitle) : str :=
  match st_id s with Some i => numeric_show_slash i ++ lit "." | None => [] end ++ st_title s.
Definition child_texts {P} (below : P -> str) (c : act_child_of P) : str :=
  match c with
  | ChStruct e => structural_texts e
  | ChSubtitle s => subtitle_texts s
  | ChArticle a =>
      article_header (ar_ident a) ++ match ar_title a with Some t => lit "[" ++ t ++ lit "]" | None => [] end
      ++ flat_map below (ar_children a)
  end.
Fixpoint pc_texts (c : par_children) : str :=
  match c with
  | PcAlpha l => flat_map alpha_texts l
  | PcNum l => flat_map num_texts l
  | PcQuoted l => flat_map quoted_texts l
  | PcBlock b =>
      note (bk_intro b) ++ lit "„" ++
      match bk_children b with
      | BcParagraph l => flat_map (elem_texts par_header pc_texts) l
      | BcAlpha l => flat_map alpha_texts l
      | BcNum l => flat_map num_texts l
      | BcAlphaSub l => flat_map (sub_texts alpha_sub_header) l
      | BcNumSub l => flat_map (sub_texts num_header) l
      end ++ lit "”" ++ note (bk_wrap b)
  | PcStruct b =>
      note (sb_intro b) ++ lit "„" ++ flat_map (child_texts (elem_texts par_header pc_texts)) (sb_children b) ++ lit "”" ++ note (sb_wrap b)
  end.
(** All texts of an act with the headers of its elements, in document order *)
Definition act_texts (a : act) : str :=
  match act_show (ac_id a) with Ok s => s | _ => [] end ++ ac_subject a ++ ac_preamble a
  ++ flat_map (child_texts (elem_texts par_header pc_texts)) (ac_children a).

(** ** When it can be written (C54) *)
(** The levels of indentation needed below *)
Definition max_of {T} (f : T -> N) (l : list T) : N := fold_right N.max 0 (map f l).
Definition child_levels {P} (f : P -> N) (c : act_child_of P) : N :=
  match c with ChArticle a => 2 + max_of f (ar_children a) | _ => 0 end.
Definition elem_levels {I C} (f : C -> N) (e : sae I C) : N :=
  1 + match s_body e with BText _ => 0 | BChildren _ c _ => f c end.
Fixpoint pc_levels (c : par_children) : N :=
  match c with
  | PcAlpha _ | PcNum _ => 2
  | PcQuoted _ => 0
  | PcBlock b => 1 + match bk_children b with
                     | BcParagraph l => max_of (elem_levels pc_levels) l
                     | BcAlpha _ | BcNum _ => 2
                     | BcAlphaSub _ | BcNumSub _ => 1
                     end
  | PcStruct b => 1 + max_of (child_levels (elem_levels pc_levels)) (sb_children b)
  end.
Definition act_levels (a : act) : N := 1 + max_of (child_levels (elem_levels pc_levels)) (ac_children a).
(** The own texts of all elements with their references, also inside amendments *)
Definition elem_refs {I C} (f : C -> list (str * list out_ref)) (e : sae I C) : list (str * list out_ref) :=
  match s_body e with
  | BText t => [(t, si_outgoing (s_si e))]
  | BChildren t c _ => (t, si_outgoing (s_si e)) :: f c
  end.
Definition sub_refs {I} : sae I Empty_set -> list (str * list out_ref) := elem_refs (fun c : Empty_set => match c with end).
Definition alpha_refs : alpha_point -> list (str * list out_ref) :=
  elem_refs (fun c => match c with AcAlpha l => flat_map sub_refs l | AcNum l => flat_map sub_refs l end).
Definition num_refs : num_point -> list (str * list out_ref) :=
  elem_refs (fun c => match c with NcAlpha l => flat_map sub_refs l end).
Definition child_refs {P} (f : P -> list (str * list out_ref)) (c : act_child_of P) : list (str * list out_ref) :=
  match c with ChArticle a => flat_map f (ar_children a) | _ => [] end.
Fixpoint pc_refs (c : par_children) : list (str * list out_ref) :=
  match c with
  | PcAlpha l => flat_map alpha_refs l
  | PcNum l => flat_map num_refs l
  | PcQuoted _ => []
  | PcBlock b =>
      match bk_children b with
      | BcParagraph l => flat_map (elem_refs pc_refs) l
      | BcAlpha l => flat_map alpha_refs l
      | BcNum l => flat_map num_refs l
      | BcAlphaSub l => flat_map sub_refs l
      | BcNumSub l => flat_map sub_refs l
      end
  | PcStruct b => flat_map (child_refs (elem_refs pc_refs)) (sb_children b)
  end.
Definition act_refs (a : act) : list (str * list out_ref) := flat_map (child_refs (elem_refs pc_refs)) (ac_children a).
