(** Model of src/output/text.rs and of quick_display_indented_line of src/output/mod.rs.  No proofs in this file.

    Simplifications: what was written before a failure is not kept; the writer itself does not fail;
    [textwrap::wrap] is the argument [wrap]; [usize] subtraction panics when it would be negative (as in debug
    builds). *)
From Verif Require Export ModelSem.

(** [&text[a..b]]: byte positions, panics when they are not boundaries of characters or not in order *)
Fixpoint split_at_byte (s : str) (n : N) : option (str * str) :=
  if (n =? 0)%N then Some ([], s) else
  match s with
  | [] => None
  | c :: s' =>
      if (n <? char_len c)%N then None
      else match split_at_byte s' (n - char_len c)%N with Some (a, b) => Some (c :: a, b) | None => None end
  end.
Definition byte_range (s : str) (a b : N) : outcome str :=
  match split_at_byte s b with
  | Some (s', _) => match split_at_byte s' a with Some (_, x) => Ok x | None => Panic end
  | None => Panic
  end.
(** text.rs:358-371 split_string_at_references *)
Fixpoint split_refs (text : str) (prev_end : N) (refs : list out_ref) : outcome (list (str * bool)) :=
  match refs with
  | [] => let* x := byte_range text prev_end (utf8_len text) in Ok [(x, false)]
  | o :: refs' =>
      let* x := byte_range text prev_end (o_start o) in
      let* y := byte_range text (o_start o) (o_end o) in
      let* l := split_refs text (o_end o) refs' in
      Ok ((x, false) :: (y, true) :: l)
  end.
Definition split_string_at_references (text : str) (refs : list out_ref) : outcome (list (str * bool)) :=
  split_refs text 0 refs.

(** text.rs:32-38 TextOutputParams *)
Record oparams := mkOp { op_width : N; op_level : N; op_next : bool; op_colored : bool }.
(** text.rs:281-288 new *)
Definition op_new (width : N) (colored : bool) : oparams := mkOp width 0 true colored.
Definition op_set_next (b : bool) (p : oparams) : oparams := mkOp (op_width p) (op_level p) b (op_colored p).
(** text.rs:328-333 indented *)
Definition op_indented (p : oparams) : oparams := mkOp (op_width p) (op_level p + 1) (op_next p) (op_colored p).
(** text.rs:320-326 colorize *)
Definition colorize (p : oparams) (text code : str) : str :=
  if op_colored p then [27%N] ++ lit "[" ++ code ++ lit "m" ++ text ++ [27%N] ++ lit "[0m" else text.
(** text.rs:289-296 write_indent_if_needed *)
Definition write_indent (p : oparams) : str :=
  if op_next p then List.concat (repeat (lit "     ") (N.to_nat (op_level p))) else [].
(** text.rs:298-303 write_header; the new value of [indent_next_line] is false *)
Definition write_header (p : oparams) (text : str) : str := write_indent p ++ text.
Definition newline : str := [10%N].
(** text.rs:373-374 *)
Definition code_bold : str := lit "1".
Definition code_italic : str := lit "3".
(** [format!("{:<n}")] *)
Definition pad_right (n : nat) (s : str) : str := s ++ repeat 32%N (n - List.length s).

Section Out.
  Variable wrap : str -> N -> list str.

  (** text.rs:305-312 write_wrapped_line; [indent_next_line] becomes true after the first line *)
  Definition wrapped_lines (p : oparams) (ls : list str) : str :=
    match ls with
    | [] => []
    | l :: ls' =>
        write_indent p ++ l ++ newline
        ++ flat_map (fun l => write_indent (op_set_next true p) ++ l ++ newline) ls'
    end.
  Definition write_wrapped (p : oparams) (text : str) : outcome (str * oparams) :=
    if (op_width p <? op_level p * 5)%N then Panic
    else
      let ls := wrap text (op_width p - op_level p * 5)%N in
      Ok (wrapped_lines p ls, if is_empty ls then p else op_set_next true p).
  Definition write_opt (p : oparams) (f : str -> str) (o : option str) : outcome (str * oparams) :=
    match o with Some t => write_wrapped p (f t) | None => Ok ([], p) end.
  (** text.rs:336-356 colorize_sae_string *)
  Definition colorize_sae (text : str) (p : oparams) (i : sem_info) : outcome str :=
    let default := if is_some (si_phrase i) then lit "33" else lit "0" in
    let* l := split_string_at_references text (si_outgoing i) in
    Ok (flat_map (fun '(t, c) => colorize p t (if c : bool then lit "36" else default)) l).
  (** text.rs:270-278 Vec *)
  Definition write_list {T} (f : T -> oparams -> outcome str) : list T -> oparams -> outcome str :=
    fix go l p :=
      match l with
      | [] => Ok []
      | x :: l' => let* a := f x p in let* b := go l' (op_set_next true p) in Ok (a ++ b)
      end.
  (** text.rs:124-157 SubArticleElement *)
  Definition write_sae {I C} (header : I -> str) (wc : C -> oparams -> outcome str) (e : sae I C) (p : oparams) : outcome str :=
    let h := write_header p (pad_right 5 (header (s_id e))) in
    let p := op_indented (op_set_next false p) in
    match s_body e with
    | BText t =>
        let* t := colorize_sae t p (s_si e) in
        let* a := write_wrapped p t in
        Ok (h ++ fst a)
    | BChildren intro ch wrap_up =>
        let* t := colorize_sae intro p (s_si e) in
        let* a := write_wrapped p t in
        let* b := wc ch (snd a) in
        let* c := write_opt (snd a) (fun t => t) wrap_up in
        Ok (h ++ fst a ++ b ++ fst c)
    end.
  (** text.rs:171-200 the children of points *)
  Definition write_sub {I} (header : I -> str) : sae I Empty_set -> oparams -> outcome str :=
    write_sae header (fun c : Empty_set => match c with end).
  Definition write_alpha : alpha_point -> oparams -> outcome str :=
    write_sae alpha_header (fun c p =>
      match c with AcAlpha l => write_list (write_sub alpha_sub_header) l p | AcNum l => write_list (write_sub num_header) l p end).
  Definition write_num : num_point -> oparams -> outcome str :=
    write_sae num_header (fun c p => match c with NcAlpha l => write_list (write_sub alpha_sub_header) l p end).
  (** text.rs:202-226 QuotedBlock; coordinates are thousandths, [as usize] makes negative numbers zero *)
  Definition min_indent (ls : list line) : Z :=
    fold_left (fun a b => if (b <? a)%Z then b else a) (filter (fun i => (0 <? i)%Z) (map indent ls)) (1000 * unit_pt)%Z.
  Definition write_quoted_line (m : Z) (l : line) (p : oparams) : str :=
    write_header p (repeat 32%N (Z.to_nat (Z.quot (indent l - m) (5 * unit_pt)) + 5)) ++ content l ++ newline.
  Definition write_quoted (q : quoted_block) (p : oparams) : outcome str :=
    let* a := write_opt p (fun t => t) (qb_intro q) in
    let* b := write_wrapped (snd a) (lit "„") in
    let m := min_indent (qb_lines q) in
    let* ls := write_list (fun l p => Ok (write_quoted_line m l p)) (qb_lines q) (snd b) in
    let p := if is_empty (qb_lines q) then snd b else op_set_next true (snd b) in
    let* c := write_wrapped p (lit "”") in
    let* d := write_opt (snd c) (fun t => t) (qb_wrap q) in
    Ok (fst a ++ fst b ++ ls ++ fst c ++ fst d).
  (** text.rs:240-268 BlockAmendment and StructuralBlockAmendment *)
  Definition write_amendment (intro wrap_up : option str) (wc : oparams -> outcome str) (p : oparams) : outcome str :=
    let note := fun t => colorize p (lit "(" ++ t ++ lit ")") code_italic in
    let* a := write_opt p note intro in
    let* b := write_wrapped (snd a) (lit "„") in
    let* c := wc (op_indented (snd b)) in
    let* d := write_wrapped (snd b) (lit "”") in
    let* e := write_opt (snd d) note wrap_up in
    Ok (fst a ++ fst b ++ c ++ fst d ++ fst e).
  (** text.rs:82-90 StructuralElement, 92-104 Subtitle *)
  Definition write_structural (e : struct_elem) (p : oparams) : outcome str :=
    let* h := se_header (se_ty e) (se_id e) in
    let* a := write_wrapped p (colorize p h code_italic) in
    if is_empty (se_title e) then Ok (fst a)
    else let* b := write_wrapped (snd a) (colorize p (se_title e) code_italic) in Ok (fst a ++ fst b).
  Definition write_subtitle (s : subtitle) (p : oparams) : outcome str :=
    let t := match st_id s with Some i => numeric_show_slash i ++ lit ". " ++ st_title s | None => st_title s end in
    omap fst (write_wrapped p (colorize p t code_bold)).
  (** text.rs:106-122 Article *)
  Definition write_article {P} (wp : P -> oparams -> outcome str) (a : article_of P) (p : oparams) : outcome str :=
    let h := write_header p (colorize p (pad_right 10 (article_header (ar_ident a))) code_bold) in
    let p := op_indented (op_indented (op_set_next false p)) in
    let* t := write_opt p (fun t => lit "     [" ++ t ++ lit "]") (ar_title a) in
    let* c := write_list wp (ar_children a) (snd t) in
    Ok (h ++ fst t ++ c ++ if is_empty (ar_children a) then newline else []).
  (** text.rs:72-80 ActChild *)
  Definition write_child {P} (wp : P -> oparams -> outcome str) (c : act_child_of P) (p : oparams) : outcome str :=
    match c with ChStruct e => write_structural e p | ChSubtitle s => write_subtitle s p | ChArticle a => write_article wp a p end.
  (** text.rs:159-169 ParagraphChildren, 228-238 BlockAmendmentChildren *)
  Fixpoint write_pc (c : par_children) (p : oparams) : outcome str :=
    match c with
    | PcAlpha l => write_list write_alpha l p
    | PcNum l => write_list write_num l p
    | PcQuoted l => write_list write_quoted l p
    | PcBlock b =>
        write_amendment (bk_intro b) (bk_wrap b) (fun p =>
          match bk_children b with
          | BcParagraph l => write_list (write_sae par_header write_pc) l p
          | BcAlpha l => write_list write_alpha l p
          | BcNum l => write_list write_num l p
          | BcAlphaSub l => write_list (write_sub alpha_sub_header) l p
          | BcNumSub l => write_list (write_sub num_header) l p
          end) p
    | PcStruct b =>
        write_amendment (sb_intro b) (sb_wrap b) (fun p => write_list (write_child (write_sae par_header write_pc)) (sb_children b) p) p
    end.
  Definition write_par : paragraph -> oparams -> outcome str := write_sae par_header write_pc.
  (** text.rs:44-70 Act *)
  Definition is_article (c : act_child) : bool := match c with ChArticle _ => true | _ => false end.
  Fixpoint write_children (last_article : bool) (l : list act_child) (p : oparams) : outcome str :=
    match l with
    | [] => Ok []
    | c :: l' =>
        let nl := negb last_article || negb (is_article c) in
        let p := if nl then op_set_next true p else p in
        let* a := write_child write_par c p in
        let* b := write_children (is_article c) l' p in
        Ok ((if nl then newline else []) ++ a ++ b)
    end.
  Definition write_act (a : act) (p : oparams) : outcome str :=
    let* i := act_show (ac_id a) in
    let h := write_header p (colorize p i code_bold ++ lit " " ++ ac_subject a) in
    let* pre := write_wrapped (op_set_next true p) (ac_preamble a) in
    let* c := write_children true (ac_children a) (op_set_next true (snd pre)) in
    Ok (h ++ newline ++ newline ++ fst pre ++ newline ++ c).
  (** output/mod.rs:141-152 cli_output_plain of Act *)
  Definition act_output (width : N) (colored : bool) (a : act) : outcome str :=
    write_act a (op_indented (op_new width colored)).
End Out.

(** output/mod.rs:154-170 quick_display_indented_line; [as usize] of a fifth of the indent *)
Definition quick_display (l : line) (tags : bool) : str :=
  let ind := Z.to_nat (Z.quot (indent l) (5 * unit_pt)) in
  let bold := tags && l_bold l in
  let nj := tags && negb (l_just l) in
  let ind := if bold then (ind - 6)%nat else ind in
  let ind := if nj then (ind - 4)%nat else ind in
  (if bold then lit "<BOLD>" else []) ++ (if nj then lit "<NJ>" else []) ++ repeat 32%N ind ++ content l.
