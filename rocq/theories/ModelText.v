(** Model of src/util/indentedline.rs, src/util/mod.rs (QuoteCheck), src/fixups.rs and
    src/bin/hun_law/fixup_editor.rs (update_fixups).

    Simplifications:
    - [f64] coordinates are integers counting thousandths of a point ([unit]). Additions and
      comparisons are exact; the two divisions of [apply_to_line] round down. NaN and infinities do
      not exist.
    - [cached_content] is not stored: it is private, and every constructor sets it to the
      concatenated part contents, so [content] recomputes it. [cached_bold] is stored ([l_bold]),
      because [as_bold] sets it independently of the parts. *)
From Verif Require Export Base.

Definition unit_pt : Z := 1000.

(** ** General string functions *)
(** [char::is_whitespace] (external: Unicode White_Space) *)
Definition is_whitespace (c : char) : bool :=
  (((9 <=? c) && (c <=? 13)) || (c =? 32) || (c =? 133) || (c =? 160) || (c =? 5760) ||
   ((8192 <=? c) && (c <=? 8202)) || (c =? 8232) || (c =? 8233) || (c =? 8239) || (c =? 8287) || (c =? 12288))%N.
(** [str::trim_start], [str::trim] *)
Fixpoint trim_start (s : str) : str :=
  match s with [] => [] | c :: s' => if is_whitespace c then trim_start s' else s end.
Definition trim (s : str) : str := rev (trim_start (rev (trim_start s))).
(** [str::contains(&str)] *)
Fixpoint str_contains (pat s : str) : bool :=
  starts_with pat s || match s with [] => false | _ :: s' => str_contains pat s' end.
(** [str::replace] for a non-empty pattern: left to right, non overlapping. *)
Fixpoint replace_aux (pat new : str) (skip : nat) (s : str) : str :=
  match s with
  | [] => []
  | c :: s' =>
      match skip with
      | S k => replace_aux pat new k s'
      | O => if starts_with pat s then new ++ replace_aux pat new (List.length pat - 1) s'
             else c :: replace_aux pat new 0 s'
      end
  end.
Definition str_replace (pat new s : str) : str := replace_aux pat new 0 s.

(** ** IndentedLine *)
(** src/util/indentedline.rs:28-33 IndentedLinePart *)
Record lpart := mkPart { p_dx : Z; p_ch : char; p_bold : bool }.
(** src/util/indentedline.rs:35-41 IndentedLine *)
Record line := mkLine { l_parts : list lpart; l_just : bool; l_bold : bool }.
(** src/util/indentedline.rs:273-278 EMPTY_LINE *)
Definition empty_line : line := mkLine [] false false.

(** src/util/indentedline.rs:44-54 from_parts *)
Definition count_bold (ps : list lpart) : nat := List.length (filter p_bold ps).
Definition from_parts (ps : list lpart) (just : bool) : line :=
  mkLine ps just (2 * List.length ps <? 3 * count_bold ps)%nat.

(** src/util/indentedline.rs:89-109 content, is_bold, is_justified, len, is_empty *)
Definition content (l : line) : str := map p_ch (l_parts l).
Definition l_len (l : line) : nat := List.length (l_parts l).
Definition l_empty (l : line) : bool := is_empty (l_parts l).
(** src/util/indentedline.rs:82-87 indent *)
Definition indent (l : line) : Z := match l_parts l with p :: _ => p_dx p | [] => 0%Z end.

(** src/util/indentedline.rs:56-80 from_multiple; [fm_line] is the inner loop over one line,
    carrying the running [x]. *)
Fixpoint fm_rest (x : Z) (ps : list lpart) : Z :=
  match ps with [] => x | p :: ps' => fm_rest (x + p_dx p)%Z ps' end.
Definition fm_line (x : Z) (ps : list lpart) : list lpart * Z :=
  match ps with
  | [] => ([], x)
  | p :: ps' => (mkPart (p_dx p - x)%Z (p_ch p) (p_bold p) :: ps', fm_rest (p_dx p) ps')
  end.
Fixpoint fm_loop (x : Z) (ls : list line) : list lpart :=
  match ls with
  | [] => []
  | l :: ls' => let '(ps, x') := fm_line x (l_parts l) in ps ++ fm_loop x' ls'
  end.
(** [others.iter().rfind(|l| !l.is_empty()).map_or(false, |o| o.justified)] *)
Definition last_justified (ls : list line) : bool :=
  match filter (fun l => negb (l_empty l)) (rev ls) with l :: _ => l_just l | [] => false end.
Definition from_multiple (ls : list line) : line :=
  from_parts (fm_loop 0 ls) (last_justified ls).

(** src/util/indentedline.rs:250-254 convert_index *)
Definition convert_index (l : line) (i : Z) : nat :=
  let len := Z.of_nat (l_len l) in
  let i := if (0 <=? i)%Z then i else (len + i)%Z in
  Z.to_nat (Z.max 0 (Z.min i len)).

Definition sum_dx (ps : list lpart) : Z := fold_right (fun p x => (p_dx p + x)%Z) 0%Z ps.

(** src/util/indentedline.rs:111-126 slice. [new_parts[0]] exists because [from < to <= len]. *)
Definition slice (l : line) (from : Z) (to : option Z) : line :=
  let f := convert_index l from in
  let t := match to with Some t => convert_index l t | None => l_len l end in
  if (t <=? f)%nat then empty_line
  else
    let ps := firstn (t - f) (skipn f (l_parts l)) in
    let ps' := match ps with
               | p :: ps' => mkPart (p_dx p + sum_dx (firstn f (l_parts l)))%Z (p_ch p) (p_bold p) :: ps'
               | [] => []
               end in
    from_parts ps' (l_just l && (t =? l_len l)%nat).

(** [content().char_indices().position(|(cp, _)| cp == from)] *)
Fixpoint char_position (s : str) (byte : N) : option nat :=
  match s with
  | [] => None
  | c :: s' =>
      if (byte =? 0)%N then Some O
      else if (byte <? char_len c)%N then None
      else match char_position s' (byte - char_len c)%N with Some k => Some (S k) | None => None end
  end.
(** src/util/indentedline.rs:128-145 slice_bytes; [unwrap] of a byte offset that is not the start of
    a character panics. *)
Definition slice_bytes (l : line) (from : N) (to : option N) : outcome line :=
  match char_position (content l) from with
  | None => Panic
  | Some f =>
      match to with
      | None => Ok (slice l (Z.of_nat f) None)
      | Some t =>
          if (utf8_len (content l) <=? t)%N
          then Ok (slice l (Z.of_nat f) (Some (Z.of_nat (List.length (content l)))))
          else match char_position (content l) t with
               | None => Panic
               | Some t' => Ok (slice l (Z.of_nat f) (Some (Z.of_nat t')))
               end
      end
  end.

(** src/util/indentedline.rs:147-175 from_test_str (test helper, used by the conformance files) *)
Fixpoint fts_loop (bold : bool) (spaces : Z) (s : str) : list lpart :=
  match s with
  | [] => []
  | c :: s' =>
      if (c =? 32)%N then
        (if (spaces =? 0)%Z then [mkPart (5 * unit_pt) c bold] else []) ++ fts_loop bold (spaces + 1) s'
      else mkPart ((5 + spaces * 5) * unit_pt)%Z c bold :: fts_loop bold 0 s'
  end.
Definition from_test_str (s : str) : line :=
  let bold := str_contains (lit "<BOLD>") s in
  let just := negb (str_contains (lit "<NJ>") s) in
  let s := str_replace (lit "<NJ>") (lit "    ") (str_replace (lit "<BOLD>") (lit "      ") s) in
  from_parts (fts_loop bold 1 s) just.

(** src/util/indentedline.rs:177-179 indent_less_or_eq *)
Definition indent_less_or_eq (l : line) (other : Z) : bool := (indent l <? other + unit_pt)%Z.

(** src/util/indentedline.rs:207-222 append_to *)
Definition append_to (l : line) (s : str) : str :=
  let with_space :=
    if l_empty l || is_empty s then false
    else if ends_with (lit "-") s then starts_with (lit "és ") (content l) || starts_with (lit "vagy ") (content l)
    else true in
  (if with_space then s ++ lit " " else s) ++ content l.
(** src/util/indentedline.rs:224-230 join *)
Definition join (ls : list line) : str := fold_left (fun s l => append_to l s) ls [].

(** src/util/indentedline.rs:232-240 indent_at *)
Definition indent_at (l : line) (from : Z) : Z := sum_dx (firstn (convert_index l from + 1) (l_parts l)).

(** src/util/indentedline.rs:256-267 as_bold *)
Definition as_bold (l : line) : line :=
  mkLine (map (fun p => mkPart (p_dx p) (p_ch p) true) (l_parts l)) (l_just l) true.

(** src/util/indentedline.rs:270-276 PartialEq *)
Definition line_eqb (a b : line) : bool :=
  (indent a =? indent b)%Z && str_eqb (content a) (content b) && Bool.eqb (l_bold a) (l_bold b).

(** ** QuoteCheck (src/util/mod.rs:30-62) *)
Record quote_check := mkQC { q_level : Z; q_begin : bool; q_end : bool }.
Definition qc_default : quote_check := mkQC 0 false false.
Definition count_chars (p : char -> bool) (s : str) : Z := Z.of_nat (List.length (filter p s)).
(** util/mod.rs:38-52 update: the state is updated even when an error is returned. *)
Definition qc_update (q : quote_check) (l : line) : quote_check * outcome unit :=
  let level := (q_level q + count_chars (fun c => (c =? chr "„")%N || (c =? chr "“")%N) (content l)
                          - count_chars (fun c => (c =? chr "”")%N) (content l))%Z in
  (mkQC level (0 <? q_level q)%Z (0 <? level)%Z, ensure (0 <=? level)%Z).
(** util/mod.rs:54-61 check_end *)
Definition qc_check_end (q : quote_check) : outcome unit := ensure (q_level q =? 0)%Z.

(** ** Fixups *)
(** src/fixups.rs:36-44 Fixup *)
Record fixup := mkFixup { f_after : list str; f_old : str; f_new : str; f_bold : bool }.

Definition strs_eqb (a b : list str) : bool := if list_eq_dec (list_eq_dec N.eq_dec) a b then true else false.
(** [slice::windows(n)] collected, for n > 0 *)
Fixpoint windows {A} (n : nat) (l : list A) : list (list A) :=
  match l with
  | [] => []
  | _ :: l' => if (n <=? List.length l)%nat then firstn n l :: windows n l' else []
  end.
(** [Iterator::position] *)
Fixpoint position {A} (p : A -> bool) (l : list A) : option nat :=
  match l with
  | [] => None
  | a :: l' => if p a then Some O else match position p l' with Some k => Some (S k) | None => None end
  end.
Definition set_nth {A} (k : nat) (x : A) (l : list A) : list A := firstn k l ++ x :: skipn (S k) l.

(** [a.chars().zip(b.chars()).take_while(|(o, n)| o == n).count()] *)
Fixpoint common_prefix (a b : str) : nat :=
  match a, b with
  | x :: a', y :: b' => if (x =? y)%N then S (common_prefix a' b') else O
  | _, _ => O
  end.

(** src/fixups.rs:36 REPLACEMENT_FAKE_WIDTH *)
Definition fake_width : Z := 10 * unit_pt.

(** src/fixups.rs:122-227 apply_to_line *)
Definition apply_to_line (f : fixup) (l : line) : outcome line :=
  let* _ := ensure (str_eqb (content l) (f_old f)) in
  let* _ := ensure (negb (str_eqb (f_old f) (f_new f)) || f_bold f) in
  if is_empty (f_new f) then Ok empty_line
  else
    let prefix_len := common_prefix (f_old f) (f_new f) in
    let rest_old := skipn prefix_len (f_old f) in
    let rest_new := skipn prefix_len (f_new f) in
    let postfix_len := common_prefix (rev rest_old) (rev rest_new) in
    let pre := Z.of_nat prefix_len in
    let post := Z.of_nat postfix_len in
    let old_len := Z.of_nat (List.length (f_old f)) in
    let start :=
      if (old_len <=? pre)%Z then (indent_at l pre + fake_width / 2)%Z
      else if (0 <? pre)%Z then
        (if (0 <? post)%Z && (old_len <=? pre + post)%Z
         then ((indent_at l (pre - 1) + indent_at l pre) / 2)%Z
         else indent_at l pre)
      else if (0 <? post)%Z then (indent_at l (- post) - fake_width)%Z
      else indent l in
    let stop :=
      if (0 <? post)%Z then indent_at l (- post)
      else if (0 <? pre)%Z then (indent_at l 10000 + fake_width)%Z
      else if l_empty l then fake_width
      else indent_at l 10000 in
    let repl_len := (List.length (f_new f) - prefix_len - postfix_len)%nat in
    let repl_str := firstn repl_len (skipn prefix_len (f_new f)) in
    let mk (dx : Z) (c : char) := mkPart dx c (l_bold l) in
    let parts :=
      match repl_str with
      | [] => []
      | c :: cs => mk start c :: map (mk ((stop - start) / Z.of_nat repl_len)%Z) cs
      end in
    let replacement := from_parts parts false in
    let prefix := slice l 0 (Some pre) in
    let postfix := if (post =? 0)%Z then empty_line else slice l (- post) None in
    let result := from_multiple [prefix; replacement; postfix] in
    Ok (if f_bold f then as_bold result else result).

(** src/fixups.rs:96-120 Fixup::apply. The only write to [lines] is the last statement, so a failing
    call leaves them unchanged. *)
Definition fixup_apply (f : fixup) (ls : list line) : outcome (list line) :=
  let needle := f_after f ++ [f_old f] in
  let ws := windows (List.length needle) (map content ls) in
  let* p := ok_or (position (fun w => strs_eqb w needle) ws) in
  let pos := (p + List.length (f_after f))%nat in
  let found := List.length (filter (fun w => strs_eqb w needle) ws) in
  let* _ := ensure (found =? 1)%nat in
  match nth_error ls pos with
  | None => Panic
  | Some l => let* l' := apply_to_line f l in Ok (set_nth pos l' ls)
  end.

(** src/fixups.rs:82-87 Fixups::apply: the lines after the call, and whether it succeeded. *)
Fixpoint fixups_apply (fs : list fixup) (ls : list line) : list line * outcome unit :=
  match fs with
  | [] => (ls, Ok tt)
  | f :: fs' =>
      match fixup_apply f ls with
      | Ok ls' => fixups_apply fs' ls'
      | Err => (ls, Err)
      | Panic => (ls, Panic)
      end
  end.

(** ** The fixup editor *)
(** src/bin/hun_law/fixup_editor.rs:95-99: first position where the two texts differ *)
Definition change_position (a b : list str) : option nat :=
  position (fun p => negb (str_eqb (fst p) (snd p))) (combine a b).
(** fixup_editor.rs:100-113: smallest context length up to 10 making the needle unique *)
Definition context_len (orig : list str) (pos : nat) : option nat :=
  match
    position (fun cl =>
      let needle := firstn (cl + 1) (skipn (pos - cl) orig) in
      (List.length (filter (fun w => strs_eqb w needle) (windows (List.length needle) orig)) =? 1)%nat)
      (seq 0 (S (Nat.min pos 10)))
  with Some cl => Some cl | None => None end.
(** fixup_editor.rs:118-129: the <BOLD> marker *)
Definition split_bold (s : str) : bool * str :=
  if str_contains (lit "<BOLD>") s then (true, trim (str_replace (lit "<BOLD>") [] s)) else (false, s).
(** fixup_editor.rs:85-147 update_fixups. [None] is "out of fuel"; the indexing
    [new_lines[change_pos]] is in range because the lengths are equal. *)
Fixpoint uf_loop (fuel : nat) (fs : list fixup) (orig new : list str) : option (outcome (list fixup)) :=
  match fuel with
  | O => None
  | S fuel' =>
      match change_position orig new with
      | None => Some (Ok fs)
      | Some pos =>
          match context_len orig pos with
          | None => Some Err
          | Some cl =>
              let after := firstn cl (skipn (pos - cl) orig) in
              let '(bold, nw) := split_bold (nth pos new []) in
              uf_loop fuel' (fs ++ [mkFixup after (nth pos orig []) nw bold]) (set_nth pos nw orig) (set_nth pos nw new)
          end
      end
  end.
Definition update_fixups (fs : list fixup) (orig new : list str) : option (outcome (list fixup)) :=
  if (List.length orig =? List.length new)%nat then uf_loop (S (List.length orig)) fs orig new else Some Err.

(** ** ActRawText::remove_double_empty_lines (src/parser/mk_act_section.rs:36-45)
    The loop over [i] with [Vec::remove]: [prev] is [body[i-1]]. *)
Fixpoint rde_loop (prev : line) (ls : list line) : list line :=
  match ls with
  | [] => []
  | l :: ls' => if l_empty prev && l_empty l then rde_loop prev ls' else l :: rde_loop l ls'
  end.
Definition remove_double_empty (ls : list line) : list line :=
  match ls with [] => [] | l :: ls' => l :: rde_loop l ls' end.

(** ** The editor in the pipeline (src/bin/hun_law/main.rs:226-258 and fixup_editor.rs:28-83):
    the body shown in the editor is the fixed-up body after double empty line removal, and on the
    next round the stored fixups are applied to the raw body. *)
Definition load_body (fs : list fixup) (raw : list line) : list line * outcome unit :=
  let '(ls, r) := fixups_apply fs raw in (remove_double_empty ls, r).
Definition editor_lines (body : list line) : list str := map (fun l => trim (content l)) body.
