(** Model of src/parser/pdf/*.rs.  No proofs in this file.

    Simplifications:
    - [f32] is an arbitrary type with operations ([floats]), so that the theorems hold for any rounding, NaN and
      infinity; [as f64] into a coordinate of ModelText is the operation [f_coord].
    - [sort_unstable_by] is the argument [sort]: it gets the comparison function.
    - The pdf crate is not modelled: a page is its list of operations and its resources; looking up a resource can
      fail ([None]).  The marked content parameters are already decoded (actual_text.rs:78-90): [Some t] is a /Span with
      ActualText t.
    - What a failing function had changed before is not kept, as an error ends parse_pdf.
    - Forms are drawn with a bound on the depth of the calls; running out of it ([Panic]) stands for a stack overflow. *)
From Verif Require Export ModelText.

Record floats := mkFl {
  flt : Type;
  f_zero : flt; f_one : flt; f_thousand : flt;   (** 0.0, 1.0, 1000.0 *)
  f_half : flt; f_gap : flt; f_just : flt;       (** 0.5, 16.0, 0.8 *)
  f_quarter : flt; f_percent : flt;              (** 0.25, 0.01 *)
  f_add : flt -> flt -> flt; f_sub : flt -> flt -> flt; f_mul : flt -> flt -> flt; f_div : flt -> flt -> flt;
  f_neg : flt -> flt; f_abs : flt -> flt; f_max : flt -> flt -> flt; f_of_nat : nat -> flt;
  f_lt : flt -> flt -> bool; f_le : flt -> flt -> bool; f_eq : flt -> flt -> bool;
  f_coord : flt -> Z }.

(** util.rs:17-25 fix_character_coding_quirks *)
Definition fix_quirks (c : char) : char :=
  if (c =? chr "Õ")%N then chr "Ő"
  else if (c =? chr "õ")%N then chr "ő"
  else if (c =? chr "Û")%N then chr "Ű"
  else if (c =? chr "û")%N then chr "ű"
  else c.

Section Pdf.
  Variable fl : floats.
  Local Notation F := (flt fl).
  Local Notation "a + b" := (f_add fl a b).
  Local Notation "a - b" := (f_sub fl a b).
  Local Notation "a * b" := (f_mul fl a b).
  Local Notation "a / b" := (f_div fl a b).

  (** util.rs:30-36 compare_float_for_sorting *)
  Definition compare_float (a b : F) : comparison := if f_lt fl a b then Lt else Gt.

  (** ** mod.rs *)
  (** mod.rs:34-40 CropBox, 42-46 is_inside *)
  Record crop_box := mkCrop { cr_bottom : F; cr_left : F; cr_top : F; cr_right : F }.
  Definition is_inside (c : crop_box) (x y : F) : bool :=
    f_le fl (cr_left c) x && f_le fl x (cr_right c) && f_le fl (cr_bottom c) y && f_le fl y (cr_top c).

  (** ** font.rs *)
  (** font.rs:31-38 FastFont; the hash map is a list of pairs with the last inserted first; [ff_widths] is
      [widths.get] *)
  Record fast_font := mkFont {
    ff_cmap : list char; ff_smap : list (N * str); ff_identity : bool; ff_cid : bool; ff_name : option str; ff_widths : N -> F }.
  (** font.rs:40-45 *)
  Inductive to_unicode_result := TuUnknown | TuChar (c : char) | TuString (s : str).
  Definition with_maps (f : fast_font) (cmap : list char) (smap : list (N * str)) : fast_font :=
    mkFont cmap smap (ff_identity f) (ff_cid f) (ff_name f) (ff_widths f).
  (** [cmap.resize(n, '\0')] followed by [cmap[i] = c] *)
  Fixpoint set_nth (l : list char) (i : nat) (c : char) : list char :=
    match i, l with
    | O, [] => [c]
    | O, _ :: l' => c :: l'
    | S i', [] => 0%N :: set_nth [] i' c
    | S i', x :: l' => x :: set_nth l' i' c
    end.
  (** font.rs:126-135 add_mapping *)
  Definition add_mapping (cid : N) (s : str) (f : fast_font) : fast_font :=
    match s with
    | [c] => if (1000 <? cid)%N then with_maps f (ff_cmap f) ((cid, s) :: ff_smap f)
             else with_maps f (set_nth (ff_cmap f) (N.to_nat cid) c) (ff_smap f)
    | _ => with_maps f (ff_cmap f) ((cid, s) :: ff_smap f)
    end.
  Definition add_mappings (l : list (N * str)) (f : fast_font) : fast_font :=
    fold_left (fun f p => add_mapping (fst p) (snd p) f) l f.
  (** [char::from_u32] *)
  Definition char_from_u32 (n : N) : option char :=
    if ((n <? 55296) || ((57344 <=? n) && (n <? 1114112)))%N then Some n else None.
  Fixpoint smap_get (k : N) (l : list (N * str)) : option str :=
    match l with [] => None | (k', v) :: l' => if (k =? k')%N then Some v else smap_get k l' end.
  (** font.rs:137-153 to_unicode *)
  Definition to_unicode (f : fast_font) (cid : N) : to_unicode_result :=
    let r := match (if ff_identity f then char_from_u32 cid else None) with Some c => TuChar c | None => TuUnknown end in
    let r := match nth_error (ff_cmap f) (N.to_nat cid) with
             | Some c => if (c =? 0)%N then r else TuChar c
             | None => r
             end in
    match smap_get cid (ff_smap f) with Some s => TuString s | None => r end.
  (** font.rs:76-109 process_encoding: a base encoding is a function to characters, or the two others; the table of
      an encoding and of the glyph names are external *)
  Inductive base_encoding := BTable (f : N -> option char) | BWinAnsi (f : N -> option char) | BIdentityH | BNone | BUnsupported.
  Definition codes : list N := map N.of_nat (seq 0 255).
  (** font.rs:111-118 process_base_encoding *)
  Definition base_mappings (t : N -> option char) : list (N * str) :=
    flat_map (fun cid => match t cid with Some c => [(cid, [c])] | None => [] end) codes.
  Definition winansi_mappings (t : N -> option char) : list (N * str) :=
    flat_map (fun cid => match t cid with
                         | Some c => [(cid, [c])]
                         | None => if (30 <? cid)%N then [(cid, [8226%N])] else []
                         end) codes.
  Definition process_encoding (b : base_encoding) (differences : list (N * str)) (f : fast_font) : outcome fast_font :=
    let* f := match b with
              | BTable t => Ok (add_mappings (base_mappings t) f)
              | BWinAnsi t => Ok (add_mappings (winansi_mappings t) f)
              | BIdentityH => Ok (mkFont (ff_cmap f) (ff_smap f) true (ff_cid f) (ff_name f) (ff_widths f))
              | BNone => Ok f
              | BUnsupported => Err
              end in
    Ok (add_mappings differences f).
  (** A font of the file, as far as the code reads it; reading its parts can fail *)
  Record pdf_font := mkPdfFont {
    pf_widths : option (N -> F); pf_cid : bool; pf_name : option str;
    pf_encoding : option (base_encoding * list (N * str)); pf_unicode : option (list (N * str)) }.
  (** font.rs:48-74 convert, 120-124 process_unicode_map *)
  Definition convert_font (p : pdf_font) : outcome fast_font :=
    let* w := ok_or (pf_widths p) in
    let* e := ok_or (pf_encoding p) in
    let* f := process_encoding (fst e) (snd e) (mkFont [] [] false (pf_cid p) (pf_name p) w) in
    let* u := ok_or (pf_unicode p) in
    Ok (add_mappings u f).
  (** font.rs:156-172 FontCache: fonts are found by the address of the font object *)
  Definition font_cache := list (N * fast_font).
  Fixpoint fc_find (a : N) (c : font_cache) : option fast_font :=
    match c with [] => None | (a', f) :: c' => if (a =? a')%N then Some f else fc_find a c' end.
  Definition fc_get (c : font_cache) (a : N) (p : pdf_font) : outcome (font_cache * fast_font) :=
    match fc_find a c with
    | Some f => Ok (c, f)
    | None => let* f := convert_font p in Ok ((a, f) :: c, f)
    end.

  (** ** textstate.rs *)
  (** euclid::Transform2D *)
  Record matrix := mkMx { m11 : F; m12 : F; m21 : F; m22 : F; m31 : F; m32 : F }.
  Definition mx_identity : matrix := mkMx (f_one fl) (f_zero fl) (f_zero fl) (f_one fl) (f_zero fl) (f_zero fl).
  Definition mx_translation (x y : F) : matrix := mkMx (f_one fl) (f_zero fl) (f_zero fl) (f_one fl) x y.
  Definition mx_then (a b : matrix) : matrix :=
    mkMx (m11 a * m11 b + m12 a * m21 b) (m11 a * m12 b + m12 a * m22 b)
         (m21 a * m11 b + m22 a * m21 b) (m21 a * m12 b + m22 a * m22 b)
         (m31 a * m11 b + m32 a * m21 b + m31 b) (m31 a * m12 b + m32 a * m22 b + m32 b).
  (** textstate.rs:24-35 TextState, 37-51 default *)
  Record text_state := mkTs {
    ts_matrix : matrix; ts_line : matrix; ts_char_sp : F; ts_word_sp : F; ts_hscale : F; ts_leading : F;
    ts_font : option fast_font; ts_size : F; ts_rise : F }.
  Definition ts_default : text_state :=
    mkTs mx_identity mx_identity (f_zero fl) (f_zero fl) (f_one fl) (f_zero fl) None (f_zero fl) (f_zero fl).
  Definition ts_set_matrix (m : matrix) (s : text_state) : text_state :=
    mkTs m (ts_line s) (ts_char_sp s) (ts_word_sp s) (ts_hscale s) (ts_leading s) (ts_font s) (ts_size s) (ts_rise s).
  (** textstate.rs:54-57 set_both_matrices *)
  Definition ts_set_both (m : matrix) (s : text_state) : text_state :=
    mkTs m m (ts_char_sp s) (ts_word_sp s) (ts_hscale s) (ts_leading s) (ts_font s) (ts_size s) (ts_rise s).
  Definition ts_set_char_sp (x : F) (s : text_state) : text_state :=
    mkTs (ts_matrix s) (ts_line s) x (ts_word_sp s) (ts_hscale s) (ts_leading s) (ts_font s) (ts_size s) (ts_rise s).
  Definition ts_set_word_sp (x : F) (s : text_state) : text_state :=
    mkTs (ts_matrix s) (ts_line s) (ts_char_sp s) x (ts_hscale s) (ts_leading s) (ts_font s) (ts_size s) (ts_rise s).
  Definition ts_set_hscale (x : F) (s : text_state) : text_state :=
    mkTs (ts_matrix s) (ts_line s) (ts_char_sp s) (ts_word_sp s) x (ts_leading s) (ts_font s) (ts_size s) (ts_rise s).
  Definition ts_set_leading (x : F) (s : text_state) : text_state :=
    mkTs (ts_matrix s) (ts_line s) (ts_char_sp s) (ts_word_sp s) (ts_hscale s) x (ts_font s) (ts_size s) (ts_rise s).
  Definition ts_set_rise (x : F) (s : text_state) : text_state :=
    mkTs (ts_matrix s) (ts_line s) (ts_char_sp s) (ts_word_sp s) (ts_hscale s) (ts_leading s) (ts_font s) (ts_size s) x.
  Definition ts_set_font (f : fast_font) (size : F) (s : text_state) : text_state :=
    mkTs (ts_matrix s) (ts_line s) (ts_char_sp s) (ts_word_sp s) (ts_hscale s) (ts_leading s) (Some f) size (ts_rise s).
  (** textstate.rs:59-61 advance *)
  Definition ts_advance (delta : F) (s : text_state) : text_state :=
    ts_set_matrix (mx_then (mx_translation delta (f_zero fl)) (ts_matrix s)) s.
  (** textstate.rs:63-71 advance_by_char *)
  Definition ts_advance_by_char (cid : N) (s : text_state) : text_state :=
    let w0 := match ts_font s with Some f => ff_widths f cid / f_thousand fl | None => f_zero fl end in
    let spacing := ts_char_sp s + (if (cid =? 32)%N then ts_word_sp s else f_zero fl) in
    ts_advance ((w0 * ts_size s + spacing) * ts_hscale s) s.
  (** textstate.rs:73-84 rendering_matrix *)
  Definition rendering_matrix (s : text_state) : matrix :=
    mx_then (mkMx (ts_hscale s * ts_size s) (f_zero fl) (f_zero fl) (ts_size s) (f_zero fl) (ts_rise s)) (ts_matrix s).

  (** ** collector.rs *)
  (** collector.rs:29-37 PositionedChar *)
  Record pchar := mkPc { pc_x : F; pc_y : F; pc_width : F; pc_space : F; pc_bold : bool; pc_ch : char }.
  (** collector.rs:39-45 CharCollector, 48-53 new *)
  Record collector := mkColl { cl_chars : list pchar; cl_space : F; cl_bold : bool; cl_crop : crop_box }.
  Definition new_collector (c : crop_box) : collector := mkColl [] (f_zero fl) false c.
  (** collector.rs:55-76 render_character *)
  Definition render_character (x y width scaling : F) (c : char) (k : collector) : collector :=
    let ch := fix_quirks c in
    if negb (is_whitespace ch) && is_inside (cl_crop k) x y
    then mkColl (cl_chars k ++ [mkPc x y width (cl_space k * scaling) (cl_bold k) ch]) (cl_space k) (cl_bold k) (cl_crop k)
    else k.
  (** collector.rs:78-93 render_multiple_characters *)
  Definition render_multiple (x y width scaling : F) (s : str) (k : collector) : collector :=
    let step := width / f_of_nat fl (List.length s) in
    snd (fold_left (fun (a : nat * collector) c =>
           (S (fst a), render_character (x + f_of_nat fl (fst a) * step) y step scaling c (snd a))) s (O, k)).
  (** collector.rs:95-117 render_cid *)
  Definition coll_render_cid (s : text_state) (f : fast_font) (cid : N) (k : collector) : outcome (text_state * collector) :=
    let m := rendering_matrix s in
    let w0 := ff_widths f cid / f_thousand fl in
    let* k := match to_unicode f cid with
              | TuUnknown => Err
              | TuChar c => Ok (render_character (m31 m) (m32 m) (w0 * m11 m) (m11 m) c k)
              | TuString t => Ok (render_multiple (m31 m) (m32 m) (w0 * m11 m) (m11 m) t k)
              end in
    Ok (ts_advance_by_char cid s, k).
  (** collector.rs:119-130 font_changed *)
  Definition font_changed (f : fast_font) (k : collector) : collector :=
    let w := ff_widths f 32 / f_thousand fl in
    let w := if f_eq fl w (f_zero fl) || f_eq fl w (f_one fl) then f_quarter fl else w in
    let bold := match ff_name f with Some n => str_contains (lit "bold") n || str_contains (lit "Bold") n | None => false end in
    mkColl (cl_chars k) w bold (cl_crop k).

  (** ** actual_text.rs *)
  (** actual_text.rs:22-34 *)
  Record actual_text := mkAt { at_text : str; at_params : option (F * F * F * F) (** x, y, width, scaling *) }.
  (** actual_text.rs:44-61 render_cid *)
  Definition at_render_cid (s : text_state) (f : fast_font) (cid : N) (a : actual_text) : text_state * actual_text :=
    let m := rendering_matrix s in
    let w0 := ff_widths f cid / f_thousand fl in
    let '(x, y, _, sc) := match at_params a with Some p => p | None => (m31 m, m32 m, f_zero fl, m11 m) end in
    (ts_advance_by_char cid s, mkAt (at_text a) (Some (x, y, (m31 m - x) + w0 * m11 m, sc))).
  (** actual_text.rs:63-76 finish *)
  Definition at_finish (a : actual_text) (k : collector) : collector :=
    match at_params a with Some (x, y, w, sc) => render_multiple x y w sc (at_text a) k | None => k end.

  (** ** page.rs *)
  Inductive adjusted := AText (b : list N) | ASpacing (d : F).
  Inductive op :=
  | OBeginMarked (t : option str) | OEndMarked
  | OSave | ORestore
  | OGraphicsState (name : str) | OTextFont (name : str) (size : F)
  | OBeginText | OEndText | OCharSpacing (x : F) | OWordSpacing (x : F) | OTextScaling (x : F) | OLeading (x : F)
  | ORise (x : F) | OMove (x y : F) | OMatrix (m : matrix) | ONewline
  | ODraw (b : list N) | ODrawAdjusted (l : list adjusted)
  | OXObject (name : str) | OOther.
  (** The resources give an address and a font; graphics states may set a font.  Forms are found by name, as their
      number in the file. *)
  Record resources := mkRes {
    rs_fonts : str -> option (N * pdf_font);
    rs_states : str -> option (option (option (N * pdf_font) * F));
    rs_xobjects : str -> option N }.
  Inductive xobject := XForm (r : option resources) (ops : option (list op)) | XOther.
  (** page.rs:36-52 PageRenderer; page.rs:54-58 MarkedContentType is a [bool] (true: ActualText) *)
  Record renderer := mkRr {
    rr_cache : font_cache; rr_coll : collector; rr_res : option resources;
    rr_state : text_state; rr_stack : list text_state; rr_marked : list bool; rr_actual : option actual_text }.
  Definition rr_set_state (s : text_state) (r : renderer) : renderer :=
    mkRr (rr_cache r) (rr_coll r) (rr_res r) s (rr_stack r) (rr_marked r) (rr_actual r).
  Definition rr_set_stack (l : list text_state) (r : renderer) : renderer :=
    mkRr (rr_cache r) (rr_coll r) (rr_res r) (rr_state r) l (rr_marked r) (rr_actual r).
  Definition rr_set_res (x : option resources) (r : renderer) : renderer :=
    mkRr (rr_cache r) (rr_coll r) x (rr_state r) (rr_stack r) (rr_marked r) (rr_actual r).
  Definition rr_set_coll (k : collector) (r : renderer) : renderer :=
    mkRr (rr_cache r) k (rr_res r) (rr_state r) (rr_stack r) (rr_marked r) (rr_actual r).
  Definition rr_set_marked (l : list bool) (r : renderer) : renderer :=
    mkRr (rr_cache r) (rr_coll r) (rr_res r) (rr_state r) (rr_stack r) l (rr_actual r).
  Definition rr_set_actual (a : option actual_text) (r : renderer) : renderer :=
    mkRr (rr_cache r) (rr_coll r) (rr_res r) (rr_state r) (rr_stack r) (rr_marked r) a.
  Definition rr_set_cache (c : font_cache) (r : renderer) : renderer :=
    mkRr c (rr_coll r) (rr_res r) (rr_state r) (rr_stack r) (rr_marked r) (rr_actual r).
  (** page.rs:108-115 render_cid *)
  Definition rr_render_cid (r : renderer) (cid : N) : outcome renderer :=
    let* f := ok_or (ts_font (rr_state r)) in
    match rr_actual r with
    | Some a =>
        let '(s, a) := at_render_cid (rr_state r) f cid a in Ok (rr_set_actual (Some a) (rr_set_state s r))
    | None =>
        let* p := coll_render_cid (rr_state r) f cid (rr_coll r) in
        Ok (rr_set_coll (snd p) (rr_set_state (fst p) r))
    end.
  Fixpoint ofold {A B} (f : A -> B -> outcome A) (l : list B) (a : A) : outcome A :=
    match l with [] => Ok a | x :: l' => let* a := f a x in ofold f l' a end.
  (** [chunks_exact(2)] and [u16::from_be_bytes] *)
  Fixpoint pairs (b : list N) : list N :=
    match b with hi :: lo :: b' => (256 * hi + lo)%N :: pairs b' | _ => [] end.
  (** page.rs:117-131 render_text *)
  Definition render_text (r : renderer) (b : list N) : outcome renderer :=
    let* f := ok_or (ts_font (rr_state r)) in
    ofold rr_render_cid (if ff_cid f then pairs b else b) r.
  (** page.rs:133-139 set_font *)
  Definition set_font (a : N) (p : pdf_font) (size : F) (r : renderer) : outcome renderer :=
    let* c := fc_get (rr_cache r) a p in
    Ok (rr_set_state (ts_set_font (snd c) size (rr_state r)) (rr_set_coll (font_changed (snd c) (rr_coll r)) (rr_set_cache (fst c) r))).
  Definition draw_item (r : renderer) (i : adjusted) : outcome renderer :=
    match i with
    | AText b => render_text r b
    | ASpacing d =>
        let s := rr_state r in
        Ok (rr_set_state (ts_advance (f_neg fl d * ts_hscale s * ts_size s / f_thousand fl) s) r)
    end.

  Section Ops.
    (** [pdf_file.get] of a form *)
    Variable get_xobject : N -> option xobject.
    (** page.rs:176-286 handle_op without XObject *)
    Definition handle_plain (r : renderer) (o : op) : outcome renderer :=
      let s := rr_state r in
      match o with
      | OBeginMarked t =>
          Ok (match t with
              | Some t => rr_set_marked (true :: rr_marked r) (rr_set_actual (Some (mkAt t None)) r)
              | None => rr_set_marked (false :: rr_marked r) r
              end)
      | OEndMarked =>
          match rr_marked r with
          | [] => Err
          | m :: l =>
              let r := rr_set_marked l r in
              Ok (if m then
                    rr_set_actual None (match rr_actual r with Some a => rr_set_coll (at_finish a (rr_coll r)) r | None => r end)
                  else r)
          end
      | OSave => Ok (rr_set_stack (s :: rr_stack r) r)
      | ORestore => match rr_stack r with [] => Err | s' :: l => Ok (rr_set_state s' (rr_set_stack l r)) end
      | OGraphicsState n =>
          let* res := ok_or (rr_res r) in
          let* g := ok_or (rs_states res n) in
          match g with
          | None => Ok r
          | Some (f, size) => let* f := ok_or f in set_font (fst f) (snd f) size r
          end
      | OTextFont n size =>
          let* res := ok_or (rr_res r) in
          let* f := ok_or (rs_fonts res n) in
          set_font (fst f) (snd f) size r
      | OBeginText => Ok (rr_set_state (ts_set_both mx_identity s) r)
      | OCharSpacing x => Ok (rr_set_state (ts_set_char_sp x s) r)
      | OWordSpacing x => Ok (rr_set_state (ts_set_word_sp x s) r)
      | OTextScaling x => Ok (rr_set_state (ts_set_hscale (x * f_percent fl) s) r)
      | OLeading x => Ok (rr_set_state (ts_set_leading x s) r)
      | ORise x => Ok (rr_set_state (ts_set_rise x s) r)
      | OMove x y => Ok (rr_set_state (ts_set_both (mx_then (mx_translation x y) (ts_line s)) s) r)
      | OMatrix m => Ok (rr_set_state (ts_set_both m s) r)
      | ONewline => Ok (rr_set_state (ts_set_both (mx_then (mx_translation (f_zero fl) (f_neg fl (ts_leading s))) (ts_line s)) s) r)
      | ODraw b => render_text r b
      | ODrawAdjusted l => ofold draw_item l r
      | OEndText | OXObject _ | OOther => Ok r
      end.
    (** page.rs:141-174 handle_xobject; [run] handles an operation of the form *)
    Definition handle_xobject (run : renderer -> op -> outcome renderer) (n : str) (r : renderer) : outcome renderer :=
      let* res := ok_or (rr_res r) in
      let* x := ok_or (rs_xobjects res n) in
      let* x := ok_or (get_xobject x) in
      match x with
      | XOther => Ok r
      | XForm fr ops =>
          let saved := rr_res r in
          let r := match fr with Some fr => rr_set_res (Some fr) r | None => r end in
          let r := rr_set_stack (rr_state r :: rr_stack r) r in
          let* ops := ok_or ops in
          let* r := ofold run ops r in
          match rr_stack r with
          | [] => Err
          | s :: l => Ok (rr_set_res saved (rr_set_state s (rr_set_stack l r)))
          end
      end.
    Fixpoint handle_op (depth : nat) (r : renderer) (o : op) : outcome renderer :=
      match o with
      | OXObject n => handle_xobject (match depth with S d => handle_op d | O => fun _ _ => Panic end) n r
      | _ => handle_plain r o
      end.
    Definition handle_ops (depth : nat) (ops : list op) (r : renderer) : outcome renderer := ofold (handle_op depth) ops r.
  End Ops.
  (** page.rs:64-81 new *)
  Definition new_renderer (res : option resources) (c : font_cache) (k : collector) : renderer :=
    mkRr c k res ts_default [] [] None.

  (** ** page_of_lines.rs *)
  Section Lines.
    Variable sort : (pchar -> pchar -> comparison) -> list pchar -> list pchar.
    Definition by_y (a b : pchar) : comparison := compare_float (pc_y b) (pc_y a).
    Definition by_x (a b : pchar) : comparison := compare_float (pc_x a) (pc_x b).
    Definition threshold (c : pchar) : F := pc_x c + pc_width c + pc_space c * f_half fl.
    (** page_of_lines.rs:87-112 *)
    Fixpoint line_parts (prev : option F) (prev_x : F) (cs : list pchar) : list lpart :=
      match cs with
      | [] => []
      | c :: cs' =>
          let spaced := match prev with Some t => f_lt fl t (pc_x c) || (pc_ch c =? chr "„")%N | None => false end in
          let t := match prev with Some t => t | None => f_zero fl end in
          (if spaced then [mkPart (f_coord fl (t - prev_x)) 32%N (pc_bold c)] else [])
          ++ mkPart (f_coord fl (pc_x c - (if spaced then t else prev_x))) (pc_ch c) (pc_bold c)
          :: line_parts (Some (threshold c)) (pc_x c) cs'
      end.
    (** page_of_lines.rs:113-118 *)
    Fixpoint drop_spaces (ps : list lpart) : list lpart :=
      match ps with p :: ps' => if (p_ch p =? 32)%N then drop_spaces ps' else ps | [] => [] end.
    Definition trim_parts (ps : list lpart) : list lpart := rev (drop_spaces (rev (drop_spaces ps))).
    (** page_of_lines.rs:74-120 consolidate_line *)
    Definition consolidate_line (margin : F) (cs : list pchar) : line :=
      let cs := sort by_x cs in
      match rev cs with
      | [] => empty_line
      | l :: _ =>
          from_parts (trim_parts (line_parts None (f_zero fl) cs))
            (f_le fl margin (pc_x l + pc_width l + pc_space l * f_just fl))
      end.
    (** page_of_lines.rs:40-43 *)
    Definition right_margin (cs : list pchar) : F :=
      fold_left (fun acc c => f_max fl acc (pc_x c + pc_width c)) cs (f_zero fl).
    (** page_of_lines.rs:48-70; [cur] is [current_line] *)
    Fixpoint lines_loop (margin : F) (cur : list pchar) (cs : list pchar) : list line :=
      match cs with
      | [] => [consolidate_line margin cur]
      | c :: cs' =>
          let d := match cur with h :: _ => f_abs fl (pc_y h - pc_y c) | [] => f_zero fl end in
          if f_lt fl d (f_half fl) then lines_loop margin (cur ++ [c]) cs'
          else consolidate_line margin cur :: (if f_lt fl (f_gap fl) d then [empty_line] else [])
               ++ lines_loop margin [c] cs'
      end.
    (** page_of_lines.rs:39-72 try_from *)
    Definition page_of_lines (k : collector) : list line :=
      lines_loop (right_margin (cl_chars k)) [] (sort by_y (cl_chars k)).
    (** mod.rs:60-71 parse_pdf: the pages as resources and operations *)
    Fixpoint parse_pages (get : N -> option xobject) (depth : nat) (crop : crop_box)
      (pages : list (option resources * option (list op))) (c : font_cache) : outcome (list (list line)) :=
      match pages with
      | [] => Ok []
      | (res, ops) :: pages' =>
          let* ops := ok_or ops in
          let* r := handle_ops get depth ops (new_renderer res c (new_collector crop)) in
          let* l := parse_pages get depth crop pages' (rr_cache r) in
          Ok (page_of_lines (rr_coll r) :: l)
      end.
  End Lines.
End Pdf.
