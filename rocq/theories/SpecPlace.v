(** Specification of where characters of a page are drawn (C66), after the description of text in the PDF
    reference: a pen moves along a line, and the line is placed on the page by an affine map. *)
From Verif Require Export SpecPdf.
From Coq Require Export setoid_ring.Field_theory.

Section Place.
  Variable fl : floats.
  Local Notation F := (flt fl).
  Local Notation "a + b" := (f_add fl a b).
  Local Notation "a - b" := (f_sub fl a b).
  Local Notation "a * b" := (f_mul fl a b).
  Local Notation "a / b" := (f_div fl a b).
  (** Computing without rounding *)
  Definition exact : Prop := exists inv,
    field_theory (f_zero fl) (f_one fl) (f_add fl) (f_mul fl) (f_sub fl) (f_neg fl) (f_div fl) inv eq.

  Definition point : Type := F * F.
  (** The map of a matrix *)
  Definition mapped (m : matrix fl) (p : point) : point :=
    (m11 _ m * fst p + m21 _ m * snd p + m31 _ m, m12 _ m * fst p + m22 _ m * snd p + m32 _ m).

  (** ** The pen *)
  Record pen := mkPen {
    pn_line : point -> point;  (** from the line to the page *)
    pn_x : F;                  (** how far the pen is on the line *)
    pn_char : F; pn_word : F; pn_scale : F; pn_leading : F; pn_font : option (fast_font fl); pn_size : F; pn_rise : F }.
  Definition on_line (l : point -> point) (n : pen) : pen :=
    mkPen l (f_zero fl) (pn_char n) (pn_word n) (pn_scale n) (pn_leading n) (pn_font n) (pn_size n) (pn_rise n).
  Definition pushed (d : F) (n : pen) : pen :=
    mkPen (pn_line n) (pn_x n + d) (pn_char n) (pn_word n) (pn_scale n) (pn_leading n) (pn_font n) (pn_size n) (pn_rise n).
  (** A new line begins at a place of the line before. *)
  Definition next_line (x y : F) (n : pen) : pen := on_line (fun p => pn_line n (fst p + x, snd p + y)) n.
  (** The place on the page at a distance from the pen *)
  Definition ahead (d : F) (n : pen) : point := pn_line n (pn_x n + d, pn_rise n).
  Definition width_of (f : fast_font fl) (cid : N) : F := ff_widths _ f cid / f_thousand fl.
  (** The length of a glyph on the line, and how far the pen goes *)
  Definition glyph_length (f : fast_font fl) (cid : N) (n : pen) : F := width_of f cid * pn_size n * pn_scale n.
  Definition after_glyph (f : fast_font fl) (cid : N) (n : pen) : pen :=
    pushed (glyph_length f cid n + pn_char n * pn_scale n + (if (cid =? 32)%N then pn_word n * pn_scale n else f_zero fl)) n.

  (** ** The canvas *)
  (** A text given for glyphs: the place of the first glyph, its unit, and the right end of the last one *)
  Record given := mkGiven { gv_at : point; gv_unit : F; gv_end : F }.
  Record canvas := mkCv {
    cv_pen : pen; cv_saved : list pen; cv_marks : list bool; cv_text : option (str * option given);
    cv_bold : bool; cv_space : F; cv_chars : list (pchar fl) }.
  Definition with_pen (n : pen) (c : canvas) : canvas :=
    mkCv n (cv_saved c) (cv_marks c) (cv_text c) (cv_bold c) (cv_space c) (cv_chars c).
  Definition with_saved (l : list pen) (c : canvas) : canvas :=
    mkCv (cv_pen c) l (cv_marks c) (cv_text c) (cv_bold c) (cv_space c) (cv_chars c).
  Definition with_text (t : option (str * option given)) (c : canvas) : canvas :=
    mkCv (cv_pen c) (cv_saved c) (cv_marks c) t (cv_bold c) (cv_space c) (cv_chars c).
  Definition with_marks (l : list bool) (c : canvas) : canvas :=
    mkCv (cv_pen c) (cv_saved c) l (cv_text c) (cv_bold c) (cv_space c) (cv_chars c).
  Definition with_more (l : list (pchar fl)) (c : canvas) : canvas :=
    mkCv (cv_pen c) (cv_saved c) (cv_marks c) (cv_text c) (cv_bold c) (cv_space c) (cv_chars c ++ l).

  Variable crop : crop_box fl.
  Definition ink (c : canvas) : collector fl := mkColl fl [] (cv_space c) (cv_bold c) crop.
  (** The place of the pen, and how long one unit of the font is on the page *)
  Definition here (c : canvas) : point := ahead (f_zero fl) (cv_pen c).
  Definition unit_here (c : canvas) : F := fst (ahead (pn_size (cv_pen c) * pn_scale (cv_pen c)) (cv_pen c)) - fst (here c).
  Definition glyph_end (f : fast_font fl) (cid : N) (c : canvas) : F := fst (ahead (glyph_length f cid (cv_pen c)) (cv_pen c)).
  (** One glyph *)
  Inductive glyph (f : fast_font fl) (cid : N) (c : canvas) : canvas -> Prop :=
  | glyph_char ch l : cv_text c = None -> to_unicode fl f cid = TuChar ch ->
      drawn fl (ink c) (fst (here c)) (snd (here c)) (glyph_end f cid c - fst (here c)) (unit_here c) ch l ->
      glyph f cid c (with_pen (after_glyph f cid (cv_pen c)) (with_more l c))
  | glyph_string s l : cv_text c = None -> to_unicode fl f cid = TuString s ->
      drawn_string fl (ink c) (fst (here c)) (snd (here c)) (glyph_end f cid c - fst (here c)) (unit_here c) s l ->
      glyph f cid c (with_pen (after_glyph f cid (cv_pen c)) (with_more l c))
  | glyph_first t : cv_text c = Some (t, None) ->
      glyph f cid c (with_pen (after_glyph f cid (cv_pen c)) (with_text (Some (t, Some (mkGiven (here c) (unit_here c) (glyph_end f cid c)))) c))
  | glyph_next t g : cv_text c = Some (t, Some g) ->
      glyph f cid c (with_pen (after_glyph f cid (cv_pen c)) (with_text (Some (t, Some (mkGiven (gv_at g) (gv_unit g) (glyph_end f cid c)))) c)).
  Inductive glyphs (f : fast_font fl) : list N -> canvas -> canvas -> Prop :=
  | glyphs_nil c : glyphs f [] c c
  | glyphs_cons cid cids c c1 c2 : glyph f cid c c1 -> glyphs f cids c1 c2 -> glyphs f (cid :: cids) c c2.
  (** The codes in a string: its bytes, or big endian pairs of them; half a pair at the end is left out. *)
  Definition coded (two : bool) (b cids : list N) : Prop :=
    if two then
      List.length cids = Nat.div2 (List.length b) /\
      forall i hi lo, nth_error b (2 * i) = Some hi -> nth_error b (2 * i + 1) = Some lo -> nth_error cids i = Some (256 * hi + lo)%N
    else cids = b.
  (** Text needs a font. *)
  Definition text (b : list N) (c c' : canvas) : Prop :=
    exists f cids, pn_font (cv_pen c) = Some f /\ coded (ff_cid _ f) b cids /\ glyphs f cids c c'.
  (** Numbers between texts move back by thousandths of the size. *)
  Inductive items : list (adjusted fl) -> canvas -> canvas -> Prop :=
  | items_nil c : items [] c c
  | items_text b l c c1 c2 : text b c c1 -> items l c1 c2 -> items (AText _ b :: l) c c2
  | items_kern d l c c2 :
      items l (with_pen (pushed (f_neg fl (d / f_thousand fl * pn_size (cv_pen c) * pn_scale (cv_pen c))) (cv_pen c)) c) c2 ->
      items (ASpacing _ d :: l) c c2.
  (** A name that says the font is bold *)
  Definition bold_name (n : option str) : Prop :=
    exists s pre post, n = Some s /\ (s = pre ++ lit "bold" ++ post \/ s = pre ++ lit "Bold" ++ post).
  (** The width of a space is a guess if the font has none. *)
  Definition space_width (f : fast_font fl) (w : F) : Prop :=
    let s := width_of f 32 in
    ((f_eq fl s (f_zero fl) = true \/ f_eq fl s (f_one fl) = true) /\ w = f_quarter fl) \/
    (f_eq fl s (f_zero fl) = false /\ f_eq fl s (f_one fl) = false /\ w = s).
  Inductive takes_font (p : pdf_font fl) (size : F) (c : canvas) : canvas -> Prop :=
  | takes_font_ f b w : convert_font fl p = Ok f -> (b = true <-> bold_name (ff_name _ f)) -> space_width f w ->
      let n := cv_pen c in
      takes_font p size c
        (mkCv (mkPen (pn_line n) (pn_x n) (pn_char n) (pn_word n) (pn_scale n) (pn_leading n) (Some f) size (pn_rise n))
           (cv_saved c) (cv_marks c) (cv_text c) b w (cv_chars c)).
  (** One operation other than drawing a form *)
  Inductive simple (res : option (resources fl)) (c : canvas) : op fl -> canvas -> Prop :=
  | do_mark : simple res c (OBeginMarked _ None) (with_marks (false :: cv_marks c) c)
  | do_given t : simple res c (OBeginMarked _ (Some t)) (with_marks (true :: cv_marks c) (with_text (Some (t, None)) c))
  | do_unmark l : cv_marks c = false :: l -> simple res c (OEndMarked _) (with_marks l c)
  | do_given_end l t g cs : cv_marks c = true :: l -> cv_text c = Some (t, Some g) ->
      drawn_string fl (ink c) (fst (gv_at g)) (snd (gv_at g)) (gv_end g - fst (gv_at g)) (gv_unit g) t cs ->
      simple res c (OEndMarked _) (with_marks l (with_text None (with_more cs c)))
  | do_given_lost l : cv_marks c = true :: l -> (forall t g, cv_text c <> Some (t, Some g)) ->
      simple res c (OEndMarked _) (with_marks l (with_text None c))
  | do_save : simple res c (OSave _) (with_saved (cv_pen c :: cv_saved c) c)
  | do_restore n l : cv_saved c = n :: l -> simple res c (ORestore _) (with_pen n (with_saved l c))
  | do_no_font r n : res = Some r -> rs_states _ r n = Some None -> simple res c (OGraphicsState _ n) c
  | do_state_font r n a p size c' : res = Some r -> rs_states _ r n = Some (Some (Some (a, p), size)) ->
      takes_font p size c c' -> simple res c (OGraphicsState _ n) c'
  | do_font r n a p size c' : res = Some r -> rs_fonts _ r n = Some (a, p) -> takes_font p size c c' ->
      simple res c (OTextFont _ n size) c'
  | do_begin : simple res c (OBeginText _) (with_pen (on_line (fun p => p) (cv_pen c)) c)
  | do_end : simple res c (OEndText _) c
  | do_char x : let n := cv_pen c in simple res c (OCharSpacing _ x)
      (with_pen (mkPen (pn_line n) (pn_x n) x (pn_word n) (pn_scale n) (pn_leading n) (pn_font n) (pn_size n) (pn_rise n)) c)
  | do_word x : let n := cv_pen c in simple res c (OWordSpacing _ x)
      (with_pen (mkPen (pn_line n) (pn_x n) (pn_char n) x (pn_scale n) (pn_leading n) (pn_font n) (pn_size n) (pn_rise n)) c)
  | do_scale x : let n := cv_pen c in simple res c (OTextScaling _ x)
      (with_pen (mkPen (pn_line n) (pn_x n) (pn_char n) (pn_word n) (x * f_percent fl) (pn_leading n) (pn_font n) (pn_size n) (pn_rise n)) c)
  | do_leading x : let n := cv_pen c in simple res c (OLeading _ x)
      (with_pen (mkPen (pn_line n) (pn_x n) (pn_char n) (pn_word n) (pn_scale n) x (pn_font n) (pn_size n) (pn_rise n)) c)
  | do_rise x : let n := cv_pen c in simple res c (ORise _ x)
      (with_pen (mkPen (pn_line n) (pn_x n) (pn_char n) (pn_word n) (pn_scale n) (pn_leading n) (pn_font n) (pn_size n) x) c)
  | do_move x y : simple res c (OMove _ x y) (with_pen (next_line x y (cv_pen c)) c)
  | do_matrix m : simple res c (OMatrix _ m) (with_pen (on_line (mapped m) (cv_pen c)) c)
  | do_newline : simple res c (ONewline _) (with_pen (next_line (f_zero fl) (f_neg fl (pn_leading (cv_pen c))) (cv_pen c)) c)
  | do_draw b c' : text b c c' -> simple res c (ODraw _ b) c'
  | do_adjusted l c' : items l c c' -> simple res c (ODrawAdjusted _ l) c'
  | do_other : simple res c (OOther _) c.
  (** ** A page *)
  (** Forms are drawn with their resources, or those in use if they have none; the pen is then where it was. *)
  Inductive painted (get : N -> option (xobject fl)) : option (resources fl) -> list (op fl) -> canvas -> canvas -> Prop :=
  | paint_end res c : painted get res [] c c
  | paint_simple res o ops c c1 c2 : simple res c o c1 -> painted get res ops c1 c2 -> painted get res (o :: ops) c c2
  | paint_image r n i ops c c2 : rs_xobjects _ r n = Some i -> get i = Some (XOther _) -> painted get (Some r) ops c c2 ->
      painted get (Some r) (OXObject _ n :: ops) c c2
  | paint_form r n i fr fops ops c c1 p l c2 : rs_xobjects _ r n = Some i -> get i = Some (XForm _ fr (Some fops)) ->
      painted get (Some (match fr with Some x => x | None => r end)) fops (with_saved (cv_pen c :: cv_saved c) c) c1 ->
      cv_saved c1 = p :: l -> painted get (Some r) ops (with_pen p (with_saved l c1)) c2 ->
      painted get (Some r) (OXObject _ n :: ops) c c2.
  Definition blank : canvas :=
    mkCv (mkPen (fun p => p) (f_zero fl) (f_zero fl) (f_zero fl) (f_one fl) (f_zero fl) None (f_zero fl) (f_zero fl))
      [] [] None false (f_zero fl) [].
End Place.
