(** Specifications for reading PDF pages (C43, C44, C45, C55, C56). *)
From Verif Require Export ModelPdf.
From Coq Require Export Sorting.Permutation Sorting.Sorted.

(** ** Lines of a page (C43) *)
(** What can be read: characters other than spaces, with their boldness *)
Definition readable (l : list (char * bool)) : list (char * bool) := filter (fun p => negb (fst p =? 32)%N) l.
Definition part_text (p : lpart) : char * bool := (p_ch p, p_bold p).
Definition lines_text (ls : list line) : list (char * bool) := flat_map (fun l => map part_text (l_parts l)) ls.

(** Four characters are replaced, all others are kept. *)
Definition unquirked (c c' : char) : Prop :=
  (c = chr "Õ" /\ c' = chr "Ő") \/ (c = chr "õ" /\ c' = chr "ő") \/ (c = chr "Û" /\ c' = chr "Ű") \/ (c = chr "û" /\ c' = chr "ű") \/
  (~ In c (lit "ÕõÛû") /\ c' = c).

Section Spec.
  Variable fl : floats.
  Local Notation pchar := (pchar fl).
  Definition char_text (c : pchar) : char * bool := (pc_ch _ c, pc_bold _ c).
  (** The sorting function only moves its elements. *)
  Definition moves (sort : (pchar -> pchar -> comparison) -> list pchar -> list pchar) : Prop :=
    forall cmp l, Permutation (sort cmp l) l.
  (** [lt] is an order up to equal elements. *)
  Definition weak_order {A} (lt : A -> A -> bool) : Prop :=
    (forall a, lt a a = false) /\
    (forall a b c, lt a b = true -> lt b c = true -> lt a c = true) /\
    (forall a b c, lt a b = false -> lt b c = false -> lt a c = false).
  Definition is_less (cmp : pchar -> pchar -> comparison) (a b : pchar) : bool :=
    match cmp a b with Lt => true | _ => false end.
  (** It sorts by every comparison that tells apart what is less. *)
  Definition sorts (sort : (pchar -> pchar -> comparison) -> list pchar -> list pchar) : Prop :=
    forall cmp l, weak_order (is_less cmp) -> StronglySorted (fun a b => is_less cmp b a = false) (sort cmp l).

  (** The distance of two characters, and the groups that make lines *)
  Definition y_distance (a b : pchar) : flt fl := f_abs fl (f_sub fl (pc_y _ a) (pc_y _ b)).
  Definition same_line (a b : pchar) : Prop := f_lt fl (y_distance a b) (f_half fl) = true.
  Definition big_gap (a b : pchar) : bool := f_lt fl (f_gap fl) (y_distance a b).
  Definition group_ok (g : list pchar) : Prop := match g with [] => False | h :: t => Forall (same_line h) t end.
  Fixpoint groups_apart (gs : list (list pchar)) : Prop :=
    match gs with
    | (a :: _) :: (((b :: _) :: _) as gs') => ~ same_line a b /\ groups_apart gs'
    | _ => True
    end.
  (** One line for each group, with empty lines in the gaps *)
  Inductive set_as (as_line : list pchar -> line -> Prop) : list (list pchar) -> list line -> Prop :=
  | Set_last g l : as_line g l -> set_as as_line [g] [l]
  | Set_next a g b g' gs l ls : as_line (a :: g) l -> set_as as_line ((b :: g') :: gs) ls ->
      set_as as_line ((a :: g) :: (b :: g') :: gs) (l :: (if big_gap a b then [empty_line] else []) ++ ls).

  (** Where the next word would begin after a character *)
  Definition word_end (c : pchar) : flt fl := f_add fl (f_add fl (pc_x _ c) (pc_width _ c)) (f_mul fl (pc_space _ c) (f_half fl)).
  Definition new_word (a b : pchar) : bool := f_lt fl (word_end a) (pc_x _ b) || (pc_ch _ b =? chr "„")%N.
  (** The characters with spaces between the words, and where they are *)
  Fixpoint placed (cs : list pchar) : list (flt fl * (char * bool)) :=
    match cs with
    | [] => []
    | a :: cs' =>
        (pc_x _ a, char_text a) ::
        match cs' with b :: _ => if new_word a b then [(word_end a, (32%N, pc_bold _ b))] else [] | [] => [] end
        ++ placed cs'
    end.
  (** Positions from differences *)
  Fixpoint absolute (x : Z) (ps : list lpart) : list (Z * (char * bool)) :=
    match ps with [] => [] | p :: ps' => ((x + p_dx p)%Z, part_text p) :: absolute (x + p_dx p)%Z ps' end.
  Definition exact_coord : Prop := f_coord fl (f_zero fl) = 0%Z /\ forall a b, f_coord fl (f_sub fl a b) = (f_coord fl a - f_coord fl b)%Z.
  Definition reaches (margin : flt fl) (c : pchar) : bool :=
    f_le fl margin (f_add fl (f_add fl (pc_x _ c) (pc_width _ c)) (f_mul fl (pc_space _ c) (f_just fl))).
  Definition left_to_right (cs : list pchar) : Prop := StronglySorted (fun a b => f_lt fl (pc_x _ b) (pc_x _ a) = false) cs.
  Definition top_to_bottom (cs : list pchar) : Prop := StronglySorted (fun a b => f_lt fl (pc_y _ a) (pc_y _ b) = false) cs.
  (** The right edge of the page: where its rightmost character ends *)
  Definition right_edge (cs : list pchar) : flt fl :=
    fold_left (fun m c => f_max fl m (f_add fl (pc_x _ c) (pc_width _ c))) cs (f_zero fl).
  Definition no_spaces (cs : list pchar) : Prop := Forall (fun c => pc_ch _ c <> 32%N) cs.
  (** A line of characters other than spaces, from left to right *)
  Definition line_of (margin : flt fl) (cs : list pchar) (l : line) : Prop :=
    map part_text (l_parts l) = map snd (placed cs) /\
    (exact_coord -> absolute 0 (l_parts l) = map (fun p => (f_coord fl (fst p), snd p)) (placed cs)) /\
    l_bold l = (2 * List.length (l_parts l) <? 3 * count_bold (l_parts l))%nat /\
    (forall c cs', cs = cs' ++ [c] -> l_just l = reaches margin c).

  (** ** Saved states (C44) *)
  Fixpoint saves (n : nat) (ops : list (op fl)) : option nat :=
    match ops with
    | [] => Some n
    | OSave _ :: ops' => saves (S n) ops'
    | ORestore _ :: ops' => match n with O => None | S n' => saves n' ops' end
    | _ :: ops' => saves n ops'
    end.
  Definition balanced (ops : list (op fl)) : Prop := saves 0 ops = Some 0%nat.
  Fixpoint marks (n : nat) (ops : list (op fl)) : option nat :=
    match ops with
    | [] => Some n
    | OBeginMarked _ _ :: ops' => marks (S n) ops'
    | OEndMarked _ :: ops' => match n with O => None | S n' => marks n' ops' end
    | _ :: ops' => marks n ops'
    end.
  Definition forms_satisfy (P : list (op fl) -> Prop) (get : N -> option (xobject fl)) : Prop :=
    forall i fr ops, get i = Some (XForm _ fr (Some ops)) -> P ops.
  (** Forms have their own resources and only draw forms of smaller rank. *)
  Definition forms_ranked (rank : N -> nat) (get : N -> option (xobject fl)) : Prop :=
    forall i fr ops, get i = Some (XForm _ fr ops) -> exists res, fr = Some res /\
      forall l n j, ops = Some l -> In (OXObject _ n) l -> rs_xobjects _ res n = Some j -> (rank j < rank i)%nat.
  Definition drawn_below (rank : N -> nat) (res : option (resources fl)) (d : nat) (ops : list (op fl)) : Prop :=
    forall r n j, res = Some r -> In (OXObject _ n) ops -> rs_xobjects _ r n = Some j -> (rank j < d)%nat.
  (** Characters are drawn by these only. *)
  Definition quiet (o : op fl) : Prop :=
    match o with ODraw _ _ | ODrawAdjusted _ _ | OEndMarked _ | OXObject _ _ => False | _ => True end.

  (** ** Characters (C45) *)
  Definition inside (c : crop_box fl) (x y : flt fl) : Prop :=
    f_le fl (cr_left _ c) x = true /\ f_le fl x (cr_right _ c) = true /\
    f_le fl (cr_bottom _ c) y = true /\ f_le fl y (cr_top _ c) = true.
  Definition collected_ok (k : crop_box fl) (c : pchar) : Prop :=
    inside k (pc_x _ c) (pc_y _ c) /\ is_whitespace (pc_ch _ c) = false /\
    ~ In (pc_ch _ c) (lit "ÕõÛû").
  (** The characters of a glyph, next to each other *)
  Fixpoint spread (x step : flt fl) (i : nat) (s : str) : list (flt fl * char) :=
    match s with [] => [] | c :: s' => (f_add fl x (f_mul fl (f_of_nat fl i) step), c) :: spread x step (S i) s' end.
  (** What is collected for a character at a position *)
  Definition drawn (k : collector fl) (x y w sc : flt fl) (c : char) (l : list pchar) : Prop :=
    exists c', unquirked c c' /\
    ((inside (cl_crop _ k) x y /\ is_whitespace c' = false /\
      l = [mkPc fl x y w (f_mul fl (cl_space _ k) sc) (cl_bold _ k) c']) \/
     (~ (inside (cl_crop _ k) x y /\ is_whitespace c' = false) /\ l = [])).
  (** ... and for a string in place of a glyph *)
  Definition drawn_string (k : collector fl) (x y w sc : flt fl) (s : str) (l : list pchar) : Prop :=
    exists ls, l = List.concat ls /\
      Forall2 (fun p l => drawn k (fst p) y (f_div fl w (f_of_nat fl (List.length s))) sc (snd p) l)
        (spread x (f_div fl w (f_of_nat fl (List.length s))) 0 s) ls.
  Definition with_chars (k : collector fl) (l : list pchar) : collector fl :=
    mkColl fl (cl_chars _ k ++ l) (cl_space _ k) (cl_bold _ k) (cl_crop _ k).
  Definition grows (r r' : renderer fl) : Prop :=
    cl_crop _ (rr_coll _ r') = cl_crop _ (rr_coll _ r) /\
    exists l, cl_chars _ (rr_coll _ r') = cl_chars _ (rr_coll _ r) ++ l /\ Forall (collected_ok (cl_crop _ (rr_coll _ r))) l.
  (** Showing codes in a font: each is drawn at the current place, which then moves on. *)
  Inductive shows (k : collector fl) (f : fast_font fl) : text_state fl -> list N -> list pchar -> text_state fl -> Prop :=
  | Shows_end s : shows k f s [] [] s
  | Shows_char s cid cids c l l' s' :
      to_unicode fl f cid = TuChar c ->
      drawn k (m31 _ (rendering_matrix fl s)) (m32 _ (rendering_matrix fl s))
        (f_mul fl (f_div fl (ff_widths _ f cid) (f_thousand fl)) (m11 _ (rendering_matrix fl s))) (m11 _ (rendering_matrix fl s)) c l ->
      shows k f (ts_advance_by_char fl cid s) cids l' s' -> shows k f s (cid :: cids) (l ++ l') s'
  | Shows_string s cid cids t l l' s' :
      to_unicode fl f cid = TuString t ->
      drawn_string k (m31 _ (rendering_matrix fl s)) (m32 _ (rendering_matrix fl s))
        (f_mul fl (f_div fl (ff_widths _ f cid) (f_thousand fl)) (m11 _ (rendering_matrix fl s))) (m11 _ (rendering_matrix fl s)) t l ->
      shows k f (ts_advance_by_char fl cid s) cids l' s' -> shows k f s (cid :: cids) (l ++ l') s'.
  Definition codes_of (f : fast_font fl) (b : list N) : list N := if ff_cid _ f then pairs b else b.
  Fixpoint after (s : text_state fl) (cids : list N) : text_state fl :=
    match cids with [] => s | cid :: cids' => after (ts_advance_by_char fl cid s) cids' end.
  (** The width from a place to the end of the glyph drawn at another one *)
  Definition width_to (f : fast_font fl) (x : flt fl) (s : text_state fl) (cid : N) : flt fl :=
    f_add fl (f_sub fl (m31 _ (rendering_matrix fl s)) x)
      (f_mul fl (f_div fl (ff_widths _ f cid) (f_thousand fl)) (m11 _ (rendering_matrix fl s))).

  (** ** Fonts (C55) *)
  Definition code_of (cid : N) (m : N * str) : bool := (fst m =? cid)%N.
  Definition is_string_mapping (m : N * str) : bool := ((1000 <? fst m)%N || negb (List.length (snd m) =? 1)%nat).
  Fixpoint last_of {A} (p : A -> bool) (l : list A) : option A :=
    match l with [] => None | x :: l' => match last_of p l' with Some y => Some y | None => if p x then Some x else None end end.
  Definition scalar (n : N) : Prop := (n < 55296 \/ 57344 <= n < 1114112)%N.
  (** What a code means, given the mappings of a font in the order they are added *)
  Inductive means (identity : bool) (l : list (N * str)) (cid : N) : to_unicode_result -> Prop :=
  | Means_string m : last_of (fun m => code_of cid m && is_string_mapping m) l = Some m -> means identity l cid (TuString (snd m))
  | Means_char m c : last_of (fun m => code_of cid m && is_string_mapping m) l = None ->
      last_of (fun m => code_of cid m && negb (is_string_mapping m)) l = Some m -> snd m = [c] -> c <> 0%N -> means identity l cid (TuChar c)
  | Means_itself : last_of (fun m => code_of cid m && is_string_mapping m) l = None ->
      (forall m, last_of (fun m => code_of cid m && negb (is_string_mapping m)) l = Some m -> snd m = [0%N]) ->
      identity = true -> scalar cid -> means identity l cid (TuChar cid)
  | Means_nothing : last_of (fun m => code_of cid m && is_string_mapping m) l = None ->
      (forall m, last_of (fun m => code_of cid m && negb (is_string_mapping m)) l = Some m -> snd m = [0%N]) ->
      ~ (identity = true /\ scalar cid) -> means identity l cid TuUnknown.
  (** The mappings of the base encoding: of the codes from 0 to 254 *)
  Definition base_maps (b : base_encoding) (identity : bool) (l : list (N * str)) : Prop :=
    match b with
    | BTable t => identity = false /\ forall cid s, In (cid, s) l <-> exists c, s = [c] /\ t cid = Some c /\ (cid < 255)%N
    | BWinAnsi t => identity = false /\ forall cid s, In (cid, s) l <->
        (cid < 255)%N /\ exists c, s = [c] /\ (t cid = Some c \/ (t cid = None /\ (30 < cid)%N /\ c = 8226%N))
    | BIdentityH => identity = true /\ l = []
    | BNone => identity = false /\ l = []
    | BUnsupported => False
    end.

  (** ** The font cache (C56) *)
  (** Every address belongs to one font. *)
  Definition fonts_of (fonts : N -> pdf_font fl) (res : resources fl) : Prop :=
    (forall n a p, rs_fonts _ res n = Some (a, p) -> fonts a = p) /\
    (forall n a p sz, rs_states _ res n = Some (Some (Some (a, p), sz)) -> fonts a = p).
  Definition all_fonts_of (fonts : N -> pdf_font fl) (get : N -> option (xobject fl)) : Prop :=
    forall i fr ops, get i = Some (XForm _ (Some fr) ops) -> fonts_of fonts fr.
  Definition cache_ok (fonts : N -> pdf_font fl) (c : font_cache fl) : Prop :=
    forall a f, fc_find fl a c = Some f -> convert_font fl (fonts a) = Ok f.
End Spec.
