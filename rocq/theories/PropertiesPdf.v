(** C43, C44, C45, C55, C56: reading PDF pages. *)
From Verif Require Import ProofPdf6.
Local Open Scope N_scope.

(** * Examples *)
(** Two fonts: the codes are the characters, all glyphs are half as wide as high. *)
Definition ascii (c : N) : option char := if ((32 <=? c) && (c <? 127))%N then Some c else None.
Definition font_with (name : str) (diffs uni : list (N * str)) : pdf_font milli :=
  mkPdfFont milli (Some (fun _ => 500000%Z)) false (Some name) (Some (BTable ascii, diffs)) (Some uni).
Definition plain_font := font_with (lit "Times") [] [].
Definition bold_font := font_with (lit "Times-Bold") [] [].
Definition ex_fonts (a : N) : pdf_font milli := if (a =? 2)%N then bold_font else plain_font.
Definition ex_res (xs : str -> option N) : resources milli :=
  mkRes milli (fun n => if str_eqb n (lit "F1") then Some (1, plain_font) else if str_eqb n (lit "F2") then Some (2, bold_font) else None)
    (fun _ => None) xs.
Definition ex_crop : crop_box milli := mkCrop milli 0%Z 0%Z 800000%Z 600000%Z.
Definition tf (n : str) : op milli := OTextFont milli n 10000%Z.
Definition at_place (x y : Z) : op milli := OMatrix milli (mkMx milli 1000%Z 0%Z 0%Z 1000%Z x y).
Definition tj (s : str) : op milli := ODraw milli s.
Definition no_forms : N -> option (xobject milli) := fun _ => None.
Definition start (xs : str -> option N) : renderer milli := new_renderer milli (Some (ex_res xs)) [] (new_collector milli ex_crop).
Definition page_ops : list (op milli) :=
  [tf (lit "F1"); at_place 100000%Z 700000%Z; tj (lit "Ab c"); OSave milli; tf (lit "F2"); at_place 100000%Z 600000%Z; tj (lit "d"); ORestore milli;
   at_place 700000%Z 600000%Z; tj (lit "e")].
(** What is collected: characters with places and boldness *)
Definition seen (o : outcome (renderer milli)) : option (list (Z * Z * bool * char)) :=
  match o with Ok r => Some (map (fun c => (pc_x _ c, pc_y _ c, pc_bold _ c, pc_ch _ c)) (cl_chars _ (rr_coll _ r))) | _ => None end.
Definition font_name (o : outcome (renderer milli)) : option str :=
  match o with Ok r => match ts_font _ (rr_state _ r) with Some f => ff_name _ f | None => None end | _ => None end.
Definition text_of (o : outcome (list (list line))) : option (list (list (str * bool))) :=
  match o with Ok l => Some (map (map (fun x => (map p_ch (l_parts x), l_bold x))) l) | _ => None end.
Example sample_seen : seen (handle_ops milli no_forms 0 page_ops (start (fun _ => None))) =
  Some [(100000, 700000, false, chr "A"); (105000, 700000, false, chr "b"); (115000, 700000, false, chr "c"); (100000, 600000, true, chr "d")]%Z.
Proof. vm_compute. reflexivity. Qed.
Example sample_page : text_of (parse_pages milli isort no_forms 0 ex_crop [(Some (ex_res (fun _ => None)), Some page_ops)] []) =
  Some [[(lit "Ab c", false); ([], false); (lit "d", true)]].
Proof. vm_compute. reflexivity. Qed.

(** * C43 *)
(** The characters other than spaces are in the lines, each once, with their boldness, for every arithmetic. *)
Theorem C43_conserved : forall fl sort k, moves fl sort ->
  Permutation (readable (lines_text (page_of_lines fl sort k))) (readable (map (char_text fl) (cl_chars fl k))).
Proof. exact c43_conserved. Qed.
Print Assumptions C43_conserved.
(** The characters are cut into groups: from top to bottom; in a group all are near the first one, which the first one
    of the next group is not; each group gives a line, with an empty line after it if the next one is far; the line has
    the characters of the group from left to right, with spaces where the distance is big or a quote opens, at the
    places where they were; it is bold and justified as its characters say. *)
Theorem C43_lines : forall fl sort k, moves fl sort -> f_lt fl (f_zero fl) (f_half fl) = true -> cl_chars fl k <> [] -> no_spaces fl (cl_chars fl k) ->
  exists gs, Permutation (List.concat gs) (cl_chars fl k) /\ (sorts fl sort -> weak_order (f_lt fl) -> top_to_bottom fl (List.concat gs)) /\
  Forall (group_ok fl) gs /\ groups_apart fl gs /\
  set_as fl (fun g l => exists cs, Permutation cs g /\ (sorts fl sort -> weak_order (f_lt fl) -> left_to_right fl cs) /\
  line_of fl (right_edge fl (cl_chars fl k)) cs l) gs (page_of_lines fl sort k).
Proof. exact c43_lines. Qed.
Print Assumptions C43_lines.
Theorem C43_empty : forall fl sort k, moves fl sort -> cl_chars fl k = [] -> page_of_lines fl sort k = [empty_line].
Proof. exact c43_empty. Qed.
Print Assumptions C43_empty.
(** The comparison given to the sorting function is not an order: a number is greater than itself. *)
Theorem C43_total_order_refuted : exists fl : floats, weak_order (f_lt fl) /\
  ~ (forall a b : flt fl, compare_float fl a b = CompOpp (compare_float fl b a)).
Proof. exists milli. split; [exact milli_order|]. intros H. specialize (H 0%Z 0%Z). discriminate. Qed.
Print Assumptions C43_total_order_refuted.
Definition ex_char (x y : Z) (c : char) : pchar milli := mkPc milli x y 5000%Z 5000%Z false c.
Definition ex_page : collector milli :=
  mkColl milli [ex_char 10000 50100 (chr "c"); ex_char 20000 99800 (chr "b"); ex_char 10000 100000 (chr "a"); ex_char 15000 50000 (chr "d")]%Z 0%Z false ex_crop.
Example C43_sample : map (fun l => map p_ch (l_parts l)) (page_of_lines milli isort ex_page) = [lit "a b"; []; lit "cd"] /\
  moves milli isort /\ sorts milli isort /\ weak_order (f_lt milli) /\ exact_coord milli /\ f_lt milli (f_zero milli) (f_half milli) = true /\ no_spaces milli (cl_chars _ ex_page).
Proof.
  split; [vm_compute; reflexivity|]. split; [exact isort_moves|]. split; [exact isort_sorts|]. split; [exact milli_order|]. split; [exact milli_coord|]. split; [reflexivity|].
  repeat constructor; discriminate.
Qed.

(** * C44 *)
(** If forms restore what they save, the number of saved states is as the operations say. *)
Theorem C44_depth : forall fl get d ops r r', forms_satisfy fl (balanced fl) get -> handle_ops fl get d ops r = Ok r' ->
  saves fl (List.length (rr_stack fl r)) ops = Some (List.length (rr_stack fl r')).
Proof. exact c44_depth. Qed.
Print Assumptions C44_depth.
Theorem C44_unmatched : forall fl get d ops r r', forms_satisfy fl (balanced fl) get -> saves fl (List.length (rr_stack fl r)) ops = None ->
  handle_ops fl get d ops r <> Ok r'.
Proof. exact c44_unmatched. Qed.
Print Assumptions C44_unmatched.
(** Balanced operations leave the saved states alone, *)
Theorem C44_balanced : forall fl get d ops r r', forms_satisfy fl (balanced fl) get -> balanced fl ops -> handle_ops fl get d ops r = Ok r' ->
  rr_stack fl r' = rr_stack fl r.
Proof. exact c44_balanced. Qed.
Print Assumptions C44_balanced.
(** between saving and restoring they leave the state alone, and drawing a form does. *)
Theorem C44_restored : forall fl get d ops r r', forms_satisfy fl (balanced fl) get -> balanced fl ops ->
  handle_ops fl get d (OSave fl :: ops ++ [ORestore fl]) r = Ok r' ->
  rr_state fl r' = rr_state fl r /\ rr_stack fl r' = rr_stack fl r /\ rr_res fl r' = rr_res fl r.
Proof. exact c44_restored. Qed.
Print Assumptions C44_restored.
Theorem C44_form : forall fl get d n r r', forms_satisfy fl (balanced fl) get -> handle_op fl get d r (OXObject fl n) = Ok r' ->
  rr_state fl r' = rr_state fl r /\ rr_stack fl r' = rr_stack fl r /\ rr_res fl r' = rr_res fl r.
Proof. exact c44_form. Qed.
Print Assumptions C44_form.
(** The resources of the page are in use again after each form, whatever it does. *)
Theorem C44_resources : forall fl get d ops r r', handle_ops fl get d ops r = Ok r' -> rr_res fl r' = rr_res fl r.
Proof. exact ops_res. Qed.
Print Assumptions C44_resources.
(** Marked content likewise: *)
Theorem C44_marks : forall fl get d ops r r', forms_satisfy fl (fun ops => marks fl 0 ops = Some 0%nat) get -> handle_ops fl get d ops r = Ok r' ->
  marks fl (List.length (rr_marked fl r)) ops = Some (List.length (rr_marked fl r')).
Proof. exact c44_marks. Qed.
Print Assumptions C44_marks.
(** Nothing panics: neither an operation other than drawing a form, *)
Theorem C44_no_panic : forall fl r o, handle_plain fl r o <> Panic.
Proof. exact plain_not_panic. Qed.
Print Assumptions C44_no_panic.
(** nor a file whose forms have their resources and only draw forms of lower rank. *)
Theorem C44_file_no_panic : forall fl rank get sort d crop pages, forms_ranked fl rank get ->
  (forall res ops, In (res, Some ops) pages -> drawn_below fl rank res d ops) -> forall c, parse_pages fl sort get d crop pages c <> Panic.
Proof. exact c44_parse_no_panic. Qed.
Print Assumptions C44_file_no_panic.
Example C44_sample : balanced milli (firstn 5 page_ops ++ [ORestore milli]) /\ balanced milli page_ops /\ saves milli 0 [ORestore milli] = None /\
  font_name (handle_ops milli no_forms 0 page_ops (start (fun _ => None))) = Some (lit "Times") /\
  font_name (handle_ops milli no_forms 0 (firstn 5 page_ops) (start (fun _ => None))) = Some (lit "Times-Bold").
Proof. vm_compute. auto 6. Qed.
(** A form in another one, each with its rank *)
Definition two_forms (i : N) : option (xobject milli) :=
  match i with
  | 1%N => Some (XForm milli (Some (ex_res (fun _ => Some 2))) (Some [OXObject milli (lit "X")]))
  | 2%N => Some (XForm milli (Some (ex_res (fun _ => None))) (Some [tf (lit "F1"); at_place 100000%Z 100000%Z; tj (lit "x")]))
  | _ => None
  end.
Definition two_rank (i : N) : nat := if (i =? 1)%N then 1%nat else 0%nat.
Example C44_sample_forms : forms_ranked milli two_rank two_forms /\ forms_satisfy milli (balanced milli) two_forms /\
  drawn_below milli two_rank (Some (ex_res (fun _ => Some 1))) 2 [OXObject milli (lit "Y")] /\
  seen (handle_ops milli two_forms 2 [OXObject milli (lit "Y")] (start (fun _ => Some 1))) = Some [(100000, 100000, false, chr "x")]%Z.
Proof.
  assert (D : forall i, i <> 1 -> i <> 2 -> two_forms i = None) by (intros [|[[]|[]|]] A B; try reflexivity; congruence).
  split; [|split; [|split]].
  - intros i fr ops G. destruct (N.eq_dec i 1) as [->|N1]; [|destruct (N.eq_dec i 2) as [->|N2]; [|rewrite D in G by assumption; discriminate]].
    + injection G as <- <-. eexists. split; [reflexivity|]. intros l n j [= <-] _ [= <-]. unfold two_rank. cbn. auto.
    + injection G as <- <-. eexists. split; [reflexivity|]. intros l n j _ _ [=].
  - intros i fr ops G. destruct (N.eq_dec i 1) as [->|N1]; [|destruct (N.eq_dec i 2) as [->|N2]; [|rewrite D in G by assumption; discriminate]]; injection G as <- <-; reflexivity.
  - intros r n j [= <-] _ [= <-]. unfold two_rank. cbn. auto.
  - vm_compute. reflexivity.
Qed.
(** Restoring does not bring back the width of the space and the boldness for the characters drawn next: the font is
    plain again, and the character is bold. *)
Theorem C44_boldness_refuted :
  let ops := [tf (lit "F1"); at_place 0%Z 0%Z; OSave milli; tf (lit "F2"); ORestore milli; tj (lit "a")] in
  balanced milli ops /\ seen (handle_ops milli no_forms 0 [tf (lit "F1"); at_place 0%Z 0%Z; tj (lit "a")] (start (fun _ => None))) = Some [(0, 0, false, chr "a")]%Z /\
  seen (handle_ops milli no_forms 0 ops (start (fun _ => None))) = Some [(0, 0, true, chr "a")]%Z.
Proof. vm_compute. auto. Qed.
Print Assumptions C44_boldness_refuted.
(** A form restoring once too often brings back the state saved by the page. *)
Definition bad_form (i : N) : option (xobject milli) := Some (XForm milli None (Some [ORestore milli])).
Theorem C44_unbalanced_form_refuted :
  let ops := [tf (lit "F1"); at_place 1000%Z 1000%Z; OSave milli; at_place 2000%Z 2000%Z; OXObject milli (lit "X"); tj (lit "a")] in
  seen (handle_ops milli bad_form 1 ops (start (fun _ => Some 1))) = Some [(1000, 1000, false, chr "a")]%Z.
Proof. vm_compute. reflexivity. Qed.
Print Assumptions C44_unbalanced_form_refuted.
(** A form drawing itself runs out of any stack. *)
Theorem C44_self_drawing_refuted : exists fl get r o, forall d, handle_op fl get d r o = Panic.
Proof.
  exists milli, (fun _ => Some (XForm milli None (Some [OXObject milli (lit "X")]))), (start (fun _ => Some 1)), (OXObject milli (lit "X")).
  intros d. eapply c44_self; [reflexivity|reflexivity|reflexivity|discriminate].
Qed.
Print Assumptions C44_self_drawing_refuted.

(** * C45 *)
(** Four characters are replaced and no other. *)
Theorem C45_quirks : forall c c', fix_quirks c = c' <-> unquirked c c'.
Proof. intros c c'. split; [intros <-; apply fix_quirks_unquirked|]. intros U. exact (unquirked_unique c _ _ (fix_quirks_unquirked c) U). Qed.
Print Assumptions C45_quirks.
(** A character is collected exactly if it is inside the box and not a space, with its place, width and boldness. *)
Theorem C45_character : forall fl x y w sc c k, exists l, drawn fl k x y w sc c l /\ render_character fl x y w sc c k = with_chars fl k l.
Proof. exact render_character_drawn. Qed.
Print Assumptions C45_character.
(** Drawing text collects the characters of each code at its place, moving on after each; *)
Theorem C45_shown : forall fl get d r b r' f, rr_actual fl r = None -> ts_font fl (rr_state fl r) = Some f -> handle_op fl get d r (ODraw fl b) = Ok r' ->
  exists l s', shows fl (rr_coll fl r) f (rr_state fl r) (codes_of fl f b) l s' /\
  r' = rr_set_coll fl (with_chars fl (rr_coll fl r) l) (rr_set_state fl s' r).
Proof. exact c45_shown. Qed.
Print Assumptions C45_shown.
(** it fails exactly if a code has no meaning in the font. *)
Theorem C45_unknown : forall fl get d r b f, rr_actual fl r = None -> ts_font fl (rr_state fl r) = Some f ->
  handle_op fl get d r (ODraw fl b) = Err <-> exists cid, In cid (codes_of fl f b) /\ to_unicode fl f cid = TuUnknown.
Proof. exact c45_unknown. Qed.
Print Assumptions C45_unknown.
(** Text given for glyphs is collected in place of what they mean, from the place of the first to the end of the last. *)
Theorem C45_actual_text : forall fl get d r b t f pre last, ts_font fl (rr_state fl r) = Some f -> codes_of fl f b = pre ++ [last] ->
  exists l, drawn_string fl (rr_coll fl r) (m31 fl (rendering_matrix fl (rr_state fl r))) (m32 fl (rendering_matrix fl (rr_state fl r)))
    (width_to fl f (m31 fl (rendering_matrix fl (rr_state fl r))) (after fl (rr_state fl r) pre) last) (m11 fl (rendering_matrix fl (rr_state fl r))) t l /\
  handle_ops fl get d [OBeginMarked fl (Some t); ODraw fl b; OEndMarked fl] r =
    Ok (rr_set_actual fl None (rr_set_coll fl (with_chars fl (rr_coll fl r) l) (rr_set_state fl (after fl (rr_state fl r) (pre ++ [last])) r))).
Proof. exact c45_actual. Qed.
Print Assumptions C45_actual_text.
(** Whatever is drawn, the collected characters are only added to, and all are inside the box, not spaces and not one of
    the four. *)
Theorem C45_collected : forall fl get d ops r r', handle_ops fl get d ops r = Ok r' ->
  cl_crop fl (rr_coll fl r') = cl_crop fl (rr_coll fl r) /\
  exists l, cl_chars fl (rr_coll fl r') = cl_chars fl (rr_coll fl r) ++ l /\ Forall (collected_ok fl (cl_crop fl (rr_coll fl r))) l.
Proof. exact c45_collected. Qed.
Print Assumptions C45_collected.
(** So the characters of a page have no spaces, as C43_lines asks. *)
Theorem C45_no_spaces : forall fl get d ops res c crop r, handle_ops fl get d ops (new_renderer fl res c (new_collector fl crop)) = Ok r ->
  no_spaces fl (cl_chars fl (rr_coll fl r)).
Proof. exact c45_no_spaces. Qed.
Print Assumptions C45_no_spaces.
Example C45_sample : let r := handle_ops milli no_forms 0 [tf (lit "F1"); at_place 0%Z 0%Z] (start (fun _ => None)) in
  match r with Ok r => rr_actual _ r = None /\ match ts_font _ (rr_state _ r) with Some f => codes_of _ f (lit "ab") = [97] ++ [98] | None => False end | _ => False end /\
  seen (let* r := r in handle_ops milli no_forms 0 [OBeginMarked milli (Some (lit "õx ")); tj (lit "ab"); OEndMarked milli] r) =
    Some [(0, 0, false, chr "ő"); (3333, 0, false, chr "x")]%Z /\
  (let* r := r in handle_op milli no_forms 0 r (ODraw milli [200])) = Err.
Proof. vm_compute. auto 6. Qed.
(** A space inside the box is not collected, *)
Theorem C45_space_refuted : exists (fl : floats) x y w sc c k, inside fl (cl_crop fl k) x y /\ render_character fl x y w sc c k = k.
Proof. exists milli, 0%Z, 0%Z, 0%Z, 0%Z, 32, (new_collector milli ex_crop). split; [now repeat split|reflexivity]. Qed.
Print Assumptions C45_space_refuted.
(** nor is a text given for a glyph if another one is given inside it, *)
Theorem C45_nested_refuted :
  seen (handle_ops milli no_forms 0 [tf (lit "F1"); OBeginMarked milli (Some (lit "x")); tj (lit "a"); OBeginMarked milli (Some (lit "y")); tj (lit "b");
    OEndMarked milli; tj (lit "c"); OEndMarked milli] (start (fun _ => None))) = Some [(5000, 0, false, chr "y"); (10000, 0, false, chr "c")]%Z.
Proof. vm_compute. reflexivity. Qed.
Print Assumptions C45_nested_refuted.
(** or if no glyph is drawn in it. *)
Theorem C45_no_glyph_refuted : forall fl get d r b t f, ts_font fl (rr_state fl r) = Some f -> codes_of fl f b = [] ->
  handle_ops fl get d [OBeginMarked fl (Some t); ODraw fl b; OEndMarked fl] r = Ok (rr_set_actual fl None r).
Proof. exact c45_actual_lost. Qed.
Print Assumptions C45_no_glyph_refuted.

(** * C55 *)
(** What a code means in a font: of the mappings of the base encoding, the differences and the unicode map, in this
    order, the last one to a string; else the last one to a character; else the code itself if the encoding says so. *)
Theorem C55_meaning : forall fl p f, convert_font fl p = Ok f -> exists b diffs uni identity base,
  pf_encoding fl p = Some (b, diffs) /\ pf_unicode fl p = Some uni /\ base_maps b identity base /\ NoDup (map fst base) /\
  (forall cid, means identity (base ++ diffs ++ uni) cid (to_unicode fl f cid)) /\
  ff_cid fl f = pf_cid fl p /\ ff_name fl f = pf_name fl p /\ pf_widths fl p = Some (ff_widths fl f).
Proof. exact c55_meaning. Qed.
Print Assumptions C55_meaning.
Theorem C55_unique : forall identity l cid r r', means identity l cid r -> means identity l cid r' -> r = r'.
Proof. exact means_unique. Qed.
Print Assumptions C55_unique.
Definition meaning (p : pdf_font milli) (cid : N) : outcome to_unicode_result := let* f := convert_font milli p in Ok (to_unicode milli f cid).
Example C55_sample : let p := font_with [] [(97, lit "ff"); (98, lit "x")] [(98, lit "y"); (2000, lit "z")] in
  meaning p 65 = Ok (TuChar 65) /\ meaning p 97 = Ok (TuString (lit "ff")) /\ meaning p 98 = Ok (TuChar (chr "y")) /\ meaning p 2000 = Ok (TuString (lit "z")) /\ meaning p 200 = Ok TuUnknown.
Proof. vm_compute. auto. Qed.
(** The unicode map does not win over the differences: a glyph with an unknown name has the empty string, and the
    character the map gives for it is lost. *)
Theorem C55_unicode_map_refuted : exists p cid s, pf_unicode milli p = Some [(cid, s)] /\ s = lit "a" /\ meaning p cid = Ok (TuString []).
Proof. exists (font_with [] [(97, [])] [(97, lit "a")]), 97, (lit "a"). vm_compute. auto. Qed.
Print Assumptions C55_unicode_map_refuted.
(** The code 255 of the base encodings is left out. *)
Theorem C55_code_255_refuted : forall t, t 255%N = Some (chr "ÿ") ->
  meaning (mkPdfFont milli (Some (fun _ => 0%Z)) false None (Some (BTable t, [])) (Some [])) 255 = Ok TuUnknown.
Proof. intros t _. apply c55_code_255. Qed.
Print Assumptions C55_code_255_refuted.

(** * C56 *)
(** If an address always is that of one font, setting a font sets the one named in the resources, whatever was drawn
    before; *)
Theorem C56_font : forall fl fonts get, all_fonts_of fl fonts get -> forall d ops res c k r' n sz r'',
  fonts_of fl fonts res -> cache_ok fl fonts c ->
  handle_ops fl get d ops (new_renderer fl (Some res) c k) = Ok r' -> handle_op fl get d r' (OTextFont fl n sz) = Ok r'' ->
  exists a p f, rs_fonts fl res n = Some (a, p) /\ convert_font fl p = Ok f /\ ts_font fl (rr_state fl r'') = Some f /\ ts_size fl (rr_state fl r'') = sz.
Proof. exact c56_named. Qed.
Print Assumptions C56_font.
(** a file is read as its pages are, each by itself with an empty cache. *)
Theorem C56_pages : forall fl fonts get, all_fonts_of fl fonts get -> forall sort d crop pages,
  (forall res ops, In (Some res, ops) pages -> fonts_of fl fonts res) -> forall c ls, cache_ok fl fonts c ->
  parse_pages fl sort get d crop pages c = Ok ls <-> Forall2 (fun p l => parse_pages fl sort get d crop [p] [] = Ok [l]) pages ls.
Proof. exact c56_pages. Qed.
Print Assumptions C56_pages.
Example C56_sample : fonts_of milli ex_fonts (ex_res (fun _ => None)) /\ all_fonts_of milli ex_fonts no_forms /\ cache_ok milli ex_fonts [] /\
  text_of (parse_pages milli isort no_forms 0 ex_crop [(Some (ex_res (fun _ => None)), Some page_ops); (Some (ex_res (fun _ => None)), Some (rev page_ops))] []) = None /\
  text_of (parse_pages milli isort no_forms 0 ex_crop [(Some (ex_res (fun _ => None)), Some page_ops); (Some (ex_res (fun _ => None)), Some (firstn 3 page_ops))] []) =
    Some [[(lit "Ab c", false); ([], false); (lit "d", true)]; [(lit "Ab c", false)]].
Proof.
  split; [|split; [|split; [|split]]].
  - split; [|discriminate]. intros n a p. unfold ex_res. cbn [rs_fonts]. destruct (str_eqb n (lit "F1")); [intros [= <- <-]; reflexivity|].
    destruct (str_eqb n (lit "F2")); [intros [= <- <-]; reflexivity|discriminate].
  - discriminate.
  - discriminate.
  - vm_compute. reflexivity.
  - vm_compute. reflexivity.
Qed.
(** If the address of a dropped font is used again, the second page is drawn with the font of the first. *)
Definition other_font := font_with (lit "Times-Bold") [(97, lit "b")] [].
Definition one_font (p : pdf_font milli) : resources milli := mkRes milli (fun _ => Some (1, p)) (fun _ => None) (fun _ => None).
Theorem C56_reused_address_refuted :
  let ops := [tf (lit "F"); tj (lit "a")] in
  let page p := (Some (one_font p), Some ops) in
  text_of (parse_pages milli isort no_forms 0 ex_crop [page plain_font; page other_font] []) = Some [[(lit "a", false)]; [(lit "a", false)]] /\
  text_of (parse_pages milli isort no_forms 0 ex_crop [page other_font] []) = Some [[(lit "b", true)]].
Proof. vm_compute. auto. Qed.
Print Assumptions C56_reused_address_refuted.
