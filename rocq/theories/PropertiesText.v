(** Properties C18-C26: lines, quotes, fixups, empty lines. *)
From Verif Require Import ProofText3.

(** Example material: [tl] lines as in the repository's tests, [gl] a line with explicit parts. *)
Definition tl (s : string) : line := from_test_str (lit s).
Definition gp (x : Z) (s : string) (b : bool) : lpart := mkPart x (chr s) b.
Definition ex_line : line :=
  from_parts [gp 5400 "a" false; gp 5600 "b" true; gp 5700 "c" true; gp 1800 "§" true; gp 2000 "e" true] true.

(** * C18 *)
Theorem C18_slice_content : forall l from to f t,
  index_of (l_len l) from f -> end_index (l_len l) to t ->
  is_sublist (content l) f t (content (slice l from to)).
Proof. exact c18_content. Qed.
Print Assumptions C18_slice_content.
Example C18_slice_content_ex :
  content ex_line = lit "abc§e" /\ index_of (l_len ex_line) (-4) 1 /\ end_index (l_len ex_line) (Some 4%Z) 4 /\
  content (slice ex_line (-4) (Some 4%Z)) = lit "bc§" /\ content (slice ex_line 100 None) = [] /\
  content (slice ex_line (-100) (Some (-1)%Z)) = lit "abc§" /\ content (slice ex_line 3 (Some 1%Z)) = [].
Proof. vm_compute. repeat split; congruence. Qed.
Theorem C18_index_total : forall l i, exists k, index_of (l_len l) i k.
Proof. exact c18_exists. Qed.
Print Assumptions C18_index_total.
Theorem C18_slice_whole : forall l, glyphs (slice l 0 None) = glyphs l.
Proof. exact c18_whole. Qed.
Print Assumptions C18_slice_whole.
Theorem C18_split_concat : forall l i,
  content (slice l 0 (Some i)) ++ content (slice l i None) = content l /\
  glyphs (from_multiple [slice l 0 (Some i); slice l i None]) = glyphs l.
Proof.
  intros l i. split; [apply c18_split_content|]. rewrite from_multiple_glyphs. cbn. rewrite app_nil_r. apply c18_split.
Qed.
Print Assumptions C18_split_concat.
Example C18_split_concat_ex :
  content (slice ex_line 0 (Some (-2)%Z)) = lit "abc" /\ content (slice ex_line (-2) None) = lit "§e".
Proof. vm_compute. split; reflexivity. Qed.
(** Byte slices at character boundaries are character slices; other offsets panic. *)
Theorem C18_slice_bytes : forall l a m r, content l = a ++ m ++ r -> m ++ r <> [] ->
  slice_bytes l (utf8_len a) (Some (utf8_len (a ++ m))) =
  Ok (slice l (Z.of_nat (List.length a)) (Some (Z.of_nat (List.length (a ++ m))))).
Proof. exact slice_bytes_ok. Qed.
Print Assumptions C18_slice_bytes.
Theorem C18_slice_bytes_exact : forall l from to r, slice_bytes l from to = Ok r <->
  exists f t, char_start (content l) from f /\ byte_end (content l) to t /\ r = slice l (Z.of_nat f) (Some (Z.of_nat t)).
Proof. exact c18_bytes_exact. Qed.
Print Assumptions C18_slice_bytes_exact.
(** So an offset inside a character, or a start at or past the end of the text, panics: there is no error. *)
Theorem C18_slice_bytes_no_error : forall l from to, slice_bytes l from to <> Err.
Proof. exact c18_bytes_not_err. Qed.
Print Assumptions C18_slice_bytes_no_error.
Example C18_slice_bytes_ex :
  omap content (slice_bytes ex_line 3 (Some 6%N)) = Ok (lit "§e") /\ slice_bytes ex_line 4 None = Panic /\
  slice_bytes ex_line 6 None = Panic.
Proof. vm_compute. repeat split. Qed.

(** * C19 *)
Theorem C19_slice_positions : forall l from to f t,
  index_of (l_len l) from f -> end_index (l_len l) to t -> is_sublist (glyphs l) f t (glyphs (slice l from to)).
Proof. exact c18_slice. Qed.
Print Assumptions C19_slice_positions.
Theorem C19_concat_positions : forall ls, glyphs (from_multiple ls) = List.concat (map glyphs ls).
Proof. exact from_multiple_glyphs. Qed.
Print Assumptions C19_concat_positions.
Theorem C19_indent_at : forall l i k g,
  index_of (l_len l) i k -> nth_error (glyphs l) k = Some g -> indent_at l i = g_x g.
Proof. exact c19_indent_at. Qed.
Print Assumptions C19_indent_at.
Theorem C19_indent_at_past_end : forall l i g,
  index_of (l_len l) i (l_len l) -> nth_error (glyphs l) (l_len l - 1) = Some g -> indent_at l i = g_x g.
Proof. exact c19_indent_at_past. Qed.
Print Assumptions C19_indent_at_past_end.
Theorem C19_slice_indent : forall l i k,
  index_of (l_len l) i k -> (k < l_len l)%nat -> indent (slice l i None) = indent_at l i.
Proof. exact c19_slice_indent. Qed.
Print Assumptions C19_slice_indent.
Example C19_indent_ex :
  map g_x (glyphs ex_line) = [5400; 11000; 16700; 18500; 20500]%Z /\ indent_at ex_line 2 = 16700%Z /\
  indent_at ex_line (-1) = 20500%Z /\ indent_at ex_line 100 = 20500%Z /\ indent (slice ex_line (-3) None) = 16700%Z /\
  map g_x (glyphs (from_multiple [slice ex_line 1 None; ex_line])) =
    [11000; 16700; 18500; 20500; 5400; 11000; 16700; 18500; 20500]%Z.
Proof. vm_compute. repeat split. Qed.
Theorem C19_bold_ratio : forall l, 
  (exists ps j, l = from_parts ps j) \/ (exists m a b, l = slice m a b) \/ (exists ms, l = from_multiple ms) \/
  (exists m, l = as_bold m /\ l_parts m <> []) ->
  (l_bold l = true <-> bold_ratio l).
Proof.
  intros l [(ps & j & ->)|[(m & a & b & ->)|[(ms & ->)|(m & -> & H)]]].
  - apply from_parts_bold.
  - apply slice_bold.
  - apply from_multiple_bold.
  - split; [intros _; now apply as_bold_ratio|reflexivity].
Qed.
Print Assumptions C19_bold_ratio.
Example C19_bold_ex :
  l_bold ex_line = true /\ l_bold (slice ex_line 0 (Some 3%Z)) = false /\ l_bold (slice ex_line 1 (Some 3%Z)) = true.
Proof. vm_compute. repeat split. Qed.
(** The empty line made bold is bold without any bold character. *)
Theorem C19_as_bold_empty_refuted : exists l, l_bold (as_bold l) = true /\ ~ bold_ratio (as_bold l).
Proof. exists empty_line. split; [reflexivity|]. unfold bold_ratio. vm_compute. congruence. Qed.
Print Assumptions C19_as_bold_empty_refuted.

(** Whether the text reaches the right margin. *)
Theorem C19_slice_justified : forall l from to f t, index_of (l_len l) from f -> end_index (l_len l) to t ->
  (l_just (slice l from to) = true <-> l_just l = true /\ (f < t)%nat /\ t = l_len l).
Proof. exact c19_slice_justified. Qed.
Print Assumptions C19_slice_justified.
Theorem C19_concat_justified : forall ls,
  l_just (from_multiple ls) = true <-> exists l, last_nonempty ls l /\ l_just l = true.
Proof. exact c19_concat_justified. Qed.
Print Assumptions C19_concat_justified.
Theorem C19_equal : forall a b,
  line_eqb a b = true <-> indent a = indent b /\ content a = content b /\ l_bold a = l_bold b.
Proof. exact c19_equal. Qed.
Print Assumptions C19_equal.
(** Equal lines may differ in the places of their characters and in justification. *)
Theorem C19_equal_lines_refuted : exists a b, line_eqb a b = true /\ placed a <> placed b /\ l_just a <> l_just b.
Proof.
  exists (from_parts [gp 0 "a" false; gp 5 "b" false] true), (from_parts [gp 0 "a" false; gp 6 "b" false] false).
  split; [reflexivity|]. split; discriminate.
Qed.
Print Assumptions C19_equal_lines_refuted.
Example C19_justified_ex : l_just (slice ex_line 2 None) = true /\ l_just (slice ex_line 2 (Some (-1)%Z)) = false /\
  l_just (from_multiple [tl "a<NJ>"; ex_line; empty_line]) = true /\ line_eqb ex_line (slice ex_line 0 (Some 4%Z)) = false.
Proof. repeat split; vm_compute; reflexivity. Qed.

(** * C20 *)
Theorem C20_append : forall l s,
  (needs_space s (content l) /\ append_to l s = s ++ lit " " ++ content l) \/
  (~ needs_space s (content l) /\ append_to l s = s ++ content l).
Proof. exact append_to_spec. Qed.
Print Assumptions C20_append.
Theorem C20_join_loses_nothing : forall ls, no_spaces (join ls) = no_spaces (text ls).
Proof. exact c20_join. Qed.
Print Assumptions C20_join_loses_nothing.
Theorem C20_join_steps : forall ls l, join [] = [] /\ join [l] = content l /\ join (ls ++ [l]) = append_to l (join ls).
Proof. intros ls l. split; [reflexivity|]. split; [apply c20_single|apply c20_join_snoc]. Qed.
Print Assumptions C20_join_steps.
Example C20_ex :
  join [tl "állami adó-"; tl "és vámhatóság"; empty_line; tl "munka-"; tl "erő"] = lit "állami adó- és vámhatóság munka-erő".
Proof. vm_compute. reflexivity. Qed.

(** * C21 *)
Theorem C21_open_iff : forall ls l,
  let q := qc_feed qc_default (ls ++ [l]) in
  (q_begin q = true <-> (0 < depth (text ls))%Z) /\ (q_end q = true <-> (0 < depth (text (ls ++ [l])))%Z).
Proof. exact c21_flags. Qed.
Print Assumptions C21_open_iff.
Theorem C21_error_iff : forall ls,
  (forall q, qc_run qc_default ls = Ok q ->
     q_level q = depth (text ls) /\ (qc_check_end q = Ok tt <-> depth (text ls) = 0%Z)) /\
  (qc_run qc_default ls = Err <-> exists a l b, ls = a ++ l :: b /\ (depth (text (a ++ [l])) < 0)%Z) /\
  qc_run qc_default ls <> Panic.
Proof. exact c21_run. Qed.
Print Assumptions C21_error_iff.
Example C21_ex :
  qc_run qc_default [tl "A „b"; tl "“c” d"; tl "e”"] = Ok (mkQC 0 true false) /\
  qc_run qc_default [tl "A „b”"; tl "c”"] = Err /\ depth (text [tl "A „b"; tl "“c” d"]) = 1%Z.
Proof. vm_compute. repeat split. Qed.
(** Only line ends are checked: a quote closed before it is opened inside one line goes unnoticed. *)
Theorem C21_mid_line_refuted : exists ls pre,
  (exists rest, text ls = pre ++ rest) /\ (depth pre < 0)%Z /\ is_ok (qc_run qc_default ls) = true.
Proof. exists [tl "a” b „c"], (lit "a”"). split; [exists (lit " b „c"); vm_compute; reflexivity|]. vm_compute. split; reflexivity. Qed.
Print Assumptions C21_mid_line_refuted.

(** * C22 *)
Theorem C22_succeeds_iff : forall f ls,
  (exists ls', fixup_apply f ls = Ok ls') <->
  (exists i, unique_at (f_after f ++ [f_old f]) (map content ls) i) /\ useful f.
Proof. exact c22_iff. Qed.
Print Assumptions C22_succeeds_iff.
Theorem C22_changes_one_line : forall f ls ls' i,
  fixup_apply f ls = Ok ls' -> occurs_at (f_after f ++ [f_old f]) (map content ls) i ->
  exists pre l post l', ls = pre ++ l :: post /\ ls' = pre ++ l' :: post /\
    List.length pre = (i + List.length (f_after f))%nat /\ content l = f_old f /\ content l' = f_new f /\
    apply_to_line f l = Ok l'.
Proof. exact c22_effect. Qed.
Print Assumptions C22_changes_one_line.
Theorem C22_prefix_kept : forall f l l' n, apply_to_line f l = Ok l' ->
  (n <= List.length (f_old f))%nat -> (n <= List.length (f_new f))%nat -> firstn n (f_old f) = firstn n (f_new f) ->
  firstn n (placed l') = firstn n (placed l).
Proof. exact apply_to_line_prefix. Qed.
Print Assumptions C22_prefix_kept.
Theorem C22_suffix_kept : forall f l l' p n, apply_to_line f l = Ok l' ->
  longest_common_prefix (f_old f) (f_new f) p ->
  (p + n <= List.length (f_old f))%nat -> (p + n <= List.length (f_new f))%nat ->
  firstn n (rev (f_old f)) = firstn n (rev (f_new f)) ->
  firstn n (rev (placed l')) = firstn n (rev (placed l)).
Proof. exact apply_to_line_suffix. Qed.
Print Assumptions C22_suffix_kept.
Theorem C22_never_panics : forall f ls, fixup_apply f ls <> Panic.
Proof. exact fixup_apply_not_panic. Qed.
Print Assumptions C22_never_panics.
Example C22_ex :
  let f := mkFixup [lit "x"] (lit "aXb") (lit "aYYb") false in
  let ls := [tl "aXb"; tl "x"; tl "aXb"; tl "z"] in
  omap (map content) (fixup_apply f ls) = Ok [lit "aXb"; lit "x"; lit "aYYb"; lit "z"] /\
  fixup_apply (mkFixup [] (lit "aXb") (lit "q") false) ls = Err /\
  omap (fun ls' => placed (nth 2 ls' empty_line)) (fixup_apply f ls) =
    Ok [(10000, chr "a"); (15000, chr "Y"); (17500, chr "Y"); (20000, chr "b")]%Z.
Proof. vm_compute. repeat split. Qed.

(** * C23 *)
Theorem C23_composition : forall fs ls ls', fixups_apply fs ls = (ls', Ok tt) <-> applies_to fs ls ls'.
Proof. exact applies_fixups. Qed.
Print Assumptions C23_composition.
Theorem C23_first_failure : forall fs ls ls' r, fixups_apply fs ls = (ls', r) -> r <> Ok tt ->
  r = Err /\ exists a f b, fs = a ++ f :: b /\ applies_to a ls ls' /\ fixup_apply f ls' = Err.
Proof. exact fixups_apply_fail. Qed.
Print Assumptions C23_first_failure.
Example C23_ex :
  let f1 := mkFixup [] (lit "a") (lit "b") false in let f2 := mkFixup [] (lit "b") (lit "c") false in
  map content (fst (fixups_apply [f1; f2] [tl "a"; tl "z"])) = [lit "c"; lit "z"] /\
  snd (fixups_apply [f2; f1] [tl "a"; tl "z"]) = Err.
Proof. vm_compute. split; reflexivity. Qed.

(** * C24 *)
Theorem C24_recorded_fixups_reproduce : forall fs orig new fs',
  update_fixups fs orig new = Some (Ok fs') ->
  List.length new = List.length orig /\
  exists added, fs' = fs ++ added /\
    forall body, map content body = orig ->
      exists body', applies_to added body body' /\ map content body' = edited_lines orig new /\
        (forall k l, nth_error body' k = Some l -> nth_error orig k = nth_error new k -> nth_error body k = Some l) /\
        (forall k o n l, nth_error orig k = Some o -> nth_error new k = Some n -> nth_error body' k = Some l ->
           changed_bold o n = true -> edited_text n <> [] -> l_bold l = true).
Proof. exact c24_reproduces. Qed.
Print Assumptions C24_recorded_fixups_reproduce.
(** Without <BOLD> markers the resulting text is the edit itself. *)
Theorem C24_plain_edit : forall orig new, List.length orig = List.length new ->
  (forall n, In n new -> edited_bold n = false) -> edited_lines orig new = new.
Proof. exact edited_lines_plain. Qed.
Print Assumptions C24_plain_edit.
Theorem C24_terminates : forall fs orig new, update_fixups fs orig new <> None /\ update_fixups fs orig new <> Some Panic.
Proof. exact c24_terminates. Qed.
Print Assumptions C24_terminates.
Example C24_ex :
  update_fixups [] [lit "l1"; lit "r"; lit "l3"; lit "r"] [lit "l1"; lit "m"; lit "l3 <BOLD>"; lit "r"] =
    Some (Ok [mkFixup [lit "l1"] (lit "r") (lit "m") false; mkFixup [] (lit "l3") (lit "l3") true]) /\
  edited_lines [lit "l1"; lit "r"; lit "l3"; lit "r"] [lit "l1"; lit "m"; lit "l3 <BOLD>"; lit "r"] =
    [lit "l1"; lit "m"; lit "l3"; lit "r"] /\
  update_fixups [] [lit "r"; lit "r"; lit "r"] [lit "r"; lit "m"; lit "r"] = Some Err.
Proof. vm_compute. repeat split. Qed.
(** The editor trims every kind of white space but only checks that lines neither start nor end with
    a blank: with a line ending in a tab, the recorded fixups cannot be applied again. *)
Theorem C24_whitespace_refuted : exists body new fs,
  (forall l, In l body -> ends_with (lit " ") (content l) = false /\ starts_with (lit " ") (content l) = false) /\
  update_fixups [] (editor_lines body) new = Some (Ok fs) /\ snd (fixups_apply fs body) = Err.
Proof.
  exists [from_parts [gp 0 "a" false] false; from_parts [mkPart 0 97 false; mkPart 0 98 false; mkPart 0 9 false] false],
    [lit "a"; lit "new"], [mkFixup [] (lit "ab") (lit "new") false].
  split; [|vm_compute; split; reflexivity]. intros l [<-|[<-|[]]]; vm_compute; split; reflexivity.
Qed.
Print Assumptions C24_whitespace_refuted.

(** * C25 *)
(** False: two editor rounds on a body without double empty lines. Round one blanks the line between
    two empty lines; round two records a context reaching across the collapsed run. *)
Theorem C25_reapply_refuted : exists raw edit1 fs1 edit2 fs2,
  no_double_empty raw /\
  update_fixups [] (editor_lines (fst (load_body [] raw))) edit1 = Some (Ok fs1) /\
  snd (load_body fs1 raw) = Ok tt /\
  update_fixups fs1 (editor_lines (fst (load_body fs1 raw))) edit2 = Some (Ok fs2) /\
  snd (load_body fs2 raw) = Err.
Proof.
  exists [tl "b"; tl "x"; empty_line; tl "del"; empty_line; tl "b"; tl "y"; empty_line; tl "b"],
    [lit "b"; lit "x"; []; []; []; lit "b"; lit "y"; []; lit "b"],
    [mkFixup [] (lit "del") [] false],
    [lit "b"; lit "x"; []; lit "changed"; lit "y"; []; lit "b"],
    [mkFixup [] (lit "del") [] false; mkFixup [lit "x"; []] (lit "b") (lit "changed") false].
  split; [cbn; repeat split; intros [? ?]; discriminate|]. vm_compute. repeat split.
Qed.
Print Assumptions C25_reapply_refuted.
(** It holds when the fixed-up body has no double empty lines (and is trimmed). *)
Theorem C25_reapply_without_collapse : forall fs raw new fs', snd (fixups_apply fs raw) = Ok tt ->
  no_double_empty (fst (fixups_apply fs raw)) ->
  (forall l, In l (fst (fixups_apply fs raw)) -> trim (content l) = content l) ->
  update_fixups fs (editor_lines (fst (load_body fs raw))) new = Some (Ok fs') ->
  exists body', fixups_apply fs' raw = (body', Ok tt) /\
    map content body' = edited_lines (map content (fst (fixups_apply fs raw))) new.
Proof. exact c25_reload. Qed.
Print Assumptions C25_reapply_without_collapse.
Example C25_reapply_without_collapse_ex :
  let raw := [tl "b"; empty_line; tl "b"] in
  no_double_empty (fst (fixups_apply [] raw)) /\
  update_fixups [] (editor_lines (fst (load_body [] raw))) [lit "b"; []; lit "c"] =
    Some (Ok [mkFixup [[]] (lit "b") (lit "c") false]).
Proof. split; [cbn; repeat split; intros [? ?]; discriminate|]. vm_compute. reflexivity. Qed.

(** * C26 *)
Theorem C26_keeps_text : forall ls, nonempty (remove_double_empty ls) = nonempty ls.
Proof. exact c26_text. Qed.
Print Assumptions C26_keeps_text.
Theorem C26_no_double_empty : forall ls, no_double_empty (remove_double_empty ls).
Proof. exact c26_no_double. Qed.
Print Assumptions C26_no_double_empty.
Theorem C26_keeps_one : forall ls, collapsed ls (remove_double_empty ls).
Proof. exact c26_collapsed. Qed.
Print Assumptions C26_keeps_one.
Theorem C26_idempotent : forall ls, remove_double_empty (remove_double_empty ls) = remove_double_empty ls.
Proof. exact c26_idempotent. Qed.
Print Assumptions C26_idempotent.
Example C26_ex :
  map content (remove_double_empty [empty_line; empty_line; tl "a"; empty_line; empty_line; empty_line; tl "b"; tl "c"]) =
  [[]; lit "a"; []; lit "b"; lit "c"].
Proof. vm_compute. reflexivity. Qed.
