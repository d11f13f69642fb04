(** Model of src/reference/*.rs (mod, parts, unchecked, builder, string, to_element).
    No proofs in this file. *)
From Verif Require Export ModelIdent.

(** ** src/reference/parts.rs *)
(** parts.rs:29-30 *)
Definition ref_article := range article_id.
Definition ref_paragraph := range numeric.
(** parts.rs:36-39 *)
Inductive ref_point := PtNum (r : range numeric) | PtAlpha (r : range hic).
(** parts.rs:91-94 *)
Inductive ref_subpoint := SpNum (r : range numeric) | SpAlpha (r : range prefixed).

(** derived [PartialEq]/[Ord]; the [Numeric] variant comes first. *)
Definition point_eqb (x y : ref_point) : bool :=
  match x, y with
  | PtNum a, PtNum b => range_eqb a b
  | PtAlpha a, PtAlpha b => range_eqb a b
  | _, _ => false
  end.
Definition point_cmp (x y : ref_point) : comparison :=
  match x, y with
  | PtNum a, PtNum b => range_cmp a b
  | PtAlpha a, PtAlpha b => range_cmp a b
  | PtNum _, PtAlpha _ => Lt
  | PtAlpha _, PtNum _ => Gt
  end.
Definition subpoint_eqb (x y : ref_subpoint) : bool :=
  match x, y with
  | SpNum a, SpNum b => range_eqb a b
  | SpAlpha a, SpAlpha b => range_eqb a b
  | _, _ => false
  end.
Definition subpoint_cmp (x y : ref_subpoint) : comparison :=
  match x, y with
  | SpNum a, SpNum b => range_cmp a b
  | SpAlpha a, SpAlpha b => range_cmp a b
  | SpNum _, SpAlpha _ => Lt
  | SpAlpha _, SpNum _ => Gt
  end.
(** parts.rs:59-66, 96-103 [is_range] *)
Definition point_is_range (x : ref_point) : bool :=
  match x with PtNum r => is_range r | PtAlpha r => is_range r end.
Definition subpoint_is_range (x : ref_subpoint) : bool :=
  match x with SpNum r => is_range r | SpAlpha r => is_range r end.
(** parts.rs:41-57 *)
Definition point_show_compact (x : ref_point) : str :=
  match x with PtNum r => range_show_compact r | PtAlpha r => range_show_compact r end.
Definition point_parse_compact (s : str) : outcome ref_point :=
  match @range_parse_compact numeric _ s with
  | Ok r => Ok (PtNum r)
  | Panic => Panic
  | Err => let* r := range_parse_compact s in Ok (PtAlpha r)
  end.
(** parts.rs:68-84 *)
Definition subpoint_show_compact (x : ref_subpoint) : str :=
  match x with SpNum r => range_show_compact r | SpAlpha r => range_show_compact r end.
Definition subpoint_parse_compact (s : str) : outcome ref_subpoint :=
  match @range_parse_compact numeric _ s with
  | Ok r => Ok (SpNum r)
  | Panic => Panic
  | Err => let* r := range_parse_compact s in Ok (SpAlpha r)
  end.
(** parts.rs:125-132 [AnyReferencePart] *)
Inductive any_part :=
| PartEmpty
| PartAct (a : act_id)
| PartArticle (a : ref_article)
| PartParagraph (p : ref_paragraph)
| PartPoint (p : ref_point)
| PartSubpoint (s : ref_subpoint).

(** ** src/reference/mod.rs:52-58 [Reference], unchecked.rs:28-39 [UncheckedReference].
    Both have the same five fields; one record is used for both, [try_ref] is the conversion. *)
Record reference := mkRef {
  f_act : option act_id;
  f_article : option ref_article;
  f_paragraph : option ref_paragraph;
  f_point : option ref_point;
  f_subpoint : option ref_subpoint
}.
Definition empty_ref : reference := mkRef None None None None None.

(** derived [PartialEq] and [Ord]: field by field in declaration order. *)
Definition article_part_eqb := opt_eqb (@range_eqb article_id _).
Definition paragraph_part_eqb := opt_eqb (@range_eqb numeric _).
Definition ref_eqb (x y : reference) : bool :=
  opt_eqb act_eqb (f_act x) (f_act y) && article_part_eqb (f_article x) (f_article y)
  && paragraph_part_eqb (f_paragraph x) (f_paragraph y) && opt_eqb point_eqb (f_point x) (f_point y)
  && opt_eqb subpoint_eqb (f_subpoint x) (f_subpoint y).
Definition ref_cmp (x y : reference) : comparison :=
  lex (opt_cmp act_cmp (f_act x) (f_act y))
  (lex (opt_cmp range_cmp (f_article x) (f_article y))
  (lex (opt_cmp range_cmp (f_paragraph x) (f_paragraph y))
  (lex (opt_cmp point_cmp (f_point x) (f_point y))
       (opt_cmp subpoint_cmp (f_subpoint x) (f_subpoint y))))).

(** ** src/reference/unchecked.rs *)
(** unchecked.rs:42-65 [check_part_combination], arms in source order. *)
Definition check_parts (r : reference) : bool :=
  match is_some (f_act r), is_some (f_article r), is_some (f_paragraph r), is_some (f_point r),
        is_some (f_subpoint r) with
  | _, false, false, false, false => true
  | _, true, _, _, false => true
  | _, true, _, true, true => true
  | false, false, true, false, false => true
  | false, false, _, true, _ => true
  | false, false, false, false, true => true
  | _, _, _, _, _ => false
  end.
(** unchecked.rs:67-93 [check_ranges] *)
Definition check_ranges (r : reference) : bool :=
  match f_article r with
  | Some a => if is_range a then is_none (f_paragraph r) && is_none (f_point r) && is_none (f_subpoint r) else true
  | None => true
  end &&
  match f_paragraph r with
  | Some p => if is_range p then is_none (f_point r) && is_none (f_subpoint r) else true
  | None => true
  end &&
  match f_point r with
  | Some p => if point_is_range p then is_none (f_subpoint r) else true
  | None => true
  end.
(** unchecked.rs:114-128 [TryFrom<UncheckedReference>] *)
Definition try_ref (r : reference) : outcome reference :=
  let* _ := ensure (check_parts r) in
  let* _ := ensure (check_ranges r) in
  Ok r.

(** ** src/reference/builder.rs.  The builder state is an unchecked reference. *)
(** builder.rs:40-55 *)
Definition reset_subpoint (b : reference) : reference :=
  mkRef (f_act b) (f_article b) (f_paragraph b) (f_point b) None.
Definition reset_point (b : reference) : reference :=
  reset_subpoint (mkRef (f_act b) (f_article b) (f_paragraph b) None (f_subpoint b)).
Definition reset_paragraph (b : reference) : reference :=
  reset_point (mkRef (f_act b) (f_article b) None (f_point b) (f_subpoint b)).
Definition reset_article (b : reference) : reference :=
  reset_paragraph (mkRef (f_act b) None (f_paragraph b) (f_point b) (f_subpoint b)).
(** builder.rs:62-95 [set_part] *)
Definition set_act (v : act_id) (b : reference) : reference :=
  reset_article (mkRef (Some v) (f_article b) (f_paragraph b) (f_point b) (f_subpoint b)).
Definition set_article (v : ref_article) (b : reference) : reference :=
  reset_paragraph (mkRef (f_act b) (Some v) (f_paragraph b) (f_point b) (f_subpoint b)).
Definition set_paragraph (v : ref_paragraph) (b : reference) : reference :=
  reset_point (mkRef (f_act b) (f_article b) (Some v) (f_point b) (f_subpoint b)).
Definition set_point (v : ref_point) (b : reference) : reference :=
  reset_subpoint (mkRef (f_act b) (f_article b) (f_paragraph b) (Some v) (f_subpoint b)).
Definition set_subpoint (v : ref_subpoint) (b : reference) : reference :=
  mkRef (f_act b) (f_article b) (f_paragraph b) (f_point b) (Some v).
(** builder.rs:36-38 *)
Definition build (b : reference) : outcome reference := try_ref b.

(** ** src/reference/mod.rs *)
(** mod.rs:61-69 *)
Definition get_last_part (r : reference) : any_part :=
  match f_subpoint r with
  | Some x => PartSubpoint x
  | None =>
  match f_point r with
  | Some x => PartPoint x
  | None =>
  match f_paragraph r with
  | Some x => PartParagraph x
  | None =>
  match f_article r with
  | Some x => PartArticle x
  | None =>
  match f_act r with
  | Some x => PartAct x
  | None => PartEmpty
  end end end end end.
(** mod.rs:71-73 *)
Definition is_act_only (r : reference) : bool := is_none (f_article r).
(** mod.rs:83-90 *)
Definition without_act (r : reference) : reference :=
  mkRef None (f_article r) (f_paragraph r) (f_point r) (f_subpoint r).
(** mod.rs:92-114 *)
Definition first_in_range (r : reference) : reference :=
  mkRef (f_act r)
    (option_map (fun x => single (r_start x)) (f_article r))
    (option_map (fun x => single (r_start x)) (f_paragraph r))
    (option_map (fun x => match x with
       | PtNum n => PtNum (single (r_start n)) | PtAlpha a => PtAlpha (single (r_start a)) end) (f_point r))
    (option_map (fun x => match x with
       | SpNum n => SpNum (single (r_start n)) | SpAlpha a => SpAlpha (single (r_start a)) end) (f_subpoint r)).
(** mod.rs:116-138 *)
Definition last_in_range (r : reference) : reference :=
  mkRef (f_act r)
    (option_map (fun x => single (r_end x)) (f_article r))
    (option_map (fun x => single (r_end x)) (f_paragraph r))
    (option_map (fun x => match x with
       | PtNum n => PtNum (single (r_end n)) | PtAlpha a => PtAlpha (single (r_end a)) end) (f_point r))
    (option_map (fun x => match x with
       | SpNum n => SpNum (single (r_end n)) | SpAlpha a => SpAlpha (single (r_end a)) end) (f_subpoint r)).
Definition when_some {A} (f : A -> reference -> reference) (o : option A) (b : reference) : reference :=
  match o with Some x => f x b | None => b end.
(** mod.rs:140-243 [make_range] *)
Definition make_range (s e : reference) : outcome reference :=
  let* _ := ensure (opt_eqb act_eqb (f_act s) (f_act e)) in
  let b := when_some set_act (f_act s) empty_ref in
  (* article *)
  if negb (article_part_eqb (f_article s) (f_article e)) then
    let* _ := ensure (is_none (f_paragraph s) && is_none (f_paragraph e) && is_none (f_point s)
                      && is_none (f_point e) && is_none (f_subpoint s) && is_none (f_subpoint e)) in
    match f_article s, f_article e with
    | Some sa, Some ea => build (set_article (mkRange (r_start sa) (r_end ea)) b)
    | _, _ => Err
    end
  else
  let b := when_some set_article (f_article s) b in
  (* paragraph *)
  if negb (paragraph_part_eqb (f_paragraph s) (f_paragraph e)) then
    let* _ := ensure (is_none (f_point s) && is_none (f_point e)
                      && is_none (f_subpoint s) && is_none (f_subpoint e)) in
    match f_paragraph s, f_paragraph e with
    | Some sp, Some ep => build (set_paragraph (mkRange (r_start sp) (r_end ep)) b)
    | _, _ => Err
    end
  else
  let b := when_some set_paragraph (f_paragraph s) b in
  (* point *)
  if negb (opt_eqb point_eqb (f_point s) (f_point e)) then
    let* _ := ensure (is_none (f_subpoint s) && is_none (f_subpoint e)) in
    match f_point s, f_point e with
    | Some (PtNum sp), Some (PtNum ep) => build (set_point (PtNum (mkRange (r_start sp) (r_end ep))) b)
    | Some (PtAlpha sp), Some (PtAlpha ep) => build (set_point (PtAlpha (mkRange (r_start sp) (r_end ep))) b)
    | _, _ => Err
    end
  else
  let b := when_some set_point (f_point s) b in
  (* subpoint *)
  if negb (opt_eqb subpoint_eqb (f_subpoint s) (f_subpoint e)) then
    match f_subpoint s, f_subpoint e with
    | Some (SpNum sp), Some (SpNum ep) => build (set_subpoint (SpNum (mkRange (r_start sp) (r_end ep))) b)
    | Some (SpAlpha sp), Some (SpAlpha ep) => build (set_subpoint (SpAlpha (mkRange (r_start sp) (r_end ep))) b)
    | _, _ => Err
    end
  else
  build (when_some set_subpoint (f_subpoint s) b).
(** mod.rs:245-259 *)
Definition is_parent_of (self other : reference) : bool :=
  if negb (opt_eqb act_eqb (f_act self) (f_act other)) then false
  else if negb (article_part_eqb (f_article self) (f_article other)) then is_none (f_article self)
  else if negb (paragraph_part_eqb (f_paragraph self) (f_paragraph other)) then is_none (f_paragraph self)
  else if negb (opt_eqb point_eqb (f_point self) (f_point other)) then is_none (f_point self)
  else if negb (opt_eqb subpoint_eqb (f_subpoint self) (f_subpoint other)) then is_none (f_subpoint self)
  else false.
(** mod.rs:261-268 *)
Definition contains (self other : reference) : bool :=
  let sf := first_in_range self in
  let sl := last_in_range self in
  let of_ := first_in_range other in
  let ol := last_in_range other in
  (cmp_le (ref_cmp sf of_) || is_parent_of sf of_) && (cmp_ge (ref_cmp sl ol) || is_parent_of sl ol).
(** mod.rs:270-298 *)
Definition parent (r : reference) : reference :=
  if is_some (f_subpoint r) then mkRef (f_act r) (f_article r) (f_paragraph r) (f_point r) None
  else if is_some (f_point r) then mkRef (f_act r) (f_article r) (f_paragraph r) None (f_subpoint r)
  else if is_some (f_paragraph r) then mkRef (f_act r) (f_article r) None (f_point r) (f_subpoint r)
  else if is_some (f_article r) then mkRef (f_act r) None (f_paragraph r) (f_point r) (f_subpoint r)
  else empty_ref.
(** mod.rs:300-333 *)
Definition relative_to (self other : reference) : outcome reference :=
  try_ref (
    if is_some (f_act self) then self
    else if is_some (f_article self) then
      mkRef (f_act other) (f_article self) (f_paragraph self) (f_point self) (f_subpoint self)
    else if is_some (f_paragraph self) then
      mkRef (f_act other) (f_article other) (f_paragraph self) (f_point self) (f_subpoint self)
    else if is_some (f_point self) then
      mkRef (f_act other) (f_article other) (f_paragraph other) (f_point self) (f_subpoint self)
    else if is_some (f_subpoint self) then
      mkRef (f_act other) (f_article other) (f_paragraph other) (f_point other) (f_subpoint self)
    else other).
(** mod.rs:336-363 [From] conversions *)
Definition ref_of_act (a : act_id) : reference := mkRef (Some a) None None None None.
Definition ref_of_article (a : ref_article) : reference := mkRef None (Some a) None None None.
Definition ref_of_act_article (a : act_id) (b : ref_article) : reference := mkRef (Some a) (Some b) None None None.
(** to_element.rs:29-93: the reference of one element, from its identifier only.  The paragraph
    identifier here is the [Option<NumericIdentifier>] of a [Paragraph]. *)
Definition ref_of_article_elem (i : article_id) : reference := mkRef None (Some (single i)) None None None.
Definition ref_of_paragraph_elem (i : option numeric) : reference :=
  mkRef None None (option_map single i) None None.
Definition ref_of_numeric_point (i : numeric) : reference := mkRef None None None (Some (PtNum (single i))) None.
Definition ref_of_alpha_point (i : hic) : reference := mkRef None None None (Some (PtAlpha (single i))) None.
Definition ref_of_numeric_subpoint (i : numeric) : reference := mkRef None None None None (Some (SpNum (single i))).
Definition ref_of_alpha_subpoint (i : prefixed) : reference := mkRef None None None None (Some (SpAlpha (single i))).

(** ** src/reference/string.rs *)
(** string.rs:141-153 *)
Definition ref_show_compact (r : reference) : str :=
  opt_show_compact act_show_compact (f_act r) ++ [chr "_"]
  ++ opt_show_compact range_show_compact (f_article r) ++ [chr "_"]
  ++ opt_show_compact range_show_compact (f_paragraph r) ++ [chr "_"]
  ++ opt_show_compact point_show_compact (f_point r) ++ [chr "_"]
  ++ opt_show_compact subpoint_show_compact (f_subpoint r).
(** string.rs:155-184 *)
Definition ref_parse_compact (s : str) : outcome reference :=
  match split_on (chr "_") s with
  | [a; b; c; d; e] =>
      let* a := opt_parse_compact act_parse_compact a in
      let* b := opt_parse_compact range_parse_compact b in
      let* c := opt_parse_compact range_parse_compact c in
      let* d := opt_parse_compact point_parse_compact d in
      let* e := opt_parse_compact subpoint_parse_compact e in
      try_ref (mkRef a b c d e)
  | _ => Err
  end.
(** string.rs:28-124 [Display]; fails (panics) only through the act identifier. *)
Definition show_plain_range {T} `{IdentCommon T} (show : T -> str) (suffix : str) (each : bool) (pre : str)
    (r : range T) : str :=
  if negb (is_range r) then pre ++ show (r_start r) ++ suffix
  else if each then pre ++ show (r_start r) ++ suffix ++ lit "–" ++ pre ++ show (r_end r) ++ suffix
  else pre ++ show (r_start r) ++ lit "–" ++ show (r_end r) ++ suffix.
Definition ref_show (r : reference) : outcome str :=
  let* act := match f_act r with
    | Some a => let* s := act_show a in Ok (s ++ if is_some (f_article r) then lit " " else [])
    | None => Ok []
    end in
  Ok (act
  ++ match f_article r with
     | Some a => show_plain_range article_show (lit ".") false [] a
                 ++ (if is_some (f_paragraph r) || is_some (f_point r) then lit " § " else lit " §-a")
     | None => []
     end
  ++ match f_paragraph r with
     | Some p => show_plain_range numeric_show (lit ")") true (lit "(") p
                 ++ (if is_some (f_point r) then lit " bekezdés " else lit " bekezdése")
     | None => []
     end
  ++ match f_point r with
     | Some p => match p with
                 | PtNum n => show_plain_range numeric_show (lit ".") false [] n
                 | PtAlpha a => show_plain_range hic_show (lit ")") true [] a
                 end ++ (if is_some (f_subpoint r) then lit " pont " else lit " pontja")
     | None => []
     end
  ++ match f_subpoint r with
     | Some p => match p with
                 | SpNum n => show_plain_range numeric_show (lit ".") false [] n
                 | SpAlpha a => show_plain_range prefixed_show (lit ")") true [] a
                 end ++ lit " alpontja"
     | None => []
     end).
