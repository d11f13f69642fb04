(** Model of how acts are written to and read from JSON and YAML: the [Serialize] and [Deserialize] implementations that serde
    derives for src/structure.rs, src/semantic_info.rs, src/reference/*.rs, src/identifier/*.rs and src/util/indentedline.rs,
    with their attributes. No proofs in this file.

    What serde_json and serde_yaml (through src/util/singleton_yaml.rs) do with the text is external: both write the same tree of
    values, a variant with data as a map with one entry.
    Simplifications: structs are not read from sequences; numbers of type f64 are integers of thousandths and do not change; a
    line whose cached text is not the text of its parts is not read; the limit on the depth of data is one on the depth of
    amendments in amendments, the argument [n]. Reading a date (chrono) is the argument [dp]. *)
From Verif Require Export ModelSem ModelMain.

(** ** The data model of serde *)
Inductive value :=
| VNull | VBool (b : bool) | VInt (z : Z) | VFloat (thousandths : Z) | VStr (s : str)
| VSeq (l : list value) | VMap (l : list (str * value)).
Definition fields := list (str * value).
(** A field, a field with [skip_serializing_if], a field of type Option with [skip_serializing_if = "Option::is_none"] *)
Definition put_field (k : string) (v : value) : fields := [(lit k, v)].
Definition put_unless (b : bool) (k : string) (v : value) : fields := if b then [] else [(lit k, v)].
Definition put_some {A} (k : string) (f : A -> value) (o : option A) : fields := match o with Some x => [(lit k, f x)] | None => [] end.
(** A variant with data *)
Definition put_variant (k : string) (v : value) : value := VMap [(lit k, v)].
Definition put_list {A} (f : A -> value) (l : list A) : value := VSeq (map f l).
Definition put_bool (b : bool) : value := VBool b.
Definition put_N (n : N) : value := VInt (Z.of_N n).

(** The fields of a struct; others are ignored, a repeated one is an error *)
Definition get_fields (v : value) : outcome fields := match v with VMap l => Ok l | _ => Err end.
Definition lookup (k : string) (l : fields) : outcome (option value) :=
  match filter (fun p => str_eqb (fst p) (lit k)) l with [] => Ok None | [p] => Ok (Some (snd p)) | _ => Err end.
Definition get_field {A} (k : string) (f : value -> outcome A) (l : fields) : outcome A :=
  let* o := lookup k l in match o with Some v => f v | None => Err end.
(** [serde(default)] *)
Definition get_default {A} (k : string) (d : A) (f : value -> outcome A) (l : fields) : outcome A :=
  let* o := lookup k l in match o with Some v => f v | None => Ok d end.
Definition get_option {A} (f : value -> outcome A) (v : value) : outcome (option A) := match v with VNull => Ok None | _ => omap Some (f v) end.
Definition get_some {A} (k : string) (f : value -> outcome A) (l : fields) : outcome (option A) := get_default k None (get_option f) l.
Definition get_str (v : value) : outcome str := match v with VStr s => Ok s | _ => Err end.
Definition get_bool (v : value) : outcome bool := match v with VBool b => Ok b | _ => Err end.
Definition get_int (min max : Z) (v : value) : outcome Z :=
  match v with VInt z => if ((min <=? z) && (z <=? max))%Z then Ok z else Err | _ => Err end.
Definition get_N (max : N) (v : value) : outcome N := omap Z.to_N (get_int 0 (Z.of_N max) v).
Definition get_list {A} (f : value -> outcome A) (v : value) : outcome (list A) := match v with VSeq l => map_ok f l | _ => Err end.
(** A variant: its name, and its data if there are any *)
Definition get_variant (v : value) : outcome (str * option value) :=
  match v with VStr s => Ok (s, None) | VMap [(s, d)] => Ok (s, Some d) | _ => Err end.
Fixpoint select {A} (l : list (string * (option value -> outcome A))) (p : str * option value) : outcome A :=
  match l with
  | [] => Err
  | (k, f) :: l' => if str_eqb (fst p) (lit k) then f (snd p) else select l' p
  end.
Definition with_data {A} (f : value -> outcome A) (o : option value) : outcome A := match o with Some v => f v | None => Err end.
Definition no_data {A} (a : A) (o : option value) : outcome A := match o with None | Some VNull => Ok a | _ => Err end.
(** [serde(untagged)]: the first variant that can be read *)
Definition first_ok {A} (x y : outcome A) : outcome A := match x with Err => y | _ => x end.
(** [serde(try_from = "String")] *)
Definition get_parsed {A} (parse : str -> outcome A) (v : value) : outcome A := let* s := get_str v in parse s.

(** ** src/identifier/*.rs *)
(** act.rs:28-32 *)
Definition put_act_id (a : act_id) : value := VMap (put_field "year" (VInt (act_year a)) ++ put_field "number" (VInt (act_number a))).
Definition get_act_id (v : value) : outcome act_id :=
  let* l := get_fields v in
  let* y := get_field "year" (get_int (-32768) 32767) l in
  let* n := get_field "number" (get_int (-2147483648) 2147483647) l in Ok (mkAct y n).
(** alphabetic.rs:31-32, numeric.rs:31-32, article.rs:29-30, prefixed_alphabetic.rs:29-30 *)
Definition put_hic (x : hic) : value := VStr (hic_show x).
Definition get_hic : value -> outcome hic := get_parsed hic_parse.
Definition put_numeric (x : numeric) : value := VStr (numeric_show x).
Definition get_numeric : value -> outcome numeric := get_parsed numeric_parse.
Definition put_article_id (x : article_id) : value := VStr (article_show x).
Definition get_article_id : value -> outcome article_id := get_parsed article_parse.
Definition put_prefixed (x : prefixed) : value := VStr (prefixed_show x).
Definition get_prefixed : value -> outcome prefixed := get_parsed prefixed_parse.
(** range.rs:26-27, 104-137 IdentifierRangeSerdeHelper *)
Definition put_range {T} `{IdentCommon T} (f : T -> value) (r : range T) : value :=
  if id_eqb (r_start r) (r_end r) then f (r_start r) else VMap (put_field "start" (f (r_start r)) ++ put_field "end" (f (r_end r))).
Definition get_range {T} (f : value -> outcome T) (v : value) : outcome (range T) :=
  first_ok (let* x := f v in Ok (mkRange x x))
    (let* l := get_fields v in let* x := get_field "start" f l in let* y := get_field "end" f l in Ok (mkRange x y)).

(** ** src/reference *)
(** parts.rs:35-39 RefPartPoint, 89-93 RefPartSubpoint *)
Definition put_point (p : ref_point) : value := match p with PtNum r => put_range put_numeric r | PtAlpha r => put_range put_hic r end.
Definition get_point (v : value) : outcome ref_point :=
  first_ok (omap PtNum (get_range get_numeric v)) (omap PtAlpha (get_range get_hic v)).
Definition put_subpoint (p : ref_subpoint) : value := match p with SpNum r => put_range put_numeric r | SpAlpha r => put_range put_prefixed r end.
Definition get_subpoint (v : value) : outcome ref_subpoint :=
  first_ok (omap SpNum (get_range get_numeric v)) (omap SpAlpha (get_range get_prefixed v)).
(** mod.rs:49-58 Reference, unchecked.rs:27-39 UncheckedReference *)
Definition put_ref (r : reference) : value :=
  VMap (put_some "act" put_act_id (f_act r) ++ put_some "article" (put_range put_article_id) (f_article r)
        ++ put_some "paragraph" (put_range put_numeric) (f_paragraph r) ++ put_some "point" put_point (f_point r)
        ++ put_some "subpoint" put_subpoint (f_subpoint r)).
Definition get_ref (v : value) : outcome reference :=
  let* l := get_fields v in
  let* a := get_some "act" get_act_id l in
  let* b := get_some "article" (get_range get_article_id) l in
  let* c := get_some "paragraph" (get_range get_numeric) l in
  let* d := get_some "point" get_point l in
  let* e := get_some "subpoint" get_subpoint l in
  try_ref (mkRef a b c d e).
(** structural.rs:36-53 StructuralReferenceElement *)
Definition put_sr_element (e : sr_element) : value :=
  match e with
  | SePart i => put_variant "Part" (put_numeric i)
  | SeTitle i => put_variant "Title" (put_numeric i)
  | SeChapter i => put_variant "Chapter" (put_numeric i)
  | SeSubtitleId i => put_variant "SubtitleId" (put_numeric i)
  | SeSubtitleRange r => put_variant "SubtitleRange" (put_range put_numeric r)
  | SeSubtitleTitle t => put_variant "SubtitleTitle" (VStr t)
  | SeSubtitleAfterArticle a => put_variant "SubtitleAfterArticle" (put_article_id a)
  | SeSubtitleBeforeArticle a => put_variant "SubtitleBeforeArticle" (put_article_id a)
  | SeSubtitleBeforeArticleInclusive a => put_variant "SubtitleBeforeArticleInclusive" (put_article_id a)
  | SeSubtitleUnknown => VStr (lit "SubtitleUnknown")
  | SeArticle r => put_variant "Article" (put_range put_article_id r)
  end.
Definition get_sr_element (v : value) : outcome sr_element :=
  let* p := get_variant v in
  select [("Part", with_data (fun d => omap SePart (get_numeric d)));
          ("Title", with_data (fun d => omap SeTitle (get_numeric d)));
          ("Chapter", with_data (fun d => omap SeChapter (get_numeric d)));
          ("SubtitleId", with_data (fun d => omap SeSubtitleId (get_numeric d)));
          ("SubtitleRange", with_data (fun d => omap SeSubtitleRange (get_range get_numeric d)));
          ("SubtitleTitle", with_data (fun d => omap SeSubtitleTitle (get_str d)));
          ("SubtitleAfterArticle", with_data (fun d => omap SeSubtitleAfterArticle (get_article_id d)));
          ("SubtitleBeforeArticle", with_data (fun d => omap SeSubtitleBeforeArticle (get_article_id d)));
          ("SubtitleBeforeArticleInclusive", with_data (fun d => omap SeSubtitleBeforeArticleInclusive (get_article_id d)));
          ("SubtitleUnknown", no_data SeSubtitleUnknown);
          ("Article", with_data (fun d => omap SeArticle (get_range get_article_id d)))]%string p.
(** structural.rs:55-63 StructuralReferenceParent *)
Definition put_sr_parent (e : sr_parent) : value :=
  match e with
  | SpPart i => put_variant "Part" (put_numeric i)
  | SpTitle i => put_variant "Title" (put_numeric i)
  | SpChapter i => put_variant "Chapter" (put_numeric i)
  | SpSubtitleId i => put_variant "SubtitleId" (put_numeric i)
  | SpSubtitleRange r => put_variant "SubtitleRange" (put_range put_numeric r)
  | SpSubtitleTitle t => put_variant "SubtitleTitle" (VStr t)
  end.
Definition get_sr_parent (v : value) : outcome sr_parent :=
  let* p := get_variant v in
  select [("Part", with_data (fun d => omap SpPart (get_numeric d)));
          ("Title", with_data (fun d => omap SpTitle (get_numeric d)));
          ("Chapter", with_data (fun d => omap SpChapter (get_numeric d)));
          ("SubtitleId", with_data (fun d => omap SpSubtitleId (get_numeric d)));
          ("SubtitleRange", with_data (fun d => omap SpSubtitleRange (get_range get_numeric d)));
          ("SubtitleTitle", with_data (fun d => omap SpSubtitleTitle (get_str d)))]%string p.
(** structural.rs:23-34 StructuralReference *)
Definition put_struct_ref (r : struct_ref) : value :=
  VMap (put_some "act" put_act_id (sr_act r) ++ put_some "book" put_numeric (sr_book r) ++ put_some "parent" put_sr_parent (sr_par r)
        ++ put_field "structural_element" (put_sr_element (sr_elem r)) ++ put_unless (negb (sr_title_only r)) "title_only" (put_bool (sr_title_only r))).
Definition get_struct_ref (v : value) : outcome struct_ref :=
  let* l := get_fields v in
  let* a := get_some "act" get_act_id l in
  let* b := get_some "book" get_numeric l in
  let* c := get_some "parent" get_sr_parent l in
  let* d := get_field "structural_element" get_sr_element l in
  let* e := get_default "title_only" false get_bool l in
  Ok (mkSRef a b c d e).

Section Save.
Variable dp : str -> outcome date.

(** chrono's NaiveDate is written as its Debug form *)
Definition put_date (d : date) : value := VStr (show_date d).
Definition get_date : value -> outcome date := get_parsed dp.
(** BTreeMap<String, ActIdentifier> *)
Definition put_abbrevs (m : list (str * act_id)) : value := VMap (map (fun p => (fst p, put_act_id (snd p))) m).
Definition get_entry (p : str * value) : outcome (str * act_id) := omap (fun a => (fst p, a)) (get_act_id (snd p)).
Definition get_abbrevs (v : value) : outcome (list (str * act_id)) :=
  let* l := get_fields v in omap map_of (map_ok get_entry l).

(** ** src/semantic_info.rs *)
Definition max_usize : N := (2 ^ 64 - 1)%N.
(** semantic_info.rs:44-51 OutgoingReference *)
Definition put_out (o : out_ref) : value :=
  VMap (put_field "start" (put_N (o_start o)) ++ put_field "end" (put_N (o_end o)) ++ put_field "reference" (put_ref (o_ref o))).
Definition get_out (v : value) : outcome out_ref :=
  let* l := get_fields v in
  let* s := get_field "start" (get_N max_usize) l in
  let* e := get_field "end" (get_N max_usize) l in
  let* r := get_field "reference" get_ref l in Ok (mkOut s e r).
(** semantic_info.rs:74-78 BlockAmendment, 136-140 StructuralBlockAmendment *)
Definition put_ba_phrase (b : ba_phrase) : value :=
  VMap (put_field "position" (put_ref (ba_position b)) ++ put_field "pure_insertion" (put_bool (ba_pure b))).
Definition get_ba_phrase (v : value) : outcome ba_phrase :=
  let* l := get_fields v in let* r := get_field "position" get_ref l in let* p := get_field "pure_insertion" get_bool l in Ok (mkBaPhrase r p).
Definition put_sba_phrase (b : sba_phrase) : value :=
  VMap (put_field "position" (put_struct_ref (sba_position b)) ++ put_field "pure_insertion" (put_bool (sba_pure b))).
Definition get_sba_phrase (v : value) : outcome sba_phrase :=
  let* l := get_fields v in let* r := get_field "position" get_struct_ref l in let* p := get_field "pure_insertion" get_bool l in Ok (mkSbaPhrase r p).
(** semantic_info.rs:98-104 TextAmendmentSAEPart *)
Definition put_sae_part (p : sae_part) : value :=
  VStr (match p with PartAll => lit "All" | PartIntroOnly => lit "IntroOnly" | PartWrapUpOnly => lit "WrapUpOnly" end).
Definition get_sae_part (v : value) : outcome sae_part :=
  let* p := get_variant v in
  select [("All", no_data PartAll); ("IntroOnly", no_data PartIntroOnly); ("WrapUpOnly", no_data PartWrapUpOnly)]%string p.
(** semantic_info.rs:142-146 is_default *)
Definition is_all (p : sae_part) : bool := match p with PartAll => true | _ => false end.
(** semantic_info.rs:87-96 TextAmendmentReference *)
Definition put_ta_ref (t : ta_ref) : value :=
  match t with
  | TaSae r p => put_variant "SAE" (VMap (put_field "reference" (put_ref r) ++ put_unless (is_all p) "amended_part" (put_sae_part p)))
  | TaStructural r => put_variant "Structural" (put_struct_ref r)
  | TaArticleTitle r => put_variant "ArticleTitle" (put_ref r)
  end.
Definition get_ta_ref (v : value) : outcome ta_ref :=
  let* p := get_variant v in
  select [("SAE", with_data (fun d => let* l := get_fields d in let* r := get_field "reference" get_ref l in
                                      let* q := get_default "amended_part" PartAll get_sae_part l in Ok (TaSae r q)));
          ("Structural", with_data (fun d => omap TaStructural (get_struct_ref d)));
          ("ArticleTitle", with_data (fun d => omap TaArticleTitle (get_ref d)))]%string p.
(** semantic_info.rs:80-85 TextAmendment *)
Definition put_ta (t : text_amendment) : value :=
  VMap (put_field "reference" (put_ta_ref (ta_reference t)) ++ put_field "from" (VStr (ta_from t)) ++ put_field "to" (VStr (ta_to t))).
Definition get_ta (v : value) : outcome text_amendment :=
  let* l := get_fields v in
  let* r := get_field "reference" get_ta_ref l in let* f := get_field "from" get_str l in let* t := get_field "to" get_str l in Ok (mkTa r f t).
(** semantic_info.rs:119-128 EnforcementDateType *)
Definition put_ed_type (e : ed_type) : value :=
  match e with
  | EdDate d => put_variant "Date" (put_date d)
  | EdDaysAfter n => put_variant "DaysAfterPublication" (put_N n)
  | EdDayInMonth m d => put_variant "DayInMonthAfterPublication" (VMap (put_some "month" put_N m ++ put_field "day" (put_N d)))
  end.
Definition get_ed_type (v : value) : outcome ed_type :=
  let* p := get_variant v in
  select [("Date", with_data (fun d => omap EdDate (get_date d)));
          ("DaysAfterPublication", with_data (fun d => omap EdDaysAfter (get_N 65535 d)));
          ("DayInMonthAfterPublication", with_data (fun d => let* l := get_fields d in let* m := get_some "month" (get_N 255) l in
                                                              let* n := get_field "day" (get_N 65535) l in Ok (EdDayInMonth m n)))]%string p.
(** semantic_info.rs:106-117 EnforcementDate *)
Definition put_enforcement (e : enforcement) : value :=
  VMap (put_unless (is_empty (ed_positions e)) "positions" (put_list put_ref (ed_positions e))
        ++ put_unless (is_empty (ed_structural e)) "structural_positions" (put_list put_struct_ref (ed_structural e))
        ++ put_unless (negb (ed_default e)) "is_default" (put_bool (ed_default e))
        ++ put_field "date" (put_ed_type (ed_date e)) ++ put_some "inline_repeal" put_date (ed_repeal e)).
Definition get_enforcement (v : value) : outcome enforcement :=
  let* l := get_fields v in
  let* p := get_default "positions" [] (get_list get_ref) l in
  let* s := get_default "structural_positions" [] (get_list get_struct_ref) l in
  let* d := get_default "is_default" false get_bool l in
  let* t := get_field "date" get_ed_type l in
  let* r := get_some "inline_repeal" get_date l in
  Ok (mkEd p s d t r).
(** semantic_info.rs:130-134 RepealReference *)
Definition put_repeal (r : repeal_ref) : value :=
  match r with RrRef r => put_variant "Reference" (put_ref r) | RrStructural r => put_variant "StructuralReference" (put_struct_ref r) end.
Definition get_repeal (v : value) : outcome repeal_ref :=
  let* p := get_variant v in
  select [("Reference", with_data (fun d => omap RrRef (get_ref d)));
          ("StructuralReference", with_data (fun d => omap RrStructural (get_struct_ref d)))]%string p.
(** semantic_info.rs:65-72 SpecialPhrase *)
Definition put_phrase (p : phrase) : value :=
  match p with
  | PhBlock b => put_variant "BlockAmendment" (put_ba_phrase b)
  | PhEnforcement e => put_variant "EnforcementDate" (put_enforcement e)
  | PhRepeal l => put_variant "Repeal" (put_list put_repeal l)
  | PhText l => put_variant "TextAmendment" (put_list put_ta l)
  | PhStructural b => put_variant "StructuralBlockAmendment" (put_sba_phrase b)
  end.
Definition get_phrase (v : value) : outcome phrase :=
  let* p := get_variant v in
  select [("BlockAmendment", with_data (fun d => omap PhBlock (get_ba_phrase d)));
          ("EnforcementDate", with_data (fun d => omap PhEnforcement (get_enforcement d)));
          ("Repeal", with_data (fun d => omap PhRepeal (get_list get_repeal d)));
          ("TextAmendment", with_data (fun d => omap PhText (get_list get_ta d)));
          ("StructuralBlockAmendment", with_data (fun d => omap PhStructural (get_sba_phrase d)))]%string p.
(** semantic_info.rs:26-34 SemanticInfo *)
Definition put_si (i : sem_info) : value :=
  VMap (put_unless (is_empty (si_outgoing i)) "outgoing_references" (put_list put_out (si_outgoing i))
        ++ put_unless (is_empty (si_abbrevs i)) "new_abbreviations" (put_abbrevs (si_abbrevs i))
        ++ put_some "special_phrase" put_phrase (si_phrase i)).
Definition get_si (v : value) : outcome sem_info :=
  let* l := get_fields v in
  let* o := get_default "outgoing_references" [] (get_list get_out) l in
  let* a := get_default "new_abbreviations" [] get_abbrevs l in
  let* p := get_some "special_phrase" get_phrase l in
  Ok (mkSi o a p).

(** ** src/structure.rs *)
(** structure.rs:505-511 ChangeCause, 499-503 LastChange *)
Definition put_cause (c : change_cause) : value :=
  match c with
  | CcAmendment r => put_variant "Amendment" (put_ref r)
  | CcAutoRepeal => VStr (lit "AutoRepeal")
  | CcOther s => put_variant "Other" (VStr s)
  end.
Definition get_cause (v : value) : outcome change_cause :=
  let* p := get_variant v in
  select [("Amendment", with_data (fun d => omap CcAmendment (get_ref d))); ("AutoRepeal", no_data CcAutoRepeal);
          ("Other", with_data (fun d => omap CcOther (get_str d)))]%string p.
Definition put_change (c : last_change) : value := VMap (put_field "date" (put_date (lc_date c)) ++ put_field "cause" (put_cause (lc_cause c))).
Definition get_change (v : value) : outcome last_change :=
  let* l := get_fields v in let* d := get_field "date" get_date l in let* c := get_field "cause" get_cause l in Ok (mkLc d c).
(** structure.rs:287-297 SAEBody, untagged *)
Definition put_body {C} (f : C -> value) (b : sae_body C) : value :=
  match b with
  | BText t => VStr t
  | BChildren i c w => VMap (put_field "intro" (VStr i) ++ put_field "children" (f c) ++ put_some "wrap_up" VStr w)
  end.
Definition get_body {C} (f : value -> outcome C) (v : value) : outcome (sae_body C) :=
  first_ok (omap BText (get_str v))
    (let* l := get_fields v in let* i := get_field "intro" get_str l in let* c := get_field "children" f l in
     let* w := get_some "wrap_up" get_str l in Ok (BChildren i c w)).
(** structure.rs:250-267 SubArticleElement. The identifier is left out if it is empty, which only that of a paragraph can be. *)
Definition put_sae {I C} (id : I -> fields) (f : C -> value) (e : sae I C) : value :=
  VMap (id (s_id e) ++ put_field "body" (put_body f (s_body e))
        ++ put_unless (si_is_empty (s_si e)) "semantic_info" (put_si (s_si e)) ++ put_some "last_change" put_change (s_change e)).
Definition get_sae {I C} (id : fields -> outcome I) (f : value -> outcome C) (v : value) : outcome (sae I C) :=
  let* l := get_fields v in
  let* i := id l in
  let* b := get_field "body" (get_body f) l in
  let* s := get_default "semantic_info" si_default get_si l in
  let* c := get_some "last_change" get_change l in
  Ok (mkSae i b s c).
(** structure.rs:374-402 the empty enums *)
Definition put_none (c : Empty_set) : value := match c with end.
Definition get_none (v : value) : outcome Empty_set := Err.
Definition put_alpha_sub : alpha_subpoint -> value := put_sae (fun i => put_field "identifier" (put_prefixed i)) put_none.
Definition get_alpha_sub : value -> outcome alpha_subpoint := get_sae (get_field "identifier" get_prefixed) get_none.
Definition put_num_sub : num_subpoint -> value := put_sae (fun i => put_field "identifier" (put_numeric i)) put_none.
Definition get_num_sub : value -> outcome num_subpoint := get_sae (get_field "identifier" get_numeric) get_none.
(** structure.rs:338-342 AlphabeticPointChildren, 358-361 NumericPointChildren *)
Definition put_alpha_children (c : alpha_children) : value :=
  match c with
  | AcAlpha l => put_variant "AlphabeticSubpoint" (put_list put_alpha_sub l)
  | AcNum l => put_variant "NumericSubpoint" (put_list put_num_sub l)
  end.
Definition get_alpha_children (v : value) : outcome alpha_children :=
  let* p := get_variant v in
  select [("AlphabeticSubpoint", with_data (fun d => omap AcAlpha (get_list get_alpha_sub d)));
          ("NumericSubpoint", with_data (fun d => omap AcNum (get_list get_num_sub d)))]%string p.
Definition put_num_children (c : num_children) : value := match c with NcAlpha l => put_variant "AlphabeticSubpoint" (put_list put_alpha_sub l) end.
Definition get_num_children (v : value) : outcome num_children :=
  let* p := get_variant v in select [("AlphabeticSubpoint", with_data (fun d => omap NcAlpha (get_list get_alpha_sub d)))]%string p.
Definition put_alpha : alpha_point -> value := put_sae (fun i => put_field "identifier" (put_hic i)) put_alpha_children.
Definition get_alpha : value -> outcome alpha_point := get_sae (get_field "identifier" get_hic) get_alpha_children.
Definition put_num : num_point -> value := put_sae (fun i => put_field "identifier" (put_numeric i)) put_num_children.
Definition get_num : value -> outcome num_point := get_sae (get_field "identifier" get_numeric) get_num_children.
(** indentedline.rs:28-41 IndentedLinePart, IndentedLine *)
Definition put_part (p : lpart) : value :=
  VMap (put_field "dx" (VFloat (p_dx p)) ++ put_field "content" (VStr [p_ch p]) ++ put_field "bold" (put_bool (p_bold p))).
Definition get_float (v : value) : outcome Z := match v with VFloat z => Ok z | _ => Err end.
Definition get_char (v : value) : outcome char := match v with VStr [c] => Ok c | _ => Err end.
Definition get_part (v : value) : outcome lpart :=
  let* l := get_fields v in
  let* x := get_field "dx" get_float l in let* c := get_field "content" get_char l in let* b := get_field "bold" get_bool l in Ok (mkPart x c b).
Definition put_line (l : line) : value :=
  VMap (put_field "parts" (put_list put_part (l_parts l)) ++ put_field "justified" (put_bool (l_just l))
        ++ put_field "cached_content" (VStr (map p_ch (l_parts l))) ++ put_field "cached_bold" (put_bool (l_bold l))).
Definition get_line (v : value) : outcome line :=
  let* l := get_fields v in
  let* p := get_field "parts" (get_list get_part) l in
  let* j := get_field "justified" get_bool l in
  let* t := get_field "cached_content" get_str l in
  let* b := get_field "cached_bold" get_bool l in
  let* _ := ensure (str_eqb t (map p_ch p)) in
  Ok (mkLine p j b).
(** structure.rs:435-442 QuotedBlock *)
Definition put_quoted (q : quoted_block) : value :=
  VMap (put_some "intro" VStr (qb_intro q) ++ put_field "lines" (put_list put_line (qb_lines q)) ++ put_some "wrap_up" VStr (qb_wrap q)).
Definition get_quoted (v : value) : outcome quoted_block :=
  let* l := get_fields v in
  let* i := get_some "intro" get_str l in let* ls := get_field "lines" (get_list get_line) l in let* w := get_some "wrap_up" get_str l in
  Ok (mkQb i ls w).
(** structure.rs:184-207 StructuralElementType *)
Definition put_se_type (t : se_type) : value :=
  match t with
  | TBook => VStr (lit "Book")
  | TPart b => put_variant "Part" (VMap (put_unless (negb b) "is_special" (put_bool b)))
  | TTitle => VStr (lit "Title")
  | TChapter => VStr (lit "Chapter")
  end.
Definition get_se_type (v : value) : outcome se_type :=
  let* p := get_variant v in
  select [("Book", no_data TBook);
          ("Part", with_data (fun d => let* l := get_fields d in omap TPart (get_default "is_special" false get_bool l)));
          ("Title", no_data TTitle); ("Chapter", no_data TChapter)]%string p.
(** structure.rs:131-138 StructuralElement, 175-182 Subtitle *)
Definition put_struct_elem (e : struct_elem) : value :=
  VMap (put_field "identifier" (put_numeric (se_id e)) ++ put_field "title" (VStr (se_title e))
        ++ put_field "element_type" (put_se_type (se_ty e)) ++ put_some "last_change" put_change (se_change e)).
Definition get_struct_elem (v : value) : outcome struct_elem :=
  let* l := get_fields v in
  let* i := get_field "identifier" get_numeric l in let* t := get_field "title" get_str l in
  let* y := get_field "element_type" get_se_type l in let* c := get_some "last_change" get_change l in Ok (mkSe i t y c).
Definition put_subtitle (e : subtitle) : value :=
  VMap (put_some "identifier" put_numeric (st_id e) ++ put_field "title" (VStr (st_title e)) ++ put_some "last_change" put_change (st_change e)).
Definition get_subtitle (v : value) : outcome subtitle :=
  let* l := get_fields v in
  let* i := get_some "identifier" get_numeric l in let* t := get_field "title" get_str l in let* c := get_some "last_change" get_change l in
  Ok (mkSub i t c).
(** structure.rs:234-242 Article, 97-102 ActChild; the functions for paragraphs are arguments *)
Definition put_article_of {P} (f : P -> value) (a : article_of P) : value :=
  VMap (put_field "identifier" (put_article_id (ar_ident a)) ++ put_some "title" VStr (ar_title a)
        ++ put_field "children" (put_list f (ar_children a)) ++ put_some "last_change" put_change (ar_change a)).
Definition get_article_of {P} (f : value -> outcome P) (v : value) : outcome (article_of P) :=
  let* l := get_fields v in
  let* i := get_field "identifier" get_article_id l in let* t := get_some "title" get_str l in
  let* cs := get_field "children" (get_list f) l in let* c := get_some "last_change" get_change l in Ok (mkArticle i t cs c).
Definition put_child_of {P} (f : P -> value) (c : act_child_of P) : value :=
  match c with
  | ChStruct e => put_variant "StructuralElement" (put_struct_elem e)
  | ChSubtitle s => put_variant "Subtitle" (put_subtitle s)
  | ChArticle a => put_variant "Article" (put_article_of f a)
  end.
Definition get_child_of {P} (f : value -> outcome P) (v : value) : outcome (act_child_of P) :=
  let* p := get_variant v in
  select [("StructuralElement", with_data (fun d => omap ChStruct (get_struct_elem d)));
          ("Subtitle", with_data (fun d => omap ChSubtitle (get_subtitle d)));
          ("Article", with_data (fun d => omap ChArticle (get_article_of f d)))]%string p.
(** structure.rs:459-466 BlockAmendmentChildren, 444-451 BlockAmendment, 484-491 StructuralBlockAmendment *)
Definition put_ba_children {P} (f : P -> value) (c : ba_children_of P) : value :=
  match c with
  | BcParagraph l => put_variant "Paragraph" (put_list f l)
  | BcAlpha l => put_variant "AlphabeticPoint" (put_list put_alpha l)
  | BcNum l => put_variant "NumericPoint" (put_list put_num l)
  | BcAlphaSub l => put_variant "AlphabeticSubpoint" (put_list put_alpha_sub l)
  | BcNumSub l => put_variant "NumericSubpoint" (put_list put_num_sub l)
  end.
Definition get_ba_children {P} (f : value -> outcome P) (v : value) : outcome (ba_children_of P) :=
  let* p := get_variant v in
  select [("Paragraph", with_data (fun d => omap BcParagraph (get_list f d)));
          ("AlphabeticPoint", with_data (fun d => omap BcAlpha (get_list get_alpha d)));
          ("NumericPoint", with_data (fun d => omap BcNum (get_list get_num d)));
          ("AlphabeticSubpoint", with_data (fun d => omap BcAlphaSub (get_list get_alpha_sub d)));
          ("NumericSubpoint", with_data (fun d => omap BcNumSub (get_list get_num_sub d)))]%string p.
Definition put_block {P} (f : P -> value) (b : block_of P) : value :=
  VMap (put_some "intro" VStr (bk_intro b) ++ put_field "children" (put_ba_children f (bk_children b)) ++ put_some "wrap_up" VStr (bk_wrap b)).
Definition get_block {P} (f : value -> outcome P) (v : value) : outcome (block_of P) :=
  let* l := get_fields v in
  let* i := get_some "intro" get_str l in let* c := get_field "children" (get_ba_children f) l in let* w := get_some "wrap_up" get_str l in
  Ok (mkBlock i c w).
Definition put_sblock {P} (f : P -> value) (b : sblock_of P) : value :=
  VMap (put_some "intro" VStr (sb_intro b) ++ put_field "children" (put_list (put_child_of f) (sb_children b)) ++ put_some "wrap_up" VStr (sb_wrap b)).
Definition get_sblock {P} (f : value -> outcome P) (v : value) : outcome (sblock_of P) :=
  let* l := get_fields v in
  let* i := get_some "intro" get_str l in let* c := get_field "children" (get_list (get_child_of f)) l in let* w := get_some "wrap_up" get_str l in
  Ok (mkSBlock i c w).
(** structure.rs:312-319 ParagraphChildren; paragraph.rs:29-32 the identifier *)
Definition put_par_id (i : paragraph_id) : fields := put_some "identifier" put_numeric i.
Definition get_par_id (l : fields) : outcome paragraph_id := get_some "identifier" get_numeric l.
Fixpoint put_par_children (c : par_children) : value :=
  match c with
  | PcAlpha l => put_variant "AlphabeticPoint" (put_list put_alpha l)
  | PcNum l => put_variant "NumericPoint" (put_list put_num l)
  | PcQuoted l => put_variant "QuotedBlock" (put_list put_quoted l)
  | PcBlock b => put_variant "BlockAmendment" (put_block (put_sae put_par_id put_par_children) b)
  | PcStruct b => put_variant "StructuralBlockAmendment" (put_sblock (put_sae put_par_id put_par_children) b)
  end.
Fixpoint get_par_children (n : nat) (v : value) : outcome par_children :=
  match n with
  | O => Err
  | S n' =>
      let* p := get_variant v in
      select [("AlphabeticPoint", with_data (fun d => omap PcAlpha (get_list get_alpha d)));
              ("NumericPoint", with_data (fun d => omap PcNum (get_list get_num d)));
              ("QuotedBlock", with_data (fun d => omap PcQuoted (get_list get_quoted d)));
              ("BlockAmendment", with_data (fun d => omap PcBlock (get_block (get_sae get_par_id (get_par_children n')) d)));
              ("StructuralBlockAmendment", with_data (fun d => omap PcStruct (get_sblock (get_sae get_par_id (get_par_children n')) d)))]%string p
  end.
Definition put_paragraph : paragraph -> value := put_sae put_par_id put_par_children.
Definition get_paragraph (n : nat) : value -> outcome paragraph := get_sae get_par_id (get_par_children n).
(** structure.rs:86-95 Act *)
Definition put_act (a : act) : value :=
  VMap (put_field "identifier" (put_act_id (ac_id a)) ++ put_field "subject" (VStr (ac_subject a)) ++ put_field "preamble" (VStr (ac_preamble a))
        ++ put_field "publication_date" (put_date (ac_date a))
        ++ put_unless (is_empty (ac_abbrevs a)) "contained_abbreviations" (put_abbrevs (ac_abbrevs a))
        ++ put_field "children" (put_list (put_child_of put_paragraph) (ac_children a))).
Definition get_act (n : nat) (v : value) : outcome act :=
  let* l := get_fields v in
  let* i := get_field "identifier" get_act_id l in
  let* s := get_field "subject" get_str l in
  let* p := get_field "preamble" get_str l in
  let* d := get_field "publication_date" get_date l in
  let* m := get_default "contained_abbreviations" [] get_abbrevs l in
  let* c := get_field "children" (get_list (get_child_of (get_paragraph n))) l in
  Ok (mkActS i s p d m c).
End Save.
