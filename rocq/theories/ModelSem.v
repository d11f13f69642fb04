(** Model of src/parser/semantic_info/*.rs.  No proofs in this file.

    The parser generated from hun_law_grammar/grammar.ebnf is an argument [gp] here (it is modelled in
    ModelGrammar); the types of its results are below.  [roman::from] is the argument [rf].

    Simplifications: a [BTreeMap] is its list of entries in key order; the order of strings is that of their
    code points (the same as that of their UTF-8 bytes); positions ([usize]) are [N]; a [Vec] used as a stack
    is a list with the top first.  Error values carry no message. *)
From Verif Require Export ModelWalk.

(** ** The result types of the grammar.  A [@position] rule has a byte range. *)
Record pos := mkPos { ps_start : N; ps_end : N }.
(** grammar.ebnf:76-77 ActId *)
Record g_act_id := mkGAct { gai_year : str; gai_number : str; gai_pos : pos }.
(** grammar.ebnf:65-70 ActIdWithFromNowOn *)
Record g_act_id_now := mkGNow { gn_act : g_act_id; gn_abbrev : option str }.
(** grammar.ebnf:57-60, 150-154 ActReference and Abbreviation *)
Inductive g_act_ref := GActId (a : g_act_id_now) | GAbbrev (content : str) (p : pos).
(** grammar.ebnf:83-89 ArticleReferencePart *)
Record g_art_part := mkGArt {
  ga_book : option str; ga_start : option str; ga_end : option str; ga_id : option str; ga_pos : pos }.
(** grammar.ebnf:101-142 ParagraphReferencePart, AlphabeticPointReferencePart, NumericPointReferencePart,
    AlphabeticSubpointReferencePart, NumericSubpointReferencePart: the same four fields *)
Record g_part := mkGPart { gp_start : option str; gp_end : option str; gp_id : option str; gp_pos : pos }.
(** grammar.ebnf:96-97 SingleArticleReference *)
Record g_single := mkGSingle { gs_part : g_art_part; gs_pos : pos }.
(** grammar.ebnf:44-55 Reference *)
Record g_ref := mkGRef {
  gr_article : option (list g_art_part); gr_paragraph : option (list g_part);
  gr_num_point : option (list g_part); gr_alpha_point : option (list g_part);
  gr_num_sub : option (list g_part); gr_alpha_sub : option (list g_part); gr_pos : pos }.
(** grammar.ebnf:255-273 InsertionReference; [article] may occur twice *)
Record g_ins := mkGIns {
  gi_article : list (list g_art_part); gi_paragraph : option (list g_part);
  gi_num_point : option (list g_part); gi_alpha_point : option (list g_part);
  gi_num_sub : option (list g_part); gi_alpha_sub : option (list g_part); gi_pos : pos }.
(** grammar.ebnf:170-223 structural references *)
Record g_subtitle_part := mkGSub { gsp_start : option str; gsp_end : option str; gsp_id : option str }.
Inductive g_struct_kind :=
| GChapter (id : str) | GPart (id : str) | GTitle (id : str) | GSubtitlePart (s : g_subtitle_part)
| GSubtitleTitle (title : str).
Record g_any_struct := mkGAny { gas_book : option str; gas_ref : g_struct_kind; gas_title_only : bool }.
Inductive g_relative := GBefore (s : g_single) | GAfter (s : g_single).
(** grammar.ebnf:279-288 ReferenceWithSubtitle *)
Record g_with_subtitle := mkGWs { gws_article : option g_single; gws_id : option str; gws_title : option str }.
(** grammar.ebnf:312-344 block amendments *)
Record g_block := mkGBlock {
  gb_act : g_act_ref; gb_parent : option g_any_struct; gb_amended : option g_ref; gb_inserted : option g_ins }.
Record g_block_sub := mkGBlockSub {
  gbs_act : g_act_ref; gbs_parent : option g_any_struct; gbs_relative : option g_relative;
  gbs_ref : g_with_subtitle; gbs_insertion : bool }.
Record g_block_struct := mkGBlockStruct {
  gbt_act : g_act_ref; gbt_parent : option g_any_struct; gbt_ref : g_any_struct; gbt_insertion : bool;
  gbt_book : option str }.
(** grammar.ebnf:349-395, 494 enforcement dates *)
Record g_date := mkGDate { gd_year : str; gd_month : str; gd_day : str }.
Inductive g_ordinal := GWord (s : str) | GNumber (s : str).
Inductive g_ed_date :=
| GAfterPublication (days : option g_ordinal) | GDate (d : g_date) | GDayInMonth (month : option str) (day : g_ordinal).
Inductive g_ed_ref :=
| GEdStruct (s : g_any_struct) | GEdSubtitles (l : list g_subtitle_part) | GEdRef (r : g_ref) | GEdAttachment.
Record g_enforcement := mkGEd {
  ge_except : option g_ref; ge_refs : list g_ed_ref; ge_date : g_ed_date; ge_repeal : option g_date }.
(** grammar.ebnf:402-445 text amendments *)
Inductive g_token := GIntro | GWrapUp.
Inductive g_ta_child := GTaStruct (s : g_any_struct) | GTaRelative (r : g_relative).
Inductive g_ta_ref :=
| GTaArticleTitle (s : g_single)
| GTaStructural (parent : option g_any_struct) (child : g_ta_child)
| GTaSubtitles (l : list g_subtitle_part)
| GTaRef (r : g_ref) (t : option g_token)
| GTaAttachment.
Record g_text_amendment := mkGTa { gta_act : g_act_ref; gta_refs : list g_ta_ref; gta_parts : list (str * str) }.
(** grammar.ebnf:452-458 Repeal *)
Record g_repeal := mkGRep { gre_act : g_act_ref; gre_refs : list g_ta_ref; gre_texts : list str }.
(** grammar.ebnf:31-42 ListOfSimpleExpressions; quotes, attachments and other tokens are not looked at *)
Record g_compound := mkGComp { gc_act : option g_act_ref; gc_refs : list g_ref }.
Inductive g_simple := GCompound (c : g_compound) | GOther.
(** grammar.ebnf:19-27 Root *)
Inductive g_root :=
| RBlock (b : g_block) | RBlockSubtitle (b : g_block_sub) | RBlockStruct (b : g_block_struct)
| RText (t : g_text_amendment) | REnforcement (e : g_enforcement) | RRepeal (r : g_repeal)
| RList (l : list g_simple).

(** ** [BTreeMap<String, V>] *)
Fixpoint str_cmp (a b : str) : comparison :=
  match a, b with
  | [], [] => Eq
  | [], _ => Lt
  | _, [] => Gt
  | x :: a', y :: b' => lex (N.compare x y) (str_cmp a' b')
  end.
Fixpoint map_get {V} (k : str) (m : list (str * V)) : option V :=
  match m with [] => None | (k', v) :: m' => if str_eqb k k' then Some v else map_get k m' end.
(** insert or overwrite *)
Fixpoint map_set {V} (k : str) (v : V) (m : list (str * V)) : list (str * V) :=
  match m with
  | [] => [(k, v)]
  | (k', v') :: m' =>
      match str_cmp k k' with
      | Lt => (k, v) :: m
      | Eq => (k, v) :: m'
      | Gt => (k', v') :: map_set k v m'
      end
  end.
(** [into_iter().collect::<BTreeMap<_, _>>()]: later entries replace earlier ones *)
Definition map_of {V} (l : list (str * V)) : list (str * V) :=
  fold_left (fun m p => map_set (fst p) (snd p) m) l [].

(** ** abbreviation.rs *)
(** abbreviation.rs:42-45 AbbreviationCache *)
Record cache := mkCache { ca_map : list (str * act_id); ca_changed : bool }.
(** abbreviation.rs:48-50 new; 86-93 From<BTreeMap> *)
Definition cache_new : cache := mkCache [] false.
Definition cache_from (m : list (str * act_id)) : cache := mkCache m false.
(** abbreviation.rs:52-62 add *)
Definition cache_add (k : str) (a : act_id) (c : cache) : cache :=
  match map_get k (ca_map c) with
  | Some v => if act_eqb v a then c else mkCache (map_set k a (ca_map c)) true
  | None => mkCache (map_set k a (ca_map c)) true
  end.
(** abbreviation.rs:64-68 add_multiple *)
Definition cache_add_multiple (l : list (str * act_id)) (c : cache) : cache :=
  fold_left (fun c p => cache_add (fst p) (snd p) c) l c.
(** abbreviation.rs:70-75 resolve *)
Definition cache_resolve (c : cache) (k : str) : outcome act_id := ok_or (map_get k (ca_map c)).
(** abbreviation.rs:81-83 all_abbreviations *)
Definition all_abbreviations (c : cache) : list str := map fst (ca_map c).

(** [Vec<Result<T>>] to [Result<Vec<T>>] *)
Fixpoint transpose {A} (l : list (outcome A)) : outcome (list A) :=
  match l with
  | [] => Ok []
  | x :: l' => let* a := x in let* r := transpose l' in Ok (a :: r)
  end.
Fixpoint map_ok {A B} (f : A -> outcome B) (l : list A) : outcome (list B) :=
  match l with
  | [] => Ok []
  | x :: l' => let* a := f x in let* r := map_ok f l' in Ok (a :: r)
  end.
(** [Option::map(..).transpose()?] *)
Definition opt_ok {A B} (f : A -> outcome B) (o : option A) : outcome (option B) :=
  match o with Some x => let* y := f x in Ok (Some y) | None => Ok None end.

Section Sem.
  Variable rf : str -> option Z.

  (** reference.rs:477-488 ActIdentifier::try_from(&ActId) *)
  Definition act_of_grammar (a : g_act_id) : outcome act_id :=
    let* y := parse_i16 (gai_year a) in
    let* n := ok_or (rf (gai_number a)) in
    Ok (mkAct y n).
  (** The [ActReference]s of a tree, in the order in which [Drive] visits them: every [ActIdWithFromNowOn]
      of the result types is in one of them (grammar.ebnf:57-70). *)
  Definition simple_act_ref (s : g_simple) : list g_act_ref :=
    match s with GCompound (mkGComp (Some a) _) => [a] | _ => [] end.
  Definition root_act_refs (r : g_root) : list g_act_ref :=
    match r with
    | RBlock b => [gb_act b] | RBlockSubtitle b => [gbs_act b] | RBlockStruct b => [gbt_act b]
    | RText t => [gta_act t] | REnforcement _ => [] | RRepeal r => [gre_act r]
    | RList l => flat_map simple_act_ref l
    end.
  Definition new_abbreviation (a : g_act_ref) : list (outcome (str * act_id)) :=
    match a with
    | GActId (mkGNow i (Some s)) => [omap (fun a => (s, a)) (act_of_grammar i)]
    | _ => []
    end.
  (** abbreviation.rs:25-39 get_new_abbreviations *)
  Definition get_new_abbreviations (r : g_root) : outcome (list (str * act_id)) :=
    transpose (flat_map new_abbreviation (root_act_refs r)).

  (** ** reference.rs *)
  (** reference.rs:490-500 convert_act_reference *)
  Definition convert_act_reference (c : cache) (a : g_act_ref) : outcome act_id :=
    match a with
    | GAbbrev s _ => cache_resolve c s
    | GActId n => act_of_grammar (gn_act n)
    end.
  (** reference.rs:174-180 OutgoingReferenceBuilder; the cache is an argument of the functions needing it *)
  Record obuilder := mkOb { ob_ref : reference; ob_result : list out_ref; ob_start : option N; ob_end : N }.
  (** reference.rs:183-191 new *)
  Definition ob_new : obuilder := mkOb empty_ref [] None 0%N.
  (** reference.rs:193-203 record_one *)
  Definition record_one (b : obuilder) : outcome obuilder :=
    let* s := ok_or (ob_start b) in
    let* r := build (ob_ref b) in
    Ok (mkOb (ob_ref b) (ob_result b ++ [mkOut s (ob_end b) r]) None (ob_end b)).
  (** reference.rs:205-214 set_part; [f] is the [set_part] of the builder of references *)
  Definition ob_set (p : pos) (f : reference -> reference) (b : obuilder) : obuilder :=
    mkOb (f (ob_ref b)) (ob_result b) (match ob_start b with None => Some (ps_start p) | s => s end) (ps_end p).
  (** reference.rs:220-222 take_result *)
  Definition take_result (b : obuilder) : list out_ref * obuilder :=
    (ob_result b, mkOb (ob_ref b) [] (ob_start b) (ob_end b)).
  (** reference.rs:261-272 Option *)
  Definition feed_opt {A} (f : A -> obuilder -> outcome obuilder) (o : option A) (b : obuilder) : outcome obuilder :=
    match o with Some x => f x b | None => Ok b end.
  (** reference.rs:229-236, 318-325, 333-340: one after the other *)
  Fixpoint feed_all {A} (f : A -> obuilder -> outcome obuilder) (l : list A) (b : obuilder) : outcome obuilder :=
    match l with [] => Ok b | x :: l' => let* b := f x b in feed_all f l' b end.
  (** reference.rs:274-288 Vec of reference parts: recording between two *)
  Fixpoint feed_more {A} (f : A -> obuilder -> outcome obuilder) (l : list A) (b : obuilder) : outcome obuilder :=
    match l with
    | [] => Ok b
    | x :: l' => let* b := record_one b in let* b := f x b in feed_more f l' b
    end.
  Definition feed_parts {A} (f : A -> obuilder -> outcome obuilder) (l : list A) (b : obuilder) : outcome obuilder :=
    match l with [] => Ok b | x :: l' => let* b := f x b in feed_more f l' b end.
  (** reference.rs:367-399 the range of a part *)
  Definition part_range {T} (parse : str -> outcome T) (p : g_part) : outcome (range T) :=
    match gp_id p with
    | Some i => let* x := parse i in Ok (single x)
    | None =>
        match gp_start p, gp_end p with
        | Some s, Some e => let* x := parse s in let* y := parse e in Ok (mkRange x y)
        | _, _ => Err
        end
    end.
  Definition feed_part {T} (parse : str -> outcome T) (set : range T -> reference -> reference) (p : g_part)
      (b : obuilder) : outcome obuilder :=
    let* r := part_range parse p in Ok (ob_set (gp_pos p) (set r) b).
  (** reference.rs:401-405 the five kinds *)
  Definition feed_paragraph := feed_part numeric_parse set_paragraph.
  Definition feed_num_point := feed_part numeric_parse (fun r => set_point (PtNum r)).
  Definition feed_alpha_point := feed_part hic_parse (fun r => set_point (PtAlpha r)).
  Definition feed_num_sub := feed_part numeric_parse (fun r => set_subpoint (SpNum r)).
  Definition feed_alpha_sub := feed_part prefixed_parse (fun r => set_subpoint (SpAlpha r)).
  (** reference.rs:407-423 RefPartArticle::try_from(&ArticleReferencePart) *)
  Definition article_part (p : g_art_part) : outcome ref_article :=
    let* book := opt_ok parse_u8 (ga_book p) in
    match ga_id p with
    | Some i => let* x := numeric_parse i in Ok (single (mkArt book x))
    | None =>
        match ga_start p, ga_end p with
        | Some s, Some e =>
            let* x := numeric_parse s in
            let* y := numeric_parse e in
            Ok (mkRange (mkArt book x) (mkArt book y))
        | _, _ => Err
        end
    end.
  (** reference.rs:425-434 *)
  Definition feed_article (p : g_art_part) (b : obuilder) : outcome obuilder :=
    let* r := article_part p in Ok (ob_set (ga_pos p) (set_article r) b).
  (** reference.rs:449-459 SingleArticleReference *)
  Definition feed_single (s : g_single) (b : obuilder) : outcome obuilder :=
    let* r := article_part (gs_part s) in record_one (ob_set (gs_pos s) (set_article r) b).
  (** reference.rs:439-447 ArticleRelativePosition *)
  Definition feed_relative (r : g_relative) : obuilder -> outcome obuilder :=
    match r with GBefore s | GAfter s => feed_single s end.
  Definition ob_set_end (e : N) (b : obuilder) : obuilder := mkOb (ob_ref b) (ob_result b) (ob_start b) e.
  (** reference.rs:290-302 Reference *)
  Definition feed_ref (r : g_ref) (b : obuilder) : outcome obuilder :=
    let* b := feed_opt (feed_parts feed_article) (gr_article r) b in
    let* b := feed_opt (feed_parts feed_paragraph) (gr_paragraph r) b in
    let* b := feed_opt (feed_parts feed_num_point) (gr_num_point r) b in
    let* b := feed_opt (feed_parts feed_alpha_point) (gr_alpha_point r) b in
    let* b := feed_opt (feed_parts feed_num_sub) (gr_num_sub r) b in
    let* b := feed_opt (feed_parts feed_alpha_sub) (gr_alpha_sub r) b in
    record_one (ob_set_end (ps_end (gr_pos r)) b).
  (** reference.rs:304-316 InsertionReference *)
  Definition feed_ins (r : g_ins) (b : obuilder) : outcome obuilder :=
    let* b := feed_parts (feed_parts feed_article) (gi_article r) b in
    let* b := feed_opt (feed_parts feed_paragraph) (gi_paragraph r) b in
    let* b := feed_opt (feed_parts feed_num_point) (gi_num_point r) b in
    let* b := feed_opt (feed_parts feed_alpha_point) (gi_alpha_point r) b in
    let* b := feed_opt (feed_parts feed_num_sub) (gi_num_sub r) b in
    let* b := feed_opt (feed_parts feed_alpha_sub) (gi_alpha_sub r) b in
    record_one (ob_set_end (ps_end (gi_pos r)) b).
  Definition act_ref_pos (a : g_act_ref) : pos :=
    match a with GAbbrev _ p => p | GActId n => gai_pos (gn_act n) end.
  (** reference.rs:238-259 ActReference *)
  Definition feed_act (c : cache) (a : g_act_ref) (b : obuilder) : outcome obuilder :=
    let* i := convert_act_reference c a in
    record_one (ob_set (act_ref_pos a) (set_act i) b).
  (** reference.rs:342-363 TextAmendmentReference *)
  Definition feed_ta_ref (t : g_ta_ref) (b : obuilder) : outcome obuilder :=
    match t with
    | GTaStructural _ (GTaStruct _) => Ok b
    | GTaStructural _ (GTaRelative r) => feed_relative r b
    | GTaArticleTitle s => feed_single s b
    | GTaSubtitles _ => Ok b
    | GTaRef r _ => feed_ref r b
    | GTaAttachment => Ok b
    end.
  (** reference.rs:161-171 CompoundReference *)
  Definition compound_references (c : cache) (x : g_compound) : outcome (list out_ref) :=
    let* b := feed_opt (feed_act c) (gc_act x) ob_new in
    let* b := feed_all feed_ref (gc_refs x) b in
    Ok (ob_result b).
  (** reference.rs:63-74 BlockAmendment *)
  Definition block_references (c : cache) (x : g_block) : outcome (list out_ref) :=
    let* b := feed_act c (gb_act x) ob_new in
    let* b := feed_opt feed_ref (gb_amended x) b in
    let* b := feed_opt feed_ins (gb_inserted x) b in
    Ok (ob_result b).
  Definition feed_ed_ref (r : g_ed_ref) (b : obuilder) : outcome obuilder :=
    match r with GEdRef r => feed_ref r b | _ => Ok b end.
  (** reference.rs:40-159 get_outgoing_references *)
  Definition simple_references (c : cache) (s : g_simple) : outcome (list out_ref) :=
    match s with
    | GCompound x => match compound_references c x with Err => Ok [] | r => r end
    | GOther => Ok []
    end.
  Definition get_outgoing_references (c : cache) (r : g_root) : outcome (list out_ref) :=
    match r with
    | RBlock x => block_references c x
    | RBlockStruct x => let* b := feed_act c (gbt_act x) ob_new in Ok (ob_result b)
    | RBlockSubtitle x =>
        let* b := feed_act c (gbs_act x) ob_new in
        let* b := feed_opt feed_relative (gbs_relative x) b in
        let* b := feed_opt feed_single (gws_article (gbs_ref x)) b in
        Ok (ob_result b)
    | REnforcement x => let* b := feed_all feed_ed_ref (ge_refs x) ob_new in Ok (ob_result b)
    | RList l => omap (@List.concat out_ref) (map_ok (simple_references c) l)
    | RRepeal x =>
        let* b := feed_act c (gre_act x) ob_new in
        let* b := feed_all feed_ta_ref (gre_refs x) b in
        Ok (ob_result b)
    | RText x =>
        let* b := feed_act c (gta_act x) ob_new in
        let* b := feed_all feed_ta_ref (gta_refs x) b in
        Ok (ob_result b)
    end.

  (** ** structural_reference.rs *)
  (** structural_reference.rs:102-118 SubtitleReferencePart *)
  Definition subtitle_part (s : g_subtitle_part) : outcome sr_parent :=
    match gsp_id s with
    | Some i => let* x := numeric_parse i in Ok (SpSubtitleId x)
    | None =>
        match gsp_start s, gsp_end s with
        | Some a, Some b =>
            let* x := numeric_parse a in let* y := numeric_parse b in Ok (SpSubtitleRange (mkRange x y))
        | _, _ => Err
        end
    end.
  (** structural_reference.rs:58-100, 120-130 *)
  Definition struct_kind (k : g_struct_kind) : outcome sr_parent :=
    match k with
    | GChapter s => omap SpChapter (se_parse_identifier rf TChapter s)
    | GPart s => omap SpPart (se_parse_identifier rf (TPart false) s)
    | GTitle s => omap SpTitle (se_parse_identifier rf TTitle s)
    | GSubtitlePart s => subtitle_part s
    | GSubtitleTitle t => Ok (SpSubtitleTitle t)
    end.
  (** structural_reference.rs:147-153 BookReference *)
  Definition book_of_grammar (s : str) : outcome numeric := se_parse_identifier rf TBook s.
  (** structural_reference.rs:31-43 StructuralReference::try_from(&AnyStructuralReference) *)
  Definition struct_ref_of (a : g_any_struct) : outcome struct_ref :=
    let* b := opt_ok book_of_grammar (gas_book a) in
    let* k := struct_kind (gas_ref a) in
    Ok (mkSRef None b None (sr_element_of_parent k) (gas_title_only a)).
  (** structural_reference.rs:45-56 StructuralReferenceParent::try_from(&AnyStructuralReference) *)
  Definition struct_parent_of (a : g_any_struct) : outcome sr_parent :=
    let* _ := ensure (negb (gas_title_only a)) in struct_kind (gas_ref a).
  (** reference.rs:467-475 ArticleIdentifier::try_from(&SingleArticleReference): the first of the range *)
  Definition single_article (s : g_single) : outcome article_id :=
    let* r := article_part (gs_part s) in Ok (r_start r).
  (** structural_reference.rs:132-145 ArticleRelativePosition *)
  Definition relative_element (r : g_relative) : outcome sr_element :=
    match r with
    | GAfter s => omap SeSubtitleAfterArticle (single_article s)
    | GBefore s => omap SeSubtitleBeforeArticle (single_article s)
    end.
  Definition with_act (a : option act_id) (s : struct_ref) : struct_ref :=
    mkSRef a (sr_book s) (sr_par s) (sr_elem s) (sr_title_only s).
  Definition with_parent (p : option sr_parent) (s : struct_ref) : struct_ref :=
    mkSRef (sr_act s) (sr_book s) p (sr_elem s) (sr_title_only s).
  Definition with_book (b : option numeric) (s : struct_ref) : struct_ref :=
    mkSRef (sr_act s) b (sr_par s) (sr_elem s) (sr_title_only s).
  (** A subtitle of an act: enforcement_date.rs:42-52, text_amendment.rs:87-98 *)
  Definition subtitle_ref (a : option act_id) (s : g_subtitle_part) : outcome struct_ref :=
    let* p := subtitle_part s in Ok (mkSRef a None None (sr_element_of_parent p) false).

  (** ** block_amendment.rs *)
  (** [Iterator::min] and [max] for references *)
  Definition ref_min (x y : reference) : reference := match ref_cmp x y with Gt => y | _ => x end.
  Definition ref_max (x y : reference) : reference := match ref_cmp x y with Gt => x | _ => y end.
  Definition fold1 {A} (f : A -> A -> A) (l : list A) : option A :=
    match l with [] => None | x :: l' => Some (fold_left f l' x) end.
  (** block_amendment.rs:33-75 convert_block_amendment *)
  Definition convert_block_amendment (c : cache) (x : g_block) : outcome phrase :=
    let* refs := block_references c x in
    let all := filter (fun r => negb (is_act_only r)) (map o_ref refs) in
    let* first := ok_or (fold1 ref_min (map first_in_range all)) in
    let* last := ok_or (fold1 ref_max (map last_in_range all)) in
    let* position := make_range first last in
    match get_last_part position with
    | PartArticle a =>
        let* p := opt_ok struct_parent_of (gb_parent x) in
        Ok (PhStructural (mkSbaPhrase (mkSRef (f_act position) None p (SeArticle a) false) (is_none (gb_amended x))))
    | _ => Ok (PhBlock (mkBaPhrase position (is_none (gb_amended x))))
    end.
  (** block_amendment.rs:77-106 convert_structural_block_amendment *)
  Definition convert_structural_amendment (c : cache) (x : g_block_struct) : outcome sba_phrase :=
    let* a := convert_act_reference c (gbt_act x) in
    let* position :=
      match gbt_parent x with
      | Some p =>
          let* p := struct_parent_of p in
          let* s := struct_ref_of (gbt_ref x) in
          Ok (with_parent (Some p) (with_act (Some a) s))
      | None => let* s := struct_ref_of (gbt_ref x) in Ok (with_act (Some a) s)
      end in
    let* position :=
      match gbt_book x with
      | Some b => let* n := book_of_grammar b in Ok (with_book (Some n) position)
      | None => Ok position
      end in
    Ok (mkSbaPhrase position (gbt_insertion x)).
  (** block_amendment.rs:108-144 convert_subtitle_block_amendment *)
  Definition convert_subtitle_amendment (c : cache) (x : g_block_sub) : outcome sba_phrase :=
    let* e :=
      match gws_article (gbs_ref x) with
      | Some a => omap SeSubtitleBeforeArticleInclusive (single_article a)
      | None =>
          match gbs_relative x with
          | Some r => relative_element r
          | None =>
              match gws_title (gbs_ref x) with
              | Some t => Ok (SeSubtitleTitle t)
              | None =>
                  match gws_id (gbs_ref x) with
                  | Some i => omap SeSubtitleId (numeric_parse i)
                  | None => if gbs_insertion x then Ok SeSubtitleUnknown else Err
                  end
              end
          end
      end in
    let* p := opt_ok struct_parent_of (gbs_parent x) in
    let* a := convert_act_reference c (gbs_act x) in
    Ok (mkSbaPhrase (mkSRef (Some a) None p e false) (gbs_insertion x)).

  (** ** text_amendment.rs *)
  (** text_amendment.rs:49-57 convert_intro_wrapup_token *)
  Definition amended_part (t : option g_token) : sae_part :=
    match t with Some GIntro => PartIntroOnly | Some GWrapUp => PartWrapUpOnly | None => PartAll end.
  (** text_amendment.rs:117-145 StructuralReference::try_from(&TextAmendmentStructuralReference) *)
  Definition ta_struct_ref (parent : option g_any_struct) (child : g_ta_child) : outcome struct_ref :=
    let* p := opt_ok struct_parent_of parent in
    match child with
    | GTaStruct s => let* r := struct_ref_of s in Ok (with_parent p r)
    | GTaRelative r => let* e := relative_element r in Ok (mkSRef None None p e false)
    end.
  Definition taken_refs (f : reference -> ta_ref) (l : list out_ref) : list ta_ref :=
    map f (filter (fun r => negb (is_act_only r)) (map o_ref l)).
  (** text_amendment.rs:68-113 one iteration of the loop *)
  Definition convert_ta_ref (a : act_id) (t : g_ta_ref) (b : obuilder) : outcome (list ta_ref * obuilder) :=
    match t with
    | GTaStructural p ch => let* s := ta_struct_ref p ch in Ok ([TaStructural (with_act (Some a) s)], b)
    | GTaArticleTitle s =>
        let* b := feed_single s b in
        let '(l, b) := take_result b in Ok (taken_refs TaArticleTitle l, b)
    | GTaSubtitles l => let* rs := map_ok (subtitle_ref (Some a)) l in Ok (map TaStructural rs, b)
    | GTaRef r tok =>
        let* b := feed_ref r b in
        let '(l, b) := take_result b in Ok (taken_refs (fun r => TaSae r (amended_part tok)) l, b)
    | GTaAttachment => Ok ([], b)
    end.
  Fixpoint convert_ta_loop (a : act_id) (l : list g_ta_ref) (b : obuilder) : outcome (list ta_ref) :=
    match l with
    | [] => Ok []
    | t :: l' =>
        let* r := convert_ta_ref a t b in
        let* rest := convert_ta_loop a l' (snd r) in
        Ok (fst r ++ rest)
    end.
  (** text_amendment.rs:59-115 convert_text_amendment_references *)
  Definition convert_ta_references (c : cache) (act : g_act_ref) (l : list g_ta_ref) : outcome (list ta_ref) :=
    let* a := convert_act_reference c act in
    let* b := feed_act c act ob_new in
    convert_ta_loop a l b.
  (** text_amendment.rs:26-47 convert_text_amendment *)
  Definition convert_text_amendment (c : cache) (x : g_text_amendment) : outcome (list text_amendment) :=
    let* _ := feed_act c (gta_act x) ob_new in
    let* rs := convert_ta_references c (gta_act x) (gta_refs x) in
    Ok (flat_map (fun r => map (fun p => mkTa r (fst p) (snd p)) (gta_parts x)) rs).

  (** ** repeal.rs *)
  (** repeal.rs:62-80 one reference of convert_element_repeal *)
  Definition repeal_of (t : ta_ref) : outcome repeal_ref :=
    match t with
    | TaSae r PartAll => Ok (RrRef r)
    | TaSae _ _ => Err
    | TaStructural r => Ok (RrStructural r)
    | TaArticleTitle _ => Err
    end.
  (** repeal.rs:51-85 convert_element_repeal *)
  Definition convert_element_repeal (c : cache) (x : g_repeal) : outcome (list repeal_ref) :=
    let* rs := convert_ta_references c (gre_act x) (gre_refs x) in
    let* l := map_ok repeal_of rs in
    if is_empty (gre_refs x) then
      let* a := convert_act_reference c (gre_act x) in Ok (l ++ [RrRef (ref_of_act a)])
    else Ok l.
  (** repeal.rs:25-50 convert_repeal *)
  Definition convert_repeal (c : cache) (x : g_repeal) : outcome phrase :=
    if is_empty (gre_texts x) then omap PhRepeal (convert_element_repeal c x)
    else
      let* _ := feed_act c (gre_act x) ob_new in
      let* rs := convert_ta_references c (gre_act x) (gre_refs x) in
      Ok (PhText (flat_map (fun r => map (fun t => mkTa r t []) (gre_texts x)) rs)).

  (** ** enforcement_date.rs *)
  (** enforcement_date.rs:115-122 convert_date *)
  Definition convert_date (d : g_date) : outcome date :=
    let* y := parse_i32 (gd_year d) in
    let* m := month_from_hungarian (gd_month d) in
    let* d := parse_u32 (gd_day d) in
    ok_or (from_ymd y m d).
  Definition convert_ordinal (o : g_ordinal) : outcome N :=
    match o with GWord s => num_from_hungarian s | GNumber s => parse_u16 s end.
  (** enforcement_date.rs:78-139 *)
  Definition convert_ed_date (d : g_ed_date) : outcome ed_type :=
    match d with
    | GAfterPublication (Some o) => omap EdDaysAfter (convert_ordinal o)
    | GAfterPublication None => Ok (EdDaysAfter 1%N)
    | GDate d => omap EdDate (convert_date d)
    | GDayInMonth m day =>
        let* m := opt_ok num_from_hungarian m in
        let* n := convert_ordinal day in
        Ok (EdDayInMonth m n)
    end.
  (** enforcement_date.rs:37-56 the loop *)
  Fixpoint convert_ed_refs (l : list g_ed_ref) (b : obuilder) (acc : list struct_ref) : outcome (obuilder * list struct_ref) :=
    match l with
    | [] => Ok (b, acc)
    | GEdStruct s :: l' => let* r := struct_ref_of s in convert_ed_refs l' b (acc ++ [r])
    | GEdSubtitles ss :: l' => let* rs := map_ok (subtitle_ref None) ss in convert_ed_refs l' b (acc ++ rs)
    | GEdAttachment :: l' => convert_ed_refs l' b acc
    | GEdRef r :: l' => let* b := feed_ref r b in convert_ed_refs l' b acc
    end.
  (** enforcement_date.rs:31-76 convert_enforcement_date *)
  Definition convert_enforcement (x : g_enforcement) : outcome enforcement :=
    let* bs := convert_ed_refs (ge_refs x) ob_new [] in
    let* d := convert_ed_date (ge_date x) in
    let* ir := opt_ok convert_date (ge_repeal x) in
    Ok (mkEd (map o_ref (ob_result (fst bs))) (snd bs) (is_empty (ge_refs x)) d ir).

  (** ** sae.rs *)
  (** sae.rs:197-220 extract_special_phrase *)
  Definition extract_special_phrase (c : cache) (r : g_root) : outcome (option phrase) :=
    match r with
    | RList _ => Ok None
    | RBlock x => omap Some (convert_block_amendment c x)
    | RBlockStruct x => omap (fun p => Some (PhStructural p)) (convert_structural_amendment c x)
    | RBlockSubtitle x => omap (fun p => Some (PhStructural p)) (convert_subtitle_amendment c x)
    | REnforcement x => omap (fun e => Some (PhEnforcement e)) (convert_enforcement x)
    | RRepeal x => omap Some (convert_repeal c x)
    | RText x => omap (fun l => Some (PhText l)) (convert_text_amendment c x)
    end.
  (** sae.rs:151-176 assemble_to_be_parsed_text *)
  Definition junk_suffixes : list str :=
    map lit [" a"; " és"; " valamint"; " illetve"; " vagy"; " továbbá"; ";"; ","]%string.
  Definition strip_once (s junk : str) : str := match strip_suffix junk s with Some s' => s' | None => s end.
  Definition strip_junk (s : str) : str := fold_left strip_once junk_suffixes s.
  Definition is_sentence_end (c : char) : bool := existsb (N.eqb c) (lit ".:!?").
  Definition ends_sentence (s : str) : bool := match rev s with c :: _ => is_sentence_end c | [] => false end.
  Definition assemble (prefix middle postfix : str) : str :=
    let middle := strip_junk middle in
    if is_empty postfix then
      if ends_sentence middle then prefix ++ middle else prefix ++ middle ++ lit "."
    else prefix ++ middle ++ postfix.
  (** sae.rs:178-195 adjust_outgoing_reference *)
  Definition adjust (prefixlen textlen : N) (o : out_ref) : option out_ref :=
    if ((prefixlen <? o_end o) && (o_end o <=? textlen))%N
    then Some (mkOut (o_start o - prefixlen) (o_end o - prefixlen) (o_ref o))
    else None.
  Definition keep_map {A B} (f : A -> option B) (l : list A) : list B :=
    flat_map (fun x => match f x with Some y => [y] | None => [] end) l.

  Variable gp : str -> list str -> outcome g_root.

  (** sae.rs:40-45 SemanticInfoAdder *)
  Record adder := mkAdder { ad_prefix : list str; ad_postfix : list str; ad_cache : cache }.
  (** sae.rs:117-122 prefix, postfix *)
  Definition top (l : list str) : str := match l with s :: _ => s | [] => [] end.
  (** sae.rs:124-148 extract_semantic_info; the cache stays changed when a later step fails *)
  Definition extract_semantic_info (middle : str) (a : adder) : adder * outcome sem_info :=
    let prefix := top (ad_prefix a) in
    let postfix := top (ad_postfix a) in
    let s := assemble prefix middle postfix in
    match (let* r := gp s (all_abbreviations (ad_cache a)) in
           let* n := get_new_abbreviations r in Ok (r, n)) with
    | Err => (a, Err)
    | Panic => (a, Panic)
    | Ok (r, new) =>
        let c := cache_add_multiple new (ad_cache a) in
        (mkAdder (ad_prefix a) (ad_postfix a) c,
         let* out := get_outgoing_references c r in
         let out := keep_map (adjust (utf8_len prefix) (utf8_len s - utf8_len postfix)) out in
         let* p := extract_special_phrase c r in
         Ok (mkSi out (map_of new) p))
    end.
  (** sae.rs:72-81 only amendments stay in the intro *)
  Definition intro_info (i : sem_info) : sem_info :=
    match si_phrase i with
    | Some (PhBlock _) | Some (PhStructural _) | None => i
    | Some _ => mkSi (si_outgoing i) (si_abbrevs i) None
    end.
  Definition with_info {I C} (e : sae I C) (i : sem_info) : sae I C := mkSae (s_id e) (s_body e) i (s_change e).
  (** sae.rs:48-93 on_enter *)
  Definition sem_enter (k : kind) (_ : reference) (e : elem k) (a : adder) : (elem k * adder) * outcome unit :=
    match s_body e with
    | BText t =>
        match extract_semantic_info t a with
        | (a, Ok i) => ((with_info e i, a), Ok tt)
        | (a, Err) => ((e, a), Err)
        | (a, Panic) => ((e, a), Panic)
        end
    | BChildren intro _ wrap =>
        match extract_semantic_info intro a with
        | (a, Ok i) =>
            let prefix := top (ad_prefix a) ++ intro ++ lit " " in
            let postfix := match wrap with
                           | Some w => lit " " ++ w ++ top (ad_postfix a)
                           | None => top (ad_postfix a)
                           end in
            ((with_info e (intro_info i), mkAdder (prefix :: ad_prefix a) (postfix :: ad_postfix a) (ad_cache a)), Ok tt)
        | (a, Err) => ((e, a), Err)
        | (a, Panic) => ((e, a), Panic)
        end
    end.
  (** sae.rs:95-105 on_exit *)
  Definition sem_exit (k : kind) (_ : reference) (e : elem k) (a : adder) : (elem k * adder) * outcome unit :=
    match s_body e with
    | BText _ => ((e, a), Ok tt)
    | BChildren _ _ _ => ((e, mkAdder (tl (ad_prefix a)) (tl (ad_postfix a)) (ad_cache a)), Ok tt)
    end.
  Definition sem_visitor : visitor_mut adder := mkVisitorMut sem_enter sem_exit.

  (** ** mod.rs *)
  Definition with_abbrevs (a : act) (m : list (str * act_id)) : act :=
    mkActS (ac_id a) (ac_subject a) (ac_preamble a) (ac_date a) m (ac_children a).
  (** mod.rs:35-42 add_semantic_info: the act as it is left behind, and whether abbreviations changed *)
  Definition add_semantic_info (a : act) : act * outcome bool :=
    match mut_act sem_visitor a (mkAdder [] [] (cache_from (ac_abbrevs a))) with
    | ((a', s), Ok _) => (with_abbrevs a' (ca_map (ad_cache s)), Ok (ca_changed (ad_cache s)))
    | ((a', _), Err) => (a', Err)
    | ((a', _), Panic) => (a', Panic)
    end.
  (** structure.rs:126-128 article_mut: the first article with the identifier; [f] gives the new article *)
  Fixpoint on_article {T} (i : article_id) (f : article -> article * T) (l : list act_child) : option (list act_child * T) :=
    match l with
    | [] => None
    | ChArticle a :: l' =>
        if article_eqb (ar_ident a) i then let '(a', t) := f a in Some (ChArticle a' :: l', t)
        else match on_article i f l' with Some (l2, t) => Some (ChArticle a :: l2, t) | None => None end
    | c :: l' => match on_article i f l' with Some (l2, t) => Some (c :: l2, t) | None => None end
    end.
  Definition with_children (a : act) (l : list act_child) : act :=
    mkActS (ac_id a) (ac_subject a) (ac_preamble a) (ac_date a) (ac_abbrevs a) l.
  (** mod.rs:44-59 add_semantic_info_to_article *)
  Definition add_semantic_info_to_article (i : article_id) (a : act) : act * outcome bool :=
    match on_article i (fun x =>
            let '((x', s), o) := mut_article sem_visitor (ref_of_act (ac_id a)) x (mkAdder [] [] (cache_from (ac_abbrevs a)))
            in (x', (s, o))) (ac_children a) with
    | None => (a, Err)
    | Some (l, (s, Ok _)) => (with_abbrevs (with_children a l) (ca_map (ad_cache s)), Ok (ca_changed (ad_cache s)))
    | Some (l, (_, Err)) => (with_children a l, Err)
    | Some (l, (_, Panic)) => (with_children a l, Panic)
    end.
End Sem.

(** ** hun_law_grammar/src/lib.rs *)
(** lib.rs:42-52 parse_abbreviation: the first known abbreviation the text starts with *)
Fixpoint parse_abbreviation (known : list str) (s : str) : option str :=
  match known with
  | [] => None
  | k :: known' => if starts_with k s then Some k else parse_abbreviation known' s
  end.
(** lib.rs:35-40 store_abbreviation *)
Definition store_abbreviation (a : g_act_id_now) (known : list str) : list str :=
  match gn_abbrev a with Some s => known ++ [s] | None => known end.
