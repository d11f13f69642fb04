(** Model of the data types of src/structure.rs, src/semantic_info.rs and
    src/reference/structural.rs, and of the simple functions on them.  No proofs in this file.

    Simplifications: a [BTreeMap] is its list of entries in key order; [usize] positions are [N]. *)
From Verif Require Export ModelRef ModelMk.

(** ** src/reference/structural.rs *)
(** structural.rs:36-53 StructuralReferenceElement *)
Inductive sr_element :=
| SePart (i : numeric) | SeTitle (i : numeric) | SeChapter (i : numeric)
| SeSubtitleId (i : numeric) | SeSubtitleRange (r : range numeric) | SeSubtitleTitle (t : str)
| SeSubtitleAfterArticle (a : article_id) | SeSubtitleBeforeArticle (a : article_id)
| SeSubtitleBeforeArticleInclusive (a : article_id) | SeSubtitleUnknown
| SeArticle (r : range article_id).
(** structural.rs:55-63 StructuralReferenceParent *)
Inductive sr_parent :=
| SpPart (i : numeric) | SpTitle (i : numeric) | SpChapter (i : numeric)
| SpSubtitleId (i : numeric) | SpSubtitleRange (r : range numeric) | SpSubtitleTitle (t : str).
(** structural.rs:65-80 From<StructuralReferenceParent> *)
Definition sr_element_of_parent (p : sr_parent) : sr_element :=
  match p with
  | SpPart i => SePart i | SpTitle i => SeTitle i | SpChapter i => SeChapter i
  | SpSubtitleId i => SeSubtitleId i | SpSubtitleRange r => SeSubtitleRange r
  | SpSubtitleTitle t => SeSubtitleTitle t
  end.
(** structural.rs:23-34 StructuralReference *)
Record struct_ref := mkSRef {
  sr_act : option act_id; sr_book : option numeric; sr_par : option sr_parent;
  sr_elem : sr_element; sr_title_only : bool }.

(** ** src/semantic_info.rs *)
(** semantic_info.rs:45-51 OutgoingReference *)
Record out_ref := mkOut { o_start : N; o_end : N; o_ref : reference }.
(** semantic_info.rs:75-78, 137-140 BlockAmendment and StructuralBlockAmendment (phrases) *)
Record ba_phrase := mkBaPhrase { ba_position : reference; ba_pure : bool }.
Record sba_phrase := mkSbaPhrase { sba_position : struct_ref; sba_pure : bool }.
(** semantic_info.rs:81-104 *)
Inductive sae_part := PartAll | PartIntroOnly | PartWrapUpOnly.
Inductive ta_ref :=
| TaSae (r : reference) (p : sae_part) | TaStructural (r : struct_ref) | TaArticleTitle (r : reference).
Record text_amendment := mkTa { ta_reference : ta_ref; ta_from : str; ta_to : str }.
(** semantic_info.rs:107-129 *)
Inductive ed_type :=
| EdDate (d : date) | EdDaysAfter (n : N) | EdDayInMonth (month : option N) (day : N).
Record enforcement := mkEd {
  ed_positions : list reference; ed_structural : list struct_ref; ed_default : bool;
  ed_date : ed_type; ed_repeal : option date }.
(** semantic_info.rs:131-135 *)
Inductive repeal_ref := RrRef (r : reference) | RrStructural (r : struct_ref).
(** semantic_info.rs:66-72 SpecialPhrase *)
Inductive phrase :=
| PhBlock (b : ba_phrase) | PhEnforcement (e : enforcement) | PhRepeal (l : list repeal_ref)
| PhText (l : list text_amendment) | PhStructural (b : sba_phrase).
(** semantic_info.rs:27-42 SemanticInfo *)
Record sem_info := mkSi {
  si_outgoing : list out_ref; si_abbrevs : list (str * act_id); si_phrase : option phrase }.
Definition si_default : sem_info := mkSi [] [] None.
Definition si_is_empty (s : sem_info) : bool :=
  is_empty (si_outgoing s) && is_empty (si_abbrevs s) && is_none (si_phrase s).

(** ** src/structure.rs *)
(** structure.rs:500-511 LastChange, ChangeCause *)
Inductive change_cause := CcAmendment (r : reference) | CcAutoRepeal | CcOther (s : str).
Record last_change := mkLc { lc_date : date; lc_cause : change_cause }.

(** structure.rs:289-297 SAEBody *)
Inductive sae_body (C : Type) := BText (t : str) | BChildren (intro : str) (ch : C) (wrap : option str).
Arguments BText {C}.
Arguments BChildren {C}.
(** structure.rs:251-267 SubArticleElement *)
Record sae (I C : Type) := mkSae {
  s_id : I; s_body : sae_body C; s_si : sem_info; s_change : option last_change }.
Arguments mkSae {I C}.
Arguments s_id {I C}.
Arguments s_body {I C}.
Arguments s_si {I C}.
Arguments s_change {I C}.
(** The empty enums of the subpoints' children (structure.rs:374-402) are [Empty_set]. *)
Definition alpha_subpoint := sae prefixed Empty_set.
Definition num_subpoint := sae numeric Empty_set.
(** structure.rs:339-342 AlphabeticPointChildren, 359-361 NumericPointChildren *)
Inductive alpha_children := AcAlpha (l : list alpha_subpoint) | AcNum (l : list num_subpoint).
Inductive num_children := NcAlpha (l : list alpha_subpoint).
Definition alpha_point := sae hic alpha_children.
Definition num_point := sae numeric num_children.
(** structure.rs:436-442 QuotedBlock *)
Record quoted_block := mkQb { qb_intro : option str; qb_lines : list line; qb_wrap : option str }.
(** structure.rs:185-207 StructuralElementType *)
Inductive se_type := TBook | TPart (is_special : bool) | TTitle | TChapter.
(** structure.rs:132-138 StructuralElement *)
Record struct_elem := mkSe { se_id : numeric; se_title : str; se_ty : se_type; se_change : option last_change }.
(** structure.rs:176-182 Subtitle *)
Record subtitle := mkSub { st_id : option numeric; st_title : str; st_change : option last_change }.
(** structure.rs:235-242 Article, 98-102 ActChild; [P] is the type of paragraphs. *)
Record article_of (P : Type) := mkArticle {
  ar_ident : article_id; ar_title : option str; ar_children : list P; ar_change : option last_change }.
Arguments mkArticle {P}.
Arguments ar_ident {P}.
Arguments ar_title {P}.
Arguments ar_children {P}.
Arguments ar_change {P}.
Inductive act_child_of (P : Type) :=
| ChStruct (e : struct_elem) | ChSubtitle (s : subtitle) | ChArticle (a : article_of P).
Arguments ChStruct {P}.
Arguments ChSubtitle {P}.
Arguments ChArticle {P}.
(** structure.rs:460-466 BlockAmendmentChildren, 445-451 BlockAmendment *)
Inductive ba_children_of (P : Type) :=
| BcParagraph (l : list P) | BcAlpha (l : list alpha_point) | BcNum (l : list num_point)
| BcAlphaSub (l : list alpha_subpoint) | BcNumSub (l : list num_subpoint).
Arguments BcParagraph {P}.
Arguments BcAlpha {P}.
Arguments BcNum {P}.
Arguments BcAlphaSub {P}.
Arguments BcNumSub {P}.
Record block_of (P : Type) := mkBlock { bk_intro : option str; bk_children : ba_children_of P; bk_wrap : option str }.
Arguments mkBlock {P}.
Arguments bk_intro {P}.
Arguments bk_children {P}.
Arguments bk_wrap {P}.
(** structure.rs:485-491 StructuralBlockAmendment *)
Record sblock_of (P : Type) := mkSBlock { sb_intro : option str; sb_children : list (act_child_of P); sb_wrap : option str }.
Arguments mkSBlock {P}.
Arguments sb_intro {P}.
Arguments sb_children {P}.
Arguments sb_wrap {P}.
(** structure.rs:313-319 ParagraphChildren *)
Inductive par_children :=
| PcAlpha (l : list alpha_point)
| PcNum (l : list num_point)
| PcQuoted (l : list quoted_block)
| PcBlock (b : block_of (sae paragraph_id par_children))
| PcStruct (b : sblock_of (sae paragraph_id par_children)).
Definition paragraph := sae paragraph_id par_children.
Definition article := article_of paragraph.
Definition act_child := act_child_of paragraph.
(** structure.rs:87-95 Act *)
Record act := mkActS {
  ac_id : act_id; ac_subject : str; ac_preamble : str; ac_date : date;
  ac_abbrevs : list (str * act_id); ac_children : list act_child }.

(** structure.rs:104-125 Act::articles, Act::article *)
Definition child_article (c : act_child) : option article := match c with ChArticle a => Some a | _ => None end.
Fixpoint articles_of (l : list act_child) : list article :=
  match l with
  | [] => []
  | c :: l' => match child_article c with Some a => a :: articles_of l' | None => articles_of l' end
  end.
Definition act_articles (a : act) : list article := articles_of (ac_children a).
Definition act_article (a : act) (i : article_id) : option article :=
  find (fun x => article_eqb (ar_ident x) i) (act_articles a).

(** structure.rs:274-286, 321-402, 453-498 is_empty (recursively) *)
Definition body_is_empty {C} (f : C -> bool) (b : sae_body C) : bool :=
  match b with BText t => is_empty t | BChildren _ c _ => f c end.
Definition sub_is_empty {I} (s : sae I Empty_set) : bool := body_is_empty (fun c : Empty_set => match c with end) (s_body s).
Definition alpha_is_empty (s : alpha_point) : bool :=
  body_is_empty (fun c => match c with AcAlpha l => forallb sub_is_empty l | AcNum l => forallb sub_is_empty l end) (s_body s).
Definition num_is_empty (s : num_point) : bool :=
  body_is_empty (fun c => match c with NcAlpha l => forallb sub_is_empty l end) (s_body s).
Fixpoint pc_is_empty (c : par_children) : bool :=
  match c with
  | PcAlpha l => forallb alpha_is_empty l
  | PcNum l => forallb num_is_empty l
  | PcQuoted l => is_empty l
  | PcBlock b =>
      match bk_children b with
      | BcParagraph l => forallb (fun p => match s_body p with BText t => is_empty t | BChildren _ c _ => pc_is_empty c end) l
      | BcAlpha l => forallb alpha_is_empty l
      | BcNum l => forallb num_is_empty l
      | BcAlphaSub l => forallb sub_is_empty l
      | BcNumSub l => forallb sub_is_empty l
      end
  | PcStruct b => is_empty (sb_children b)
  end.
Definition par_is_empty (p : paragraph) : bool := body_is_empty pc_is_empty (s_body p).

(** structure.rs:560-596 SAEHeaderString; 244-248 Article::header_string *)
Definition par_header (p : paragraph_id) : str :=
  match p with None => [] | Some _ => lit "(" ++ paragraph_show p ++ lit ")" end.
Definition num_header (i : numeric) : str := numeric_show i ++ lit ".".
Definition alpha_header (i : hic) : str := hic_show i ++ lit ")".
Definition alpha_sub_header (i : prefixed) : str := prefixed_show i ++ lit ")".
Definition article_header (i : article_id) : str := article_show i ++ lit ". §".

(** numeric.rs:75-81 to_hungarian *)
Definition numeric_to_hungarian (x : numeric) : outcome str :=
  let* r := num_to_hungarian (n_num x) in
  Ok (match n_suffix x with Some c => r ++ [chr "/"] ++ hic_show c | None => r end).
(** structure.rs:140-166 StructuralElement::header_string. [to_uppercase] is the Hungarian map of ModelMk;
    it agrees with [str::to_uppercase] on the letters that occur. *)
Definition se_header (ty : se_type) (i : numeric) : outcome str :=
  match ty with
  | TBook => let* s := numeric_to_hungarian i in Ok (to_uppercase s ++ lit " KÖNYV")
  | TPart true =>
      if numeric_eqb i (mkNum 1 None) then Ok (lit "ÁLTALÁNOS RÉSZ")
      else if numeric_eqb i (mkNum 2 None) then Ok (lit "KÜLÖNÖS RÉSZ")
      else if numeric_eqb i (mkNum 3 None) then Ok (lit "ZÁRÓ RÉSZ")
      else Err
  | TPart false => let* s := numeric_to_hungarian i in Ok (to_uppercase s ++ lit " RÉSZ")
  | TTitle => let* s := numeric_to_roman i in Ok (s ++ lit ". CÍM")
  | TChapter => let* s := numeric_to_roman i in Ok (s ++ lit ". FEJEZET")
  end.
(** structure.rs:209-232 parse_identifier, parse_special_part_identifier *)
Definition parse_special_part (s : str) : outcome numeric :=
  if str_eqb s (lit "ÁLTALÁNOS") then Ok (mkNum 1 None)
  else if str_eqb s (lit "KÜLÖNÖS") then Ok (mkNum 2 None)
  else if str_eqb s (lit "ZÁRÓ") then Ok (mkNum 3 None)
  else Err.
Definition se_parse_identifier (rf : str -> option Z) (ty : se_type) (s : str) : outcome numeric :=
  match ty with
  | TPart true => parse_special_part s
  | TBook | TPart false => let* n := num_from_hungarian s in Ok (mkNum n None)
  | TTitle | TChapter => numeric_from_roman rf s
  end.
