(** Specification for the special phrases of a sentence and the abbreviations it introduces (C65). *)
From Verif Require Export SpecSem SpecRef.

(** ** The position of a block amendment *)
(** [f] is [r] with each part replaced by its first element, by its last one *)
Definition starts (f r : reference) : Prop := forall l, part f l = start_of (part r l).
Definition ends (f r : reference) : Prop := forall l, part f l = end_of (part r l).
(** The earliest first element, the latest last element *)
Definition earliest (rs : list reference) (f : reference) : Prop :=
  (exists r, In r rs /\ starts f r) /\ forall r g, In r rs -> starts g r -> g = f \/ reference_before f g.
Definition latest (rs : list reference) (f : reference) : Prop :=
  (exists r, In r rs /\ ends f r) /\ forall r g, In r rs -> ends g r -> g = f \/ reference_before g f.
(** From one element to another of the same parent *)
Definition spanned (f l p : reference) : Prop :=
  (f = l /\ p = f) \/
  (exists l0, finest f l0 /\ finest l l0 /\ (forall k, k <> l0 -> part f k = part l k) /\
     (forall k, k <> l0 -> part p k = part f k) /\ span_part (part f l0) (part l l0) = Some (part p l0)).
(** What is amended: from the first of the elements said to the last one *)
Definition amended_position (said : list reference) (p : reference) : Prop :=
  exists rs f l, (forall r, In r rs <-> In r said /\ present r LArticle) /\ earliest rs f /\ latest rs l /\ spanned f l p.

Section Phrase.
  Variables (rf : str -> option Z) (m : list (str * act_id)).
  (** Whole articles are put under a structural element, anything else under an article. *)
  Inductive block_meaning (x : g_block) : phrase -> Prop :=
  | block_articles refs p a q :
      recorded [] None 0 (root_events rf m (RBlock x)) refs -> amended_position (map o_ref refs) p ->
      finest p LArticle -> f_article p = Some a -> parent_read rf (gb_parent x) q ->
      block_meaning x (PhStructural (mkSbaPhrase (mkSRef (f_act p) None q (SeArticle a) false)
        (match gb_amended x with None => true | Some _ => false end)))
  | block_inside refs p :
      recorded [] None 0 (root_events rf m (RBlock x)) refs -> amended_position (map o_ref refs) p ->
      ~ finest p LArticle ->
      block_meaning x (PhBlock (mkBaPhrase p (match gb_amended x with None => true | Some _ => false end))).
  (** A structural element, in the book named for the whole sentence if there is one *)
  Inductive structural_meaning (x : g_block_struct) : phrase -> Prop :=
  | structural_block a s q b : denoted_act rf m (gbt_act x) = Ok a -> structural rf (Some a) (gbt_ref x) s ->
      parent_read rf (gbt_parent x) q -> read_book (gbt_book x) = Ok b ->
      structural_meaning x (PhStructural (mkSbaPhrase
        (mkSRef (Some a) (match b with Some n => Some n | None => sr_book s end) q (sr_elem s) (sr_title_only s))
        (gbt_insertion x))).
  (** A subtitle: by the article it stands before, else by its place beside an article, else by its title,
      else by its number; only a new one may have no name. *)
  Inductive subtitle_named (x : g_block_sub) : sr_element -> Prop :=
  | named_article s a : gws_article (gbs_ref x) = Some s -> first_article s = Ok a ->
      subtitle_named x (SeSubtitleBeforeArticleInclusive a)
  | named_relative r e : gws_article (gbs_ref x) = None -> gbs_relative x = Some r -> read_relative r = Ok e -> subtitle_named x e
  | named_title t : gws_article (gbs_ref x) = None -> gbs_relative x = None -> gws_title (gbs_ref x) = Some t ->
      subtitle_named x (SeSubtitleTitle t)
  | named_id i n : gws_article (gbs_ref x) = None -> gbs_relative x = None -> gws_title (gbs_ref x) = None ->
      gws_id (gbs_ref x) = Some i -> numeric_parse i = Ok n -> subtitle_named x (SeSubtitleId n)
  | named_new : gws_article (gbs_ref x) = None -> gbs_relative x = None -> gws_title (gbs_ref x) = None ->
      gws_id (gbs_ref x) = None -> gbs_insertion x = true -> subtitle_named x SeSubtitleUnknown.
  Inductive subtitle_meaning (x : g_block_sub) : phrase -> Prop :=
  | subtitle_block e q a : subtitle_named x e -> parent_read rf (gbs_parent x) q -> denoted_act rf m (gbs_act x) = Ok a ->
      subtitle_meaning x (PhStructural (mkSbaPhrase (mkSRef (Some a) None q e false) (gbs_insertion x))).
  (** ** All special phrases *)
  Inductive phrase_meaning : g_root -> option phrase -> Prop :=
  | phrase_list l : phrase_meaning (RList l) None
  | phrase_block x p : block_meaning x p -> phrase_meaning (RBlock x) (Some p)
  | phrase_structural x p : structural_meaning x p -> phrase_meaning (RBlockStruct x) (Some p)
  | phrase_subtitle x p : subtitle_meaning x p -> phrase_meaning (RBlockSubtitle x) (Some p)
  | phrase_enforcement x refs structs d ir :
      recorded [] None 0 (flat_map ed_events (ge_refs x)) refs -> ed_structurals rf (ge_refs x) structs ->
      read_ed_date (ge_date x) d -> opt_date (ge_repeal x) ir ->
      phrase_meaning (REnforcement x)
        (Some (PhEnforcement (mkEd (map o_ref refs) structs (match ge_refs x with [] => true | _ => false end) d ir)))
  | phrase_repeal x a rs l : denoted_act rf m (gre_act x) = Ok a -> ta_items rf a [PartAct a] (gre_refs x) rs ->
      gre_texts x = [] -> Forall2 plain_repeal rs l ->
      phrase_meaning (RRepeal x) (Some (PhRepeal (l ++ match gre_refs x with [] => [RrRef (ref_of_act a)] | _ => [] end)))
  | phrase_text_repeal x a rs l : denoted_act rf m (gre_act x) = Ok a -> ta_items rf a [PartAct a] (gre_refs x) rs ->
      gre_texts x <> [] -> product (fun r t => mkTa r t []) rs (gre_texts x) l -> phrase_meaning (RRepeal x) (Some (PhText l))
  | phrase_text x a rs l : denoted_act rf m (gta_act x) = Ok a -> ta_items rf a [PartAct a] (gta_refs x) rs ->
      product (fun r p => mkTa r (fst p) (snd p)) rs (gta_parts x) l -> phrase_meaning (RText x) (Some (PhText l)).
End Phrase.

(** ** Abbreviations introduced *)
(** The acts named in a sentence, in order *)
Inductive acts_named : g_root -> list g_act_ref -> Prop :=
| an_block x : acts_named (RBlock x) [gb_act x]
| an_struct x : acts_named (RBlockStruct x) [gbt_act x]
| an_subtitle x : acts_named (RBlockSubtitle x) [gbs_act x]
| an_text x : acts_named (RText x) [gta_act x]
| an_repeal x : acts_named (RRepeal x) [gre_act x]
| an_enforcement x : acts_named (REnforcement x) []
| an_nil : acts_named (RList []) []
| an_act a rs l ls : acts_named (RList l) ls -> acts_named (RList (GCompound (mkGComp (Some a) rs) :: l)) (a :: ls)
| an_refs rs l ls : acts_named (RList l) ls -> acts_named (RList (GCompound (mkGComp None rs) :: l)) ls
| an_other l ls : acts_named (RList l) ls -> acts_named (RList (GOther :: l)) ls.
(** "2012. évi I. törvény (a továbbiakban: Tv.)": the abbreviation and the act *)
Inductive introduced (rf : str -> option Z) : list g_act_ref -> list (str * act_id) -> Prop :=
| in_nil : introduced rf [] []
| in_abbrev s p l ns : introduced rf l ns -> introduced rf (GAbbrev s p :: l) ns
| in_plain i l ns : introduced rf l ns -> introduced rf (GActId (mkGNow i None) :: l) ns
| in_new i s y n l ns : parse_i16 (gai_year i) = Ok y -> rf (gai_number i) = Some n -> introduced rf l ns ->
    introduced rf (GActId (mkGNow i (Some s)) :: l) ((s, mkAct y n) :: ns).
