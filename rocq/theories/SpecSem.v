(** Specification for the semantic information (C36, C37, C39, C40, C50, C51). *)
From Coq Require Export Sorted.
From Verif Require Export ModelSem SpecWalk.

(** ** Abbreviations (C36, C51) *)
(** The last act written under an abbreviation, in a list of writes *)
Fixpoint last_write (k : str) (l : list (str * act_id)) : option act_id :=
  match l with
  | [] => None
  | (k', a) :: l' => match last_write k l' with Some b => Some b | None => if str_eqb k k' then Some a else None end
  end.
(** What an abbreviation stands for after the writes [l] on top of the map [m] *)
Definition value_after (m l : list (str * act_id)) (k : str) : option act_id :=
  match last_write k l with Some a => Some a | None => map_get k m end.
(** The order of strings, as a relation: the first different character decides, a proper prefix comes first *)
Inductive str_lt : str -> str -> Prop :=
| lt_prefix c s : str_lt [] (c :: s)
| lt_head c d s t : (c < d)%N -> str_lt (c :: s) (d :: t)
| lt_tail c s t : str_lt s t -> str_lt (c :: s) (c :: t).
(** A map: keys in increasing order *)
Definition ascending (ks : list str) : Prop := StronglySorted str_lt ks.
Definition is_map {V} (m : list (str * V)) : Prop := ascending (map fst m).
Definition is_prefix (k s : str) : Prop := exists rest, s = k ++ rest.

(** ** References in a text (C37) *)
(** What a sentence says about references, in order: a part with its place in the text and its meaning (which
    may be unreadable), a correction of the end, and the end of one reference. *)
Inductive ref_event := EvPart (p : pos) (a : outcome any_part) | EvEnd (e : N) | EvRecord.
Definition read_range {T} (parse : str -> outcome T) (start stop id : option str) : outcome (range T) :=
  match id, start, stop with
  | Some i, _, _ => let* x := parse i in Ok (mkRange x x)
  | None, Some s, Some e => let* x := parse s in let* y := parse e in Ok (mkRange x y)
  | _, _, _ => Err
  end.
Definition part_event {T} (parse : str -> outcome T) (mk : range T -> any_part) (p : g_part) : list ref_event :=
  [EvPart (gp_pos p) (omap mk (read_range parse (gp_start p) (gp_end p) (gp_id p)))].
(** An article with its book *)
Definition read_article (p : g_art_part) : outcome any_part :=
  let* book := match ga_book p with Some b => omap Some (parse_u8 b) | None => Ok None end in
  omap PartArticle (read_range (fun s => omap (mkArt book) (numeric_parse s)) (ga_start p) (ga_end p) (ga_id p)).
Definition article_event (p : g_art_part) : list ref_event := [EvPart (ga_pos p) (read_article p)].
Definition single_events (s : g_single) : list ref_event := [EvPart (gs_pos s) (read_article (gs_part s)); EvRecord].
Definition relative_events (r : g_relative) : list ref_event := match r with GBefore s | GAfter s => single_events s end.
(** A reference is ended between two parts of the same list. *)
Fixpoint separated {A} (f : A -> list ref_event) (l : list A) : list ref_event :=
  match l with
  | [] => []
  | [x] => f x
  | x :: l' => f x ++ EvRecord :: separated f l'
  end.
Definition opt_events {A} (f : A -> list ref_event) (o : option A) : list ref_event :=
  match o with Some x => f x | None => [] end.
Definition lower_events (par np ap ns als : option (list g_part)) : list ref_event :=
  opt_events (separated (part_event numeric_parse PartParagraph)) par
  ++ opt_events (separated (part_event numeric_parse (fun r => PartPoint (PtNum r)))) np
  ++ opt_events (separated (part_event hic_parse (fun r => PartPoint (PtAlpha r)))) ap
  ++ opt_events (separated (part_event numeric_parse (fun r => PartSubpoint (SpNum r)))) ns
  ++ opt_events (separated (part_event prefixed_parse (fun r => PartSubpoint (SpAlpha r)))) als.
Definition ref_events (r : g_ref) : list ref_event :=
  opt_events (separated article_event) (gr_article r)
  ++ lower_events (gr_paragraph r) (gr_num_point r) (gr_alpha_point r) (gr_num_sub r) (gr_alpha_sub r)
  ++ [EvEnd (ps_end (gr_pos r)); EvRecord].
Definition ins_events (r : g_ins) : list ref_event :=
  separated (separated article_event) (gi_article r)
  ++ lower_events (gi_paragraph r) (gi_num_point r) (gi_alpha_point r) (gi_num_sub r) (gi_alpha_sub r)
  ++ [EvEnd (ps_end (gi_pos r)); EvRecord].
Section Act.
  Variables (rf : str -> option Z) (m : list (str * act_id)).
  (** The act meant by a reference to an act *)
  Definition denoted_act (a : g_act_ref) : outcome act_id :=
    match a with
    | GAbbrev s _ => match map_get s m with Some i => Ok i | None => Err end
    | GActId (mkGNow i _) =>
        match parse_i16 (gai_year i), rf (gai_number i) with Ok y, Some n => Ok (mkAct y n) | _, _ => Err end
    end.
  Definition act_position (a : g_act_ref) : pos :=
    match a with GAbbrev _ p => p | GActId (mkGNow i _) => gai_pos i end.
  Definition act_events_of (a : g_act_ref) : list ref_event :=
    [EvPart (act_position a) (omap PartAct (denoted_act a)); EvRecord].
  Definition ta_events (t : g_ta_ref) : list ref_event :=
    match t with
    | GTaArticleTitle s => single_events s
    | GTaStructural _ (GTaRelative r) => relative_events r
    | GTaRef r _ => ref_events r
    | _ => []
    end.
  Definition ed_events (r : g_ed_ref) : list ref_event := match r with GEdRef r => ref_events r | _ => [] end.
  Definition compound_events (x : g_compound) : list ref_event :=
    opt_events act_events_of (gc_act x) ++ flat_map ref_events (gc_refs x).
  Definition simple_events (s : g_simple) : list ref_event := match s with GCompound x => compound_events x | GOther => [] end.
  (** All that a sentence says.  A list of simple expressions says it in independent pieces. *)
  Definition root_events (r : g_root) : list ref_event :=
    match r with
    | RBlock x => act_events_of (gb_act x) ++ opt_events ref_events (gb_amended x) ++ opt_events ins_events (gb_inserted x)
    | RBlockStruct x => act_events_of (gbt_act x)
    | RBlockSubtitle x =>
        act_events_of (gbs_act x) ++ opt_events relative_events (gbs_relative x)
        ++ opt_events single_events (gws_article (gbs_ref x))
    | REnforcement x => flat_map ed_events (ge_refs x)
    | RRepeal x => act_events_of (gre_act x) ++ flat_map ta_events (gre_refs x)
    | RText x => act_events_of (gta_act x) ++ flat_map ta_events (gta_refs x)
    | RList l => flat_map simple_events l
    end.
End Act.

(** The parts in force: giving a part forgets the finer ones. *)
Definition part_level (a : any_part) : nat :=
  match a with
  | PartAct _ => 0 | PartArticle _ => 1 | PartParagraph _ => 2 | PartPoint _ => 3 | PartSubpoint _ => 4 | PartEmpty => 5
  end.
(** The one of level [l]: the last part given of level at most [l], if it is of that level *)
Definition in_force (l : nat) (parts : list any_part) : option any_part :=
  match find (fun p => (part_level p <=? l)%nat) (rev parts) with
  | Some p => if (part_level p =? l)%nat then Some p else None
  | None => None
  end.
Definition says (parts : list any_part) (r : reference) : Prop :=
  option_map PartAct (f_act r) = in_force 0 parts /\
  option_map PartArticle (f_article r) = in_force 1 parts /\
  option_map PartParagraph (f_paragraph r) = in_force 2 parts /\
  option_map PartPoint (f_point r) = in_force 3 parts /\
  option_map PartSubpoint (f_subpoint r) = in_force 4 parts.
Fixpoint parts_of (evs : list ref_event) : list any_part :=
  match evs with
  | [] => []
  | EvPart _ (Ok a) :: evs' => a :: parts_of evs'
  | _ :: evs' => parts_of evs'
  end.
(** [l] are the references said by [evs] after [before]: one per [EvRecord], from the start of the first part
    given since the last record to the last end given. *)
Inductive recorded : list any_part -> option N -> N -> list ref_event -> list out_ref -> Prop :=
| rec_nil ps s e : recorded ps s e [] []
| rec_part ps s e p a evs l :
    recorded (ps ++ [a]) (Some (match s with Some n => n | None => ps_start p end)) (ps_end p) evs l ->
    recorded ps s e (EvPart p (Ok a) :: evs) l
| rec_end ps s e e' evs l : recorded ps s e' evs l -> recorded ps s e (EvEnd e' :: evs) l
| rec_one ps s e r evs l :
    says ps r -> try_ref r = Ok r -> recorded ps None e evs l -> recorded ps (Some s) e (EvRecord :: evs) (mkOut s e r :: l).

Definition is_list (r : g_root) : bool := match r with RList _ => true | _ => false end.
(** One piece of a list: what it says if that makes sense, nothing otherwise *)
Definition piece_says (rf : str -> option Z) (m : list (str * act_id)) (s : g_simple) (l : list out_ref) : Prop :=
  recorded [] None 0 (simple_events rf m s) l \/
  (l = [] /\ forall l', ~ recorded [] None 0 (simple_events rf m s) l').
(** The end of the last place *)
Definition after (evs : list ref_event) (lo : N) : N :=
  fold_left (fun lo e => match e with EvPart p _ => ps_end p | EvEnd e => e | EvRecord => lo end) evs lo.
(** The places follow each other in the text. *)
Fixpoint in_order (lo : N) (evs : list ref_event) : Prop :=
  match evs with
  | [] => True
  | EvPart p _ :: evs' => (lo <= ps_start p < ps_end p)%N /\ in_order (ps_end p) evs'
  | EvEnd e :: evs' => (lo <= e)%N /\ in_order e evs'
  | EvRecord :: evs' => in_order lo evs'
  end.
Fixpoint spans_ordered (lo : N) (l : list out_ref) : Prop :=
  match l with
  | [] => True
  | o :: l' => (lo <= o_start o < o_end o)%N /\ spans_ordered (o_end o) l'
  end.
(** The bytes of a text from [a] to [b], if these are boundaries of characters *)
Definition piece (t : str) (a b : N) (x : str) : Prop :=
  exists pre post, t = pre ++ x ++ post /\ utf8_len pre = a /\ utf8_len (pre ++ x) = b.

(** ** Text amendments, repeals and enforcement dates (C39, C40) *)
Section Ta.
  Variables (rf : str -> option Z) (a : act_id).
  Definition read_subtitle (s : g_subtitle_part) : outcome sr_element :=
    match gsp_id s with
    | Some i => omap SeSubtitleId (numeric_parse i)
    | None => omap SeSubtitleRange (read_range numeric_parse (gsp_start s) (gsp_end s) None)
    end.
  Definition read_kind (k : g_struct_kind) : outcome sr_element :=
    match k with
    | GChapter s => omap SeChapter (numeric_from_roman rf s)
    | GTitle s => omap SeTitle (numeric_from_roman rf s)
    | GPart s => omap (fun n => SePart (mkNum n None)) (num_from_hungarian s)
    | GSubtitlePart s => read_subtitle s
    | GSubtitleTitle t => Ok (SeSubtitleTitle t)
    end.
  Definition read_book (o : option str) : outcome (option numeric) :=
    match o with Some s => omap (fun n => Some (mkNum n None)) (num_from_hungarian s) | None => Ok None end.
  Inductive structural (x : option act_id) : g_any_struct -> struct_ref -> Prop :=
  | structural_ g b e : read_book (gas_book g) = Ok b -> read_kind (gas_ref g) = Ok e ->
      structural x g (mkSRef x b None e (gas_title_only g)).
  (** A parent may not be a title only; its book is not kept. *)
  Inductive parent_read : option g_any_struct -> option sr_parent -> Prop :=
  | parent_none : parent_read None None
  | parent_some g p : gas_title_only g = false -> read_kind (gas_ref g) = Ok (sr_element_of_parent p) -> parent_read (Some g) (Some p).
  Definition first_article (s : g_single) : outcome article_id :=
    match read_article (gs_part s) with Ok (PartArticle r) => Ok (r_start r) | Ok _ => Err | Err => Err | Panic => Panic end.
  Definition read_relative (r : g_relative) : outcome sr_element :=
    match r with
    | GBefore s => omap SeSubtitleBeforeArticle (first_article s)
    | GAfter s => omap SeSubtitleAfterArticle (first_article s)
    end.
  Definition part_meant (t : option g_token) : sae_part :=
    match t with None => PartAll | Some GIntro => PartIntroOnly | Some GWrapUp => PartWrapUpOnly end.
  (** The references of one item, given the parts said before it *)
  Inductive ta_item (ps : list any_part) : g_ta_ref -> list ta_ref -> list any_part -> Prop :=
  | ta_title s l : recorded ps None 0 (single_events s) l ->
      ta_item ps (GTaArticleTitle s) (map (fun o => TaArticleTitle (o_ref o)) l) (ps ++ parts_of (single_events s))
  | ta_struct p g q s : parent_read p q -> structural (Some a) g s ->
      ta_item ps (GTaStructural p (GTaStruct g))
        [TaStructural (mkSRef (Some a) (sr_book s) q (sr_elem s) (sr_title_only s))] ps
  | ta_relative p r q e : parent_read p q -> read_relative r = Ok e ->
      ta_item ps (GTaStructural p (GTaRelative r)) [TaStructural (mkSRef (Some a) None q e false)] ps
  | ta_subtitles l es : Forall2 (fun s e => read_subtitle s = Ok e) l es ->
      ta_item ps (GTaSubtitles l) (map (fun e => TaStructural (mkSRef (Some a) None None e false)) es) ps
  | ta_ref_item r t l : recorded ps None 0 (ref_events r) l ->
      ta_item ps (GTaRef r t) (map (fun o => TaSae (o_ref o) (part_meant t)) l) (ps ++ parts_of (ref_events r))
  | ta_attachment : ta_item ps GTaAttachment [] ps.
  Inductive ta_items : list any_part -> list g_ta_ref -> list ta_ref -> Prop :=
  | tas_nil ps : ta_items ps [] []
  | tas_cons ps t l rs ps' rs' : ta_item ps t rs ps' -> ta_items ps' l rs' -> ta_items ps (t :: l) (rs ++ rs').
End Ta.
(** The act a text amendment or repeal is about *)
Definition ta_act (t : ta_ref) : option act_id :=
  match t with TaSae r _ => f_act r | TaStructural s => sr_act s | TaArticleTitle r => f_act r end.
(** [l] has one entry for each pair, row by row *)
Definition product {A B C} (f : A -> B -> C) (xs : list A) (ys : list B) (l : list C) : Prop :=
  List.length l = (List.length xs * List.length ys)%nat /\
  forall i j x y, nth_error xs i = Some x -> nth_error ys j = Some y ->
    nth_error l (i * List.length ys + j) = Some (f x y).

(** Dates *)
Definition read_date (d : g_date) (x : date) : Prop :=
  parse_i32 (gd_year d) = Ok (d_year x) /\ month_from_hungarian (gd_month d) = Ok (d_month x) /\
  parse_u32 (gd_day d) = Ok (d_day x) /\
  (-262144 <= d_year x <= 262143)%Z /\ (1 <= d_month x <= 12)%N /\ (1 <= d_day x <= days_in_month (d_year x) (d_month x))%N.
Definition read_ordinal (o : g_ordinal) (n : N) : Prop :=
  match o with GWord s => num_from_hungarian s = Ok n | GNumber s => parse_u16 s = Ok n end.
Inductive read_ed_date : g_ed_date -> ed_type -> Prop :=
| red_date d x : read_date d x -> read_ed_date (GDate d) (EdDate x)
| red_next : read_ed_date (GAfterPublication None) (EdDaysAfter 1)
| red_days o n : read_ordinal o n -> read_ed_date (GAfterPublication (Some o)) (EdDaysAfter n)
| red_day o n : read_ordinal o n -> read_ed_date (GDayInMonth None o) (EdDayInMonth None n)
| red_month s m o n : num_from_hungarian s = Ok m -> read_ordinal o n ->
    read_ed_date (GDayInMonth (Some s) o) (EdDayInMonth (Some m) n).
Definition opt_date (o : option g_date) (x : option date) : Prop :=
  match o, x with Some d, Some y => read_date d y | None, None => True | _, _ => False end.
(** The structural references, in order *)
Inductive ed_structurals (rf : str -> option Z) : list g_ed_ref -> list struct_ref -> Prop :=
| eds_nil : ed_structurals rf [] []
| eds_struct g s l r : structural rf None g s -> ed_structurals rf l r -> ed_structurals rf (GEdStruct g :: l) (s :: r)
| eds_subtitles ss es l r : Forall2 (fun s e => read_subtitle s = Ok e) ss es -> ed_structurals rf l r ->
    ed_structurals rf (GEdSubtitles ss :: l) (map (fun e => mkSRef None None None e false) es ++ r)
| eds_ref x l r : ed_structurals rf l r -> ed_structurals rf (GEdRef x :: l) r
| eds_attachment l r : ed_structurals rf l r -> ed_structurals rf (GEdAttachment :: l) r.

(** ** The text given to the grammar (C50) *)
(** A piece of text to be understood, with what comes before and after it in the sentence *)
Record task := mkTask { t_before : str; t_own : str; t_after : str; t_intro : bool }.
Definition own_text (x : any_elem) : str :=
  let 'El _ e := x in match s_body e with BText t => t | BChildren i _ _ => i end.
Definition has_children (x : any_elem) : bool :=
  let 'El _ e := x in match s_body e with BText _ => false | BChildren _ _ _ => true end.
Definition wrap_up_text (x : any_elem) : str :=
  let 'El _ e := x in match s_body e with BChildren _ _ (Some w) => lit " " ++ w | _ => [] end.
Fixpoint node_tasks (before after : str) (n : node) : list task :=
  let 'Node r x l := n in
  mkTask before (own_text x) after (has_children x)
  :: flat_map (node_tasks (before ++ own_text x ++ lit " ") (wrap_up_text x ++ after)) l.
Definition act_tasks (a : act) : list task := flat_map (node_tasks [] []) (act_nodes a).
(** The text itself: conjunctions and separators at its end are left out, a full stop is supplied if nothing
    follows and the sentence is not closed. *)
Definition conjunctions : list str :=
  map lit [" a"; " és"; " valamint"; " illetve"; " vagy"; " továbbá"; ";"; ","]%string.
Inductive trimmed : list str -> str -> str -> Prop :=
| trim_nil s : trimmed [] s s
| trim_hit j js s s' : trimmed js s s' -> trimmed (j :: js) (s ++ j) s'
| trim_miss j js s s' : ~ (exists t, s = t ++ j) -> trimmed js s s' -> trimmed (j :: js) s s'.
Definition closed (s : str) : Prop := exists t c, s = t ++ [c] /\ In c (lit ".:!?").
Inductive sentence (t : task) : str -> Prop :=
| sentence_open own : trimmed conjunctions (t_own t) own -> t_after t <> [] ->
    sentence t (t_before t ++ own ++ t_after t)
| sentence_closed own : trimmed conjunctions (t_own t) own -> t_after t = [] -> closed own -> sentence t (t_before t ++ own)
| sentence_stop own : trimmed conjunctions (t_own t) own -> t_after t = [] -> ~ closed own ->
    sentence t (t_before t ++ own ++ lit ".").

(** The own text of a task in its sentence, with the full stop if it was supplied *)
Definition own_sentence (t : task) (own : str) : str :=
  own ++ if is_empty (t_after t) && negb (ends_sentence own) then lit "." else [].

(** The semantic information of the elements of an act, in document order *)
Definition info (x : any_elem) : sem_info := let 'El _ e := x in s_si e.
Definition infos (a : act) : list sem_info := map (fun p => info (snd p)) (elements a).

(** The same for one article *)
Definition article_nodes (c : act_id) (x : article) : list node := map (par_node c (ar_ident x)) (ar_children x).
Definition article_tasks (c : act_id) (x : article) : list task := flat_map (node_tasks [] []) (article_nodes c x).
Definition article_infos (c : act_id) (x : article) : list sem_info :=
  map (fun p => info (snd p)) (flat_map preorder (article_nodes c x)).

(** Understanding one task: the grammar reads its sentence with the abbreviations known so far, the new
    abbreviations are learnt, and the references ending in the element's own text are kept. *)
Section Understood.
  Variables (rf : str -> option Z) (gp : str -> list str -> outcome g_root).
  (** References of the sentence that end after [before] and not after [stop], relative to the own text *)
  Inductive kept (before stop : N) : list out_ref -> list out_ref -> Prop :=
  | kept_nil : kept before stop [] []
  | kept_in o l l' : (before < o_end o <= stop)%N -> kept before stop l l' ->
      kept before stop (o :: l) (mkOut (o_start o - before) (o_end o - before) (o_ref o) :: l')
  | kept_out o l l' : (o_end o <= before \/ stop < o_end o)%N -> kept before stop l l' -> kept before stop (o :: l) l'.
  (** An intro only has amendments. *)
  Definition phrase_kept (intro : bool) (p : option phrase) : option phrase :=
    match intro, p with
    | true, Some (PhBlock _) | true, Some (PhStructural _) => p
    | true, _ => None
    | false, _ => p
    end.
  Inductive understood (c : cache) (t : task) : sem_info -> cache -> Prop :=
  | understood_ text root new out kept_out p :
      sentence t text ->
      gp text (map fst (ca_map c)) = Ok root ->
      get_new_abbreviations rf root = Ok new ->
      get_outgoing_references rf (cache_add_multiple new c) root = Ok out ->
      kept (utf8_len (t_before t)) (utf8_len text - utf8_len (t_after t)) out kept_out ->
      extract_special_phrase rf (cache_add_multiple new c) root = Ok p ->
      understood c t (mkSi kept_out (map_of new) (phrase_kept (t_intro t) p)) (cache_add_multiple new c).
  Inductive all_understood : cache -> list task -> list sem_info -> cache -> Prop :=
  | au_nil c : all_understood c [] [] c
  | au_cons c t ts i is c' c2 : understood c t i c' -> all_understood c' ts is c2 -> all_understood c (t :: ts) (i :: is) c2.
  (** The tasks are done one after the other until one is not understood; the information from there on stays
      as it was. *)
  Inductive worked : cache -> list task -> list sem_info -> list sem_info -> outcome unit -> cache -> Prop :=
  | worked_nil c : worked c [] [] [] (Ok tt) c
  | worked_one c t ts i old new o c1 c2 j : understood c t i c1 -> worked c1 ts old new o c2 ->
      worked c (t :: ts) (j :: old) (i :: new) o c2
  | worked_stop c t ts old o c1 : (forall i c2, ~ understood c t i c2) -> o <> Ok tt ->
      List.length old = S (List.length ts) -> worked c (t :: ts) old old o c1.
End Understood.
(** A plain repeal of one item; only whole elements can be repealed. *)
Inductive plain_repeal : ta_ref -> repeal_ref -> Prop :=
| plain_ref r : plain_repeal (TaSae r PartAll) (RrRef r)
| plain_structural s : plain_repeal (TaStructural s) (RrStructural s).
