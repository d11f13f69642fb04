(** Specification for the grammar (C57-C61). *)
From Verif Require Export SpecIdent ModelGrammar SpecOut.

(** ** Places (C57) *)
(** Byte offsets between two characters of a text *)
Definition event_boundary (t : str) (e : ref_event) : Prop :=
  match e with
  | EvPart p _ => boundary t (ps_start p) /\ boundary t (ps_end p)
  | EvEnd n => boundary t n
  | EvRecord => True
  end.

(** ** Abbreviations (C59) *)
Definition spaces (w : str) : Prop := Forall (fun c => In c [32; 9; 10; 12; 13]%N) w.
(** The word after the number of an act: "törvény", possibly with an ending, or "tv." *)
Definition act_letter (c : char) : Prop := (97 <= c <= 122)%N \/ In c (lit "éáőúöüóíű").
Inductive act_word : str -> Prop :=
| act_word_long e : e <> [] -> Forall act_letter e -> act_word (lit "törvén" ++ e)
| act_word_short : act_word (lit "tv.").
(** The text introduces an abbreviation: after an act "(a továbbiakban", possibly a colon, the abbreviation and a
    closing parenthesis. The abbreviation is everything from the first mark which is not white to the parenthesis. *)
Definition introduces (t k : str) : Prop :=
  exists pre s u u1 u2 v colon w post,
    t = pre ++ s ++ u ++ lit "(" ++ u1 ++ lit "a" ++ u2 ++ lit "továbbiakban" ++ v ++ colon ++ w ++ k ++ lit ")" ++ post /\
    act_word s /\ Forall spaces [u; u1; u2; v; w] /\ (colon = lit ":" \/ colon = [] /\ w = [] /\ ~ (exists k', k = lit ":" ++ k')) /\
    k <> [] /\ ~ In (chr ")") k /\ ~ (exists c k', k = c :: k' /\ spaces [c]).
(** An abbreviation which may be used in the text *)
Definition known_word (t : str) (known : list str) (s : str) : Prop := s <> [] /\ (In s known \/ introduces t s).

(** ** Captured words (C58) *)
Definition lower_letter (c : char) : Prop := (97 <= c <= 122)%N.
Definition upper_letter (c : char) : Prop := (65 <= c <= 90)%N.
Definition number_word (s : str) : Prop := s <> [] /\ Forall (fun c => (48 <= c <= 57)%N) s.
Definition roman_word (s : str) : Prop := s <> [] /\ Forall (fun c => In c (lit "IVXLCDM")) s.
Definition letter_word (s : str) : Prop :=
  (exists c, s = [c] /\ lower_letter c) \/ In s (map lit ["cs"; "dz"; "gy"; "ly"; "ny"; "sz"; "ty"; "zs"]%string).
(** 5, 5/A *)
Definition article_word (s : str) : Prop :=
  exists n l, s = n ++ l /\ number_word n /\ (l = [] \/ exists c, l = lit "/" ++ [c] /\ upper_letter c).
(** 5, 5a, 5cs *)
Definition paragraph_word (s : str) : Prop := exists n l, s = n ++ l /\ number_word n /\ (l = [] \/ letter_word l).
(** 5, 5a, 5/a *)
Definition num_point_word (s : str) : Prop :=
  exists n l, s = n ++ l /\ number_word n /\ (l = [] \/ letter_word l \/ exists x, l = lit "/" ++ x /\ letter_word x).
(** a, ab *)
Definition alpha_subpoint_word (s : str) : Prop := Forall lower_letter s /\ (List.length s = 1 \/ List.length s = 2)%nat.
(** A number or roman numeral, and a capital letter possibly after a slash; there may be white space between them. *)
Definition suffixed_word (first : str -> Prop) (s : str) : Prop :=
  exists n l, s = n ++ l /\ first n /\
  (l = [] \/ exists v slash w c, l = v ++ slash ++ w ++ [c] /\ spaces v /\ (slash = [] \/ slash = lit "/") /\ spaces w /\ upper_letter c).
Definition ordinals : list str := map lit
  ["első"; "második"; "harmadik"; "negyedik"; "ötödik"; "hatodik"; "hetedik"; "nyolcadik"; "kilencedik"; "tizedik";
   "tizenegyedik"; "tizenkettedik"; "tizenharmadik"; "tizennegyedik"; "tizenötödik"; "tizenhatodik"; "tizenhetedik";
   "tizennyolcadik"; "tizenkilencedik"; "huszadik"; "harmincadik"; "negyvenedik"; "ötvenedik"; "hatvanadik";
   "hetvenedik"; "nyolcvanadik"; "kilencvenedik"]%string.
Definition capital_ordinals : list str := map lit
  ["Első"; "Második"; "Harmadik"; "Negyedik"; "Ötödik"; "Hatodik"; "Hetedik"; "Nyolcadik"; "Kilencedik"; "Tizedik";
   "Tizenegyedik"; "Tizenkettedik"; "Tizenharmadik"; "Tizennegyedik"; "Tizenötödik"; "Tizenhatodik"; "Tizenhetedik";
   "Tizennyolcadik"; "Tizenkilencedik";
   "ELSŐ"; "MÁSODIK"; "HARMADIK"; "NEGYEDIK"; "ÖTÖDIK"; "HATODIK"; "HETEDIK"; "NYOLCADIK"; "KILENCEDIK"; "TIZEDIK";
   "TIZENEGYEDIK"; "TIZENKETTEDIK"; "TIZENHARMADIK"; "TIZENNEGYEDIK"; "TIZENÖTÖDIK"; "TIZENHATODIK"; "TIZENHETEDIK";
   "TIZENNYOLCADIK"; "TIZENKILENCEDIK"]%string.
Definition months : list str := map lit
  ["január"; "február"; "március"; "április"; "május"; "június"; "július"; "augusztus"; "szeptember"; "október";
   "november"; "december"]%string.

Definition if_some {A} (P : A -> Prop) (o : option A) : Prop := match o with Some x => P x | None => True end.
(** Either both ends of a range or one identifier *)
Definition range_words (word : str -> Prop) (start stop id : option str) : Prop :=
  match start, stop, id with
  | Some s, Some e, None => word s /\ word e
  | None, None, Some i => word i
  | _, _, _ => False
  end.
Definition some_parts {A} (P : A -> Prop) (l : list A) : Prop := l <> [] /\ Forall P l.
Section Words.
  Variable t : str.
  (** A piece of the text; a piece of the text with a property *)
  Definition piece_of (s : str) : Prop := exists pre post, t = pre ++ s ++ post.
  Definition captured (word : str -> Prop) (s : str) : Prop := word s /\ piece_of s.
  (** Between quotation marks, without white space *)
  Definition quoted (s : str) : Prop :=
    exists pre w x post, t = pre ++ lit "„" ++ w ++ s ++ x ++ lit "”" ++ post /\ spaces w /\ spaces x.
  (** The number of a book stands before a colon. *)
  Definition book_word (s : str) : Prop := number_word s /\ exists pre w post, t = pre ++ s ++ w ++ lit ":" ++ post /\ spaces w.
  Definition article_words (p : g_art_part) : Prop :=
    if_some book_word (ga_book p) /\ range_words (captured article_word) (ga_start p) (ga_end p) (ga_id p).
  Definition part_words (word : str -> Prop) (p : g_part) : Prop := range_words (captured word) (gp_start p) (gp_end p) (gp_id p).
  Definition lower_words (par np ap ns als : option (list g_part)) : Prop :=
    if_some (some_parts (part_words paragraph_word)) par /\ if_some (some_parts (part_words num_point_word)) np /\
    if_some (some_parts (part_words letter_word)) ap /\ if_some (some_parts (part_words number_word)) ns /\
    if_some (some_parts (part_words alpha_subpoint_word)) als /\
    ~ (is_some np = true /\ is_some ap = true) /\ ~ (is_some ns = true /\ is_some als = true).
  Definition ref_words (r : g_ref) : Prop :=
    if_some (some_parts article_words) (gr_article r) /\
    lower_words (gr_paragraph r) (gr_num_point r) (gr_alpha_point r) (gr_num_sub r) (gr_alpha_sub r).
  Definition ins_words (r : g_ins) : Prop :=
    Forall (some_parts article_words) (gi_article r) /\
    lower_words (gi_paragraph r) (gi_num_point r) (gi_alpha_point r) (gi_num_sub r) (gi_alpha_sub r).
  Definition act_words (P : str -> Prop) (a : g_act_ref) : Prop :=
    match a with
    | GActId n => captured number_word (gai_year (gn_act n)) /\ captured roman_word (gai_number (gn_act n)) /\ if_some (introduces t) (gn_abbrev n)
    | GAbbrev s _ => P s
    end.
  Definition subtitle_words (p : g_subtitle_part) : Prop :=
    range_words (captured (suffixed_word number_word)) (gsp_start p) (gsp_end p) (gsp_id p).
  Definition struct_words (s : g_any_struct) : Prop :=
    if_some (captured (fun b => In b capital_ordinals)) (gas_book s) /\
    match gas_ref s with
    | GChapter i | GTitle i => captured (suffixed_word roman_word) i
    | GPart i => captured (fun s => In s capital_ordinals) i
    | GSubtitlePart p => subtitle_words p
    | GSubtitleTitle s => piece_of s
    end.
  Definition relative_words (r : g_relative) : Prop := match r with GBefore s | GAfter s => article_words (gs_part s) end.
  Definition date_words (d : g_date) : Prop :=
    captured number_word (gd_year d) /\ captured (fun s => In s months) (gd_month d) /\ captured number_word (gd_day d).
  Definition ordinal_words (o : g_ordinal) : Prop :=
    match o with GWord s => captured (fun s => In s ordinals) s | GNumber s => captured number_word s end.
  Definition ed_date_words (d : g_ed_date) : Prop :=
    match d with
    | GAfterPublication o => if_some ordinal_words o
    | GDate d => date_words d
    | GDayInMonth m d => if_some (captured (fun s => In s ordinals)) m /\ ordinal_words d
    end.
  Definition ed_words (r : g_ed_ref) : Prop :=
    match r with
    | GEdStruct s => struct_words s | GEdSubtitles l => some_parts subtitle_words l | GEdRef r => ref_words r | GEdAttachment => True
    end.
  Definition ta_words (r : g_ta_ref) : Prop :=
    match r with
    | GTaArticleTitle s => article_words (gs_part s)
    | GTaStructural p c => if_some struct_words p /\ match c with GTaStruct s => struct_words s | GTaRelative r => relative_words r end
    | GTaSubtitles l => some_parts subtitle_words l
    | GTaRef r _ => ref_words r
    | GTaAttachment => True
    end.
  Definition simple_words (P : str -> Prop) (s : g_simple) : Prop :=
    match s with
    | GCompound c => if_some (act_words P) (gc_act c) /\ Forall ref_words (gc_refs c) /\ (gc_act c = None -> gc_refs c <> [])
    | GOther => True
    end.
  (** [P] is what is known of abbreviations. *)
  Definition root_words (P : str -> Prop) (r : g_root) : Prop :=
    match r with
    | RBlock b => act_words P (gb_act b) /\ if_some struct_words (gb_parent b) /\ if_some ref_words (gb_amended b) /\
        if_some ins_words (gb_inserted b) /\ ~ (gb_amended b = None /\ gb_inserted b = None)
    | RBlockSubtitle b => act_words P (gbs_act b) /\ if_some struct_words (gbs_parent b) /\ if_some relative_words (gbs_relative b) /\
        if_some (fun s => article_words (gs_part s)) (gws_article (gbs_ref b)) /\
        if_some (captured (suffixed_word number_word)) (gws_id (gbs_ref b)) /\ if_some quoted (gws_title (gbs_ref b))
    | RBlockStruct b => act_words P (gbt_act b) /\ if_some struct_words (gbt_parent b) /\ struct_words (gbt_ref b) /\
        if_some (captured (fun s => In s capital_ordinals)) (gbt_book b)
    | RText x => act_words P (gta_act x) /\ some_parts ta_words (gta_refs x) /\
        some_parts (fun p => quoted (fst p) /\ quoted (snd p)) (gta_parts x)
    | REnforcement e => if_some ref_words (ge_except e) /\ Forall ed_words (ge_refs e) /\ ed_date_words (ge_date e) /\
        if_some date_words (ge_repeal e)
    | RRepeal r => act_words P (gre_act r) /\ Forall ta_words (gre_refs r) /\ Forall quoted (gre_texts r)
    | RList l => some_parts (simple_words P) l
    end.
End Words.

(** Numbers which can be read; the number of a book before a colon is at most 255. *)
Definition short_numbers (t : str) : Prop :=
  (forall s n, piece_of t s -> denotes_dec s n -> (n <= 65535)%N) /\ (forall s n, book_word t s -> denotes_dec s n -> (n <= 255)%N).
Definition readable_event (e : ref_event) : Prop := match e with EvPart _ a => is_ok a = true | _ => True end.
