(** Specification of written structure (C61-C64): the exact form of header lines, and what it means for
    lines to be a written form of elements, so that reading them gives the elements back.
    None of this refers to the parser. *)
From Verif Require Export SpecConvert.

(** ** Forms of labels (C61) *)
Definition digits (s : str) : Prop := s <> [] /\ Forall (fun c => 48 <= c <= 57)%N s.
Definition small (c : char) : Prop := (97 <= c <= 122)%N.
Definition capital (c : char) : Prop := (65 <= c <= 90)%N.
(** "(12)" or "(12a)" *)
Definition par_form (s : str) (i : paragraph_id) : Prop :=
  exists ds os n, s = lit "(" ++ ds ++ os ++ lit ")" /\ digits ds /\ (os = [] \/ exists c, small c /\ os = [c]) /\
    numeric_spelling (ds ++ os) n /\ i = Some n.
(** "12.", "12a." or "12/a." *)
Definition num_form (s : str) (i : numeric) : Prop :=
  exists ds os, s = ds ++ os ++ lit "." /\ digits ds /\
    (os = [] \/ exists c, small c /\ (os = [c] \/ os = lit "/" ++ [c])) /\ numeric_spelling (ds ++ os) i.
(** "a)" or "cs)" *)
Definition alpha_form (s : str) (i : hic) : Prop := exists d, small_letters d i /\ s = d ++ lit ")".
(** "a)" or, below a point b, "ba)" *)
Definition sub_form (s : str) (i : prefixed) : Prop :=
  (exists c, small c /\ s = [c] ++ lit ")" /\ i = mkPre None (Latin c)) \/
  (exists b c, small b /\ small c /\ s = [b; c] ++ lit ")" /\ i = mkPre (Some (Latin b)) (Latin c)).
(** "3. §" or "3.§", "3/A. §", "2:3. §" *)
Definition article_form (s : str) (i : article_id) : Prop :=
  exists bs ds os sp, s = bs ++ ds ++ os ++ lit "." ++ sp ++ lit "§" /\ (sp = [] \/ sp = lit " ") /\
    digits ds /\ (os = [] \/ exists c, capital c /\ os = lit "/" ++ [c]) /\ numeric_spelling (ds ++ os) (a_ident i) /\
    match a_book i with
    | None => bs = []
    | Some k => exists e, denotes_dec e k /\ (k <= 255)%N /\ bs = e ++ lit ":"
    end.
(** A header line: a label, one or more spaces, and the rest of the line, which must not begin with one of
    certain words ("a) pont" is a reference, not a header). [r] is the rest, in its place. *)
Definition header_of {I} (form : str -> I -> Prop) (forbidden : list str) (l : line) (i : I) (r : line) : Prop :=
  exists s n rest, form s i /\ content l = s ++ repeat (chr " ") (S n) ++ rest /\
    rest <> [] /\ (forall t, rest <> lit " " ++ t) /\ ~ In 10%N rest /\
    (forall b t, In b forbidden -> rest <> b ++ t) /\
    r = slice l (Z.of_nat (List.length s + S n)) None.
(** A label and spaces and nothing else *)
Definition label_only {I} (form : str -> I -> Prop) (l : line) : Prop :=
  exists s n i, form s i /\ content l = s ++ repeat (chr " ") (S n).
Definition point_words : list str := map lit ["pont"; "alpont"]%string.
Definition paragraph_words : list str := [lit "bekezdés"].
Definition sub_header_of (p : option hic) (l : line) (i : prefixed) (r : line) : Prop :=
  header_of sub_form point_words l i r /\ p_prefix i = p.

(** A reader of headers that reads exactly the header lines. It panics on a label with nothing after it. *)
Definition exact_header {I} (header : line -> outcome (option (I * line))) (hd : line -> I -> line -> Prop) (alone : line -> Prop) : Prop :=
  forall l, (forall i r, header l = Ok (Some (i, r)) <-> hd l i r) /\ (header l = Panic <-> alone l) /\ header l <> Err.

(** ** Written lists of elements (C62) *)
(** Quotes: no more are closed than were opened, and in the end all are closed. *)
Definition quotes_fine (ls : list line) : Prop :=
  balanced ls /\ forall a b, ls = a ++ b -> (0 <= depth (text a))%Z.
(** [P a l] for every line [l] that starts outside quotes; [a] are the lines before it. *)
Definition outside (P : list line -> line -> Prop) (ls : list line) : Prop :=
  forall a l b, ls = a ++ l :: b -> balanced a -> P a l.
(** The last line with text *)
Definition last_line (ls : list line) : option line := last (map Some (nonempty ls)) None.
(** At most a point to the right of [x] *)
Definition at_margin (x : Z) (l : line) : Prop := (indent l < x + unit_pt)%Z.
Definition wrap_text (ls : list line) : option str := match ls with [] => None | _ => Some (join ls) end.
(** Where indentation is of no help (in quoted lines), texts end with the first line that is not justified:
    [own] is such a text, [given] are the lines after it. *)
Definition justified_text (own given : list line) : Prop :=
  (exists a l, own = a ++ [l] /\ Forall (fun x => l_just x = true) a /\ l_just l = false) \/
  (Forall (fun x => l_just x = true) own /\ given = []).
Section Written.
  Context {I C : Type}.
  Variable ctx : pctx.
  (** The header lines and the order of the elements *)
  Variable hd : line -> I -> line -> Prop.
  Variable succ : I -> I -> Prop.
  (** [opens i prev l]: in an element [i] the line [l] after the text line [prev] looks like the first line
      of its children. *)
  Variable opens : I -> option line -> line -> Prop.
  (** [wch i prev c wl given ls]: [ls] is a written form of the children [c] of [i] after the text line
      [prev], with the lines [wl] as their wrap up and the lines [given] after that. *)
  Variable wch : I -> option line -> C -> list line -> list line -> list line -> Prop.
  (** Nothing looks like the first line of children. *)
  Definition quiet (i : I) (ls : list line) : Prop := outside (fun a l => ~ opens i (last_line a) l) ls.
  (** The lines [ls] of an element after its label: a text, or an intro and then children. Only the last
      element of a list may be [giving]: the lines [given] do not belong to it. *)
  Definition w_body (giving : bool) (i : I) (b : sae_body C) (given ls : list line) : Prop :=
    quotes_fine ls /\
    match b with
    | BText t => exists own, ls = own ++ given /\ t = join own /\ quiet i ls /\
        (if giving then justified_text own given else given = [])
    | BChildren intro c w => exists pre mid wl g, ls = pre ++ mid /\ balanced pre /\ intro = join pre /\ quiet i pre /\
        wch i (last_line pre) c wl g mid /\ (if giving then g = given /\ w = wrap_text wl else given = [] /\ w = wrap_text (wl ++ g))
    end.
  (** No line after the header line [hl] looks like the header of the element after [i]. *)
  Definition goes_on (margin : Z) (i : I) (hl : line) (tl : list line) : Prop :=
    forall a l b, tl = a ++ l :: b -> balanced (hl :: a) -> at_margin margin l -> forall j r, hd l j r -> ~ succ j i.
  Definition fresh (e : sae I C) : Prop := s_si e = si_default /\ s_change e = None.
  (** Whether there may be a wrap up after the list *)
  Variable wrapped : bool.
  (** Elements one after the other. Empty lines do not count. Before the wrap up [wl] of a list the lines of
      its last element are to the right of its header. *)
  Inductive w_list (margin : Z) : list (sae I C) -> list line -> list line -> list line -> Prop :=
  | w_last e wl given hl tl r : hd hl (s_id e) r -> quotes_fine (hl :: tl) -> goes_on margin (s_id e) hl tl -> fresh e ->
      match wrapped, ctx with
      | false, _ => w_body false (s_id e) (s_body e) [] (r :: nonempty tl) /\ wl = [] /\ given = []
      | true, FullAct => exists own, r :: nonempty tl = own ++ wl /\ w_body false (s_id e) (s_body e) [] own /\
          Forall (fun l => ~ at_margin margin l) own /\ match wl with l :: _ => at_margin margin l | [] => True end /\ given = []
      | true, BlockAm => w_body true (s_id e) (s_body e) (wl ++ given) (r :: nonempty tl) /\ justified_text wl given
      end -> w_list margin [e] wl given (hl :: tl)
  | w_cons e e' es wl given hl tl r hl' ls : hd hl (s_id e) r -> quotes_fine (hl :: tl) -> goes_on margin (s_id e) hl tl ->
      fresh e -> w_body false (s_id e) (s_body e) [] (r :: nonempty tl) ->
      at_margin margin hl' -> succ (s_id e') (s_id e) -> w_list margin (e' :: es) wl given (hl' :: ls) ->
      w_list margin (e :: e' :: es) wl given ((hl :: tl) ++ hl' :: ls).
  (** A list of elements; the first of them is not more to the right than the others. *)
  Definition w_siblings (first : I -> Prop) (es : list (sae I C)) (wl given ls : list line) : Prop :=
    exists e es' hl tl, es = e :: es' /\ ls = hl :: tl /\ first (s_id e) /\ w_list (indent hl) es wl given ls.
End Written.
(** A list of children has at least two elements. *)
Definition w_many {I C} ctx hd succ opens wch wrapped first (es : list (sae I C)) (wl given ls : list line) : Prop :=
  w_siblings ctx hd succ opens wch wrapped first es wl given ls /\ (2 <= List.length es)%nat.
Definition opens_none {I} (i : I) (prev : option line) (l : line) : Prop := False.
Definition w_no_children {I} (i : I) (prev : option line) (c : Empty_set) (wl given ls : list line) : Prop := False.
(** Sub-points, the children of points, points *)
Definition num_hd : line -> numeric -> line -> Prop := header_of num_form point_words.
Definition alpha_hd : line -> hic -> line -> Prop := header_of alpha_form point_words.
Definition par_hd : line -> paragraph_id -> line -> Prop := header_of par_form paragraph_words.
Definition w_num_subpoints (ctx : pctx) : list num_subpoint -> list line -> list line -> list line -> Prop :=
  w_many ctx num_hd num_succ opens_none w_no_children true num_one.
Definition w_alpha_subpoints (ctx : pctx) (p : option hic) : list alpha_subpoint -> list line -> list line -> list line -> Prop :=
  w_many ctx (sub_header_of p) sub_succ opens_none w_no_children true sub_a.
Definition opens_num (i : numeric) (prev : option line) (l : line) : Prop := exists j r, sub_header_of None l j r /\ sub_a j.
Definition opens_alpha (i : hic) (prev : option line) (l : line) : Prop :=
  (exists j r, num_hd l j r /\ num_one j) \/ (exists j r, sub_header_of (Some i) l j r /\ sub_a j).
Definition w_num_children (ctx : pctx) (i : numeric) (prev : option line) (c : num_children) : list line -> list line -> list line -> Prop :=
  match c with NcAlpha es => w_alpha_subpoints ctx None es end.
Definition w_alpha_children (ctx : pctx) (i : hic) (prev : option line) (c : alpha_children) : list line -> list line -> list line -> Prop :=
  match c with AcNum es => w_num_subpoints ctx es | AcAlpha es => w_alpha_subpoints ctx (Some i) es end.
Definition w_num_points (ctx : pctx) : list num_point -> list line -> list line -> list line -> Prop :=
  w_many ctx num_hd num_succ opens_num (w_num_children ctx) true num_one.
Definition w_alpha_points (ctx : pctx) : list alpha_point -> list line -> list line -> list line -> Prop :=
  w_many ctx alpha_hd follows opens_alpha (w_alpha_children ctx) true alpha_a.

(** ** Written paragraphs *)
Definition begins_in (os : str) (l : line) : Prop := exists c t, content l = c :: t /\ In c os.
Definition ends_with_in (cs : str) (l : line) : Prop := exists c t, content l = t ++ [c] /\ In c cs.
(** Lines between an opening and a closing character: the lines [inner] are the lines [ls] without them.
    The closing character is at the end of the first line where all quotes are closed and which ends in
    such a character. *)
Definition without_first (l : line) : line := slice l 1 None.
Definition without_last (l : line) : line := slice l 0 (Some (-1)%Z).
Inductive between (os cs : str) : list line -> list line -> Prop :=
| btw_one l : begins_in os l -> ends_with_in cs l -> (2 <= List.length (content l))%nat ->
    between os cs [l] [without_last (without_first l)]
| btw_many l mid l' : begins_in os l -> ends_with_in cs l' ->
    between os cs (l :: mid ++ [l']) (without_first l :: mid ++ [without_last l']).
Definition closed_once (cs : str) (ls : list line) : Prop :=
  quotes_fine ls /\ forall a l b, ls = a ++ l :: b -> b <> [] -> ~ (balanced (a ++ [l]) /\ ends_with_in cs l).
Definition group (os cs : str) (ls inner : list line) : Prop := between os cs ls inner /\ closed_once cs ls.
(** Groups of lines, with any number of empty lines before each *)
Inductive spread : list (list line) -> list line -> Prop :=
| spread_nil : spread [] []
| spread_cons gap g gs ls : blank gap -> spread gs ls -> spread (g :: gs) (gap ++ g ++ ls).
Fixpoint quoted_blocks (intro : option str) (bs : list (list line)) (w : option str) : list quoted_block :=
  match bs with
  | [] => []
  | [b] => [mkQb intro b w]
  | b :: bs' => mkQb intro b None :: quoted_blocks None bs' w
  end.
Definition colon_before (prev : option line) : Prop := exists l t, prev = Some l /\ content l = t ++ lit ":".
(** Bracketed intros (only after a colon), quoted blocks, bracketed wrap ups, and the wrap up of the paragraph *)
Definition w_quoted (prev : option line) (qs : list quoted_block) (wl ls : list line) : Prop :=
  exists igs iin il bgs bin bl wgs win wrl gap,
    ls = il ++ bl ++ wrl ++ gap ++ wl /\ spread igs il /\ spread bgs bl /\ spread wgs wrl /\ blank gap /\
    Forall2 (group (lit "([") (lit ")]")) igs iin /\ Forall2 (group (lit "„“") (lit "”")) bgs bin /\
    Forall2 (group (lit "([") (lit ")]")) wgs win /\
    match ls with l :: _ => l_parts l <> [] | [] => False end /\ bgs <> [] /\
    (igs <> [] -> colon_before prev) /\
    match wl with
    | l :: _ => l_parts l <> [] /\ ~ begins_in (lit "([") l /\ (wgs = [] -> ~ begins_in (lit "„“") l)
    | [] => True
    end /\ quotes_fine wl /\
    qs = quoted_blocks (some_text (join (List.concat iin))) bin (some_text (join (List.concat win))).
Definition w_par_children (ctx : pctx) (i : paragraph_id) (prev : option line) (c : par_children) (wl given ls : list line) : Prop :=
  match c with
  | PcAlpha es => w_alpha_points ctx es wl given ls
  | PcNum es => w_num_points ctx es wl given ls
  | PcQuoted qs => w_quoted prev qs wl ls /\ given = []
  | PcBlock _ | PcStruct _ => False
  end.
Definition opens_par (i : paragraph_id) (prev : option line) (l : line) : Prop :=
  begins_in (lit "„“") l \/ (colon_before prev /\ begins_in (lit "([") l) \/
  (exists j r, num_hd l j r /\ num_one j) \/ (exists j r, alpha_hd l j r /\ alpha_a j).
Definition w_paragraphs (ctx : pctx) (es : list paragraph) (ls : list line) : Prop :=
  w_many ctx par_hd par_succ opens_par (w_par_children ctx) false par_one es [] [] ls.

(** ** Written articles *)
(** "[Title]", possibly on several lines; the first line that ends in "]" is the last *)
Definition w_title (t : str) (ls : list line) : Prop :=
  exists l tl, ls = l :: tl /\ begins_in (lit "[") l /\ join (without_first l :: tl) = t ++ lit "]" /\
    forall a b x, tl = a ++ b -> b <> [] -> join (without_first l :: a) <> x ++ lit "]".
(** The title, at most one empty line, then numbered paragraphs or one paragraph without a number *)
Definition w_article (ctx : pctx) (a : article) (ls : list line) : Prop :=
  exists tls gap body, ls = tls ++ gap ++ body /\
    match ar_title a with
    | Some t => w_title t tls
    | None => tls = [] /\ match ls with l :: _ => ~ begins_in (lit "[") l | [] => False end
    end /\
    blank gap /\ (List.length gap <= 1)%nat /\ body <> [] /\
    (gap = [] -> match body with l :: _ => l_parts l <> [] | [] => False end) /\ ar_change a = None /\
    (w_paragraphs ctx (ar_children a) body \/
     exists p, ar_children a = [p] /\ s_id p = None /\ fresh p /\
       (forall l tl i r, body = l :: tl -> par_hd l i r -> ~ par_one i) /\
       w_body opens_par (w_par_children ctx) false None (s_body p) [] body).

(** ** Written acts (C63) *)
(** A line that opens a structural element: "FIRST BOOK", "I. CHAPTER". "General part" and the like are
    parts only if the words before do not spell a number. *)
Definition se_line (rf : str -> option Z) (l : line) (ty : se_type) (i : numeric) : Prop :=
  exists s suf, content l = s ++ suf /\ se_suffix ty suf /\ ~ In 10%N s /\ se_parse_identifier rf ty s = Ok i.
Definition struct_line (rf : str -> option Z) (l : line) (ty : se_type) (i : numeric) : Prop :=
  se_line rf l ty i /\ (ty = TPart true -> forall j, ~ se_line rf l (TPart false) j).
(** "12. Subtitle" or "12/A. Subtitle" *)
Definition numbered (l : line) (d t : str) : Prop :=
  exists ds os c s, d = ds ++ os /\ digits ds /\ (os = [] \/ exists u, capital u /\ os = lit "/" ++ [u]) /\
    t = c :: s /\ content l = d ++ lit ". " ++ t /\ c <> chr "é" /\ c <> chr "§" /\ ~ In 10%N s.
(** Subtitles are bold. Without a number they begin with a capital letter, and in an act they come after an
    empty line. *)
Definition subtitle_line (up : char -> bool) (ctx : pctx) (after_empty : bool) (l : line) (i : option numeric) (t : str) : Prop :=
  l_bold l = true /\
  match i with
  | Some n => exists d, numbered l d t /\ numeric_spelling d n
  | None => (forall d s, ~ numbered l d s) /\ (after_empty = true \/ ctx = BlockAm) /\ t = content l /\
      exists c s, content l = c :: s /\ up c = true
  end.
(** Articles come one after the other; [last] are the identifier and the indentation of the last one. *)
Definition article_line (ctx : pctx) (last : option (article_id * Z)) (l : line) (i : article_id) (r : line) : Prop :=
  header_of article_form [] l i r /\
  match last with
  | Some (j, x) => at_margin x l /\ article_succ i j
  | None => ctx = FullAct -> article_one i
  end.
Inductive opening := OStruct (ty : se_type) (i : numeric) | OSubtitle (i : option numeric) (t : str) | OArticle (i : article_id) (r : line).
(** What a line opens; structural elements come before subtitles, subtitles before articles *)
Definition line_opens (rf : str -> option Z) (up : char -> bool) (ctx : pctx) (last : option (article_id * Z)) (after_empty : bool)
    (l : line) (o : opening) : Prop :=
  match o with
  | OStruct ty i => struct_line rf l ty i
  | OSubtitle i t => subtitle_line up ctx after_empty l i t /\ forall ty j, ~ struct_line rf l ty j
  | OArticle i r => article_line ctx last l i r /\ (forall ty j, ~ struct_line rf l ty j) /\
      forall j t, ~ subtitle_line up ctx after_empty l j t
  end.
(** After the lines [a] comes a line after an empty one; [e] if there are none. *)
Definition ends_empty (e : bool) (a : list line) : bool := last (map l_empty a) e.
(** The lines [tl] after the lines [a] open nothing. *)
Definition opens_nothing rf up ctx last (e : bool) (a tl : list line) : Prop :=
  forall x l y, tl = x ++ l :: y -> balanced (a ++ x) -> forall o, ~ line_opens rf up ctx last (ends_empty e (a ++ x)) l o.
Definition w_act_child (ctx : pctx) (o : opening) (c : act_child) (tl : list line) : Prop :=
  match o, c with
  | OStruct ty i, ChStruct e => ty = se_ty e /\ i = se_id e /\ se_title e = join tl /\ se_change e = None
  | OSubtitle i t, ChSubtitle s => i = st_id s /\ st_title s = fold_left (fun s l => append_to l s) tl t /\
      (utf8_len (st_title s) <= 1500)%N /\ st_change s = None
  | OArticle i r, ChArticle a => i = ar_ident a /\ w_article ctx a (r :: tl)
  | _, _ => False
  end.
Definition next_last (last : option (article_id * Z)) (o : opening) (hl : line) : option (article_id * Z) :=
  match o with OArticle i _ => Some (i, indent hl) | _ => last end.
Inductive w_children rf up ctx : option (article_id * Z) -> bool -> list act_child -> list line -> Prop :=
| wc_nil last e : w_children rf up ctx last e [] []
| wc_cons last e o c cs hl tl ls : line_opens rf up ctx last e hl o -> quotes_fine (hl :: tl) ->
    opens_nothing rf up ctx (next_last last o hl) e [hl] tl -> w_act_child ctx o c tl ->
    w_children rf up ctx (next_last last o hl) (ends_empty e (hl :: tl)) cs ls ->
    w_children rf up ctx last e (c :: cs) ((hl :: tl) ++ ls).
(** Lines that open nothing, the preamble, and then the children *)
Definition w_act rf up ctx (preamble : str) (cs : list act_child) (ls : list line) : Prop :=
  exists pre rest, ls = pre ++ rest /\ quotes_fine pre /\ opens_nothing rf up ctx None true [] pre /\ preamble = join pre /\
    (ctx = BlockAm -> preamble = []) /\ cs <> [] /\ w_children rf up ctx None (ends_empty true pre) cs rest.

(** ** Written amendments (C64) *)
(** Elements from the one the amendment names on; one is enough *)
Definition w_from {I C} (hd : line -> I -> line -> Prop) succ opens (wch : I -> option line -> C -> list line -> list line -> list line -> Prop)
    (first : I) (es : list (sae I C)) (ls : list line) : Prop :=
  w_siblings BlockAm hd succ opens wch false (eq first) es [] [] ls.
(** In front of a paragraph there may be the header of its article. *)
Definition after_article_header (a : article_id) (ls ls' : list line) : Prop :=
  let h := article_show a ++ lit ". § " in
  (exists l tl t, ls = l :: tl /\ content l = h ++ t /\ t <> [] /\ ls' = slice l (Z.of_nat (List.length h)) None :: tl) \/
  (ls' = ls /\ forall l tl t, ls = l :: tl -> content l <> h ++ t).
Definition w_amended (pos : reference) (c : ba_children_of paragraph) (ls : list line) : Prop :=
  match get_last_part pos, c with
  | PartParagraph p, BcParagraph es => exists a ls', f_article pos = Some a /\ after_article_header (r_start a) ls ls' /\
      w_from par_hd par_succ opens_par (w_par_children BlockAm) (Some (r_start p)) es ls'
  | PartPoint (PtNum p), BcNum es => w_from num_hd num_succ opens_num (w_num_children BlockAm) (r_start p) es ls
  | PartPoint (PtAlpha p), BcAlpha es => w_from alpha_hd follows opens_alpha (w_alpha_children BlockAm) (r_start p) es ls
  | PartSubpoint (SpNum p), BcNumSub es => w_from num_hd num_succ opens_none w_no_children (r_start p) es ls
  | PartSubpoint (SpAlpha p), BcAlphaSub es =>
      w_from (sub_header_of (p_prefix (r_start p))) sub_succ opens_none w_no_children (r_start p) es ls
  | _, _ => False
  end.
(** Articles one after the other *)
Inductive w_articles : article_id -> line -> line -> list act_child -> list line -> Prop :=
| wa_last a hl r tl : w_article BlockAm a (r :: tl) ->
    (forall x l y i r', tl = x ++ l :: y -> ~ article_line BlockAm (Some (ar_ident a, indent hl)) l i r') ->
    w_articles (ar_ident a) hl r [ChArticle a] tl
| wa_cons a hl r tl j hl' r' cs ls : w_article BlockAm a (r :: tl) ->
    (forall x l y i r', tl = x ++ l :: y -> ~ article_line BlockAm (Some (ar_ident a, indent hl)) l i r') ->
    article_line BlockAm (Some (ar_ident a, indent hl)) hl' j r' -> w_articles j hl' r' cs ls ->
    w_articles (ar_ident a) hl r (ChArticle a :: cs) (tl ++ hl' :: ls).
(** A title with or without the line that names the element *)
Definition w_title_of (rf : str -> option Z) (ty : se_type) (i : numeric) (c : act_child) (ls : list line) : Prop :=
  exists e, c = ChStruct e /\ se_ty e = ty /\ se_change e = None /\
    ((exists hl tl, ls = hl :: tl /\ se_line rf hl ty (se_id e) /\ se_title e = join tl) \/
     (se_id e = i /\ se_title e = join ls /\ match ls with l :: _ => forall j, ~ se_line rf l ty j | [] => False end)).
Definition w_structure (rf : str -> option Z) (up : char -> bool) (pos : struct_ref) (cs : list act_child) (ls : list line) : Prop :=
  match sr_elem pos with
  | SeArticle x => exists hl tl r, ls = hl :: tl /\ header_of article_form [] hl (r_start x) r /\ w_articles (r_start x) hl r cs tl
  | e =>
      if sr_title_only pos then
        exists c, cs = [c] /\
        match e with
        | SePart i => w_title_of rf (TPart false) i c ls
        | SeTitle i => w_title_of rf TTitle i c ls
        | SeChapter i => w_title_of rf TChapter i c ls
        | SeSubtitleId _ | SeSubtitleTitle _ | SeSubtitleAfterArticle _ | SeSubtitleBeforeArticle _ | SeSubtitleBeforeArticleInclusive _ =>
            exists s hl tl t, c = ChSubtitle s /\ ls = hl :: tl /\ subtitle_line up BlockAm true hl (st_id s) t /\
              st_title s = fold_left (fun s l => append_to l s) tl t /\ st_change s = None
        | _ => False
        end
      else exists preamble, w_act rf up BlockAm preamble cs ls
  end.
(** The block becomes the amendment that it is a written form of; its intro and wrap up are kept. *)
Definition becomes (rf : str -> option Z) (up : char -> bool) (p p' : paragraph) : Prop :=
  exists i q w c, s_body p = BChildren i (PcQuoted [q]) w /\ p' = mkSae (s_id p) (BChildren i c w) (s_si p) (s_change p) /\
    Forall not_ending_in_space (qb_lines q) /\
    match si_phrase (s_si p) with
    | Some (PhBlock ba) => exists x, c = PcBlock (mkBlock (qb_intro q) x (qb_wrap q)) /\ w_amended (ba_position ba) x (qb_lines q)
    | Some (PhStructural sba) =>
        exists x, c = PcStruct (mkSBlock (qb_intro q) x (qb_wrap q)) /\ w_structure rf up (sba_position sba) x (qb_lines q)
    | _ => False
    end.
