(** Specification of the structure parser (C28-C32, C47, C49): what it means for a tree of elements to be
    a layout of a list of lines, what its text is and when its identifiers are consecutive.
    None of this refers to the parser. *)
From Coq Require Export Sorted.
From Verif Require Export SpecIdent SpecText ModelStruct.

(** ** Headers *)
(** How the identifier of an element is written at the start of its first line. *)
Definition par_label (s : str) (i : paragraph_id) : Prop :=
  exists d n, i = Some n /\ numeric_spelling d n /\ s = lit "(" ++ d ++ lit ")".
Definition num_label (s : str) (i : numeric) : Prop := exists d, numeric_spelling d i /\ s = d ++ lit ".".
Definition alpha_label (s : str) (i : hic) : Prop := exists d, spelling d i /\ s = d ++ lit ")".
Definition alpha_sub_label (s : str) (i : prefixed) : Prop :=
  exists d, s = d ++ lit ")" /\
    match p_prefix i with
    | None => spelling d (p_chr i)
    | Some a => exists x y, d = x ++ y /\ spelling x a /\ spelling y (p_chr i)
    end.
Definition article_label (s : str) (i : article_id) : Prop :=
  exists b d sp, numeric_spelling d (a_ident i) /\ s = b ++ d ++ lit "." ++ sp ++ lit "§" /\ (sp = [] \/ sp = lit " ") /\
    match a_book i with
    | None => b = []
    | Some k => exists e, denotes_dec e k /\ b = e ++ lit ":"
    end.
(** [l] is a header for [i]: its label, one or more spaces, and then [r], whose glyphs keep their places. *)
Definition heads {I} (label : str -> I -> Prop) (l : line) (i : I) (r : line) : Prop :=
  exists s n g, label s i /\ map g_ch g = s ++ repeat (chr " ") (S n) /\ glyphs l = g ++ glyphs r /\ glyphs r <> [].

Definition balanced (ls : list line) : Prop := depth (text ls) = 0%Z.

(** ** Layout of elements on lines (C31; also the basis of C29) *)
(** The wrap up string of a list of lines *)
Definition wrap_of (w : option str) (ls : list line) : Prop :=
  (w = None /\ ls = []) \/ (w = Some (join ls) /\ ls <> []).
Section Layout.
  Context {I C : Type}.
  Variable label : str -> I -> Prop.
  (** [lay_children i c w given ls]: the children [c] of element [i] with the wrap up [w] are on the
      lines [ls], the last lines [given] of which belong to an enclosing element *)
  Variable lay_children : I -> C -> option str -> list line -> list line -> Prop.
  Definition lay_body (i : I) (b : sae_body C) (given ls : list line) : Prop :=
    match b with
    | BText t => exists own, ls = own ++ given /\ t = join own
    | BChildren intro c w =>
        exists pre mid, ls = pre ++ mid /\ balanced pre /\ intro = join pre /\ lay_children i c w given mid
    end.
  (** An element with its header; empty lines after the header line do not count. *)
  Definition lay_elem (e : sae I C) (given ls : list line) : Prop :=
    exists hl tl r body g1 g2, ls = hl :: tl /\ heads label hl (s_id e) r /\ r :: nonempty tl = body ++ g2 /\
      lay_body (s_id e) (s_body e) g1 body /\ given = g1 ++ g2.
  (** Elements one after the other; quotes are balanced where a new one starts. *)
  Inductive lay_list : list (sae I C) -> list line -> list line -> Prop :=
  | lay_last e given ls : lay_elem e given ls -> lay_list [e] given ls
  | lay_cons e es given seg ls : lay_elem e [] seg -> balanced seg -> lay_list es given ls ->
      lay_list (e :: es) given (seg ++ ls).
  Definition lay_siblings (es : list (sae I C)) (w : option str) (given ls : list line) : Prop :=
    exists wl, wrap_of w wl /\ lay_list es (wl ++ given) ls.
End Layout.
Definition lay_no_children {I} (i : I) (c : Empty_set) (w : option str) (given ls : list line) : Prop := False.
Definition lay_alpha_children (i : hic) (c : alpha_children) (w : option str) (given ls : list line) : Prop :=
  match c with
  | AcAlpha es => lay_siblings alpha_sub_label lay_no_children es w given ls
  | AcNum es => lay_siblings num_label lay_no_children es w given ls
  end.
Definition lay_num_children (i : numeric) (c : num_children) (w : option str) (given ls : list line) : Prop :=
  match c with NcAlpha es => lay_siblings alpha_sub_label lay_no_children es w given ls end.

(** *** Quoted blocks (C49) *)
(** [inner] are the lines [ls] without the first glyph of the first line, which is one of [os], and
    without the last glyph of the last line, which is one of [cs]. *)
Inductive enclosed (os cs : str) : list line -> list line -> Prop :=
| enc_one l m a b : glyphs l = a :: glyphs m ++ [b] -> In (g_ch a) os -> In (g_ch b) cs -> enclosed os cs [l] [m]
| enc_many l m mid l' m' a b : glyphs l = a :: glyphs m -> glyphs l' = glyphs m' ++ [b] ->
    In (g_ch a) os -> In (g_ch b) cs -> enclosed os cs (l :: mid ++ [l']) (m :: mid ++ [m']).
(** Groups of lines with any number of empty lines before, between and after them *)
Definition blank (ls : list line) : Prop := Forall (fun l => l_parts l = []) ls.
Inductive spaced : list (list line) -> list line -> Prop :=
| spaced_nil gap : blank gap -> spaced [] gap
| spaced_cons gap g gs ls : blank gap -> spaced gs ls -> spaced (g :: gs) (gap ++ g ++ ls).
(** The group ends at the first line where the quotes are balanced and the last character is ”. *)
Definition ends_in (cs : str) (l : line) : Prop := exists g b, glyphs l = g ++ [b] /\ In (g_ch b) cs.
Definition whole_quote (ls : list line) : Prop :=
  balanced ls /\ forall a l b, ls = a ++ l :: b -> b <> [] -> ~ (balanced (a ++ [l]) /\ ends_in (lit "”") l).
Definition some_text (s : str) : option str := match s with [] => None | _ => Some s end.
Definition lay_quoted (qs : list quoted_block) (w : option str) (ls : list line) : Prop :=
  exists igs iin bgs wgs win closed wl,
    ls = closed ++ wl /\ spaced (igs ++ bgs ++ wgs) closed /\
    Forall2 (enclosed (lit "([") (lit ")]")) igs iin /\ Forall balanced igs /\
    Forall2 (enclosed (lit "„“") (lit "”")) bgs (map qb_lines qs) /\ Forall whole_quote bgs /\
    Forall2 (enclosed (lit "([") (lit ")]")) wgs win /\ Forall balanced wgs /\
    qs <> [] /\
    (forall k q, nth_error qs k = Some q ->
       qb_intro q = (if (k =? 0)%nat then some_text (join (List.concat iin)) else None) /\
       qb_wrap q = (if (S k =? List.length qs)%nat then some_text (join (List.concat win)) else None)) /\
    w = some_text (join wl).
Definition lay_par_children (i : paragraph_id) (c : par_children) (w : option str) (given ls : list line) : Prop :=
  match c with
  | PcAlpha es => lay_siblings alpha_label lay_alpha_children es w given ls
  | PcNum es => lay_siblings num_label lay_num_children es w given ls
  | PcQuoted qs => given = [] /\ lay_quoted qs w ls
  | PcBlock _ | PcStruct _ => False
  end.

(** ** Consecutive identifiers (C28) *)
(** [succ x y]: [x] comes directly after [y]. The second case is the wrap around of 16 bit numbers. *)
Definition num_succ (x y : numeric) : Prop := numeric_follows x y \/ (x = mkNum 0 None /\ n_num y = 65535%N).
Definition par_succ (x y : paragraph_id) : Prop := exists a b, x = Some a /\ y = Some b /\ num_succ a b.
Definition sub_succ (x y : prefixed) : Prop := p_prefix x = p_prefix y /\ follows (p_chr x) (p_chr y).
Definition article_succ (x y : article_id) : Prop :=
  article_follows x y
  \/ (a_book x = a_book y /\ a_ident x = mkNum 0 None /\ n_num (a_ident y) = 65535%N)
  \/ (a_book x = Some 0%N /\ a_book y = Some 255%N /\ a_ident x = mkNum 1 None).
Definition num_one (i : numeric) : Prop := i = mkNum 1 None.
Definition par_one (i : paragraph_id) : Prop := i = Some (mkNum 1 None).
Definition alpha_a (i : hic) : Prop := i = Latin (chr "a").
Definition sub_a (i : prefixed) : Prop := p_chr i = Latin (chr "a").
Definition article_one (i : article_id) : Prop := a_ident i = mkNum 1 None /\ (a_book i = None \/ a_book i = Some 1%N).
Definition starting {I} (first : I -> Prop) (succ : I -> I -> Prop) (ids : list I) : Prop :=
  chain succ ids /\ match ids with i :: _ => first i | [] => False end.
Definition consecutive {I} (first : I -> Prop) (succ : I -> I -> Prop) (ids : list I) : Prop :=
  (2 <= List.length ids)%nat /\ starting first succ ids.
Definition children_of {I C} (ok : I -> C -> Prop) (e : sae I C) : Prop :=
  match s_body e with BText _ => True | BChildren _ c _ => ok (s_id e) c end.
Definition ordered_alpha_children (i : hic) (c : alpha_children) : Prop :=
  match c with
  | AcAlpha es => consecutive sub_a sub_succ (map s_id es) /\ Forall (fun s => p_prefix (s_id s) = Some i) es
  | AcNum es => consecutive num_one num_succ (map s_id es)
  end.
Definition ordered_num_children (i : numeric) (c : num_children) : Prop :=
  match c with
  | NcAlpha es => consecutive sub_a sub_succ (map s_id es) /\ Forall (fun s => p_prefix (s_id s) = None) es
  end.
Definition ordered_alpha : alpha_point -> Prop := children_of ordered_alpha_children.
Definition ordered_num : num_point -> Prop := children_of ordered_num_children.
(** The parser itself makes no block amendments; that is a later step. *)
Definition ordered_par_children (i : paragraph_id) (c : par_children) : Prop :=
  match c with
  | PcAlpha es => consecutive alpha_a follows (map s_id es) /\ Forall ordered_alpha es
  | PcNum es => consecutive num_one num_succ (map s_id es) /\ Forall ordered_num es
  | PcQuoted qs => qs <> []
  | PcBlock _ | PcStruct _ => False
  end.
Definition ordered_par : paragraph -> Prop := children_of ordered_par_children.
Definition ordered_article (a : article) : Prop :=
  Forall ordered_par (ar_children a) /\
  (map s_id (ar_children a) = [None] \/ consecutive par_one par_succ (map s_id (ar_children a))).
(** Strictly increasing in legal order *)
Definition increasing {I} (before : I -> I -> Prop) (ids : list I) : Prop := StronglySorted before ids /\ NoDup ids.

Definition par_before (x y : paragraph_id) : Prop :=
  match x, y with Some a, Some b => numeric_before a b | None, Some _ => True | _, None => False end.

(** ** The text of a tree (C29) *)
Definition opt_str (w : option str) : str := match w with Some s => s | None => [] end.
Definition body_text {C} (ctext : C -> str -> Prop) (b : sae_body C) (t : str) : Prop :=
  match b with
  | BText s => t = no_spaces s
  | BChildren intro c w => exists m, ctext c m /\ t = no_spaces intro ++ m ++ no_spaces (opt_str w)
  end.
(** Label, then body *)
Definition elem_text {I C} (label : str -> I -> Prop) (ctext : C -> str -> Prop) (e : sae I C) (t : str) : Prop :=
  exists h b, label h (s_id e) /\ body_text ctext (s_body e) b /\ t = no_spaces h ++ b.
Definition list_text {E} (etext : E -> str -> Prop) (es : list E) (t : str) : Prop :=
  exists ts, Forall2 etext es ts /\ t = List.concat ts.
Definition no_text (c : Empty_set) (t : str) : Prop := False.
Definition alpha_children_text (c : alpha_children) (t : str) : Prop :=
  match c with
  | AcAlpha es => list_text (elem_text alpha_sub_label no_text) es t
  | AcNum es => list_text (elem_text num_label no_text) es t
  end.
Definition num_children_text (c : num_children) (t : str) : Prop :=
  match c with NcAlpha es => list_text (elem_text alpha_sub_label no_text) es t end.
(** Texts, each between an opening and a closing character *)
Inductive bracketed (os cs : str) : list str -> str -> Prop :=
| br_nil : bracketed os cs [] []
| br_cons o s c ss t : In o os -> In c cs -> bracketed os cs ss t -> bracketed os cs (s :: ss) (o :: s ++ c :: t).
(** Bracketed intros, quoted blocks, bracketed wrap ups *)
Definition quoted_text (qs : list quoted_block) (t : str) : Prop :=
  exists iin ti tb win tw, t = ti ++ tb ++ tw /\
    bracketed (lit "([") (lit ")]") iin ti /\
    List.concat iin = List.concat (map (fun q => no_spaces (opt_str (qb_intro q))) qs) /\
    bracketed (lit "„“") (lit "”") (map (fun q => no_spaces (text (qb_lines q))) qs) tb /\
    bracketed (lit "([") (lit ")]") win tw /\
    List.concat win = List.concat (map (fun q => no_spaces (opt_str (qb_wrap q))) qs).
Definition par_children_text (c : par_children) (t : str) : Prop :=
  match c with
  | PcAlpha es => list_text (elem_text alpha_label alpha_children_text) es t
  | PcNum es => list_text (elem_text num_label num_children_text) es t
  | PcQuoted qs => quoted_text qs t
  | PcBlock _ | PcStruct _ => False
  end.
(** The only paragraph of an article has no label. *)
Definition par_any_label (s : str) (i : paragraph_id) : Prop := par_label s i \/ (i = None /\ s = []).
Definition title_text (o : option str) : str :=
  match o with Some s => lit "[" ++ no_spaces s ++ lit "]" | None => [] end.
Definition article_body_text (a : article) (t : str) : Prop :=
  exists tp, list_text (elem_text par_any_label par_children_text) (ar_children a) tp /\ t = title_text (ar_title a) ++ tp.

(** ** Acts (C30) *)
Definition lay_article (a : article) (ls : list line) : Prop :=
  exists tls gap body, ls = tls ++ gap ++ body /\ no_spaces (text tls) = title_text (ar_title a) /\
    (ar_title a = None <-> tls = []) /\ blank gap /\ (List.length gap <= 1)%nat /\
    ((exists p, ar_children a = [p] /\ s_id p = None /\ lay_body lay_par_children None (s_body p) [] body) \/
     ((2 <= List.length (ar_children a))%nat /\ lay_list par_label lay_par_children (ar_children a) [] body)).
Definition se_suffix (ty : se_type) (s : str) : Prop :=
  match ty with
  | TBook => s = lit " KÖNYV" | TPart _ => s = lit " RÉSZ" | TTitle => s = lit ". CÍM"
  | TChapter => lower_str s = lit ". fejezet"
  end.
Definition lay_act_child (rf : str -> option Z) (c : act_child) (ls : list line) : Prop :=
  match c with
  | ChStruct e => exists hl tl i suf, ls = hl :: tl /\ content hl = i ++ suf /\ se_suffix (se_ty e) suf /\
      se_parse_identifier rf (se_ty e) i = Ok (se_id e) /\ se_title e = join tl
  | ChSubtitle s => exists hl tl t, ls = hl :: tl /\ l_bold hl = true /\
      st_title s = fold_left (fun s l => append_to l s) tl t /\
      match st_id s with
      | Some i => exists d, numeric_spelling d i /\ content hl = d ++ lit ". " ++ t
      | None => content hl = t
      end
  | ChArticle a => exists hl tl r, ls = hl :: tl /\ heads article_label hl (ar_ident a) r /\ lay_article a (r :: tl)
  end.
(** Children one after the other; quotes are balanced where a new one starts. *)
Inductive lay_act (rf : str -> option Z) : list act_child -> list line -> Prop :=
| lay_act_last c ls : lay_act_child rf c ls -> balanced ls -> lay_act rf [c] ls
| lay_act_cons c cs seg ls : lay_act_child rf c seg -> balanced seg -> lay_act rf cs ls -> lay_act rf (c :: cs) (seg ++ ls).
Definition article_ids (cs : list act_child) : list article_id :=
  flat_map (fun c => match c with ChArticle a => [ar_ident a] | _ => [] end) cs.

(** ** Panics (C32) *)
Definition not_ending_in_space (l : line) : Prop := forall s, content l <> s ++ lit " ".
(** A line that never starts a structural element, a subtitle or an article *)
Definition plain_line (rf : str -> option Z) (up : char -> bool) (ctx : pctx) (l : line) : Prop :=
  forall f prev_empty, act_header_line rf up ctx f prev_empty l = Ok None.
(** What ends in a bracket, as the title of an article may, is followed by some text. *)
Definition brackets_followed (rf : str -> option Z) (up : char -> bool) (ctx : pctx) (ls : list line) : Prop :=
  forall a l b s, ls = a ++ l :: b -> content l = s ++ lit "]" ->
    exists l' b', b = l' :: b' /\ l_parts l' <> [] /\ plain_line rf up ctx l'.

(** ** Openings (C31) *)
(** The lines are divided among the elements. Each element starts with its header line, and up to there
    every opened quote has been closed. *)
Definition opened_outside_quotes {E} (header : E -> line -> Prop) (es : list E) (ls : list line) : Prop :=
  exists segs, ls = List.concat segs /\
    Forall2 (fun e seg => exists hl tl, seg = hl :: tl /\ header e hl) es segs /\
    forall before seg after, segs = before ++ seg :: after -> balanced (List.concat before).
(** The header line of a child of an act *)
Definition act_header (rf : str -> option Z) (c : act_child) (hl : line) : Prop :=
  match c with
  | ChStruct e => exists i suf, content hl = i ++ suf /\ se_suffix (se_ty e) suf /\
      se_parse_identifier rf (se_ty e) i = Ok (se_id e)
  | ChSubtitle s => l_bold hl = true /\
      match st_id s with Some i => exists d t, numeric_spelling d i /\ content hl = d ++ lit ". " ++ t | None => True end
  | ChArticle a => exists r, heads article_label hl (ar_ident a) r
  end.

(** ** The text of an act (C30) *)
Definition act_child_text (rf : str -> option Z) (c : act_child) (t : str) : Prop :=
  match c with
  | ChStruct e => exists i suf, se_suffix (se_ty e) suf /\ se_parse_identifier rf (se_ty e) i = Ok (se_id e) /\
      t = no_spaces (i ++ suf) ++ no_spaces (se_title e)
  | ChSubtitle s =>
      match st_id s with
      | Some i => exists d, numeric_spelling d i /\ t = no_spaces (d ++ lit ".") ++ no_spaces (st_title s)
      | None => t = no_spaces (st_title s)
      end
  | ChArticle a => exists h b, article_label h (ar_ident a) /\ article_body_text a b /\ t = no_spaces h ++ b
  end.
(** Identifiers of converted amendments (C28) *)
Definition ba_ordered (pos : reference) (c : ba_children_of paragraph) : Prop :=
  match c, get_last_part pos with
  | BcParagraph l, PartParagraph p => starting (eq (Some (r_start p))) par_succ (map s_id l) /\ Forall ordered_par l
  | BcNum l, PartPoint (PtNum p) => starting (eq (r_start p)) num_succ (map s_id l) /\ Forall ordered_num l
  | BcAlpha l, PartPoint (PtAlpha p) => starting (eq (r_start p)) follows (map s_id l) /\ Forall ordered_alpha l
  | BcNumSub l, PartSubpoint (SpNum p) => starting (eq (r_start p)) num_succ (map s_id l)
  | BcAlphaSub l, PartSubpoint (SpAlpha p) => starting (eq (r_start p)) sub_succ (map s_id l)
  | _, _ => False
  end.
