(** Specification for converting quoted blocks into amendments (C35). *)
From Verif Require Export SpecStruct.

(** ** What is converted *)
Definition amending (p : paragraph) : Prop :=
  match si_phrase (s_si p) with Some (PhBlock _) | Some (PhStructural _) => True | _ => False end.
Definition one_block (p : paragraph) (q : quoted_block) : Prop :=
  exists i w, s_body p = BChildren i (PcQuoted [q]) w.
Definition candidate (p : paragraph) : Prop := amending p /\ exists q, one_block p q.

(** ** Text of the converted elements *)
Definition ba_text (c : ba_children_of paragraph) (t : str) : Prop :=
  match c with
  | BcParagraph l => list_text (elem_text par_label par_children_text) l t
  | BcAlpha l => list_text (elem_text alpha_label alpha_children_text) l t
  | BcNum l => list_text (elem_text num_label num_children_text) l t
  | BcAlphaSub l => list_text (elem_text alpha_sub_label no_text) l t
  | BcNumSub l => list_text (elem_text num_label no_text) l t
  end.
(** Elements from the one the phrase names on, with all the text of the block; in front of a paragraph the
    header of its article may be left out. *)
Definition holds_block (pos : reference) (ls : list line) (c : ba_children_of paragraph) : Prop :=
  ba_ordered pos c /\
  exists h t, ba_text c t /\ no_spaces (text ls) = no_spaces h ++ t /\
    (h = [] \/ exists p a, get_last_part pos = PartParagraph p /\ f_article pos = Some a /\ h = article_show (r_start a) ++ lit ". §").
(** An amended title may come without its header; then the phrase says which one it is. *)
Definition bare_title (pos : struct_ref) (c : act_child) (t : str) : Prop :=
  exists e, c = ChStruct e /\ t = no_spaces (se_title e) /\
    match se_ty e with
    | TPart false => sr_elem pos = SePart (se_id e)
    | TTitle => sr_elem pos = SeTitle (se_id e)
    | TChapter => sr_elem pos = SeChapter (se_id e)
    | _ => False
    end.
(** Articles from the one the phrase names on, or a title, or any structural elements with articles *)
Definition holds_structure (rf : str -> option Z) (pos : struct_ref) (ls : list line) (cs : list act_child) : Prop :=
  (exists ts, Forall2 (fun c t => act_child_text rf c t \/ (sr_title_only pos = true /\ bare_title pos c t)) cs ts /\
     no_spaces (text ls) = List.concat ts) /\
  chain article_succ (article_ids cs) /\
  (forall x, In (ChArticle x) cs -> ordered_article x) /\
  match sr_elem pos with
  | SeArticle r => List.length (article_ids cs) = List.length cs /\ hd_error (article_ids cs) = Some (r_start r)
  | _ => sr_title_only pos = true -> exists c, cs = [c] /\ article_ids cs = []
  end.
(** The block with its intro and wrap up becomes the amendment with the same ones; all else stays. *)
Definition converted (rf : str -> option Z) (p p' : paragraph) : Prop :=
  exists i q w c, s_body p = BChildren i (PcQuoted [q]) w /\ p' = mkSae (s_id p) (BChildren i c w) (s_si p) (s_change p) /\
    match si_phrase (s_si p) with
    | Some (PhBlock ba) => exists x, c = PcBlock (mkBlock (qb_intro q) x (qb_wrap q)) /\ holds_block (ba_position ba) (qb_lines q) x
    | Some (PhStructural sba) =>
        exists x, c = PcStruct (mkSBlock (qb_intro q) x (qb_wrap q)) /\ holds_structure rf (sba_position sba) (qb_lines q) x
    | _ => False
    end.
Definition treated (rf : str -> option Z) (p p' : paragraph) : Prop :=
  (candidate p /\ converted rf p p') \/ (~ candidate p /\ p' = p).
(** What happens to a paragraph that cannot be converted: the intro of its block is gone. *)
Definition intro_lost (p p' : paragraph) : Prop :=
  exists i q w, s_body p = BChildren i (PcQuoted [q]) w /\
    p' = mkSae (s_id p) (BChildren i (PcQuoted [mkQb None (qb_lines q) (qb_wrap q)]) w) (s_si p) (s_change p).

(** ** Acts that differ in their paragraphs only *)
Definition same_article (R : paragraph -> paragraph -> Prop) (x y : article) : Prop :=
  ar_ident y = ar_ident x /\ ar_title y = ar_title x /\ ar_change y = ar_change x /\ Forall2 R (ar_children x) (ar_children y).
Definition same_child (R : paragraph -> paragraph -> Prop) (x y : act_child) : Prop :=
  match x, y with ChArticle x, ChArticle y => same_article R x y | _, _ => x = y end.
Definition same_act_but (R : paragraph -> paragraph -> Prop) (a b : act) : Prop :=
  ac_id b = ac_id a /\ ac_subject b = ac_subject a /\ ac_preamble b = ac_preamble a /\ ac_date b = ac_date a /\
  ac_abbrevs b = ac_abbrevs a /\ Forall2 (same_child R) (ac_children a) (ac_children b).
Definition act_pars (a : act) : list paragraph := flat_map ar_children (act_articles a).
Definition head_kept (p p' : paragraph) : Prop := s_id p' = s_id p /\ s_si p' = s_si p /\ s_change p' = s_change p.
