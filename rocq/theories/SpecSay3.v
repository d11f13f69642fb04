(** Specification for lists of references in sentences (C74-): "az 5. § (2) bekezdése, (4) bekezdés a) pontja és a 8. §" *)
From Verif Require Export SpecSay2.

(** [w] is said after [p]: what is above the first part of [w] is the same as it was in [p]. *)
Definition resume (p w : reference) : reference :=
  match lower_parts w with
  | [] => p
  | PartArticle _ :: _ => mkRef (f_act p) (f_article w) (f_paragraph w) (f_point w) (f_subpoint w)
  | PartParagraph _ :: _ => mkRef (f_act p) (f_article p) (f_paragraph w) (f_point w) (f_subpoint w)
  | PartPoint _ :: _ => mkRef (f_act p) (f_article p) (f_paragraph p) (f_point w) (f_subpoint w)
  | _ :: _ => mkRef (f_act p) (f_article p) (f_paragraph p) (f_point p) (f_subpoint w)
  end.
Record mentioned (p w : reference) (s : str) : Prop := {
  me_form : readable_ref w; me_act : f_act w = None; me_said : said_ended (lower_parts w) s; me_whole : well_formed (resume p w) }.
(** ", ", " és a ", "; valamint az " *)
Definition list_words : list str := flat_map (fun p => map (fun k => p ++ lit " " ++ k ++ lit " ") (map lit ["és"; "valamint"; "illetve"; "vagy"]%string)) [[]; lit ","; lit ";"].
Definition articles : list str := [[]; lit "a "; lit "az "].
Definition separators : list str := flat_map (fun x => map (fun z => x ++ z) articles) (lit ", " :: lit "; " :: list_words).
(** The phrases of a list which begins at [o], and the references found *)
Inductive said_list : reference -> N -> str -> list out_ref -> Prop :=
| said_one p o w s : mentioned p w s -> said_list p o s [mkOut o (o + utf8_len s) (resume p w)]
| said_many p o w s sep rest l : mentioned p w s -> In sep separators ->
    said_list (resume p w) (o + utf8_len (s ++ sep)) rest l -> said_list p o (s ++ sep ++ rest) (mkOut o (o + utf8_len s) (resume p w) :: l).

(** ** Repeals: "Hatályát veszti a ... 5. § (2) bekezdése és 8. §-a.", "... 5. §-ában az „a” és a „b” szövegrész." *)
Definition repealing : list str := flat_map (fun v => map (fun z => lit v ++ lit " " ++ z) [lit "a "; lit "az "])
  ["Hatályát veszti"; "Hatályát veszíti"; "Nem lép hatályba"]%string.
(** Between the marks there may be other marks, in pairs; white space next to the outer marks is not part of the text. *)
Definition no_marks (s : str) : Prop := Forall (fun c => c <> 8222 /\ c <> 8221)%N s.
Inductive quote_text : str -> Prop :=
| quote_plain x : no_marks x -> quote_text x
| quote_in x y z : no_marks x -> quote_text y -> quote_text z -> quote_text (x ++ lit "„" ++ y ++ lit "”" ++ z).
Definition unspaced (s : str) : Prop := (forall c t, s = c :: t -> ~ white c) /\ (forall c t, s = t ++ [c] -> ~ white c).
Definition quotation (x q : str) : Prop := quote_text x /\ unspaced x /\ q = lit "„" ++ x ++ lit "”".
(** "„a” szövegrésze" or "„a”" *)
Inductive text_said (x : str) : str -> Prop :=
| text_alone q : quotation x q -> text_said x q
| text_named q e : quotation x q -> Forall small_letter e -> text_said x (q ++ lit " szöveg" ++ e).
Inductive texts_said : str -> list str -> Prop :=
| texts_one x q : text_said x q -> texts_said q [x]
| texts_more x q sep s l : text_said x q -> In sep separators -> texts_said s l -> texts_said (q ++ sep ++ s) (x :: l).
Definition act_found (before name : str) (a : act_id) : out_ref := mkOut (utf8_len before) (utf8_len (before ++ name)) (only_act a).
(** What is repealed is the act itself, the parts listed, or the texts in all parts listed. *)
Inductive repeal (m : list (str * act_id)) (a : act_id) : str -> sem_info -> Prop :=
| repeal_act v title name : In v repealing -> act_named m a (lit ".") title name ->
    repeal m a (v ++ title ++ name ++ lit ".") (mkSi [act_found (v ++ title) name a] [] (Some (PhRepeal [RrRef (only_act a)])))
| repeal_parts v title name s l : In v repealing -> act_named m a (lit " " ++ s ++ lit ".") title name ->
    said_list (only_act a) (utf8_len (v ++ title ++ name ++ lit " ")) s l ->
    repeal m a (v ++ title ++ name ++ lit " " ++ s ++ lit ".")
      (mkSi (act_found (v ++ title) name a :: l) [] (Some (PhRepeal (map (fun r => RrRef (o_ref r)) l))))
| repeal_texts v title name s l z q ts : In v repealing -> In z articles -> act_named m a (lit " " ++ s ++ lit " " ++ z ++ q ++ lit ".") title name ->
    said_list (only_act a) (utf8_len (v ++ title ++ name ++ lit " ")) s l -> texts_said q ts ->
    repeal m a (v ++ title ++ name ++ lit " " ++ s ++ lit " " ++ z ++ q ++ lit ".")
      (mkSi (act_found (v ++ title) name a :: l) []
         (Some (PhText (flat_map (fun r => map (fun t => mkTa (TaSae (o_ref r) PartAll) t []) ts) l)))).
