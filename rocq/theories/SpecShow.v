(** Specification of the text of a reference (C67): the phrase of Hungarian legal texts, and which of these the grammar
    can read. *)
From Verif Require Export SpecRef SpecGrammar.

(** ** The phrase *)
Definition from_to (a b : str) : str := a ++ lit "–" ++ b.
(** 5. or 5–7. *)
Definition dotted {T} (show : T -> str) (r : range T) (s : str) : Prop :=
  (r_start r = r_end r /\ s = show (r_start r) ++ lit ".") \/ (r_start r <> r_end r /\ s = from_to (show (r_start r)) (show (r_end r)) ++ lit ".").
(** a) or a)–c), with the given opening *)
Definition closed_by_paren {T} (opening : str) (show : T -> str) (r : range T) (s : str) : Prop :=
  let one x := opening ++ show x ++ lit ")" in
  (r_start r = r_end r /\ s = one (r_start r)) \/ (r_start r <> r_end r /\ s = from_to (one (r_start r)) (one (r_end r))).
(** The identifier and the noun of each level, the noun in its plain and its possessive form *)
Inductive said_part : any_part -> str -> str -> str -> Prop :=
| said_article r i : dotted article_show r i -> said_part (PartArticle r) i (lit "§") (lit "§-a")
| said_paragraph r i : closed_by_paren (lit "(") numeric_show r i -> said_part (PartParagraph r) i (lit "bekezdés") (lit "bekezdése")
| said_num_point r i : dotted numeric_show r i -> said_part (PartPoint (PtNum r)) i (lit "pont") (lit "pontja")
| said_alpha_point r i : closed_by_paren [] hic_show r i -> said_part (PartPoint (PtAlpha r)) i (lit "pont") (lit "pontja")
| said_num_subpoint r i : dotted numeric_show r i -> said_part (PartSubpoint (SpNum r)) i (lit "alpont") (lit "alpontja")
| said_alpha_subpoint r i : closed_by_paren [] prefixed_show r i -> said_part (PartSubpoint (SpAlpha r)) i (lit "alpont") (lit "alpontja").
(** The parts follow each other, separated by spaces; only the last noun is possessive. *)
Inductive said_parts : list any_part -> str -> Prop :=
| said_last p i n n' : said_part p i n n' -> said_parts [p] (i ++ lit " " ++ n')
| said_more p i n n' ps s : said_part p i n n' -> said_parts ps s -> said_parts (p :: ps) (i ++ lit " " ++ n ++ lit " " ++ s).
(** The same with any ending on the last noun: §, §-a, §-ában; bekezdése, bekezdésével *)
Definition small_letter (c : char) : Prop := lower_letter c \/ In c (lit "éáőúöüóíű").
Inductive ending : any_part -> str -> Prop :=
| ending_none p : ending p []
| ending_article r w : w <> [] -> Forall small_letter w -> ending (PartArticle r) (lit "-" ++ w)
| ending_other p w : (forall r, p <> PartArticle r) -> Forall small_letter w -> ending p w.
Inductive said_ended : list any_part -> str -> Prop :=
| ended_last p i n n' e : said_part p i n n' -> ending p e -> said_ended [p] (i ++ lit " " ++ n ++ e)
| ended_more p i n n' ps s : said_part p i n n' -> said_ended ps s -> said_ended (p :: ps) (i ++ lit " " ++ n ++ lit " " ++ s).
Definition lower_parts (r : reference) : list any_part :=
  (match f_article r with Some x => [PartArticle x] | None => [] end)
  ++ (match f_paragraph r with Some x => [PartParagraph x] | None => [] end)
  ++ (match f_point r with Some x => [PartPoint x] | None => [] end)
  ++ (match f_subpoint r with Some x => [PartSubpoint x] | None => [] end).
(** The name of an act is before all others. *)
Inductive phrase (r : reference) : str -> Prop :=
| phrase_empty : f_act r = None -> lower_parts r = [] -> phrase r []
| phrase_act a s : f_act r = Some a -> act_show a = Ok s -> lower_parts r = [] -> phrase r s
| phrase_parts s : f_act r = None -> said_parts (lower_parts r) s -> phrase r s
| phrase_both a s s' : f_act r = Some a -> act_show a = Ok s -> said_parts (lower_parts r) s' -> phrase r (s ++ lit " " ++ s').

(** ** Phrases which can be read *)
Definition one_letter (n : numeric) : Prop := match n_suffix n with Some (Latin _) | None => True | _ => False end.
Record readable_ref (r : reference) : Prop := {
  rd_form : well_formed r; rd_parts : parts_ok r; rd_some : f_act r <> None \/ lower_parts r <> [];
  rd_act : forall a, f_act r = Some a -> (0 <= act_year a)%Z;
  rd_article : forall x, f_article r = Some x ->
    a_book (r_start x) = a_book (r_end x) /\ one_letter (a_ident (r_start x)) /\ one_letter (a_ident (r_end x));
  rd_subpoint : forall x, f_subpoint r = Some (SpNum x) -> n_suffix (r_start x) = None /\ n_suffix (r_end x) = None }.
(** Abbreviations that cannot be the beginning of a phrase: those beginning with something other than digits, small
    letters and a parenthesis *)
Definition other_beginning (k : str) : Prop :=
  exists c k', k = c :: k' /\ ~ (48 <= c <= 57)%N /\ ~ (97 <= c <= 122)%N /\ c <> chr "(".
(** The references to be found in the phrase: the act, and the whole *)
Definition found_in_phrase (r : reference) (s : str) (l : list out_ref) : Prop :=
  match f_act r with
  | None => l = [mkOut 0 (utf8_len s) r]
  | Some a => exists sa, act_show a = Ok sa /\
      l = mkOut 0 (utf8_len sa) (mkRef (Some a) None None None None) ::
          match lower_parts r with [] => [] | _ => [mkOut (utf8_len sa + 1) (utf8_len s) r] end
  end.
