(** Specification for ordinary sentences (C80): "Az 5. § (2) bekezdése szerint a bíróság az Fgytv. 8. §-a alapján 15 napon belül dönt." *)
From Verif Require Export SpecSay8.

(** ** Words, numbers and marks *)
Definition big_letter (c : char) : Prop := upper_letter c \/ In c (lit "ÉÁŐÚÖÜÓÍŰ").
Definition letter (c : char) : Prop := small_letter c \/ big_letter c.
Definition hyphen : char := 45%N.
Definition dash_mark (c : char) : Prop := In c (lit "−–-").
Definition starts_by (P : char -> Prop) (t : str) : Prop := exists c u, t = c :: u /\ P c.
(** The first character after white space has the property. *)
Definition ahead_is (P : char -> Prop) (t : str) : Prop := forall s c u, t = s ++ c :: u -> Forall white s -> ~ white c -> P c.
Definition figures (d : str) : Prop := d <> [] /\ Forall digit d.
(** A word, and what is after it. Points of the law are marked with one or two letters and a parenthesis. *)
Inductive plain_word : str -> str -> Prop :=
| long_word a b r : (3 <= List.length a)%nat -> Forall letter a -> Forall (fun c => letter c \/ c = hyphen) b ->
    ~ starts_by (fun c => letter c \/ c = hyphen) r -> plain_word (a ++ b) r
| big_word c b r : big_letter c -> Forall (fun c => letter c \/ c = hyphen) b ->
    ~ starts_by (fun c => letter c \/ c = hyphen) r -> plain_word (c :: b) r
| short_word a r : a <> [] -> Forall letter a -> ~ starts_by letter r ->
    ahead_is (fun c => ~ dash_mark c /\ c <> chr ")") r -> plain_word a r.
Definition connecting : list str := map lit ["és"; "valamint"; "illetve"; "vagy"]%string.
(** "15 napon": not "15.", "15:", "15–", "15/A" or "15a" *)
Record plain_number (d r : str) : Prop := {
  pn_digits : figures d; pn_next : ~ starts_by (fun c => digit c \/ lower_letter c \/ c = chr "/") r;
  pn_ahead : ahead_is (fun c => ~ dash_mark c /\ c <> chr "." /\ c <> chr ":") r }.
(** "2013. január": the number is not one of an article, a point, a sub-point or an attachment. *)
Definition counted : list str := map lit ["§"; "pont"; "alpont"; "melléklet"; "számú "; ","; ";"]%string.
Record year_like (d r : str) : Prop := {
  da_digits : figures d; da_ahead : ahead_is (fun c => ~ dash_mark c /\ ~ digit c) r;
  da_word : forall s u, r = s ++ u -> Forall white s -> forall k, In k (counted ++ connecting) -> ~ begins_with k u }.
(** No reference begins here. *)
Inductive no_ref : str -> Prop :=
| nr_end : no_ref []
| nr_mark c r : ~ white c -> ~ letter c -> ~ digit c -> c <> chr "(" -> no_ref (c :: r)
| nr_paren r : ahead_is (fun c => ~ digit c) r -> no_ref (chr "(" :: r)
| nr_word w r : plain_word w r -> no_ref (w ++ r)
| nr_number d r : plain_number d r -> no_ref (d ++ r)
| nr_dated d r : year_like d r -> no_ref (d ++ lit "." ++ r).
(** "2013. évi CXXII. törvény" is an act, "2013. évi költségvetés" is not. *)
Definition not_act_number (r : str) : Prop := forall s u, r = s ++ lit "évi" ++ u -> Forall white s -> ahead_is (fun c => ~ In c (lit "IVXLCDM")) u.
Definition opening_quote : char := 8222%N.
(** One word, number or mark which is not part of a reference, and what is after it *)
Inductive other_piece : str -> str -> Prop :=
| op_mark c r : ~ white c -> ~ letter c -> ~ digit c -> c <> hyphen -> c <> chr "(" -> c <> opening_quote -> other_piece [c] r
| op_paren r : ahead_is (fun c => ~ digit c) r -> other_piece [chr "("] r
| op_word w r : plain_word w r -> other_piece w r
| op_number d r : plain_number d r -> other_piece d r
| op_dated d r : year_like d r -> not_act_number r -> other_piece d (lit "." ++ r)
| op_quote x q r : quotation x q -> other_piece q r.

(** ** References *)
Definition not_known (m : list (str * act_id)) (s : str) : Prop := forall k b, In (k, b) m -> ~ begins_with k s.
Inductive act_said (m : list (str * act_id)) (a : act_id) (rest : str) : str -> Prop :=
| said_number name e : act_ok a = true -> (0 <= act_year a)%Z -> act_show a = Ok name -> Forall small_letter e ->
    ~ starts_by small_letter rest -> ahead_is (fun c => c <> chr "(") rest -> act_said m a rest (name ++ e)
| said_known c k : ~ digit c -> ~ white c -> c <> opening_quote -> In (c :: k, a) m -> (forall b, In (c :: k, b) m -> b = a) ->
    (forall k' b, In (k', b) m -> begins_with k' (c :: k ++ rest) -> k' = c :: k) -> act_said m a rest (c :: k).
(** After an act no reference follows. *)
Inductive no_ref_after : str -> Prop :=
| nra_next r : no_ref r -> no_ref_after r
| nra_space r : ~ starts_by white r -> no_ref r -> no_ref_after (lit " " ++ r).
(** After a list of references no reference follows, also not after a comma or "és". *)
Inductive list_over : str -> Prop :=
| lo_end : list_over []
| lo_mark c r : ~ white c -> ~ letter c -> ~ digit c -> ~ dash_mark c -> ~ In c (lit "(,;") -> list_over (c :: r)
| lo_space r : ~ starts_by white r -> no_ref r -> ~ starts_by (fun c => dash_mark c \/ In c (lit ",;")) r ->
    (forall k, In k connecting -> ~ begins_with k r) -> list_over (lit " " ++ r)
| lo_more sep r : In sep separators -> ~ starts_by white r -> no_ref r ->
    (forall k, In k (connecting ++ map lit ["a "; "az "]%string) -> ~ begins_with k r) -> list_over (sep ++ r).

(** ** Sentences *)
Definition gap (g t : str) : Prop := (g = [] \/ g = lit " ") /\ ~ starts_by white t.
(** The text from the place [o] on, and the references in it *)
Inductive prose (m : list (str * act_id)) : N -> str -> list out_ref -> Prop :=
| prose_end o : prose m o [] []
| prose_other o x g t l : other_piece x (g ++ t) -> not_known m (x ++ g ++ t) -> gap g t ->
    prose m (o + utf8_len (x ++ g)) t l -> prose m o (x ++ g ++ t) l
| prose_refs o s l g t l' : said_list no_reference o s l -> not_known m (s ++ g ++ t) -> list_over (g ++ t) -> gap g t ->
    prose m (o + utf8_len (s ++ g)) t l' -> prose m o (s ++ g ++ t) (l ++ l')
| prose_act o a x g t l : act_said m a (g ++ t) x -> no_ref_after (g ++ t) -> gap g t ->
    prose m (o + utf8_len (x ++ g)) t l -> prose m o (x ++ g ++ t) (mkOut o (o + utf8_len x) (only_act a) :: l)
| prose_act_refs o a x s l g t l' : act_said m a (lit " " ++ s ++ g ++ t) x ->
    said_list (only_act a) (o + utf8_len (x ++ lit " ")) s l -> list_over (g ++ t) -> gap g t ->
    prose m (o + utf8_len (x ++ lit " " ++ s ++ g)) t l' ->
    prose m o (x ++ lit " " ++ s ++ g ++ t) (mkOut o (o + utf8_len x) (only_act a) :: l ++ l').
(** None of the sentences with a special meaning: amendments, sentences about force and repeals; no abbreviation is introduced. *)
Definition amending_ends : list str := map lit ["lép"; "lépnek"; "lép hatályba"; "módosul"; "egészül ki"]%string.
Record ordinary (s : str) : Prop := {
  or_amendment : forall u k v w, In k amending_ends -> s = u ++ k ++ v ++ lit ":" ++ w -> Forall white v -> Forall white w -> False;
  or_text : ~ (in_text (lit "„") s /\ in_text (lit "szöveg") s);
  or_force : ~ in_text (lit "lép hatályba") s;
  or_repeal : ~ begins_with (lit "Hatályát vesz") s;
  or_new : ~ in_text (lit "továbbiakban") s }.
(** No abbreviation is empty. *)
Definition all_named (m : list (str * act_id)) : Prop := forall b, ~ In ([], b) m.
(** A text with the words before and after it in its sentence, which is an ordinary one; the references ending in the text are its own. *)
Inductive ordinary_task (m : list (str * act_id)) (t : task) : sem_info -> Prop :=
| ordinary_task_of text l own : sentence t text -> text <> [] -> ordinary text -> prose m 0 text l ->
    kept (utf8_len (t_before t)) (utf8_len text - utf8_len (t_after t)) l own -> ordinary_task m t (mkSi own [] None).
