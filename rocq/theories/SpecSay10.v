(** Specification for sentences which introduce abbreviations (C81): "A 2011. évi CXII. törvény (a továbbiakban: Infotv.) 5. §-a
    szerint az Infotv. hatálya az adatkezelésre terjed ki." *)
From Verif Require Export SpecSay9.

(** The abbreviations known before the sentence and those it introduces somewhere *)
Definition name_in (m : list (str * act_id)) (text k : str) : Prop := In k (map fst m) \/ introduces text k.
Definition no_name_at (m : list (str * act_id)) (text s : str) : Prop := forall k, name_in m text k -> ~ begins_with k s.
Record abbreviation (k : str) : Prop := {
  ab_first : exists c u, k = c :: u /\ ~ white c /\ ~ digit c /\ c <> chr ":"; ab_open : ~ In (chr ")") k }.
(** An act, the length of the reference to it, and the abbreviation introduced for it. [before] are the abbreviations
    introduced earlier in the sentence, [all] all of it; the last introduction of an abbreviation counts in the whole sentence. *)
Inductive act_spoken (m : list (str * act_id)) (text : str) (all before : list (str * act_id)) (a : act_id) (rest : str) : str -> N -> list (str * act_id) -> Prop :=
| spoken_number name e : act_ok a = true -> (0 <= act_year a)%Z -> act_show a = Ok name -> Forall small_letter e ->
    ~ starts_by small_letter rest -> ahead_is (fun c => c <> chr "(") rest -> act_spoken m text all before a rest (name ++ e) (utf8_len (name ++ e)) []
| spoken_new name e colon k : act_ok a = true -> (0 <= act_year a)%Z -> act_show a = Ok name -> Forall small_letter e ->
    In colon (map lit [": "; " "]%string) -> abbreviation k ->
    act_spoken m text all before a rest ((name ++ e) ++ lit " (a továbbiakban" ++ colon ++ k ++ lit ")") (utf8_len (name ++ e)) [(k, a)]
| spoken_known c k : ~ digit c -> ~ white c -> c <> opening_quote -> In (c :: k) (map fst (m ++ before)) -> value_after m all (c :: k) = Some a ->
    (forall k', name_in m text k' -> begins_with k' (c :: k ++ rest) -> k' = c :: k) -> act_spoken m text all before a rest (c :: k) (utf8_len (c :: k)) [].
(** The text from the place [o] on, the references in it and the abbreviations it introduces *)
Inductive speech (m : list (str * act_id)) (text : str) (all : list (str * act_id)) : N -> list (str * act_id) -> str -> list out_ref -> list (str * act_id) -> Prop :=
| speech_end o b : speech m text all o b [] [] []
| speech_other o b x g t l n : other_piece x (g ++ t) -> no_name_at m text (x ++ g ++ t) -> gap g t ->
    speech m text all (o + utf8_len (x ++ g)) b t l n -> speech m text all o b (x ++ g ++ t) l n
| speech_refs o b s l g t l' n : said_list no_reference o s l -> no_name_at m text (s ++ g ++ t) -> list_over (g ++ t) -> gap g t ->
    speech m text all (o + utf8_len (s ++ g)) b t l' n -> speech m text all o b (s ++ g ++ t) (l ++ l') n
| speech_act o b a x len new g t l n : act_spoken m text all b a (g ++ t) x len new -> no_ref_after (g ++ t) -> gap g t ->
    speech m text all (o + utf8_len (x ++ g)) (b ++ new) t l n -> speech m text all o b (x ++ g ++ t) (mkOut o (o + len) (only_act a) :: l) (new ++ n)
| speech_act_refs o b a x len new s l g t l' n : act_spoken m text all b a (lit " " ++ s ++ g ++ t) x len new ->
    said_list (only_act a) (o + utf8_len (x ++ lit " ")) s l -> list_over (g ++ t) -> gap g t ->
    speech m text all (o + utf8_len (x ++ lit " " ++ s ++ g)) (b ++ new) t l' n ->
    speech m text all o b (x ++ lit " " ++ s ++ g ++ t) (mkOut o (o + len) (only_act a) :: l ++ l') (new ++ n).
(** None of the sentences with a special meaning *)
Record everyday (s : str) : Prop := {
  ey_amendment : forall u k v w, In k amending_ends -> s = u ++ k ++ v ++ lit ":" ++ w -> Forall white v -> Forall white w -> False;
  ey_text : ~ (in_text (lit "„") s /\ in_text (lit "szöveg") s);
  ey_force : ~ in_text (lit "lép hatályba") s;
  ey_repeal : ~ begins_with (lit "Hatályát vesz") s }.
(** A map with the last entry for each key *)
Definition map_with (l s : list (str * act_id)) : Prop := is_map s /\ forall k, map_get k s = last_write k l.
(** A text with the words before and after it in its sentence: the references ending in it are its own, the abbreviations of the
    whole sentence are attached to it. *)
Inductive spoken_task (m : list (str * act_id)) (t : task) : sem_info -> list (str * act_id) -> Prop :=
| spoken_task_of text l own news abbrevs : sentence t text -> text <> [] -> everyday text -> speech m text news 0 [] text l news ->
    kept (utf8_len (t_before t)) (utf8_len text - utf8_len (t_after t)) l own -> map_with news abbrevs -> spoken_task m t (mkSi own abbrevs None) news.
(** The map after the abbreviations of a sentence are added *)
Definition learned (m news m1 : list (str * act_id)) : Prop := is_map m1 /\ forall k, map_get k m1 = value_after m news k.
