(** C36, C37, C39, C40, C50, C51: abbreviations and semantic information. *)
From Verif Require Import ProofSem6.
From Coq Require String.
Local Open Scope N_scope.

Definition no_roman : str -> option Z := fun s => if str_eqb s (lit "XIII") then Some 13%Z else if str_eqb s (lit "XIV") then Some 14%Z else None.
Definition at_ : N -> N -> pos := ModelSem.mkPos.
Definition a13 : act_id := mkAct 2012 13.
Definition a14 : act_id := mkAct 2012 14.
Definition a19 : act_id := mkAct 2019 19.

(** * C36 *)
(** [resolve] gives the last act added under the abbreviation, or the one of the initial map. *)
Theorem C36_last_write_wins : forall m l k,
  cache_resolve (cache_add_multiple l (cache_from m)) k =
  match value_after m l k with Some a => Ok a | None => Err end.
Proof. exact c36_resolve. Qed.
Print Assumptions C36_last_write_wins.
(** [has_changed] tells whether some add was not of the value the abbreviation had at that moment. *)
Theorem C36_changed_exactly : forall m l,
  ca_changed (cache_add_multiple l (cache_from m)) = true <->
  exists l1 k a l2, l = l1 ++ (k, a) :: l2 /\ value_after m l1 k <> Some a.
Proof. exact c36_changed. Qed.
Print Assumptions C36_changed_exactly.
Theorem C36_unchanged_keeps_map : forall l c, ca_changed (cache_add_multiple l c) = false ->
  ca_map (cache_add_multiple l c) = ca_map c /\ ca_changed c = false.
Proof. exact unchanged_map. Qed.
Print Assumptions C36_unchanged_keeps_map.
(** Adding the same list again does not change the contents. *)
Theorem C36_twice : forall m l, is_map m ->
  ca_map (cache_add_multiple l (cache_add_multiple l (cache_from m))) = ca_map (cache_add_multiple l (cache_from m)).
Proof. exact c36_twice. Qed.
Print Assumptions C36_twice.
(** The keys stay in increasing order. *)
Theorem C36_keys_sorted : forall l c, is_map (ca_map c) -> is_map (ca_map (cache_add_multiple l c)).
Proof. exact add_multiple_is_map. Qed.
Print Assumptions C36_keys_sorted.
(** A change is reported even if the contents are the same in the end: with an abbreviation defined twice in
    the same act, repeating the work always reports a change. *)
Theorem C36_repeat_reports_no_change_refuted :
  ~ (forall m l, is_map m -> ca_changed (cache_add_multiple l (cache_from (ca_map (cache_add_multiple l (cache_from m))))) = false).
Proof.
  intros H. specialize (H [] [(lit "Tv.", a13); (lit "Tv.", a14)] ltac:(constructor)). vm_compute in H. discriminate.
Qed.
Print Assumptions C36_repeat_reports_no_change_refuted.
(** abbreviation.rs:107-171 test_abbreviation_cache *)
Definition test_cache : cache := cache_add_multiple [(lit "Lol.", a13); (lit "Tv.", a14); (lit "Lol.", a19)] cache_new.
Example C36_cache_test : ca_changed test_cache = true /\ ca_map test_cache = [(lit "Lol.", a19); (lit "Tv.", a14)] /\
  ca_changed (cache_from (ca_map test_cache)) = false /\
  ca_changed (cache_add (lit "Tv.") a14 (cache_from (ca_map test_cache))) = false /\
  ca_changed (cache_add (lit "Tv.") (mkAct 2017 17) (cache_from (ca_map test_cache))) = true /\
  ca_changed (cache_add (lit "Xd.") (mkAct 2042 42) (cache_from (ca_map test_cache))) = true.
Proof. vm_compute. repeat split. Qed.
Example C36_is_map : is_map (ca_map test_cache).
Proof. apply add_multiple_is_map. constructor. Qed.

(** * C51 *)
(** The abbreviation found is the first in the list that the text starts with. *)
Theorem C51_first_match : forall known s k, parse_abbreviation known s = Some k <->
  exists a b, known = a ++ k :: b /\ is_prefix k s /\ Forall (fun j => ~ is_prefix j s) a.
Proof. exact parse_abbreviation_spec. Qed.
Print Assumptions C51_first_match.
Theorem C51_not_found : forall known s, parse_abbreviation known s = None <-> Forall (fun j => ~ is_prefix j s) known.
Proof. exact parse_abbreviation_none. Qed.
Print Assumptions C51_not_found.
(** If no abbreviation starts with another one there is no choice: it is the one that was defined. *)
Theorem C51_unambiguous : forall known s k, parse_abbreviation known s = Some k ->
  (forall i j, In i known -> In j known -> is_prefix i j -> i = j) ->
  forall j, In j known -> is_prefix j s -> j = k.
Proof. exact c51_unique. Qed.
Print Assumptions C51_unambiguous.
(** For the abbreviations of a cache, in increasing order, it is the shortest one. *)
Theorem C51_shortest_match : forall (m : list (str * act_id)) s k, is_map m -> parse_abbreviation (map fst m) s = Some k ->
  forall j, In j (map fst m) -> is_prefix j s -> is_prefix k j.
Proof. exact c51_shortest. Qed.
Print Assumptions C51_shortest_match.
(** So it is not the longest one: "Tvt" is read where "Tvtr" was meant. *)
Theorem C51_longest_match_refuted :
  ~ (forall (m : list (str * act_id)) s k, is_map m -> parse_abbreviation (map fst m) s = Some k ->
     forall j, In j (map fst m) -> is_prefix j s -> is_prefix j k).
Proof.
  intros H. set (m := map_of [(lit "Tvt", a13); (lit "Tvtr", a14)]).
  specialize (H m (lit "Tvtr. 5. §") (lit "Tvt") ltac:(apply map_of_is_map) eq_refl (lit "Tvtr")).
  destruct H as [r E].
  - right. left. reflexivity.
  - now exists (lit ". 5. §").
  - vm_compute in E. discriminate.
Qed.
Print Assumptions C51_longest_match_refuted.
Example C51_examples :
  parse_abbreviation [lit "Btk."; lit "Ptk."] (lit "Ptk. 1. §-a") = Some (lit "Ptk.") /\
  parse_abbreviation [lit "Btk."; lit "Ptk."] (lit "A Ptk. 1. §-a") = None /\
  (forall i j, In i [lit "Btk."; lit "Ptk."] -> In j [lit "Btk."; lit "Ptk."] -> is_prefix i j -> i = j).
Proof.
  split; [vm_compute; reflexivity|]. split; [vm_compute; reflexivity|].
  intros i j [<-|[<-|[]]] [<-|[<-|[]]] [r E]; try reflexivity; vm_compute in E; discriminate.
Qed.

(** * C37 *)
(** What the outgoing references are: going through what the sentence says, one reference for each end of a
    reference, with the parts in force, from its first part to its last place. *)
Theorem C37_references : forall rf c r l, is_list r = false ->
  (get_outgoing_references rf c r = Ok l <-> recorded [] None 0 (root_events rf (ca_map c) r) l).
Proof. exact c37_meaning. Qed.
Print Assumptions C37_references.
(** In a list of simple expressions each gives its own references; one that makes no sense gives none. *)
Theorem C37_references_of_list : forall rf c l,
  exists ls, get_outgoing_references rf c (RList l) = Ok (List.concat ls) /\ Forall2 (piece_says rf (ca_map c)) l ls.
Proof. exact c37_list. Qed.
Print Assumptions C37_references_of_list.
Theorem C37_no_panic : forall rf c r, get_outgoing_references rf c r <> Panic.
Proof. exact c37_no_panic. Qed.
Print Assumptions C37_no_panic.
(** Ordered disjoint places give ordered disjoint references, not beyond the last place. *)
Theorem C37_ordered : forall rf c r l, get_outgoing_references rf c r = Ok l ->
  forall lo, in_order lo (root_events rf (ca_map c) r) ->
  spans_ordered lo l /\ Forall (fun o => o_end o <= after (root_events rf (ca_map c) r) lo) l.
Proof. exact c37_ordered. Qed.
Print Assumptions C37_ordered.
(** The references of the element itself are kept in order, ... *)
Theorem C37_adjusted_ordered : forall a b l k lo, kept a b l k -> spans_ordered lo l -> spans_ordered (lo - a) k.
Proof. exact kept_ordered. Qed.
Print Assumptions C37_adjusted_ordered.
(** ... they end inside its own text without conjunctions, or after the full stop if it was supplied, ... *)
Theorem C37_adjusted_inside : forall t text own out k, sentence t text -> trimmed conjunctions (t_own t) own ->
  kept (utf8_len (t_before t)) (utf8_len text - utf8_len (t_after t)) out k ->
  Forall (fun o => 0 < o_end o <= utf8_len (own_sentence t own)) k.
Proof. exact kept_in_own. Qed.
Print Assumptions C37_adjusted_inside.
(** ... and cover the same words as in the sentence. *)
Theorem C37_adjusted_same_words : forall t text own out k, sentence t text -> trimmed conjunctions (t_own t) own ->
  kept (utf8_len (t_before t)) (utf8_len text - utf8_len (t_after t)) out k ->
  Forall (fun o => exists o', In o' out /\ o_ref o = o_ref o' /\
    forall x, utf8_len (t_before t) <= o_start o' -> piece text (o_start o') (o_end o') x ->
      piece (own_sentence t own) (o_start o) (o_end o) x) k.
Proof. exact kept_same_text. Qed.
Print Assumptions C37_adjusted_same_words.
(** They need not be inside the own text: with the abbreviation "Ptk." known and the text "lásd Ptk" the full
    stop that was supplied becomes part of the reference. *)
Definition ptk_root : g_root := RList [GCompound (mkGComp (Some (GAbbrev (lit "Ptk.") (at_ 6 10))) [])].
Definition ptk_parser : str -> list str -> outcome g_root := fun s _ => if str_eqb s (lit "lásd Ptk.") then Ok ptk_root else Err.
Theorem C37_inside_own_text_refuted :
  ~ (forall rf gp c t i c', (forall s k r, gp s k = Ok r -> in_order 0 (root_events rf (ca_map c) r) /\ after (root_events rf (ca_map c) r) 0 <= utf8_len s) ->
     understood rf gp c t i c' -> Forall (fun o => o_end o <= utf8_len (t_own t)) (si_outgoing i)).
Proof.
  intros H.
  pose proof (extract_understood no_roman ptk_parser (mkAdder [] [] (cache_from [(lit "Ptk.", a13)])) (lit "lásd Ptk") false) as U.
  vm_compute extract_semantic_info in U. cbv zeta in U. destruct U as (_ & _ & U).
  specialize (fun P => H _ _ _ _ _ _ P U). cbn [kept_info si_outgoing] in H.
  assert (P : forall s k r, ptk_parser s k = Ok r ->
    in_order 0 (root_events no_roman [(lit "Ptk.", a13)] r) /\ after (root_events no_roman [(lit "Ptk.", a13)] r) 0 <= utf8_len s).
  { unfold ptk_parser. intros s k r. destruct (str_eqb_spec s (lit "lásd Ptk.")) as [->|]; [|discriminate]. intros E. injection E as <-.
    vm_compute. repeat split; congruence. }
  specialize (H P). apply Forall_inv in H. vm_compute in H. congruence.
Qed.
Print Assumptions C37_inside_own_text_refuted.
(** "A Ptk. 5. § (1) és (3) bekezdése": three references *)
Definition p_num (s : String.string) (a b : N) : g_part := mkGPart None None (Some (lit s)) (at_ a b).
Definition p_art (s : String.string) (a b : N) : g_art_part := mkGArt None None None (Some (lit s)) (at_ a b).
Definition sample_ref : g_ref :=
  mkGRef (Some [p_art "5" 7 12]) (Some [p_num "1" 13 16; p_num "3" 21 35]) None None None None (at_ 7 35).
Definition sample_root : g_root := RList [GCompound (mkGComp (Some (GAbbrev (lit "Ptk.") (at_ 2 6))) [sample_ref])].
Definition art5 (p : option N) : reference :=
  mkRef (Some a13) (Some (single (mkArt None (mkNum 5 None)))) (option_map (fun n => single (mkNum n None)) p) None None.
Example C37_sample : get_outgoing_references no_roman (cache_from [(lit "Ptk.", a13)]) sample_root =
  Ok [mkOut 2 6 (ref_of_act a13); mkOut 7 16 (art5 (Some 1)); mkOut 21 35 (art5 (Some 3))] /\
  in_order 0 (root_events no_roman [(lit "Ptk.", a13)] sample_root).
Proof. vm_compute. repeat split; congruence. Qed.
(** The same as part of a text amendment; here a reference that makes no sense is an error. *)
Example C37_sample_text : get_outgoing_references no_roman (cache_from [(lit "Ptk.", a13)])
    (RText (mkGTa (GAbbrev (lit "Ptk.") (at_ 2 6)) [GTaRef sample_ref None] [])) =
  Ok [mkOut 2 6 (ref_of_act a13); mkOut 7 16 (art5 (Some 1)); mkOut 21 35 (art5 (Some 3))] /\
  get_outgoing_references no_roman (cache_from []) (RText (mkGTa (GAbbrev (lit "Ptk.") (at_ 2 6)) [] [])) = Err.
Proof. vm_compute. repeat split. Qed.

(** * C39 *)
(** A text amendment is the product of the references and the pairs of texts, for the resolved act. *)
Theorem C39_text_amendment : forall rf c x l, convert_text_amendment rf c x = Ok l <->
  exists a rs, denoted_act rf (ca_map c) (gta_act x) = Ok a /\ ta_items rf a [PartAct a] (gta_refs x) rs /\
    product (fun r p => mkTa r (fst p) (snd p)) rs (gta_parts x) l.
Proof. exact c39_text. Qed.
Print Assumptions C39_text_amendment.
(** All of the references are of that act. *)
Theorem C39_act_resolved : forall rf a l rs, ta_items rf a [PartAct a] l rs -> Forall (fun r => ta_act r = Some a) rs.
Proof. exact (fun rf a l rs => ta_items_act rf a [PartAct a] l rs eq_refl). Qed.
Print Assumptions C39_act_resolved.
(** A repeal of texts is the product of the references and the texts with nothing as the replacement; without
    texts it repeals each whole reference, or the whole act if there are none. *)
Theorem C39_repeal : forall rf c x p, convert_repeal rf c x = Ok p <->
  exists a rs, denoted_act rf (ca_map c) (gre_act x) = Ok a /\ ta_items rf a [PartAct a] (gre_refs x) rs /\
    match gre_texts x with
    | [] => exists l, Forall2 plain_repeal rs l /\
        p = PhRepeal (l ++ match gre_refs x with [] => [RrRef (ref_of_act a)] | _ => [] end)
    | _ => exists l, product (fun r t => mkTa r t []) rs (gre_texts x) l /\ p = PhText l
    end.
Proof. exact c39_repeal. Qed.
Print Assumptions C39_repeal.
Theorem C39_product_determined : forall A B C (f : A -> B -> C) xs ys l l', product f xs ys l -> product f xs ys l' -> l = l'.
Proof. exact @product_unique. Qed.
Print Assumptions C39_product_determined.
Definition sample_refs : list g_ta_ref :=
  [GTaRef sample_ref (Some GIntro); GTaArticleTitle (mkGSingle (p_art "5" 40 45) (at_ 40 45));
   GTaStructural None (GTaStruct (mkGAny None (GChapter (lit "XIII")) false)); GTaAttachment].
Definition sa (p : N) : ta_ref := TaSae (art5 (Some p)) PartIntroOnly.
Example C39_sample : convert_text_amendment no_roman (cache_from [(lit "Ptk.", a13)])
    (mkGTa (GAbbrev (lit "Ptk.") (at_ 2 6)) sample_refs [(lit "a", lit "b"); (lit "c", lit "d")]) =
  Ok (flat_map (fun r => [mkTa r (lit "a") (lit "b"); mkTa r (lit "c") (lit "d")])
    [sa 1; sa 3; TaArticleTitle (art5 None); TaStructural (mkSRef (Some a13) None None (SeChapter (mkNum 13 None)) false)]).
Proof. vm_compute. reflexivity. Qed.
Example C39_sample_repeal :
  convert_repeal no_roman (cache_from [(lit "Ptk.", a13)]) (mkGRep (GAbbrev (lit "Ptk.") (at_ 2 6)) [GTaRef sample_ref None] []) =
    Ok (PhRepeal [RrRef (art5 (Some 1)); RrRef (art5 (Some 3))]) /\
  convert_repeal no_roman (cache_from [(lit "Ptk.", a13)]) (mkGRep (GAbbrev (lit "Ptk.") (at_ 2 6)) [] []) =
    Ok (PhRepeal [RrRef (ref_of_act a13)]) /\
  convert_repeal no_roman (cache_from [(lit "Ptk.", a13)]) (mkGRep (GAbbrev (lit "Ptk.") (at_ 2 6)) [GTaRef sample_ref None] [lit "x"]) =
    Ok (PhText [mkTa (TaSae (art5 (Some 1)) PartAll) (lit "x") []; mkTa (TaSae (art5 (Some 3)) PartAll) (lit "x") []]) /\
  convert_repeal no_roman (cache_from [(lit "Ptk.", a13)]) (mkGRep (GAbbrev (lit "Ptk.") (at_ 2 6)) sample_refs []) = Err.
Proof. vm_compute. repeat split. Qed.

(** * C40 *)
(** The positions are the references said, in order; the date is of the kind written; anything unreadable is an
    error. *)
Theorem C40_enforcement_date : forall rf x e, convert_enforcement rf x = Ok e <->
  exists refs structs d ir,
    recorded [] None 0 (flat_map ed_events (ge_refs x)) refs /\ ed_structurals rf (ge_refs x) structs /\
    read_ed_date (ge_date x) d /\ opt_date (ge_repeal x) ir /\
    e = mkEd (map o_ref refs) structs (match ge_refs x with [] => true | _ => false end) d ir.
Proof. exact c40_spec. Qed.
Print Assumptions C40_enforcement_date.
Theorem C40_date_determined : forall g d d', read_ed_date g d -> read_ed_date g d' -> d = d'.
Proof. exact read_ed_date_unique. Qed.
Print Assumptions C40_date_determined.
(** "...with the exception of 5. §...": the exception is not in the result. *)
Theorem C40_keeps_exceptions_refuted :
  exists rf x e, ge_except x <> None /\ convert_enforcement rf x = Ok e /\
    convert_enforcement rf (mkGEd None (ge_refs x) (ge_date x) (ge_repeal x)) = Ok e.
Proof.
  exists no_roman, (mkGEd (Some sample_ref) [] (GAfterPublication None) None), (mkEd [] [] true (EdDaysAfter 1) None).
  split; [discriminate|]. vm_compute. auto.
Qed.
Print Assumptions C40_keeps_exceptions_refuted.
(** A day of the month can be any number up to 65535, also zero. *)
Theorem C40_invalid_days_rejected_refuted :
  exists rf x e n, convert_enforcement rf x = Ok e /\ ed_date e = EdDayInMonth None n /\ 31 < n.
Proof.
  exists no_roman, (mkGEd None [] (GDayInMonth None (GNumber (lit "45"))) None), (mkEd [] [] true (EdDayInMonth None 45) None), 45.
  vm_compute. auto.
Qed.
Print Assumptions C40_invalid_days_rejected_refuted.
Definition jan (d : String.string) : g_date := mkGDate (lit "2013") (lit "január") (lit d).
Example C40_sample :
  convert_enforcement no_roman (mkGEd None [GEdRef sample_ref; GEdSubtitles [mkGSub None None (Some (lit "3"))];
      GEdStruct (mkGAny None (GTitle (lit "XIV")) false); GEdRef sample_ref] (GDate (jan "1")) (Some (jan "2"))) =
    Ok (mkEd (map without_act [art5 (Some 1); art5 (Some 3); art5 (Some 1); art5 (Some 3)])
      [mkSRef None None None (SeSubtitleId (mkNum 3 None)) false; mkSRef None None None (SeTitle (mkNum 14 None)) false]
      false (EdDate (mkDate 2013 1 1)) (Some (mkDate 2013 1 2))) /\
  convert_enforcement no_roman (mkGEd None [] (GDate (jan "32")) None) = Err /\
  convert_enforcement no_roman (mkGEd None [] (GAfterPublication (Some (GWord (lit "nyolcadik")))) None) = Ok (mkEd [] [] true (EdDaysAfter 8) None) /\
  convert_enforcement no_roman (mkGEd None [] (GAfterPublication (Some (GNumber (lit "65536")))) None) = Err.
Proof. vm_compute. repeat split. Qed.

(** * C50 *)
(** The act is gone through element by element.  For each the grammar gets the intros of the elements above, its
    own text without conjunctions, and the wrap-ups above, innermost first.  When one is not understood the
    rest stays as it was.  Nothing but the semantic information and the abbreviations is changed. *)
Theorem C50_sentences : forall rf gp a, let '(a', o) := add_semantic_info rf gp a in exists c',
  worked rf gp (cache_from (ac_abbrevs a)) (act_tasks a) (infos a) (infos a') (omap (fun _ => tt) o) c' /\
  bare_act a' = bare_act (with_abbrevs a (ac_abbrevs a')) /\
  match o with
  | Ok changed => ac_abbrevs a' = ca_map c' /\ changed = ca_changed c'
  | _ => ac_abbrevs a' = ac_abbrevs a
  end.
Proof. exact c50_act. Qed.
Print Assumptions C50_sentences.
Theorem C50_success_is_all : forall rf gp c ts old new c', worked rf gp c ts old new (Ok tt) c' -> all_understood rf gp c ts new c'.
Proof. exact worked_all. Qed.
Print Assumptions C50_success_is_all.
Theorem C50_failure_is_first : forall rf gp c ts old new o c', worked rf gp c ts old new o c' -> o <> Ok tt ->
  exists done t rest is c1, ts = done ++ t :: rest /\ all_understood rf gp c done is c1 /\
    (forall i c2, ~ understood rf gp c1 t i c2) /\ new = is ++ skipn (List.length done) old.
Proof. exact worked_split. Qed.
Print Assumptions C50_failure_is_first.
(** The sentence and what is kept of its references are determined. *)
Theorem C50_sentence_determined : forall t x y, sentence t x -> sentence t y -> x = y.
Proof. exact sentence_unique. Qed.
Print Assumptions C50_sentence_determined.
Theorem C50_no_panic : forall rf gp, (forall s known, gp s known <> Panic) -> forall a, snd (add_semantic_info rf gp a) <> Panic.
Proof. exact c50_no_panic. Qed.
Print Assumptions C50_no_panic.
Theorem C50_no_panic_article : forall rf gp, (forall s known, gp s known <> Panic) -> forall i a, snd (add_semantic_info_to_article rf gp i a) <> Panic.
Proof. exact c50_no_panic_article. Qed.
Print Assumptions C50_no_panic_article.
(** The same for one article; the rest of the act is not touched. *)
Theorem C50_single_article : forall rf gp i a, let '(a', o) := add_semantic_info_to_article rf gp i a in
  (o = Err /\ a' = a /\ Forall (fun ch => forall x, ch = ChArticle x -> ar_ident x <> i) (ac_children a)) \/
  exists pre x x' post c', ac_children a = pre ++ ChArticle x :: post /\ ac_children a' = pre ++ ChArticle x' :: post /\
    Forall (fun ch => forall x, ch = ChArticle x -> ar_ident x <> i) pre /\ ar_ident x = i /\ bare_article x' = bare_article x /\
    a' = with_abbrevs (with_children a (ac_children a')) (ac_abbrevs a') /\
    worked rf gp (cache_from (ac_abbrevs a)) (article_tasks (ac_id a) x) (article_infos (ac_id a) x) (article_infos (ac_id a) x') (omap (fun _ => tt) o) c' /\
    match o with
    | Ok changed => ac_abbrevs a' = ca_map c' /\ changed = ca_changed c'
    | _ => ac_abbrevs a' = ac_abbrevs a
    end.
Proof. exact c50_article. Qed.
Print Assumptions C50_single_article.
(** A paragraph with points and subpoints: the tasks *)
Definition sub_ (c : N) (t : String.string) : alpha_subpoint := mkSae (mkPre (Some (Latin 98)) (Latin c)) (BText (lit t)) si_default None.
Definition pt_ (c : N) (b : sae_body alpha_children) : alpha_point := mkSae (Latin c) b si_default None.
Definition sem_par : paragraph := mkSae (Some (mkNum 2 None)) (BChildren (lit "Ha")
  (PcAlpha [pt_ 97 (BText (lit "egy, és"));
            pt_ 98 (BChildren (lit "kettő:") (AcAlpha [sub_ 97 "x;"; sub_ 98 "y"]) (Some (lit "esetén")))])
  (Some (lit "lesz."))) si_default None.
Definition sem_act (l : list paragraph) : act :=
  mkActS a13 [] [] default_date [(lit "Ptk.", a14)] [ChArticle (mkArticle (mkArt None (mkNum 1 None)) None l None)].
Example C50_tasks : map (fun t => (t_before t, t_own t, t_after t)) (act_tasks (sem_act [sem_par])) =
  [(lit "", lit "Ha", lit ""); (lit "Ha ", lit "egy, és", lit " lesz."); (lit "Ha ", lit "kettő:", lit " lesz.");
   (lit "Ha kettő: ", lit "x;", lit " esetén lesz."); (lit "Ha kettő: ", lit "y", lit " esetén lesz.")].
Proof. vm_compute. reflexivity. Qed.
(** The sentences that reach the grammar, recorded in the abbreviations by a parser that learns them *)
Definition parrot : str -> list str -> outcome g_root := fun s _ =>
  Ok (RList [GCompound (mkGComp (Some (GActId (mkGNow (mkGAct (lit "2012") (lit "XIII") (at_ 0 1)) (Some s)))) [])]).
Example C50_parrot : let '(a', o) := add_semantic_info no_roman parrot (sem_act [sem_par]) in
  o = Ok true /\ map (fun i => map fst (si_abbrevs i)) (infos a') =
  [[lit "Ha."]; [lit "Ha egy lesz."]; [lit "Ha kettő: lesz."]; [lit "Ha kettő: x esetén lesz."]; [lit "Ha kettő: y esetén lesz."]].
Proof. vm_compute. split; reflexivity. Qed.
(** Failing at the third sentence leaves the first two annotated and the abbreviations as they were. *)
Example C50_not_atomic : let '(a', o) := add_semantic_info no_roman
    (fun s k => if str_eqb s (lit "Ha kettő: lesz.") then Err else parrot s k) (sem_act [sem_par]) in
  o = Err /\ ac_abbrevs a' = [(lit "Ptk.", a14)] /\
  map (fun i => map fst (si_abbrevs i)) (infos a') = [[lit "Ha."]; [lit "Ha egy lesz."]; []; []; []].
Proof. vm_compute. repeat split; reflexivity. Qed.
(** sae.rs:229-238 test_assemble_to_be_parsed_text *)
Example C50_assemble_test :
  assemble (lit "") (lit "Xxx!") (lit "") = lit "Xxx!" /\ assemble (lit "A ") (lit "b") (lit " c.") = lit "A b c." /\
  assemble (lit "A ") (lit "b") (lit "") = lit "A b." /\ assemble (lit "A ") (lit "b:") (lit "") = lit "A b:" /\
  assemble (lit "A ") (lit "b, és") (lit " kell.") = lit "A b kell.".
Proof. vm_compute. repeat split. Qed.
