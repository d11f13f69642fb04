(** Properties of the grammar (C57-C60). *)
From Verif Require Export ProofGrammar5 PropertiesSem PropertiesOut.
Local Open Scope N_scope.

Definition ptk : list str := [lit "Ptk."].
Definition ptk_map : list (str * act_id) := [(lit "Ptk.", a13)].

(** * C57 *)
(** The parts of every text the grammar understands are not empty, follow one another, end inside the text and begin
    and end between two characters. *)
Theorem C57_places : forall t known r, Forall (fun k => k <> []) known -> grammar_parse t known = Ok r -> forall rf m,
  in_order 0 (root_events rf m r) /\ after (root_events rf m r) 0 <= utf8_len t /\ Forall (event_boundary t) (root_events rf m r).
Proof. exact grammar_places. Qed.
Print Assumptions C57_places.
Definition places (t : str) : option (list (N * N)) :=
  match grammar_parse t ptk with
  | Ok r => Some (flat_map (fun e => match e with EvPart p _ => [(ps_start p, ps_end p)] | _ => [] end) (root_events no_roman ptk_map r))
  | _ => None
  end.
Example C57_sample : places (lit "á Ptk. 5. § (1) és (3) bekezdése") = Some [(3, 7); (8, 10); (14, 17); (22, 25)].
Proof. vm_compute. reflexivity. Qed.

(** The references recorded with this grammar can be cut from the text of their element with a full stop at the end, so
    each is a piece of it and they do not overlap (C38). *)
Theorem C57_recorded : forall rf a, Forall (fun k => k <> []) (map fst (ac_abbrevs a)) -> Forall (fun x => snd x = []) (act_refs a) ->
  let '(a', o) := add_semantic_info rf grammar_parse a in
  is_ok o = true -> Forall (fun x => cuttable (fst x ++ lit ".") 0 (snd x)) (act_refs a').
Proof. exact grammar_cuttable. Qed.
Print Assumptions C57_recorded.
(** Without that full stop they need not be. The grammar takes it into the abbreviation and printing panics. *)
Theorem C57_inside_own_text_refuted : ~ (forall rf a, Forall (fun k => k <> []) (map fst (ac_abbrevs a)) -> Forall (fun x => snd x = []) (act_refs a) ->
  let '(a', o) := add_semantic_info rf grammar_parse a in
  is_ok o = true -> 5 * act_levels a' <= 100 -> act_show (ac_id a') <> Panic -> act_output one_line 100 false a' <> Panic).
Proof.
  intros H. specialize (H no_roman ptk_act ltac:(repeat constructor; discriminate) ltac:(repeat constructor)).
  vm_compute in H. apply H; [reflexivity|discriminate|discriminate|reflexivity].
Qed.
Print Assumptions C57_inside_own_text_refuted.
(** Otherwise the result can be printed. *)
Theorem C57_printing : forall rf wrap w colored a, Forall (fun k => k <> []) (map fst (ac_abbrevs a)) -> Forall (fun x => snd x = []) (act_refs a) ->
  let '(a', o) := add_semantic_info rf grammar_parse a in
  is_ok o = true -> 5 * act_levels a' <= w -> act_show (ac_id a') <> Panic ->
  Forall (fun x => closed (fst x) \/ Forall (fun o => o_end o <= utf8_len (fst x)) (snd x)) (act_refs a') ->
  act_output wrap w colored a' <> Panic.
Proof. exact grammar_printing. Qed.
Print Assumptions C57_printing.
Definition written (s : string) : act := mkActS a14 [] [] default_date ptk_map
  [ChArticle (mkArticle (mkArt None (mkNum 1 None)) None [mkSae None (BText (lit s)) si_default None] None)].
Example C57_sample_act : let '(a', o) := add_semantic_info no_roman grammar_parse (written "Ló: a Ptk. 5. § (1) és (3) bekezdése") in
  o = Ok false /\ map snd (act_refs a') = [[mkOut 7 11 (ref_of_act a13); mkOut 12 21 (art5 (Some 1)); mkOut 26 40 (art5 (Some 3))]] /\
  forallb (fun x => forallb (fun o => o_end o <=? utf8_len (fst x)) (snd x)) (act_refs a') = true.
Proof. vm_compute. auto. Qed.

(** * C58 *)
(** What the grammar captures are pieces of the text of the right form: the numbers, letters and ranges of each
    level, names of months, ordinals, texts between quotation marks, and known abbreviations. *)
Theorem C58_captured_words : forall t known r, Forall (fun k => k <> []) known -> grammar_parse t known = Ok r ->
  root_words t (known_word t known) r.
Proof. exact grammar_words. Qed.
Print Assumptions C58_captured_words.
Definition captured_refs (t : str) (known : list str) : list g_ref :=
  match grammar_parse t known with
  | Ok (RList l) => flat_map (fun s => match s with GCompound c => gc_refs c | GOther => [] end) l
  | _ => []
  end.
Example C58_sample : map (fun r => (option_map (map ga_id) (gr_article r), option_map (map (fun p => (gp_start p, gp_end p))) (gr_alpha_sub r)))
    (captured_refs (lit "A Ptk. 5/A. § (1a) bekezdés b) pont ca)–cd) alpontja") ptk) =
  [(Some [Some (lit "5/A")], Some [(Some (lit "ca"), Some (lit "cd"))])].
Proof. vm_compute. reflexivity. Qed.
(** So if its numbers are short and its acts are known, every part of the text denotes something and none of the
    references it lists is an error. *)
Theorem C58_readable : forall t known r rf m, Forall (fun k => k <> []) known -> grammar_parse t known = Ok r -> short_numbers t ->
  Forall (fun a => is_ok (denoted_act rf m a) = true) (root_act_refs r) -> Forall readable_event (root_events rf m r).
Proof. exact grammar_readable. Qed.
Print Assumptions C58_readable.
(** All ordinals and months of the grammar are understood. *)
Theorem C58_ordinals : map num_from_hungarian (ordinals ++ capital_ordinals) =
  map Ok (one_to_19 ++ [20; 30; 40; 50; 60; 70; 80; 90] ++ one_to_19 ++ one_to_19).
Proof. exact ordinals_read. Qed.
Print Assumptions C58_ordinals.
Theorem C58_months : map month_from_hungarian months = map Ok [1; 2; 3; 4; 5; 6; 7; 8; 9; 10; 11; 12].
Proof. exact months_read. Qed.
Print Assumptions C58_months.
(** The number of a subtitle is read exactly if there is no white space in it. *)
Theorem C58_subtitle_number : forall t s, short_numbers t -> captured t (suffixed_word number_word) s ->
  (is_ok (numeric_parse s) = true <-> Forall (fun c => ~ In c [32; 9; 10; 12; 13]) s).
Proof. exact subtitle_number_read. Qed.
Print Assumptions C58_subtitle_number.
(** The grammar does take white space before the letter, and then the whole sentence is refused. *)
Theorem C58_readable_subtitles_refuted : ~ (forall t known r rf m, Forall (fun k => k <> []) known -> grammar_parse t known = Ok r ->
  short_numbers t -> Forall (fun a => is_ok (denoted_act rf m a) = true) (root_act_refs r) ->
  extract_special_phrase rf (cache_from m) r <> Err).
Proof.
  intros H. pose (t := lit "A Ptk. 5 / A. alcíme helyébe a következő rendelkezés lép:").
  assert (S : short_numbers t) by (apply short_check; vm_compute; reflexivity).
  destruct (grammar_parse t ptk) as [r| |] eqn:E; [|vm_compute in E; discriminate|vm_compute in E; discriminate].
  apply (H t ptk r no_roman ptk_map ltac:(repeat constructor; discriminate) E S); vm_compute in E; injection E as <-;
    [repeat constructor|vm_compute; reflexivity].
Qed.
Print Assumptions C58_readable_subtitles_refuted.
Example C58_short : short_numbers (lit "A Ptk. 5 : 1234/A. § (1a) bekezdése").
Proof. apply short_check. vm_compute. reflexivity. Qed.

(** * C59 *)
(** An abbreviation the grammar reports was known before or is introduced in the same text with "továbbiakban", and the
    new abbreviations of the text are introduced so. *)
Theorem C59_acts : forall t known r, Forall (fun k => k <> []) known -> grammar_parse t known = Ok r ->
  (forall s p, In (GAbbrev s p) (root_act_refs r) -> In s known \/ introduces t s) /\
  (forall rf new k a, get_new_abbreviations rf r = Ok new -> In (k, a) new -> introduces t k).
Proof. exact grammar_acts. Qed.
Print Assumptions C59_acts.
(** So the abbreviations of an act with semantic information are those it had and those a sentence of it introduces. *)
Theorem C59_introduced : forall rf a, Forall (fun k => k <> []) (map fst (ac_abbrevs a)) ->
  let '(a', o) := add_semantic_info rf grammar_parse a in
  forall k, In k (map fst (ac_abbrevs a')) -> In k (map fst (ac_abbrevs a)) \/
    exists t text, In t (act_tasks a) /\ sentence t text /\ introduces text k.
Proof. exact abbreviations_introduced. Qed.
Print Assumptions C59_introduced.
Example C59_sample : let '(a', o) := add_semantic_info no_roman grammar_parse
    (written "A 2012. évi XIII. törvény (a továbbiakban: Tv.) és a Tv. 5. §-a") in
  o = Ok true /\ ac_abbrevs a' = [(lit "Ptk.", a13); (lit "Tv.", a13)] /\
  map snd (act_refs a') = [[mkOut 2 28 (ref_of_act a13); mkOut 58 61 (ref_of_act a13); mkOut 62 69 (art5 None)]].
Proof. vm_compute. auto. Qed.
(** The reader remembers an abbreviation while it tries rules which then do not apply, so the reported abbreviation
    need not be known to the act (here "Tv." is introduced in a part of the sentence which is not kept). *)
Theorem C59_resolvable_refuted : ~ (forall t known r, Forall (fun k => k <> []) known -> grammar_parse t known = Ok r ->
  forall rf new s p, get_new_abbreviations rf r = Ok new -> In (GAbbrev s p) (root_act_refs r) -> In s known \/ In s (map fst new)).
Proof.
  intros H. pose (t := lit "A 2010. évi I. törvény (a továbbiakbanTv.) módosításáról szóló Tv. 5. §-a helyébe a következő rendelkezés lép:").
  destruct (grammar_parse t []) as [r| |] eqn:E; [|vm_compute in E; discriminate|vm_compute in E; discriminate].
  specialize (H t [] r ltac:(constructor) E no_roman). vm_compute in E. injection E as <-.
  destruct (H [] (lit "Tv.") (ModelSem.mkPos 74 77)) as [[]|[]]; [reflexivity|now left].
Qed.
Print Assumptions C59_resolvable_refuted.

(** * C60 *)
(** The grammar ends on every text and refuses only texts of white space. *)
Theorem C60_total : forall t known, Forall (fun k => k <> []) known ->
  grammar_parse t known <> Panic /\ (grammar_parse t known = Err <-> spaces t).
Proof. exact grammar_total. Qed.
Print Assumptions C60_total.
(** So it reads every sentence except those that end in a wrap-up of white space only. *)
Theorem C60_sentences : forall t text known, Forall (fun k => k <> []) known -> sentence t text -> t_after t = [] \/ ~ spaces (t_after t) ->
  exists r, grammar_parse text known = Ok r.
Proof. exact sentence_parsed. Qed.
Print Assumptions C60_sentences.
(** With this grammar adding semantic information does not panic. *)
Theorem C60_no_panic : forall rf a, Forall (fun k => k <> []) (map fst (ac_abbrevs a)) ->
  snd (add_semantic_info rf grammar_parse a) <> Panic /\ forall i, snd (add_semantic_info_to_article rf grammar_parse i a) <> Panic.
Proof. exact grammar_no_panic. Qed.
Print Assumptions C60_no_panic.
Example C60_sample : is_ok (grammar_parse (lit "?? ") ptk) = true /\ grammar_parse (lit "  ") ptk = Err /\ grammar_parse [] ptk = Err.
Proof. vm_compute. repeat split. Qed.
(** If an empty abbreviation is known, then reading does not end: the list of simple expressions repeats a rule that
    consumes nothing. *)
Theorem C60_empty_abbreviation_refuted : ~ (forall t known, grammar_parse t known <> Panic).
Proof. intros H. apply (H (lit "x") [[]]). vm_compute. reflexivity. Qed.
Print Assumptions C60_empty_abbreviation_refuted.
