(** C80: references in ordinary sentences. *)
From Verif Require Import SampleSay.
From Coq Require Import Lia.
Local Open Scope N_scope.

(** * C80 *)
(** A text whose sentence has no special meaning: the references said in it are found, each at its place and with the
    parts taken over from the references and the act before it, and nothing else is. *)
Theorem C80_text : forall rf c pre post own i, roman_from_reads rf -> all_named (ca_map c) ->
  ordinary_task (ca_map c) (mkTask (top pre) own (top post) false) i ->
  extract_semantic_info rf grammar_parse own (mkAdder pre post c) = (mkAdder pre post c, Ok i).
Proof. exact (fun rf c pre post own i H => ordinary_text rf H pre post c own i). Qed.
Print Assumptions C80_text.
(** In an act with ordinary sentences only, every text gets the references said in it; nothing else is changed. *)
Theorem C80_act : forall rf a is, roman_from_reads rf -> all_named (ac_abbrevs a) -> Forall2 (ordinary_task (ac_abbrevs a)) (act_tasks a) is ->
  exists a', add_semantic_info rf grammar_parse a = (a', Ok false) /\ infos a' = is /\ bare_act a' = bare_act a.
Proof. exact (fun rf a is H => ordinary_act rf H a is). Qed.
Print Assumptions C80_act.


(** A sentence with lists of references, an abbreviation, an act by its number, and numbers that are not references *)
Definition sa_map : list (str * act_id) := ca_map sa_cache.
Definition sa_tail : str := lit "2013" ++ [] ++ lit "." ++ lit " " ++ lit "július" ++ lit " " ++ lit "hónapban" ++ lit " " ++ lit "15" ++ lit " " ++ lit "napon" ++ lit " " ++ lit "belül" ++ lit " " ++ lit "dönt" ++ [] ++ lit "." ++ [] ++ [].
Definition sa_prose : str := lit "A" ++ lit " " ++ lit "bíróság" ++ lit " " ++ lit "az" ++ lit " " ++ (lit "5. § (2) bekezdése" ++ lit " és a " ++ lit "8. §") ++ lit " " ++ lit "szerint" ++ [] ++ lit "," ++ lit " " ++
  lit "az" ++ lit " " ++ lit "Fgytv." ++ lit " " ++ lit "8. §-a" ++ lit " " ++ lit "és" ++ lit " " ++ lit "az" ++ lit " " ++ lit "1959. évi IV. törvény" ++ lit " " ++ lit "alapján" ++ lit " " ++ sa_tail.
Lemma sa_tail_read o : prose sa_map o sa_tail [].
Proof.
  unfold sa_tail. a_dated. a_mark. a_word. a_word. a_number. a_word. a_word. a_word. a_mark. apply prose_end.
Qed.
Lemma sa_no_act o : exists l, said_list no_reference o (lit "5. § (2) bekezdése" ++ lit " és a " ++ lit "8. §") l /\ l = [mkOut o (o + 20) sa_first_part; mkOut (o + 27) (o + 27 + 5) sa_third_part].
Proof.
  eexists. split.
  - apply (said_many no_reference o sa_first_part (lit "5. § (2) bekezdése") (lit " és a ")); [|member|].
    + constructor; [readable_low|reflexivity|exact sa_paragraph_said|well].
    + apply (said_one (resume no_reference sa_first_part) _ sa_third_part (lit "8. §")). constructor; [readable_low|reflexivity| |well].
      apply (ended_last (PartArticle (sa_article 8)) (lit "8.") (lit "§") (lit "§-a") []); [apply said_article; left; split; vm_compute; reflexivity|apply ending_none].
  - reflexivity.
Qed.
Lemma sa_eighth_said o : exists l, said_list (only_act sa_act) o (lit "8. §-a") l /\ l = [mkOut o (o + 7) sa_eighth].
Proof.
  eexists. split.
  - apply (said_one (only_act sa_act) _ sa_third_part (lit "8. §-a")). constructor; [readable_low|reflexivity| |unfold resume; cbn; well].
    apply (ended_last (PartArticle (sa_article 8)) (lit "8.") (lit "§") (lit "§-a") (lit "-a")); [apply said_article; left; split; vm_compute; reflexivity|].
    apply (ending_article _ (lit "a")); [discriminate|small_word].
  - reflexivity.
Qed.
Lemma sa_listed_here o : said_list no_reference o (lit "5. § (2) bekezdése" ++ lit " és a " ++ lit "8. §") [mkOut o (o + 20) sa_first_part; mkOut (o + 27) (o + 27 + 5) sa_third_part].
Proof. destruct (sa_no_act o) as (l & S & ->). exact S. Qed.
Lemma sa_eighth_here o : said_list (only_act sa_act) o (lit "8. §-a") [mkOut o (o + 7) sa_eighth].
Proof. destruct (sa_eighth_said o) as (l & S & ->). exact S. Qed.
Lemma sa_known rest : act_said sa_map sa_act (lit " " ++ rest) (lit "Fgytv.").
Proof.
  apply (said_known sa_map sa_act (lit " " ++ rest) 70 (lit "gytv.")).
  - intros [A B]. lia.
  - intros H. cbn in H. intuition discriminate.
  - discriminate.
  - now left.
  - intros b [E|[]]. now injection E as <-.
  - intros k b [E|[]] _. now injection E as <- _.
Qed.
Lemma sa_prose_read : exists l, prose sa_map 0 sa_prose l /\ l =
  [mkOut 16 36 sa_first_part; mkOut 43 48 sa_third_part; mkOut 61 67 (only_act sa_act); mkOut 68 75 sa_eighth; mkOut 83 107 (only_act sa_other)].
Proof.
  unfold sa_prose. eexists. split.
  - a_word. a_word. a_word.
    eapply prose_refs; [apply sa_listed_here|apply sa_unknown; sa_true|apply sa_over; [sa_plain|discriminate|sa_true|sa_true]|sa_gaps|].
    a_word. a_mark. a_word.
    eapply (prose_act_refs sa_map _ sa_act (lit "Fgytv.") (lit "8. §-a")); [apply sa_known| | |sa_gaps|].
    + apply sa_eighth_here.
    + match goal with |- list_over ?x => replace x with (lit " és az " ++ lit "1959" ++ lit "." ++ (lit " évi IV. törvény" ++ lit " " ++ lit "alapján" ++ lit " " ++ sa_tail)) by (vm_compute; reflexivity) end.
      apply lo_more; [member|apply (sa_starts sa_white); [intros c; apply sa_white_is|sa_true]| |].
      * apply nr_dated, sa_year; [discriminate|sa_true|sa_true].
      * intros k J. apply sa_begins. cbn in J. repeat (destruct J as [<-|J]; [sa_true|]). contradiction.
    + a_word. a_word. eapply (prose_act sa_map _ sa_other (lit "1959. évi IV. törvény")); [|apply nra_space; [apply (sa_starts sa_white); [intros c; apply sa_white_is|sa_true]|apply nr_word; sa_plain]|sa_gaps|].
      * match goal with |- act_said ?m ?a ?r ?x => change (act_said m a r (lit "1959. évi IV. törvény" ++ [])) end. apply said_number; [reflexivity|vm_compute; discriminate|vm_compute; reflexivity|constructor| |].
        -- apply (sa_starts sa_small); [intros c; apply sa_small_is|sa_true].
        -- apply (sa_ahead (fun c => negb (c =? chr "("))); [|sa_true]. intros c H. apply negb_true_iff in H. now apply N.eqb_neq.
      * a_word. apply sa_tail_read.
  - vm_compute. reflexivity.
Qed.
Lemma sa_task before own after intro text l k : assemble before own after = text -> text <> [] -> ordinary text -> prose sa_map 0 text l ->
  keep_map (adjust (utf8_len before) (utf8_len text - utf8_len after)) l = k -> ordinary_task sa_map (mkTask before own after intro) (mkSi k [] None).
Proof.
  intros E NE O P <-. apply (ordinary_task_of sa_map _ text l); [|exact NE|exact O|exact P|apply ProofSem3.kept_spec].
  rewrite <- E. exact (ProofSem3.assemble_sentence (mkTask before own after intro)).
Qed.
Ltac sa_usual := apply sa_ordinary; [left; sa_true|sa_true|sa_true|sa_true|sa_true].
Example C80_sample : all_named sa_map /\
  ordinary_task sa_map (mkTask [] (lit "A bíróság az 5. § (2) bekezdése és a 8. § szerint, az Fgytv. 8. §-a és az 1959. évi IV. törvény alapján 2013. július hónapban 15 napon belül dönt.") [] false)
    (mkSi [mkOut 16 36 sa_first_part; mkOut 43 48 sa_third_part; mkOut 61 67 (only_act sa_act); mkOut 68 75 sa_eighth; mkOut 83 107 (only_act sa_other)] [] None).
Proof.
  split; [intros b [H|[]]; discriminate H|]. destruct sa_prose_read as (l & P & ->).
  eapply (sa_task _ _ _ _ sa_prose); [|intros H; apply (f_equal (@List.length char)) in H; vm_compute in H; discriminate H| |exact P|]; [sa_true|sa_usual|sa_true].
Qed.

(** An act with a paragraph that has points *)
Definition sa_point (c : N) (t : string) : alpha_point := mkSae (Latin c) (BText (lit t)) si_default None.
Definition sa_paragraph_with_points : paragraph := mkSae None (BChildren (lit "A bíróság az 5. § (2) bekezdése és a 8. § szerint:")
  (PcAlpha [sa_point 97 "az Fgytv. 8. §-a alapján dönt, vagy"; sa_point 98 "nem dönt."]) None) si_default None.
Definition sa_small_act : act := mkActS sa_other [] [] default_date sa_map [ChArticle (mkArticle (mkArt None (mkNum 1 None)) None [sa_paragraph_with_points] None)].
Ltac sa_begin := a_word; a_word; a_word; eapply prose_refs; [apply sa_listed_here|apply sa_unknown; sa_true|apply sa_over; [sa_plain|discriminate|sa_true|sa_true]|sa_gaps|]; a_word.
Definition sa_intro (g rest : str) : str := lit "A" ++ lit " " ++ lit "bíróság" ++ lit " " ++ lit "az" ++ lit " " ++ (lit "5. § (2) bekezdése" ++ lit " és a " ++ lit "8. §") ++ lit " " ++ lit "szerint" ++ [] ++ lit ":" ++ g ++ rest.
Ltac sa_end text := eapply (sa_task _ _ _ _ text); [sa_true|intros H; apply (f_equal (@List.length char)) in H; vm_compute in H; discriminate H| | |].
Example C80_small_act : all_named (ac_abbrevs sa_small_act) /\
  Forall2 (ordinary_task (ac_abbrevs sa_small_act)) (act_tasks sa_small_act)
    [mkSi [mkOut 16 36 sa_first_part; mkOut 43 48 sa_third_part] [] None; mkSi [mkOut 3 9 (only_act sa_act); mkOut 10 17 sa_eighth] [] None; mkSi [] [] None].
Proof.
  split; [intros b [H|[]]; discriminate H|]. change (ac_abbrevs sa_small_act) with sa_map.
  constructor; [|constructor; [|constructor; [|constructor]]].
  - sa_end (sa_intro [] []).
    + apply sa_ordinary; [|sa_true|sa_true|sa_true|sa_true]. right. eexists (lit "A" ++ lit " " ++ lit "bíróság" ++ lit " "), (lit "az 5. § (2) bekezdése és a 8. § szerint"). split; [sa_true|split; [sa_true|split; [vm_compute; lia|sa_true]]].
    + unfold sa_intro. sa_begin. a_mark. apply prose_end.
    + sa_true.
  - sa_end (sa_intro (lit " ") (lit "az" ++ lit " " ++ lit "Fgytv." ++ lit " " ++ lit "8. §-a" ++ lit " " ++ lit "alapján" ++ lit " " ++ lit "dönt" ++ [] ++ lit "." ++ [] ++ [])); [sa_usual| |].
    + unfold sa_intro. sa_begin. a_mark. a_word. eapply (prose_act_refs sa_map _ sa_act (lit "Fgytv.") (lit "8. §-a")); [apply sa_known|apply sa_eighth_here|apply sa_over; [sa_plain|discriminate|sa_true|sa_true]|sa_gaps|].
      a_word. a_word. a_mark. apply prose_end.
    + sa_true.
  - sa_end (sa_intro (lit " ") (lit "nem" ++ lit " " ++ lit "dönt" ++ [] ++ lit "." ++ [] ++ [])); [sa_usual| |].
    + unfold sa_intro. sa_begin. a_mark. a_word. a_word. a_mark. apply prose_end.
    + sa_true.
Qed.
(** The model run on it *)
Example C80_small_act_run : let '(a, o) := add_semantic_info sa_roman grammar_parse sa_small_act in
  o = Ok false /\ infos a = [mkSi [mkOut 16 36 sa_first_part; mkOut 43 48 sa_third_part] [] None; mkSi [mkOut 3 9 (only_act sa_act); mkOut 10 17 sa_eighth] [] None; mkSi [] [] None].
Proof. vm_compute. split; reflexivity. Qed.
(** An act that is named is lost when the words after it are a reference to a part without an article. *)
Theorem C80_act_is_found_refuted :
  ~ (forall rest i, snd (extract_semantic_info sa_roman grammar_parse (lit "Az Fgytv. " ++ rest) (mkAdder [] [] sa_cache)) = Ok i ->
     exists o, In o (si_outgoing i) /\ f_act (o_ref o) = Some sa_act).
Proof.
  intros H. destruct (H (lit "(2) bekezdése szerint.") (mkSi [] [] None)) as (o & [] & _). vm_compute. reflexivity.
Qed.
Print Assumptions C80_act_is_found_refuted.
