(** C81, C82: sentences which introduce abbreviations, and acts with sentences of every kind. *)
From Verif Require Import SampleSay2.
From Coq Require Import Lia.
Local Open Scope N_scope.

(** * C81 *)
(** A text whose sentence has no special meaning but may introduce abbreviations: the references said in it are found, an
    abbreviation introduced in the sentence means its act in it, and the abbreviations are learned. *)
Theorem C81_text : forall rf c pre post own i n, roman_from_reads rf -> all_named (ca_map c) ->
  spoken_task (ca_map c) (mkTask (top pre) own (top post) false) i n ->
  exists c', extract_semantic_info rf grammar_parse own (mkAdder pre post c) = (mkAdder pre post c', Ok i) /\
    (is_map (ca_map c) -> learned (ca_map c) n (ca_map c')).
Proof. exact (fun rf c pre post own i n H => spoken_text rf H pre post c own i n). Qed.
Print Assumptions C81_text.
(** * C82 *)
(** In an act with sentences of any of the described kinds (C71-C81) every text gets what its sentence says, with the abbreviations
    of the act and of the sentences before it; the act learns all abbreviations, says whether they are new, and is not changed otherwise. *)
Theorem C82_act : forall rf a is n, roman_from_reads rf -> all_named (ac_abbrevs a) -> is_map (ac_abbrevs a) -> texts_say (ac_abbrevs a) (act_tasks a) is n ->
  exists a' ch, add_semantic_info rf grammar_parse a = (a', Ok ch) /\ infos a' = is /\ learned (ac_abbrevs a) n (ac_abbrevs a') /\
    bare_act a' = bare_act (with_abbrevs a (ac_abbrevs a')) /\
    (ch = true <-> exists l1 k b l2, n = l1 ++ (k, b) :: l2 /\ value_after (ac_abbrevs a) l1 k <> Some b).
Proof. exact (fun rf a is n H => told_act_all rf H a is n). Qed.
Print Assumptions C82_act.

(** A sentence which introduces "Infotv." and uses it *)
Definition sa_info : act_id := mkAct 2011 112.
Definition sa_new_name : list (str * act_id) := [(lit "Infotv.", sa_info)].
Definition sa_second : reference := mkRef (Some sa_info) (Some (sa_article 5)) (Some (sa_one (sa_num 2))) None None.
Definition sa_eighth_of : reference := mkRef (Some sa_info) (Some (sa_article 8)) None None None.
Definition sa_speech : str := lit "A" ++ lit " " ++ ((lit "2011. évi CXII. törvény" ++ []) ++ lit " (a továbbiakban" ++ lit ": " ++ lit "Infotv." ++ lit ")") ++ lit " " ++ lit "8. §-a" ++ lit " " ++
  lit "szerint" ++ lit " " ++ lit "az" ++ lit " " ++ lit "Infotv." ++ lit " " ++ lit "5. § (2) bekezdése" ++ lit " " ++ lit "és" ++ lit " " ++ lit "az" ++ lit " " ++ lit "Fgytv." ++ lit " " ++ lit "alapján" ++ lit " " ++ lit "dönt" ++ [] ++ lit "." ++ [] ++ [].
Lemma sa_eighth_new o : exists l, said_list (only_act sa_info) o (lit "8. §-a") l /\ l = [mkOut o (o + 7) sa_eighth_of].
Proof.
  eexists. split.
  - apply (said_one (only_act sa_info) _ sa_third_part (lit "8. §-a")). constructor; [readable_low|reflexivity| |unfold resume; cbn; well].
    apply (ended_last (PartArticle (sa_article 8)) (lit "8.") (lit "§") (lit "§-a") (lit "-a")); [apply said_article; left; split; vm_compute; reflexivity|].
    apply (ending_article _ (lit "a")); [discriminate|small_word].
  - reflexivity.
Qed.
Lemma sa_second_new o : exists l, said_list (only_act sa_info) o (lit "5. § (2) bekezdése") l /\ l = [mkOut o (o + 20) sa_second].
Proof.
  eexists. split.
  - apply (said_one (only_act sa_info) _ sa_first_part (lit "5. § (2) bekezdése")). constructor; [readable_low|reflexivity|exact sa_paragraph_said|unfold resume; cbn; well].
  - reflexivity.
Qed.
Lemma sa_eighth_there o : said_list (only_act sa_info) o (lit "8. §-a") [mkOut o (o + 7) sa_eighth_of].
Proof. destruct (sa_eighth_new o) as (l & S & ->). exact S. Qed.
Lemma sa_second_there o : said_list (only_act sa_info) o (lit "5. § (2) bekezdése") [mkOut o (o + 20) sa_second].
Proof. destruct (sa_second_new o) as (l & S & ->). exact S. Qed.
Lemma sa_speech_read : exists l, speech sa_map sa_speech sa_new_name 0 [] sa_speech l sa_new_name /\ l =
  [mkOut 2 28 (only_act sa_info); mkOut 56 63 sa_eighth_of; mkOut 75 82 (only_act sa_info); mkOut 83 103 sa_second; mkOut 111 117 (only_act sa_act)].
Proof.
  eexists. split.
  - match goal with |- speech ?m ?x ?all ?o ?b _ ?l _ => change (speech m x all o b sa_speech l (sa_new_name ++ [] ++ [] ++ [])) end. set (text := sa_speech) at 1. unfold sa_speech.
    b_word. eapply (speech_act_refs sa_map text _ _ _ sa_info); [|apply sa_eighth_there|apply sa_over; [sa_plain|discriminate|sa_true|sa_true]|sa_gaps|].
    { apply (spoken_new _ _ _ _ _ _ (lit "2011. évi CXII. törvény") [] (lit ": ") (lit "Infotv.")); [reflexivity|vm_compute; discriminate|vm_compute; reflexivity|constructor|member|apply sa_abbreviation; sa_true]. }
    b_word. b_word. eapply (speech_act_refs sa_map text _ _ _ sa_info); [|apply sa_second_there| |sa_gaps|].
    { apply sa_spoken_known; sa_true. }
    { match goal with |- list_over ?x => replace x with (lit " és az " ++ lit "Fgytv" ++ lit ". alapján dönt.") by (vm_compute; reflexivity) end.
      apply lo_more; [member|apply (sa_starts sa_white); [intros c; apply sa_white_is|sa_true]|apply nr_word; sa_plain|].
      intros k J. apply sa_begins. cbn in J. repeat (destruct J as [<-|J]; [sa_true|]). contradiction. }
    b_word. b_word. eapply (speech_act sa_map text _ _ _ sa_act); [apply sa_spoken_known; sa_true|apply nra_space; [apply (sa_starts sa_white); [intros c; apply sa_white_is|sa_true]|apply nr_word; sa_plain]|sa_gaps|].
    b_word. b_word. b_mark. apply speech_end.
  - vm_compute. reflexivity.
Qed.
Definition sa_introducing : str := lit "A 2011. évi CXII. törvény (a továbbiakban: Infotv.) 8. §-a szerint az Infotv. 5. § (2) bekezdése és az Fgytv. alapján dönt.".
Definition sa_introducing_says : sem_info :=
  mkSi [mkOut 2 28 (only_act sa_info); mkOut 56 63 sa_eighth_of; mkOut 75 82 (only_act sa_info); mkOut 83 103 sa_second; mkOut 111 117 (only_act sa_act)] sa_new_name None.
Lemma sa_one_map (k : str) (a : act_id) : is_map [(k, a)].
Proof. repeat constructor. Qed.
Lemma sa_introducing_said intro : spoken_task sa_map (mkTask [] sa_introducing [] intro) sa_introducing_says sa_new_name.
Proof.
  destruct sa_speech_read as (l & P & ->). eapply (sa_spoken _ _ _ _ _ sa_speech); [sa_true|intros H; apply (f_equal (@List.length char)) in H; vm_compute in H; discriminate H| |exact P| |sa_true].
  - apply sa_everyday; [left; sa_true|sa_true|sa_true|sa_true].
  - split; [apply sa_one_map|]. intros k. reflexivity.
Qed.
Example C81_sample : all_named sa_map /\ spoken_task sa_map (mkTask [] sa_introducing [] false) sa_introducing_says sa_new_name /\
  extract_semantic_info sa_roman grammar_parse sa_introducing (mkAdder [] [] sa_cache) = (mkAdder [] [] (mkCache (sa_map ++ sa_new_name) true), Ok sa_introducing_says).
Proof.
  split; [intros b [H|[]]; discriminate H|]. split; [apply sa_introducing_said|]. vm_compute. reflexivity.
Qed.
(** An abbreviation introduced again in the same sentence changes the meaning of the words before that. *)
Theorem C81_order_refuted :
  ~ (forall rest i, snd (extract_semantic_info sa_roman grammar_parse (lit "Az Fgytv. 8. §-a " ++ rest) (mkAdder [] [] sa_cache)) = Ok i ->
     exists o, In o (si_outgoing i) /\ f_act (o_ref o) = Some sa_act).
Proof.
  intros H. edestruct (H (lit "és a 2011. évi CXII. törvény (a továbbiakban: Fgytv.) szerint.")) as (o & J & A); [vm_compute; reflexivity|].
  cbn [si_outgoing In] in J. repeat (destruct J as [<-|J]; [discriminate A|]). contradiction.
Qed.
Print Assumptions C81_order_refuted.

(** An act that introduces the abbreviation, amends with it in the next article, and says when it comes into force in a sentence with a point *)
Definition sa_now : list (str * act_id) := sa_map ++ sa_new_name.
Definition sa_quoted : quoted_block := mkQb None [] None.
Definition sa_art (n : N) (b : sae_body par_children) : act_child := ChArticle (mkArticle (mkArt None (mkNum n None)) None [mkSae None b si_default None] None).
Definition sa_replacing : str := lit "Az Infotv. 5. § (2) bekezdése helyébe a következő rendelkezés lép:".
Definition sa_mixed : act := mkActS sa_other [] [] default_date sa_map
  [sa_art 1 (BText sa_introducing); sa_art 2 (BChildren sa_replacing (PcQuoted [sa_quoted]) None);
   sa_art 3 (BChildren (lit "Ez a törvény") (PcAlpha [sa_point 97 "2013. január 1-jén lép hatályba, és 2014. február 28-án hatályát veszti."]) None)].
Definition sa_replacing_says : sem_info := mkSi [mkOut 3 10 (only_act sa_info); mkOut 11 31 sa_second] [] (Some (PhBlock (mkBaPhrase sa_second false))).
Definition sa_mixed_says : list sem_info := [sa_introducing_says; sa_replacing_says; mkSi [] [] None; mkSi [] [] (Some (PhEnforcement sa_dated))].
Lemma sa_info_named rest : act_named sa_now sa_info rest [] (lit "Infotv.").
Proof.
  apply (by_abbreviation _ _ _ 73 (lit "nfotv.")).
  - intros [H1 H2]. vm_compute in H1, H2. congruence.
  - vm_compute. intuition discriminate.
  - right. left. reflexivity.
  - intros b [E|[E|[]]]; [discriminate E|now injection E].
  - intros k b [E|[E|[]]] (r & B); injection E as <- _; [discriminate B|reflexivity].
Qed.
Lemma sa_second_ok : readable_ref sa_second. Proof. readable. Qed.
Lemma sa_sentence before own after intro text : assemble before own after = text -> sentence (mkTask before own after intro) text.
Proof. intros <-. exact (ProofSem3.assemble_sentence (mkTask before own after intro)). Qed.
Lemma sa_dated_said : enforced sa_dated (lit "Ez a törvény 2013. január 1-jén lép hatályba, és 2014. február 28-án hatályát veszti.").
Proof.
  replace (lit "Ez a törvény 2013. január 1-jén lép hatályba, és 2014. február 28-án hatályát veszti.") with (lit "Ez a törvény " ++ lit "2013. január 1-jén" ++ lit " lép hatályba" ++ lit ", és 2014. február 28-án hatályát veszti" ++ lit ".") by (vm_compute; reflexivity).
  apply (enforced_act _ (lit "Ez a törvény ") (lit "2013. január 1-jén") (lit ", és 2014. február 28-án hatályát veszti")); try reflexivity; [now left| |].
  - apply on_a_date, sa_first.
  - apply (repealed_on (sa_date 2014 2 28) (lit ", és ") (lit "2014. február 28-án")); [do 3 right; now left|exact sa_last].
Qed.
Example C82_sample : all_named (ac_abbrevs sa_mixed) /\ is_map (ac_abbrevs sa_mixed) /\ texts_say (ac_abbrevs sa_mixed) (act_tasks sa_mixed) sa_mixed_says sa_new_name.
Proof.
  split; [intros b [H|[]]; discriminate H|]. split; [apply sa_one_map|]. change (ac_abbrevs sa_mixed) with sa_map.
  change sa_new_name with (sa_new_name ++ [] ++ [] ++ [] ++ []) at 1.
  assert (M : is_map sa_now) by (repeat constructor).
  assert (L : learned sa_now [] sa_now) by (split; [exact M|reflexivity]).
  apply (texts_say_more) with (m1 := sa_now).
  - apply says_speech, sa_introducing_said.
  - split; [exact M|]. intros k. unfold value_after. cbn [last_write sa_new_name]. cbn [sa_now sa_map sa_cache sa_new_name ca_map cache_from app map_get].
    destruct (str_eqb k (lit "Infotv.")) eqn:E; [|now destruct (str_eqb k (lit "Fgytv."))]. apply str_eqb_eq in E. subst k. reflexivity.
  - apply texts_say_more with (m1 := sa_now); [|exact L|apply texts_say_more with (m1 := sa_now); [|exact L|apply texts_say_more with (m1 := sa_now); [|exact L|constructor]]].
    + change (text_says sa_now (mkTask [] sa_replacing [] true) (mkSi (si_outgoing sa_replacing_says) [] (phrase_kept true (si_phrase sa_replacing_says))) []).
      eapply (says_special sa_now (mkTask [] sa_replacing [] true) sa_replacing sa_replacing sa_replacing_says); [apply sa_sentence; sa_true|apply sa_sentence; sa_true| |].
      * apply (special_replacement _ sa_info sa_second _ _ sa_second_ok eq_refl).
        replace sa_replacing with (lit "Az " ++ [] ++ lit "Infotv." ++ lit " " ++ lit "5. § (2) bekezdése" ++ lit " helyébe a következő rendelkezés lép:") by (vm_compute; reflexivity).
        replace sa_replacing_says with (amending (lit "Az " ++ []) (lit "Infotv.") (lit " ") (lit "5. § (2) bekezdése") sa_info sa_second (amendment sa_second false)) by (vm_compute; reflexivity).
        apply replacement_of; [member|apply sa_info_named|exact sa_paragraph_said|member].
      * match goal with |- kept ?b ?e ?l ?k => replace k with (keep_map (adjust b e) l) by (vm_compute; reflexivity); apply ProofSem3.kept_spec end.
    + apply says_speech. eapply (sa_spoken sa_now _ _ _ _ (lit "Ez" ++ lit " " ++ lit "a" ++ lit " " ++ lit "törvény" ++ [] ++ lit "." ++ [] ++ [])); [sa_true|discriminate| | | |].
      * apply sa_everyday; [left; sa_true|sa_true|sa_true|sa_true].
      * b_word. b_word. b_word. b_mark. apply speech_end.
      * split; [constructor|reflexivity].
      * reflexivity.
    + change (text_says sa_now (mkTask (lit "Ez a törvény ") (lit "2013. január 1-jén lép hatályba, és 2014. február 28-án hatályát veszti.") [] false) (mkSi [] [] (phrase_kept false (Some (PhEnforcement sa_dated)))) []).
      eapply (says_special sa_now (mkTask (lit "Ez a törvény ") _ [] false) _ _ (mkSi [] [] (Some (PhEnforcement sa_dated)))); [apply sa_sentence; sa_true| |exact (special_enforced _ _ _ sa_dated_said)|constructor]. apply sa_sentence; sa_true.
Qed.
(** The model run on it *)
Example C82_run : let '(a', o) := add_semantic_info sa_roman grammar_parse sa_mixed in
  o = Ok true /\ infos a' = sa_mixed_says /\ ac_abbrevs a' = sa_now.
Proof. vm_compute. repeat split. Qed.
