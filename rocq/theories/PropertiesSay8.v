(** C83, C84: what semantic information changes in an act, and the whole way from lines to an act. *)
From Verif Require Import ProofWritten6 PropertiesWritten PropertiesSay PropertiesSay2 PropertiesSay6 SampleSay2 PropertiesSay7 ProofSay41.
From Coq Require Import Lia.

(** * C83 *)
(** Semantic information is put into the act, and its abbreviations are replaced; nothing else is touched, also when it fails. *)
Theorem C83_rest : forall rf gp a, let '(a', o) := add_semantic_info rf gp a in blank_act a' = blank_act (with_abbrevs a (ac_abbrevs a')).
Proof. exact blank_rest. Qed.
Print Assumptions C83_rest.
(** An act is determined by its semantic information in document order and the rest of it. *)
Theorem C83_determined : forall a b, blank_act a = blank_act b -> infos a = infos b -> a = b.
Proof. exact blank_same. Qed.
Print Assumptions C83_determined.
(** So an act with sentences of the described kinds becomes exactly the act with what they say. *)
Theorem C83_act : forall rf a is n m b, roman_from_reads rf -> all_named (ac_abbrevs a) -> is_map (ac_abbrevs a) -> texts_say (ac_abbrevs a) (act_tasks a) is n ->
  learned (ac_abbrevs a) n m -> informed a is m b ->
  exists ch, add_semantic_info rf grammar_parse a = (b, Ok ch) /\
    (ch = true <-> exists l1 k x l2, n = l1 ++ (k, x) :: l2 /\ value_after (ac_abbrevs a) l1 k <> Some x).
Proof. exact told_informed. Qed.
Print Assumptions C83_act.
(** The same for one article *)
Theorem C83_rest_article : forall rf gp i a, let '(a', o) := add_semantic_info_to_article rf gp i a in blank_act a' = blank_act (with_abbrevs a (ac_abbrevs a')).
Proof. exact blank_rest_article. Qed.
Print Assumptions C83_rest_article.
Theorem C83_article_determined : forall c x y, blank_article x = blank_article y -> article_infos c x = article_infos c y -> x = y.
Proof. exact blank_article_same. Qed.
Print Assumptions C83_article_determined.
Theorem C83_article : forall rf a pre x post is n m x', roman_from_reads rf -> all_named (ac_abbrevs a) -> is_map (ac_abbrevs a) ->
  ac_children a = pre ++ ChArticle x :: post -> Forall (fun ch => forall y, ch = ChArticle y -> ar_ident y <> ar_ident x) pre ->
  texts_say (ac_abbrevs a) (article_tasks (ac_id a) x) is n -> learned (ac_abbrevs a) n m -> blank_article x' = blank_article x -> article_infos (ac_id a) x' = is ->
  exists ch, add_semantic_info_to_article rf grammar_parse (ar_ident x) a = (with_abbrevs (with_children a (pre ++ ChArticle x' :: post)) m, Ok ch) /\
    (ch = true <-> exists l1 k b l2, n = l1 ++ (k, b) :: l2 /\ value_after (ac_abbrevs a) l1 k <> Some b).
Proof. exact told_article. Qed.
Print Assumptions C83_article.
Example C83_sample : exists b, informed sa_mixed sa_mixed_says sa_now b /\ learned (ac_abbrevs sa_mixed) sa_new_name sa_now /\ b <> sa_mixed.
Proof.
  exists (fst (add_semantic_info sa_roman grammar_parse sa_mixed)). split; [split; vm_compute; reflexivity|]. split; [|intros H; apply (f_equal ac_abbrevs) in H; vm_compute in H; discriminate H].
  split; [repeat constructor|]. intros k. change (ac_abbrevs sa_mixed) with sa_map. unfold value_after. cbn [last_write sa_new_name]. cbn [sa_now sa_map sa_cache sa_new_name ca_map cache_from app map_get].
  destruct (str_eqb k (lit "Infotv.")) eqn:E; [|now destruct (str_eqb k (lit "Fgytv."))]. apply str_eqb_eq in E. subst k. reflexivity.
Qed.

(** * C84 *)
(** An act written in lines is read as exactly this act: structure, semantic information and block amendments. *)
Theorem C84_act : forall rf up raw c, roman_from_reads rf -> act_of_lines rf up raw c ->
  exists a b ch, parse_act_structure rf up raw = Ok a /\ add_semantic_info rf grammar_parse a = (b, Ok ch) /\ convert_act rf up b = (c, Ok tt).
Proof. exact lines_read. Qed.
Print Assumptions C84_act.
Theorem C84_one : forall rf up raw c c', roman_from_reads rf -> act_of_lines rf up raw c -> act_of_lines rf up raw c' -> c = c'.
Proof. exact lines_unique. Qed.
Print Assumptions C84_one.
(** The program writes out this act, for the lines after the stored fixups. *)
Theorem C84_program : forall x g st raw raw' c s, roman_from_reads (x_rf x) -> ag_until g = StepSemantic -> ag_force g = false -> has_name (ar_id raw) -> fixed_act st raw raw' ->
  act_of_lines (x_rf x) (x_up x) raw' c -> printed x g (DAct c) s -> process_single_act x g st raw = (s, Ok tt).
Proof. exact lines_processed. Qed.
Print Assumptions C84_program.

(** An act in lines *)
Definition l1 : line := ln "A cél.".
Definition l2 : line := ln "1. § A 2011. évi CXII. törvény (a továbbiakban: Infotv.) 8. §-a".
Definition l3 : line := ln "szerint dönt.".
Definition l4 : line := ln "2. § Az Infotv. 5. § (2) bekezdése helyébe a következő rendelkezés lép:".
Definition l5 : line := ln "„(2) Az új szöveg.”".
Definition l6 : line := ln "3. § Ez a törvény 2013. január 1-jén lép hatályba, és 2014. február 28-án hatályát veszti.".
Definition sa_lines : list line := [l1; l2; l3; l4; l5; l6].
Definition sa_written : act_raw := mkRaw sa_other [] default_date sa_lines.
Definition sa_cut (l : line) : line := slice l 5 None.
Definition sa_inner : line := without_last (without_first l5).
Definition sa_first_text : str := lit "A 2011. évi CXII. törvény (a továbbiakban: Infotv.) 8. §-a szerint dönt.".
Definition sa_last_text : str := lit "Ez a törvény 2013. január 1-jén lép hatályba, és 2014. február 28-án hatályát veszti.".
Definition sa_of (n : N) (b : sae_body par_children) (i : sem_info) : act_child := ChArticle (mkArticle (mkArt None (num n)) None [mkSae None b i None] None).
Definition sa_elements : list act_child :=
  [sa_of 1 (BText sa_first_text) si_default; sa_of 2 (BChildren sa_replacing (PcQuoted [mkQb None [sa_inner] None]) None) si_default; sa_of 3 (BText sa_last_text) si_default].
Definition sa_first_says : sem_info := mkSi [mkOut 2 28 (only_act sa_info); mkOut 56 63 sa_eighth_of] sa_new_name None.
Definition sa_says : list sem_info := [sa_first_says; sa_replacing_says; mkSi [] [] (Some (PhEnforcement sa_dated))].
Definition sa_with (c : par_children) : act := mkActS sa_other [] (lit "A cél.") default_date sa_new_name
  [sa_of 1 (BText sa_first_text) sa_first_says; sa_of 2 (BChildren sa_replacing c None) sa_replacing_says; sa_of 3 (BText sa_last_text) (mkSi [] [] (Some (PhEnforcement sa_dated)))].
Definition sa_result : act := sa_with (PcBlock (mkBlock None (BcParagraph [text_par (Some (num 2)) (lit "Az új szöveg.")]) None)).
(** The model run on it *)
Example C84_run : (let* a := parse_act_structure sa_roman up1 sa_written in
  let '(b, o) := add_semantic_info sa_roman grammar_parse a in let* _ := o in let '(c, o) := convert_act sa_roman up1 b in let* _ := o in Ok c) = Ok sa_result.
Proof. vm_compute. reflexivity. Qed.
Ltac no_struct_here := let ty := fresh in let j := fresh in let H := fresh in intros ty j H; apply (first_se_exact sa_roman) in H; vm_compute in H; discriminate.
Ltac an_article := split; [|split; [no_struct_here|intros j t H; apply try_subtitle_exact in H; vm_compute in H; discriminate]].
Ltac one_text x := split; [reflexivity|]; exists [], [], x; split; [reflexivity|]; split;
  [split; [reflexivity|]; intros B; apply first_in_iff in B; vm_compute in B; discriminate|];
  split; [constructor|]; split; [cbn; lia|]; split; [discriminate|]; split; [intros _; vm_compute; discriminate|]; split; [reflexivity|]; right;
  eexists; split; [reflexivity|]; split; [reflexivity|]; split; [split; reflexivity|]; split;
  [intros l tl i r E H; injection E as <- <-; apply c61_paragraph in H; vm_compute in H; discriminate|].
Ltac one_plain x := split; [fine|]; exists x; split; [reflexivity|]; split; [vm_compute; reflexivity|]; split; [|reflexivity];
  parts; intros _; apply opens_par_none; vm_compute; reflexivity.
Lemma sa_quoting : w_quoted (Some (sa_cut l4)) [mkQb None [sa_inner] None] [] [l5].
Proof.
  exists [], [], [], [[l5]], [[sa_inner]], [l5], [], [], [], [].
  split; [reflexivity|]. split; [constructor|]. split; [apply (spread_cons [] [l5] [] []); constructor|]. split; [constructor|]. split; [constructor|]. split; [constructor|].
  split; [|split; [constructor|]].
  - constructor; [|constructor]. split; [apply btw_one; [now apply first_in_iff|now apply last_in_iff|vm_compute; lia]|]. split; [fine|].
    intros a m b E Nb. destruct a as [|x [|y a]]; cbn in E; try discriminate. injection E as <- <-. congruence.
  - split; [vm_compute; discriminate|]. split; [discriminate|]. split; [intros H; now elim H|]. split; [exact I|]. split; [|vm_compute; reflexivity].
    split; [reflexivity|intros a b E; destruct a; [vm_compute; discriminate|discriminate]].
Qed.
Lemma sa_elements_written : w_act sa_roman up1 FullAct (lit "A cél.") sa_elements sa_lines.
Proof.
  exists [l1], [l2; l3; l4; l5; l6]. split; [reflexivity|]. split; [fine|]. split; [nothing|].
  split; [vm_compute; reflexivity|]. split; [discriminate|]. split; [discriminate|].
  apply (wc_cons _ _ _ _ _ (OArticle (mkArt None (num 1)) (sa_cut l2)) _ _ l2 [l3] [l4; l5; l6]).
  { an_article. split; [apply c61_article; vm_compute; reflexivity|]. intros _. split; [reflexivity|now left]. }
  { fine. }
  { nothing. }
  { one_text [sa_cut l2; l3]. one_plain [sa_cut l2; l3]. }
  apply (wc_cons _ _ _ _ _ (OArticle (mkArt None (num 2)) (sa_cut l4)) _ _ l4 [l5] [l6]).
  { an_article. split; [apply c61_article; vm_compute; reflexivity|]. split; [vm_compute; reflexivity|left; vm_compute; reflexivity]. }
  { fine. }
  { nothing. }
  { one_text [sa_cut l4; l5]. split; [fine|]. exists [sa_cut l4], [l5], [], []. split; [reflexivity|]. split; [vm_compute; reflexivity|]. split; [vm_compute; reflexivity|].
    split; [parts; intros _; apply opens_par_none; vm_compute; reflexivity|]. split; [split; [exact sa_quoting|reflexivity]|split; vm_compute; reflexivity]. }
  apply (wc_cons _ _ _ _ _ (OArticle (mkArt None (num 3)) (sa_cut l6)) _ _ l6 [] []).
  { an_article. split; [apply c61_article; vm_compute; reflexivity|]. split; [vm_compute; reflexivity|left; vm_compute; reflexivity]. }
  { fine. }
  { nothing. }
  { one_text [sa_cut l6]. one_plain [sa_cut l6]. }
  constructor.
Qed.
Lemma sa_only_named rest : act_named sa_new_name sa_info rest [] (lit "Infotv.").
Proof.
  apply (by_abbreviation _ _ _ 73 (lit "nfotv.")).
  - intros [H1 H2]. vm_compute in H1, H2. congruence.
  - vm_compute. intuition discriminate.
  - left. reflexivity.
  - intros b [E|[]]. now injection E.
  - intros k b [E|[]] (r & B). injection E as <- _. reflexivity.
Qed.
Definition sa_first_speech : str := lit "A" ++ lit " " ++ ((lit "2011. évi CXII. törvény" ++ []) ++ lit " (a továbbiakban" ++ lit ": " ++ lit "Infotv." ++ lit ")") ++ lit " " ++ lit "8. §-a" ++ lit " " ++
  lit "szerint" ++ lit " " ++ lit "dönt" ++ [] ++ lit "." ++ [] ++ [].
Lemma sa_first_read : exists l, speech [] sa_first_speech sa_new_name 0 [] sa_first_speech l sa_new_name /\ l = [mkOut 2 28 (only_act sa_info); mkOut 56 63 sa_eighth_of].
Proof.
  eexists. split.
  - match goal with |- speech ?m ?x ?all ?o ?b _ ?l _ => change (speech m x all o b sa_first_speech l (sa_new_name ++ [])) end. set (text := sa_first_speech) at 1. unfold sa_first_speech.
    b_word. eapply (speech_act_refs [] text _ _ _ sa_info); [|apply sa_eighth_there|apply sa_over; [sa_plain|discriminate|sa_true|sa_true]|sa_gaps|].
    { apply (spoken_new _ _ _ _ _ _ (lit "2011. évi CXII. törvény") [] (lit ": ") (lit "Infotv.")); [reflexivity|vm_compute; discriminate|vm_compute; reflexivity|constructor|member|apply sa_abbreviation; sa_true]. }
    b_word. b_word. b_mark. apply speech_end.
  - vm_compute. reflexivity.
Qed.
Lemma sa_first_told : text_says [] (mkTask [] sa_first_text [] false) sa_first_says sa_new_name.
Proof.
  apply says_speech. destruct sa_first_read as (l & P & ->).
  eapply (sa_spoken [] [] sa_first_text [] false sa_first_speech); [sa_true|intros H; apply (f_equal (@List.length char)) in H; vm_compute in H; discriminate H| |exact P| |sa_true].
  - apply sa_everyday; [left; sa_true|sa_true|sa_true|sa_true].
  - split; [apply sa_one_map|]. intros k. reflexivity.
Qed.
Definition sa_parsed : act := mkActS sa_other [] (lit "A cél.") default_date [] sa_elements.
Lemma sa_parsed_says : texts_say [] (act_tasks sa_parsed) sa_says sa_new_name.
Proof.
  change sa_new_name with (sa_new_name ++ [] ++ [] ++ []) at 1.
  assert (M : is_map sa_new_name) by apply sa_one_map.
  assert (L : learned sa_new_name [] sa_new_name) by (split; [exact M|reflexivity]).
  apply texts_say_more with (m1 := sa_new_name); [|split; [exact M|intros k; unfold value_after; cbn [last_write sa_new_name map_get]; now destruct (str_eqb k (lit "Infotv."))]|
    apply texts_say_more with (m1 := sa_new_name); [|exact L|apply texts_say_more with (m1 := sa_new_name); [|exact L|constructor]]].
  - exact sa_first_told.
  - change (text_says sa_new_name (mkTask [] sa_replacing [] true) (mkSi (si_outgoing sa_replacing_says) [] (phrase_kept true (si_phrase sa_replacing_says))) []).
    eapply (says_special sa_new_name (mkTask [] sa_replacing [] true) sa_replacing sa_replacing sa_replacing_says); [apply sa_sentence; sa_true|apply sa_sentence; sa_true| |].
    + apply (special_replacement _ sa_info sa_second _ _ sa_second_ok eq_refl).
      replace sa_replacing with (lit "Az " ++ [] ++ lit "Infotv." ++ lit " " ++ lit "5. § (2) bekezdése" ++ lit " helyébe a következő rendelkezés lép:") by (vm_compute; reflexivity).
      replace sa_replacing_says with (SpecSay.amending (lit "Az " ++ []) (lit "Infotv.") (lit " ") (lit "5. § (2) bekezdése") sa_info sa_second (amendment sa_second false)) by (vm_compute; reflexivity).
      apply replacement_of; [member|apply sa_only_named|exact sa_paragraph_said|member].
    + match goal with |- kept ?b ?e ?l ?k => replace k with (keep_map (adjust b e) l) by (vm_compute; reflexivity); apply ProofSem3.kept_spec end.
  - change (text_says sa_new_name (mkTask [] sa_last_text [] false) (mkSi [] [] (phrase_kept false (Some (PhEnforcement sa_dated)))) []).
    eapply (says_special sa_new_name (mkTask [] _ [] false) _ _ (mkSi [] [] (Some (PhEnforcement sa_dated)))); [apply sa_sentence; sa_true| |exact (special_enforced _ _ _ sa_dated_said)|constructor]. apply sa_sentence; sa_true.
Qed.
(** One article of it: the other articles stay without information. *)
Definition sa_first_article (i : sem_info) : article := mkArticle (mkArt None (num 1)) None [mkSae None (BText sa_first_text) i None] None.
Example C83_article_sample : ac_children sa_parsed = [] ++ ChArticle (sa_first_article si_default) :: tl sa_elements /\
  texts_say (ac_abbrevs sa_parsed) (article_tasks (ac_id sa_parsed) (sa_first_article si_default)) [sa_first_says] sa_new_name /\ learned (ac_abbrevs sa_parsed) sa_new_name sa_new_name /\
  blank_article (sa_first_article sa_first_says) = blank_article (sa_first_article si_default) /\ article_infos (ac_id sa_parsed) (sa_first_article sa_first_says) = [sa_first_says].
Proof.
  split; [reflexivity|].
  assert (L : learned [] sa_new_name sa_new_name) by (split; [apply sa_one_map|intros k; unfold value_after; cbn [last_write sa_new_name map_get]; now destruct (str_eqb k (lit "Infotv."))]).
  split; [|split; [exact L|split; reflexivity]].
  change sa_new_name with (sa_new_name ++ []) at 1. apply texts_say_more with (m1 := sa_new_name); [exact sa_first_told|exact L|constructor].
Qed.
Lemma sa_amended : w_amended sa_second (BcParagraph [text_par (Some (num 2)) (lit "Az új szöveg.")]) [sa_inner].
Proof.
  change (exists a ls', f_article sa_second = Some a /\ after_article_header (r_start a) [sa_inner] ls' /\
      w_from par_hd par_succ opens_par (w_par_children BlockAm) (Some (num 2)) [text_par (Some (num 2)) (lit "Az új szöveg.")] ls').
  exists (sa_article 5), [sa_inner]. split; [reflexivity|]. split.
  - right. split; [reflexivity|]. intros l tl t E H. injection E as <- <-. vm_compute in H. discriminate H.
  - eexists _, _, sa_inner, []. split; [reflexivity|]. split; [reflexivity|]. split; [reflexivity|].
    apply (w_last _ _ _ _ _ _ _ _ _ _ sa_inner [] (slice sa_inner 4 None)).
    + apply c61_paragraph. vm_compute. reflexivity.
    + fine.
    + parts.
    + split; reflexivity.
    + split; [|split; reflexivity]. text_ex (slice sa_inner 4 None).
Qed.
Example C84_sample : roman_from_reads sa_roman /\ act_of_lines sa_roman up1 sa_written sa_result.
Proof.
  split; [exact roman_read_reads|]. apply (act_of_lines_is _ _ _ _ (lit "A cél.") sa_elements sa_parsed sa_says sa_new_name sa_new_name (sa_with (PcQuoted [mkQb None [sa_inner] None]))).
  - unfold sa_written, ar_body, sa_lines. repeat (constructor; [clean|]). constructor.
  - exact sa_elements_written.
  - reflexivity.
  - exact sa_parsed_says.
  - split; [apply sa_one_map|]. intros k. unfold value_after. cbn [last_write sa_new_name map_get]. now destruct (str_eqb k (lit "Infotv.")).
  - split; reflexivity.
  - repeat (split; [reflexivity|]). constructor; [|constructor; [|constructor; [|constructor]]]; (repeat (split; [reflexivity|]); constructor; [|constructor]).
    + right. split; [|reflexivity]. intros [A _]. exact A.
    + left. split; [split; [exact I|eexists _, _, _; reflexivity]|].
      eexists _, _, _, _. split; [reflexivity|]. split; [reflexivity|]. split; [constructor; [clean|constructor]|]. eexists. split; [reflexivity|exact sa_amended].
    + right. split; [|reflexivity]. intros [A _]. exact A.
Qed.
