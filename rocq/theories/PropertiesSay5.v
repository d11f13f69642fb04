(** C79-: sentences which replace and add elements in a part of an act, or do both. *)
From Verif Require Import PropertiesSay PropertiesSay2 PropertiesSay3 PropertiesSay4 ProofSay32.
From Coq Require Import Lia.
Local Open Scope N_scope.

(** * C79 *)
(** A sentence that replaces elements of an act, adds them, or does both at once: the act is found, and each of the elements at
    its place, nothing else is; the position of the amendment is from the first to the last of the elements; whole
    articles are put under the structural element they are said to be in. *)
Theorem C79_block : forall rf c pre post a s info, roman_from_reads rf -> top pre = [] -> top post = [] ->
  block_sentence (ca_map c) a s info ->
  extract_semantic_info rf grammar_parse s (mkAdder pre post c) = (mkAdder pre post c, Ok info).
Proof. exact (fun rf c pre post a s info H => block_sentence_read rf c H pre post a s info). Qed.
Print Assumptions C79_block.
Definition sa_five : article_id := mkArt None (sa_num 5).
Definition sa_only (x : article_id) : reference := mkRef (Some sa_act) (Some (sa_one x)) None None None.
Definition sa_third_par : reference := mkRef (Some sa_act) (Some (sa_article 5)) (Some (mkRange (mkNum 2 (Some (sa_la "a"))) (mkNum 2 (Some (sa_la "b"))))) None None.
Definition sa_pars : reference := mkRef (Some sa_act) (Some (sa_article 5)) (Some (mkRange (sa_num 2) (mkNum 2 (Some (sa_la "b"))))) None None.
Lemma sa_five_ok : readable_ref (sa_only sa_five). Proof. readable. Qed.
Lemma sa_fifth_ok : readable_ref (sa_only sa_fifth). Proof. readable. Qed.
Lemma sa_third_ok : readable_ref sa_third_par. Proof. readable. Qed.
Lemma sa_five_said : said_ended (lower_parts (sa_only sa_five)) (lit "5. §-a").
Proof. apply (sa_one_article sa_five (lit "5.") (lit "-a") (lit "a")); [reflexivity|exact I|reflexivity|reflexivity|small_word|discriminate]. Qed.
Lemma sa_fifth_added : inserted_phrase (lower_parts (sa_only sa_fifth)) (lit " " ++ lit "a következő" ++ lit " ") (lit "5/A. §-sal").
Proof. apply (inserted_article (sa_one sa_fifth) (lit "a következő")); [member|apply sa_fifth_with]. Qed.
Lemma sa_position r r' x : readable_ref r -> readable_ref r' -> position_of [r; r'] = Ok x -> amended_position [r; r'] x.
Proof. intros A B E. apply position_spec; [|exact E]. constructor; [apply A|]. constructor; [apply B|constructor]. Qed.
(** Added in a part *)
Example C79_sample :
  (exists s info, block_sentence (ca_map sa_cache) sa_act s info /\
   s = lit "Az Fgytv. Második Része a következő 5/A. §-sal egészül ki:" /\
   info = mkSi [mkOut 3 9 (only_act sa_act); mkOut 40 51 (sa_only sa_fifth)] [] (Some (PhStructural (mkSbaPhrase (mkSRef (Some sa_act) None (Some (SpPart (sa_num 2))) (SeArticle (sa_one sa_fifth)) false) true)))) /\
  sa_read "Az Fgytv. Második Része a következő 5/A. §-sal egészül ki:" sa_cache =
    Ok (mkSi [mkOut 3 9 (only_act sa_act); mkOut 40 51 (sa_only sa_fifth)] [] (Some (PhStructural (mkSbaPhrase (mkSRef (Some sa_act) None (Some (SpPart (sa_num 2))) (SeArticle (sa_one sa_fifth)) false) true)))).
Proof.
  split; [|vm_compute; reflexivity]. do 2 eexists. split.
  - apply (block_sentence_of _ _ (lit "Az ") [] (lit "Fgytv.")); [member|apply sa_short|].
    eapply (block_added _ _ _ (Some (SpPart (sa_num 2))) (lit " " ++ lit "Második Része") (sa_only sa_fifth)); [exact (in_element _ _ _ sa_resz)|exact sa_fifth_ok|reflexivity|exact sa_fifth_added|]. instantiate (1 := lit " egészül ki:"). member.
  - split; vm_compute; reflexivity.
Qed.
(** Both, the act and the part named again *)
Example C79_both :
  (exists s info, block_sentence (ca_map sa_cache) sa_act s info /\
   s = lit "Az Fgytv. Második Része 5. §-a helyébe a következő rendelkezés lép, és az Fgytv. Második Része a következő 5/A. §-sal egészül ki:" /\
   info = mkSi [mkOut 3 9 (only_act sa_act); mkOut 26 33 (sa_only sa_five); mkOut 120 131 (sa_only sa_fifth)] []
     (Some (PhStructural (mkSbaPhrase (mkSRef (Some sa_act) None (Some (SpPart (sa_num 2))) (SeArticle (mkRange sa_five sa_fifth)) false) false)))) /\
  sa_read "Az Fgytv. Második Része 5. §-a helyébe a következő rendelkezés lép, és az Fgytv. Második Része a következő 5/A. §-sal egészül ki:" sa_cache =
    Ok (mkSi [mkOut 3 9 (only_act sa_act); mkOut 26 33 (sa_only sa_five); mkOut 120 131 (sa_only sa_fifth)] []
     (Some (PhStructural (mkSbaPhrase (mkSRef (Some sa_act) None (Some (SpPart (sa_num 2))) (SeArticle (mkRange sa_five sa_fifth)) false) false)))).
Proof.
  split; [|vm_compute; reflexivity]. do 2 eexists. split.
  - apply (block_sentence_of _ _ (lit "Az ") [] (lit "Fgytv.")); [member|apply sa_short|].
    apply (block_replaced_and_added _ _ _ (Some (SpPart (sa_num 2))) (lit " " ++ lit "Második Része") (sa_only sa_five) (lit "5. §-a") (lit " helyébe a következő rendelkezés lép") (lit "," ++ (lit " " ++ lit "és" ++ [])) (lit " " ++ lit "az " ++ lit "Fgytv.")
      (lit " " ++ lit "Második Része") (sa_only sa_fifth) (lit " " ++ lit "a következő" ++ lit " ") (lit "5/A. §-sal") (lit " egészül ki:") (mkRef (Some sa_act) (Some (mkRange sa_five sa_fifth)) None None None)).
    + exact (in_element _ _ _ sa_resz).
    + exact sa_five_ok.
    + reflexivity.
    + exact sa_five_said.
    + member.
    + apply (joined_words (lit ",") (lit " " ++ lit "és" ++ [])); [member| |discriminate]. apply (word_joined (lit "és") []); [member|constructor].
    + apply (again_named _ _ _ (lit "az ") (lit "Fgytv.")); [member|apply sa_short].
    + right. exact (in_element _ _ _ sa_resz).
    + exact sa_fifth_ok.
    + reflexivity.
    + exact sa_fifth_added.
    + member.
    + apply sa_position; [exact sa_five_ok|exact sa_fifth_ok|vm_compute; reflexivity].
  - split; vm_compute; reflexivity.
Qed.
(** Both, with paragraphs, nothing named again *)
Example C79_paragraphs :
  (exists s info, block_sentence (ca_map sa_cache) sa_act s info /\
   s = lit "Az Fgytv. 5. § (2) bekezdése helyébe a következő rendelkezés lép, valamint ezzel egyidejűleg 5. §-a a következő (2a)–(2b) bekezdéssel egészül ki:" /\
   info = mkSi [mkOut 3 9 (only_act sa_act); mkOut 10 30 sa_paragraph; mkOut 101 147 sa_third_par] [] (Some (PhBlock (mkBaPhrase sa_pars false)))) /\
  sa_read "Az Fgytv. 5. § (2) bekezdése helyébe a következő rendelkezés lép, valamint ezzel egyidejűleg 5. §-a a következő (2a)–(2b) bekezdéssel egészül ki:" sa_cache =
    Ok (mkSi [mkOut 3 9 (only_act sa_act); mkOut 10 30 sa_paragraph; mkOut 101 147 sa_third_par] [] (Some (PhBlock (mkBaPhrase sa_pars false)))).
Proof.
  split; [|vm_compute; reflexivity]. do 2 eexists. split.
  - apply (block_sentence_of _ _ (lit "Az ") [] (lit "Fgytv.")); [member|apply sa_short|].
    apply (block_replaced_and_added _ _ _ None [] sa_paragraph (lit "5. § (2) bekezdése") (lit " helyébe a következő rendelkezés lép") (lit "," ++ (lit " " ++ lit "valamint" ++ (lit " " ++ lit "ezzel" ++ (lit " " ++ lit "egyidejűleg" ++ [])))) []
      [] sa_third_par (lit " ") (lit "5. §-a" ++ lit " " ++ lit "a következő" ++ lit " " ++ lit "(2a)–(2b)" ++ lit " " ++ lit "bekezdés" ++ lit "sel") (lit " egészül ki:") sa_pars).
    + exact in_no_element.
    + exact sa_paragraph_ok.
    + reflexivity.
    + exact sa_paragraph_said.
    + member.
    + apply (joined_words (lit ",") (lit " " ++ lit "valamint" ++ (lit " " ++ lit "ezzel" ++ (lit " " ++ lit "egyidejűleg" ++ [])))); [member| |discriminate]. apply (word_joined (lit "valamint") (lit " " ++ lit "ezzel" ++ (lit " " ++ lit "egyidejűleg" ++ []))); [member|].
      apply (word_joined (lit "ezzel") (lit " " ++ lit "egyidejűleg" ++ [])); [member|]. apply (word_joined (lit "egyidejűleg") []); [member|constructor].
    + apply not_named_again. split; [intros H; apply sa_has_in in H; vm_compute in H; discriminate|]. intros k b [E|[]] H. injection E as <- _. apply sa_has_in in H. vm_compute in H. discriminate.
    + now left.
    + exact sa_third_ok.
    + reflexivity.
    + apply (inserted_under [PartArticle (sa_article 5)] _ (lit "5. §-a") (lit "a következő") (lit "(2a)–(2b)" ++ lit " " ++ lit "bekezdés" ++ lit "sel")); [discriminate|exact sa_five_said|member|].
      apply (ended_last _ (lit "(2a)–(2b)") (lit "bekezdés") (lit "bekezdése") (lit "sel")).
      * apply said_paragraph. right. split; vm_compute; [congruence|reflexivity].
      * apply ending_other; [discriminate|small_word].
    + member.
    + apply sa_position; [exact sa_paragraph_ok|exact sa_third_ok|vm_compute; reflexivity].
  - split; vm_compute; reflexivity.
Qed.
(** ** What is not read *)
(** The element which only what is added is said to be in is lost. *)
Theorem C79_second_element_refuted :
  ~ (forall rf c pre post a az title name r s e j n p sp r' gap s' e' x, roman_from_reads rf -> top pre = [] -> top post = [] ->
     In az the -> act_named (ca_map c) a (lit " " ++ s ++ e ++ j ++ n ++ sp ++ gap ++ s' ++ e') title name ->
     readable_ref r -> f_act r = Some a -> said_ended (lower_parts r) s -> In (e ++ lit ":") replacement_endings -> joined_by j ->
     named_again (ca_map c) a (sp ++ gap ++ s' ++ e') n -> within_element p sp ->
     readable_ref r' -> f_act r' = Some a -> inserted_phrase (lower_parts r') gap s' -> In e' insertion_endings -> amended_position [r; r'] x ->
     exists l, snd (extract_semantic_info rf grammar_parse (az ++ title ++ name ++ lit " " ++ s ++ e ++ j ++ n ++ sp ++ gap ++ s' ++ e') (mkAdder pre post c)) = Ok (mkSi l [] (Some (amendment_in p x false)))).
Proof.
  intros H. destruct (H sa_roman sa_cache [] [] sa_act (lit "Az ") [] (lit "Fgytv.") (sa_only sa_five) (lit "5. §-a") (lit " helyébe a következő rendelkezés lép") (lit "," ++ (lit " " ++ lit "és" ++ [])) (lit " " ++ lit "az " ++ lit "Fgytv.")
      (Some (SpPart (sa_num 2))) (lit " " ++ lit "Második Része") (sa_only sa_fifth) (lit " " ++ lit "a következő" ++ lit " ") (lit "5/A. §-sal") (lit " egészül ki:") (mkRef (Some sa_act) (Some (mkRange sa_five sa_fifth)) None None None)
      roman_read_reads eq_refl eq_refl ltac:(member) (sa_short _) sa_five_ok eq_refl sa_five_said ltac:(member)) as (l & E).
  - apply (joined_words (lit ",") (lit " " ++ lit "és" ++ [])); [member| |discriminate]. apply (word_joined (lit "és") []); [member|constructor].
  - apply (again_named _ _ _ (lit "az ") (lit "Fgytv.")); [member|apply sa_short].
  - exact (in_element _ _ _ sa_resz).
  - exact sa_fifth_ok.
  - reflexivity.
  - exact sa_fifth_added.
  - member.
  - apply sa_position; [exact sa_five_ok|exact sa_fifth_ok|vm_compute; reflexivity].
  - vm_compute in E. discriminate E.
Qed.
Print Assumptions C79_second_element_refuted.
(** An act named in the second half is lost, even if it is another one: what is added is taken to be in the first. *)
Definition sa_other : act_id := mkAct 1959 4.
Theorem C79_second_act_refuted :
  ~ (forall rf c pre post a az title name r s e j a' n x gap s' e', roman_from_reads rf -> top pre = [] -> top post = [] ->
     In az the -> act_named (ca_map c) a (lit " " ++ s ++ e ++ j ++ n ++ gap ++ s' ++ e') title name ->
     readable_ref r -> f_act r = Some a -> said_ended (lower_parts r) s -> In (e ++ lit ":") replacement_endings -> joined_by j ->
     named_again (ca_map c) a' (gap ++ s' ++ e') n -> n <> [] ->
     one_article x s' -> In gap (map (fun f => lit " " ++ f ++ lit " ") following) -> In e' insertion_endings ->
     forall info, snd (extract_semantic_info rf grammar_parse (az ++ title ++ name ++ lit " " ++ s ++ e ++ j ++ n ++ gap ++ s' ++ e') (mkAdder pre post c)) = Ok info ->
     exists o, In o (si_outgoing info) /\ f_act (o_ref o) = Some a').
Proof.
  intros H. assert (NM : act_named (ca_map sa_cache) sa_other ((lit " " ++ lit "a következő" ++ lit " ") ++ lit "5/A. §-sal" ++ lit " egészül ki:") [] (lit "1959. évi IV. törvény")).
  { apply by_number; [reflexivity|vm_compute; discriminate|vm_compute; reflexivity|constructor|now left|]. intros k b [E|[]] K. injection E as <- _. apply sa_has_in in K. vm_compute in K. discriminate. }
  destruct (H sa_roman sa_cache [] [] sa_act (lit "Az ") [] (lit "Fgytv.") (sa_only sa_five) (lit "5. §-a") (lit " helyébe a következő rendelkezés lép") (lit "," ++ (lit " " ++ lit "és" ++ [])) sa_other (lit " " ++ lit "az " ++ lit "1959. évi IV. törvény")
      sa_fifth (lit " " ++ lit "a következő" ++ lit " ") (lit "5/A. §-sal") (lit " egészül ki:")
      roman_read_reads eq_refl eq_refl ltac:(member) (sa_short _) sa_five_ok eq_refl sa_five_said ltac:(member)) with
      (info := mkSi [mkOut 3 9 (only_act sa_act); mkOut 10 17 (sa_only sa_five); mkOut 106 117 (sa_only sa_fifth)] [] (Some (PhStructural (mkSbaPhrase (mkSRef (Some sa_act) None None (SeArticle (mkRange sa_five sa_fifth)) false) false)))) as (o & I & E).
  - apply (joined_words (lit ",") (lit " " ++ lit "és" ++ [])); [member| |discriminate]. apply (word_joined (lit "és") []); [member|constructor].
  - exact (again_named _ _ _ (lit "az ") (lit "1959. évi IV. törvény") ltac:(member) NM).
  - discriminate.
  - exact sa_fifth_with.
  - member.
  - member.
  - vm_compute. reflexivity.
  - cbn [si_outgoing In] in I. destruct I as [<-|[<-|[<-|[]]]]; vm_compute in E; discriminate E.
Qed.
Print Assumptions C79_second_act_refuted.
