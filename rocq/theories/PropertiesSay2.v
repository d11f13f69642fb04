(** C74-: sentences with lists of references, and what is read from them. *)
From Verif Require Import PropertiesSay ProofSay22.
From Coq Require Import Lia.
Local Open Scope N_scope.

(** * C74 *)
(** A sentence that repeals an act, parts of it or texts in its parts: exactly the act and the parts listed are found, at
    their places, each part with what it takes over from the one before it, and exactly they are repealed. *)
Theorem C74_repeal : forall rf c pre post a s info, roman_from_reads rf -> top pre = [] -> top post = [] ->
  repeal (ca_map c) a s info ->
  extract_semantic_info rf grammar_parse s (mkAdder pre post c) = (mkAdder pre post c, Ok info).
Proof. exact (fun rf c pre post a s info H => repealed rf c H pre post a s info). Qed.
Print Assumptions C74_repeal.
(** 5. § (2) bekezdése, (4) bekezdés a) pontja, 8. § *)
Definition sa_first_part : reference := mkRef None (Some (sa_article 5)) (Some (sa_one (sa_num 2))) None None.
Definition sa_second_part : reference := mkRef None None (Some (sa_one (sa_num 4))) (Some (PtAlpha (sa_one (sa_la "a")))) None.
Definition sa_third_part : reference := mkRef None (Some (sa_article 8)) None None None.
Ltac well := split; [|intros H _; first [discriminate|exfalso; apply H; reflexivity]|intros [] [] H; unfold finer; cbn; intros F P; try lia; cbn in H; solve [contradiction|apply P; reflexivity|apply H; reflexivity]];
  intros H; first [exfalso; apply H; reflexivity|intros _; discriminate].
Ltac readable_low :=
  split; [well|unfold parts_ok; cbn; repeat match goal with |- _ /\ _ => split end; intros a H; try discriminate; injection H as <-; vm_compute; repeat split; reflexivity
         |right; discriminate|discriminate|intros x H; first [discriminate H|injection H as <-; cbn; auto]|discriminate].
Lemma sa_mentioned_1 p : f_act p = Some sa_act -> mentioned p sa_first_part (lit "5. § (2) bekezdése").
Proof.
  intros E. constructor; [readable_low|reflexivity|exact sa_paragraph_said|]. unfold resume. cbn. rewrite E. well.
Qed.
Lemma sa_mentioned_2 : mentioned sa_paragraph sa_second_part (lit "(4) bekezdés a) pontja").
Proof.
  constructor; [readable_low|reflexivity| |well].
  apply (ended_more (PartParagraph (sa_one (sa_num 4))) (lit "(4)") (lit "bekezdés") (lit "bekezdése") [PartPoint (PtAlpha (sa_one (sa_la "a")))] (lit "a) pontja")).
  - apply said_paragraph. left. split; vm_compute; reflexivity.
  - apply (ended_last _ (lit "a)") (lit "pont") (lit "pontja") (lit "ja")).
    + apply said_alpha_point. left. split; vm_compute; reflexivity.
    + apply ending_other; [discriminate|]. repeat (constructor; [left; red; vm_compute; intuition discriminate|]). constructor.
Qed.
Lemma sa_mentioned_3 p : f_act p = Some sa_act -> mentioned p sa_third_part (lit "8. §").
Proof.
  intros E. constructor; [readable_low|reflexivity| |unfold resume; cbn; rewrite E; well].
  apply (ended_last (PartArticle (sa_article 8)) (lit "8.") (lit "§") (lit "§-a") []); [apply said_article; left; split; vm_compute; reflexivity|apply ending_none].
Qed.
Definition sa_fourth : reference := mkRef (Some sa_act) (Some (sa_article 5)) (Some (sa_one (sa_num 4))) (Some (PtAlpha (sa_one (sa_la "a")))) None.
Definition sa_eighth : reference := mkRef (Some sa_act) (Some (sa_article 8)) None None None.
Definition sa_listed : list out_ref := [mkOut 77 97 sa_paragraph; mkOut 99 122 sa_fourth; mkOut 129 134 sa_eighth].
Lemma sa_in x l : existsb (str_eqb x) l = true -> In x l.
Proof. rewrite existsb_exists. intros (y & I & E). apply str_eqb_eq in E as ->. exact I. Qed.
Lemma sa_in1 x l : existsb (N.eqb x) l = true -> In x l.
Proof. rewrite existsb_exists. intros (y & I & E). apply N.eqb_eq in E as ->. exact I. Qed.
Ltac member := apply sa_in; vm_compute; reflexivity.
Definition sa_phrases : str := lit "5. § (2) bekezdése" ++ lit ", " ++ lit "(4) bekezdés a) pontja" ++ lit " és a " ++ lit "8. §".
Lemma sa_list o : exists l, said_list (only_act sa_act) o sa_phrases l /\ l =
  [mkOut o (o + utf8_len (lit "5. § (2) bekezdése")) (resume (only_act sa_act) sa_first_part);
   mkOut (o + utf8_len (lit "5. § (2) bekezdése" ++ lit ", ")) (o + utf8_len (lit "5. § (2) bekezdése" ++ lit ", ") + utf8_len (lit "(4) bekezdés a) pontja")) (resume (resume (only_act sa_act) sa_first_part) sa_second_part);
   mkOut (o + utf8_len (lit "5. § (2) bekezdése" ++ lit ", ") + utf8_len (lit "(4) bekezdés a) pontja" ++ lit " és a ")) (o + utf8_len (lit "5. § (2) bekezdése" ++ lit ", ") + utf8_len (lit "(4) bekezdés a) pontja" ++ lit " és a ") + utf8_len (lit "8. §"))
     (resume (resume (resume (only_act sa_act) sa_first_part) sa_second_part) sa_third_part)].
Proof.
  eexists. split; [|reflexivity].
  apply (said_many (only_act sa_act) o sa_first_part (lit "5. § (2) bekezdése") (lit ", ")); [now apply sa_mentioned_1|now left|].
  eapply (said_many _ _ sa_second_part (lit "(4) bekezdés a) pontja") (lit " és a ") (lit "8. §")); [exact sa_mentioned_2| |].
  - member.
  - apply (said_one _ _ sa_third_part (lit "8. §")). now apply sa_mentioned_3.
Qed.
Example C74_sample :
  (exists s info, repeal [] sa_act s info /\
   s = lit "Hatályát veszti a fogyasztóvédelemről szóló 1997. évi CLV. törvény 5. § (2) bekezdése, (4) bekezdés a) pontja és a 8. §." /\
   info = mkSi (mkOut 51 76 (only_act sa_act) :: sa_listed) [] (Some (PhRepeal [RrRef sa_paragraph; RrRef sa_fourth; RrRef sa_eighth]))) /\
  sa_read "Hatályát veszti a fogyasztóvédelemről szóló 1997. évi CLV. törvény 5. § (2) bekezdése, (4) bekezdés a) pontja és a 8. §." cache_new =
    Ok (mkSi (mkOut 51 76 (only_act sa_act) :: sa_listed) [] (Some (PhRepeal [RrRef sa_paragraph; RrRef sa_fourth; RrRef sa_eighth]))).
Proof.
  split; [|vm_compute; reflexivity]. destruct (sa_list 77) as (l & SL & EL). do 2 eexists. split.
  - apply (repeal_parts [] sa_act (lit "Hatályát veszti a ") sa_title (lit "1997. évi CLV. törvény") sa_phrases); [member|apply sa_named|exact SL].
  - rewrite EL. split; vm_compute; reflexivity.
Qed.
Definition sa_text (x : str) : str := (lit "„" ++ x ++ lit "”") ++ lit " szöveg" ++ lit "része".
Lemma sa_text_said x : quote_text x -> (is_ascii_ws (hd 97 x) = false /\ is_ascii_ws (last x 97) = false) -> text_said x (sa_text x).
Proof.
  intros Q [H1 H2]. apply text_named.
  - split; [exact Q|]. split; [|reflexivity]. split; intros c t ->; rewrite <- white_is; [cbn [hd] in H1; congruence|rewrite last_last in H2; congruence].
  - repeat (constructor; [first [left; split; vm_compute; discriminate|right; apply sa_in1; vm_compute; reflexivity]|]). constructor.
Qed.
Definition sa_texts : list text_amendment :=
  flat_map (fun r => [mkTa (TaSae r PartAll) (lit "egy") []; mkTa (TaSae r PartAll) (lit "a „két” szó") []]) [sa_paragraph; sa_fourth; sa_eighth].
Example C74_texts :
  (exists s info, repeal [] sa_act s info /\
   s = lit "Nem lép hatályba a fogyasztóvédelemről szóló 1997. évi CLV. törvény 5. § (2) bekezdése, (4) bekezdés a) pontja és a 8. § az „egy” szövegrésze, valamint az „a „két” szó” szövegrésze." /\
   info = mkSi (mkOut 52 77 (only_act sa_act) :: [mkOut 78 98 sa_paragraph; mkOut 100 123 sa_fourth; mkOut 130 135 sa_eighth]) [] (Some (PhText sa_texts))) /\
  sa_read "Nem lép hatályba a fogyasztóvédelemről szóló 1997. évi CLV. törvény 5. § (2) bekezdése, (4) bekezdés a) pontja és a 8. § az „egy” szövegrésze, valamint az „a „két” szó” szövegrésze." cache_new =
    Ok (mkSi (mkOut 52 77 (only_act sa_act) :: [mkOut 78 98 sa_paragraph; mkOut 100 123 sa_fourth; mkOut 130 135 sa_eighth]) [] (Some (PhText sa_texts))).
Proof.
  split; [|vm_compute; reflexivity]. destruct (sa_list 78) as (l & SL & EL). do 2 eexists. split.
  - apply (repeal_texts [] sa_act (lit "Nem lép hatályba a ") sa_title (lit "1997. évi CLV. törvény") sa_phrases l (lit "az ")
      (sa_text (lit "egy") ++ lit ", valamint az " ++ sa_text (lit "a „két” szó")) [lit "egy"; lit "a „két” szó"]); [member|member|apply sa_named|exact SL|].
    apply texts_more; [|member|apply texts_one]; apply sa_text_said.
    + apply quote_plain. vm_compute. repeat (constructor; [split; discriminate|]). constructor.
    + split; vm_compute; reflexivity.
    + apply (quote_in (lit "a ") (lit "két") (lit " szó")); [|apply quote_plain|apply quote_plain]; vm_compute; repeat (constructor; [split; discriminate|]); constructor.
    + split; vm_compute; reflexivity.
  - rewrite EL. split; vm_compute; reflexivity.
Qed.

(** * C75 *)
(** A sentence that puts texts in the place of others: exactly the act and the parts listed are found, and exactly the pairs
    said are exchanged in each of the parts. *)
Theorem C75_text : forall rf c pre post a s info, roman_from_reads rf -> top pre = [] -> top post = [] ->
  text_exchange (ca_map c) a s info ->
  extract_semantic_info rf grammar_parse s (mkAdder pre post c) = (mkAdder pre post c, Ok info).
Proof. exact (fun rf c pre post a s info H => exchanged rf c H pre post a s info). Qed.
Print Assumptions C75_text.
Lemma sa_quotation x : no_marks x -> is_ascii_ws (hd 97 x) = false /\ is_ascii_ws (last x 97) = false -> quotation x (lit "„" ++ x ++ lit "”").
Proof.
  intros Q [H1 H2]. split; [now apply quote_plain|]. split; [|reflexivity]. split; intros c t ->; rewrite <- white_is; [cbn [hd] in H1; congruence|rewrite last_last in H2; congruence].
Qed.
Ltac plain_text := apply sa_quotation; [vm_compute; repeat (constructor; [split; discriminate|]); constructor|split; vm_compute; reflexivity].
Ltac small_word := repeat (constructor; [first [left; split; vm_compute; discriminate|right; apply sa_in1; vm_compute; reflexivity]|]); constructor.
Definition sa_pairs : str :=
  ((lit "„" ++ lit "egy" ++ lit "”") ++ lit " szöveg" ++ lit "rész" ++ lit " helyébe " ++ lit "a " ++ lit "„" ++ lit "két" ++ lit "”") ++ lit ", valamint a " ++
  ((lit "„" ++ lit "b" ++ lit "”") ++ lit " szöveg" ++ lit "rész" ++ lit " helyett " ++ lit "a " ++ lit "„" ++ lit "c d" ++ lit "”") ++ lit " szöveg" ++ [].
Definition sa_exchanges : list text_amendment :=
  flat_map (fun r => [mkTa (TaSae r PartAll) (lit "egy") (lit "két"); mkTa (TaSae r PartAll) (lit "b") (lit "c d")]) [sa_paragraph; sa_fourth; sa_eighth].
Example C75_sample :
  (exists s info, text_exchange [] sa_act s info /\
   s = lit "A fogyasztóvédelemről szóló 1997. évi CLV. törvény 5. § (2) bekezdése, (4) bekezdés a) pontja és a 8. § az „egy” szövegrész helyébe a „két”, valamint a „b” szövegrész helyett a „c d” szöveg lép." /\
   info = mkSi (mkOut 33 58 (only_act sa_act) :: [mkOut 59 79 sa_paragraph; mkOut 81 104 sa_fourth; mkOut 111 116 sa_eighth]) [] (Some (PhText sa_exchanges))) /\
  sa_read "A fogyasztóvédelemről szóló 1997. évi CLV. törvény 5. § (2) bekezdése, (4) bekezdés a) pontja és a 8. § az „egy” szövegrész helyébe a „két”, valamint a „b” szövegrész helyett a „c d” szöveg lép." cache_new =
    Ok (mkSi (mkOut 33 58 (only_act sa_act) :: [mkOut 59 79 sa_paragraph; mkOut 81 104 sa_fourth; mkOut 111 116 sa_eighth]) [] (Some (PhText sa_exchanges))).
Proof.
  split; [|vm_compute; reflexivity]. destruct (sa_list 59) as (l & SL & EL). do 2 eexists. split.
  - apply (text_exchange_of [] sa_act (lit "A ") sa_title (lit "1997. évi CLV. törvény") sa_phrases l (lit "az ") sa_pairs [(lit "egy", lit "két"); (lit "b", lit "c d")] (lit " lép.")); [member|member|apply sa_named|exact SL| |member].
    unfold sa_pairs. apply exchanges_bare; [|member|apply exchanges_one; [|constructor]].
    + apply (exchange_of (lit "egy") (lit "két") _ (lit "rész") (lit " helyébe ") (lit "a ")); [plain_text|small_word|member|member|plain_text].
    + apply (exchange_of (lit "b") (lit "c d") _ (lit "rész") (lit " helyett ") (lit "a ")); [plain_text|small_word|member|member|plain_text].
  - rewrite EL. split; vm_compute; reflexivity.
Qed.

(** * C76 *)
(** A sentence that brings parts of an act into force: exactly the parts listed are found, and exactly they come into force
    on the day said; it is not taken for an amendment. *)
Theorem C76_parts : forall rf c pre post e s info, top pre = [] -> top post = [] -> parts_enforced (ca_map c) e s info ->
  extract_semantic_info rf grammar_parse s (mkAdder pre post c) = (mkAdder pre post c, Ok info).
Proof. exact (fun rf c pre post e s info => parts_read rf c pre post e s info). Qed.
Print Assumptions C76_parts.
(** A sentence that brings the whole act into force with an exception: the exception is not a part of what is found. *)
Theorem C76_exception : forall rf c pre post e s, top pre = [] -> top post = [] -> enforced_except e s ->
  extract_semantic_info rf grammar_parse s (mkAdder pre post c) = (mkAdder pre post c, Ok (mkSi [] [] (Some (PhEnforcement e)))).
Proof. exact (fun rf c pre post e s => except_read rf c pre post e s). Qed.
Print Assumptions C76_exception.
Fixpoint sa_has (k s : str) : bool := starts_with k s || match s with [] => false | _ :: s' => sa_has k s' end.
Lemma sa_has_in k s : in_text k s -> sa_has k s = true.
Proof.
  intros (a & b & ->). induction a as [|x a IH].
  - assert (E : starts_with k (k ++ b) = true) by (apply starts_with_spec; now exists b). cbn [app]. destruct (k ++ b); cbn [sa_has]; now rewrite E.
  - cbn [app sa_has]. rewrite IH. apply orb_true_r.
Qed.
Definition sa_third_here : reference := mkRef None (Some (sa_article 8)) None None None.
Definition sa_in_force : enforcement := mkEd [sa_third_here; sa_first_part] [] false (EdDate (sa_date 2013 1 1)) None.
Example C76_sample :
  (exists s info, parts_enforced (ca_map sa_cache) sa_in_force s info /\
   s = lit "A 8. § és az 5. § (2) bekezdése 2013. január 1-jén lép hatályba." /\
   info = mkSi [mkOut 2 7 sa_third_here; mkOut 15 35 sa_first_part] [] (Some (PhEnforcement sa_in_force))) /\
  sa_read "A 8. § és az 5. § (2) bekezdése 2013. január 1-jén lép hatályba." sa_cache =
    Ok (mkSi [mkOut 2 7 sa_third_here; mkOut 15 35 sa_first_part] [] (Some (PhEnforcement sa_in_force))).
Proof.
  split; [|vm_compute; reflexivity]. do 2 eexists. split.
  - apply (parts_enforced_of (ca_map sa_cache) sa_in_force (lit "A ") (lit "8. §" ++ lit " és az " ++ lit "5. § (2) bekezdése") [mkOut 2 7 sa_third_here; mkOut 15 35 sa_first_part] (lit "2013. január 1-jén") []).
    + member.
    + apply (said_many no_reference 2 sa_third_part (lit "8. §") (lit " és az ") (lit "5. § (2) bekezdése") [mkOut 15 35 sa_first_part]); [|member|].
      * constructor; [readable_low|reflexivity| |well].
        apply (ended_last (PartArticle (sa_article 8)) (lit "8.") (lit "§") (lit "§-a") []); [apply said_article; left; split; vm_compute; reflexivity|apply ending_none].
      * apply (said_one (resume no_reference sa_third_part) 15 sa_first_part (lit "5. § (2) bekezdése")). constructor; [readable_low|reflexivity|exact sa_paragraph_said|well].
    + intros (b & H). discriminate H.
    + apply on_a_date, sa_first.
    + apply stays_in_force.
    + split; [intros H; apply sa_has_in in H; vm_compute in H; discriminate H|]. intros k b I H. apply sa_has_in in H. cbn [ca_map sa_cache cache_from In] in I.
      destruct I as [I|[]]. injection I as <- <-. vm_compute in H. discriminate H.
    + reflexivity.
    + reflexivity.
    + reflexivity.
  - split; vm_compute; reflexivity.
Qed.
Example C76_except :
  (exists s, enforced_except sa_dated s /\ s = lit "Ez a törvény – a 8. §-ban foglalt kivétellel – 2013. január 1-jén lép hatályba, és 2014. február 28-án hatályát veszti.") /\
  sa_read "Ez a törvény – a 8. §-ban foglalt kivétellel – 2013. január 1-jén lép hatályba, és 2014. február 28-án hatályát veszti." cache_new = Ok (mkSi [] [] (Some (PhEnforcement sa_dated))).
Proof.
  split; [|vm_compute; reflexivity]. eexists. split.
  - apply (enforced_except_of _ (lit "Ez a törvény ") (lit "– " ++ lit "a " ++ lit "8. §-ban" ++ lit " " ++ lit "foglalt" ++ [] ++ lit " kivétel" ++ lit "lel" ++ lit " " ++ lit "– ") (lit "2013. január 1-jén") (lit ", és 2014. február 28-án hatályát veszti")); try reflexivity.
    + now left.
    + apply (exception_of (lit "– ") sa_third_part (lit "8. §-ban") (lit "foglalt") [] (lit "lel") (lit "– ")).
      * member.
      * readable_low.
      * reflexivity.
      * apply (ended_last (PartArticle (sa_article 8)) (lit "8.") (lit "§") (lit "§-a") (lit "-ban")); [apply said_article; left; split; vm_compute; reflexivity|].
        apply (ending_article _ (lit "ban")); [discriminate|]. small_word.
      * member.
      * constructor.
      * small_word.
      * member.
    + apply on_a_date, sa_first.
    + apply (repealed_on (sa_date 2014 2 28) (lit ", és ") (lit "2014. február 28-án")); [member|exact sa_last].
  - vm_compute. reflexivity.
Qed.
