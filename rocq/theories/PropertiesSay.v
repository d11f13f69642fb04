(** C71-C73: sentences that amend or enforce, and what is read from them. *)
From Verif Require Import ProofSay9 ProofSay11.
From Coq Require Import Lia.
Local Open Scope N_scope.

(** * Examples *)
Definition sa_one {T} (x : T) : range T := mkRange x x.
Definition sa_num (n : N) : numeric := mkNum n None.
Definition sa_la (s : string) : hic := Latin (hd 0 (lit s)).
Definition sa_act : act_id := mkAct 1997 155.
Definition sa_article (n : N) : ref_article := sa_one (mkArt None (sa_num n)).
(** 5. § (2) bekezdés *)
Definition sa_paragraph : reference := mkRef (Some sa_act) (Some (sa_article 5)) (Some (sa_one (sa_num 2))) None None.
(** 5. § (2) bekezdés c)–d) pont *)
Definition sa_points : reference := mkRef (Some sa_act) (Some (sa_article 5)) (Some (sa_one (sa_num 2))) (Some (PtAlpha (mkRange (sa_la "c") (sa_la "d")))) None.
Definition sa_whole : reference := mkRef (Some sa_act) (Some (sa_article 17)) None None None.
Definition sa_roman (s : str) : option Z := Some (roman_read s).
Definition sa_cache : cache := cache_from [(lit "Fgytv.", sa_act)].
Definition sa_read (s : string) (c : cache) : outcome sem_info := snd (extract_semantic_info sa_roman grammar_parse (lit s) (mkAdder [] [] c)).
Ltac readable :=
  split; [split; [intros H; first [exfalso; apply H; reflexivity|intros _; discriminate]|intros _ _; discriminate|];
          intros [] [] H; unfold finer; cbn; intros F P; try lia; cbn in H; solve [contradiction|apply P; reflexivity|apply H; reflexivity]
         |unfold parts_ok; cbn; repeat match goal with |- _ /\ _ => split end; intros a H; try discriminate; injection H as <-; vm_compute; repeat split; reflexivity
         |left; discriminate|intros a H; injection H as <-; vm_compute; discriminate|intros x H; injection H as <-; cbn; auto|discriminate].
Lemma sa_paragraph_ok : readable_ref sa_paragraph. Proof. readable. Qed.
Lemma sa_points_ok : readable_ref sa_points. Proof. readable. Qed.
Lemma sa_whole_ok : readable_ref sa_whole. Proof. readable. Qed.

(** * C71 *)
(** A sentence that replaces an element of an act, written with any title, any endings of words and any of the usual
    endings: exactly the act and the element are found, at their places, and the amendment is the one written. *)
Theorem C71_replacement : forall rf c pre post a r s info, roman_from_reads rf -> top pre = [] -> top post = [] -> readable_ref r -> f_act r = Some a ->
  replacement (ca_map c) a r s info ->
  extract_semantic_info rf grammar_parse s (mkAdder pre post c) = (mkAdder pre post c, Ok info).
Proof. exact (fun rf c pre post a r s info H => replaced rf c H pre post a r s info). Qed.
Print Assumptions C71_replacement.
Lemma sa_paragraph_said : said_ended (lower_parts sa_paragraph) (lit "5. § (2) bekezdése").
Proof.
  apply (ended_more (PartArticle (sa_article 5)) (lit "5.") (lit "§") (lit "§-a") [PartParagraph (sa_one (sa_num 2))] (lit "(2) bekezdése")).
  - apply said_article. left. split; vm_compute; reflexivity.
  - apply (ended_last (PartParagraph (sa_one (sa_num 2))) (lit "(2)") (lit "bekezdés") (lit "bekezdése") (lit "e")).
    + apply said_paragraph. left. split; vm_compute; reflexivity.
    + apply ending_other; [discriminate|]. constructor; [left; red; vm_compute; intuition discriminate|constructor].
Qed.
Definition sa_title : str := lit "fogyasztóvédelemről szóló ".
Lemma sa_named rest : act_named [] sa_act rest sa_title (lit "1997. évi CLV. törvény").
Proof.
  apply by_number.
  - reflexivity.
  - vm_compute. discriminate.
  - vm_compute. reflexivity.
  - vm_compute. repeat (constructor; [intros [H1 H2]; vm_compute in H1, H2; congruence|]). constructor.
  - right. exists (lit "fogyasztóvédelemről szóló"). vm_compute. reflexivity.
  - intros k b [].
Qed.
Example C71_sample : roman_from_reads sa_roman /\ readable_ref sa_paragraph /\ f_act sa_paragraph = Some sa_act /\
  (exists s info, replacement (ca_map cache_new) sa_act sa_paragraph s info /\
   s = lit "A fogyasztóvédelemről szóló 1997. évi CLV. törvény 5. § (2) bekezdése helyébe a következő rendelkezés lép:" /\
   info = mkSi [mkOut 33 58 (only_act sa_act); mkOut 59 79 sa_paragraph] [] (Some (PhBlock (mkBaPhrase sa_paragraph false)))) /\
  sa_read "A fogyasztóvédelemről szóló 1997. évi CLV. törvény 5. § (2) bekezdése helyébe a következő rendelkezés lép:" cache_new =
    Ok (mkSi [mkOut 33 58 (only_act sa_act); mkOut 59 79 sa_paragraph] [] (Some (PhBlock (mkBaPhrase sa_paragraph false)))).
Proof.
  split; [exact roman_read_reads|]. split; [exact sa_paragraph_ok|]. split; [reflexivity|]. split; [|vm_compute; reflexivity].
  do 2 eexists. split; [apply (replacement_of _ _ _ (lit "A ") sa_title (lit "1997. évi CLV. törvény") (lit "5. § (2) bekezdése") (lit " helyébe a következő rendelkezés lép:")); [now left|apply sa_named|apply sa_paragraph_said|now left]|].
  split; vm_compute; reflexivity.
Qed.

(** * C72 *)
(** The same for a sentence that puts a new element into an act. *)
Theorem C72_insertion : forall rf c pre post a r s info, roman_from_reads rf -> top pre = [] -> top post = [] -> readable_ref r -> f_act r = Some a ->
  insertion (ca_map c) a r s info ->
  extract_semantic_info rf grammar_parse s (mkAdder pre post c) = (mkAdder pre post c, Ok info).
Proof. exact (fun rf c pre post a r s info H => inserted rf c H pre post a r s info). Qed.
Print Assumptions C72_insertion.
Lemma sa_points_inserted : inserted_phrase (lower_parts sa_points) (lit " ") (lit "5. § (2) bekezdése a következő c)–d) ponttal").
Proof.
  apply (inserted_under [PartArticle (sa_article 5); PartParagraph (sa_one (sa_num 2))] (PartPoint (PtAlpha (mkRange (sa_la "c") (sa_la "d")))) (lit "5. § (2) bekezdése") (lit "a következő") (lit "c)–d) ponttal"));
    [discriminate|exact sa_paragraph_said|now left|].
  apply (ended_last _ (lit "c)–d)") (lit "pont") (lit "pontja") (lit "tal")).
  - apply said_alpha_point. right. split; vm_compute; [congruence|reflexivity].
  - apply ending_other; [discriminate|]. repeat (constructor; [left; red; vm_compute; intuition discriminate|]). constructor.
Qed.
Lemma sa_short rest : act_named (ca_map sa_cache) sa_act rest [] (lit "Fgytv.").
Proof.
  apply (by_abbreviation _ _ _ 70 (lit "gytv.")).
  - intros [H1 H2]. vm_compute in H1, H2. congruence.
  - vm_compute. intuition discriminate.
  - left. vm_compute. reflexivity.
  - intros b [E|[]]. now injection E.
  - intros k' b [E|[]] _. injection E as <- _. reflexivity.
Qed.
Example C72_sample : readable_ref sa_points /\ f_act sa_points = Some sa_act /\
  (exists s info, insertion (ca_map sa_cache) sa_act sa_points s info /\
   s = lit "Az Fgytv. 5. § (2) bekezdése a következő c)–d) ponttal egészül ki:" /\
   info = mkSi [mkOut 3 9 (only_act sa_act); mkOut 10 60 sa_points] [] (Some (PhBlock (mkBaPhrase sa_points true)))) /\
  sa_read "Az Fgytv. 5. § (2) bekezdése a következő c)–d) ponttal egészül ki:" sa_cache =
    Ok (mkSi [mkOut 3 9 (only_act sa_act); mkOut 10 60 sa_points] [] (Some (PhBlock (mkBaPhrase sa_points true)))).
Proof.
  split; [exact sa_points_ok|]. split; [reflexivity|]. split; [|vm_compute; reflexivity].
  do 2 eexists. split; [apply (insertion_of _ _ _ (lit "Az ") [] (lit "Fgytv.") (lit " ") (lit "5. § (2) bekezdése a következő c)–d) ponttal") (lit " egészül ki:")); [right; now left|apply sa_short|apply sa_points_inserted|now left]|].
  split; vm_compute; reflexivity.
Qed.
Example C72_article : readable_ref sa_whole /\
  sa_read "Az Fgytv. a következő 17. §-sal egészül ki:" sa_cache =
    Ok (mkSi [mkOut 3 9 (only_act sa_act); mkOut 24 34 sa_whole] [] (Some (PhStructural (mkSbaPhrase (mkSRef (Some sa_act) None None (SeArticle (sa_article 17)) false) true)))).
Proof. split; [exact sa_whole_ok|vm_compute; reflexivity]. Qed.

(** * C73 *)
(** A sentence by which the whole act comes into force, with or without the day of its repeal: the rule read is the one
    written, whatever the day and however it is said, and no reference is found in it. *)
Theorem C73_enforcement : forall rf c pre post e s, top pre = [] -> top post = [] -> enforced e s ->
  extract_semantic_info rf grammar_parse s (mkAdder pre post c) = (mkAdder pre post c, Ok (mkSi [] [] (Some (PhEnforcement e)))).
Proof. exact enforced_read. Qed.
Print Assumptions C73_enforcement.
Definition sa_date (y : Z) (m d : N) : date := mkDate y m d.
Definition sa_dated : enforcement := mkEd [] [] true (EdDate (sa_date 2013 1 1)) (Some (sa_date 2014 2 28)).
Definition sa_monthly : enforcement := mkEd [] [] true (EdDayInMonth (Some 2) 15) None.
Lemma sa_first : on_day (sa_date 2013 1 1) (lit "2013. január 1-jén").
Proof.
  apply (on_day_of (sa_date 2013 1 1) (lit "2013") (lit "1") (lit "-jén")); [cbn; lia|exists 31; split; [reflexivity|cbn; lia]|cbn; lia|exact (denotes_show 2013)|exact (dd_one 1 ltac:(lia))|right; now left].
Qed.
Lemma sa_last : on_day (sa_date 2014 2 28) (lit "2014. február 28-án").
Proof.
  apply (on_day_of (sa_date 2014 2 28) (lit "2014") (lit "28") (lit "-án")); [cbn; lia|exists 28; split; [split; [|reflexivity]; intros [[[k K] _]|[k K]]; cbn in K; lia|cbn; lia]|cbn; lia|exact (denotes_show 2014)|exact (denotes_show 28)|now left].
Qed.
Example C73_sample :
  (exists s, enforced sa_dated s /\ s = lit "Ez a törvény 2013. január 1-jén lép hatályba, és 2014. február 28-án hatályát veszti.") /\
  sa_read "Ez a törvény 2013. január 1-jén lép hatályba, és 2014. február 28-án hatályát veszti." cache_new = Ok (mkSi [] [] (Some (PhEnforcement sa_dated))).
Proof.
  split; [|vm_compute; reflexivity]. eexists. split.
  - apply (enforced_act _ (lit "Ez a törvény ") (lit "2013. január 1-jén") (lit ", és 2014. február 28-án hatályát veszti")); try reflexivity; [now left| |].
    + apply on_a_date, sa_first.
    + apply (repealed_on (sa_date 2014 2 28) (lit ", és ") (lit "2014. február 28-án")); [do 3 right; now left|exact sa_last].
  - vm_compute. reflexivity.
Qed.
Example C73_monthly :
  (exists s, enforced sa_monthly s /\ s = lit "E törvény a kihirdetését követő második hónap 15. napján lép hatályba.") /\
  sa_read "E törvény a kihirdetését követő második hónap 15. napján lép hatályba." cache_new = Ok (mkSi [] [] (Some (PhEnforcement sa_monthly))).
Proof.
  split; [|vm_compute; reflexivity]. eexists. split.
  - apply (enforced_act _ (lit "E törvény ") (lit "a kihirdetését követő második hónap 15. napján") []); try reflexivity; [right; now left| |apply stays_in_force].
    apply (in_month (lit "a kihirdetését követő ") 2 (lit "második") 15 (lit "15.")); [now left|right; now left|]. apply (ordinal_digits 15 (lit "15")); [exact (denotes_show 15)|discriminate].
  - vm_compute. reflexivity.
Qed.
