(** Proofs for C74: sentences of repeal are read as written. *)
From Verif Require Export ProofSay16.
From Coq Require Import Lia.
Local Open Scope peg_scope.
Local Open Scope N_scope.

Lemma list_within p o s l : said_list p o s l -> Forall (fun r => o < o_end r <= o + utf8_len s) l.
Proof.
  assert (K : forall p w s o, mentioned p w s -> o < o + utf8_len s).
  { intros p' w s' o' [_ _ C _]. pose proof (ended_long _ _ C). destruct s' as [|c s']; [cbn in *; lia|]. change (c :: s') with ([c] ++ s'). rewrite utf8_len_app. pose proof (char_takes c). lia. }
  induction 1 as [p o w s M|p o w s sep rest l M I S IH]; pose proof (K p w s o M).
  - constructor; [cbn [o_end]; lia|constructor].
  - constructor; [cbn [o_end]; rewrite !utf8_len_app; lia|]. eapply Forall_impl; [|exact IH]. cbv beta. intros r. rewrite !utf8_len_app. lia.
Qed.
Lemma name_long m a rest title name : act_named m a rest title name -> 0 < utf8_len name.
Proof. intros N. pose proof (name_some _ _ _ _ _ N). destruct name as [|x n]; [congruence|]. change (x :: n) with ([x] ++ n). rewrite utf8_len_app. pose proof (char_takes x). lia. Qed.

Section Repealed.
  Variables (rf : str -> option Z) (c : cache).
  Hypothesis roman : roman_from_reads rf.
  Local Notation known := (all_abbreviations c).
  Local Notation yields := (yields known).
  Local Notation fails := (fails known).
  Lemma list_after_act a o s l u : said_list (only_act a) o s l -> follows known u -> after_act c (lit " " ++ s ++ u).
  Proof.
    intros S F. destruct (list_parts known _ _ _ _ u S F) as (w & t & NE & RD & WF & <- & _ & _ & s' & u' & SE & _ & ->). apply digits_after_act.
    destruct (under_act (resume (only_act a) w) a WF (resumed_act _ _) (resumed_some _ _ NE)) as (x & ps & EX & EP).
    assert (EW : f_article w = Some x /\ exists ps', lower_parts w = PartArticle x :: ps').
    { clear - EX NE. unfold resume in EX. unfold lower_parts in *. destruct (f_article w) as [y|] eqn:E; cbn [app] in *.
      - destruct (f_paragraph w), (f_point w), (f_subpoint w); cbn in EX; injection EX as ->; split; eauto.
      - destruct (f_paragraph w), (f_point w), (f_subpoint w); cbn in EX; congruence. }
    destruct EW as (EW & ps' & EL). rewrite EL in SE. apply ended_split in SE as (i & n & n' & P & H). destruct (article_facts w x i n n' RD EW P) as [A ->].
    destruct H as [(_ & e & _ & ->)|(s1 & _ & ->)]; rewrite <- !app_assoc; eapply digit_first_article; apply A.
  Qed.
  Lemma dot_after_act : after_act c (lit ".").
  Proof. constructor; [vm_compute; reflexivity|failing|failing]. Qed.
  Lemma repeal_start v t : In v repealing -> quiet is_ascii_ws (v ++ t) /\ (forall o, fails (sk g_az_any) o (v ++ t)) /\ (forall o, fails ((one_of_sk ["Ez a"; "E"]%string ;; T "törvény") <|> sk g_az_upper) o (v ++ t)) /\
    exists o' w, yields (one_of_sk ["Nem lép hatályba"; "Hatályát veszti"; "Hatályát veszíti"]%string) 0 (v ++ t) tt o' (w ++ t) /\ yields (sk g_az) o' (w ++ t) tt (utf8_len v) t.
  Proof.
    intros I. unfold repealing in I. cbn [map flat_map app In] in I.
    assert (K : forall s z, quiet is_ascii_ws ((lit s ++ lit " " ++ z) ++ t) -> (forall o, yields (one_of_sk ["Nem lép hatályba"; "Hatályát veszti"; "Hatályát veszíti"]%string) o (lit s ++ lit " " ++ z ++ t) tt (o + utf8_len (lit s)) (lit " " ++ z ++ t)) ->
      z = lit "a " \/ z = lit "az " ->
      exists o' w, yields (one_of_sk ["Nem lép hatályba"; "Hatályát veszti"; "Hatályát veszíti"]%string) 0 ((lit s ++ lit " " ++ z) ++ t) tt o' (w ++ t) /\ yields (sk g_az) o' (w ++ t) tt (utf8_len (lit s ++ lit " " ++ z)) t).
    { intros s z W Y Z. exists (0 + utf8_len (lit s)), (lit " " ++ z). rewrite <- !app_assoc. split; [apply Y|]. destruct Z as [->| ->].
      - apply y_sk_sp; [reflexivity|]. change (lit "a " ++ t) with (lit "a" ++ lit " " ++ t). unfold g_az. eapply y_bind; [apply y_tok|]. eapply y_bind; [apply y_none, f_tok; reflexivity|]. eapply y_eq; [apply y_tok|]. rewrite !utf8_len_app. change (utf8_len (lit "a ")) with (utf8_len (lit "a") + utf8_len (lit " ")). change (utf8_len (lit " ")) with 1. lia.
      - apply y_sk_sp; [reflexivity|]. change (lit "az " ++ t) with (lit "a" ++ lit "z" ++ lit " " ++ t). unfold g_az. eapply y_bind; [apply y_tok|]. eapply y_bind; [apply y_some, y_tok|]. eapply y_eq; [apply y_tok|]. rewrite !utf8_len_app. change (utf8_len (lit "az ")) with (utf8_len (lit "a") + utf8_len (lit "z") + utf8_len (lit " ")). change (utf8_len (lit " ")) with 1. lia. }
    assert (Y1 : forall z o, yields (one_of_sk ["Nem lép hatályba"; "Hatályát veszti"; "Hatályát veszíti"]%string) o (lit "Hatályát veszti" ++ lit " " ++ z ++ t) tt (o + utf8_len (lit "Hatályát veszti")) (lit " " ++ z ++ t)).
    { intros z o. cbn [one_of_sk]. apply y_alt2; [here|]. apply y_alt1. exact (y_T known "Hatályát veszti" _ _ eq_refl). }
    assert (Y2 : forall z o, yields (one_of_sk ["Nem lép hatályba"; "Hatályát veszti"; "Hatályát veszíti"]%string) o (lit "Hatályát veszíti" ++ lit " " ++ z ++ t) tt (o + utf8_len (lit "Hatályát veszíti")) (lit " " ++ z ++ t)).
    { intros z o. cbn [one_of_sk]. do 2 (apply y_alt2; [here|]). apply y_alt1. exact (y_T known "Hatályát veszíti" _ _ eq_refl). }
    assert (Y3 : forall z o, yields (one_of_sk ["Nem lép hatályba"; "Hatályát veszti"; "Hatályát veszíti"]%string) o (lit "Nem lép hatályba" ++ lit " " ++ z ++ t) tt (o + utf8_len (lit "Nem lép hatályba")) (lit " " ++ z ++ t)).
    { intros z o. cbn [one_of_sk]. apply y_alt1. exact (y_T known "Nem lép hatályba" _ _ eq_refl). }
    destruct I as [<-|[<-|[<-|[<-|[<-|[<-|[]]]]]]]; (split; [reflexivity|]; split; [failing|]; split; [failing|]); apply K; auto; reflexivity.
  Qed.
  Lemma repealed_root a v title name rest G rs ts : In v repealing -> act_named (ca_map c) a rest title name -> after_act c rest ->
    (forall o, yields act_reference o (name ++ rest) (G o) (o + utf8_len name) rest) ->
    (exists o1 t1 o2, reads known (v ++ title ++ name ++ rest) (many ref_step) (utf8_len (v ++ title ++ name)) rest rs o1 t1 /\ yields (many text_step) o1 t1 ts o2 (lit ".")) ->
    grammar_parse (v ++ title ++ name ++ rest) known = Ok (RRepeal (mkGRep (G (utf8_len (v ++ title))) rs ts)).
  Proof.
    intros IV NM AA YG (o1 & t1 & o2 & RR & YT). set (whole := v ++ title ++ name ++ rest) in *. destruct (repeal_start v (title ++ name ++ rest) IV) as (W0 & F1 & F2 & oa & wa & Y1 & Y2).
    assert (R : exists o', reads known whole g_root_rule 0 whole (RRepeal (mkGRep (G (utf8_len (v ++ title))) rs ts)) o' []).
    { eexists. unfold g_root_rule. do 4 (apply r_alt2; [apply x_bind1, x_sk; [exact W0|]; apply x_bind1, x_f, F1|]). apply r_alt2; [apply x_bind1, x_sk; [exact W0|]; apply x_bind1, x_f, F2|]. apply r_alt1.
      eapply r_bind; [apply r_sk; [exact W0|]|eapply r_bind; [apply r_y, (y_sk known eoi (o2 + 1) [] tt _ _ Logic.I); intros g' _; reflexivity|apply r_ret]].
      unfold g_repeal_rule. eapply r_bind; [apply r_y; exact Y1|]. eapply r_bind; [apply r_y; exact Y2|].
      eapply (start_reads rf c roman whole (utf8_len v) a rest title name G); [exists v; auto|exact NM|exact AA|exact YG|].
      rewrite <- utf8_len_app. replace (utf8_len (v ++ title) + utf8_len name) with (utf8_len (v ++ title ++ name)) by (rewrite !utf8_len_app; lia).
      eapply r_bind; [exact RR|]. eapply r_bind; [apply r_y; exact YT|]. eapply r_bind; [apply r_y, (y_T known "." o2 []); reflexivity|]. apply r_ret. }
    destruct R as (o' & R). destruct (R _ (fine_new known whole)) as (g' & E & _). unfold grammar_parse. now rewrite E.
  Qed.
  Lemma ta_references a name G o ts l : name_tree rf c a name G -> fed (only_act a) ts l -> convert_ta_references rf c (G o) ts = Ok (map (fun r => TaSae (o_ref r) PartAll) l).
  Proof.
    intros NT FD. unfold convert_ta_references. rewrite (nt_act _ _ _ _ _ NT). cbn [obind]. rewrite (name_feed rf c a name G _ NT). cbn [obind].
    apply (fed_ta rf a _ _ _ FD eq_refl); reflexivity.
  Qed.
  Lemma repeal_refs l : map_ok repeal_of (map (fun r => TaSae (o_ref r) PartAll) l) = Ok (map (fun r => RrRef (o_ref r)) l).
  Proof. induction l as [|r l IH]; [reflexivity|]. cbn [map map_ok repeal_of obind] in *. now rewrite IH. Qed.
  Lemma repealed_refs a name G o rs l x : name_tree rf c a name G -> fed (only_act a) rs l -> gre_act x = G o -> gre_refs x = rs ->
    get_outgoing_references rf c (RRepeal x) = Ok (mkOut o (o + utf8_len name) (only_act a) :: l).
  Proof.
    intros NT FD EA ER. cbn [get_outgoing_references]. rewrite EA, ER. rewrite (name_feed rf c a name G _ NT). cbn [obind].
    destruct (fed_out _ _ _ FD (mkOb (only_act a) [mkOut o (o + utf8_len name) (only_act a)] None (o + utf8_len name)) eq_refl eq_refl) as (b & -> & E). cbn [obind]. now rewrite E.
  Qed.
  Lemma repealed pre post a s info : top pre = [] -> top post = [] -> repeal (ca_map c) a s info ->
    extract_semantic_info rf grammar_parse s (mkAdder pre post c) = (mkAdder pre post c, Ok info).
  Proof.
    intros P1 P2 H. destruct H as [v title name IV NM|v title name s l IV NM SL|v title name s l z q ts IV IZ NM SL TS].
    - destruct (y_name rf c roman a _ title name NM dot_after_act) as (WN & G & NT & YG).
      assert (GP : grammar_parse (v ++ title ++ name ++ lit ".") known = Ok (RRepeal (mkGRep (G (utf8_len (v ++ title))) [] []))).
      { apply (repealed_root a v title name (lit ".") G [] [] IV NM dot_after_act YG). do 3 eexists. split; [apply r_many_nil, x_bind1, no_mention_end|apply y_many_nil; here].
        exists (v ++ title ++ name). rewrite <- !app_assoc. auto. }
      replace (v ++ title ++ name ++ lit ".") with ((v ++ title ++ name) ++ [46]) in * by (now rewrite <- !app_assoc).
      apply (sentence_read rf pre post c _ 46 _ _ _ (or_introl eq_refl) P1 P2 GP).
      + unfold get_new_abbreviations. cbn [root_act_refs flat_map gre_act]. rewrite (nt_new _ _ _ _ _ NT). reflexivity.
      + rewrite (repealed_refs a name G (utf8_len (v ++ title)) [] [] (mkGRep (G (utf8_len (v ++ title))) [] []) NT (fed_nil _) eq_refl eq_refl). unfold act_found. now rewrite <- utf8_len_app.
      + pose proof (name_long _ _ _ _ _ NM). constructor; [|constructor]. cbn [act_found o_end]. rewrite !utf8_len_app. lia.
      + cbn [extract_special_phrase]. unfold convert_repeal, convert_element_repeal. cbn [gre_texts gre_refs gre_act is_empty]. rewrite (ta_references a name G _ [] [] NT (fed_nil _)). cbn [map map_ok obind]. rewrite (nt_act _ _ _ _ _ NT). reflexivity.
    - pose proof (list_after_act a _ s l (lit ".") SL (follows_end known)) as AA. destruct (y_name rf c roman a _ title name NM AA) as (WN & G & NT & YG).
      destruct (list_reads known (v ++ title ++ name ++ lit " " ++ s ++ lit ".") _ _ _ _ SL (utf8_len (v ++ title ++ name)) (lit " ") (lit ".") lead_space) as (rs & RR & FD & _).
      { rewrite !utf8_len_app. lia. }
      { exists (v ++ title ++ name ++ lit " "). split; [now rewrite <- !app_assoc|reflexivity]. }
      { apply follows_end. }
      { here. }
      { apply no_mention_end. exists (v ++ title ++ name ++ lit " " ++ s). split; [now rewrite <- !app_assoc|rewrite !utf8_len_app; lia]. }
      assert (GP : grammar_parse (v ++ title ++ name ++ lit " " ++ s ++ lit ".") known = Ok (RRepeal (mkGRep (G (utf8_len (v ++ title))) rs []))).
      { apply (repealed_root a v title name _ G rs [] IV NM AA YG). do 3 eexists. split; [exact RR|apply y_many_nil; here]. }
      assert (NR : is_empty rs = false) by (inversion SL; subst l; inversion FD; reflexivity).
      replace (v ++ title ++ name ++ lit " " ++ s ++ lit ".") with ((v ++ title ++ name ++ lit " " ++ s) ++ [46]) in * by (now rewrite <- !app_assoc).
      apply (sentence_read rf pre post c _ 46 _ _ _ (or_introl eq_refl) P1 P2 GP).
      + unfold get_new_abbreviations. cbn [root_act_refs flat_map gre_act]. rewrite (nt_new _ _ _ _ _ NT). reflexivity.
      + rewrite (repealed_refs a name G (utf8_len (v ++ title)) rs l (mkGRep (G (utf8_len (v ++ title))) rs []) NT FD eq_refl eq_refl). unfold act_found. now rewrite <- utf8_len_app.
      + pose proof (name_long _ _ _ _ _ NM). constructor; [cbn [act_found o_end]; rewrite !utf8_len_app; lia|]. eapply Forall_impl; [|exact (list_within _ _ _ _ SL)]. cbv beta. intros r. rewrite !utf8_len_app. lia.
      + cbn [extract_special_phrase]. unfold convert_repeal, convert_element_repeal. cbn [gre_texts gre_refs gre_act is_empty]. rewrite (ta_references a name G _ rs l NT FD). cbn [obind]. rewrite repeal_refs. cbn [obind]. rewrite NR. reflexivity.
    - destruct (texts_quote known q ts (lit ".") TS (end_after_text known)) as (x & q' & t' & Q & EQ & AQ).
      assert (FW : follows known (lit " " ++ z ++ q ++ lit ".")) by (rewrite EQ; now apply (follows_quote known z x)).
      pose proof (list_after_act a _ s l _ SL FW) as AA. destruct (y_name rf c roman a _ title name NM AA) as (WN & G & NT & YG).
      destruct (list_reads known (v ++ title ++ name ++ lit " " ++ s ++ lit " " ++ z ++ q ++ lit ".") _ _ _ _ SL (utf8_len (v ++ title ++ name)) (lit " ") (lit " " ++ z ++ q ++ lit ".") lead_space) as (rs & RR & FD & _).
      { rewrite !utf8_len_app. lia. }
      { exists (v ++ title ++ name ++ lit " "). split; [now rewrite <- !app_assoc|reflexivity]. }
      { exact FW. }
      { intros o. rewrite EQ. now apply (f_sep_quote known z x). }
      { rewrite EQ. apply (no_mention_quote known _ _ z x q' t' IZ); [|exact Q|exact AQ]. exists (v ++ title ++ name ++ lit " " ++ s ++ lit " "). rewrite <- EQ. split; [now rewrite <- !app_assoc|rewrite !utf8_len_app; change (utf8_len (lit " ")) with 1; lia]. }
      assert (GP : grammar_parse (v ++ title ++ name ++ lit " " ++ s ++ lit " " ++ z ++ q ++ lit ".") known = Ok (RRepeal (mkGRep (G (utf8_len (v ++ title))) rs ts))).
      { apply (repealed_root a v title name _ G rs ts IV NM AA YG). do 2 eexists. destruct (y_texts known q ts TS (utf8_len (v ++ title ++ name ++ lit " ") + utf8_len s) (lit " ") z lead_space IZ) as (o2 & YT). exists o2. split; [exact RR|exact YT]. }
      assert (NT' : is_empty ts = false) by (destruct TS; reflexivity).
      replace (v ++ title ++ name ++ lit " " ++ s ++ lit " " ++ z ++ q ++ lit ".") with ((v ++ title ++ name ++ lit " " ++ s ++ lit " " ++ z ++ q) ++ [46]) in * by (now rewrite <- !app_assoc).
      apply (sentence_read rf pre post c _ 46 _ _ _ (or_introl eq_refl) P1 P2 GP).
      + unfold get_new_abbreviations. cbn [root_act_refs flat_map gre_act]. rewrite (nt_new _ _ _ _ _ NT). reflexivity.
      + rewrite (repealed_refs a name G (utf8_len (v ++ title)) rs l (mkGRep (G (utf8_len (v ++ title))) rs ts) NT FD eq_refl eq_refl). unfold act_found. now rewrite <- utf8_len_app.
      + pose proof (name_long _ _ _ _ _ NM). constructor; [cbn [act_found o_end]; rewrite !utf8_len_app; lia|]. eapply Forall_impl; [|exact (list_within _ _ _ _ SL)]. cbv beta. intros r. rewrite !utf8_len_app. lia.
      + cbn [extract_special_phrase]. unfold convert_repeal. cbn [gre_texts gre_refs gre_act]. rewrite NT'. rewrite (name_feed rf c a name G _ NT). cbn [obind]. rewrite (ta_references a name G _ rs l NT FD). cbn [obind]. assert (EM : forall k, flat_map (fun r => map (fun t => mkTa r t []) ts) (map (fun r => TaSae (o_ref r) PartAll) k) = flat_map (fun r => map (fun t => mkTa (TaSae (o_ref r) PartAll) t []) ts) k).
        { intros k. induction k as [|r k IH]; [reflexivity|]. cbn [map flat_map]. now rewrite IH. }
        now rewrite EM.
  Qed.
End Repealed.
