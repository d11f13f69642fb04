(** Proofs for C72: sentences of insertions. *)
From Verif Require Export ProofSay8.
From Coq Require Import Lia.
Local Open Scope peg_scope.
Local Open Scope N_scope.

Lemma last_of_insertion e : In e insertion_endings -> exists e', e = e' ++ [58].
Proof.
  unfold insertion_endings. cbn [map In]. intros I. apply last_is. repeat (destruct I as [<-|I]; [vm_compute; reflexivity|]). contradiction.
Qed.
Lemma feed_parts_one {A} (f : A -> obuilder -> outcome obuilder) x b : feed_parts f [x] b = f x b.
Proof. cbn [feed_parts]. destruct (f x b); reflexivity. Qed.
Lemma same_feed gi g b : same_parts gi g -> feed_ins gi b = feed_ref g b.
Proof. intros (l & q & E & EQ & ->). unfold feed_ins, feed_ref. cbn. rewrite E. cbn [feed_opt]. rewrite EQ. destruct (feed_parts feed_article l b); reflexivity. Qed.

Section Inserted.
  Variables (rf : str -> option Z) (c : cache).
  Hypothesis roman : roman_from_reads rf.
  Local Notation known := (all_abbreviations c).
  Local Notation yields := (yields known).
  Local Notation fails := (fails known).
  Lemma gap_facts r a gap s u : readable_ref r -> f_act r = Some a -> lower_parts r <> [] -> inserted_phrase (lower_parts r) gap s ->
    exists t, gap ++ s ++ u = lit " " ++ t /\ quiet is_ascii_ws t /\ after_act c (lit " " ++ t) /\ forall o, fails struct_inner o t.
  Proof.
    intros RD EA NE H. remember (lower_parts r) as L eqn:EL. destruct H as [x' f s IF H|ps p s f s' NP H IF H'].
    - exists (f ++ lit " " ++ s ++ u). rewrite <- !app_assoc. split; [reflexivity|]. split; [now apply following_ws|]. split.
      + clear - IF. unfold following in IF. cbn [map In] in IF. destruct IF as [<-|[<-|[]]]; (constructor; [vm_compute; reflexivity|failing|failing]).
      + intros o. now apply mid_not_struct.
    - exists (s ++ lit " " ++ f ++ lit " " ++ s' ++ u). rewrite <- !app_assoc. split; [reflexivity|]. rewrite EL in NE.
      destruct (article_text r a ps s (lit " " ++ f ++ lit " " ++ s' ++ u) RD EA NE NP (ex_intro _ [p] (eq_sym EL)) H) as (x & i & v & F & ET). rewrite ET.
      assert (D : digit_first (i ++ lit " " ++ lit "§" ++ v)) by (eapply digit_first_article; apply F). split; [now apply digit_first_ws|]. split; [now apply digits_after_act|]. intros o. now apply (f_struct known x).
  Qed.
  Lemma inserted_parts gap s ps : inserted_phrase ps gap s -> ps <> [].
  Proof. destruct 1; [discriminate|]. intros E. now apply app_eq_nil in E as [_ E]. Qed.
  Lemma inserted_root a r az title name gap s e : readable_ref r -> f_act r = Some a -> In az the -> act_named (ca_map c) a (gap ++ s ++ e) title name -> inserted_phrase (lower_parts r) gap s -> In e insertion_endings ->
    exists G gi g, name_tree rf c a name G /\ same_parts gi g /\ gref_read r g (utf8_len (az ++ title ++ name ++ gap)) (utf8_len (az ++ title ++ name ++ gap ++ s)) /\
      grammar_parse (az ++ title ++ name ++ gap ++ s ++ e) known = Ok (RBlock (mkGBlock (G (utf8_len (az ++ title))) None None (Some gi))).
  Proof.
    intros RD EA IZ NM SE IE. pose proof (inserted_parts _ _ _ SE) as NE. destruct (under_act r a (rd_form _ RD) EA NE) as (x & ps' & EX & _).
    destruct (gap_facts r a gap s e RD EA NE SE) as (t & ET & W & AA & FS).
    destruct (ins_phrase known r a x gap s e (utf8_len (az ++ title ++ name)) RD EA EX SE IE) as (gi & g & Y & SP & GR & NR).
    rewrite ET in *. destruct (y_name rf c roman a _ title name NM AA) as (WN & G & NT & YG).
    exists G, gi, g. split; [exact NT|]. split; [exact SP|]. split; [rewrite !utf8_len_app in *; rewrite <- !N.add_assoc in *; exact GR|].
    set (whole := az ++ title ++ name ++ lit " " ++ t).
    assert (R : exists o', reads known whole g_root_rule 0 whole (RBlock (mkGBlock (G (utf8_len (az ++ title))) None None (Some gi))) o' []).
    { destruct (inserts known e _ (mkGBlock (G (utf8_len (az ++ title))) None None (Some gi)) (utf8_len (az ++ title ++ name) + utf8_len (gap ++ s)) IE) as (o' & YE). exists o'.
      unfold g_root_rule. apply r_alt1. assert (EOI : yields (sk eoi) o' [] tt o' []) by (apply y_sk; [exact I|intros g' _; reflexivity]).
      eapply r_bind; [|eapply r_bind; [apply r_y, EOI|apply r_ret]].
      assert (W0 : quiet is_ascii_ws whole). { unfold the in IZ. cbn [map In] in IZ. unfold whole. repeat (destruct IZ as [<-|IZ]; [reflexivity|]). contradiction. }
      apply r_sk; [exact W0|]. unfold block_amendment. eapply r_bind; [apply r_y, y_az, IZ|].
      eapply (start_reads rf c roman whole (utf8_len az) a (lit " " ++ t) title name G); [exists az; auto|exact NM|exact AA|exact YG|].
      rewrite <- utf8_len_app. replace (utf8_len (az ++ title) + utf8_len name) with (utf8_len (az ++ title ++ name)) by (rewrite !utf8_len_app; lia).
      eapply r_bind; [apply r_none|].
      - apply x_sk_sp; [exact W|]. apply x_struct; [|apply FS].
        exists (az ++ title ++ name ++ lit " "). split; [unfold whole; now rewrite <- !app_assoc|]. rewrite !utf8_len_app. change (utf8_len (lit " ")) with 1. lia.
      - apply r_alt2; [apply x_f, NR|]. apply r_alt1. eapply r_bind; [apply r_y; exact Y|]. apply r_y. exact YE. }
    destruct R as (o' & R). destruct (R _ (fine_new known whole)) as (g' & E & _). unfold grammar_parse. now rewrite E.
  Qed.
  Lemma inserted pre post a r s info : top pre = [] -> top post = [] -> readable_ref r -> f_act r = Some a -> insertion (ca_map c) a r s info ->
    extract_semantic_info rf grammar_parse s (mkAdder pre post c) = (mkAdder pre post c, Ok info).
  Proof.
    intros P1 P2 RD EA [az title name gap s' e IZ NM SE IE]. destruct (inserted_root a r az title name gap s' e RD EA IZ NM SE IE) as (G & gi & g & NT & SP & GR & E).
    pose proof (inserted_parts _ _ _ SE) as NE. pose proof (rd_form _ RD) as WF.
    destruct (last_of_insertion e IE) as (e' & ->).
    assert (BR : block_references rf c (mkGBlock (G (utf8_len (az ++ title))) None None (Some gi)) = Ok [mkOut (utf8_len (az ++ title)) (utf8_len ((az ++ title) ++ name)) (only_act a);
        mkOut (utf8_len ((az ++ title) ++ name ++ gap)) (utf8_len ((az ++ title) ++ name ++ gap ++ s')) r]).
    { unfold block_references. cbn [gb_act gb_amended gb_inserted]. rewrite (name_feed rf c a name G _ NT). cbn [obind feed_opt]. rewrite (same_feed gi g _ SP).
      rewrite (feed_read r g _ _ _ GR WF NE); [|reflexivity|cbn [ob_ref only_act]; rewrite EA; reflexivity]. cbn [obind ob_result app]. rewrite <- utf8_len_app, <- !app_assoc. reflexivity. }
    replace (az ++ title ++ name ++ gap ++ s' ++ e' ++ [58]) with ((az ++ title ++ name ++ gap ++ s' ++ e') ++ [58]) in * by (now rewrite <- !app_assoc).
    unfold amending. apply (sentence_read rf pre post c _ 58 _ _ _ (or_intror eq_refl) P1 P2 E).
    - unfold get_new_abbreviations. cbn [root_act_refs flat_map gb_act]. rewrite (nt_new _ _ _ _ _ NT). reflexivity.
    - exact BR.
    - assert (0 < utf8_len name).
      { pose proof (name_some _ _ _ _ _ NM). destruct name as [|x n]; [congruence|]. change (x :: n) with ([x] ++ n). rewrite utf8_len_app. pose proof (char_takes x). lia. }
      repeat constructor; cbn [o_end]; rewrite !utf8_len_app; lia.
    - cbn [extract_special_phrase]. rewrite (block_is rf c r a _ _ true WF EA NE BR eq_refl eq_refl eq_refl). reflexivity.
  Qed.
End Inserted.
