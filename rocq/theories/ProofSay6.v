(** Proofs for C71: sentences of replacements. *)
From Verif Require Export ProofSay5.
From Coq Require Import Lia.
Local Open Scope peg_scope.
Local Open Scope N_scope.

Definition end_of_run {A} (r : outcome (A * cur) * glob) : N := match fst r with Ok (_, c) => cu_off c | _ => 0 end.
Ltac computed := match goal with |- exists o', yields _ ?p ?o ?e _ o' _ => exists (end_of_run (p (mkCur o e) (mkGlob [] [] []))); intros ? _; vm_compute; reflexivity end.
Ltac failing := intros ? ? _; vm_compute; reflexivity.
Lemma replaces known e A (x : A) o : In e replacement_endings -> exists o', yields known (sk amendment_suffix ;; T ":" ;; ret x) o e x o' [].
Proof.
  unfold replacement_endings. cbn [map In]. intros I. repeat (destruct I as [<-|I]; [computed|]). contradiction.
Qed.
Lemma after_replacement known e : In e replacement_endings -> after_ref known e.
Proof.
  unfold replacement_endings. cbn [map In]. intros I. repeat (destruct I as [<-|I]; [constructor; [vm_compute; reflexivity|vm_compute; reflexivity|failing|failing|failing|failing]|]). contradiction.
Qed.
Lemma last_is (s : str) x : match rev s with y :: _ => (y =? x) | [] => false end = true -> exists s', s = s' ++ [x].
Proof. intros H. destruct (rev s) as [|y l] eqn:E; [discriminate|]. apply N.eqb_eq in H as ->. exists (rev l). rewrite <- (rev_involutive s), E. reflexivity. Qed.
Lemma last_of_replacement e : In e replacement_endings -> exists e', e = e' ++ [58].
Proof.
  unfold replacement_endings. cbn [map In]. intros I. apply last_is. repeat (destruct I as [<-|I]; [vm_compute; reflexivity|]). contradiction.
Qed.

Lemma name_some m a rest title name : act_named m a rest title name -> name <> [].
Proof.
  intros [t n OK Y S D E K|ch k ND NW I U F]; [|discriminate]. intros ->. unfold act_show in S. destruct (roman_to (act_number a)) as [x|]; [|discriminate]. injection S as S.
  apply app_eq_nil in S as [_ S]. discriminate S.
Qed.

Section Replaced.
  Variables (rf : str -> option Z) (c : cache).
  Hypothesis roman : roman_from_reads rf.
  Local Notation known := (all_abbreviations c).
  Local Notation yields := (yields known).
  Local Notation fails := (fails known).
  (** Something beginning with a digit may follow the name of an act. *)
  Lemma digits_after_act t : digit_first t -> after_act c (lit " " ++ t).
  Proof.
    intros D. constructor; [reflexivity|..].
    - intros o. apply (f_T_lead known "(" 40 [] (lit " ") o t lead_space); [now apply digit_first_ws|reflexivity|]. apply (digit_not _ t); [apply no_paren_digit|exact D].
    - intros o. unfold stop_words. pose proof (digit_first_ws t D) as W. cbn [one_of_sk].
      assert (K : forall s x w, lit s = x :: w -> is_digit x = false -> fails (T s) o (lit " " ++ t)).
      { intros s x w E H. apply (f_T_lead known s x w (lit " ") o t lead_space W E). apply (digit_not _ t); [|exact D]. intros d I. apply N.eqb_neq. congruence. }
      repeat apply f_alt; [eapply K; reflexivity..|]. intros g _. reflexivity.
  Qed.
  (** The sentence up to the phrase of the reference *)
  Lemma article_text r a ps s u : readable_ref r -> f_act r = Some a -> lower_parts r <> [] -> ps <> [] -> (exists qs, lower_parts r = ps ++ qs) -> said_ended ps s ->
    exists x i v, y_art_facts x i /\ s ++ u = i ++ lit " " ++ lit "§" ++ v.
  Proof.
    intros RD EA NE NP (qs & EQ) H. destruct (under_act r a (rd_form _ RD) EA NE) as (x & ps' & EX & EP). destruct ps as [|p ps]; [congruence|]. cbn [app] in EQ. rewrite EP in EQ. injection EQ as <- EQ.
    apply ended_split in H as (i & n & n' & P & H). destruct (article_facts r x i n n' RD EX P) as [F ->]. exists x, i.
    destruct H as [(_ & e & _ & ->)|(s' & _ & ->)]; rewrite <- !app_assoc; eexists; (split; [exact F|reflexivity]).
  Qed.
  Lemma replaced_root a r az title name s e : readable_ref r -> f_act r = Some a -> In az the -> act_named (ca_map c) a (lit " " ++ s ++ e) title name -> said_ended (lower_parts r) s -> In e replacement_endings ->
    exists G g, name_tree rf c a name G /\ gref_read r g (utf8_len (az ++ title ++ name ++ lit " ")) (utf8_len (az ++ title ++ name ++ lit " " ++ s)) /\
      grammar_parse (az ++ title ++ name ++ lit " " ++ s ++ e) known = Ok (RBlock (mkGBlock (G (utf8_len (az ++ title))) None (Some g) None)).
  Proof.
    intros RD EA IZ NM SE IE. assert (NE : lower_parts r <> []) by (intros E; rewrite E in SE; now apply ended_nil in SE).
    destruct (article_text r a (lower_parts r) s e RD EA NE NE (ex_intro _ [] (eq_sym (app_nil_r _))) SE) as (x & i & v & F & ET).
    assert (D : digit_first (s ++ e)) by (rewrite ET; eapply digit_first_article; apply F). pose proof (digit_first_ws _ D) as W.
    pose proof (digits_after_act _ D) as AA. destruct (y_name rf c roman a _ title name NM AA) as (WN & G & NT & YG).
    destruct (y_reference_then known r s (utf8_len (az ++ title ++ name) + 1) e RD SE (after_replacement known e IE)) as (g & Y & GR).
    exists G, g. split; [exact NT|]. split; [rewrite !utf8_len_app in *; change (utf8_len (lit " ")) with 1; rewrite <- !N.add_assoc in *; exact GR|].
    set (whole := az ++ title ++ name ++ lit " " ++ s ++ e).
    assert (R : exists o', reads known whole g_root_rule 0 whole (RBlock (mkGBlock (G (utf8_len (az ++ title))) None (Some g) None)) o' []).
    { destruct (replaces known e _ (mkGBlock (G (utf8_len (az ++ title))) None (Some g) None) (utf8_len (az ++ title ++ name) + 1 + utf8_len s) IE) as (o' & YE). exists o'.
      unfold g_root_rule. apply r_alt1. assert (EOI : yields (sk eoi) o' [] tt o' []) by (apply y_sk; [exact I|intros g' _; reflexivity]).
      eapply r_bind; [|eapply r_bind; [apply r_y, EOI|apply r_ret]].
      assert (W0 : quiet is_ascii_ws whole). { unfold the in IZ. cbn [map In] in IZ. unfold whole. repeat (destruct IZ as [<-|IZ]; [reflexivity|]). contradiction. }
      apply r_sk; [exact W0|]. unfold block_amendment. eapply r_bind; [apply r_y, y_az, IZ|].
      eapply (start_reads rf c roman whole (utf8_len az) a (lit " " ++ s ++ e) title name G); [exists az; auto|exact NM|exact AA|exact YG|].
      rewrite <- utf8_len_app. replace (utf8_len (az ++ title) + utf8_len name) with (utf8_len (az ++ title ++ name)) by (rewrite !utf8_len_app; lia).
      eapply r_bind; [apply r_none|].
      - apply x_sk_sp; [exact W|]. apply x_struct; [|rewrite ET; now apply (f_struct known x)].
        exists (az ++ title ++ name ++ lit " "). split; [unfold whole; now rewrite <- !app_assoc|]. rewrite !utf8_len_app. change (utf8_len (lit " ")) with 1. lia.
      - apply r_alt1. eapply r_bind; [apply r_y, y_sk_sp; [exact W|exact Y]|]. apply r_y. exact YE. }
    destruct R as (o' & R). destruct (R _ (fine_new known whole)) as (g' & E & _). unfold grammar_parse. now rewrite E.
  Qed.
  Lemma replaced pre post a r s info : top pre = [] -> top post = [] -> readable_ref r -> f_act r = Some a -> replacement (ca_map c) a r s info ->
    extract_semantic_info rf grammar_parse s (mkAdder pre post c) = (mkAdder pre post c, Ok info).
  Proof.
    intros P1 P2 RD EA [az title name s' e IZ NM SE IE]. destruct (replaced_root a r az title name s' e RD EA IZ NM SE IE) as (G & g & NT & GR & E).
    assert (NE : lower_parts r <> []) by (intros E'; rewrite E' in SE; now apply ended_nil in SE). pose proof (rd_form _ RD) as WF.
    destruct (last_of_replacement e IE) as (e' & ->).
    assert (BR : block_references rf c (mkGBlock (G (utf8_len (az ++ title))) None (Some g) None) = Ok [mkOut (utf8_len (az ++ title)) (utf8_len ((az ++ title) ++ name)) (only_act a);
        mkOut (utf8_len ((az ++ title) ++ name ++ lit " ")) (utf8_len ((az ++ title) ++ name ++ lit " " ++ s')) r]).
    { unfold block_references. cbn [gb_act gb_amended gb_inserted]. rewrite (name_feed rf c a name G _ NT). cbn [obind feed_opt].
      rewrite (feed_read r g _ _ _ GR WF NE); [|reflexivity|cbn [ob_ref only_act]; rewrite EA; reflexivity]. cbn [obind ob_result app]. rewrite <- utf8_len_app, <- !app_assoc. reflexivity. }
    replace (az ++ title ++ name ++ lit " " ++ s' ++ e' ++ [58]) with ((az ++ title ++ name ++ lit " " ++ s' ++ e') ++ [58]) in * by (now rewrite <- !app_assoc).
    unfold amending. apply (sentence_read rf pre post c _ 58 _ _ _ (or_intror eq_refl) P1 P2 E).
    - unfold get_new_abbreviations. cbn [root_act_refs flat_map gb_act]. rewrite (nt_new _ _ _ _ _ NT). reflexivity.
    - exact BR.
    - assert (0 < utf8_len name).
      { pose proof (name_some _ _ _ _ _ NM). destruct name as [|x n]; [congruence|]. change (x :: n) with ([x] ++ n). rewrite utf8_len_app. pose proof (char_takes x). lia. }
      repeat constructor; cbn [o_end]; rewrite !utf8_len_app; change (utf8_len (lit " ")) with 1; lia.
    - cbn [extract_special_phrase]. rewrite (block_is rf c r a _ _ false WF EA NE BR eq_refl eq_refl eq_refl). reflexivity.
  Qed.
End Replaced.
