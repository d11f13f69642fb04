(** Proofs for C75: the sentence. *)
From Verif Require Export ProofSay18.
From Coq Require Import Lia.
Local Open Scope peg_scope.
Local Open Scope N_scope.

Section Run.
  Variable known : list str.
  Local Notation yields := (yields known).
  Local Notation fails := (fails known).
  Lemma list_first a o s l u : said_list (only_act a) o s l -> follows known u -> stays known u ->
    exists w x s' u', readable_ref w /\ f_article w = Some x /\ said_ended (lower_parts w) s' /\ follows known u' /\ stays known u' /\ s ++ u = s' ++ u'.
  Proof.
    intros S F Y. remember (only_act a) as p eqn:EP.
    assert (K : exists w s' u', readable_ref w /\ said_ended (lower_parts w) s' /\ well_formed (resume p w) /\ follows known u' /\ stays known u' /\ s ++ u = s' ++ u').
    { destruct S as [p o w s [A B C D]|p o w s sep rest l [A B C D] I S].
      - exists w, s, u. auto 10.
      - exists w, s, (sep ++ rest ++ u). destruct (list_parts known _ _ _ _ u S F) as (w2 & t & _ & _ & _ & ET & P2 & B2 & _). subst t.
        split; [exact A|]. split; [exact C|]. split; [exact D|]. split; [now apply sep_follows|]. split; [now apply stays_sep|now rewrite <- !app_assoc]. }
    destruct K as (w & s' & u' & A & C & D & F' & Y' & E). exists w.
    assert (NE : lower_parts w <> []) by (intros E'; rewrite E' in C; now apply ended_nil in C). subst p.
    destruct (under_act (resume (only_act a) w) a D (resumed_act _ _) (resumed_some _ _ NE)) as (x & ps & EX & _).
    assert (EW : f_article w = Some x).
    { clear - EX NE. unfold resume in EX. unfold lower_parts in *. destruct (f_article w) as [y|] eqn:EE; cbn [app] in *.
      - destruct (f_paragraph w), (f_point w), (f_subpoint w); cbn in EX; injection EX as ->; reflexivity.
      - destruct (f_paragraph w), (f_point w), (f_subpoint w); cbn in EX; congruence. }
    exists x, s', u'. repeat (split; [assumption|]). assumption.
  Qed.
  (** ** The three rules for blocks, after the name of the act *)
  Section Blocks.
    Variables (whole : str) (o : N) (a : act_id) (s u : str) (oo : N) (l : list out_ref) (g : g_act_ref).
    Hypothesis said : said_list (only_act a) oo s l.
    Hypothesis after : follows known u.
    Hypothesis stay : stays known u.
    Hypothesis spot : place whole (o + 1) (s ++ u).
    Local Notation t := (lit " " ++ s ++ u).
    Local Notation refuses := (refuses known whole).
    Lemma list_facts : quiet is_ascii_ws (s ++ u) /\ refuses (sk any_structural_reference) o t /\ (forall o, fails (sk article_relative_position) o t) /\ (forall o, fails (sk book_reference) o t) /\
      (forall o, fails (sk insertion_token) o t) /\ (forall o, fails (sk insertion_reference) o t) /\ (forall o, fails (sk reference_with_subtitle) o t) /\
      (forall o A (k : g_ref -> parser A), fails (g <- sk g_reference ;; sk amendment_suffix ;; k g) o t).
    Proof.
      destruct (list_first a oo s l u said after stay) as (w & x & s' & u' & RD & EX & SE & F & Y & E). rewrite E in *.
      assert (NE : lower_parts w <> []) by (intros E'; rewrite E' in SE; now apply ended_nil in SE). destruct (phrase_first known w s' u' RD NE SE F) as (PF & BG & FP).
      destruct (first_refused known _ (part_low _ PF) BG FP) as (_ & F2 & F3 & _). pose proof (first_ws _ PF) as W.
      split; [exact W|]. split; [apply x_sk_sp; [exact W|]; apply x_struct; [exact spot|apply F3]|]. split; [intros o'; apply f_sk_sp; [exact W|apply F2]|].
      split; [intros o'; apply f_sk_sp; [exact W|]; apply f_bind1; apply f_capital_low; now apply part_low|]. split; [intros o'; apply (f_token known (lit " ")); [apply lead_space|exact PF]|].
      split; [intros o'; apply f_sk_sp; [exact W|now apply (ins_refused known w x)]|]. split; [intros o'; apply f_sk_sp; [exact W|now apply (subtitle_refused known w x)]|].
      intros o' A k. destruct (y_reference_then known w s' (o' + 1) u' RD SE (fo_ref _ _ F)) as (g' & YR & _). eapply f_bind2; [apply y_sk_sp; [exact W|exact YR]|]. apply f_bind1, (sy_suffix _ _ Y).
    Qed.
    Definition after_name1 (a : g_act_ref) : parser g_block :=
      s <- opt (sk any_structural_reference) ;;
      ((r <- sk g_reference ;; sk amendment_suffix ;; T ":" ;; ret (mkGBlock a s (Some r) None))
       <|> (i <- sk insertion_reference ;; sk insertion_suffix ;; T ":" ;; ret (mkGBlock a s None (Some i)))
       <|> (r <- sk g_reference ;; sk amendment_suffix ;; opt (T ",") ;; sk combinator_junk ;;
            opt (opt (sk g_az) ;; sk act_reference) ;; opt (sk any_structural_reference) ;;
            i <- sk insertion_reference ;; sk insertion_suffix ;; T ":" ;; ret (mkGBlock a s (Some r) (Some i)))).
    Lemma not_block : refuses (after_name1 g) o t.
    Proof.
      destruct list_facts as (W & S & R & B & K & I & RS & RF). unfold after_name1. eapply x_bind2; [apply r_none, S|]. apply x_alt; [apply x_f, RF|]. apply x_alt; [apply x_f, f_bind1, I|apply x_f, RF].
    Qed.
    Definition after_name2 (a : g_act_ref) : parser g_block_sub :=
      s <- opt (sk any_structural_reference) ;;
      p <- opt (sk article_relative_position) ;;
      ((r <- sk reference_with_subtitle ;; sk amendment_suffix ;; T ":" ;; ret (mkGBlockSub a s p r false))
       <|> (r <- sk reference_with_subtitle ;; sk amendment_suffix_with_subtitle ;; T ":" ;; ret (mkGBlockSub a s p r false))
       <|> (sk insertion_token ;; r <- sk reference_with_subtitle ;; sk insertion_suffix ;; T ":" ;;
            ret (mkGBlockSub a s p r true))).
    Lemma not_block_sub : refuses (after_name2 g) o t.
    Proof.
      destruct list_facts as (W & S & R & B & K & I & RS & RF). unfold after_name2. eapply x_bind2; [apply r_none, S|]. eapply x_bind2; [apply r_none, x_f, R|].
      apply x_alt; [apply x_f, f_bind1, RS|]. apply x_alt; [apply x_f, f_bind1, RS|]. apply x_f, f_bind1, K.
    Qed.
    Definition after_name3 (a : g_act_ref) : parser g_block_struct :=
      opt (sk article_relative_position) ;;
      ((p <- sk any_structural_reference ;; r <- sk any_structural_reference ;; structural_suffix ;; T ":" ;;
        ret (mkGBlockStruct a (Some p) r false None))
       <|> (r <- sk any_structural_reference ;; structural_suffix ;; T ":" ;; ret (mkGBlockStruct a None r false None))
       <|> (p <- sk any_structural_reference ;; sk insertion_token ;; r <- sk any_structural_reference ;; sk insertion_suffix ;;
            T ":" ;; ret (mkGBlockStruct a (Some p) r true None))
       <|> (b <- opt (sk book_reference) ;; sk insertion_token ;; r <- sk any_structural_reference ;; sk insertion_suffix ;;
            T ":" ;; ret (mkGBlockStruct a None r true b))).
    Lemma not_block_struct : refuses (after_name3 g) o t.
    Proof.
      destruct list_facts as (W & S & R & B & K & I & RS & RF). unfold after_name3. eapply x_bind2; [apply r_none, x_f, R|].
      apply x_alt; [apply x_bind1, S|]. apply x_alt; [apply x_bind1, S|]. apply x_alt; [apply x_bind1, S|]. eapply x_bind2; [apply r_none, x_f, B|]. apply x_bind1, x_f, K.
    Qed.
  End Blocks.
  (** ** The pairs of texts *)
  Lemma y_ahead {A} (p : parser A) o t a o' t' : yields p o t a o' t' -> yields (ahead p) o t tt o t.
  Proof. intros Y g K. unfold ahead. now rewrite (Y g K). Qed.
  Lemma f_ahead {A} (p : parser A) o t : fails p o t -> fails (ahead p) o t.
  Proof. intros Y g K. unfold ahead. now rewrite (Y g K). Qed.
  Definition exchange_tail : parser unit := ahead (sk list_separator) <|> sk text_amendment_token.
  Lemma tail_bare sep t o : In sep separators -> quiet is_ascii_ws t -> (forall o, fails conjunction o (lit " " ++ t)) -> (forall o, fails g_az o t) -> yields exchange_tail o (sep ++ t) tt o (sep ++ t).
  Proof. intros I W C A. destruct (y_sep_any known sep o t I W C A) as (o' & l & Y & _). apply y_alt1. eapply y_ahead. exact Y. Qed.
  Lemma tail_named e t o : Forall small_letter e -> quiet is_hun_lower t -> exists o', yields exchange_tail o (lit " szöveg" ++ e ++ t) tt o' t.
  Proof.
    intros F Q. eexists. apply y_alt2; [apply f_ahead; here|]. change (lit " szöveg" ++ e ++ t) with (lit " " ++ lit "szöveg" ++ e ++ t). apply y_sk_sp; [reflexivity|]. apply (y_suffixed known "szöveg"); [now apply smalls|exact Q].
  Qed.
  Lemma y_exchange x y s z o t t' : In z articles -> exchange_said x y s -> (forall o, exists o', yields exchange_tail o t tt o' t') -> exists o', yields text_amendment_part o (z ++ s ++ t) (x, y) o' t'.
  Proof.
    intros IZ [q e k z' q' Q FE IK IZ' Q'] Y. rewrite <- !app_assoc.
    destruct (quote_facts known x q (lit " szöveg" ++ e ++ k ++ z' ++ q' ++ t) Q) as (W1 & _ & A1 & _). destruct (quote_facts known y q' t Q') as (W2 & _ & A2 & _).
    destruct (y_article known [] z o _ lead_none IZ W1 A1) as (a1 & o2 & l2 & Y1 & L2 & _). cbn [app] in Y1.
    assert (YK : forall o, exists o', yields (one_of_sk ["helyébe"; "helyett"]%string) o (k ++ z' ++ q' ++ t) tt o' (lit " " ++ z' ++ q' ++ t)).
    { intros o'. unfold exchanging in IK. cbn [map In] in IK. destruct IK as [<-|[<-|[]]]; eexists; cbn [one_of_sk].
      - change (lit " helyébe ") with (lit " " ++ lit "helyébe" ++ lit " "). rewrite <- !app_assoc. apply y_alt1. apply y_sk_sp; [reflexivity|apply y_tok].
      - change (lit " helyett ") with (lit " " ++ lit "helyett" ++ lit " "). rewrite <- !app_assoc. apply y_alt2; [here|]. apply y_alt1. apply y_sk_sp; [reflexivity|apply y_tok]. }
    assert (QK : quiet is_hun_lower (k ++ z' ++ q' ++ t)) by (unfold exchanging in IK; cbn [map In] in IK; destruct IK as [<-|[<-|[]]]; reflexivity).
    assert (YQ : exists o3, yields (sk g_quote) o2 (l2 ++ q ++ lit " szöveg" ++ e ++ k ++ z' ++ q' ++ t) x o3 (lit " szöveg" ++ e ++ k ++ z' ++ q' ++ t)) by (eexists; apply y_sk_lead; [exact L2|exact W1|now apply y_quote]).
    destruct YQ as (o3 & YQ).
    assert (YT : exists o4, yields (sk text_amendment_token) o3 (lit " szöveg" ++ e ++ k ++ z' ++ q' ++ t) tt o4 (k ++ z' ++ q' ++ t)).
    { eexists. change (lit " szöveg" ++ e ++ k ++ z' ++ q' ++ t) with (lit " " ++ lit "szöveg" ++ e ++ k ++ z' ++ q' ++ t). apply y_sk_sp; [reflexivity|]. apply (y_suffixed known "szöveg"); [now apply smalls|exact QK]. }
    destruct YT as (o4 & YT). destruct (YK o4) as (o5 & Y5).
    destruct (y_article known (lit " ") z' o5 (q' ++ t) lead_space IZ' W2 A2) as (a6 & o6 & l6 & Y6 & L6 & _).
    assert (Y7 : exists o7, yields (sk g_quote) o6 (l6 ++ q' ++ t) y o7 t) by (eexists; apply y_sk_lead; [exact L6|exact W2|now apply y_quote]). destruct Y7 as (o7 & Y7).
    destruct (Y o7) as (o8 & Y8). exists o8. unfold text_amendment_part. eapply y_bind; [exact Y1|]. eapply y_bind; [exact YQ|]. eapply y_bind; [exact YT|]. eapply y_bind; [exact Y5|]. eapply y_bind; [exact Y6|]. eapply y_bind; [exact Y7|].
    eapply y_bind; [exact Y8|]. apply y_ret.
  Qed.
  Lemma exchange_quote x y s t : exchange_said x y s -> exists q t', quotation x q /\ s ++ t = q ++ t' /\ after_quote known t'.
  Proof. intros [q e k z' q' Q FE IK IZ' Q']. exists q. eexists. split; [exact Q|]. rewrite <- !app_assoc. split; [reflexivity|]. constructor; failing. Qed.
  Lemma exchanges_quote s ps t : exchanges_said s ps -> exists x q t', quotation x q /\ s ++ t = q ++ t' /\ after_quote known t'.
  Proof.
    intros [x y s' e S F|x y s' sep rest l S I _|x y s' e sep rest l S F I _]; exists x; rewrite <- !app_assoc; eapply exchange_quote; exact S.
  Qed.
  Lemma exchange_long x y s : exchange_said x y s -> (2 <= List.length s)%nat.
  Proof. intros [q e k z' q' (_ & _ & ->) _ _ _ _]. rewrite !app_length. change (List.length (lit "„")) with 1%nat. change (List.length (lit "”")) with 1%nat. lia. Qed.
  Definition pair_step : parser (str * str) := sk list_separator ;; sk text_amendment_part.
  Lemma y_exchanges s ps : exchanges_said s ps -> forall o z e, In z articles -> In e exchange_endings ->
    exists p l o1 t1 o2, ps = p :: l /\ yields text_amendment_part o (z ++ s ++ e) p o1 t1 /\ yields (many pair_step) o1 t1 l o2 e /\ (List.length t1 < List.length (s ++ e))%nat.
  Proof.
    induction 1 as [x y s e0 S F|x y s sep rest l S I SS IH|x y s e0 sep rest l S F I SS IH]; intros o z e IZ IE; rewrite <- !app_assoc.
    - assert (Q : quiet is_hun_lower e) by (unfold exchange_endings in IE; cbn [map In] in IE; repeat (destruct IE as [<-|IE]; [vm_compute; reflexivity|]); contradiction).
      destruct (y_exchange x y s z o (lit " szöveg" ++ e0 ++ e) e IZ S) as (o1 & Y); [intros o'; now apply tail_named|]. exists (x, y), [], o1, e, o1. split; [reflexivity|]. split; [exact Y|]. split.
      + apply y_many_nil. unfold exchange_endings in IE. cbn [map In] in IE. repeat (destruct IE as [<-|IE]; [here|]). contradiction.
      + pose proof (exchange_long _ _ _ S). rewrite !app_length. lia.
    - destruct (exchanges_quote rest l e SS) as (x2 & q2 & t2 & Q2 & E2 & _). destruct (quote_facts known x2 q2 t2 Q2) as (W2 & FC & FA & _). rewrite <- E2 in W2, FC, FA.
      destruct (y_exchange x y s z o (sep ++ rest ++ e) (sep ++ rest ++ e) IZ S) as (o1 & Y); [intros o'; exists o'; now apply tail_bare|].
      destruct (y_sep_any known sep o1 (rest ++ e) I W2 FC FA) as (o2 & l2 & Y2 & L2 & _).
      destruct (IH (o2 + utf8_len l2) [] e (or_introl eq_refl) IE) as (p & ps' & o3 & t3 & o4 & -> & Y3 & Y4 & LT).
      exists (x, y), (p :: ps'), o1, (sep ++ rest ++ e), o4. split; [reflexivity|]. split; [exact Y|]. pose proof (exchange_long _ _ _ S) as LS. split; [|rewrite !app_length in *; lia].
      eapply y_many_cons; [|unfold pair_step; eapply y_bind; [exact Y2|]; apply y_sk_lead; [exact L2|exact W2|exact Y3]|exact Y4]. rewrite !app_length in *. lia.
    - destruct (exchanges_quote rest l e SS) as (x2 & q2 & t2 & Q2 & E2 & _). destruct (quote_facts known x2 q2 t2 Q2) as (W2 & FC & FA & _). rewrite <- E2 in W2, FC, FA.
      destruct (y_exchange x y s z o (lit " szöveg" ++ e0 ++ sep ++ rest ++ e) (sep ++ rest ++ e) IZ S) as (o1 & Y); [intros o'; apply tail_named; [exact F|apply (sep_after_text known sep (rest ++ e) I)]|].
      destruct (y_sep_any known sep o1 (rest ++ e) I W2 FC FA) as (o2 & l2 & Y2 & L2 & _).
      destruct (IH (o2 + utf8_len l2) [] e (or_introl eq_refl) IE) as (p & ps' & o3 & t3 & o4 & -> & Y3 & Y4 & LT).
      exists (x, y), (p :: ps'), o1, (sep ++ rest ++ e), o4. split; [reflexivity|]. split; [exact Y|]. pose proof (exchange_long _ _ _ S) as LS. split; [|rewrite !app_length in *; lia].
      eapply y_many_cons; [|unfold pair_step; eapply y_bind; [exact Y2|]; apply y_sk_lead; [exact L2|exact W2|exact Y3]|exact Y4]. rewrite !app_length in *. lia.
  Qed.
  Lemma y_pairs s ps o z e : exchanges_said s ps -> In z articles -> In e exchange_endings -> exists o', yields (sep_list text_amendment_part) o (lit " " ++ z ++ s ++ e) ps o' e.
  Proof.
    intros S IZ IE. destruct (y_exchanges s ps S (o + 1) z e IZ IE) as (p & l & o1 & t1 & o2 & -> & Y1 & Y2 & _). exists o2. unfold sep_list. eapply y_bind; [apply y_sk_sp; [|exact Y1]|eapply y_bind; [exact Y2|apply y_ret]].
    destruct (exchanges_quote s _ e S) as (x & q & t & Q & E & _). rewrite E. destruct (quote_facts known x q t Q) as (W & _). unfold articles in IZ. cbn [In] in IZ. destruct IZ as [<-|[<-|[<-|[]]]]; [exact W|reflexivity|reflexivity].
  Qed.
  Lemma exchange_ends e A (x : A) o : In e exchange_endings -> exists o', yields (opt (T ",") ;; T "lép" ;; opt (T "hatályba") ;; T "." ;; ret x) o e x o' [].
  Proof. unfold exchange_endings. cbn [map In]. intros I. repeat (destruct I as [<-|I]; [computed|]). contradiction. Qed.
End Run.
