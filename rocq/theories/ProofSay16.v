(** Proofs for C74: sentences of repeal. *)
From Verif Require Export ProofSay15.
From Coq Require Import Lia.
Local Open Scope peg_scope.
Local Open Scope N_scope.

Section Run.
  Variable known : list str.
  Local Notation yields := (yields known).
  Local Notation fails := (fails known).
  Lemma y_article l z o t : lead l -> In z articles -> quiet is_ascii_ws t -> (forall o, fails g_az o t) ->
    exists a o' l', yields (opt (sk g_az)) o (l ++ z ++ t) a o' (l' ++ t) /\ lead l' /\ o' + utf8_len l' = o + utf8_len (l ++ z).
  Proof.
    intros L IZ W FA. unfold articles in IZ. cbn [In] in IZ. destruct IZ as [<-|[<-|[<-|[]]]].
    - exists None, o, l. rewrite app_nil_r. split; [|auto]. cbn [app]. apply y_none. destruct L as [->| ->]; [apply f_sk|apply f_sk_sp]; auto.
    - exists (Some tt), (o + utf8_len l + utf8_len (lit "a ")), []. split; [|split; [apply lead_none|rewrite utf8_len_app; change (utf8_len []) with 0; lia]]. cbn [app]. apply y_some, y_sk_lead; [exact L|reflexivity|].
      change (lit "a " ++ t) with (lit "a" ++ lit " " ++ t). unfold g_az. eapply y_bind; [apply y_tok|]. eapply y_bind; [apply y_none, f_tok; reflexivity|]. eapply y_eq; [apply y_tok|]. change (utf8_len (lit "a")) with 1; change (utf8_len (lit " ")) with 1; change (utf8_len (lit "a ")) with 2; lia.
    - exists (Some tt), (o + utf8_len l + utf8_len (lit "az ")), []. split; [|split; [apply lead_none|rewrite utf8_len_app; change (utf8_len []) with 0; lia]]. cbn [app]. apply y_some, y_sk_lead; [exact L|reflexivity|].
      change (lit "az " ++ t) with (lit "a" ++ lit "z" ++ lit " " ++ t). unfold g_az. eapply y_bind; [apply y_tok|]. eapply y_bind; [apply y_some, y_tok|]. eapply y_eq; [apply y_tok|]. change (utf8_len (lit "a")) with 1; change (utf8_len (lit "z")) with 1; change (utf8_len (lit " ")) with 1; change (utf8_len (lit "az ")) with 3; lia.
  Qed.
  Lemma quote_facts x q t : quotation x q -> quiet is_ascii_ws (q ++ t) /\ (forall o, fails conjunction o (lit " " ++ q ++ t)) /\ (forall o, fails g_az o (q ++ t)) /\ (1 <= List.length q)%nat.
  Proof.
    intros (_ & _ & ->). rewrite <- app_assoc. generalize (x ++ lit "”"). intros v. split; [reflexivity|]. split; [failing|]. split; [failing|]. rewrite app_length. change (List.length (lit "„")) with 1%nat. lia.
  Qed.
  Record after_text (t : str) : Prop := { at_lower : quiet is_hun_lower t; at_token : forall o, fails (sk text_amendment_token) o t; at_quote : after_quote known t }.
  Lemma sep_after_text sep t : In sep separators -> after_text (sep ++ t).
  Proof.
    intros I. constructor; [| |now apply sep_after_quote]; revert I.
    - assert (H : forall p z, In p (lit ", " :: lit "; " :: list_words) -> quiet is_hun_lower (p ++ z)).
      { unfold list_words. cbn [map flat_map app In]. intros p z I. repeat (destruct I as [<-|I]; [vm_compute; reflexivity|]). contradiction. }
      unfold separators. rewrite in_flat_map. intros (x & I & J). apply in_map_iff in J as (z & <- & _). rewrite <- app_assoc. now apply H.
    - assert (H : forall p z, In p (lit ", " :: lit "; " :: list_words) -> forall o, fails (sk text_amendment_token) o (p ++ z)).
      { unfold list_words. cbn [map flat_map app In]. intros p z I. repeat (destruct I as [<-|I]; [failing|]). contradiction. }
      unfold separators. rewrite in_flat_map. intros (x & I & J). apply in_map_iff in J as (z & <- & _). rewrite <- app_assoc. now apply H.
  Qed.
  Lemma end_after_text : after_text (lit ".").
  Proof. constructor; [vm_compute; reflexivity|failing|constructor; failing]. Qed.
  Lemma text_quote x s t : text_said x s -> after_text t -> exists q t', quotation x q /\ s ++ t = q ++ t' /\ after_quote known t'.
  Proof.
    intros [q Q|q e Q F] A; exists q; eexists; (split; [exact Q|]).
    - split; [reflexivity|apply A].
    - rewrite <- !app_assoc. split; [reflexivity|]. constructor; failing.
  Qed.
  Lemma texts_quote s ts t : texts_said s ts -> after_text t -> exists x q t', quotation x q /\ s ++ t = q ++ t' /\ after_quote known t'.
  Proof.
    intros [x q S|x q sep s' l S I _] A.
    - exists x. now apply text_quote.
    - exists x. rewrite <- !app_assoc. apply text_quote; [exact S|now apply sep_after_text].
  Qed.
  (** A quotation with what is said after it *)
  Lemma y_text x s o l t : lead l -> text_said x s -> after_text t -> exists a, yields (t <- sk g_quote ;; a <- opt (sk text_amendment_token) ;; ret (t, a)) o (l ++ s ++ t) (x, a) (o + utf8_len (l ++ s)) t.
  Proof.
    intros L [q Q|q e Q F] A.
    - exists None. eapply y_bind; [apply y_sk_lead; [exact L|apply (quote_facts x q t Q)|apply y_quote; exact Q]|]. eapply y_bind; [apply y_none, A|]. eapply y_eq; [apply y_ret|]. rewrite utf8_len_app. lia.
    - exists (Some tt). rewrite <- !app_assoc. change (lit " szöveg" ++ e ++ t) with (lit " " ++ lit "szöveg" ++ e ++ t). eapply y_bind; [apply y_sk_lead; [exact L|apply (quote_facts x q _ Q)|apply y_quote; exact Q]|].
      eapply y_bind; [apply y_some, y_sk_sp; [reflexivity|]; apply (y_suffixed known "szöveg"); [now apply smalls|apply A]|]. eapply y_eq; [apply y_ret|]. rewrite !utf8_len_app. change (utf8_len (lit " szöveg")) with (1 + utf8_len (lit "szöveg")). lia.
  Qed.
  Definition text_step : parser str := opt (sk g_az) ;; t <- sk g_quote ;; opt (sk text_amendment_token) ;; opt (sk list_separator) ;; ret t.
  Lemma y_text_step x s z o l t a o' t' : lead l -> In z articles -> text_said x s -> after_text t -> yields (opt (sk list_separator)) (o + utf8_len (l ++ z ++ s)) t a o' t' -> yields text_step o (l ++ z ++ s ++ t) x o' t'.
  Proof.
    intros L IZ S A Y. destruct (text_quote x s t S A) as (q & t1 & Q & E & _). destruct (quote_facts x q t1 Q) as (W & _ & FA & _). rewrite <- E in W, FA.
    destruct (y_article l z o (s ++ t) L IZ W FA) as (b & o1 & l1 & Y1 & L1 & E1). destruct (y_text x s o1 l1 t L1 S A) as (b2 & Y2).
    unfold text_step. eapply y_bind; [exact Y1|]. intros g K. specialize (Y2 g K). unfold pbind in *. destruct (sk g_quote (mkCur o1 (l1 ++ s ++ t)) g) as [[[x' c1]| |] g1]; try discriminate Y2.
    destruct (opt (sk text_amendment_token) c1 g1) as [[[b3 c2]| |] g2]; try discriminate Y2. unfold ret in Y2 |- *. injection Y2 as -> _ -> ->. rewrite utf8_len_app in Y |- *.
    replace (o1 + (utf8_len l1 + utf8_len s)) with (o + (utf8_len l + utf8_len (z ++ s))) by (rewrite utf8_len_app in *; lia). rewrite (Y g K). reflexivity.
  Qed.
  Lemma y_texts s ts : texts_said s ts -> forall o l z, lead l -> In z articles -> exists o', yields (many text_step) o (l ++ z ++ s ++ lit ".") ts o' (lit ".").
  Proof.
    assert (END : forall o, fails text_step o (lit ".")) by failing.
    induction 1 as [x q S|x q sep s l0 S I SS IH]; intros o l z L IZ.
    - eexists. eapply y_many_cons; [|apply (y_text_step x q z o l (lit ".") None _ (lit ".") L IZ S end_after_text); apply y_none; here|apply y_many_nil, END].
      destruct (text_quote x q (lit ".") S end_after_text) as (q' & t' & Q & E & _). rewrite E. destruct (quote_facts x q' t' Q) as (_ & _ & _ & LQ).
      destruct S as [q Q2|q e Q2 F]; destruct (quote_facts x q (lit ".") Q2) as (_ & _ & _ & LQ2); rewrite <- E, !app_length; lia.
    - destruct (texts_quote s l0 (lit ".") SS end_after_text) as (x2 & q2 & t2 & Q2 & E2 & _). destruct (quote_facts x2 q2 t2 Q2) as (W2 & FC & FA & LQ2). rewrite <- E2 in W2, FC, FA.
      destruct (y_sep_any known sep (o + utf8_len (l ++ z ++ q)) (s ++ lit ".") I W2 FC FA) as (o1 & l1 & Y1 & L1 & _).
      destruct (IH o1 l1 [] L1 (or_introl eq_refl)) as (o' & Y'). exists o'. rewrite <- !app_assoc. cbn [app] in Y'.
      eapply y_many_cons; [|apply (y_text_step x q z o l (sep ++ s ++ lit ".") (Some tt) o1 _ L IZ S); [now apply sep_after_text|now apply y_some, Y1]|exact Y'].
      assert (LL : (List.length l1 <= 1)%nat) by (destruct L1 as [->| ->]; vm_compute; lia).
      assert (LQ : (2 <= List.length q)%nat). { destruct S as [q (_ & _ & ->)|q e (_ & _ & ->) _]; rewrite !app_length; change (List.length (lit "„")) with 1%nat; change (List.length (lit "”")) with 1%nat; lia. }
      rewrite !app_length. lia.
  Qed.
End Run.
