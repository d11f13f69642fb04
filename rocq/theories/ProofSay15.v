(** Proofs for C74-: lists of references, lists of quotations. *)
From Verif Require Export ProofSay14.
From Coq Require Import Lia.
Local Open Scope peg_scope.
Local Open Scope N_scope.

(** The trees of a list, and the references found when they are taken one after the other *)
Inductive fed : reference -> list g_ta_ref -> list out_ref -> Prop :=
| fed_nil p : fed p [] []
| fed_cons p w g o e ts out : gref_read w g o e -> lower_parts w <> [] -> well_formed (resume p w) -> fed (resume p w) ts out ->
    fed p (GTaRef g None :: ts) (mkOut o e (resume p w) :: out).
Lemma fed_out p ts out : fed p ts out -> forall b, ob_start b = None -> ob_ref b = p -> exists b', feed_all feed_ta_ref ts b = Ok b' /\ ob_result b' = ob_result b ++ out.
Proof.
  induction 1 as [p|p w g o e ts out G NE WF _ IH]; intros b S R; [exists b; rewrite app_nil_r; auto|]. cbn [feed_all feed_ta_ref].
  rewrite (feed_resumed p w g o e b G NE WF S R). cbn [obind]. destruct (IH (mkOb (resume p w) (ob_result b ++ [mkOut o e (resume p w)]) None e) eq_refl eq_refl) as (b' & E & F).
  exists b'. split; [exact E|]. rewrite F. cbn [ob_result]. now rewrite <- app_assoc.
Qed.
Lemma resumed_some p w : lower_parts w <> [] -> lower_parts (resume p w) <> [].
Proof.
  unfold resume. destruct w as [fa fx fp ft fs], p as [pa px pp pt ps]. unfold lower_parts. cbn [f_act f_article f_paragraph f_point f_subpoint].
  destruct fx, fp, ft as [[]|], fs as [[]|]; cbn; try congruence; intros _; destruct px, pp, pt; discriminate.
Qed.
Lemma resumed_act p w : f_act (resume p w) = f_act p.
Proof. unfold resume. destruct (lower_parts w) as [|[] l]; reflexivity. Qed.
Lemma resumed_parts p w a : f_act p = Some a -> lower_parts w <> [] -> well_formed (resume p w) -> is_act_only (resume p w) = false.
Proof.
  intros E NE WF. apply resumed_some with (p := p) in NE. rewrite <- (resumed_act p w) in E. destruct (under_act _ a WF E NE) as (x & ps & EX & _). unfold is_act_only. now rewrite EX.
Qed.
Lemma fed_ta rf a p ts out : fed p ts out -> f_act p = Some a -> forall b, ob_start b = None -> ob_ref b = p -> filter (fun r => negb (is_act_only r)) (map o_ref (ob_result b)) = [] ->
  convert_ta_loop rf a ts b = Ok (map (fun r => TaSae (o_ref r) PartAll) out).
Proof.
  induction 1 as [p|p w g o e ts out G NE WF _ IH]; intros EA b S R F; [reflexivity|]. cbn [convert_ta_loop convert_ta_ref].
  rewrite (feed_resumed p w g o e b G NE WF S R). cbn [obind take_result ob_result ob_ref ob_start ob_end fst snd]. rewrite IH by (reflexivity || now rewrite resumed_act). cbn [obind]. unfold taken_refs.
  rewrite map_app, filter_app, F. cbn [map filter o_ref app]. rewrite (resumed_parts p w a EA NE WF). reflexivity.
Qed.

Section Run.
  Variable known : list str.
  Local Notation yields := (yields known).
  Local Notation fails := (fails known).
  Definition ref_step : parser g_ta_ref := r <- sk text_amendment_reference ;; opt (sk list_separator) ;; ret r.
  Lemma ended_long ps s : said_ended ps s -> (1 <= List.length s)%nat.
  Proof. intros [p i n n' e _ _|p i n n' ps' s' _ _]; rewrite !app_length; change (List.length (lit " ")) with 1%nat; lia. Qed.
  Lemma list_parts p o s l u : said_list p o s l -> follows known u -> exists w t, lower_parts w <> [] /\ readable_ref w /\ well_formed (resume p w) /\ s ++ u = t /\ part_first t /\ begins t /\
    exists s' u', said_ended (lower_parts w) s' /\ follows known u' /\ t = s' ++ u'.
  Proof.
    intros [p' o' w s' [A B C D]|p' o' w s' sep rest l' [A B C D] I _] F.
    - assert (NE : lower_parts w <> []) by (intros E; rewrite E in C; now apply ended_nil in C). destruct (phrase_first known w s' u A NE C F) as (P & B' & _).
      exists w. eexists. do 5 (split; [eassumption || reflexivity|]). split; [exact B'|]. eauto.
    - assert (NE : lower_parts w <> []) by (intros E; rewrite E in C; now apply ended_nil in C). rewrite <- !app_assoc. pose proof (sep_follows known sep (rest ++ u) I) as F'. destruct (phrase_first known w s' _ A NE C F') as (P & B' & _).
      exists w. eexists. do 5 (split; [eassumption || reflexivity|]). split; [exact B'|]. eauto.
  Qed.
  Lemma list_reads whole p o s out : said_list p o s out -> forall o0 l u, lead l -> o0 + utf8_len l = o -> place whole o (s ++ u) -> follows known u ->
    (forall o, fails (sk list_separator) o u) -> refuses known whole (sk text_amendment_reference) (o + utf8_len s) u ->
    exists ts, reads known whole (many ref_step) o0 (l ++ s ++ u) ts (o + utf8_len s) u /\ fed p ts out /\ reads known whole (many1 ref_step) o0 (l ++ s ++ u) ts (o + utf8_len s) u.
  Proof.
    induction 1 as [p o w s M|p o w s sep rest out M I SL IH]; intros o0 l u L EO PL F FS X; destruct M as [A B C D]; (assert (NE : lower_parts w <> []) by (intros E; rewrite E in C; now apply ended_nil in C)).
    - destruct (mention_reads known whole o w s u PL A NE C F) as (g & R & G). exists [GTaRef g None].
      destruct (phrase_first known w s u A NE C F) as (P & _ & _). pose proof (first_ws _ P) as W.
      assert (R1 : reads known whole ref_step o0 (l ++ s ++ u) (GTaRef g None) (o + utf8_len s) u).
      { unfold ref_step. eapply r_bind; [|eapply r_bind; [apply r_none, x_f, FS|apply r_ret]]. destruct L as [->| ->].
        - change (utf8_len []) with 0 in EO. rewrite N.add_0_r in EO. subst o0. apply r_sk; [exact W|exact R].
        - change (utf8_len (lit " ")) with 1 in EO. subst o. apply r_sk_sp; [exact W|exact R]. }
      assert (R2 : reads known whole (many ref_step) (o + utf8_len s) u [] (o + utf8_len s) u) by (apply r_many_nil, x_bind1, X).
      split; [|split; [econstructor; eauto; constructor|eapply r_bind; [exact R1|]; eapply r_bind; [exact R2|]; apply r_ret]].
      eapply r_many_cons; [|exact R1|exact R2].
      pose proof (ended_long _ _ C). rewrite !app_length. cbn [List.length]. lia.
    - rewrite <- !app_assoc in PL |- *. pose proof (sep_follows known sep (rest ++ u) I) as F'. destruct (mention_reads known whole o w s _ PL A NE C F') as (g & R & G).
      destruct (phrase_first known w s _ A NE C F') as (P & _ & _). pose proof (first_ws _ P) as W.
      destruct (list_parts _ _ _ _ u SL F) as (w2 & t & _ & _ & _ & ET & P2 & B2 & _). subst t.
      destruct (y_sep known sep (o + utf8_len s) (rest ++ u) I B2 P2) as (o1 & l1 & Y & L1 & E1).
      assert (PL2 : place whole (o + utf8_len (s ++ sep)) (rest ++ u)).
      { destruct PL as (x & -> & ->). exists (x ++ s ++ sep). rewrite <- !app_assoc, !utf8_len_app. split; [reflexivity|lia]. }
      assert (EL : o + utf8_len (s ++ sep ++ rest) = o + utf8_len (s ++ sep) + utf8_len rest) by (rewrite !utf8_len_app; lia). rewrite EL in X |- *.
      destruct (IH o1 l1 u L1 ltac:(rewrite utf8_len_app; lia) PL2 F FS X) as (ts & R2 & FD & _). exists (GTaRef g None :: ts).
      assert (R1 : reads known whole ref_step o0 (l ++ s ++ sep ++ rest ++ u) (GTaRef g None) o1 (l1 ++ rest ++ u)).
      { unfold ref_step. eapply r_bind; [|eapply r_bind; [apply r_some, r_y; exact Y|apply r_ret]]. destruct L as [->| ->].
        - change (utf8_len []) with 0 in EO. rewrite N.add_0_r in EO. subst o0. apply r_sk; [exact W|exact R].
        - change (utf8_len (lit " ")) with 1 in EO. subst o. apply r_sk_sp; [exact W|exact R]. }
      split; [|split; [econstructor; eauto|eapply r_bind; [exact R1|]; eapply r_bind; [exact R2|]; apply r_ret]].
      eapply r_many_cons; [|exact R1|exact R2].
      pose proof (ended_long _ _ C).
      assert (LL : (List.length l1 <= 1)%nat) by (destruct L1 as [->| ->]; vm_compute; lia). assert (LS : (1 <= List.length sep)%nat).
      { destruct sep; [|cbn; lia]. destruct (proj1 (in_flat_map _ _ _) I) as (z & J1 & J2). apply in_map_iff in J2 as (z2 & J2 & _). apply app_eq_nil in J2 as [-> _]. exfalso. clear - J1. cbn [In] in J1.
        destruct J1 as [J|[J|J]]; [discriminate J..|]. unfold list_words in J. rewrite in_flat_map in J. destruct J as (x & _ & J). apply in_map_iff in J as (k & J & _). apply app_eq_nil in J as [_ J]. discriminate J. }
      rewrite !app_length. cbn [List.length]. lia.
  Qed.

  (** ** Quotations *)
  Record after_quote (t : str) : Prop := { aq_titled : forall o, fails (T "című") o t; aq_subtitle : forall o, fails (sk subtitle_suffix) o t }.
  Lemma sep_after_quote sep t : In sep separators -> after_quote (sep ++ t).
  Proof.
    assert (H : forall p z, In p (lit ", " :: lit "; " :: list_words) -> after_quote (p ++ z)).
    { unfold list_words. cbn [map flat_map app In]. intros p z I. repeat (destruct I as [<-|I]; [constructor; failing|]). contradiction. }
    unfold separators. rewrite in_flat_map. intros (x & I & J). apply in_map_iff in J as (z & <- & _). rewrite <- app_assoc. now apply H.
  Qed.
  Lemma no_mention_quote whole o z x q t : In z articles -> place whole (o + 1) (z ++ q ++ t) -> quotation x q -> after_quote t -> refuses known whole (sk text_amendment_reference) o (lit " " ++ z ++ q ++ t).
  Proof.
    intros IZ PL Q [A1 A2]. assert (EQ : exists v, q ++ t = lit "„" ++ v) by (destruct Q as (_ & _ & ->); rewrite <- app_assoc; eexists; reflexivity). destruct EQ as (v & EQ).
    assert (W : quiet is_ascii_ws (z ++ q ++ t)) by (rewrite EQ; unfold articles in IZ; cbn [In] in IZ; repeat (destruct IZ as [<-|IZ]; [reflexivity|]); contradiction).
    assert (FST : fails struct_inner (o + 1) (z ++ q ++ t)).
    { unfold articles in IZ. cbn [In] in IZ. destruct IZ as [<-|[<-|[<-|[]]]]; [|rewrite EQ; here|rewrite EQ; here]. cbn [app] in *. unfold struct_inner.
      assert (BK : yields (opt (sk book_reference)) (o + 1) (q ++ t) None (o + 1) (q ++ t)) by (rewrite EQ; apply y_none; here). eapply f_bind2; [exact BK|]. apply f_bind1. do 4 (apply f_alt; [rewrite EQ; here|]).
      apply f_bind1, f_sk; [exact W|]. unfold subtitle_title. eapply f_bind2; [apply y_alt1, y_sk; [exact W|now apply (y_quote known x)]|]. eapply f_bind2; [apply y_none, A1|]. apply f_bind1, A2. }
    apply x_sk_sp; [exact W|]. assert (XS : refuses known whole (sk any_structural_reference) (o + 1) (z ++ q ++ t)) by (apply x_sk; [exact W|]; now apply x_struct).
    assert (K : (forall o, fails (sk article_title_reference) o (z ++ q ++ t)) /\ (forall o, fails (sk article_relative_position) o (z ++ q ++ t)) /\ (forall o, fails (sk subtitles_reference) o (z ++ q ++ t)) /\
      (forall o, fails (sk reference_with_intro_wrapup) o (z ++ q ++ t)) /\ (forall o, fails (sk attachment_reference) o (z ++ q ++ t))).
    { rewrite EQ. unfold articles in IZ. cbn [In] in IZ. destruct IZ as [<-|[<-|[<-|[]]]]; (do 4 (split; [intros ?; here|]); intros ?; here). }
    destruct K as (K1 & K2 & K3 & K4 & K5). unfold text_amendment_reference. apply x_alt; [apply x_bind1, x_f, K1|]. apply x_alt.
    { apply x_sk; [exact W|]. unfold text_amendment_structural. apply x_alt; [apply x_bind1, XS|]. apply x_alt; [apply x_bind1, XS|]. apply x_alt; [apply x_f, f_bind1, K2|apply x_bind1, XS]. }
    apply x_alt; [apply x_bind1, x_f, K3|]. apply x_alt; [apply x_f, K4|apply x_bind1, x_f, K5].
  Qed.
  Lemma no_mention_end whole o : place whole o (lit ".") -> refuses known whole (sk text_amendment_reference) o (lit ".").
  Proof.
    intros PL. apply x_sk; [reflexivity|]. assert (XS : refuses known whole (sk any_structural_reference) o (lit ".")) by (apply x_sk; [reflexivity|]; apply x_struct; [exact PL|here]).
    unfold text_amendment_reference. apply x_alt; [apply x_f; here|]. apply x_alt.
    { apply x_sk; [reflexivity|]. unfold text_amendment_structural. apply x_alt; [apply x_bind1, XS|]. apply x_alt; [apply x_bind1, XS|]. apply x_alt; [apply x_f; here|apply x_bind1, XS]. }
    apply x_alt; [apply x_f; here|]. apply x_alt; [apply x_f; here|apply x_f; here].
  Qed.
  Lemma follows_end : follows known (lit ".").
  Proof. constructor; [constructor; [vm_compute; reflexivity|vm_compute; reflexivity|failing|failing|failing|failing]|failing..]. Qed.
  Lemma follows_quote z x q t : In z articles -> quotation x q -> follows known (lit " " ++ z ++ q ++ t).
  Proof.
    intros IZ (_ & _ & ->). rewrite <- app_assoc. generalize (x ++ lit "”" ++ t). rewrite <- !app_assoc. intros v. unfold articles in IZ. cbn [In] in IZ.
    destruct IZ as [<-|[<-|[<-|[]]]]; (constructor; [constructor; [vm_compute; reflexivity|vm_compute; reflexivity|failing|failing|failing|failing]|failing..]).
  Qed.
  Lemma f_sep_quote z x q t o : In z articles -> quotation x q -> fails (sk list_separator) o (lit " " ++ z ++ q ++ t).
  Proof.
    intros IZ (_ & _ & ->). rewrite <- app_assoc. generalize (x ++ lit "”" ++ t). intros v. unfold articles in IZ. cbn [In] in IZ. destruct IZ as [<-|[<-|[<-|[]]]]; here.
  Qed.
End Run.
