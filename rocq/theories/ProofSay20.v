(** Proofs for C75: text amendments are read as written. *)
From Verif Require Export ProofSay19.
From Coq Require Import Lia.
Local Open Scope peg_scope.
Local Open Scope N_scope.

Lemma last_of_exchange e : In e exchange_endings -> exists e', e = e' ++ [46].
Proof.
  unfold exchange_endings. cbn [map In].
  intros [<-|[<-|[<-|[<-|[]]]]]; [exists (lit " lép")|exists (lit " lép hatályba")|exists (lit ", lép")|exists (lit ", lép hatályba")]; reflexivity.
Qed.
Section Exchanged.
  Variables (rf : str -> option Z) (c : cache).
  Hypothesis roman : roman_from_reads rf.
  Local Notation known := (all_abbreviations c).
  Local Notation yields := (yields known).
  Local Notation fails := (fails known).
  Lemma exchanged_root a az title name s l z q ps e : In az the -> In z articles -> act_named (ca_map c) a (lit " " ++ s ++ lit " " ++ z ++ q ++ e) title name ->
    said_list (only_act a) (utf8_len (az ++ title ++ name ++ lit " ")) s l -> exchanges_said q ps -> In e exchange_endings ->
    exists G rs, name_tree rf c a name G /\ fed (only_act a) rs l /\
      grammar_parse (az ++ title ++ name ++ lit " " ++ s ++ lit " " ++ z ++ q ++ e) known = Ok (RText (mkGTa (G (utf8_len (az ++ title))) rs ps)).
  Proof.
    intros IA IZ NM SL ES IE. destruct (exchanges_quote known q ps e ES) as (x & q' & t' & Q & EQ & AQ).
    assert (FW : follows known (lit " " ++ z ++ q ++ e)) by (rewrite EQ; now apply (follows_quote known z x)).
    assert (ST : stays known (lit " " ++ z ++ q ++ e)) by (rewrite EQ; now apply (stays_quote known z x)).
    pose proof (list_after_act c a _ s l _ SL FW) as AA. destruct (y_name rf c roman a _ title name NM AA) as (WN & G & NT & YG).
    set (whole := az ++ title ++ name ++ lit " " ++ s ++ lit " " ++ z ++ q ++ e).
    destruct (list_reads known whole _ _ _ _ SL (utf8_len (az ++ title ++ name)) (lit " ") (lit " " ++ z ++ q ++ e) lead_space) as (rs & _ & FD & RR).
    { rewrite !utf8_len_app. lia. }
    { exists (az ++ title ++ name ++ lit " "). split; [unfold whole; now rewrite <- !app_assoc|reflexivity]. }
    { exact FW. }
    { intros o. rewrite EQ. now apply (f_sep_quote known z x). }
    { rewrite EQ. apply (no_mention_quote known _ _ z x q' t' IZ); [|exact Q|exact AQ]. exists (az ++ title ++ name ++ lit " " ++ s ++ lit " "). rewrite <- EQ. split; [unfold whole; now rewrite <- !app_assoc|rewrite !utf8_len_app; change (utf8_len (lit " ")) with 1; lia]. }
    exists G, rs. split; [exact NT|]. split; [exact FD|].
    destruct (y_pairs known q ps (utf8_len (az ++ title ++ name ++ lit " ") + utf8_len s) z e ES IZ IE) as (o1 & YP). destruct (exchange_ends known e _ (mkGTa (G (utf8_len (az ++ title))) rs ps) o1 IE) as (o2 & YE).
    assert (W0 : quiet is_ascii_ws whole). { unfold the in IA. cbn [map In] in IA. unfold whole. repeat (destruct IA as [<-|IA]; [reflexivity|]). contradiction. }
    assert (PL0 : place whole (utf8_len az) (title ++ name ++ lit " " ++ s ++ lit " " ++ z ++ q ++ e)) by (exists az; auto).
    assert (PL : place whole (utf8_len (az ++ title ++ name) + 1) (s ++ lit " " ++ z ++ q ++ e)).
    { exists (az ++ title ++ name ++ lit " "). split; [unfold whole; now rewrite <- !app_assoc|]. rewrite !utf8_len_app. change (utf8_len (lit " ")) with 1. lia. }
    assert (EO : utf8_len az + utf8_len title + utf8_len name = utf8_len (az ++ title ++ name)) by (rewrite !utf8_len_app; lia).
    assert (R : reads known whole g_root_rule 0 whole (RText (mkGTa (G (utf8_len (az ++ title))) rs ps)) o2 []).
    { unfold g_root_rule.
      apply r_alt2; [apply x_bind1, x_sk; [exact W0|]; eapply x_bind2; [apply r_y, y_az, IA|]; eapply (start_refuses rf c roman whole (utf8_len az) a _ title name G PL0 NM AA YG after_name1); rewrite EO; eapply not_block; eassumption|].
      apply r_alt2; [apply x_bind1, x_sk; [exact W0|]; eapply x_bind2; [apply r_y, y_az, IA|]; eapply (start_refuses rf c roman whole (utf8_len az) a _ title name G PL0 NM AA YG after_name2); rewrite EO; eapply not_block_sub; eassumption|].
      apply r_alt2; [apply x_bind1, x_sk; [exact W0|]; eapply x_bind2; [apply r_y, y_az, IA|]; eapply (start_refuses rf c roman whole (utf8_len az) a _ title name G PL0 NM AA YG after_name3); rewrite EO; eapply not_block_struct; eassumption|].
      apply r_alt1. eapply r_bind; [apply r_sk; [exact W0|]|eapply r_bind; [apply r_y, (y_sk known eoi o2 [] tt _ _ Logic.I); intros g' _; reflexivity|apply r_ret]].
      unfold g_text_amendment_rule. eapply r_bind; [apply r_y, y_az, IA|]. eapply (start_reads rf c roman whole (utf8_len az) a _ title name G PL0 NM AA YG). rewrite EO, <- utf8_len_app.
      eapply r_bind; [exact RR|]. eapply r_bind; [apply r_y, YP|]. apply r_y. exact YE. }
    destruct (R _ (fine_new known whole)) as (g' & E & _). unfold grammar_parse. now rewrite E.
  Qed.
  Lemma exchanged pre post a s info : top pre = [] -> top post = [] -> text_exchange (ca_map c) a s info ->
    extract_semantic_info rf grammar_parse s (mkAdder pre post c) = (mkAdder pre post c, Ok info).
  Proof.
    intros P1 P2 [az title name s' l z q ps e IA IZ NM SL ES IE]. destruct (exchanged_root a az title name s' l z q ps e IA IZ NM SL ES IE) as (G & rs & NT & FD & GP).
    destruct (last_of_exchange e IE) as (e' & ->).
    replace (az ++ title ++ name ++ lit " " ++ s' ++ lit " " ++ z ++ q ++ e' ++ [46]) with ((az ++ title ++ name ++ lit " " ++ s' ++ lit " " ++ z ++ q ++ e') ++ [46]) in * by (now rewrite <- !app_assoc).
    apply (sentence_read rf pre post c _ 46 _ _ _ (or_introl eq_refl) P1 P2 GP).
    - unfold get_new_abbreviations. cbn [root_act_refs flat_map gta_act]. rewrite (nt_new _ _ _ _ _ NT). reflexivity.
    - cbn [get_outgoing_references gta_act gta_refs]. rewrite (name_feed rf c a name G _ NT). cbn [obind].
      destruct (fed_out _ _ _ FD (mkOb (only_act a) [mkOut (utf8_len (az ++ title)) (utf8_len (az ++ title) + utf8_len name) (only_act a)] None (utf8_len (az ++ title) + utf8_len name)) eq_refl eq_refl) as (b & -> & E). cbn [obind]. rewrite E. unfold act_found. now rewrite <- utf8_len_app.
    - pose proof (name_long _ _ _ _ _ NM). constructor; [cbn [act_found o_end]; rewrite !utf8_len_app; lia|]. eapply Forall_impl; [|exact (list_within _ _ _ _ SL)]. cbv beta. intros r. rewrite !utf8_len_app. lia.
    - cbn [extract_special_phrase]. unfold convert_text_amendment. cbn [gta_act gta_refs gta_parts]. rewrite (name_feed rf c a name G _ NT). cbn [obind]. rewrite (ta_references rf c a name G _ rs l NT FD). cbn [obind omap].
      assert (EM : forall k, flat_map (fun r => map (fun p => mkTa r (fst p) (snd p)) ps) (map (fun r => TaSae (o_ref r) PartAll) k) = flat_map (fun r => map (fun p => mkTa (TaSae (o_ref r) PartAll) (fst p) (snd p)) ps) k).
      { intros k. induction k as [|r k IH]; [reflexivity|]. cbn [map flat_map]. now rewrite IH. }
      now rewrite EM.
  Qed.
End Exchanged.
