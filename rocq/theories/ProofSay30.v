(** Proofs for C78: the root of the grammar and the result. *)
From Verif Require Export ProofSay29.
From Coq Require Import Lia.
Local Open Scope peg_scope.
Local Open Scope N_scope.

Section Run.
  Variables (rf : str -> option Z) (c : cache).
  Hypothesis roman : roman_from_reads rf.
  Local Notation known := (all_abbreviations c).
  Local Notation yields := (yields known).
  Local Notation fails := (fails known).
  Lemma subtitle_last a b r i l s : subtitle_change a b r i l s -> exists s', s = s' ++ [58].
  Proof.
    assert (K : forall p e, (exists e', e = e' ++ [58]) -> exists s', p ++ e = s' ++ [58]) by (intros p e (e' & ->); exists (p ++ e'); now rewrite app_assoc).
    assert (KR : forall e, In e structural_endings -> exists e', e = e' ++ [58]).
    { intros e I. unfold structural_endings in I. apply in_app_or in I as [I|I]; [now apply last_of_replacement|]. apply in_flat_map in I as (f & I & J). apply in_map_iff in J as (w & <- & J).
      exists (lit " helyébe " ++ f ++ lit " " ++ w). now rewrite <- !app_assoc. }
    assert (KS : forall e, In e subtitle_endings -> exists e', e = e' ++ [58]).
    { intros e I. unfold subtitle_endings in I. apply in_app_or in I as [I|I]; [now apply last_of_replacement|]. apply in_flat_map in I as (f & I & J). apply in_map_iff in J as (w & <- & J).
      exists (lit " helyébe " ++ f ++ lit " " ++ w). now rewrite <- !app_assoc. }
    intros H. destruct H; repeat apply K; auto using last_of_insertion.
  Qed.
  Lemma outs_within a b r i l s : subtitle_change a b r i l s -> Forall (fun x => utf8_len b <= o_end x < utf8_len (b ++ s)) l.
  Proof.
    assert (SL : forall e : str, (exists e', e = e' ++ [58]) -> 1 <= utf8_len e) by (intros e (e' & ->); rewrite utf8_len_app; pose proof (char_takes 58); lia).
    intros H. pose proof (subtitle_last a b r i l s H) as LS. 
    assert (KR : forall e, In e insertion_endings \/ In e subtitle_endings -> 1 <= utf8_len e).
    { intros e [I|I]; apply SL; [now apply last_of_insertion|]. unfold subtitle_endings in I. apply in_app_or in I as [I|I]; [now apply last_of_replacement|]. apply in_flat_map in I as (f & I & J). apply in_map_iff in J as (w & <- & J).
      exists (lit " helyébe " ++ f ++ lit " " ++ w). now rewrite <- !app_assoc. }
    assert (KN : forall a b near l s, near_said a b near l s -> Forall (fun x => utf8_len b <= o_end x <= utf8_len (b ++ s)) l).
    { intros a0 b0 near l0 s0 [|z x s' f w IZ HA F]; [constructor|]. constructor; [|constructor]. cbn [article_found o_end]. rewrite !utf8_len_app. lia. }
    assert (KT : forall a b x own l s, subtitle_said a b x own l s -> Forall (fun x => utf8_len b <= o_end x <= utf8_len (b ++ s)) l).
    { intros a0 b0 x own l0 s0 [x0 s1 z w HA IZ W|e s1 w M W|e s1 w x0 s' M W HA]; [|constructor|]; (constructor; [|constructor]; cbn [article_found o_end]; rewrite !utf8_len_app; lia). }
    destruct H as [p sp near l s f x own l' s' e WE N F S I|p sp near l s x own l' s' e WE N S I|p sp x s z w e WE H IZ W I|own s w t s' e H W S I].
    - apply KN in N. apply KT in S. pose proof (KR e (or_introl I)). apply Forall_app. split; [revert N|revert S]; apply Forall_impl; intros y; rewrite !utf8_len_app; lia.
    - apply KN in N. apply KT in S. pose proof (KR e (or_intror I)). apply Forall_app. split; [revert N|revert S]; apply Forall_impl; intros y; rewrite !utf8_len_app; lia.
    - pose proof (KR e (or_intror I)). constructor; [|constructor]. cbn [article_found o_end]. rewrite !utf8_len_app. lia.
    - constructor.
  Qed.
  Lemma subtitle_root a r i l az title name s : In az the -> act_named (ca_map c) a s title name -> subtitle_change a (az ++ title ++ name) r i l s ->
    exists G root, name_tree rf c a name G /\ grammar_parse (az ++ title ++ name ++ s) known = Ok root /\
      ((exists st p q w, root = RBlockSubtitle (mkGBlockSub (G (utf8_len (az ++ title))) st q w i) /\ opt_ok (struct_parent_of rf) st = Ok p /\ sub_facts a r i l p q w) \/
       (exists f, l = [] /\ root = RBlockStruct (f (G (utf8_len (az ++ title)))) /\ change_tree rf c a r i f)).
  Proof.
    intros IZ NM H. set (whole := az ++ title ++ name ++ s).
    assert (P : place whole (utf8_len (az ++ title ++ name)) s) by (exists (az ++ title ++ name); unfold whole; rewrite <- !app_assoc; auto).
    destruct (subtitle_reads rf c roman whole a _ r i l s H P) as [AA RD]. destruct (y_name rf c roman a s title name NM AA) as (WN & G & NT & YG). exists G.
    assert (PL : place whole (utf8_len az) (title ++ name ++ s)) by (exists az; auto).
    assert (EO : utf8_len az + utf8_len title + utf8_len name = utf8_len (az ++ title ++ name)) by (rewrite !utf8_len_app; lia).
    assert (W0 : quiet is_ascii_ws whole). { unfold the in IZ. cbn [map In] in IZ. unfold whole. clear - IZ. repeat (destruct IZ as [<-|IZ]; [reflexivity|]). contradiction. }
    destruct RD as [st t p q w RX SP SB SF RW|f EL CT (x & o1 & t1 & RX & NB) RS].
    - set (root := RBlockSubtitle (mkGBlockSub (G (utf8_len (az ++ title))) st q w i)). destruct (RW (G (utf8_len (az ++ title)))) as (o' & YR).
      assert (R : reads known whole g_root_rule 0 whole root o' []).
      { unfold g_root_rule. apply r_alt2; [|apply r_alt1].
        - apply x_bind1, x_sk; [exact W0|]. rewrite block_rest_is. eapply x_bind2; [apply r_y, y_az, IZ|]. eapply (start_refuses rf c roman whole (utf8_len az) a s title name G); auto. rewrite EO.
          eapply x_bind2; [exact RX|]. apply x_f, SB.
        - assert (EOI : yields (sk eoi) o' [] tt o' []) by (apply y_sk; [exact I|intros g' _; reflexivity]). eapply r_bind; [|eapply r_bind; [apply r_y, EOI|apply r_ret]]. apply r_sk; [exact W0|]. rewrite with_is. eapply r_bind; [apply r_y, y_az, IZ|].
          eapply (start_reads rf c roman whole (utf8_len az) a s title name G); auto. rewrite EO, <- utf8_len_app. eapply r_bind; [exact RX|]. apply r_y. exact YR. }
      exists root. split; [exact NT|]. split; [|left; exists st, p, q, w; auto]. destruct (R _ (fine_new known whole)) as (g' & E & _). unfold grammar_parse. fold whole. now rewrite E.
    - set (root := RBlockStruct (f (G (utf8_len (az ++ title))))). destruct (RS (G (utf8_len (az ++ title)))) as (o' & RR).
      assert (R : reads known whole g_root_rule 0 whole root o' []).
      { unfold g_root_rule. apply r_alt2; [|apply r_alt2; [|apply r_alt1]].
        - apply x_bind1, x_sk; [exact W0|]. unfold block_amendment. eapply x_bind2; [apply r_y, y_az, IZ|]. eapply (start_refuses rf c roman whole (utf8_len az) a s title name G); auto. rewrite EO.
          eapply x_bind2; [exact RX|]. repeat apply x_alt; apply x_bind1, x_f, NB.
        - apply x_bind1, x_sk; [exact W0|]. unfold block_amendment_with_subtitle. eapply x_bind2; [apply r_y, y_az, IZ|]. eapply (start_refuses rf c roman whole (utf8_len az) a s title name G); auto. rewrite EO.
          eapply x_bind2; [exact RX|]. eapply x_bind2; [apply r_none, x_f, NB|]. repeat apply x_alt; [apply x_bind1, x_f, NB|apply x_bind1, x_f, NB|apply x_f, (nb_new _ _ NB)].
        - assert (EOI : yields (sk eoi) o' [] tt o' []) by (apply y_sk; [exact I|intros g' _; reflexivity]). eapply r_bind; [|eapply r_bind; [apply r_y, EOI|apply r_ret]]. apply r_sk; [exact W0|]. rewrite structural_is. eapply r_bind; [apply r_y, y_az, IZ|].
          eapply (start_reads rf c roman whole (utf8_len az) a s title name G); auto. rewrite EO, <- utf8_len_app. exact RR. }
      exists root. split; [exact NT|]. split; [|right; exists f; auto]. destruct (R _ (fine_new known whole)) as (g' & E & _). unfold grammar_parse. fold whole. now rewrite E.
  Qed.
  Lemma subtitle_read pre post a s info : top pre = [] -> top post = [] -> subtitle_sentence (ca_map c) a s info ->
    extract_semantic_info rf grammar_parse s (mkAdder pre post c) = (mkAdder pre post c, Ok info).
  Proof.
    intros P1 P2 [az title name r i l s' IZ NM H]. destruct (subtitle_root a r i l az title name s' IZ NM H) as (G & root & NT & E & K). pose proof (outs_within _ _ _ _ _ _ H) as OW. destruct (subtitle_last _ _ _ _ _ _ H) as (u & ->).
    assert (LN : 0 < utf8_len name).
    { pose proof (name_some _ _ _ _ _ NM) as NE. clear - NE. destruct name as [|x n]; [congruence|]. change (x :: n) with ([x] ++ n). rewrite utf8_len_app. pose proof (char_takes x). lia. }
    replace (az ++ title ++ name ++ u ++ [58]) with ((az ++ title ++ name ++ u) ++ [58]) in * by (now rewrite <- !app_assoc).
    assert (L1 : Forall (fun x => 0 < o_end x <= utf8_len ((az ++ title ++ name ++ u) ++ [58])) l).
    { revert OW. apply Forall_impl. intros y. rewrite !utf8_len_app. lia. }
    assert (L0 : utf8_len (az ++ title ++ name) < utf8_len ((az ++ title ++ name ++ u) ++ [58])) by (rewrite !utf8_len_app; pose proof (char_takes 58); lia).
    apply (sentence_read rf pre post c _ 58 root _ _ (or_intror eq_refl) P1 P2 E).
    - unfold get_new_abbreviations. destruct K as [(st & p & q & w & -> & SP & SF)|(f & EL & -> & CT)]; cbn [root_act_refs flat_map].
      + cbn [gbs_act]. rewrite (nt_new _ _ _ _ _ NT). reflexivity.
      + rewrite (proj1 (CT _)), (nt_new _ _ _ _ _ NT). reflexivity.
    - destruct K as [(st & p & q & w & -> & SP & SF)|(f & -> & -> & CT)].
      + rewrite (sub_outgoing rf c a r i l p q w _ st name G _ SF NT eq_refl), <- utf8_len_app, <- app_assoc. reflexivity.
      + cbn [get_outgoing_references]. rewrite (proj1 (CT _)), (name_feed rf c a name G _ NT). cbn [obind ob_result]. rewrite <- utf8_len_app, <- app_assoc. reflexivity.
    - constructor; [|exact L1]. cbn [o_end]. split; [rewrite !utf8_len_app; lia|lia].
    - destruct K as [(st & p & q & w & -> & SP & SF)|(f & EL & -> & CT)]; cbn [extract_special_phrase].
      + rewrite (sub_converted rf c a r i l p q w _ st SF SP (nt_act _ _ _ _ _ NT _)). reflexivity.
      + destruct (CT (G (utf8_len (az ++ title)))) as [_ CV]. rewrite (CV (nt_act _ _ _ _ _ NT _)). reflexivity.
  Qed.
End Run.
