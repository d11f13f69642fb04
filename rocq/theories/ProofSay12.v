(** Proofs for C74-: how one reference of a list is read. *)
From Verif Require Export SpecSay3 ProofSay9 ProofSay11.
From Coq Require Import Lia.
Local Open Scope peg_scope.
Local Open Scope N_scope.

(** ** What is made of it *)
Lemma feed_resumed p w g o e b : gref_read w g o e -> lower_parts w <> [] -> well_formed (resume p w) -> ob_start b = None -> ob_ref b = p ->
  feed_ref g b = Ok (mkOb (resume p w) (ob_result b ++ [mkOut o e (resume p w)]) None e).
Proof.
  intros [G1 G2 G3 G4 G5] NE W B1 B2. unfold feed_ref. destruct b as [br bs b0 be]. cbn [ob_start ob_ref ob_result] in *. subst b0 br. set (r := resume p w) in *.
  assert (FIN : forall st x be, st = Some o -> x = r -> record_one (ob_set_end (ps_end (gr_pos g)) (mkOb x bs st be)) = Ok (mkOb r (bs ++ [mkOut o e r]) None e)).
  { intros st x be' -> ->. unfold record_one, ob_set_end. cbn [ob_start ob_ref ob_result ob_end ok_or obind]. unfold build. rewrite (try_ref_wf r W). cbn. now rewrite G5. }
  assert (FA : forall p x b, article_part p = Ok x -> feed_opt (feed_parts feed_article) (Some [p]) b = Ok (ob_set (ga_pos p) (set_article x) b)).
  { intros p' x b H. cbn. unfold feed_article. rewrite H. reflexivity. }
  assert (FP : forall T (parse : str -> outcome T) set p x b, part_range parse p = Ok x -> feed_opt (feed_parts (feed_part parse set)) (Some [p]) b = Ok (ob_set (gp_pos p) (set x) b)).
  { intros T parse set p' x b H. cbn. unfold feed_part. rewrite H. reflexivity. }
  assert (FN : forall A (f : A -> obuilder -> outcome obuilder) b, feed_opt f None b = Ok b) by reflexivity.
  unfold feed_paragraph, feed_num_point, feed_alpha_point, feed_num_sub, feed_alpha_sub.
  destruct w as [ra rb rp rq rs]. unfold lower_parts in NE. cbn [f_act f_article f_paragraph f_point f_subpoint] in *.
  destruct rb as [x1|]; [destruct G1 as (p1 & -> & A1 & A2); rewrite (FA _ _ _ A2)|rewrite G1, FN]; cbn [obind];
  (destruct rp as [x2|]; [destruct G2 as (p2 & -> & C1 & C2); rewrite (FP _ _ _ _ _ _ C1)|rewrite G2, FN]; cbn [obind]);
  (destruct rq as [[x3|x3]|]; [destruct G3 as (st3 & (p3 & G3 & D1 & D2) & D3); injection G3 as -> ->; rewrite (FP _ _ _ _ _ _ D2); cbn [obind]; rewrite FN; cbn [obind]
    |destruct G3 as (st3 & (p3 & G3 & D1 & D2) & D3); injection G3 as -> ->; rewrite FN; cbn [obind]; rewrite (FP _ _ _ _ _ _ D2); cbn [obind]
    |injection G3 as -> ->; rewrite FN; cbn [obind]; rewrite FN; cbn [obind]]);
  (destruct rs as [[x4|x4]|]; [destruct G4 as (st4 & (p4 & G4 & F1 & F2) & F3); injection G4 as -> ->; rewrite (FP _ _ _ _ _ _ F2); cbn [obind]; rewrite FN; cbn [obind]
    |destruct G4 as (st4 & (p4 & G4 & F1 & F2) & F3); injection G4 as -> ->; rewrite FN; cbn [obind]; rewrite (FP _ _ _ _ _ _ F2); cbn [obind]
    |injection G4 as -> ->; rewrite FN; cbn [obind]; rewrite FN; cbn [obind]]);
  try (exfalso; apply NE; reflexivity); unfold ob_set; cbn [ob_start ob_ref ob_result]; apply FIN; try reflexivity; f_equal;
  try assumption; try (now apply C2); try (rewrite D1; now apply D3); try (rewrite F1; now apply F3).
Qed.

Section Run.
  Variable known : list str.
  Local Notation yields := (yields known).
  Local Notation fails := (fails known).

  (** ** Single articles *)
  Lemma y_single r i o n t : y_art_facts r i -> article_noun n t -> (forall o, fails (sk dash) o t) ->
    exists g, yields single_article_reference o (i ++ lit " " ++ n ++ t) g (o + utf8_len (i ++ lit " " ++ n)) t.
  Proof.
    intros (G & B & L1 & L2 & C) N D. destruct (article_noun_ws _ _ N) as [W S].
    destruct (y_article_part known r i o (lit " " ++ n ++ t) G B L1 L2 C) as (p & Y & _).
    { intros o1. exists (Some tt), (o1 + utf8_len (lit ".") + 1 + utf8_len n), t. split; [|apply D]. apply y_some. eapply y_bind; [apply y_T; reflexivity|]. apply y_sk_sp; [exact W|]. now apply y_article_suffix. }
    eexists. unfold single_article_reference. eapply (y_located known _ _ _ (mkGSingle p)). eapply y_bind; [apply y_sk; [|exact Y]|].
    - apply digit_first_ws. eapply digit_first_article, C.
    - eapply y_bind; [apply y_sk_sp; [exact W|now apply y_article_suffix]|]. eapply y_eq; [apply y_ret|]. lens.
  Qed.
  Lemma f_single_num r i o s : range_of (fun x => numeric_ok x = true) r -> dotted numeric_show r i -> noun_like s -> quiet (N.eqb 167) s ->
    fails single_article_reference o (i ++ lit " " ++ s).
  Proof.
    intros [G1 G2] C N NS. destruct (noun_facts _ [] N) as (N1 & N2 & N3). rewrite app_nil_r in *.
    assert (AS : forall o, fails (sk article_suffix) o (lit " " ++ s)).
    { intros o1. apply f_sk_sp; [exact N1|]. unfold article_suffix. apply f_alt; [apply f_bind1|]; eapply (f_tok_first known (N.eqb 167)); try reflexivity; exact NS. }
    assert (Q' : quiet is_ascii_ws (i ++ lit " " ++ s)).
    { destruct C as [[_ ->]|[_ ->]]; unfold from_to; rewrite <- !app_assoc; apply quiet_ws_numeric. }
    unfold single_article_reference. apply f_located.
    assert (K : (forall o, fails article_reference_part o (i ++ lit " " ++ s)) \/ exists p, yields article_reference_part o (i ++ lit " " ++ s) p (o + utf8_len i) (lit " " ++ s)).
    { destruct (n_suffix (r_start r)) as [h|] eqn:E1.
      - left. intros o2. destruct C as [[_ ->]|[_ ->]]; unfold from_to, numeric_show; rewrite E1; rewrite <- !app_assoc; apply f_part_odd, odd_letter;
          unfold numeric_ok in G1; rewrite E1 in G1; apply andb_true_iff in G1; tauto.
      - destruct C as [[EQ ->]|[NE ->]].
        + right. destruct (y_article_part known (mkRange (mkArt None (r_start r)) (mkArt None (r_start r))) (numeric_show (r_start r) ++ lit ".") o (lit " " ++ s)) as (p & Y & _); eauto.
          * split; cbn; unfold article_ok; cbn; exact G1.
          * unfold one_letter. cbn. now rewrite E1.
          * unfold one_letter. cbn. now rewrite E1.
          * left. split; [reflexivity|]. unfold article_show. cbn. unfold numeric_show, numeric_show_slash. now rewrite E1.
          * intros o2. exists None, o2, (lit "." ++ lit " " ++ s). split; [|apply f_dash_dot]. apply y_none. eapply f_bind2; [apply y_T; reflexivity|]. apply AS.
        + destruct (n_suffix (r_end r)) as [h|] eqn:E2.
          * left. intros o2. unfold from_to, numeric_show. rewrite E1, E2, <- !app_assoc. apply f_part_odd2, odd_letter. unfold numeric_ok in G2; rewrite E2 in G2; apply andb_true_iff in G2; tauto.
          * right. destruct (y_article_part known (mkRange (mkArt None (r_start r)) (mkArt None (r_end r))) (from_to (numeric_show (r_start r)) (numeric_show (r_end r)) ++ lit ".") o (lit " " ++ s)) as (p & Y & _); eauto.
            -- split; cbn; unfold article_ok; cbn; [exact G1|exact G2].
            -- unfold one_letter. cbn. now rewrite E1.
            -- unfold one_letter. cbn. now rewrite E2.
            -- right. split; [cbn; congruence|]. unfold article_show. cbn. unfold numeric_show, numeric_show_slash. now rewrite E1, E2.
            -- intros o2. exists None, o2, (lit "." ++ lit " " ++ s). split; [|apply f_dash_dot]. apply y_none. eapply f_bind2; [apply y_T; reflexivity|]. apply AS. }
    destruct K as [K|[p K]].
    - apply f_bind1, f_sk; [exact Q'|apply K].
    - eapply f_bind2; [apply y_sk; [exact Q'|exact K]|]. apply f_bind1, AS.
  Qed.
  Lemma f_single_other o t : quiet is_ascii_ws t -> quiet is_digit t -> fails single_article_reference o t.
  Proof.
    intros W D. apply f_located, f_bind1, f_sk; [exact W|]. apply f_located. eapply f_bind2; [apply y_none, f_bind1, f_sk; [exact W|now apply f_number]|].
    apply f_alt; apply f_bind1, f_sk; auto; apply f_sliced, f_bind1; now apply f_number.
  Qed.

  (** ** Subtitles *)
  Lemma sub_id_digits n o t : quiet is_digit t -> quiet is_ascii_ws t -> quiet (N.eqb 47) t -> quiet (in_range 65 90) t -> yields (sk subtitle_id) o (show_N n ++ t) (show_N n) (o + utf8_len (show_N n)) t.
  Proof.
    intros D W SL UP. apply y_sk; [apply quiet_ws_number|]. unfold subtitle_id, letter_suffix. eapply y_sliced. eapply y_bind; [apply y_sk; [apply quiet_ws_number|now apply y_number]|]. eapply y_void, y_none.
    eapply f_bind2; [apply y_none, (f_T_lead known "/" 47 [] [] _ t); auto using lead_none|]. apply f_sk; [exact W|]. now apply f_chr.
  Qed.
  Lemma letter_facts h t : hic_ok h = true -> quiet is_digit (hic_show h ++ t) /\ quiet is_ascii_ws (hic_show h ++ t) /\ quiet (N.eqb 47) (hic_show h ++ t) /\ quiet (in_range 65 90) (hic_show h ++ t) /\
    quiet (N.eqb 46) (hic_show h ++ t) /\ quiet (fun c => existsb (N.eqb c) dash_chars) (hic_show h ++ t).
  Proof.
    intros H. destruct (hic_letters h H) as (NE & F & _). destruct (hic_show h) as [|x v]; [congruence|]. cbn [forallb] in F. apply andb_true_iff in F as [F _].
    pose proof (az_no_ws _ F) as W. pose proof (no_dash_az x F) as DA. cbn [app quiet]. unfold in_range, is_digit in *. rewrite andb_true_iff, !N.leb_le in F.
    split; [apply andb_false_iff; rewrite !N.leb_gt; lia|]. split; [exact W|]. split; [apply N.eqb_neq; lia|]. split; [apply andb_false_iff; rewrite !N.leb_gt; lia|]. split; [apply N.eqb_neq; lia|exact DA].
  Qed.
  Lemma stop_eol t : stop t -> quiet is_digit t /\ quiet is_ascii_ws t /\ quiet (N.eqb 47) t /\ quiet (in_range 65 90) t.
  Proof. intros S. destruct (stop_facts t S) as (A & B & C & D). auto. Qed.
  Lemma sub_part_num r i s : range_of (fun x => numeric_ok x = true) r -> dotted numeric_show r i -> noun_like s ->
    (forall o', fails subtitle_reference_part o' (i ++ lit " " ++ s)) \/ (forall o, exists p o', yields subtitle_reference_part o (i ++ lit " " ++ s) p o' (lit " " ++ s)).
  Proof.
    intros [G1 G2] C N. destruct (noun_facts _ [] N) as (N1 & N2 & N3). rewrite app_nil_r in *. unfold numeric_ok in G1, G2. apply andb_true_iff in G1 as [_ G1]. apply andb_true_iff in G2 as [_ G2].
    destruct (n_suffix (r_start r)) as [h|] eqn:E1.
    - left. intros o'. assert (K : forall u, fails subtitle_reference_part o' (show_N (n_num (r_start r)) ++ hic_show h ++ u)).
      { intros u. destruct (letter_facts h u G1) as (A & B & C1 & D & E & F). apply f_alt.
        - eapply f_bind2; [now apply sub_id_digits|]. eapply f_bind2; [apply y_none, (f_T_lead known "." 46 [] [] _ _); auto using lead_none|]. apply f_bind1, f_sk; [exact B|now apply f_chr].
        - eapply f_bind2; [now apply sub_id_digits|]. apply f_bind1, (f_T_lead known "." 46 [] [] _ _); auto using lead_none. }
      destruct C as [[_ ->]|[_ ->]]; unfold from_to, numeric_show; rewrite E1, <- !app_assoc; apply K.
    - destruct C as [[_ ->]|[_ ->]]; unfold from_to, numeric_show; rewrite E1, <- !app_assoc.
      + right. intros o. destruct (stop_eol (lit "." ++ lit " " ++ s) (stop_dot _)) as (A & B & C1 & D). eexists _, _. apply y_alt2.
        * eapply f_bind2; [now apply sub_id_digits|]. eapply f_bind2; [apply y_some, y_T; reflexivity|]. apply f_bind1, f_sk_sp; [exact N1|now apply f_chr].
        * eapply y_bind; [now apply sub_id_digits|]. eapply y_bind; [apply y_T; reflexivity|]. apply y_ret.
      + destruct (n_suffix (r_end r)) as [h|] eqn:E2; rewrite <- ?app_assoc.
        * left. intros o'. set (u := lit "." ++ _). destruct (letter_facts h u G2) as (A & B & C1 & D & E & F). destruct (stop_eol (lit "–" ++ show_N (n_num (r_end r)) ++ hic_show h ++ u) (stop_dash _)) as (A' & B' & C' & D'). apply f_alt.
          -- eapply f_bind2; [now apply sub_id_digits|]. eapply f_bind2; [apply y_none, f_T; reflexivity|]. eapply f_bind2; [apply y_dash|]. eapply f_bind2; [now apply sub_id_digits|].
             apply f_bind1, (f_T_lead known "." 46 [] [] _ _); auto using lead_none.
          -- eapply f_bind2; [now apply sub_id_digits|]. apply f_bind1, f_T; reflexivity.
        * right. intros o. destruct (stop_eol (lit "." ++ lit " " ++ s) (stop_dot _)) as (A & B & C1 & D). destruct (stop_eol (lit "–" ++ show_N (n_num (r_end r)) ++ lit "." ++ lit " " ++ s) (stop_dash _)) as (A' & B' & C' & D').
          eexists _, _. apply y_alt1. eapply y_bind; [now apply sub_id_digits|]. eapply y_bind; [apply y_none, f_T; reflexivity|]. eapply y_bind; [apply y_dash|]. eapply y_bind; [now apply sub_id_digits|].
          eapply y_bind; [apply y_T; reflexivity|]. apply y_ret.
  Qed.
End Run.
