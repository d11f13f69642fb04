(** Proofs for C67: the text of a reference is read back. *)
From Verif Require Export ProofShow8.
From Coq Require Import Lia.
Local Open Scope peg_scope.
Local Open Scope N_scope.

(** ** What is made of the tree *)
Section Feed.
  Lemma feed_read r g o e b : gref_read r g o e -> well_formed r -> lower_parts r <> [] -> ob_start b = None -> ob_ref b = mkRef (f_act r) None None None None ->
    feed_ref g b = Ok (mkOb r (ob_result b ++ [mkOut o e r]) None e).
  Proof.
    intros [G1 G2 G3 G4 G5] W NE B1 B2. unfold feed_ref. destruct b as [br bs b0 be]. cbn [ob_start ob_ref ob_result] in *. subst b0 br.
    assert (FIN : forall st x be, st = Some o -> x = r -> record_one (ob_set_end (ps_end (gr_pos g)) (mkOb x bs st be)) = Ok (mkOb r (bs ++ [mkOut o e r]) None e)).
    { intros st x be' -> ->. unfold record_one, ob_set_end. cbn [ob_start ob_ref ob_result ob_end ok_or obind]. unfold build. rewrite (try_ref_wf r W). cbn. now rewrite G5. }
    assert (FA : forall p x b, article_part p = Ok x -> feed_opt (feed_parts feed_article) (Some [p]) b = Ok (ob_set (ga_pos p) (set_article x) b)).
    { intros p x b H. cbn. unfold feed_article. rewrite H. reflexivity. }
    assert (FP : forall T (parse : str -> outcome T) set p x b, part_range parse p = Ok x -> feed_opt (feed_parts (feed_part parse set)) (Some [p]) b = Ok (ob_set (gp_pos p) (set x) b)).
    { intros T parse set p x b H. cbn. unfold feed_part. rewrite H. reflexivity. }
    assert (FN : forall A (f : A -> obuilder -> outcome obuilder) b, feed_opt f None b = Ok b) by reflexivity.
    unfold feed_paragraph, feed_num_point, feed_alpha_point, feed_num_sub, feed_alpha_sub.
    destruct r as [ra rb rp rq rs]. cbn [f_act f_article f_paragraph f_point f_subpoint] in *.
    destruct rb as [x1|]; [destruct G1 as (p1 & -> & A1 & A2); rewrite (FA _ _ _ A2)|rewrite G1, FN]; cbn [obind];
    (destruct rp as [x2|]; [destruct G2 as (p2 & -> & C1 & C2); rewrite (FP _ _ _ _ _ _ C1)|rewrite G2, FN]; cbn [obind]);
    (destruct rq as [[x3|x3]|]; [destruct G3 as (st3 & (p3 & G3 & D1 & D2) & D3); injection G3 as -> ->; rewrite (FP _ _ _ _ _ _ D2); cbn [obind]; rewrite FN; cbn [obind]
      |destruct G3 as (st3 & (p3 & G3 & D1 & D2) & D3); injection G3 as -> ->; rewrite FN; cbn [obind]; rewrite (FP _ _ _ _ _ _ D2); cbn [obind]
      |injection G3 as -> ->; rewrite FN; cbn [obind]; rewrite FN; cbn [obind]]);
    (destruct rs as [[x4|x4]|]; [destruct G4 as (st4 & (p4 & G4 & F1 & F2) & F3); injection G4 as -> ->; rewrite (FP _ _ _ _ _ _ F2); cbn [obind]; rewrite FN; cbn [obind]
      |destruct G4 as (st4 & (p4 & G4 & F1 & F2) & F3); injection G4 as -> ->; rewrite FN; cbn [obind]; rewrite (FP _ _ _ _ _ _ F2); cbn [obind]
      |injection G4 as -> ->; rewrite FN; cbn [obind]; rewrite FN; cbn [obind]]);
    try (exfalso; apply NE; reflexivity); unfold ob_set; cbn [ob_start ob_ref ob_result]; apply FIN; try reflexivity; f_equal;
    try assumption; try (now apply C2); try (rewrite D1; now apply D3); try (rewrite F1; now apply F3).
  Qed.
End Feed.

Section Run.
  Variable known : list str.
  Hypothesis unknown : Forall other_beginning known.
  Local Notation yields := (yields known).
  Local Notation fails := (fails known).

  (** ** Abbreviations *)
  Lemma no_abbreviation s : begins s \/ s = [] -> forall l, Forall other_beginning l -> parse_abbreviation l s = None.
  Proof.
    intros B. induction 1 as [|k l (c & k' & -> & C1 & C2 & C3) _ IH]; cbn [parse_abbreviation]; [reflexivity|].
    destruct (starts_with (c :: k') s) eqn:E; [|exact IH]. exfalso. apply starts_with_spec in E as [u ->]. cbn [app] in B.
    destruct B as [(c' & u' & E & H)|B]; [|discriminate]. injection E as <- _. change (chr "(") with 40 in C3. unfold is_digit, in_range in H. rewrite !andb_true_iff, !N.leb_le in H.
    destruct H as [H|[H|[H _]]]; [lia|congruence|lia].
  Qed.
  Lemma f_abbreviation o s : begins s \/ s = [] -> fails (sk g_abbreviation) o s.
  Proof.
    intros B. assert (W : quiet is_ascii_ws s) by (destruct B as [B| ->]; [now apply begins_ws|exact I]). apply f_sk; [exact W|]. unfold g_abbreviation. apply f_located, f_bind1, f_sk; [exact W|].
    intros g E. unfold abbreviation_content. cbn [cu_rest]. rewrite E, no_abbreviation by (exact B || exact unknown). reflexivity.
  Qed.
  Lemma f_act_id_now o s : quiet is_ascii_ws s -> (forall o, fails g_act_id_rule o s) -> fails act_id_with_from_now_on o s.
  Proof.
    intros W H g E. unfold act_id_with_from_now_on, checked. assert (K : fails (sk g_act_id_rule) o s) by (apply f_sk; auto). unfold pbind at 1. now rewrite (K g E).
  Qed.
  Lemma f_act_reference o s : begins s \/ s = [] -> (forall o, fails g_act_id_rule o s) -> fails act_reference o s.
  Proof.
    intros B H. assert (W : quiet is_ascii_ws s) by (destruct B as [B| ->]; [now apply begins_ws|exact I]). unfold act_reference. apply f_alt; [|now apply f_abbreviation].
    apply f_bind1, f_sk; [exact W|]. now apply f_act_id_now.
  Qed.
  Lemma f_act_reference_nil o : fails (sk act_reference) o [].
  Proof. apply f_sk; [exact I|]. apply f_act_reference; [now right|]. intros o1. apply f_act_other; exact I. Qed.

  (** ** The name of an act *)
  Lemma y_checked p o t a o' t' : yields p o t (mkGNow a None) o' t' -> yields (checked p) o t (mkGNow a None) o' t'.
  Proof. intros H g E. unfold checked. rewrite (H g E). destruct g as [k ti st]. reflexivity. Qed.
  Lemma y_act a sa o t : (0 <= act_year a)%Z -> act_show a = Ok sa -> quiet is_hun_lower t -> (forall o, fails (T "(") o t) ->
    exists y n, yields act_reference o (sa ++ t) (GActId (mkGNow (mkGAct y n (ModelSem.mkPos o (o + utf8_len sa))) None)) (o + utf8_len sa) t /\
      y = show_Z (act_year a) /\ roman_to (act_number a) = Some n.
  Proof.
    intros Y E Q P. unfold act_show in E. destruct (roman_to (act_number a)) as [rn|] eqn:R; [|discriminate].
    assert (E' : sa = show_Z (act_year a) ++ lit ". évi " ++ rn ++ lit ". törvény") by congruence. subst sa. clear E. exists (show_Z (act_year a)), rn. split; [|auto].
    assert (RN : forallb is_roman_digit rn = true /\ rn <> []).
    { rewrite roman_to_spec in R. destruct ((1 <=? act_number a) && (act_number a <=? 3999))%Z eqn:Z; [|discriminate]. injection R as <-. apply andb_true_iff in Z. apply roman_standard_digits. lia. }
    destruct RN as [RN1 RN2]. rewrite show_Z_pos by exact Y. set (yy := show_N (Z.to_N (act_year a))) in *.
    assert (W : forall u, quiet is_ascii_ws (yy ++ u)) by (intros u; apply quiet_ws_number).
    unfold act_reference. apply y_alt1. rewrite <- !app_assoc. eapply y_bind; [apply y_sk; [apply W|]|apply y_ret].
    set (sa := yy ++ lit ". évi " ++ rn ++ lit ". törvény").
    assert (YA : yields (sk g_act_id_rule) o (yy ++ lit ". évi " ++ rn ++ lit ". törvény" ++ t) (mkGAct yy rn (ModelSem.mkPos o (o + utf8_len sa))) (o + utf8_len sa) t).
    { apply y_sk; [apply W|]. unfold g_act_id_rule. eapply (y_located known _ _ _ (mkGAct yy rn)).
      eapply y_bind; [apply y_sk; [apply W|apply y_number; reflexivity]|].
      change (lit ". évi " ++ rn ++ lit ". törvény" ++ t) with (lit "." ++ lit " " ++ lit "évi" ++ lit " " ++ rn ++ lit "." ++ lit " " ++ lit "törvény" ++ t).
      eapply y_bind; [apply y_T; reflexivity|]. eapply y_bind; [apply y_T_sp; reflexivity|].
      assert (QR : quiet is_ascii_ws (rn ++ lit "." ++ lit " " ++ lit "törvény" ++ t)).
      { destruct rn as [|c rn']; [congruence|]. cbn in *. apply andb_true_iff in RN1 as [RN1 _]. unfold is_roman_digit in RN1. apply existsb_exists in RN1 as (x & I & E). apply N.eqb_eq in E as ->.
        change (lit "IVXLCDM") with [73; 86; 88; 76; 67; 68; 77] in I. cbn [In] in I. repeat (destruct I as [<-|I]; [reflexivity|]). contradiction. }
      destruct (y_many1_chars known (fun c => existsb (N.eqb c) roman_chars) rn (o + utf8_len yy + utf8_len (lit ".") + 1 + utf8_len (lit "évi") + 1) (lit "." ++ lit " " ++ lit "törvény" ++ t) RN2 RN1 eq_refl) as [l YR].
      eapply y_bind; [apply y_sk_sp; [exact QR|unfold g_roman; eapply y_sliced; exact YR]|].
      eapply y_bind; [apply y_T; reflexivity|]. eapply y_bind.
      - apply y_sk_sp; [reflexivity|]. unfold act_suffix. apply y_alt1. change (lit "törvény" ++ t) with (lit "törvén" ++ lit "y" ++ t). eapply y_bind; [apply y_tok|].
        destruct (y_many1_chars known is_hun_lower (lit "y") (o + utf8_len yy + utf8_len (lit ".") + 1 + utf8_len (lit "évi") + 1 + utf8_len rn + utf8_len (lit ".") + 1 + utf8_len (lit "törvén")) t ltac:(discriminate) eq_refl Q) as [l' YS].
        eapply y_void. exact YS.
      - eapply y_eq; [apply y_ret|]. unfold sa. rewrite !utf8_len_app. change (utf8_len (lit ". évi ")) with 7. change (utf8_len (lit ". törvény")) with 11.
        change (utf8_len (lit ".")) with 1. change (utf8_len (lit "évi")) with 4. change (utf8_len (lit "törvén")) with 8. change (utf8_len (lit "y")) with 1. lia. }
    fold sa. unfold act_id_with_from_now_on. apply y_checked. eapply y_bind; [exact YA|]. eapply y_bind; [apply y_none, f_bind1, P|]. apply y_ret.
  Qed.

  (** ** The end of the text *)
  Lemma f_reference_nil o : fails g_reference o [].
  Proof.
    assert (F : fails (sk article_reference) o []) by (apply (f_article_other known [] o []); [apply lead_none|exact I|exact I]).
    unfold g_reference. apply f_located. apply f_alt; [apply f_bind1, F|]. apply f_alt; [apply f_bind1, F|]. apply f_alt.
    - apply f_bind1, (f_rwpar known [] o []); [apply lead_none|exact I|exact I].
    - apply f_alt; [apply f_bind1, f_bind1, f_points_nil|apply f_bind1, f_subpoints_nil].
  Qed.
  Lemma f_separator_nil o : fails (sk list_separator) o [].
  Proof. apply f_sk; [exact I|]. apply (f_separator known [] o []); [apply lead_none|exact I|exact I]. Qed.
  Lemma f_T_nil s o : lit s <> [] -> fails (T s) o [].
  Proof. intros NE. apply f_T; [exact I|]. destruct (lit s); [congruence|reflexivity]. Qed.
  Lemma f_simple_nil o : fails (sk any_simple_expression) o [].
  Proof.
    apply f_sk; [exact I|]. unfold any_simple_expression. apply f_alt; [apply f_bind1, f_sk; [exact I|]; apply f_bind1, f_T_nil; discriminate|].
    apply f_alt; [|apply f_alt].
    - apply f_bind1, f_sk; [exact I|]. unfold compound_reference. apply f_alt; [|apply f_bind1, f_act_reference_nil].
      eapply f_bind2; [apply y_none, f_act_reference_nil|]. apply f_bind1, f_sk; [exact I|apply f_reference_nil].
    - apply f_bind1, f_sk; [exact I|]. unfold attachment_reference. apply f_bind1. apply (f_sep known _ [] o []); [apply lead_none|exact I|]. intros o1. unfold attachment_reference_part. apply f_bind1.
      apply f_alt; apply f_bind1, f_sk; try exact I; now apply f_number.
    - apply f_bind1, f_sk; [exact I|]. unfold any_token. apply f_alt; [|apply f_alt].
      + apply f_sk; [exact I|]. apply f_bind1, f_many1, f_chr. exact I.
      + apply f_void, f_sk; [exact I|]. now apply f_number.
      + apply f_sk; [exact I|]. apply f_chr. exact I.
  Qed.

  (** ** The other kinds of sentences *)
  Lemma f_az o s : begins s -> fails g_az o s.
  Proof.
    intros (c & u & -> & H). unfold g_az. destruct (N.eqb_spec c 97) as [->|NE].
    - assert (Y : yields (tok "a") o (97 :: u) tt (o + utf8_len (lit "a")) u) by (exact (y_tok known "a" o u)). eapply f_bind2; [exact Y|].
      destruct H as [H|[H|[_ (d & v & -> & D1 & D2)]]]; try discriminate. destruct (N.eqb_spec d 122) as [->|N2].
      + destruct (D2 eq_refl) as (d' & v' & -> & D3). eapply f_bind2; [apply y_some; exact (y_tok known "z" _ (d' :: v'))|].
        eapply (f_tok_first known (N.eqb 32)); [reflexivity|reflexivity|]. cbn. apply N.eqb_neq. congruence.
      + eapply f_bind2; [apply y_none; eapply (f_tok_first known (N.eqb 122)); [reflexivity|reflexivity|]; cbn; apply N.eqb_neq; congruence|].
        eapply (f_tok_first known (N.eqb 32)); [reflexivity|reflexivity|]. cbn. apply N.eqb_neq. congruence.
    - apply f_bind1. eapply (f_tok_first known (N.eqb 97)); [reflexivity|reflexivity|]. cbn. apply N.eqb_neq. congruence.
  Qed.
  Lemma capital_quiet x s : 65 <= x <= 90 -> begins s -> quiet (N.eqb x) s.
  Proof.
    intros H B. apply begins_quiet; [exact B|..]; intros; rewrite ?N.eqb_neq; unfold is_digit, in_range in *; rewrite ?andb_true_iff, ?N.leb_le in *; lia.
  Qed.
  Lemma f_T_capital s x w o t : lit s = x :: w -> in_range 65 90 x = true -> begins t -> fails (T s) o t.
  Proof. intros E H B. unfold in_range in H. apply andb_true_iff in H. rewrite !N.leb_le in H. apply (f_T_lead known s x w [] o t); auto using lead_none, begins_ws, capital_quiet. Qed.
  Lemma f_T_cap s o t : match lit s with x :: _ => in_range 65 90 x | [] => false end = true -> begins t -> fails (T s) o t.
  Proof. destruct (lit s) as [|x w] eqn:E; [discriminate|]. intros H. exact (f_T_capital s x w o t E H). Qed.
  Lemma f_az_any o s : begins s -> fails (sk g_az_any) o s.
  Proof.
    intros B. apply f_sk; [now apply begins_ws|]. unfold g_az_any. apply f_alt; [now apply f_az|]. unfold g_az_upper. apply f_bind1.
    eapply (f_tok_first known (N.eqb 65)); [reflexivity|reflexivity|]. apply capital_quiet; [lia|exact B].
  Qed.
  Lemma y_root s x e : begins s -> yields compound_reference 0 s x e [] -> yields g_root_rule 0 s (RList [GCompound x]) e [].
  Proof.
    intros B Y. pose proof (begins_ws _ B) as W. unfold g_root_rule.
    apply y_alt2; [apply f_bind1, f_sk; [exact W|]; apply f_bind1; now apply f_az_any|].
    apply y_alt2; [apply f_bind1, f_sk; [exact W|]; apply f_bind1; now apply f_az_any|].
    apply y_alt2; [apply f_bind1, f_sk; [exact W|]; apply f_bind1; now apply f_az_any|].
    apply y_alt2; [apply f_bind1, f_sk; [exact W|]; apply f_bind1; now apply f_az_any|].
    apply y_alt2.
    { apply f_bind1, f_sk; [exact W|]. apply f_bind1. apply f_alt.
      - apply f_bind1. cbn [one_of_sk]. apply f_alt; [apply f_T_cap; [vm_compute; reflexivity|exact B]|]. apply f_alt; [apply f_T_cap; [vm_compute; reflexivity|exact B]|]. intros g _. reflexivity.
      - apply f_sk; [exact W|]. unfold g_az_upper. apply f_bind1. eapply (f_tok_first known (N.eqb 65)); [reflexivity|reflexivity|]. apply capital_quiet; [lia|exact B]. }
    apply y_alt2.
    { apply f_bind1, f_sk; [exact W|]. apply f_bind1. cbn [one_of_sk]. do 3 (apply f_alt; [apply f_T_cap; [vm_compute; reflexivity|exact B]|]). intros g _. reflexivity. }
    eapply y_bind.
    - apply y_sk; [exact W|]. unfold list_of_simple_expressions. apply y_many1_one; [|apply f_simple_nil]. apply y_sk; [exact W|]. unfold any_simple_expression. apply y_alt2.
      + apply f_bind1, f_sk; [exact W|]. unfold g_quote. apply f_bind1. apply (f_T_lead known "„" 8222 [] [] 0 s); auto using lead_none.
        apply begins_quiet; [exact B|..]; intros; rewrite ?N.eqb_neq; unfold is_digit, in_range in *; rewrite ?andb_true_iff, ?N.leb_le in *; lia.
      + apply y_alt1. eapply y_bind; [apply y_sk; [exact W|exact Y]|]. apply y_ret.
    - eapply y_bind; [|apply y_ret]. apply y_sk; [exact I|]. intros g _. reflexivity.
  Qed.
  Lemma root_parse s r e : yields g_root_rule 0 s r e [] -> grammar_parse s known = Ok r.
  Proof. intros Y. unfold grammar_parse. now rewrite (Y (mkGlob known [] []) eq_refl). Qed.

  (** ** Reading *)
  Lemma article_digit x t : exists n u, article_show x ++ t = show_N n ++ u.
  Proof.
    unfold article_show. rewrite <- app_assoc. destruct (a_book x); [rewrite <- app_assoc; eauto|]. cbn [app]. unfold numeric_show_slash. destruct (n_suffix (a_ident x)); [rewrite <- app_assoc|]; eauto.
  Qed.
  Lemma begins_quiet' s : (exists n u, s = show_N n ++ u) -> quiet (N.eqb 40) s.
  Proof. intros (n & u & ->). apply quiet_digits, no_paren_digit. Qed.
  Lemma act_ref_back rf a y n p : roman_from_reads rf -> act_ok a = true -> y = show_Z (act_year a) -> roman_to (act_number a) = Some n ->
    act_of_grammar rf (mkGAct y n p) = Ok a.
  Proof.
    intros R H -> N. unfold act_of_grammar. cbn [gai_year gai_number]. unfold act_ok in H. rewrite !andb_true_iff, !Z.leb_le in H. unfold parse_i16. rewrite parse_signed_show by lia. cbn [obind].
    rewrite roman_to_spec in N. destruct ((1 <=? act_number a) && (act_number a <=? 3999))%Z eqn:Z; [|discriminate]. injection N as <-. apply andb_true_iff in Z. rewrite R by lia. cbn.
    rewrite Z2N.id by lia. now destruct a.
  Qed.
  Lemma feed_act_back rf c a y n p : roman_from_reads rf -> act_ok a = true -> y = show_Z (act_year a) -> roman_to (act_number a) = Some n ->
    feed_act rf c (GActId (mkGNow (mkGAct y n p) None)) ob_new = Ok (mkOb (mkRef (Some a) None None None None) [mkOut (ps_start p) (ps_end p) (mkRef (Some a) None None None None)] None (ps_end p)).
  Proof.
    intros R H Y N. unfold feed_act, convert_act_reference. cbn [gn_act]. rewrite (act_ref_back rf a y n p R H Y N). reflexivity.
  Qed.
  Lemma article_head r a s : well_formed r -> f_act r = Some a -> said_parts (lower_parts r) s -> quiet (N.eqb 40) s.
  Proof.
    intros WF E H. destruct (f_article r) as [x|] eqn:EA.
    - unfold lower_parts in H. rewrite EA in H. cbn [app] in H. apply said_split in H as (i & n & n' & P & H). inversion P as [r0 i0 C| | | | |]; subst.
      assert (K : forall t, quiet (N.eqb 40) (i ++ t)).
      { intros t. apply begins_quiet'. destruct C as [[_ ->]|[_ ->]]; unfold from_to; rewrite <- !app_assoc; apply article_digit. }
      destruct H as [[_ ->]|(s' & _ & ->)]; apply K.
    - exfalso. assert (A : present r LArticle).
      { apply (wf_act _ WF); [unfold present; cbn; rewrite E; discriminate|]. unfold lower_parts in H. rewrite EA in H. cbn [app] in H.
        destruct (f_paragraph r) eqn:E2; [|destruct (f_point r) eqn:E3; [|destruct (f_subpoint r) eqn:E4; [|now apply said_nil in H]]].
        - exists LParagraph. split; [unfold finer; cbn; lia|]. unfold present. cbn. rewrite E2. discriminate.
        - exists LPoint. split; [unfold finer; cbn; lia|]. unfold present. cbn. rewrite E3. discriminate.
        - exists LSubpoint. split; [unfold finer; cbn; lia|]. unfold present. cbn. rewrite E4. discriminate. }
      unfold present in A. cbn in A. rewrite EA in A. congruence.
  Qed.
  Lemma read_back rf c r s : roman_from_reads rf -> readable_ref r -> phrase r s ->
    exists g l, grammar_parse s known = Ok g /\ get_outgoing_references rf c g = Ok l /\ found_in_phrase r s l.
  Proof.
    intros R RD P. pose proof (rd_form _ RD) as WF. pose proof (parts_good _ RD) as PG. destruct (rd_parts _ RD) as [AOK _].
    assert (REF : forall s' o, said_parts (lower_parts r) s' -> begins s' /\ (forall o, fails g_act_id_rule o s') /\ lower_parts r <> [] /\
      exists g, yields g_reference o s' g (o + utf8_len s') [] /\ gref_read r g o (o + utf8_len s')).
    { intros s' o H. split; [apply (said_begins known (lower_parts r) s' 0 PG H)|]. split; [intros o1; apply (said_begins known (lower_parts r) s' o1 PG H)|].
      split; [intros E; rewrite E in H; now apply said_nil in H|]. now apply y_reference. }
    destruct P as [E L|a s E S L|s E H|a s s' E S H].
    - exfalso. destruct (rd_some _ RD) as [K|K]; congruence.
    - pose proof (rd_act _ RD a E) as YP. destruct (y_act a s 0 [] YP S I ltac:(intros; apply f_T_nil; discriminate)) as (y & n & Y & Y1 & Y2). rewrite app_nil_r in Y.
      assert (B : begins s). { unfold act_show in S. rewrite Y2 in S. assert (S' : s = show_Z (act_year a) ++ lit ". évi " ++ n ++ lit ". törvény") by congruence.
        rewrite S', show_Z_pos by exact YP. apply begins_number. }
      pose proof (begins_ws _ B) as W.
      eexists (RList [GCompound (mkGComp (Some _) [])]), _. split; [|split].
      + eapply root_parse, y_root; [exact B|]. unfold compound_reference. apply y_alt2.
        * eapply f_bind2; [apply y_some, y_sk; [exact W|exact Y]|]. apply f_bind1, f_sk; [exact I|apply f_reference_nil].
        * eapply y_bind; [apply y_sk; [exact W|exact Y]|]. apply y_ret.
      + cbn [get_outgoing_references map_ok simple_references]. unfold compound_references. cbn [gc_act gc_refs feed_opt feed_all].
        rewrite (feed_act_back rf c a y n _ R (AOK a E) Y1 Y2). reflexivity.
      + unfold found_in_phrase. rewrite E, L. exists s. split; [exact S|]. reflexivity.
    - destruct (REF s 0 H) as (B & NA & NE & g & Y & G). pose proof (begins_ws _ B) as W.
      exists (RList [GCompound (mkGComp None [g])]). eexists. split; [|split].
      + eapply root_parse, y_root; [exact B|]. unfold compound_reference. apply y_alt1. eapply y_bind; [apply y_none, f_sk; [exact W|]; apply f_act_reference; auto|].
        eapply y_bind; [apply y_sk; [exact W|exact Y]|]. eapply y_bind; [apply y_many_nil, f_bind1, f_separator_nil|]. apply y_ret.
      + cbn [get_outgoing_references map_ok simple_references]. unfold compound_references. cbn [gc_act gc_refs feed_opt feed_all obind].
        rewrite (feed_read r g _ _ ob_new G WF NE eq_refl); [reflexivity|]. now rewrite E.
      + unfold found_in_phrase. rewrite E. reflexivity.
    - pose proof (rd_act _ RD a E) as YP. destruct (REF s' (0 + utf8_len s + 1) H) as (B & NA & NE & g & Y & G). pose proof (begins_ws _ B) as W.
      assert (NP : forall o, fails (T "(") o (lit " " ++ s')).
      { intros o. apply (f_T_lead known "(" 40 [] (lit " ") o s' lead_space W eq_refl). now apply (article_head r a). }
      destruct (y_act a s 0 (lit " " ++ s') YP S eq_refl NP) as (y & n & YA & Y1 & Y2).
      assert (B' : begins (s ++ lit " " ++ s')).
      { unfold act_show in S. rewrite Y2 in S. assert (S' : s = show_Z (act_year a) ++ lit ". évi " ++ n ++ lit ". törvény") by congruence.
        rewrite S', show_Z_pos by exact YP. rewrite <- app_assoc. apply begins_number. }
      pose proof (begins_ws _ B') as W'.
      eexists (RList [GCompound (mkGComp (Some _) [g])]), _. split; [|split].
      + eapply root_parse, y_root; [exact B'|]. unfold compound_reference. apply y_alt1. eapply y_bind; [apply y_some, y_sk; [exact W'|exact YA]|].
        eapply y_bind; [apply y_sk_sp; [exact W|exact Y]|]. eapply y_bind; [apply y_many_nil, f_bind1, f_separator_nil|]. apply y_ret.
      + cbn [get_outgoing_references map_ok simple_references]. unfold compound_references. cbn [gc_act gc_refs feed_opt feed_all].
        rewrite (feed_act_back rf c a y n _ R (AOK a E) Y1 Y2). cbn [obind]. rewrite (feed_read r g _ _ (mkOb _ _ None _) G WF NE eq_refl); [reflexivity|]. cbn [ob_ref]. now rewrite E.
      + unfold found_in_phrase. rewrite E. exists s. split; [exact S|]. destruct (lower_parts r); [congruence|]. cbn [app ob_result ps_start ps_end List.concat]. rewrite !utf8_len_app.
        change (utf8_len (lit " ")) with 1. rewrite !N.add_0_l, N.add_assoc. reflexivity.
  Qed.
End Run.
