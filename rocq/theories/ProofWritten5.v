(** Written articles and acts are read back (C62, C63). *)
From Verif Require Import ProofBase ProofIdent ProofIdent2 ProofIdent4 ProofText ProofText2 ProofText3 ProofStruct2 ProofStruct3 ProofStruct4 ProofStruct5 ProofStruct6 ProofStruct7.
From Verif Require Export ProofWritten4.
From Coq Require Import Lia.

(** ** Articles *)
Lemma title_loop_runs : forall tl s rest, (forall a b x, tl = a ++ b -> b <> [] -> app_from s a <> x ++ lit "]") ->
  (exists x, app_from s tl = x ++ lit "]") -> title_loop s (tl ++ rest) = (app_from s tl, rest).
Proof.
  intros tl. induction tl as [|l tl IH]; intros s rest N (x & E).
  - cbn [app app_from fold_left] in *. cbn in E. assert (X : ends_with (lit "]") s = true) by (apply ends_with_spec; eauto).
    destruct rest; cbn [title_loop]; rewrite X; reflexivity.
  - cbn [app title_loop]. assert (X : ends_with (lit "]") s = false).
    { apply Bool.not_true_iff_false. rewrite ends_with_spec. intros (y & Y). exact (N [] (l :: tl) y eq_refl ltac:(discriminate) Y). }
    rewrite X. rewrite IH.
    + reflexivity.
    + intros a b y -> Nb. exact (N (l :: a) b y eq_refl Nb).
    + exists x. exact E.
Qed.
Lemma join_first l c s tl : content l = c :: s -> join (without_first l :: tl) = app_from s tl.
Proof. intros E. unfold join. cbn [fold_left]. rewrite append_to_nil, (without_first_content l c s E). reflexivity. Qed.
Lemma read_title t tls rest : w_title t tls -> extract_title (tls ++ rest) = Ok (Some t, rest).
Proof.
  intros (l & tl & -> & (c & s & Ec & Ic) & Et & N). cbn [app extract_title]. rewrite Ec.
  assert (c = 91%N) by (revert Ic; norm_lit; cbn [In]; intros [X|[]]; congruence). subst c. rewrite N.eqb_refl.
  rewrite (join_first l _ s tl Ec) in Et. rewrite title_loop_runs.
  - assert (X : ends_with (lit "]") (app_from s tl) = true) by (apply ends_with_spec; eauto). rewrite X, Et.
    now change (lit "]") with [93%N]; rewrite removelast_last.
  - intros a b x E Nb. rewrite <- (join_first l _ s a Ec). exact (N a b x E Nb).
  - eauto.
Qed.
Lemma no_title ls : match ls with l :: _ => ~ begins_in (lit "[") l | [] => False end -> extract_title ls = Ok (None, ls).
Proof.
  destruct ls as [|l ls]; [contradiction|]. intros H. cbn [extract_title]. destruct (content l) as [|c t] eqn:E; [reflexivity|].
  destruct (N.eqb_spec c 91) as [->|]; [|reflexivity]. exfalso. apply H. exists 91%N, t. split; [exact E|]. norm_lit. now left.
Qed.
Theorem read_article ctx a ls : Forall not_ending_in_space ls -> w_article ctx a ls -> ap_finish ctx (mkAP (ar_ident a) ls) = Ok a.
Proof.
  intros N (tls & gap & body & El & Ht & Bg & Lg & Nb & Fb & Hc & W). unfold ap_finish. cbn [ap_lines ap_id].
  assert (Et : extract_title ls = Ok (ar_title a, gap ++ body)).
  { destruct (ar_title a) as [t|].
    - rewrite El. now apply read_title.
    - destruct Ht as [-> Ht]. cbn [app] in El. rewrite <- El. now apply no_title. }
  rewrite Et. cbn [obind].
  assert (Nby : Forall not_ending_in_space body) by (rewrite El in N; apply Forall_app in N as [_ N]; now apply Forall_app in N as [_ N]).
  assert (Eb : exists l ls', gap ++ body = l :: ls' /\ (if l_empty l then ls' else gap ++ body) = body).
  { destruct gap as [|g [|]]; cbn in Lg; [| |lia].
    - specialize (Fb eq_refl). destruct body as [|l body]; [contradiction|]. exists l, body. split; [reflexivity|].
      unfold l_empty. destruct (l_parts l); [congruence|reflexivity].
    - inversion Bg; subst. exists g, body. split; [reflexivity|]. unfold l_empty. now rewrite H1. }
  destruct Eb as (l0 & ls' & -> & ->).
  destruct a as [ai at' ac ach]. cbn [ar_ident ar_title ar_children ar_change] in *. subst ach.
  destruct W as [W|(p & -> & Ip & Fp & Np & W)].
  - rewrite (read_paragraphs ctx ac body Nby W). reflexivity.
  - assert (E : extract_paragraphs ctx false true None body = Err).
    { destruct body as [|l body]; [congruence|]. apply Forall_cons_iff in Nby. destruct Nby as [N1 _]. unfold extract_paragraphs.
      apply (extract_multiple_err _ _ _ _ ctx false true l body c61_paragraph (only_space par_form) N1).
      intros i r Hi. destruct (id_first i) eqn:Ef; [|reflexivity]. exfalso. apply (Np l body i r eq_refl Hi). now apply par_first_iff. }
    rewrite E. unfold parse_paragraph.
    rewrite (read_body paragraph_children ctx par_hd (label_only par_form) par_succ opens_par (w_par_children ctx) (only_space par_form) (proj1 good_par) (proj2 good_par) (par_children_read ctx) (par_children_none ctx) false None (s_body p) [] body Nby
      ltac:(discriminate) W). cbn [obind].
    rewrite <- Ip. rewrite fresh_eq by exact Fp. reflexivity.
Qed.

(** ** Header lines of acts *)
Lemma se_suffix_last ty suf : se_suffix ty suf -> exists x c, suf = x ++ [c] /\
  match ty with TBook => c = chr "V" | TPart _ => c = chr "Z" | TTitle => c = chr "M" | TChapter => c = chr "T" \/ c = chr "t" end.
Proof.
  destruct ty; cbn [se_suffix]; [intros ->|intros ->|intros ->|].
  - exists (lit " KÖNY"), (chr "V"). split; reflexivity.
  - exists (lit " RÉS"), (chr "Z"). split; reflexivity.
  - exists (lit ". CÍ"), (chr "M"). split; reflexivity.
  - intros H. destruct (rev suf) as [|c r] eqn:E.
    + assert (suf = []) by (rewrite <- (rev_involutive suf), E; reflexivity). subst. discriminate H.
    + assert (suf = rev r ++ [c]) by (rewrite <- (rev_involutive suf), E; reflexivity). subst suf. exists (rev r), c. split; [reflexivity|].
      unfold lower_str in H. rewrite map_app in H. change (lit ". fejezet") with (lit ". fejeze" ++ [116%N]) in H.
      apply app_inj_tail in H. destruct H as [_ H]. unfold ascii_lower in H.
      destruct ((65 <=? c) && (c <=? 90))%N eqn:Ec; [left|right; exact H]. change (chr "T") with 84%N. lia.
Qed.
Lemma match_se_exact ty s i : match_se ty s = Some i <-> exists suf, s = i ++ suf /\ se_suffix ty suf /\ ~ In 10%N i.
Proof.
  assert (F : forall g q : str, firstn (List.length g) (g ++ q) = g) by (intros g q; now rewrite firstn_app, Nat.sub_diag, firstn_all, firstn_O, app_nil_r).
  split.
  - intros H. pose proof H as H2. apply match_se_inv in H2. destruct H2 as (suf & E & Hs). exists suf. split; [exact E|]. split; [exact Hs|].
    apply no_newline_in. unfold match_se in H. destruct (strip_suffix _ _) as [r|]; [|discriminate]. cbv zeta in H.
    destruct (no_newline _) eqn:En; [|discriminate]. injection H as <-. exact En.
  - intros (suf & -> & Hs & Hn). apply no_newline_in in Hn. unfold match_se. destruct ty; cbn [se_suffix] in Hs; cbv zeta.
    + subst suf. rewrite (proj2 (strip_suffix_some _ _ i) eq_refl), F, Hn. reflexivity.
    + subst suf. rewrite (proj2 (strip_suffix_some _ _ i) eq_refl), F, Hn. reflexivity.
    + subst suf. rewrite (proj2 (strip_suffix_some _ _ i) eq_refl), F, Hn. reflexivity.
    + unfold lower_str in Hs. rewrite map_app, Hs, (proj2 (strip_suffix_some _ _ (map ascii_lower i)) eq_refl), map_length, F, Hn. reflexivity.
Qed.
Lemma se_suffix_length ty suf suf' : se_suffix ty suf -> se_suffix ty suf' -> List.length suf = List.length suf'.
Proof.
  destruct ty; cbn [se_suffix]; try congruence. unfold lower_str. intros H H'.
  rewrite <- (map_length ascii_lower suf), <- (map_length ascii_lower suf'), H, H'. reflexivity.
Qed.
Lemma try_se_exact rf ty l i : try_se rf ty l = Ok (Some (mkSP i [] ty)) <-> se_line rf l ty i.
Proof.
  unfold try_se, se_line. split.
  - destruct (match_se ty (content l)) as [s|] eqn:E; [|discriminate]. apply match_se_exact in E. destruct E as (suf & E & Hs & Hn).
    destruct (se_parse_identifier rf ty s) eqn:Ei; try discriminate. intros H. apply Ok_inj in H. injection H as <-. exists s, suf. auto.
  - intros (s & suf & E & Hs & Hn & Ei). rewrite (proj2 (match_se_exact ty (content l) s)) by eauto. now rewrite Ei.
Qed.
Lemma try_se_some rf ty l p : try_se rf ty l = Ok (Some p) -> p = mkSP (sp_id p) [] ty.
Proof. intros H. apply try_se_inv in H. destruct H as (<- & T & _). destruct p. cbn in *. now subst. Qed.
Lemma try_se_np rf ty l : try_se rf ty l <> Panic /\ try_se rf ty l <> Err.
Proof.
  unfold try_se. destruct (match_se ty (content l)) as [i|]; [|split; discriminate]. pose proof (se_parse_identifier_np rf ty i).
  destruct (se_parse_identifier rf ty i); split; try discriminate; congruence.
Qed.
Lemma se_line_kind rf l ty ty' i j : se_line rf l ty i -> se_line rf l ty' j -> ty = ty' \/ (exists a b, ty = TPart a /\ ty' = TPart b).
Proof.
  intros (s & suf & E & Hs & _) (s' & suf' & E' & Hs' & _). apply se_suffix_last in Hs, Hs'.
  destruct Hs as (x & c & -> & Hc), Hs' as (x' & c' & -> & Hc'). rewrite E in E'. rewrite !app_assoc in E'. apply app_inj_tail in E'. destruct E' as [_ <-].
  destruct ty, ty'; try (now left); try (right; eauto; fail); exfalso; revert Hc Hc';
    change (chr "V") with 86%N; change (chr "Z") with 90%N; change (chr "M") with 77%N; change (chr "T") with 84%N; change (chr "t") with 116%N; lia.
Qed.
Lemma se_line_det rf l ty i j : se_line rf l ty i -> se_line rf l ty j -> i = j.
Proof. intros H H'. apply try_se_exact in H, H'. rewrite H in H'. apply Ok_inj in H'. now injection H' as <-. Qed.
Lemma first_se_exact rf l : (forall ty i, first_se rf se_types l = Ok (Some (mkSP i [] ty)) <-> struct_line rf l ty i) /\
  (first_se rf se_types l = Ok None \/ exists ty i, first_se rf se_types l = Ok (Some (mkSP i [] ty))).
Proof.
  assert (T : forall ty, (exists i, try_se rf ty l = Ok (Some (mkSP i [] ty)) /\ se_line rf l ty i) \/ (try_se rf ty l = Ok None /\ forall i, ~ se_line rf l ty i)).
  { intros ty. destruct (try_se_np rf ty l) as [A B]. destruct (try_se rf ty l) as [[p|]| |] eqn:E; [| |congruence|congruence].
    - left. exists (sp_id p). pose proof (try_se_some _ _ _ _ E) as P. split; [now rewrite <- P|]. apply try_se_exact. now rewrite <- P.
    - right. split; [reflexivity|]. intros i H. apply try_se_exact in H. congruence. }
  assert (R : forall ty0 i0, struct_line rf l ty0 i0 -> forall ty i, struct_line rf l ty i <-> (ty = ty0 /\ i = i0)).
  { intros ty0 i0 [S0 P0] ty i. split; [|now intros [-> ->]]. intros [S P].
    destruct (se_line_kind _ _ _ _ _ _ S S0) as [->|(a & b & -> & ->)].
    - split; [reflexivity|]. exact (se_line_det _ _ _ _ _ S S0).
    - destruct a, b.
      + split; [reflexivity|]. exact (se_line_det _ _ _ _ _ S S0).
      + exfalso. exact (P eq_refl _ S0).
      + exfalso. exact (P0 eq_refl _ S).
      + split; [reflexivity|]. exact (se_line_det _ _ _ _ _ S S0). }
  assert (Y : forall ty0 i0, first_se rf se_types l = Ok (Some (mkSP i0 [] ty0)) -> struct_line rf l ty0 i0 ->
    (forall ty i, first_se rf se_types l = Ok (Some (mkSP i [] ty)) <-> struct_line rf l ty i) /\
    (first_se rf se_types l = Ok None \/ exists ty i, first_se rf se_types l = Ok (Some (mkSP i [] ty)))).
  { intros ty0 i0 E S. split; [|right; eauto]. intros ty i. rewrite (R ty0 i0 S), E. split.
    - intros X. apply Ok_inj in X. injection X as -> ->. auto.
    - now intros [-> ->]. }
  unfold se_types in *. cbn [first_se] in *.
  destruct (T TBook) as [(i & E & S)|[E0 N0]].
  { apply (Y TBook i); [rewrite E; reflexivity|split; [exact S|discriminate]]. }
  rewrite E0 in *. cbn [obind] in *.
  destruct (T (TPart false)) as [(i & E & S)|[E1 N1]].
  { apply (Y (TPart false) i); [rewrite E; reflexivity|split; [exact S|discriminate]]. }
  rewrite E1 in *. cbn [obind] in *.
  destruct (T (TPart true)) as [(i & E & S)|[E2 N2]].
  { apply (Y (TPart true) i); [rewrite E; reflexivity|split; [exact S|auto]]. }
  rewrite E2 in *. cbn [obind] in *.
  destruct (T TTitle) as [(i & E & S)|[E3 N3]].
  { apply (Y TTitle i); [rewrite E; reflexivity|split; [exact S|discriminate]]. }
  rewrite E3 in *. cbn [obind] in *.
  destruct (T TChapter) as [(i & E & S)|[E4 N4]].
  { apply (Y TChapter i); [rewrite E; reflexivity|split; [exact S|discriminate]]. }
  rewrite E4 in *. cbn [obind] in *. split; [|now left]. intros ty i. split; [discriminate|]. intros [S _]. exfalso.
  destruct ty as [|[]| |]; [now apply N0 in S|now apply N2 in S|now apply N1 in S|now apply N3 in S|now apply N4 in S].
Qed.
Lemma match_subtitle_exact l d t : match_subtitle (content l) = Some (d, t) <-> numbered l d t.
Proof.
  unfold match_subtitle, numbered. split.
  - destruct (eat_number_slash (content l)) as [[n r]|] eqn:E; [|discriminate]. apply eat_number_slash_exact in E.
    destruct E as (-> & ds & os & -> & D & O). destruct (eat 46 r) as [r2|] eqn:E2; [|discriminate]. apply eat_inv in E2. subst r.
    destruct (eat 32 r2) as [[|c r3]|] eqn:E3; try discriminate. apply eat_inv in E3. subst r2.
    destruct (negb ((c =? chr "é")%N || (c =? chr "§")%N) && no_newline r3) eqn:B; [|discriminate].
    apply andb_prop in B as [B1 B2]. apply negb_true_iff, orb_false_iff in B1. destruct B1 as [B0 B1].
    apply N.eqb_neq in B0, B1. apply no_newline_in in B2.
    intros H. injection H as <- <-. exists ds, os, c, r3. auto 10.
  - intros (ds & os & c & s & -> & D & O & -> & E & N1 & N2 & Nn). rewrite E. change (lit ". ") with [46%N; 32%N]. rewrite <- app_assoc. cbn [app].
    rewrite eat_number_slash_app by assumption. rewrite eat_cons, eat_cons. apply N.eqb_neq in N1, N2. rewrite N1, N2.
    apply no_newline_in in Nn. rewrite Nn. reflexivity.
Qed.
Lemma try_subtitle_exact up ctx pe l : (forall i t, try_subtitle up ctx pe l = Ok (Some (mkStP i t)) <-> subtitle_line up ctx pe l i t) /\
  (try_subtitle up ctx pe l = Ok None \/ exists i t, try_subtitle up ctx pe l = Ok (Some (mkStP i t))).
Proof.
  unfold try_subtitle, subtitle_line. destruct (l_bold l); cbn [negb].
  2:{ split; [|now left]. intros i t. split; [discriminate|]. intros [X _]. discriminate. }
  destruct (match_subtitle (content l)) as [[d t0]|] eqn:E.
  - assert (E' := E). apply match_subtitle_exact in E'.
    assert (U : forall d' t', numbered l d' t' -> d' = d /\ t' = t0).
    { intros d' t' X. apply match_subtitle_exact in X. rewrite E in X. injection X as -> ->. auto. }
    pose proof (numeric_parse_not_panic d). destruct (numeric_parse d) as [n| |] eqn:En; [| |congruence].
    + apply numeric_parse_spelling in En. split; [|right; eauto]. intros i t. split.
      * intros X. apply Ok_inj in X. injection X as <- <-. split; [reflexivity|]. eauto.
      * intros [_ X]. destruct i as [m|].
        -- destruct X as (d' & Xn & Xs). apply U in Xn. destruct Xn as [-> ->]. apply numeric_parse_spelling in Xs, En. rewrite Xs in En.
           apply Ok_inj in En. now subst.
        -- destruct X as (X & _). elim (X d t0 E').
    + split; [|now left]. intros i t. split; [discriminate|]. intros [_ X]. exfalso. destruct i as [m|].
      * destruct X as (d' & Xn & Xs). apply U in Xn. destruct Xn as [-> ->]. apply numeric_parse_spelling in Xs. congruence.
      * destruct X as (X & _). elim (X d t0 E').
  - assert (Nn : forall d s, ~ numbered l d s) by (intros d s X; apply match_subtitle_exact in X; congruence).
    assert (NS : forall n t, ~ (true = true /\ exists d, numbered l d t /\ numeric_spelling d n)) by (intros n t (_ & d & X & _); exact (Nn d t X)).
    assert (C : pe || negb (is_full ctx) = true <-> pe = true \/ ctx = BlockAm) by (rewrite orb_true_iff; destruct ctx; cbn; split; intros [|]; auto; discriminate).
    destruct (pe || negb (is_full ctx)).
    + destruct (content l) as [|c s] eqn:Ec; [|destruct (up c) eqn:Eu].
      * split; [|now left]. intros i t. split; [discriminate|]. intros X. exfalso. destruct i as [m|]; [exact (NS m t X)|].
        destruct X as (_ & _ & _ & _ & c & s & X & _). discriminate.
      * split; [|right; eauto]. intros i t. split.
        -- intros X. apply Ok_inj in X. injection X as <- <-. split; [reflexivity|]. split; [exact Nn|]. split; [now apply C|]. split; [reflexivity|]. eauto.
        -- intros X. destruct i as [m|]; [exfalso; exact (NS m t X)|]. destruct X as (_ & _ & _ & -> & _). reflexivity.
      * split; [|now left]. intros i t. split; [discriminate|]. intros X. exfalso. destruct i as [m|]; [exact (NS m t X)|].
        destruct X as (_ & _ & _ & _ & c' & s' & X & Y). injection X as <- <-. congruence.
    + split; [|now left]. intros i t. split; [discriminate|]. intros X. exfalso. destruct i as [m|]; [exact (NS m t X)|].
      destruct X as (_ & _ & X & _). apply C in X. discriminate.
Qed.
Definition fac (last : option (article_id * Z)) : article_factory :=
  match last with Some (i, x) => mkFac (Some i) (Some x) | None => af_new end.
Definition last_article_ok (last : option (article_id * Z)) : Prop := match last with Some (i, _) => article_ok i = true | None => True end.
Lemma article_first_iff i : article_first i = true <-> article_one i.
Proof.
  split; [apply article_first_one|]. destruct i as [[b|] n]; unfold article_first, article_one; cbn [a_book a_ident]; intros [-> [E|E]]; try discriminate; auto.
  injection E as ->. reflexivity.
Qed.
Lemma article_hd_ok l i r : header_of article_form [] l i r -> article_ok i = true.
Proof.
  intros H. apply c61_article in H. unfold parse_header in H. destruct (match_article (content l)) as [[s rest]|]; [|discriminate].
  destruct (article_parse s) as [j| |] eqn:E; try discriminate. apply obind_ok in H. destruct H as (r' & _ & H). cbn in H.
  apply Ok_inj in H. injection H as <- _. now apply article_parse_ok in E.
Qed.
Lemma try_article_exact ctx last l : not_ending_in_space l -> last_article_ok last ->
  (forall i r, try_article ctx (fac last) None l = Ok (mkFac (Some i) (Some (indent l)), mkAP i [r]) <-> article_line ctx last l i r) /\
  (try_article ctx (fac last) None l = Err \/ exists i r, try_article ctx (fac last) None l = Ok (mkFac (Some i) (Some (indent l)), mkAP i [r])).
Proof.
  intros N K. unfold try_article, article_line. destruct (c61_article l) as (A & B & D).
  assert (M : (match af_indent (fac last) with Some e => indent_less_or_eq l e | None => true end) = true <->
      match last with Some (_, x) => at_margin x l | None => True end).
  { destruct last as [[j x]|]; cbn; [|tauto]. unfold indent_less_or_eq, at_margin. apply Z.ltb_lt. }
  destruct (match af_indent (fac last) with Some e => indent_less_or_eq l e | None => true end) eqn:Em; cbn [ensure obind].
  - assert (M' := proj1 M eq_refl). clear M.
    destruct (parse_header match_article article_parse [] l) as [[[i r]|]| |] eqn:E; cbn [obind]; [| |congruence|].
    + assert (H : header_of article_form [] l i r) by now apply A. assert (Ki := article_hd_ok _ _ _ H).
      assert (X : (match af_last (fac last) with Some j => article_next i j | None => negb (is_full ctx) || article_first i end) = true <->
        match last with Some (j, x) => at_margin x l /\ article_succ i j | None => ctx = FullAct -> article_one i end).
      { destruct last as [[j x]|]; cbn [fac af_last].
        - unfold last_article_ok in K. rewrite article_next_general by assumption. split; [intros Y; split; [exact M'|exact Y]|intros [_ Y]; exact Y].
        - change (af_last af_new) with (@None article_id). cbv iota. rewrite orb_true_iff, article_first_iff. destruct ctx; cbn.
          + split; [intros [Y|Y]; [discriminate|auto]|]. intros Y. right. now apply Y.
          + split; [intros _ Y; discriminate|]. intros _. now left. }
      destruct (match af_last (fac last) with Some j => article_next i j | None => negb (is_full ctx) || article_first i end); cbn [ensure obind].
      * assert (X' := proj1 X eq_refl). split; [|right; eauto]. intros i' r'. split.
        -- intros Y. apply Ok_inj in Y. assert (Y1 := f_equal (fun p => ap_id (snd p)) Y). assert (Y2 := f_equal (fun p => ap_lines (snd p)) Y). cbn in Y1, Y2. injection Y2 as <-. subst i'. auto.
        -- intros [Y _]. apply A in Y. apply Ok_inj, Some_inj in Y. injection Y as <- <-. reflexivity.
      * split; [|now left]. intros i' r'. split; [discriminate|]. intros [Y Z0]. apply A in Y. apply Ok_inj, Some_inj in Y. injection Y as <- <-.
        apply X in Z0. discriminate.
    + split; [|now left]. intros i' r'. split; [discriminate|]. intros [Y _]. apply A in Y. discriminate.
    + exfalso. apply (only_space article_form l); [now apply B|exact N].
  - split; [|now left]. intros i' r'. split; [discriminate|]. intros [_ Y]. destruct last as [[j x]|]; [|cbn in Em; discriminate].
    destruct Y as [Y _]. apply M in Y. discriminate.
Qed.
Definition open_state (o : opening) : act_state :=
  match o with OStruct ty i => AsStruct (mkSP i [] ty) | OSubtitle i t => AsSubtitle (mkStP i t) | OArticle i r => AsArticle (mkAP i [r]) end.
Lemma act_header_exact rf up ctx last pe l : not_ending_in_space l -> last_article_ok last ->
  (forall o, line_opens rf up ctx last pe l o -> act_header_line rf up ctx (fac last) pe l = Ok (Some (open_state o, fac (next_last last o l)))) /\
  ((forall o, ~ line_opens rf up ctx last pe l o) -> act_header_line rf up ctx (fac last) pe l = Ok None).
Proof.
  intros N K. unfold act_header_line. destruct (first_se_exact rf l) as [S1 S2], (try_subtitle_exact up ctx pe l) as [T1 T2],
    (try_article_exact ctx last l N K) as [A1 A2]. split.
  - intros [ty i|i t|i r]; cbn [line_opens].
    + intros H. apply S1 in H. rewrite H. reflexivity.
    + intros [H Hn]. apply T1 in H. destruct S2 as [->|(ty & j & E)]; [|apply S1 in E; elim (Hn _ _ E)]. cbn [obind]. rewrite H. reflexivity.
    + intros (H & Hn & Hn2). apply A1 in H. destruct S2 as [->|(ty & j & E)]; [|apply S1 in E; elim (Hn _ _ E)]. cbn [obind].
      destruct T2 as [->|(j & t & E)]; [|apply T1 in E; elim (Hn2 _ _ E)]. cbn [obind]. rewrite H. reflexivity.
  - intros H. destruct S2 as [Es|(ty & j & E)]; [|apply S1 in E; elim (H (OStruct ty j) E)]. rewrite Es. cbn [obind].
    assert (Ns : forall ty j, ~ struct_line rf l ty j) by (intros ty j X; apply S1 in X; congruence).
    destruct T2 as [Et|(j & t & E)]; [|apply T1 in E; elim (H (OSubtitle j t) (conj E Ns))]. rewrite Et. cbn [obind].
    assert (Nt : forall j t, ~ subtitle_line up ctx pe l j t) by (intros j t X; apply T1 in X; congruence).
    destruct A2 as [->|(i & r & E)]; [reflexivity|]. apply A1 in E. elim (H (OArticle i r) (conj E (conj Ns Nt))).
Qed.
(** The lines after a header *)
Definition act_feed (s : act_state * str) (l : line) : act_state * str :=
  match fst s with
  | AsPreamble => (AsPreamble, append_to l (snd s))
  | AsArticle p => (AsArticle (ap_feed p l), snd s)
  | AsStruct p => (AsStruct (sp_feed p l), snd s)
  | AsSubtitle p => (AsSubtitle (tp_feed p l), snd s)
  end.
Lemma ends_empty_snoc e a l : ends_empty e (a ++ [l]) = l_empty l.
Proof. unfold ends_empty. rewrite map_app. apply last_last. Qed.
Lemma act_goes_on rf up ctx last e : last_article_ok last -> forall tl a q st pre done rest, q_level q = depth (text a) ->
  Forall not_ending_in_space tl -> nonneg a tl -> opens_nothing rf up ctx last e a tl ->
  exists q', q_level q' = depth (text (a ++ tl)) /\
  act_loop rf up ctx q (fac last) (ends_empty e a) st pre done (tl ++ rest) =
  act_loop rf up ctx q' (fac last) (ends_empty e (a ++ tl)) (fst (fold_left act_feed tl (st, pre))) (snd (fold_left act_feed tl (st, pre))) done rest.
Proof.
  intros K tl. induction tl as [|l tl IH]; intros a q st pre done rest Q N P O.
  - rewrite app_nil_r. exists q. split; [exact Q|reflexivity].
  - apply Forall_cons_iff in N. destruct N as [N1 N2]. cbn [app act_loop fold_left].
    pose proof (nonneg_one _ _ _ P) as P1. destruct (qc_step_ok q l) as (q1 & -> & L1 & B1); [lia|]. cbn [obind].
    assert (E : (if q_begin q1 then Ok None else act_header_line rf up ctx (fac last) (ends_empty e a) l) = Ok None).
    { destruct (q_begin q1) eqn:Eb; [reflexivity|]. apply (act_header_exact rf up ctx last (ends_empty e a) l N1 K).
      pose proof (O [] l tl eq_refl) as X. rewrite app_nil_r in X. apply X. unfold balanced. rewrite <- Q.
      specialize (P [] (l :: tl) eq_refl). rewrite app_nil_r, <- Q in P. lia. }
    rewrite E. cbn [obind].
    destruct (IH (a ++ [l]) q1 (fst (act_feed (st, pre) l)) (snd (act_feed (st, pre) l)) done rest) as (q' & Q' & X).
    { now rewrite L1, text_snoc_depth, Q. }
    { exact N2. }
    { exact (nonneg_cons _ _ _ P). }
    { intros x m y -> Bx o. rewrite <- app_assoc in *. exact (O (l :: x) m y eq_refl Bx o). }
    rewrite <- app_assoc in Q', X. exists q'. split; [exact Q'|]. rewrite <- surjective_pairing in X. cbn [app] in X. rewrite <- X.
    rewrite ends_empty_snoc. destruct st; reflexivity.
Qed.
Definition closed_state (s : act_state) : Prop := s <> AsPreamble.
Lemma feed_article i ls pre : forall r, fold_left act_feed ls (AsArticle (mkAP i r), pre) = (AsArticle (mkAP i (r ++ ls)), pre).
Proof.
  induction ls as [|l ls IH]; intros r; cbn [fold_left]; [now rewrite app_nil_r|]. unfold act_feed at 2. cbn [fst snd]. unfold ap_feed. cbn [ap_id ap_lines].
  rewrite IH, <- app_assoc. reflexivity.
Qed.
Lemma feed_struct i ty ls pre : forall t, fold_left act_feed ls (AsStruct (mkSP i t ty), pre) = (AsStruct (mkSP i (app_from t ls) ty), pre).
Proof. induction ls as [|l ls IH]; intros t; cbn [fold_left]; [reflexivity|]. unfold act_feed at 2. cbn [fst snd]. unfold sp_feed. cbn [sp_id sp_title sp_ty]. now rewrite IH. Qed.
Lemma feed_subtitle i ls pre : forall t, fold_left act_feed ls (AsSubtitle (mkStP i t), pre) = (AsSubtitle (mkStP i (app_from t ls)), pre).
Proof. induction ls as [|l ls IH]; intros t; cbn [fold_left]; [reflexivity|]. unfold act_feed at 2. cbn [fst snd]. unfold tp_feed. cbn [tp_id tp_title]. now rewrite IH. Qed.
Lemma feed_preamble ls : forall t, fold_left act_feed ls (AsPreamble, t) = (AsPreamble, app_from t ls).
Proof. induction ls as [|l ls IH]; intros t; cbn [fold_left]; [reflexivity|]. unfold act_feed at 2. cbn [fst snd]. now rewrite IH. Qed.
Lemma article_hd_nes l i r : header_of article_form [] l i r -> not_ending_in_space l -> not_ending_in_space r.
Proof. intros H. apply c61_article, article_header_heads in H. exact (heads_nes _ _ _ _ H). Qed.
Lemma child_finish rf up ctx last e hl o c tl pre : Forall not_ending_in_space (hl :: tl) -> line_opens rf up ctx last e hl o -> w_act_child ctx o c tl ->
  exists st, fold_left act_feed tl (open_state o, pre) = (st, pre) /\ st <> AsPreamble /\ act_finish ctx st = Ok [c] /\ title_fits c = true.
Proof.
  intros N Ho W. apply Forall_cons_iff in N. destruct N as [N1 N2].
  destruct o as [ty i|i t|i r], c as [s|s|a]; cbn [w_act_child] in W; try contradiction; cbn [open_state].
  - destruct W as (-> & -> & Et & Ec). rewrite feed_struct. eexists. split; [reflexivity|]. split; [discriminate|]. cbn [act_finish].
    unfold sp_finish. cbn [sp_id sp_title sp_ty]. destruct s as [a b c d]. cbn in *. subst b d. auto.
  - destruct W as (-> & Et & El & Ec). rewrite feed_subtitle. eexists. split; [reflexivity|]. split; [discriminate|]. cbn [act_finish].
    unfold tp_finish. cbn [tp_id tp_title]. destruct s as [a b c]. cbn in *. subst b c. split; [reflexivity|]. now apply N.leb_le.
  - destruct W as (-> & W). rewrite feed_article. eexists. split; [reflexivity|]. split; [discriminate|]. cbn [act_finish app].
    rewrite (read_article ctx a (r :: tl)); [now split| |exact W]. constructor; [|exact N2].
    destruct Ho as [[H _] _]. exact (article_hd_nes _ _ _ H N1).
Qed.
Lemma next_last_ok rf up ctx last e hl o : last_article_ok last -> line_opens rf up ctx last e hl o -> last_article_ok (next_last last o hl).
Proof. intros K H. destruct o; cbn; try exact K. destruct H as [[H _] _]. exact (article_hd_ok _ _ _ H). Qed.
Lemma app_from_last (b : bool) a c : ends_empty b (a ++ c) = ends_empty (ends_empty b a) c.
Proof.
  unfold ends_empty. rewrite map_app. destruct (map l_empty c) as [|x y] eqn:E; [now rewrite app_nil_r|].
  rewrite (app_removelast_last (l := x :: y) true ltac:(discriminate)), app_assoc, !last_last. reflexivity.
Qed.
Lemma read_children rf up ctx last e cs ls : w_children rf up ctx last e cs ls -> last_article_ok last -> Forall not_ending_in_space ls ->
  forall q st pre done fin, q_level q = 0%Z -> act_finish ctx st = Ok fin -> forallb title_fits fin = true ->
  exists st' done' fin', act_loop rf up ctx q (fac last) e st pre done ls = Ok (st', pre, done ++ done') /\ (cs <> [] -> st' <> AsPreamble) /\
    (cs = [] -> st' = st) /\
    act_finish ctx st' = Ok fin' /\ done' ++ fin' = fin ++ cs /\ forallb title_fits cs = true.
Proof.
  intros W. induction W as [last e|last e o c cs hl tl ls Ho [Bq Pq] On Wc W IH]; intros K N q st pre done fin Q F T.
  - cbn [act_loop]. rewrite check_end_zero by exact Q. cbn [obind]. exists st, [], fin. rewrite !app_nil_r. cbn [app]. auto 10.
  - apply Forall_app in N. destruct N as [N1 N2]. assert (N1' := N1). apply Forall_cons_iff in N1'. destruct N1' as [Nh Nt].
    cbn [app act_loop].
    assert (Pn : nonneg [] (hl :: tl)) by (intros x y E; exact (Pq x y E)).
    pose proof (nonneg_one _ _ _ Pn) as P1. change (depth (text [])) with 0%Z in P1.
    destruct (qc_step_ok q hl) as (q1 & -> & L1 & B1); [lia|]. cbn [obind].
    rewrite B1, Q, Z.ltb_irrefl. rewrite (proj1 (act_header_exact rf up ctx last e hl Nh K) o Ho). cbn [obind]. rewrite F. cbn [obind].
    pose proof (next_last_ok _ _ _ _ _ _ _ K Ho) as K'.
    destruct (act_goes_on rf up ctx (next_last last o hl) e K' tl [hl] q1 (open_state o) pre (done ++ fin) ls) as (q2 & Q2 & E).
    { rewrite text_one. lia. }
    { exact Nt. }
    { exact (nonneg_cons [] _ _ Pn). }
    { exact On. }
    change (ends_empty e [hl]) with (l_empty hl) in E. rewrite E. clear E.
    destruct (child_finish rf up ctx last e hl o c tl pre N1 Ho Wc) as (st1 & Ef & Ns & F1 & T1). rewrite Ef. cbn [fst snd].
    destruct (IH K' N2 q2 st1 pre (done ++ fin) [c]) as (st' & done' & fin' & R & Np & Ne & Ff & Ee & Tf).
    { rewrite Q2. exact Bq. }
    { exact F1. }
    { cbn. now rewrite T1. }
    exists st', (fin ++ done'), fin'. split; [|split; [|split; [|split; [|split]]]].
    + cbn [app]. rewrite R. now rewrite <- app_assoc.
    + intros _. destruct cs as [|c' cs]; [rewrite Ne by reflexivity; exact Ns|apply Np; discriminate].
    + discriminate.
    + exact Ff.
    + rewrite <- app_assoc, Ee. reflexivity.
    + cbn [forallb]. now rewrite T1, Tf.
Qed.
Theorem read_act rf up ctx preamble cs ls : Forall not_ending_in_space ls -> w_act rf up ctx preamble cs ls ->
  parse_complex_body rf up ctx ls = Ok (preamble, cs).
Proof.
  intros N (pre & rest & -> & [Bq Pq] & On & -> & Hb & Nc & W). apply Forall_app in N. destruct N as [N1 N2]. unfold parse_complex_body.
  destruct (act_goes_on rf up ctx None true I pre [] qc_default AsPreamble [] [] rest eq_refl N1) as (q1 & Q1 & E).
  { intros x y Ex. exact (Pq x y Ex). }
  { exact On. }
  cbn [app] in E, Q1. change (ends_empty true []) with true in E. change (fac None) with af_new in E. rewrite E. clear E.
  rewrite feed_preamble. cbn [fst snd]. change (app_from [] pre) with (join pre).
  destruct (read_children rf up ctx None _ cs rest W I N2 q1 AsPreamble (join pre) [] []) as (st' & done' & fin' & R & Np & _ & Ff & Ee & Tf);
    [rewrite Q1; exact Bq|reflexivity|reflexivity|].
  change (fac None) with af_new in R. rewrite R. cbn [obind app].
  assert (F : (match st' with AsPreamble => Err | _ => act_finish ctx st' end) = Ok fin') by (destruct st'; [now elim (Np Nc)|exact Ff..]).
  rewrite F. cbn [obind]. cbn [app] in Ee. rewrite Ee, Tf.
  assert (X : is_full ctx || is_empty (join pre) = true) by (destruct ctx; [reflexivity|cbn; now rewrite (Hb eq_refl)]).
  rewrite X. reflexivity.
Qed.
Theorem read_act_structure rf up raw preamble cs : Forall not_ending_in_space (ar_body raw) -> w_act rf up FullAct preamble cs (ar_body raw) ->
  parse_act_structure rf up raw = Ok (mkActS (ar_id raw) (ar_subject raw) preamble (ar_date raw) [] cs).
Proof. intros N W. unfold parse_act_structure. rewrite (read_act rf up FullAct preamble cs _ N W). reflexivity. Qed.

Theorem subtitle_limit rf up ctx ls preamble cs s : parse_complex_body rf up ctx ls = Ok (preamble, cs) -> In (ChSubtitle s) cs ->
  (utf8_len (st_title s) <= 1500)%N.
Proof.
  unfold parse_complex_body. intros H. apply obind_ok in H. destruct H as ([[st pre] done] & _ & H).
  apply obind_ok in H. destruct H as (c & _ & H). apply obind_ok in H. destruct H as (u & _ & H). apply obind_ok in H. destruct H as (u' & T & H).
  destruct (forallb title_fits (done ++ c)) eqn:E; [|discriminate]. apply Ok_inj in H. injection H as _ <-. intros I.
  rewrite forallb_forall in E. apply E in I. now apply N.leb_le.
Qed.
