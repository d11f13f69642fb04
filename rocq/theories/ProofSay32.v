(** Proofs for C79: the root of the grammar and the result. *)
From Verif Require Export ProofSay31 ProofAmend.
From Coq Require Import Lia.
Local Open Scope peg_scope.
Local Open Scope N_scope.

Section Run.
  Variables (rf : str -> option Z) (c : cache).
  Hypothesis roman : roman_from_reads rf.
  Local Notation known := (all_abbreviations c).
  Local Notation yields := (yields known).
  Local Notation fails := (fails known).
  Local Notation m := (ca_map c).
  Definition block_facts (a : act_id) (x : reference) (i : bool) (l : list out_ref) (am : option g_ref) (ins : option g_ins) : Prop :=
    is_none am = i /\ position_of (map o_ref l) = Ok x /\
    forall name G o st, name_tree rf c a name G -> block_references rf c (mkGBlock (G o) st am ins) = Ok (mkOut o (o + utf8_len name) (only_act a) :: l).
  Definition block_read (a : act_id) (p : option sr_parent) (x : reference) (i : bool) (l : list out_ref) (whole : str) (o : N) (s : str) : Prop :=
    exists st am ins, opt_ok (struct_parent_of rf) st = Ok p /\ block_facts a x i l am ins /\
      forall g, exists o', reads known whole (st <- opt (sk any_structural_reference) ;; block_rest g st) o s (mkGBlock g st am ins) o' [].
  Lemma one_position r a o : well_formed r -> f_act r = Some a -> lower_parts r <> [] -> o_ref o = r -> position_of (map o_ref [o]) = Ok r.
  Proof.
    intros W EA NE E. destruct (under_act r a W EA NE) as (x & ps & EX & EP). unfold position_of. cbn [map]. rewrite E.
    assert (EF : filter (fun r => negb (is_act_only r)) [r] = [r]) by (unfold is_act_only; cbn [filter]; rewrite EX; reflexivity).
    rewrite EF. cbn zeta. cbn [map fold1 fold_left ok_or obind]. apply (whole_range r W NE).
  Qed.
  Lemma resumed r a r' x : f_act r = Some a -> f_act r' = Some a -> f_article r' = Some x -> resume r r' = r'.
  Proof. intros E1 E2 E3. unfold resume, lower_parts. rewrite E3. cbn [app]. rewrite E1, <- E2, <- E3. destruct r'; reflexivity. Qed.
  (** The name of the act once more *)
  Lemma ready_bind {A B} (p : parser A) (f : A -> parser B) : ready known p -> (forall a, ready known (f a)) -> ready known (pbind p f).
  Proof.
    intros P F o t. destruct (P o t) as [(a & o1 & w & t1 & -> & Y)|X]; [|right; now apply f_bind1].
    destruct (F a o1 t1) as [(b & o2 & w2 & t2 & -> & Y2)|X]; [left; exists b, o2, (w ++ w2), t2; split; [apply app_assoc|eapply y_bind; eauto]|right; eapply f_bind2; eauto].
  Qed.
  Lemma ready_opt {A} (p : parser A) : ready known p -> ready known (opt p).
  Proof.
    intros P o t. left. destruct (P o t) as [(a & o1 & w & t1 & -> & Y)|X]; [exists (Some a), o1, w, t1; split; [reflexivity|now apply y_some]|exists None, o, [], t; split; [reflexivity|now apply y_none]].
  Qed.
  Lemma ready_the : ready known (opt (sk g_az)).
  Proof. unfold g_az. apply ready_opt, ready_sk, ready_bind; [apply ready_tok|]. intros _. apply ready_bind; [apply ready_opt, ready_tok|]. intros _. apply ready_tok. Qed.
  Lemma y_the_len z t : z = lit "a " \/ z = lit "az " -> forall o, yields (sk g_az) o (lit " " ++ z ++ t) tt (o + utf8_len (lit " " ++ z)) t.
  Proof.
    intros Z o. destruct Z as [->| ->]; (apply y_sk_sp; [reflexivity|]; unfold g_az).
    - change (lit "a ") with (lit "a" ++ lit " "). rewrite <- app_assoc. eapply y_bind; [apply y_tok|]. eapply y_bind; [apply y_none, f_tok; reflexivity|]. eapply y_eq; [apply y_tok|lens].
    - change (lit "az ") with (lit "a" ++ lit "z" ++ lit " "). rewrite <- !app_assoc. eapply y_bind; [apply y_tok|]. eapply y_bind; [apply y_some, y_tok|]. eapply y_eq; [apply y_tok|lens].
  Qed.
  Lemma again_reads a rest n o : named_again m a rest n -> after_act c rest -> exists y, yields (opt (opt (sk g_az) ;; sk act_reference)) o (n ++ rest) y (o + utf8_len n) rest.
  Proof.
    intros H AA. destruct H as [U|z name IZ NM].
    - exists None. cbn [app]. change (utf8_len []) with 0. rewrite N.add_0_r. apply y_none. pose proof (unnamed_plain c _ U) as P.
      apply f_then; [apply ready_the|]. intros _ o1 w t1 ->. apply f_act_plain. now apply plain_end in P.
    - rewrite <- !app_assoc. destruct (y_name rf c roman a rest [] name NM AA) as (WN & G & NT & YG).
      assert (Z : z = lit "a " \/ z = lit "az ") by (cbn [map In] in IZ; destruct IZ as [<-|[<-|[]]]; auto).
      eexists. apply y_some. eapply y_bind; [apply y_some, (y_the_len z _ Z)|]. eapply y_eq; [apply y_sk; [exact WN|apply YG]|]. lens.
  Qed.
  (** What is after the words which join the two halves *)
  Lemma junk_ends a n p sp r gap s u : named_again m a (sp ++ gap ++ s ++ u) n -> sp = [] \/ within_element p sp -> readable_ref r -> f_act r = Some a -> inserted_phrase (lower_parts r) gap s ->
    forall o, fails (one_of_sk ["és"; "valamint"; "ezzel"; "egyidejűleg"]%string) o (n ++ sp ++ gap ++ s ++ u).
  Proof.
    intros H HS RD EA IP o. destruct H as [U|z name IZ NM].
    - cbn [app]. assert (K : sp = [] \/ exists k, cap_first (k ++ gap ++ s ++ u) /\ sp = lit " " ++ k).
      { destruct HS as [->|HS]; [now left|]. destruct HS as [|p k s' E]; [now left|]. right. exists s'. split; [now apply (element_cap p k)|reflexivity]. }
      destruct K as [->|(k & C & ->)].
      + cbn [app one_of_sk]. repeat apply f_alt; try (apply (gap_word c r a gap s u); [exact RD|exact EA|exact IP|cbn; auto 6]). intros g G. reflexivity.
      + rewrite <- app_assoc. clear - C. destruct C as (c1 & v & -> & I); unfold caps in I; change (lit "IVXLCDMEHNÖTK") with [73; 86; 88; 76; 67; 68; 77; 69; 72; 78; 214; 84; 75] in I; cbn [In] in I. repeat (destruct I as [<-|I]; [here|]). contradiction.
    - rewrite <- !app_assoc. cbn [map In] in IZ. destruct IZ as [<-|[<-|[]]]; here.
  Qed.
  Lemma r_inside_again whole p sp u o : place whole o (sp ++ u) -> sp = [] \/ within_element p sp -> opens c u ->
    (exists st, reads known whole (opt (sk any_structural_reference)) o (sp ++ u) st (o + utf8_len sp) u) /\ after_act c (sp ++ u).
  Proof.
    intros P [->|W] O.
    - destruct (r_inside rf c roman whole None [] u o P in_no_element O) as ((st & R & _) & A). eauto.
    - destruct (r_inside rf c roman whole p sp u o P W O) as ((st & R & _) & A). eauto.
  Qed.

  (** ** The sentences after the name of the act *)
  Lemma block_reads whole a b p x i l s : block_change m a b p x i l s -> place whole (utf8_len b) s -> after_act c s /\ block_read a p x i l whole (utf8_len b) s.
  Proof.
    intros H P. destruct H as [p sp r s e WE RD EA SE I|p sp r gap s e WE RD EA IP I|p sp r s e j n sp' r' gap s' e' x WE RD EA SE I J NA WE' RD' EA' IP I' AP].
    - assert (NE : lower_parts r <> []) by (intros E; rewrite E in SE; now apply ended_nil in SE). pose proof (opens_said c r a (lower_parts r) s e RD EA NE (ex_intro _ [] (eq_sym (app_nil_r _))) SE) as O.
      destruct (r_inside rf c roman whole p sp _ _ P WE O) as ((st & R & SP) & AA). split; [exact AA|].
      destruct (y_reference_then known r s (utf8_len (b ++ sp) + 1) e RD SE (after_replacement known e I)) as (g & Y & GR).
      exists st, (Some g), None. split; [exact SP|]. split.
      + split; [reflexivity|]. split; [apply (one_position r a); [apply RD|exact EA|exact NE|reflexivity]|]. intros name G o st' NT. unfold block_references. cbn [gb_act gb_amended gb_inserted]. rewrite (name_feed rf c a name G _ NT). cbn [obind feed_opt].
        rewrite (feed_read r g _ _ _ GR (rd_form _ RD) NE); [|reflexivity|cbn [ob_ref only_act]; rewrite EA; reflexivity]. cbn [obind ob_result app]. unfold found_at. repeat f_equal; lens.
      + intros G. destruct (replaces known e _ (mkGBlock G st (Some g) None) (utf8_len (b ++ sp) + 1 + utf8_len s) I) as (o' & YE). exists o'. eapply r_bind; [exact R|]. rewrite <- utf8_len_app. apply r_y. unfold block_rest. apply y_alt1.
        eapply y_bind; [apply y_sk_sp; [|exact Y]|exact YE]. destruct O as [(v & E & W & _) _ _]. apply app_inv_head in E as ->. exact W.
    - assert (NE : lower_parts r <> []) by now apply inserted_parts in IP. destruct (under_act r a (rd_form _ RD) EA NE) as (y & ps & EX & _).
      pose proof (opens_gap c r a gap s e RD EA IP) as O. destruct (r_inside rf c roman whole p sp _ _ P WE O) as ((st & R & SP) & AA). split; [exact AA|].
      destruct (ins_phrase known r a y gap s e (utf8_len (b ++ sp)) RD EA EX IP I) as (gi & g & Y & SM & GR & NR).
      exists st, None, (Some gi). split; [exact SP|]. split.
      + split; [reflexivity|]. split; [apply (one_position r a); [apply RD|exact EA|exact NE|reflexivity]|]. intros name G o st' NT. unfold block_references. cbn [gb_act gb_amended gb_inserted]. rewrite (name_feed rf c a name G _ NT). cbn [obind feed_opt]. rewrite (same_feed gi g _ SM).
        rewrite (feed_read r g _ _ _ GR (rd_form _ RD) NE); [|reflexivity|cbn [ob_ref only_act]; rewrite EA; reflexivity]. cbn [obind ob_result app]. unfold found_at. repeat f_equal; lens.
      + intros G. destruct (inserts known e _ (mkGBlock G st None (Some gi)) (utf8_len (b ++ sp) + utf8_len (gap ++ s)) I) as (o' & YE). exists o'. eapply r_bind; [exact R|]. rewrite <- utf8_len_app. apply r_y. unfold block_rest.
        apply y_alt2; [apply NR|]. apply y_alt1. eapply y_bind; [exact Y|exact YE].
    - assert (NE : lower_parts r <> []) by (intros E; rewrite E in SE; now apply ended_nil in SE). assert (NE' : lower_parts r' <> []) by now apply inserted_parts in IP.
      destruct (under_act r a (rd_form _ RD) EA NE) as (y & ps & EX & _). destruct (under_act r' a (rd_form _ RD') EA' NE') as (y' & ps' & EX' & _).
      set (u := j ++ n ++ sp' ++ gap ++ s' ++ e') in *. pose proof (ending_words e I) as IW.
      pose proof (opens_said c r a (lower_parts r) s (e ++ u) RD EA NE (ex_intro _ [] (eq_sym (app_nil_r _))) SE) as O.
      destruct (r_inside rf c roman whole p sp _ _ P WE O) as ((st & R & SP) & AA). split; [exact AA|]. pose proof (replacing_on c e u IW) as GO.
      destruct (y_reference_then known r s (utf8_len (b ++ sp) + 1) (e ++ u) RD SE (go_ref _ _ GO)) as (g & Y & GR).
      assert (W : quiet is_ascii_ws (s ++ e ++ u)) by (destruct O as [(v & E & W & _) _ _]; apply app_inv_head in E as ->; exact W).
      set (o1 := utf8_len (b ++ sp) + 1 + utf8_len s) in *. pose proof (y_replacing c e u o1 IW) as YS.
      assert (OE : utf8_len (b ++ sp ++ lit " " ++ s ++ e ++ j ++ n ++ sp') = o1 + utf8_len e + utf8_len j + utf8_len n + utf8_len sp') by (unfold o1; lens).
      destruct (ins_phrase known r' a y' gap s' e' (o1 + utf8_len e + utf8_len j + utf8_len n + utf8_len sp') RD' EA' EX' IP I') as (gi & g' & Y' & SM & GR' & _).
      assert (P' : place whole (o1 + utf8_len e + utf8_len j + utf8_len n) (sp' ++ gap ++ s' ++ e')).
      { destruct P as (w & EW & LW). exists (w ++ sp ++ lit " " ++ s ++ e ++ j ++ n). split; [rewrite EW; unfold u; now rewrite <- !app_assoc|]. unfold o1. rewrite !utf8_len_app in *. change (utf8_len (lit " ")) with 1. lia. }
      destruct (r_inside_again whole p sp' _ _ P' WE' (opens_gap c r' a gap s' e' RD' EA' IP)) as ((st' & R') & AA').
      destruct (again_reads a _ n (o1 + utf8_len e + utf8_len j) NA AA') as (yn & YN).
      pose proof (junk_ends a n p sp' r' gap s' e' NA WE' RD' EA' IP) as JE.
      exists st, (Some g), (Some gi). split; [exact SP|]. split.
      + split; [reflexivity|]. split; [apply position_spec; [apply Forall_cons; [apply RD|apply Forall_cons; [apply RD'|apply Forall_nil]]|exact AP]|]. intros name G o st2 NT. unfold block_references. cbn [gb_act gb_amended gb_inserted]. rewrite (name_feed rf c a name G _ NT). cbn [obind feed_opt].
        rewrite (feed_read r g _ _ _ GR (rd_form _ RD) NE); [|reflexivity|cbn [ob_ref only_act]; rewrite EA; reflexivity]. cbn [obind]. rewrite (same_feed gi g' _ SM). 
        pose proof (resumed r a r' y' EA EA' EX') as ER. rewrite (feed_resumed r r' g' _ _ _ GR' NE'); [|rewrite ER; apply RD'|reflexivity|reflexivity]. rewrite ER. cbn [obind ob_result app]. unfold found_at, o1. repeat f_equal; lens.
      + intros G. destruct (inserts known e' _ (mkGBlock G st (Some g) (Some gi)) (o1 + utf8_len e + utf8_len j + utf8_len n + utf8_len sp' + utf8_len (gap ++ s')) I') as (o' & YE). exists o'. eapply r_bind; [exact R|]. rewrite <- utf8_len_app.
        assert (YR : yields (sk g_reference) (utf8_len (b ++ sp)) (lit " " ++ s ++ e ++ u) g o1 (e ++ u)) by (apply y_sk_sp; [exact W|exact Y]).
        assert (JN : exists c0 w, In c0 [[]; lit ","] /\ words_joined w /\ w <> [] /\ j = c0 ++ w) by (destruct J as [c0 w I0 WJ NW]; eauto 6). destruct JN as (c0 & w & I0 & WJ & NW & EJ).
        unfold block_rest. apply r_alt2; [|apply r_alt2].
        * apply x_f. eapply f_bind2; [exact YR|]. eapply f_bind2; [exact YS|]. apply f_bind1. unfold u. rewrite EJ. clear - I0 WJ NW. destruct WJ as [|w s0 IW _]; [congruence|]. rewrite <- !app_assoc. cbn [In] in I0.
          destruct I0 as [<-|[<-|[]]]; [|here]. unfold joining_words in IW. cbn [map In] in IW. repeat (destruct IW as [<-|IW]; [here|]). contradiction.
        * apply x_f, f_bind1, f_sk_sp; [exact W|]. now apply (not_inserted c r y).
        * eapply r_bind; [apply r_y, YR|]. eapply r_bind; [apply r_y, YS|].
          assert (YC : exists q, yields (opt (T ",")) (o1 + utf8_len e) u q (o1 + utf8_len e + utf8_len c0) (w ++ n ++ sp' ++ gap ++ s' ++ e')).
          { unfold u. rewrite EJ, <- !app_assoc. cbn [In] in I0. destruct I0 as [<-|[<-|[]]].
            - exists None. cbn [app]. change (utf8_len []) with 0. rewrite N.add_0_r. apply y_none. clear - WJ NW. destruct WJ as [|w s0 IW _]; [congruence|]. rewrite <- !app_assoc.
              unfold joining_words in IW. cbn [map In] in IW. repeat (destruct IW as [<-|IW]; [here|]). contradiction.
            - exists (Some tt). apply y_some, y_T. reflexivity. }
          destruct YC as (q & YC). eapply r_bind; [apply r_y, YC|]. eapply r_bind; [apply r_y, (y_junk c w _ WJ NW JE)|].
          replace (o1 + utf8_len e + utf8_len c0 + utf8_len w) with (o1 + utf8_len e + utf8_len j) by (rewrite EJ; lens).
          eapply r_bind; [apply r_y, YN|]. eapply r_bind; [exact R'|]. eapply r_bind; [apply r_y, Y'|]. apply r_y, YE.
  Qed.
  Lemma block_last a b p x i l s : block_change m a b p x i l s -> exists s', s = s' ++ [58].
  Proof.
    assert (K : forall p e, (exists e', e = e' ++ [58]) -> exists s', p ++ e = s' ++ [58]) by (intros p0 e (e' & ->); exists (p0 ++ e'); now rewrite app_assoc).
    intros H. destruct H; repeat apply K; auto using last_of_insertion, last_of_replacement.
  Qed.
  Lemma block_within a b p x i l s : block_change m a b p x i l s -> Forall (fun y => utf8_len b <= o_end y <= utf8_len (b ++ s)) l.
  Proof. intros H. destruct H; repeat (apply Forall_cons; [cbn [found_at o_end]; rewrite !utf8_len_app; lia|]); apply Forall_nil. Qed.
  Lemma converted x p i a l am ins st name G o : block_facts a x i l am ins -> opt_ok (struct_parent_of rf) st = Ok p -> name_tree rf c a name G ->
    convert_block_amendment rf c (mkGBlock (G o) st am ins) = Ok (amendment_in p x i).
  Proof.
    intros (EI & EP & ER) SP NT. unfold convert_block_amendment. rewrite (ER name G o st NT). cbn [obind map o_ref gb_parent gb_amended].
    assert (EF : filter (fun r => negb (is_act_only r)) (only_act a :: map o_ref l) = filter (fun r => negb (is_act_only r)) (map o_ref l)) by reflexivity. rewrite EF. cbn zeta.
    unfold position_of in EP. cbn zeta in EP. destruct (fold1 ref_min _) as [f|]; [|discriminate]. destruct (fold1 ref_max _) as [e|]; [|discriminate]. cbn [ok_or obind] in *. rewrite EP. cbn [obind]. rewrite SP, EI. cbn [obind].
    unfold amendment_in, get_last_part, lower_parts. destruct (f_article x), (f_paragraph x), (f_point x), (f_subpoint x); cbn [app]; try reflexivity; destruct (f_act x); reflexivity.
  Qed.
  Lemma block_sentence_read pre post a s info : top pre = [] -> top post = [] -> block_sentence m a s info ->
    extract_semantic_info rf grammar_parse s (mkAdder pre post c) = (mkAdder pre post c, Ok info).
  Proof.
    intros P1 P2 [az title name p x i l s' IZ NM H]. set (whole := az ++ title ++ name ++ s').
    assert (P : place whole (utf8_len (az ++ title ++ name)) s') by (exists (az ++ title ++ name); unfold whole; rewrite <- !app_assoc; auto).
    destruct (block_reads whole a _ p x i l s' H P) as [AA (st & am & ins & SP & BF & RD)]. destruct (y_name rf c roman a s' title name NM AA) as (WN & G & NT & YG).
    assert (PL : place whole (utf8_len az) (title ++ name ++ s')) by (exists az; auto).
    assert (EO : utf8_len az + utf8_len title + utf8_len name = utf8_len (az ++ title ++ name)) by (rewrite !utf8_len_app; lia).
    assert (W0 : quiet is_ascii_ws whole). { unfold the in IZ. cbn [map In] in IZ. unfold whole. clear - IZ. repeat (destruct IZ as [<-|IZ]; [reflexivity|]). contradiction. }
    set (root := RBlock (mkGBlock (G (utf8_len (az ++ title))) st am ins)). destruct (RD (G (utf8_len (az ++ title)))) as (o' & RR).
    assert (E : grammar_parse whole known = Ok root).
    { assert (R : reads known whole g_root_rule 0 whole root o' []).
      { unfold g_root_rule. apply r_alt1. assert (EOI : yields (sk eoi) o' [] tt o' []) by (apply y_sk; [exact I|intros g' _; reflexivity]). eapply r_bind; [|eapply r_bind; [apply r_y, EOI|apply r_ret]]. apply r_sk; [exact W0|]. rewrite block_rest_is. eapply r_bind; [apply r_y, y_az, IZ|].
        eapply (start_reads rf c roman whole (utf8_len az) a s' title name G); auto. rewrite EO, <- utf8_len_app. exact RR. }
      destruct (R _ (fine_new known whole)) as (g' & E & _). unfold grammar_parse. now rewrite E. }
    pose proof (block_within _ _ _ _ _ _ _ H) as OW. destruct (block_last _ _ _ _ _ _ _ H) as (u & EU). 
    assert (LN : 0 < utf8_len name).
    { pose proof (name_some _ _ _ _ _ NM) as NE. clear - NE. destruct name as [|y n]; [congruence|]. change (y :: n) with ([y] ++ n). rewrite utf8_len_app. pose proof (char_takes y). lia. }
    unfold whole in *. clear whole. subst s'. rewrite !app_assoc in *. rewrite <- (app_assoc az title name), <- (app_assoc _ name u) in *.
    apply (sentence_read rf pre post c _ 58 root _ _ (or_intror eq_refl) P1 P2 E).
    - unfold get_new_abbreviations. unfold root. cbn [root_act_refs flat_map gb_act]. rewrite (nt_new _ _ _ _ _ NT). reflexivity.
    - unfold root. cbn [get_outgoing_references]. destruct BF as (_ & _ & BR). rewrite (BR name G _ st NT). unfold act_found. rewrite <- utf8_len_app. reflexivity.
    - apply Forall_cons; [|revert OW; apply Forall_impl; intros y]; rewrite !utf8_len_app; cbn [act_found o_end]; rewrite ?utf8_len_app; lia.
    - unfold root. cbn [extract_special_phrase]. rewrite (converted x p i a l am ins st name G _ BF SP NT). reflexivity.
  Qed.
End Run.
