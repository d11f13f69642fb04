(** Proofs for C80: ordinary sentences. *)
From Verif Require Export ProofSay34.
From Verif Require ProofGrammar ProofGrammar2.
From Coq Require Import Lia.
Local Open Scope peg_scope.
Local Open Scope N_scope.

Section Act.
  Variables (rf : str -> option Z) (c : cache).
  Hypothesis roman : roman_from_reads rf.
  Hypothesis named : forall b, ~ In ([], b) (ca_map c).
  Local Notation known := (all_abbreviations c).
  Local Notation yields := (yields known).
  Local Notation fails := (fails known).

  (** "2012. évi I. törvényben" *)
  Lemma y_act_ended a sa e o t : (0 <= act_year a)%Z -> act_show a = Ok sa -> forallb is_hun_lower e = true -> quiet is_hun_lower t -> (forall o, fails (T "(") o t) ->
    exists y n, yields act_reference o ((sa ++ e) ++ t) (GActId (mkGNow (mkGAct y n (ModelSem.mkPos o (o + utf8_len (sa ++ e)))) None)) (o + utf8_len (sa ++ e)) t /\
      y = show_Z (act_year a) /\ roman_to (act_number a) = Some n /\ quiet is_ascii_ws ((sa ++ e) ++ t).
  Proof.
    intros Y E FE Q P. unfold act_show in E. destruct (roman_to (act_number a)) as [rn|] eqn:R; [|discriminate].
    assert (E' : sa = show_Z (act_year a) ++ lit ". évi " ++ rn ++ lit ". törvény") by congruence. subst sa. clear E. exists (show_Z (act_year a)), rn.
    assert (RN : forallb is_roman_digit rn = true /\ rn <> []).
    { rewrite roman_to_spec in R. destruct ((1 <=? act_number a) && (act_number a <=? 3999))%Z eqn:Z; [|discriminate]. injection R as <-. apply andb_true_iff in Z. apply roman_standard_digits. lia. }
    destruct RN as [RN1 RN2]. rewrite show_Z_pos by exact Y. set (yy := show_N (Z.to_N (act_year a))) in *.
    assert (W : forall u, quiet is_ascii_ws (yy ++ u)) by (intros u; apply quiet_ws_number).
    split; [|split; [reflexivity|split; [reflexivity|rewrite <- !app_assoc; apply W]]].
    unfold act_reference. apply y_alt1. rewrite <- !app_assoc. eapply y_bind; [apply y_sk; [apply W|]|apply y_ret].
    set (sa := yy ++ lit ". évi " ++ rn ++ lit ". törvény" ++ e).
    assert (YA : yields (sk g_act_id_rule) o (yy ++ lit ". évi " ++ rn ++ lit ". törvény" ++ e ++ t) (mkGAct yy rn (ModelSem.mkPos o (o + utf8_len sa))) (o + utf8_len sa) t).
    { apply y_sk; [apply W|]. unfold g_act_id_rule. eapply (y_located known _ _ _ (mkGAct yy rn)).
      eapply y_bind; [apply y_sk; [apply W|apply y_number; reflexivity]|].
      change (lit ". évi " ++ rn ++ lit ". törvény" ++ e ++ t) with (lit "." ++ lit " " ++ lit "évi" ++ lit " " ++ rn ++ lit "." ++ lit " " ++ lit "törvény" ++ e ++ t).
      eapply y_bind; [apply y_T; reflexivity|]. eapply y_bind; [apply y_T_sp; reflexivity|].
      assert (QR : quiet is_ascii_ws (rn ++ lit "." ++ lit " " ++ lit "törvény" ++ e ++ t)).
      { destruct rn as [|c1 rn']; [congruence|]. cbn in *. apply andb_true_iff in RN1 as [RN1 _]. unfold is_roman_digit in RN1. apply existsb_exists in RN1 as (x & I & E). apply N.eqb_eq in E as ->.
        change (lit "IVXLCDM") with [73; 86; 88; 76; 67; 68; 77] in I. cbn [In] in I. repeat (destruct I as [<-|I]; [reflexivity|]). contradiction. }
      destruct (y_many1_chars known (fun c => existsb (N.eqb c) roman_chars) rn (o + utf8_len yy + utf8_len (lit ".") + 1 + utf8_len (lit "évi") + 1) (lit "." ++ lit " " ++ lit "törvény" ++ e ++ t) RN2 RN1 eq_refl) as [l YR].
      eapply y_bind; [apply y_sk_sp; [exact QR|unfold g_roman; eapply y_sliced; exact YR]|].
      eapply y_bind; [apply y_T; reflexivity|]. eapply y_bind.
      - apply y_sk_sp; [reflexivity|]. unfold act_suffix. apply y_alt1. change (lit "törvény" ++ e ++ t) with (lit "törvén" ++ (lit "y" ++ e) ++ t). eapply y_bind; [apply y_tok|].
        destruct (y_many1_chars known is_hun_lower (lit "y" ++ e) (o + utf8_len yy + utf8_len (lit ".") + 1 + utf8_len (lit "évi") + 1 + utf8_len rn + utf8_len (lit ".") + 1 + utf8_len (lit "törvén")) t ltac:(discriminate)) as [l' YS];
          [rewrite forallb_app, FE; reflexivity|exact Q|].
        eapply y_void. exact YS.
      - eapply y_eq; [apply y_ret|]. unfold sa. rewrite !utf8_len_app. change (utf8_len (lit ". évi ")) with 7. change (utf8_len (lit ". törvény")) with 11.
        change (utf8_len (lit ".")) with 1. change (utf8_len (lit "évi")) with 4. change (utf8_len (lit "törvén")) with 8. change (utf8_len (lit "y")) with 1. lia. }
    fold sa. unfold act_id_with_from_now_on. apply y_checked. eapply y_bind; [exact YA|]. eapply y_bind; [apply y_none, f_bind1, P|]. apply y_ret.
  Qed.
  Lemma y_said a rest x : act_said (ca_map c) a rest x -> quiet is_ascii_ws (x ++ rest) /\ x <> [] /\ quiet (N.eqb 8222) (x ++ rest) /\
    exists G, name_tree rf c a x G /\ forall o, yields act_reference o (x ++ rest) (G o) (o + utf8_len x) rest.
  Proof.
    intros [name e OK Y S E NS NP|ch k ND NW NQ I U F].
    - assert (QL : quiet is_hun_lower rest).
      { apply (no_start _ small_letter); [|exact NS]. intros ch H. unfold is_hun_lower, in_range in H. rewrite orb_true_iff, andb_true_iff, !N.leb_le, existsb_exists in H. destruct H as [H|(z & I & E1)]; [now left|]. apply N.eqb_eq in E1. subst z. right. exact I. }
      assert (YA := fun o => y_act_ended a name e o rest Y S (smalls e E) QL (fun o1 => f_T_ahead known "(" 40 [] _ rest o1 NP eq_refl (fun K => K eq_refl))).
      destruct (YA 0) as (y & n & _ & EY & EN & W). assert (ST : exists u, name = show_N (Z.to_N (act_year a)) ++ u).
      { unfold act_show in S. rewrite EN in S. assert (S' : name = show_Z (act_year a) ++ lit ". évi " ++ n ++ lit ". törvény") by congruence. rewrite show_Z_pos in S' by exact Y. eauto. }
      destruct ST as (u & ST). split; [exact W|]. split; [rewrite ST; intros K; apply app_eq_nil in K as [K _]; apply app_eq_nil in K as [K _]; revert K; apply show_N_nonempty|].
      split; [rewrite ST, <- !app_assoc; apply quiet_digits; intros ch H; apply ProofSay4.digit_cases in H; cbn [In] in H; repeat (destruct H as [<-|H]; [reflexivity|]); contradiction|].
      exists (fun o => GActId (mkGNow (mkGAct y n (ModelSem.mkPos o (o + utf8_len (name ++ e)))) None)). split.
      + constructor; intros o; [apply (act_ref_back rf a y n (ModelSem.mkPos o (o + utf8_len (name ++ e))) roman OK EY EN)|reflexivity|reflexivity].
      + intros o. destruct (YA o) as (y' & n' & YY & EY' & EN' & _). rewrite EN' in EN. injection EN as ->. rewrite EY' in YY. rewrite EY. exact YY.
    - assert (W : forall t, quiet is_ascii_ws ((ch :: k) ++ t)) by (intros t; now apply not_white). split; [apply W|]. split; [discriminate|]. split; [cbn; apply N.eqb_neq; intros <-; now apply NQ|].
      exists (fun o => GAbbrev (ch :: k) (ModelSem.mkPos o (o + utf8_len (ch :: k)))). split.
      + constructor; intros o; [|reflexivity|reflexivity]. cbn. unfold cache_resolve. now rewrite (ProofSay3.map_get_in (ch :: k) a).
      + intros o. unfold act_reference. apply y_alt2.
        * apply f_bind1, f_sk; [apply W|]. apply f_act_id_now; [apply W|]. intros o1. apply f_act_other; [apply W|]. now apply not_digit.
        * apply y_sk; [apply W|]. unfold g_abbreviation. eapply (y_located known _ _ _ (GAbbrev (ch :: k))). eapply y_bind; [apply y_sk; [apply W|]|apply y_ret].
          intros g EG. unfold abbreviation_content. cbn [cu_rest]. rewrite EG. unfold all_abbreviations.
          rewrite (known_first _ (ch :: k)).
          -- unfold advance. cbn [cu_off]. rewrite skipn_app, skipn_all, Nat.sub_diag. reflexivity.
          -- apply in_map_iff. exists (ch :: k, a). auto.
          -- now exists rest.
          -- intros k' I' B'. apply in_map_iff in I' as ([k2 b] & <- & I'). now apply (F k2 b).
  Qed.
  Lemma unknown_at t : not_known (ca_map c) t -> forall k, In k known -> ~ begins_with k t.
  Proof. intros N k I. apply in_map_iff in I as ((k' & b) & <- & I). exact (N k' b I). Qed.
  Lemma f_nothing_left o : fails any_simple_expression o [].
  Proof.
    unfold any_simple_expression. apply f_alt; [apply f_bind1, f_sk; [exact I|]; apply f_bind1, f_T_nil; discriminate|].
    apply f_alt; [|apply f_alt].
    - apply f_bind1, f_sk; [exact I|]. apply f_compound; [exact I|intros o1; apply f_act_other; exact I| |constructor].
      intros k J (b & E). symmetry in E. apply app_eq_nil in E as [-> _]. apply in_map_iff in J as ((k' & b') & E & J). cbn in E. subst k'. exact (named b' J).
    - apply f_bind1. apply (no_ref_kinds known [] [] o lead_none nr_end).
    - apply f_bind1, f_sk; [exact I|]. unfold any_token. apply f_alt; [|apply f_alt].
      + apply f_sk; [exact I|]. apply f_bind1, f_many1, f_chr. exact I.
      + apply f_void, f_sk; [exact I|]. now apply f_number.
      + apply f_sk; [exact I|]. apply f_chr. exact I.
  Qed.
  (** ** The pieces one after the other *)
  Record taken (gs : list g_simple) (l : list out_ref) : Prop := {
    tk_refs : exists ls, map_ok (simple_references rf c) gs = Ok ls /\ List.concat ls = l; tk_new : flat_map (new_abbreviation rf) (flat_map simple_act_ref gs) = [] }.
  Definition rest_read (o0 : N) (g t : str) (l : list out_ref) : Prop :=
    exists gs o' w, lead w /\ yields (many (sk any_simple_expression)) o0 (g ++ t) gs o' w /\ (t <> [] -> yields list_of_simple_expressions o0 (g ++ t) gs o' w) /\ taken gs l.
  Lemma piece_read x g1 t1 v l1 l2 o : quiet is_ascii_ws (x ++ g1 ++ t1) -> x <> [] -> yields any_simple_expression o (x ++ g1 ++ t1) v (o + utf8_len x) (g1 ++ t1) -> simple_references rf c v = Ok l1 ->
    flat_map (new_abbreviation rf) (simple_act_ref v) = [] -> rest_read (o + utf8_len x) g1 t1 l2 -> forall o0 g, lead g -> o0 + utf8_len g = o -> rest_read o0 g (x ++ g1 ++ t1) (l1 ++ l2).
  Proof.
    intros W NE Y R N (gs & o' & w & L & YM & _ & [(ls & M & E) NW]) o0 g LG EO. exists (v :: gs), o', w. split; [exact L|].
    assert (Y1 : yields (sk any_simple_expression) o0 (g ++ x ++ g1 ++ t1) v (o + utf8_len x) (g1 ++ t1)) by (apply y_sk_lead; [exact LG|exact W|rewrite EO; exact Y]).
    split; [|split].
    - eapply y_many_cons; [|exact Y1|exact YM]. rewrite !app_length. destruct x; [congruence|cbn [List.length]; lia].
    - intros _. eapply y_bind; [exact Y1|]. eapply y_bind; [exact YM|apply y_ret].
    - constructor; [|cbn [flat_map]; rewrite flat_map_app, N; exact NW]. exists (l1 :: ls). cbn [map_ok]. rewrite R. cbn [obind]. rewrite M. cbn [obind List.concat]. now rewrite E.
  Qed.
  Lemma f_no_quote x u o : quiet is_ascii_ws (x ++ u) -> quiet (N.eqb 8222) (x ++ u) -> fails (sk g_quote ;; ret GOther) o (x ++ u).
  Proof. intros W Q. apply f_bind1, f_sk; [exact W|]. apply f_bind1. exact (f_T_lead known "„" 8222 [] [] o (x ++ u) lead_none W eq_refl Q). Qed.
  Lemma list_some p o s l : said_list p o s l -> s <> [].
  Proof.
    assert (K : forall p w s, mentioned p w s -> s <> []) by (intros p' w s' [_ _ C _] ->; apply ended_long in C; cbn in C; lia).
    intros [p' o' w s' M|p' o' w s' sep rest l' M _ _]; [exact (K _ _ _ M)|]. intros E. apply app_eq_nil in E as [E _]. exact (K _ _ _ M E).
  Qed.
  Lemma y_refs o s l u : said_list no_reference o s l -> not_known (ca_map c) (s ++ u) -> list_over u ->
    exists v, quiet is_ascii_ws (s ++ u) /\ s <> [] /\ yields any_simple_expression o (s ++ u) v (o + utf8_len s) u /\ simple_references rf c v = Ok l /\ flat_map (new_abbreviation rf) (simple_act_ref v) = [].
  Proof.
    intros SL NK LO. destruct (over_after known u LO) as [AR MR]. destruct (list_begins known _ _ _ _ SL u) as [BG PF]. pose proof (begins_ws _ BG) as W.
    pose proof (list_some _ _ _ _ SL) as NE.
    assert (QQ : quiet (N.eqb 8222) (s ++ u)) by (apply begins_quiet; [exact BG|..]; intros; rewrite ?N.eqb_neq; unfold is_digit, in_range in *; rewrite ?andb_true_iff, ?N.leb_le in *; lia).
    assert (AC : forall o, fails g_act_id_rule o (s ++ u)).
    { intros o1. assert (E : exists w s' v, readable_ref w /\ lower_parts w <> [] /\ said_ended (lower_parts w) s' /\ s ++ u = s' ++ v).
      { destruct SL as [p' o' w s' [A B C D]|p' o' w s' sep rest l' [A B C D] I _]; exists w, s'; eexists; (split; [exact A|]); (split; [intros E; rewrite E in C; now apply ended_nil in C|]); (split; [exact C|]); [reflexivity|now rewrite <- app_assoc]. }
      destruct E as (w & s' & v & A & _ & C & ->). pose proof (parts_good w A) as PG. exact (proj2 (ended_begins known _ _ v o1 PG C)). }
    destruct (y_list known _ _ _ _ SL o [] u lead_none (N.add_0_r o) AR MR) as (t & ts & o1 & u1 & Y1 & Y2 & _ & FD). cbn [app] in Y1.
    exists (GCompound (mkGComp None (t :: ts))). split; [exact W|]. split; [exact NE|]. split; [|split; [|reflexivity]].
    - unfold any_simple_expression. apply y_alt2; [now apply f_no_quote|]. apply y_alt1. eapply y_bind; [apply y_sk; [exact W|]|apply y_ret]. unfold compound_reference. apply y_alt1.
      eapply y_bind; [apply y_none, f_sk; [exact W|]; apply f_act_none; [exact W|exact AC|now apply unknown_at]|]. eapply y_bind; [exact Y1|]. eapply y_bind; [exact Y2|apply y_ret].
    - destruct (fed_out _ _ _ FD ob_new eq_refl eq_refl) as (b & B1 & B2). cbn [simple_references]. unfold compound_references. cbn [gc_act gc_refs feed_opt obind]. rewrite B1. cbn [obind]. rewrite B2. reflexivity.
  Qed.
  Lemma y_act_alone o a x u : act_said (ca_map c) a u x -> no_ref_after u ->
    exists v, quiet is_ascii_ws (x ++ u) /\ x <> [] /\ yields any_simple_expression o (x ++ u) v (o + utf8_len x) u /\ simple_references rf c v = Ok [mkOut o (o + utf8_len x) (only_act a)] /\ flat_map (new_abbreviation rf) (simple_act_ref v) = [].
  Proof.
    intros S NR. destruct (y_said a u x S) as (W & NE & QQ & G & NT & Y). exists (GCompound (mkGComp (Some (G o)) [])). split; [exact W|]. split; [exact NE|]. split; [|split].
    - unfold any_simple_expression. apply y_alt2; [now apply f_no_quote|]. apply y_alt1. eapply y_bind; [apply y_sk; [exact W|]|apply y_ret]. unfold compound_reference. apply y_alt2.
      + eapply f_bind2; [apply y_some, y_sk; [exact W|apply Y]|]. apply f_bind1. destruct NR as [r N|r _ N]; [apply (no_ref_kinds known [] r _ lead_none N)|apply (no_ref_kinds known (lit " ") r _ lead_space N)].
      + eapply y_bind; [apply y_sk; [exact W|apply Y]|apply y_ret].
    - cbn [simple_references]. unfold compound_references. cbn [gc_act gc_refs feed_opt]. rewrite (name_feed rf c a x G o NT). reflexivity.
    - cbn [simple_act_ref gc_act flat_map]. now rewrite (nt_new _ _ _ _ _ NT o).
  Qed.
  Lemma y_act_refs o a x s l u : act_said (ca_map c) a (lit " " ++ s ++ u) x -> said_list (only_act a) (o + utf8_len (x ++ lit " ")) s l -> list_over u ->
    exists v, quiet is_ascii_ws (x ++ lit " " ++ s ++ u) /\ x <> [] /\ yields any_simple_expression o (x ++ lit " " ++ s ++ u) v (o + utf8_len (x ++ lit " " ++ s)) u /\
      simple_references rf c v = Ok (mkOut o (o + utf8_len x) (only_act a) :: l) /\ flat_map (new_abbreviation rf) (simple_act_ref v) = [].
  Proof.
    intros S SL LO. destruct (over_after known u LO) as [AR MR]. destruct (y_said a _ x S) as (W & NE & QQ & G & NT & Y).
    destruct (y_list known _ _ _ _ SL (o + utf8_len x) (lit " ") u lead_space ltac:(rewrite utf8_len_app; lia) AR MR) as (t & ts & o1 & u1 & Y1 & Y2 & _ & FD).
    exists (GCompound (mkGComp (Some (G o)) (t :: ts))). split; [exact W|]. split; [exact NE|]. split; [|split].
    - unfold any_simple_expression. apply y_alt2; [now apply f_no_quote|]. apply y_alt1. eapply y_bind; [apply y_sk; [exact W|]|apply y_ret]. unfold compound_reference. apply y_alt1.
      eapply y_bind; [apply y_some, y_sk; [exact W|apply Y]|]. eapply y_bind; [exact Y1|]. eapply y_bind; [exact Y2|]. eapply y_eq; [apply y_ret|]. rewrite !utf8_len_app. lia.
    - cbn [simple_references]. unfold compound_references. cbn [gc_act gc_refs feed_opt]. rewrite (name_feed rf c a x G o NT). cbn [obind].
      destruct (fed_out _ _ _ FD (mkOb (only_act a) [mkOut o (o + utf8_len x) (only_act a)] None (o + utf8_len x)) eq_refl eq_refl) as (b & B1 & B2). rewrite B1. cbn [obind]. rewrite B2. reflexivity.
    - cbn [simple_act_ref gc_act flat_map]. now rewrite (nt_new _ _ _ _ _ NT o).
  Qed.
  Lemma gap_lead g t : gap g t -> lead g /\ quiet is_ascii_ws t.
  Proof. intros [G W]. split; [exact G|]. apply (no_start is_ascii_ws white); [apply white_is|exact W]. Qed.
  Lemma y_prose o t l : prose (ca_map c) o t l -> forall o0 g, lead g -> o0 + utf8_len g = o -> rest_read o0 g t l.
  Proof.
    induction 1 as [o|o x g t l P NK GP PR IH|o s l g t l' SL NK LO GP PR IH|o a x g t l S NR GP PR IH|o a x s l g t l' S SL LO GP PR IH]; intros o0 g0 L0 E0.
    - exists [], o0, (g0 ++ []). split; [rewrite app_nil_r; exact L0|]. split; [|split; [congruence|constructor; [exists []; split; reflexivity|reflexivity]]]. apply y_many_nil, f_sk_lead; [exact L0|exact I|]. intros o1. apply f_nothing_left.
    - destruct (gap_lead _ _ GP) as [LG _]. destruct (y_other known x (g ++ t) P (unknown_at _ NK)) as (W & NE & Y). change l with ([] ++ l).
      apply (piece_read x g t GOther [] l o W NE (Y o) eq_refl eq_refl); [|exact L0|exact E0]. apply IH; [exact LG|]. rewrite utf8_len_app. lia.
    - destruct (gap_lead _ _ GP) as [LG _]. destruct (y_refs o s l (g ++ t) SL NK LO) as (v & W & NE & Y & R & N).
      apply (piece_read s g t v l l' o W NE Y R N); [|exact L0|exact E0]. apply IH; [exact LG|]. rewrite utf8_len_app. lia.
    - destruct (gap_lead _ _ GP) as [LG _]. destruct (y_act_alone o a x (g ++ t) S NR) as (v & W & NE & Y & R & N).
      apply (piece_read x g t v [mkOut o (o + utf8_len x) (only_act a)] l o W NE Y R N); [|exact L0|exact E0]. apply IH; [exact LG|]. rewrite utf8_len_app. lia.
    - destruct (gap_lead _ _ GP) as [LG _]. destruct (y_act_refs o a x s l (g ++ t) S SL LO) as (v & W & NE & Y & R & N).
      change (mkOut o (o + utf8_len x) (only_act a) :: l ++ l') with ((mkOut o (o + utf8_len x) (only_act a) :: l) ++ l'). replace (x ++ lit " " ++ s ++ g ++ t) with ((x ++ lit " " ++ s) ++ g ++ t) in * by now rewrite <- !app_assoc.
      apply (piece_read (x ++ lit " " ++ s) g t v _ l' o W); [intros K; now apply app_eq_nil in K|exact Y|exact R|exact N| |exact L0|exact E0]. apply IH; [exact LG|]. rewrite !utf8_len_app. lia.
  Qed.
  Lemma prose_quiet o t l : prose (ca_map c) o t l -> quiet is_ascii_ws t.
  Proof.
    intros [o'|o' x g u l' P NK GP PR|o' s l' g u l2 SL NK LO GP PR|o' a x g u l' S NR GP PR|o' a x s l' g u l2 S SL LO GP PR].
    - exact I.
    - apply (y_other known x (g ++ u) P (unknown_at _ NK)).
    - exact (begins_ws _ (proj1 (list_begins known _ _ _ _ SL (g ++ u)))).
    - apply (y_said _ _ _ S).
    - apply (y_said _ _ _ S).
  Qed.
  Lemma prose_within o t l : prose (ca_map c) o t l -> Forall (fun r => 0 < o_end r <= o + utf8_len t) l.
  Proof.
    assert (K : forall x : str, x <> [] -> 0 < utf8_len x) by (intros [|ch x] NE; [congruence|]; change (ch :: x) with ([ch] ++ x); rewrite utf8_len_app; pose proof (char_takes ch); lia).
    induction 1 as [o|o x g t l P NK GP PR IH|o s l g t l' SL NK LO GP PR IH|o a x g t l S NR GP PR IH|o a x s l g t l' S SL LO GP PR IH].
    - constructor.
    - eapply Forall_impl; [|exact IH]. cbn beta. intros r H. rewrite !utf8_len_app in *. lia.
    - apply Forall_app. split; [eapply Forall_impl; [|exact (list_within _ _ _ _ SL)]|eapply Forall_impl; [|exact IH]]; cbn beta; intros r H; rewrite !utf8_len_app in *; lia.
    - destruct (y_said _ _ _ S) as (_ & NE & _). apply K in NE. constructor; [cbn [o_end]; rewrite !utf8_len_app; lia|]. eapply Forall_impl; [|exact IH]. cbn beta. intros r H. rewrite !utf8_len_app in *. lia.
    - destruct (y_said _ _ _ S) as (_ & NE & _). apply K in NE. constructor; [cbn [o_end]; rewrite !utf8_len_app; lia|].
      apply Forall_app. split; [eapply Forall_impl; [|exact (list_within _ _ _ _ SL)]|eapply Forall_impl; [|exact IH]]; cbn beta; intros r H; rewrite !utf8_len_app in *; lia.
  Qed.

  (** ** The whole sentence *)
  Section Root.
    Variable txt : str.
    Hypothesis plain : ordinary txt.
    Local Notation ginv := (ProofGrammar.ginv txt (SpecGrammar.known_word txt known) known (exists s, introduces txt s) (SpecGrammar.struct_words txt)).
    Lemma still_known g : ginv g -> gl_known g = known.
    Proof.
      intros ((_ & [E|(s & pre & sx & u & u1 & u2 & v & colon & w & post & E & _)] & _) & _); [exact E|]. exfalso. apply (or_new _ plain).
      exists (pre ++ sx ++ u ++ lit "(" ++ u1 ++ lit "a" ++ u2). eexists. rewrite <- !app_assoc. exact E.
    Qed.
    Lemma not_repeal o : quiet is_ascii_ws txt -> fails (sk g_repeal_rule) o txt.
    Proof.
      intros W. apply f_sk; [exact W|]. apply f_bind1. cbn [one_of_sk]. apply f_alt; [apply f_T; [exact W|]|apply f_alt; [apply f_T; [exact W|]|apply f_alt; [apply f_T; [exact W|]|intros g _; reflexivity]]].
      - destruct (strip_prefix (lit "Nem lép hatályba") txt) as [b|] eqn:E; [|reflexivity]. exfalso. apply strip_prefix_some in E. apply (or_force _ plain). exists (lit "Nem "), b. rewrite E. reflexivity.
      - destruct (strip_prefix (lit "Hatályát veszti") txt) as [b|] eqn:E; [|reflexivity]. exfalso. apply strip_prefix_some in E. apply (or_repeal _ plain). exists (lit "ti" ++ b). rewrite E. reflexivity.
      - destruct (strip_prefix (lit "Hatályát veszíti") txt) as [b|] eqn:E; [|reflexivity]. exfalso. apply strip_prefix_some in E. apply (or_repeal _ plain). exists (lit "íti" ++ b). rewrite E. reflexivity.
    Qed.
    Lemma prose_root l : txt <> [] -> prose (ca_map c) 0 txt l -> exists gs, grammar_parse txt known = Ok (RList gs) /\ taken gs l.
    Proof.
      intros NE PR. pose proof (prose_quiet _ _ _ PR) as W. destruct (y_prose _ _ _ PR 0 [] lead_none eq_refl) as (gs & o' & w & LW & _ & YM & TK). specialize (YM NE). cbn [app] in YM. exists gs. split; [|exact TK].
      unfold grammar_parse, g_root_rule.
      assert (G0 : ginv (mkGlob known [] [])).
      { split; [split; [|split; [now left|apply incl_refl]]|split; constructor]. cbn [gl_known]. apply Forall_forall. intros k J. split; [|now left]. intros ->. apply in_map_iff in J as ((k' & b') & E & J). cbn in E. subst k'. exact (named b' J). }
      assert (NC : forall u k v w, In k ProofGrammar2.amending -> txt = u ++ k ++ v ++ lit ":" ++ w -> spaces v -> spaces w -> False).
      { assert (K : forall k, In k ProofGrammar2.amending -> exists a k', In k' amending_ends /\ k = a ++ k').
        { intros k J. unfold ProofGrammar2.amending in J. cbn [map In] in J. unfold amending_ends. cbn [map In].
          repeat (destruct J as [<-|J]; [first [now (exists (lit "rendelkezés "), (lit "lép"); split; [tauto|reflexivity])|now (exists (lit "rendelkezések "), (lit "lépnek"); split; [tauto|reflexivity])
            |now (exists (lit "szöveggel "), (lit "lép hatályba"); split; [tauto|reflexivity])|now (exists (lit "szerint "), (lit "módosul"); split; [tauto|reflexivity])
            |now (exists (lit "kiegészülve "), (lit "lép hatályba"); split; [tauto|reflexivity])|now (eexists [], _; split; [|reflexivity]; tauto)]|]). contradiction. }
        intros u k v w0 J E V W'. destruct (K k J) as (a & k' & J' & ->). apply (or_amendment _ plain (u ++ a) k' v w0 J'); [|exact V|exact W']. rewrite E, <- !app_assoc. reflexivity. }
      assert (ALT : forall (p q : parser g_root) g, (forall k, ProofGrammar.good txt (SpecGrammar.known_word txt known) known (exists s, introduces txt s) (SpecGrammar.struct_words txt) k p (fun _ _ _ => False)) -> ginv g ->
        exists g', ginv g' /\ (p <|> q) (mkCur 0 txt) g = q (mkCur 0 txt) g').
      { intros p q g H G. destruct (ProofGrammar2.refused txt known p H g G) as (g' & E & G'). exists g'. split; [exact G'|]. unfold alt. now rewrite E. }
      destruct (ALT _ ((x <- sk block_amendment_with_subtitle ;; sk eoi ;; ret (RBlockSubtitle x)) <|> (x <- sk block_amendment_structural ;; sk eoi ;; ret (RBlockStruct x))
        <|> (x <- sk g_text_amendment_rule ;; sk eoi ;; ret (RText x)) <|> (x <- sk enforcement_date ;; sk eoi ;; ret (REnforcement x))
        <|> (x <- sk g_repeal_rule ;; sk eoi ;; ret (RRepeal x)) <|> (x <- sk list_of_simple_expressions ;; sk eoi ;; ret (RList x))) _
        (ProofGrammar2.z_end txt known block_amendment RBlock (ProofGrammar2.z_block txt known) NC) G0) as (g1 & G1 & ->).
      destruct (ALT _ ((x <- sk block_amendment_structural ;; sk eoi ;; ret (RBlockStruct x))
        <|> (x <- sk g_text_amendment_rule ;; sk eoi ;; ret (RText x)) <|> (x <- sk enforcement_date ;; sk eoi ;; ret (REnforcement x))
        <|> (x <- sk g_repeal_rule ;; sk eoi ;; ret (RRepeal x)) <|> (x <- sk list_of_simple_expressions ;; sk eoi ;; ret (RList x))) _
        (ProofGrammar2.z_end txt known block_amendment_with_subtitle RBlockSubtitle (ProofGrammar2.z_block_sub txt known) NC) G1) as (g2 & G2 & ->).
      destruct (ALT _ ((x <- sk g_text_amendment_rule ;; sk eoi ;; ret (RText x)) <|> (x <- sk enforcement_date ;; sk eoi ;; ret (REnforcement x))
        <|> (x <- sk g_repeal_rule ;; sk eoi ;; ret (RRepeal x)) <|> (x <- sk list_of_simple_expressions ;; sk eoi ;; ret (RList x))) _
        (ProofGrammar2.z_end txt known block_amendment_structural RBlockStruct (ProofGrammar2.z_block_struct txt known) NC) G2) as (g3 & G3 & ->).
      assert (NT : ~ (ProofGrammar2.occurs txt (lit "„") /\ ProofGrammar2.occurs txt (lit "szöveg"))).
      { intros [A B]. apply (or_text _ plain). split; now apply ProofGrammar2.occurs_in. }
      destruct (ALT _ ((x <- sk enforcement_date ;; sk eoi ;; ret (REnforcement x)) <|> (x <- sk g_repeal_rule ;; sk eoi ;; ret (RRepeal x)) <|> (x <- sk list_of_simple_expressions ;; sk eoi ;; ret (RList x))) _
        (ProofGrammar2.z_met txt known g_text_amendment_rule RText _ (ProofGrammar2.z_text txt known) NT) G3) as (g4 & G4 & ->).
      assert (NF : ~ ProofGrammar2.occurs txt (lit "lép hatályba")) by (intros A; apply (or_force _ plain); now apply ProofGrammar2.occurs_in).
      destruct (ALT _ ((x <- sk g_repeal_rule ;; sk eoi ;; ret (RRepeal x)) <|> (x <- sk list_of_simple_expressions ;; sk eoi ;; ret (RList x))) _
        (ProofGrammar2.z_met txt known enforcement_date REnforcement _ (ProofGrammar2.z_enforcement txt known) NF) G4) as (g5 & G5 & ->).
      assert (Y : exists o2, yields ((x <- sk g_repeal_rule ;; sk eoi ;; ret (RRepeal x)) <|> (x <- sk list_of_simple_expressions ;; sk eoi ;; ret (RList x))) 0 txt (RList gs) o2 []).
      { assert (Y1 : yields (sk list_of_simple_expressions) 0 txt gs o' w).
        { now apply y_sk. }
        destruct LW as [->| ->]; eexists; (apply y_alt2; [apply f_bind1; now apply not_repeal|]); (eapply y_bind; [exact Y1|]); (eapply y_bind; [|apply y_ret]).
        - apply y_sk; [exact I|]. intros g _. reflexivity.
        - exact (y_sk_sp known eoi o' [] tt _ _ Logic.I (fun g _ => eq_refl)). }
      destruct Y as (o2 & Y). rewrite (Y g5 (still_known g5 G5)). reflexivity.
    Qed.
  End Root.
End Act.
