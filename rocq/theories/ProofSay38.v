(** Proofs for C81: sentences which introduce abbreviations. *)
From Verif Require Export ProofSay37.
From Verif Require ProofGrammar ProofGrammar2 ProofSem.
From Coq Require Import Lia.
Local Open Scope peg_scope.
Local Open Scope N_scope.

Section Act.
  Variables (rf : str -> option Z) (text : str) (m all : list (str * act_id)) (cf : cache).
  Hypothesis roman : roman_from_reads rf.
  Hypothesis named : all_named m.
  Hypothesis final : forall k, map_get k (ca_map cf) = value_after m all k.
  Local Notation name_in := (name_in m text).
  Local Notation speech := (speech m text all).
  Local Notation act_spoken := (act_spoken m text all).

  Lemma name_some k : name_in k -> k <> [].
  Proof.
    intros [I|(pre & s & u & u1 & u2 & v & colon & w & post & _ & _ & _ & _ & NE & _)]; [|exact NE]. intros ->. apply in_map_iff in I as ((k & b) & E & I). cbn in E. subst k. exact (named b I).
  Qed.
  (** The known abbreviations on the way: those known before and those introduced so far, and maybe others of the sentence *)
  Definition fits (b : list (str * act_id)) (L : list str) : Prop := incl (map fst (m ++ b)) L /\ Forall name_in L.
  Lemma not_named b L s : fits b L -> no_name_at m text s -> forall k, In k L -> ~ begins_with k s.
  Proof. intros [_ F] U k I. apply U. now apply (proj1 (Forall_forall _ _) F). Qed.
  (** The tree of an act *)
  Record spoken_tree (a : act_id) (len : N) (new : list (str * act_id)) (G : N -> g_act_ref) : Prop := {
    st_act : forall o, convert_act_reference rf cf (G o) = Ok a; st_pos : forall o, act_ref_pos (G o) = ModelSem.mkPos o (o + len);
    st_new : forall o, new_abbreviation rf (G o) = map (fun p => Ok p) new }.
  Lemma spoken_feed a len new G o : spoken_tree a len new G -> feed_act rf cf (G o) ob_new = Ok (mkOb (only_act a) [mkOut o (o + len) (only_act a)] None (o + len)).
  Proof. intros [A P _]. unfold feed_act. rewrite A. cbn [obind]. unfold record_one. rewrite P. reflexivity. Qed.
  (** Everything introduced in the sentence is in its text *)
  Definition within (rest : str) : Prop := exists pre, text = pre ++ rest.
  Lemma within_app x rest : within (x ++ rest) -> within rest.
  Proof. intros (pre & ->). exists (pre ++ x). now rewrite <- app_assoc. Qed.
  Lemma s_spoken b a rest x len new : within (x ++ rest) -> act_spoken b a rest x len new -> quiet is_ascii_ws (x ++ rest) /\ x <> [] /\ quiet (N.eqb 8222) (x ++ rest) /\ 0 < len <= utf8_len x /\
    exists G, spoken_tree a len new G /\ (Forall name_in (map fst new)) /\ forall L, fits b L -> forall o, shifts L act_reference o (x ++ rest) (G o) (o + utf8_len x) rest (L ++ map fst new).
  Proof.
    assert (LT : forall s e : str, s <> [] -> 0 < utf8_len (s ++ e)) by (intros [|ch s] e NE; [congruence|]; change (ch :: s) with ([ch] ++ s); rewrite !utf8_len_app; pose proof (char_takes ch); lia).
    intros IN SP0. revert IN. destruct SP0 as [name e OK Y S E NS NP|name e colon k OK Y S E IC AB|ch k ND NW NQ I U F]; intros IN.
    - assert (QL : quiet is_hun_lower rest).
      { apply (no_start _ small_letter); [|exact NS]. intros ch H. unfold is_hun_lower, in_range in H. rewrite orb_true_iff, andb_true_iff, !N.leb_le, existsb_exists in H. destruct H as [H|(z & I & E1)]; [now left|]. apply N.eqb_eq in E1. subst z. right. exact I. }
      assert (YA := fun L o => y_act_id L a name e o rest Y S (smalls e E) QL).
      destruct (YA [] 0) as (y & n & _ & EY & EN & W & NE & QQ). split; [exact W|]. split; [intros K; apply app_eq_nil in K as [K _]; congruence|]. split; [exact QQ|]. split; [pose proof (LT name e NE); lia|].
      exists (fun o => GActId (mkGNow (mkGAct y n (ModelSem.mkPos o (o + utf8_len (name ++ e)))) None)). split; [|split; [constructor|]].
      + constructor; intros o; [apply (act_ref_back rf a y n (ModelSem.mkPos o (o + utf8_len (name ++ e))) roman OK EY EN)|reflexivity|reflexivity].
      + intros L FT o. rewrite app_nil_r. apply s_y. destruct (YA L o) as (y' & n' & YY & EY' & EN' & _). rewrite EN' in EN. injection EN as ->. rewrite EY' in YY. rewrite EY.
        unfold act_reference. apply y_alt1. eapply y_bind; [apply y_sk; [exact W|]|apply y_ret]. unfold act_id_with_from_now_on. apply y_checked. eapply y_bind; [exact YY|]. eapply y_bind; [apply y_none, f_bind1|apply y_ret].
        exact (f_T_ahead L "(" 40 [] _ rest _ NP eq_refl (fun K => K eq_refl)).
    - set (tail := lit " (a továbbiakban" ++ colon ++ k ++ lit ")"). assert (ET : tail ++ rest = lit " (a továbbiakban" ++ colon ++ k ++ lit ")" ++ rest) by (unfold tail; now rewrite <- !app_assoc).
      assert (YA := fun L o => y_act_id L a name e o (tail ++ rest) Y S (smalls e E) eq_refl). rewrite <- app_assoc.
      destruct (YA [] 0) as (y & n & _ & EY & EN & W & NE & QQ). split; [exact W|]. split; [intros K; apply app_eq_nil in K as [K _]; apply app_eq_nil in K as [K _]; congruence|]. split; [exact QQ|].
      split; [pose proof (LT name e NE); rewrite (utf8_len_app (name ++ e)); lia|].
      exists (fun o => GActId (mkGNow (mkGAct y n (ModelSem.mkPos o (o + utf8_len (name ++ e)))) (Some k))). split; [|split].
      + assert (B := fun o => act_ref_back rf a y n (ModelSem.mkPos o (o + utf8_len (name ++ e))) roman OK EY EN).
        constructor; intros o; [apply B|reflexivity|]. cbn [new_abbreviation map]. specialize (B o). cbn in B. now rewrite B.
      + cbn [map fst]. constructor; [|constructor]. right. destruct IN as (pre & IN). unfold act_show in S. rewrite EN in S. assert (S' : name = show_Z (act_year a) ++ lit ". évi " ++ n ++ lit ". törvény") by congruence.
        assert (AW : SpecGrammar.act_word (lit "törvén" ++ lit "y" ++ e)).
        { constructor; [discriminate|]. constructor; [left; vm_compute; split; discriminate|]. apply Forall_forall. intros z J. apply (proj1 (Forall_forall _ _) E) in J. exact J. }
        assert (SP : SpecGrammar.spaces (lit " ")) by (constructor; [vm_compute; auto|constructor]).
        assert (CO : exists w co, colon = co ++ w /\ SpecGrammar.spaces w /\ ((co = lit ":" /\ w = lit " ") \/ (co = [] /\ w = lit " "))).
        { cbn [map In] in IC. destruct IC as [<-|[<-|[]]]; [exists (lit " "), (lit ":")|exists (lit " "), []]; auto. }
        destruct CO as (w & co & EC & SW & CC). destruct AB as [(c0 & u0 & EK & NW0 & ND0 & NC0) NP0].
        assert (NK : k <> [] /\ ~ In (chr ")") k /\ ~ (exists c k', k = c :: k' /\ SpecGrammar.spaces [c])).
        { split; [rewrite EK; discriminate|]. split; [exact NP0|]. intros (c1 & k1 & E1 & S1). rewrite EK in E1. injection E1 as <- _. apply NW0. apply Forall_inv in S1. exact S1. }
        assert (ETX : text = (pre ++ show_Z (act_year a) ++ lit ". évi " ++ n ++ lit ". ") ++ (lit "törvén" ++ lit "y" ++ e) ++ lit " " ++ lit "(" ++ [] ++ lit "a" ++ lit " " ++ lit "továbbiakban" ++ colon ++ k ++ lit ")" ++ rest).
        { rewrite IN, S'. unfold tail. rewrite <- !app_assoc. reflexivity. }
        destruct CC as [(-> & ->)|(-> & ->)].
        * eexists _, _, (lit " "), [], (lit " "), [], (lit ":"), (lit " "), rest. split; [rewrite ETX, EC; reflexivity|]. split; [exact AW|]. split; [repeat (constructor; [first [exact SP|constructor]|]); constructor|]. split; [now left|exact NK].
        * eexists _, _, (lit " "), [], (lit " "), (lit " "), [], [], rest. split; [rewrite ETX, EC; reflexivity|]. split; [exact AW|]. split; [repeat (constructor; [first [exact SP|constructor]|]); constructor|].
          split; [|exact NK]. right. split; [reflexivity|]. split; [reflexivity|]. intros (k' & K'). rewrite EK in K'. injection K' as -> _. now apply NC0.
      + intros L FT o. destruct (YA L o) as (y' & n' & YY & EY' & EN' & _). rewrite EN' in EN. injection EN as ->. rewrite EY' in YY. rewrite EY.
        unfold act_reference. apply s_alt1. eapply s_bind; [apply s_sk; [exact W|]|apply s_y, y_ret]. unfold act_id_with_from_now_on.
        eapply (s_checked L _ o _ (mkGNow _ (Some k))). eapply y_bind; [exact YY|]. eapply y_bind; [apply y_some; rewrite ET; exact (y_now_on L colon k _ rest IC AB)|]. eapply y_eq; [apply y_ret|].
        fold tail. rewrite (utf8_len_app (name ++ e)). lia.
    - assert (W : forall t, quiet is_ascii_ws ((ch :: k) ++ t)) by (intros t; now apply not_white). split; [apply W|]. split; [discriminate|]. split; [cbn; apply N.eqb_neq; intros <-; now apply NQ|].
      split; [pose proof (LT (ch :: k) [] ltac:(discriminate)) as X; rewrite app_nil_r in X; lia|].
      exists (fun o => GAbbrev (ch :: k) (ModelSem.mkPos o (o + utf8_len (ch :: k)))). split; [|split; [constructor|]].
      + constructor; intros o; [|reflexivity|reflexivity]. cbn. unfold cache_resolve. now rewrite final, U.
      + intros L FT o. rewrite app_nil_r. apply s_y. unfold act_reference. apply y_alt2.
        * apply f_bind1, f_sk; [apply W|]. apply f_act_id_now; [apply W|]. intros o1. apply f_act_other; [apply W|]. now apply not_digit.
        * apply y_sk; [apply W|]. unfold g_abbreviation. eapply (y_located L _ _ _ (GAbbrev (ch :: k))). eapply y_bind; [apply y_sk; [apply W|]|apply y_ret].
          intros g EG. unfold abbreviation_content. cbn [cu_rest]. rewrite EG. rewrite (known_first _ (ch :: k)).
          -- unfold advance. cbn [cu_off]. rewrite skipn_app, skipn_all, Nat.sub_diag. reflexivity.
          -- now apply (proj1 FT).
          -- now exists rest.
          -- intros k' I' B'. apply F; [|exact B']. now apply (proj1 (Forall_forall _ _) (proj2 FT)).
  Qed.
  Lemma fits_more b (new : list (str * act_id)) L : Forall name_in (map fst new) -> fits b L -> fits (b ++ new) (L ++ map fst new).
  Proof.
    intros F [I A]. split; [|apply Forall_app; now split]. intros k J. rewrite app_assoc, map_app in J. apply in_app_iff in J as [J|J]; apply in_app_iff; [left; now apply I|now right].
  Qed.
  Lemma fits_again b (new : list (str * act_id)) L : Forall name_in (map fst new) -> fits b L -> fits (b ++ new) ((L ++ map fst new) ++ map fst new).
  Proof. intros F H. destruct (fits_more b new L F H) as [I A]. split; [now apply incl_appl|apply Forall_app; now split]. Qed.
  Lemma fits_weak b (new : list (str * act_id)) L : Forall name_in (map fst new) -> fits b L -> fits b (L ++ map fst new).
  Proof. intros F [I A]. split; [now apply incl_appl|apply Forall_app; now split]. Qed.
  Lemma f_nothing L b o : fits b L -> fails L any_simple_expression o [].
  Proof.
    intros [_ FT]. unfold any_simple_expression. apply f_alt; [apply f_bind1, f_sk; [exact I|]; apply f_bind1, f_T_nil; discriminate|].
    apply f_alt; [|apply f_alt].
    - apply f_bind1, f_sk; [exact I|]. apply f_compound; [exact I|intros o1; apply f_act_other; exact I| |constructor].
      intros k J (u & E). symmetry in E. apply app_eq_nil in E as [-> _]. exact (name_some [] (proj1 (Forall_forall _ _) FT _ J) eq_refl).
    - apply f_bind1. apply (no_ref_kinds L [] [] o lead_none nr_end).
    - apply f_bind1, f_sk; [exact I|]. unfold any_token. apply f_alt; [|apply f_alt].
      + apply f_sk; [exact I|]. apply f_bind1, f_many1, f_chr. exact I.
      + apply f_void, f_sk; [exact I|]. now apply f_number.
      + apply f_sk; [exact I|]. apply f_chr. exact I.
  Qed.
  (** ** The pieces one after the other *)
  Record told (gs : list g_simple) (l : list out_ref) (n : list (str * act_id)) : Prop := {
    td_refs : exists ls, map_ok (simple_references rf cf) gs = Ok ls /\ List.concat ls = l;
    td_new : flat_map (new_abbreviation rf) (flat_map simple_act_ref gs) = map (fun p => Ok p) n }.
  Definition rest_told (b : list (str * act_id)) (o0 : N) (g t : str) (l : list out_ref) (n : list (str * act_id)) : Prop :=
    forall L, fits b L -> exists gs o' w L', lead w /\ told gs l n /\ shifts L (many (sk any_simple_expression)) o0 (g ++ t) gs o' w L' /\
      (t <> [] -> shifts L list_of_simple_expressions o0 (g ++ t) gs o' w L').
  Lemma piece_told b new x g1 t1 l1 l2 n o : quiet is_ascii_ws (x ++ g1 ++ t1) -> x <> [] ->
    (forall L, fits b L -> exists v L', fits (b ++ new) L' /\ shifts L any_simple_expression o (x ++ g1 ++ t1) v (o + utf8_len x) (g1 ++ t1) L' /\ simple_references rf cf v = Ok l1 /\
      flat_map (new_abbreviation rf) (simple_act_ref v) = map (fun p => Ok p) new) -> rest_told (b ++ new) (o + utf8_len x) g1 t1 l2 n ->
    forall o0 g, lead g -> o0 + utf8_len g = o -> rest_told b o0 g (x ++ g1 ++ t1) (l1 ++ l2) (new ++ n).
  Proof.
    intros W NE Y K o0 g LG EO L FT. destruct (Y L FT) as (v & L1 & FT1 & S1 & R & N). destruct (K L1 FT1) as (gs & o' & w & L2 & LW & [(ls & M & E) NW] & S2 & _).
    exists (v :: gs), o', w, L2. split; [exact LW|]. split.
    - constructor; [|cbn [flat_map]; rewrite flat_map_app, N, NW, map_app; reflexivity]. exists (l1 :: ls). cbn [map_ok]. rewrite R. cbn [obind]. rewrite M. cbn [obind List.concat]. now rewrite E.
    - assert (Y1 : shifts L (sk any_simple_expression) o0 (g ++ x ++ g1 ++ t1) v (o + utf8_len x) (g1 ++ t1) L1) by (apply s_sk_lead; [exact LG|exact W|rewrite EO; exact S1]).
      split; [|intros _; eapply s_bind; [exact Y1|]; eapply s_bind; [exact S2|apply s_y, y_ret]].
      eapply s_many_cons; [|exact Y1|exact S2]. rewrite !app_length. destruct x; [congruence|cbn [List.length]; lia].
  Qed.
  Lemma no_quote L x u o : quiet is_ascii_ws (x ++ u) -> quiet (N.eqb 8222) (x ++ u) -> fails L (sk g_quote ;; ret GOther) o (x ++ u).
  Proof. intros W Q. apply f_bind1, f_sk; [exact W|]. apply f_bind1. exact (f_T_lead L "„" 8222 [] [] o (x ++ u) lead_none W eq_refl Q). Qed.
  Lemma told_refs b L o s l u : fits b L -> said_list no_reference o s l -> no_name_at m text (s ++ u) -> list_over u ->
    exists v, yields L any_simple_expression o (s ++ u) v (o + utf8_len s) u /\ simple_references rf cf v = Ok l /\ flat_map (new_abbreviation rf) (simple_act_ref v) = [].
  Proof.
    intros FT SL NK LO. destruct (over_after L u LO) as [AR MR]. destruct (list_begins L _ _ _ _ SL u) as [BG PF]. pose proof (begins_ws _ BG) as W.
    assert (QQ : quiet (N.eqb 8222) (s ++ u)) by (apply begins_quiet; [exact BG|..]; intros; rewrite ?N.eqb_neq; unfold is_digit, in_range in *; rewrite ?andb_true_iff, ?N.leb_le in *; lia).
    assert (AC : forall o, fails L g_act_id_rule o (s ++ u)).
    { intros o1. assert (E : exists w s' v, readable_ref w /\ lower_parts w <> [] /\ said_ended (lower_parts w) s' /\ s ++ u = s' ++ v).
      { destruct SL as [p' o' w s' [A B C D]|p' o' w s' sep rest l' [A B C D] I _]; exists w, s'; eexists; (split; [exact A|]); (split; [intros E; rewrite E in C; now apply ended_nil in C|]); (split; [exact C|]); [reflexivity|now rewrite <- app_assoc]. }
      destruct E as (w & s' & v & A & _ & C & ->). pose proof (parts_good w A) as PG. exact (proj2 (ended_begins L _ _ v o1 PG C)). }
    destruct (y_list L _ _ _ _ SL o [] u lead_none (N.add_0_r o) AR MR) as (t & ts & o1 & u1 & Y1 & Y2 & _ & FD). cbn [app] in Y1.
    exists (GCompound (mkGComp None (t :: ts))). split; [|split; [|reflexivity]].
    - unfold any_simple_expression. apply y_alt2; [now apply no_quote|]. apply y_alt1. eapply y_bind; [apply y_sk; [exact W|]|apply y_ret]. unfold compound_reference. apply y_alt1.
      eapply y_bind; [apply y_none, f_sk; [exact W|]; apply f_act_none; [exact W|exact AC|now apply (not_named b)]|]. eapply y_bind; [exact Y1|]. eapply y_bind; [exact Y2|apply y_ret].
    - destruct (fed_out _ _ _ FD ob_new eq_refl eq_refl) as (ob & B1 & B2). cbn [simple_references]. unfold compound_references. cbn [gc_act gc_refs feed_opt obind]. rewrite B1. cbn [obind]. rewrite B2. reflexivity.
  Qed.
  Lemma told_act b L o a x len new u : fits b L -> within (x ++ u) -> act_spoken b a u x len new -> no_ref_after u ->
    exists v L', fits (b ++ new) L' /\ shifts L any_simple_expression o (x ++ u) v (o + utf8_len x) u L' /\ simple_references rf cf v = Ok [mkOut o (o + len) (only_act a)] /\
      flat_map (new_abbreviation rf) (simple_act_ref v) = map (fun p => Ok p) new.
  Proof.
    intros FT IN S NR. destruct (s_spoken b a u x len new IN S) as (W & NE & QQ & LN & G & ST & FN & Y). exists (GCompound (mkGComp (Some (G o)) [])), ((L ++ map fst new) ++ map fst new). split; [now apply fits_again|]. split; [|split].
    - unfold any_simple_expression. eapply s_alt2; [apply s_f; now apply no_quote|]. apply s_alt1. eapply s_bind; [apply s_sk; [exact W|]|apply s_y, y_ret]. unfold compound_reference. eapply s_alt2.
      + eapply s_bind_falls; [apply s_some, s_sk; [exact W|now apply Y]|]. apply s_f, f_bind1. destruct NR as [r N|r _ N]; [apply (no_ref_kinds _ [] r _ lead_none N)|apply (no_ref_kinds _ (lit " ") r _ lead_space N)].
      + eapply s_bind; [apply s_sk; [exact W|apply Y; now apply fits_weak]|apply s_y, y_ret].
    - cbn [simple_references]. unfold compound_references. cbn [gc_act gc_refs feed_opt]. rewrite (spoken_feed a len new G o ST). reflexivity.
    - cbn [simple_act_ref gc_act flat_map]. now rewrite (st_new _ _ _ _ ST o), app_nil_r.
  Qed.
  Lemma told_act_refs b L o a x len new s l u : fits b L -> within (x ++ lit " " ++ s ++ u) -> act_spoken b a (lit " " ++ s ++ u) x len new -> said_list (only_act a) (o + utf8_len (x ++ lit " ")) s l -> list_over u ->
    exists v L', fits (b ++ new) L' /\ shifts L any_simple_expression o (x ++ lit " " ++ s ++ u) v (o + utf8_len (x ++ lit " " ++ s)) u L' /\
      simple_references rf cf v = Ok (mkOut o (o + len) (only_act a) :: l) /\ flat_map (new_abbreviation rf) (simple_act_ref v) = map (fun p => Ok p) new.
  Proof.
    intros FT IN S SL LO. set (L1 := L ++ map fst new). destruct (over_after L1 u LO) as [AR MR]. destruct (s_spoken b a _ x len new IN S) as (W & NE & QQ & LN & G & ST & FN & Y).
    destruct (y_list L1 _ _ _ _ SL (o + utf8_len x) (lit " ") u lead_space ltac:(rewrite utf8_len_app; lia) AR MR) as (t & ts & o1 & u1 & Y1 & Y2 & _ & FD).
    exists (GCompound (mkGComp (Some (G o)) (t :: ts))), L1. split; [now apply fits_more|]. split; [|split].
    - unfold any_simple_expression. eapply s_alt2; [apply s_f; now apply no_quote|]. apply s_alt1. eapply s_bind; [apply s_sk; [exact W|]|apply s_y, y_ret]. unfold compound_reference. apply s_alt1.
      eapply s_bind; [apply s_some, s_sk; [exact W|now apply Y]|]. eapply s_bind; [apply s_y; exact Y1|]. eapply s_bind; [apply s_y; exact Y2|]. eapply s_eq; [apply s_y, y_ret|]. rewrite !utf8_len_app. lia.
    - cbn [simple_references]. unfold compound_references. cbn [gc_act gc_refs feed_opt]. rewrite (spoken_feed a len new G o ST). cbn [obind].
      destruct (fed_out _ _ _ FD (mkOb (only_act a) [mkOut o (o + len) (only_act a)] None (o + len)) eq_refl eq_refl) as (ob & B1 & B2). rewrite B1. cbn [obind]. rewrite B2. reflexivity.
    - cbn [simple_act_ref gc_act flat_map]. now rewrite (st_new _ _ _ _ ST o), app_nil_r.
  Qed.
  Lemma told_all o b t l n : speech o b t l n -> within t -> forall o0 g, lead g -> o0 + utf8_len g = o -> rest_told b o0 g t l n.
  Proof.
    induction 1 as [o b|o b x g t l n P NK GP PR IH|o b s l g t l' n SL NK LO GP PR IH|o b a x len new g t l n S NR GP PR IH|o b a x len new s l g t l' n S SL LO GP PR IH]; intros IN o0 g0 L0 E0.
    - intros L FT. exists [], o0, (g0 ++ []), L. split; [rewrite app_nil_r; exact L0|]. split; [constructor; [exists []; split; reflexivity|reflexivity]|]. split; [|congruence].
      apply s_y, y_many_nil, f_sk_lead; [exact L0|exact I|]. intros o1. exact (f_nothing L b o1 FT).
    - destruct (gap_lead _ _ GP) as [LG _].
      assert (Y := fun L FT => y_other L x (g ++ t) P (not_named b L _ FT NK)). change l with ([] ++ l). change n with ([] ++ n). destruct (y_other [] x (g ++ t) P ltac:(intros k [])) as (W & NE & _).
      apply (piece_told b [] x g t [] l n o W NE); [|rewrite app_nil_r|exact L0|exact E0].
      + intros L FT. exists GOther, L. rewrite app_nil_r. split; [exact FT|]. split; [apply s_y, Y, FT|split; reflexivity].
      + apply IH; [now do 2 apply within_app in IN|exact LG|]. rewrite utf8_len_app. lia.
    - destruct (gap_lead _ _ GP) as [LG _]. change n with ([] ++ n). apply (piece_told b [] s g t l l' n o); [exact (begins_ws _ (proj1 (list_begins [] _ _ _ _ SL (g ++ t))))|exact (list_some _ _ _ _ SL)| |rewrite app_nil_r|exact L0|exact E0].
      + intros L FT. destruct (told_refs b L o s l (g ++ t) FT SL NK LO) as (v & Y & R & N). exists v, L. rewrite app_nil_r. split; [exact FT|]. split; [now apply s_y|]. split; [exact R|exact N].
      + apply IH; [now do 2 apply within_app in IN|exact LG|]. rewrite utf8_len_app. lia.
    - destruct (gap_lead _ _ GP) as [LG _]. destruct (s_spoken b a _ x len new IN S) as (W & NE & _). change (mkOut o (o + len) (only_act a) :: l) with ([mkOut o (o + len) (only_act a)] ++ l).
      apply (piece_told b new x g t _ l n o W NE); [|apply IH|exact L0|exact E0].
      + intros L FT. exact (told_act b L o a x len new (g ++ t) FT IN S NR).
      + now do 2 apply within_app in IN.
      + exact LG.
      + rewrite utf8_len_app. lia.
    - destruct (gap_lead _ _ GP) as [LG _]. destruct (s_spoken b a _ x len new IN S) as (W & NE & _). change (mkOut o (o + len) (only_act a) :: l ++ l') with ((mkOut o (o + len) (only_act a) :: l) ++ l').
      assert (T := fun L FT => told_act_refs b L o a x len new s l (g ++ t) FT IN S SL LO).
      replace (x ++ lit " " ++ s ++ g ++ t) with ((x ++ lit " " ++ s) ++ g ++ t) in * by now rewrite <- !app_assoc.
      apply (piece_told b new (x ++ lit " " ++ s) g t _ l' n o W); [intros K; now apply app_eq_nil in K|exact T|apply IH|exact L0|exact E0].
      + now do 2 apply within_app in IN.
      + exact LG.
      + rewrite !utf8_len_app. lia.
  Qed.
  Lemma speech_quiet o b t l n : speech o b t l n -> within t -> quiet is_ascii_ws t.
  Proof.
    intros [o' b'|o' b' x g u l' n' P NK GP PR|o' b' s l' g u l2 n' SL NK LO GP PR|o' b' a x len new g u l' n' S NR GP PR|o' b' a x len new s l' g u l2 n' S SL LO GP PR] IN.
    - exact I.
    - apply (y_other [] x (g ++ u) P). intros k [].
    - exact (begins_ws _ (proj1 (list_begins [] _ _ _ _ SL (g ++ u)))).
    - apply (s_spoken _ _ _ _ _ _ IN S).
    - apply (s_spoken _ _ _ _ _ _ IN S).
  Qed.
End Act.
