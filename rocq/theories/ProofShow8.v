(** Proofs for C67: from the parts to the whole text. *)
From Verif Require Export ProofShow7 ProofIdent3.
From Coq Require Import Lia.
Local Open Scope peg_scope.
Local Open Scope N_scope.

(** ** The phrase of the parts *)
Lemma said_split p ps s : said_parts (p :: ps) s ->
  exists i n n', said_part p i n n' /\ ((ps = [] /\ s = i ++ lit " " ++ n') \/ (exists s', said_parts ps s' /\ s = i ++ lit " " ++ n ++ lit " " ++ s')).
Proof. inversion 1; subst; do 3 eexists; (split; [eassumption|]); [left; auto|right; eexists; split; [eassumption|reflexivity]]. Qed.
Lemma said_nil s : ~ said_parts [] s.
Proof. inversion 1. Qed.
Lemma ended_split p ps s : said_ended (p :: ps) s ->
  exists i n n', said_part p i n n' /\ ((ps = [] /\ exists e, ending p e /\ s = i ++ lit " " ++ n ++ e) \/ (exists s', said_ended ps s' /\ s = i ++ lit " " ++ n ++ lit " " ++ s')).
Proof. inversion 1; subst; do 3 eexists; (split; [eassumption|]); [left; split; [reflexivity|]; eexists; split; [eassumption|reflexivity]|right; eexists; split; [eassumption|reflexivity]]. Qed.
Lemma ended_nil s : ~ said_ended [] s.
Proof. inversion 1. Qed.
Lemma said_is_ended ps s : said_parts ps s -> said_ended ps s.
Proof.
  induction 1 as [p i n n' P|p i n n' ps s P _ IH]; [|econstructor; eauto].
  assert (K : exists e, n' = n ++ e /\ ending p e).
  { assert (A : small_letter 97) by (left; red; lia). assert (A' : small_letter 106) by (left; red; lia). assert (A'' : small_letter 101) by (left; red; lia).
    inversion P; subst.
    - exists (lit "-a"). split; [reflexivity|]. apply (ending_article _ (lit "a")); [discriminate|]. exact (Forall_cons _ A (Forall_nil _)).
    - exists (lit "e"). split; [reflexivity|]. apply ending_other; [discriminate|]. exact (Forall_cons _ A'' (Forall_nil _)).
    - exists (lit "ja"). split; [reflexivity|]. apply ending_other; [discriminate|]. exact (Forall_cons _ A' (Forall_cons _ A (Forall_nil _))).
    - exists (lit "ja"). split; [reflexivity|]. apply ending_other; [discriminate|]. exact (Forall_cons _ A' (Forall_cons _ A (Forall_nil _))).
    - exists (lit "ja"). split; [reflexivity|]. apply ending_other; [discriminate|]. exact (Forall_cons _ A' (Forall_cons _ A (Forall_nil _))).
    - exists (lit "ja"). split; [reflexivity|]. apply ending_other; [discriminate|]. exact (Forall_cons _ A' (Forall_cons _ A (Forall_nil _))). }
  destruct K as (e & -> & K). econstructor; eauto.
Qed.
Lemma small_is c : small_letter c -> is_hun_lower c = true.
Proof.
  unfold small_letter, lower_letter, is_hun_lower, in_range. rewrite orb_true_iff, andb_true_iff, !N.leb_le, existsb_exists. intros [H|H]; [now left|]. right. exists c. split; [exact H|apply N.eqb_refl].
Qed.
Lemma smalls w : Forall small_letter w -> forallb is_hun_lower w = true.
Proof. rewrite forallb_forall, Forall_forall. intros H c I. now apply small_is, H. Qed.
Lemma ending_lower p e : (forall r, p <> PartArticle r) -> ending p e -> forallb is_hun_lower e = true.
Proof. intros N. destruct 1 as [|r w NE F|p w _ F]; [reflexivity|now destruct (N r)|now apply smalls]. Qed.
Lemma said_sub z s : said_ended [PartSubpoint z] s -> exists e, forallb is_hun_lower e = true /\ tail_sub e z s.
Proof.
  intros H. apply ended_split in H as (i & n & n' & P & [(_ & e & F & ->)|(s' & H & _)]); [|now apply ended_nil in H]. exists e. apply ending_lower in F; [|discriminate]. split; [exact F|]. exists i. inversion P; subst; split; auto.
Qed.
Definition opt_sub (so : option ref_subpoint) : list any_part := match so with Some x => [PartSubpoint x] | None => [] end.
Definition opt_point (po : option ref_point) : list any_part := match po with Some x => [PartPoint x] | None => [] end.
Lemma said_point q so s : said_ended (PartPoint q :: opt_sub so) s -> exists e, forallb is_hun_lower e = true /\ tail_point e q so s.
Proof.
  intros H. apply ended_split in H as (i & n & n' & P & H).
  assert (C : pt_text q i) by (inversion P; subst; assumption). assert (n = lit "pont") as -> by (inversion P; auto).
  destruct so as [z|]; destruct H as [(E & e & F & ->)|(s' & H & ->)]; try discriminate.
  - apply said_sub in H as (e & F & T). exists e. split; [exact F|]. exists i. split; [exact C|]. exists s'. split; [exact T|reflexivity].
  - exists e. apply ending_lower in F; [|discriminate]. split; [exact F|]. exists i. split; [exact C|reflexivity].
  - now apply ended_nil in H.
Qed.
Lemma said_par r po so s : (po = None -> so = None) -> said_ended (PartParagraph r :: opt_point po ++ opt_sub so) s -> exists e, forallb is_hun_lower e = true /\ tail_par e r po so s.
Proof.
  intros W H. apply ended_split in H as (i & n & n' & P & H). inversion P; subst.
  destruct po as [q|]; destruct H as [(E & e & F & ->)|(s' & H & ->)]; try discriminate.
  - apply said_point in H as (e & F & T). exists e. split; [exact F|]. exists i. split; [assumption|]. exists s'. split; [exact T|reflexivity].
  - exists e. apply ending_lower in F; [|discriminate]. split; [exact F|]. exists i. split; [assumption|]. split; [now apply W|reflexivity].
  - rewrite (W eq_refl) in H. now apply ended_nil in H.
Qed.

Section Run.
  Variable known : list str.
  Local Notation yields := (yields known).
  Local Notation fails := (fails known).

  (** What [readable_ref] says of the parts *)
  Lemma good_point r q : readable_ref r -> f_point r = Some q -> pt_good q.
  Proof. intros [_ (_ & _ & _ & P1 & P2 & _) _ _ _ _] E. destruct q; cbn; [now apply P1|now apply P2]. Qed.
  Lemma good_sub r q : readable_ref r -> f_subpoint r = Some q -> sp_good q.
  Proof. intros [_ (_ & _ & _ & _ & _ & P1 & P2) _ _ _ S] E. destruct q; cbn; [split; [now apply P1|now apply S]|now apply P2]. Qed.
  Lemma good_so r : readable_ref r -> so_good (f_subpoint r).
  Proof. intros R. destruct (f_subpoint r) eqn:E; [|exact I]. now apply (good_sub r). Qed.
  Lemma good_article r x i : readable_ref r -> f_article r = Some x -> dotted article_show x i -> y_art_facts x i.
  Proof. intros [_ (_ & P & _) _ _ A _] E C. destruct (A _ E) as (A1 & A2 & A3). repeat split; auto; now apply P. Qed.
  Lemma good_par r x : readable_ref r -> f_paragraph r = Some x -> range_of (fun n => numeric_ok n = true) x.
  Proof. intros [_ (_ & _ & P & _) _ _ _ _] E. now apply P. Qed.
  Lemma wf_gap r : well_formed r -> f_point r = None -> f_article r <> None \/ f_paragraph r <> None -> f_subpoint r = None.
  Proof.
    intros [W _ _] E H. destruct (f_subpoint r) eqn:S; [|reflexivity]. exfalso.
    assert (P : present r LPoint).
    { apply W; [unfold present; cbn; rewrite S; discriminate|]. destruct H; [left|right]; unfold present; cbn; [destruct (f_article r)|destruct (f_paragraph r)]; congruence. }
    unfold present in P. cbn in P. rewrite E in P. congruence.
  Qed.

  Lemma y_reference_then r s o u : readable_ref r -> said_ended (lower_parts r) s -> after_ref known u ->
    exists g, yields g_reference o (s ++ u) g (o + utf8_len s) u /\ gref_read r g o (o + utf8_len s).
  Proof.
    intros R H AF. pose proof (rd_form _ R) as W. unfold lower_parts in H. fold (opt_sub (f_subpoint r)) in H. fold (opt_point (f_point r)) in H.
    destruct (f_article r) as [x|] eqn:E1.
    - cbn [app] in H. apply ended_split in H as (i & n & n' & P & H). inversion P as [r0 i0 C| | | | |]; subst. clear P. pose proof (good_article r x i R E1 C) as A.
      destruct (f_paragraph r) as [p|] eqn:E2; [|destruct (f_point r) as [q|] eqn:E3].
      + destruct H as [(E & _)|(s' & H & ->)]; [discriminate|]. apply said_par in H as (e & F & T); [|intros E; apply (wf_gap r W E); left; congruence].
        rewrite <- !app_assoc. eapply ref_article_paragraph; eauto using good_par, good_so. intros q E. now apply (good_point r).
      + destruct H as [(E & _)|(s' & H & ->)]; [discriminate|]. apply said_point in H as (e & F & T). rewrite <- !app_assoc. eapply ref_article_point; eauto using good_point, good_so.
      + assert (E4 : f_subpoint r = None) by (apply (wf_gap r W E3); left; congruence). rewrite E4 in H. destruct H as [(_ & e & F & ->)|(s' & H & _)]; [|now apply ended_nil in H].
        rewrite <- !app_assoc. rewrite (app_assoc (lit "§") e u). eapply (ref_article_only known [] u eq_refl AF); eauto.
        inversion F as [p0|r0 w NE FW|p0 w NA]; subst; [left; rewrite app_nil_r; split; [reflexivity|apply (ar_dash _ _ AF)]| |now destruct (NA x)].
        right. exists w. split; [reflexivity|]. split; [exact NE|]. split; [now apply smalls|apply (ar_lower _ _ AF)].
    - cbn [app] in H. destruct (f_paragraph r) as [p|] eqn:E2; [|destruct (f_point r) as [q|] eqn:E3].
      + apply said_par in H as (e & F & T); [|intros E; apply (wf_gap r W E); right; congruence]. eapply ref_paragraph; eauto using good_par, good_so. intros q E. now apply (good_point r).
      + apply said_point in H as (e & F & T). eapply ref_point_first; eauto using good_point, good_so.
      + cbn [app opt_point] in H. destruct (f_subpoint r) as [z|] eqn:E4; [|now apply ended_nil in H]. apply said_sub in H as (e & F & T). eapply ref_sub_first; eauto using good_sub.
  Qed.
  Lemma y_reference r s o : readable_ref r -> said_parts (lower_parts r) s -> exists g, yields g_reference o s g (o + utf8_len s) [] /\ gref_read r g o (o + utf8_len s).
  Proof.
    intros R H. destruct (y_reference_then r s o [] R (said_is_ended _ _ H) (after_nil known)) as (g & Y & G). rewrite app_nil_r in Y. eauto.
  Qed.

  (** ** Beginnings *)
  Definition begins (s : str) : Prop := exists c u, s = c :: u /\
    (is_digit c = true \/ c = 40 \/ (in_range 97 122 c = true /\ exists d v, u = d :: v /\ d <> 32 /\ (d = 122 -> exists d' v', v = d' :: v' /\ d' <> 32))).
  Lemma begins_number n t : begins (show_N n ++ t).
  Proof.
    pose proof (show_N_digits n) as D. pose proof (show_N_nonempty n) as E. destruct (show_N n) as [|c u]; [congruence|]. exists c, (u ++ t). split; [reflexivity|]. left.
    cbn in D. apply andb_true_iff in D. tauto.
  Qed.
  Lemma begins_numeric n t : begins (numeric_show n ++ t).
  Proof. unfold numeric_show. destruct (n_suffix n); [rewrite <- app_assoc|]; apply begins_number. Qed.
  Lemma begins_article x t : begins (article_show x ++ t).
  Proof.
    unfold article_show. rewrite <- app_assoc. destruct (a_book x); [rewrite <- app_assoc; apply begins_number|]. cbn [app].
    unfold numeric_show_slash. destruct (n_suffix (a_ident x)); [rewrite <- app_assoc|]; apply begins_number.
  Qed.
  Lemma begins_hic h t : hic_ok h = true -> begins (hic_show h ++ lit ")" ++ t).
  Proof.
    intros H. destruct h as [b| | | | | | | |]; cbn [hic_show]; unfold begins; cbn [app].
    - exists b, (lit ")" ++ t). split; [reflexivity|]. right; right. split; [exact H|]. exists 41, t. repeat split; [discriminate|]. discriminate.
    - exists 99, (115 :: lit ")" ++ t). split; [reflexivity|]. right; right. split; [reflexivity|]. eexists _, _. split; [reflexivity|]. split; discriminate.
    - exists 100, (122 :: lit ")" ++ t). split; [reflexivity|]. right; right. split; [reflexivity|]. eexists _, _. split; [reflexivity|]. split; [discriminate|]. intros _. eexists _, _. split; [reflexivity|discriminate].
    - exists 103, (121 :: lit ")" ++ t). split; [reflexivity|]. right; right. split; [reflexivity|]. eexists _, _. split; [reflexivity|]. split; discriminate.
    - exists 108, (121 :: lit ")" ++ t). split; [reflexivity|]. right; right. split; [reflexivity|]. eexists _, _. split; [reflexivity|]. split; discriminate.
    - exists 110, (121 :: lit ")" ++ t). split; [reflexivity|]. right; right. split; [reflexivity|]. eexists _, _. split; [reflexivity|]. split; discriminate.
    - exists 115, (122 :: lit ")" ++ t). split; [reflexivity|]. right; right. split; [reflexivity|]. eexists _, _. split; [reflexivity|]. split; [discriminate|]. intros _. eexists _, _. split; [reflexivity|discriminate].
    - exists 116, (121 :: lit ")" ++ t). split; [reflexivity|]. right; right. split; [reflexivity|]. eexists _, _. split; [reflexivity|]. split; discriminate.
    - exists 122, (115 :: lit ")" ++ t). split; [reflexivity|]. right; right. split; [reflexivity|]. eexists _, _. split; [reflexivity|]. split; discriminate.
  Qed.
  Lemma begins_prefixed p t : prefixed_ok p = true -> prefixed_latin p = true -> begins (prefixed_show p ++ lit ")" ++ t).
  Proof.
    intros H L. unfold prefixed_ok, prefixed_latin, prefixed_show in *. destruct p as [q d]. cbn [p_prefix p_chr] in *. apply andb_true_iff in H as [H1 H2], L as [L1 L2].
    destruct d as [c| | | | | | | |]; try discriminate. destruct q as [[b| | | | | | | |]|]; try discriminate; [|now apply begins_hic]. cbn [hic_show app].
    exists b, (c :: lit ")" ++ t). split; [reflexivity|]. right; right. split; [exact H1|]. exists c, (lit ")" ++ t). split; [reflexivity|]. split; [intros ->; discriminate|].
    intros _. exists 41, t. split; [reflexivity|discriminate].
  Qed.
  Lemma begins_ws s : begins s -> quiet is_ascii_ws s.
  Proof. intros (c & u & -> & [H|[->|[H _]]]); cbn; [now apply no_ws_digit|reflexivity|now apply az_not_ws]. Qed.
  Lemma begins_quiet f s : begins s -> (forall c, is_digit c = true -> f c = false) -> f 40 = false -> (forall c, in_range 97 122 c = true -> f c = false) -> quiet f s.
  Proof. intros (c & u & -> & [H|[->|[H _]]]) A B C; cbn; auto. Qed.

  (** ** Not the name of an act *)
  Definition not_evi (u : str) : Prop := quiet is_digit u /\ ((quiet (N.eqb 46) u /\ quiet is_ascii_ws u) \/ exists v, u = lit "." ++ lit " " ++ v /\ quiet is_ascii_ws v /\ quiet (N.eqb 233) v).
  Lemma f_act_number n u o : not_evi u -> fails g_act_id_rule o (show_N n ++ u).
  Proof.
    intros [D H]. unfold g_act_id_rule. apply f_located. eapply f_bind2; [apply y_sk; [apply quiet_ws_number|now apply y_number]|]. destruct H as [[H W]|(v & -> & W & H)].
    - apply f_bind1. eapply (f_T_lead known "." 46 [] []); auto using lead_none.
    - eapply f_bind2; [apply y_T; reflexivity|]. apply f_bind1. eapply (f_T_lead known "évi" 233 [118; 105] (lit " ")); auto using lead_space.
  Qed.
  Lemma f_act_other o t : quiet is_ascii_ws t -> quiet is_digit t -> fails g_act_id_rule o t.
  Proof. intros W D. unfold g_act_id_rule. apply f_located, f_bind1, f_sk; [exact W|now apply f_number]. Qed.
  Lemma not_evi_paren t : not_evi (lit "–" ++ t). Proof. split; [reflexivity|left; split; reflexivity]. Qed.
  Lemma not_evi_numeric n v : numeric_ok n = true -> quiet is_ascii_ws v -> quiet (N.eqb 233) v ->
    exists m u, numeric_show n ++ lit "." ++ lit " " ++ v = show_N m ++ u /\ not_evi u.
  Proof.
    intros H W Q. unfold numeric_show. apply andb_true_iff in H as [_ H]. destruct (n_suffix n) as [h|]; [rewrite <- app_assoc|]; eexists _, _; (split; [reflexivity|]).
    - split; [now apply quiet_letter_digit|]. left. split; [|now apply quiet_ws_hic]. apply quiet_hic; [exact H|]. intros c. unfold in_range. rewrite andb_true_iff, !N.leb_le, N.eqb_neq. lia.
    - split; [reflexivity|]. right. exists v. auto.
  Qed.
  Lemma not_evi_numeric2 n v : numeric_ok n = true -> exists m u, numeric_show n ++ lit "–" ++ v = show_N m ++ u /\ not_evi u.
  Proof.
    intros H. unfold numeric_show. apply andb_true_iff in H as [_ H]. destruct (n_suffix n) as [h|]; [rewrite <- app_assoc|]; eexists _, _; (split; [reflexivity|]).
    - split; [now apply quiet_letter_digit|]. left. split; [|now apply quiet_ws_hic]. apply quiet_hic; [exact H|]. intros c. unfold in_range. rewrite andb_true_iff, !N.leb_le, N.eqb_neq. lia.
    - apply not_evi_paren.
  Qed.
  Lemma not_evi_article x v : quiet is_ascii_ws v -> quiet (N.eqb 233) v -> exists m u, article_show x ++ lit "." ++ lit " " ++ v = show_N m ++ u /\ not_evi u.
  Proof.
    intros W Q. unfold article_show. rewrite <- app_assoc. destruct (a_book x); [rewrite <- app_assoc; eexists _, _; split; [reflexivity|]; split; [reflexivity|left; split; reflexivity]|]. cbn [app].
    unfold numeric_show_slash. destruct (n_suffix (a_ident x)); [rewrite <- app_assoc|]; eexists _, _; (split; [reflexivity|]); (split; [reflexivity|]); [left; split; reflexivity|right; exists v; auto].
  Qed.
  Lemma not_evi_article2 x v : exists m u, article_show x ++ lit "–" ++ v = show_N m ++ u /\ not_evi u.
  Proof.
    unfold article_show. rewrite <- app_assoc. destruct (a_book x); [rewrite <- app_assoc; eexists _, _; split; [reflexivity|]; split; [reflexivity|left; split; reflexivity]|]. cbn [app].
    unfold numeric_show_slash. destruct (n_suffix (a_ident x)); [rewrite <- app_assoc|]; eexists _, _; (split; [reflexivity|]); (split; [reflexivity|]); left; split; reflexivity.
  Qed.
  Definition part_good (p : any_part) : Prop := match p with PartPoint q => pt_good q | PartSubpoint q => sp_good q | _ => True end.
  Lemma part_begins p i n n' v : part_good p -> said_part p i n n' -> begins (i ++ v).
  Proof.
    intros G P. inversion P as [r' ? C|r' ? C|r' ? C|r' ? C|r' ? C|r' ? C]; subst; cbn in G; destruct C as [[_ ->]|[_ ->]]; unfold from_to; cbn [app]; rewrite <- !app_assoc;
      auto using begins_article, begins_numeric; try (exists 40; eexists; split; [reflexivity|]; right; left; reflexivity).
    - apply begins_hic, G.
    - apply begins_hic, G.
    - apply begins_prefixed; apply G.
    - apply begins_prefixed; apply G.
  Qed.
  Lemma part_not_act p i n n' v o : part_good p -> said_part p i n n' -> quiet is_ascii_ws v -> quiet (N.eqb 233) v -> fails g_act_id_rule o (i ++ lit " " ++ v).
  Proof.
    intros G P W Q. pose proof (part_begins p i n n' (lit " " ++ v) G P) as B.
    assert (K : (exists m u, i ++ lit " " ++ v = show_N m ++ u /\ not_evi u) \/ quiet is_digit (i ++ lit " " ++ v)).
    { inversion P as [r' ? C|r' ? C|r' ? C|r' ? C|r' ? C|r' ? C]; subst; cbn in G; destruct C as [[_ ->]|[_ ->]]; unfold from_to; cbn [app]; rewrite <- !app_assoc;
        auto using not_evi_article, not_evi_article2.
      - right. reflexivity.
      - right. reflexivity.
      - left. apply not_evi_numeric; auto. apply G.
      - left. apply not_evi_numeric2. apply G.
      - right. apply quiet_hic; [apply G|apply az_not_digit].
      - right. apply quiet_hic; [apply G|apply az_not_digit].
      - left. apply not_evi_numeric; auto. apply G.
      - left. apply not_evi_numeric2. apply G.
      - right. apply quiet_prefixed; [apply G|apply az_not_digit].
      - right. apply quiet_prefixed; [apply G|apply az_not_digit]. }
    destruct K as [(m & u & E & K)|K]; [rewrite E; now apply f_act_number|]. apply f_act_other; [now apply begins_ws|exact K].
  Qed.
  Lemma noun_starts p i n n' t : said_part p i n n' -> (quiet is_ascii_ws (n ++ t) /\ quiet (N.eqb 233) (n ++ t)) /\ (quiet is_ascii_ws n' /\ quiet (N.eqb 233) n').
  Proof. inversion 1; subst; repeat split; reflexivity. Qed.
  Lemma parts_good r : readable_ref r -> Forall part_good (lower_parts r).
  Proof.
    intros R. unfold lower_parts. rewrite !Forall_app. split; [|split; [|split]].
    - destruct (f_article r); repeat constructor.
    - destruct (f_paragraph r); repeat constructor.
    - destruct (f_point r) eqn:E; [|constructor]. constructor; [|constructor]. now apply (good_point r).
    - destruct (f_subpoint r) eqn:E; [|constructor]. constructor; [|constructor]. now apply (good_sub r).
  Qed.
  Lemma ended_begins ps s u o : Forall part_good ps -> said_ended ps s -> begins (s ++ u) /\ fails g_act_id_rule o (s ++ u).
  Proof.
    intros F H. destruct ps as [|p ps]; [now apply ended_nil in H|]. inversion F; subst. apply ended_split in H as (i & n & n' & P & H).
    destruct H as [(_ & e & _ & ->)|(s' & _ & ->)]; rewrite <- !app_assoc; (split; [eapply part_begins; eauto|]).
    - destruct (noun_starts _ _ _ _ (e ++ u) P) as [[A B] _]. eapply part_not_act; eauto.
    - destruct (noun_starts _ _ _ _ (lit " " ++ s' ++ u) P) as [[A B] _]. eapply part_not_act; eauto.
  Qed.
  Lemma said_begins ps s o : Forall part_good ps -> said_parts ps s -> begins s /\ fails g_act_id_rule o s.
  Proof.
    intros F H. destruct ps as [|p ps]; [now apply said_nil in H|]. inversion F; subst. apply said_split in H as (i & n & n' & P & H). 
    destruct H as [[_ ->]|(s' & _ & ->)]; (split; [eapply part_begins; eauto|]).
    - destruct (noun_starts _ _ _ _ [] P) as [_ [A B]]. eapply part_not_act; eauto.
    - destruct (noun_starts _ _ _ _ (lit " " ++ s') P) as [[A B] _]. eapply part_not_act; eauto.
  Qed.
End Run.
