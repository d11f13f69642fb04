(** Proofs for C67: points, subpoints and paragraphs. *)
From Verif Require Export ProofShow5.
From Coq Require Import Lia.
Local Open Scope peg_scope.
Local Open Scope N_scope.

Definition pt_text (q : ref_point) (i : str) : Prop := match q with PtNum r => dotted numeric_show r i | PtAlpha r => closed_by_paren [] hic_show r i end.
Definition pt_good (q : ref_point) : Prop :=
  match q with PtNum r => range_of (fun x => numeric_ok x = true) r | PtAlpha r => range_of (fun x => hic_ok x = true) r end.
Definition sp_text (q : ref_subpoint) (i : str) : Prop := match q with SpNum r => dotted numeric_show r i | SpAlpha r => closed_by_paren [] prefixed_show r i end.
Definition sp_good (q : ref_subpoint) : Prop :=
  match q with
  | SpNum r => range_of (fun x => numeric_ok x = true) r /\ n_suffix (r_start r) = None /\ n_suffix (r_end r) = None
  | SpAlpha r => range_of (fun x => prefixed_ok x = true /\ prefixed_latin x = true) r
  end.
Definition pt_read (x : two_kinds) (q : ref_point) (o : N) : Prop :=
  match q with
  | PtNum r => exists p, x = (Some [p], None) /\ ps_start (gp_pos p) = o /\ part_range numeric_parse p = Ok r
  | PtAlpha r => exists p, x = (None, Some [p]) /\ ps_start (gp_pos p) = o /\ part_range hic_parse p = Ok r
  end.
Definition sp_read (x : two_kinds) (q : ref_subpoint) (o : N) : Prop :=
  match q with
  | SpNum r => exists p, x = (Some [p], None) /\ ps_start (gp_pos p) = o /\ part_range numeric_parse p = Ok r
  | SpAlpha r => exists p, x = (None, Some [p]) /\ ps_start (gp_pos p) = o /\ part_range prefixed_parse p = Ok r
  end.

Section Run.
  Variable known : list str.
  Local Notation yields := (yields known).
  Local Notation fails := (fails known).

  (** Beginnings *)
  Lemma dotted_head f r i t : dotted numeric_show r i -> (forall c, is_digit c = true -> f c = false) -> i <> [] /\ quiet f (i ++ t).
  Proof.
    intros C H. split.
    - destruct C as [[_ ->]|[_ ->]]; intros E; [apply app_eq_nil in E as [_ E]; discriminate|]. unfold from_to in E. apply app_eq_nil in E as [_ E]. discriminate.
    - assert (Q : forall n u, quiet f (numeric_show n ++ u)) by (intros n u; unfold numeric_show; destruct (n_suffix n); [rewrite <- app_assoc|]; now apply quiet_digits).
      destruct C as [[_ ->]|[_ ->]]; unfold from_to; rewrite <- !app_assoc; apply Q.
  Qed.
  Lemma quiet_hic f h t : hic_ok h = true -> (forall c, in_range 97 122 c = true -> f c = false) -> quiet f (hic_show h ++ t).
  Proof. intros H K. destruct h as [b| | | | | | | |]; apply K; try reflexivity. exact H. Qed.
  Lemma quiet_prefixed f p t : prefixed_ok p = true -> (forall c, in_range 97 122 c = true -> f c = false) -> quiet f (prefixed_show p ++ t).
  Proof.
    unfold prefixed_ok, prefixed_show. rewrite andb_true_iff. intros [H1 H2] K. rewrite <- app_assoc. destruct (p_prefix p) as [h|]; now apply quiet_hic.
  Qed.
  Lemma paren_head {T} (show : T -> str) f r i t : closed_by_paren [] show r i -> (forall u, quiet f (show (r_start r) ++ u)) -> i <> [] /\ quiet f (i ++ t).
  Proof.
    intros C H. split.
    - destruct C as [[_ ->]|[_ ->]]; cbn [app]; intros E; [apply app_eq_nil in E as [_ E]; discriminate|]. unfold from_to in E. apply app_eq_nil in E as [E _].
      apply app_eq_nil in E as [_ E]. discriminate.
    - destruct C as [[_ ->]|[_ ->]]; unfold from_to; cbn [app]; rewrite <- !app_assoc; apply H.
  Qed.
  Lemma az_not_digit c : in_range 97 122 c = true -> is_digit c = false.
  Proof. unfold in_range, is_digit. rewrite andb_true_iff, andb_false_iff, !N.leb_le, !N.leb_gt. lia. Qed.
  Lemma az_not_ws c : in_range 97 122 c = true -> is_ascii_ws c = false.
  Proof. intros H. apply az_no_ws. exact H. Qed.
  (** What cannot begin the two kinds of points and subpoints *)
  Lemma f_alpha_point o t : quiet is_ascii_ws t -> quiet (in_range 97 122) t -> fails alpha_point_part o t.
  Proof. intros W Q. apply f_range; apply f_sk; auto; apply f_sliced; now apply f_letter. Qed.
  Lemma f_num_point o t : quiet is_ascii_ws t -> quiet is_digit t -> fails num_point_part o t.
  Proof. intros W Q. apply f_range; apply f_sk; auto; apply f_sliced, f_bind1; now apply f_number. Qed.
  Lemma f_alpha_sub o t : quiet is_ascii_ws t -> quiet (in_range 97 122) t -> fails alpha_subpoint_part o t.
  Proof. intros W Q. apply f_range; apply f_sk; auto; apply f_sliced, f_bind1; now apply f_chr. Qed.
  Lemma f_num_sub o t : quiet is_ascii_ws t -> quiet is_digit t -> fails num_subpoint_part o t.
  Proof. intros W Q. apply f_range; apply f_sk; auto; apply f_sliced; now apply f_number. Qed.
  Lemma f_paragraph_part o t : quiet is_ascii_ws t -> quiet (N.eqb 40) t -> fails paragraph_reference_part o t.
  Proof. intros W Q. apply f_range; apply f_bind1; (eapply (f_T_lead known "(" 40 [] []); auto using lead_none). Qed.

  Lemma pt_head f q i t : pt_good q -> pt_text q i -> (forall c, is_digit c = true -> f c = false) -> (forall c, in_range 97 122 c = true -> f c = false) -> i <> [] /\ quiet f (i ++ t).
  Proof.
    destruct q as [r|r]; cbn; intros G C D A; [now apply (dotted_head f r)|]. apply (paren_head hic_show f r); [exact C|]. intros u. apply quiet_hic; [exact (proj1 G)|exact A].
  Qed.
  Lemma sp_head f q i t : sp_good q -> sp_text q i -> (forall c, is_digit c = true -> f c = false) -> (forall c, in_range 97 122 c = true -> f c = false) -> i <> [] /\ quiet f (i ++ t).
  Proof.
    destruct q as [r|r]; cbn; intros G C D A; [now apply (dotted_head f r)|]. apply (paren_head prefixed_show f r); [exact C|]. intros u. apply quiet_prefixed; [exact (proj1 (proj1 G))|exact A].
  Qed.

  (** ** Points *)
  Lemma y_points q i l o w t : pt_good q -> pt_text q i -> lead l -> forallb is_hun_lower w = true -> quiet is_hun_lower t ->
    exists x, yields points_of o (l ++ i ++ lit " " ++ lit "pont" ++ w ++ t) x (o + utf8_len (l ++ i ++ lit " " ++ lit "pont" ++ w)) t /\ pt_read x q (o + utf8_len l).
  Proof.
    intros G C L F Q. destruct (pt_head is_ascii_ws q i [] G C no_ws_digit az_not_ws) as [NE W]. rewrite app_nil_r in W.
    destruct q as [r|r]; cbn [pt_good pt_text] in *.
    - destruct (y_level known numeric_parse num_point_part "pont" i r l o w t (read_num_point known r i G C) L W NE) as (p & Y & Y1 & Y2); auto; [now cbn|].
      exists (Some [p], None). split; [|exists p; auto]. unfold points_of. apply y_alt2; [|eapply y_bind; [exact Y|apply y_ret]]. apply f_bind1.
      apply (f_level known alpha_point_part "pont" l o); [exact L|now apply (dotted_head is_ascii_ws r), no_ws_digit|]. intros o1. apply f_alpha_point.
      + now apply (dotted_head is_ascii_ws r), no_ws_digit.
      + now apply (dotted_head _ r), digit_not_az.
    - destruct (y_level known hic_parse alpha_point_part "pont" i r l o w t (read_alpha_point known r i G C) L W NE) as (p & Y & Y1 & Y2); auto; [now cbn|].
      exists (None, Some [p]). split; [|exists p; auto]. unfold points_of. apply y_alt1. eapply y_bind; [exact Y|apply y_ret].
  Qed.
  (** ** Subpoints *)
  Lemma y_subpoints q i l o w t : sp_good q -> sp_text q i -> lead l -> forallb is_hun_lower w = true -> quiet is_hun_lower t ->
    exists x, yields subpoints_of o (l ++ i ++ lit " " ++ lit "alpont" ++ w ++ t) x (o + utf8_len (l ++ i ++ lit " " ++ lit "alpont" ++ w)) t /\ sp_read x q (o + utf8_len l).
  Proof.
    intros G C L F Q. destruct (sp_head is_ascii_ws q i [] G C no_ws_digit az_not_ws) as [NE W]. rewrite app_nil_r in W.
    destruct q as [r|r]; cbn [sp_good sp_text] in *.
    - destruct G as (G & S1 & S2). destruct (y_level known numeric_parse num_subpoint_part "alpont" i r l o w t (read_num_sub known r i G S1 S2 C) L W NE) as (p & Y & Y1 & Y2); auto; [now cbn|].
      exists (Some [p], None). split; [|exists p; auto]. unfold subpoints_of. apply y_alt2; [|eapply y_bind; [exact Y|apply y_ret]]. apply f_bind1.
      apply (f_level known alpha_subpoint_part "alpont" l o); [exact L|now apply (dotted_head is_ascii_ws r), no_ws_digit|]. intros o1. apply f_alpha_sub.
      + now apply (dotted_head is_ascii_ws r), no_ws_digit.
      + now apply (dotted_head _ r), digit_not_az.
    - destruct (y_level known prefixed_parse alpha_subpoint_part "alpont" i r l o w t (read_alpha_sub known r i G C) L W NE) as (p & Y & Y1 & Y2); auto; [now cbn|].
      exists (None, Some [p]). split; [|exists p; auto]. unfold subpoints_of. apply y_alt1. eapply y_bind; [exact Y|apply y_ret].
  Qed.

  (** ** A subpoint is not a point *)
  Definition digraphs : list (str * hic) := [(lit "cs", Cs); (lit "dz", Dz); (lit "gy", Gy); (lit "ly", Ly); (lit "ny", Ny); (lit "sz", Sz); (lit "ty", Ty); (lit "zs", Zs)].
  Lemma letters_of p : prefixed_ok p = true -> prefixed_latin p = true ->
    (exists h, hic_ok h = true /\ hic_show h = prefixed_show p) \/
    (exists b c, prefixed_show p = [b; c] /\ in_range 97 122 c = true /\ forall o t, yields suffix_char o (b :: c :: t) tt (o + utf8_len [b]) (c :: t)).
  Proof.
    intros H L. unfold prefixed_ok, prefixed_latin, prefixed_show in *. destruct p as [q d]. cbn [p_prefix p_chr] in *. apply andb_true_iff in H as [H1 H2], L as [L1 L2].
    destruct d as [c| | | | | | | |]; try discriminate. destruct q as [[b| | | | | | | |]|]; try discriminate; cbn [hic_show app].
    - destruct (in_dec (list_eq_dec N.eq_dec) [b; c] (map fst digraphs)) as [I|NI].
      + left. apply in_map_iff in I as ((s & h) & E & I). cbn in E. subst s. cbn [digraphs In] in I.
        repeat (destruct I as [I|I]; [exists h; injection I; intros; subst; split; reflexivity|]). contradiction.
      + right. exists b, c. split; [reflexivity|]. split; [exact H2|]. intros o t. unfold suffix_char. apply y_alt2; [|apply y_chr; exact H1]. cbn [one_of].
        assert (K : forall s x y, lit s = [x; y] -> In (lit s) (map fst digraphs) -> fails (tok s) o (b :: c :: t)).
        { intros s x y E I. apply f_tok. rewrite E. cbn. destruct (N.eqb_spec x b) as [<-|]; [|reflexivity]. destruct (N.eqb_spec y c) as [<-|]; [|reflexivity]. rewrite E in I. contradiction. }
        repeat (apply f_alt; [eapply K; [reflexivity|cbn [map fst digraphs In]; tauto]|]). intros g _. reflexivity.
    - left. exists (Latin c). split; [exact H2|reflexivity].
  Qed.
  Lemma same_show x y : prefixed_ok x = true /\ prefixed_latin x = true -> prefixed_ok y = true /\ prefixed_latin y = true -> prefixed_show x = prefixed_show y -> x = y.
  Proof. intros [A B] [C D] E. pose proof (prefixed_parse_show x A B) as H. rewrite E, prefixed_parse_show in H by assumption. congruence. Qed.
  Lemma f_alpha_point_sub r i l o s : range_of (fun x => prefixed_ok x = true /\ prefixed_latin x = true) r -> closed_by_paren [] prefixed_show r i -> lead l ->
    fails (sk (g_level alpha_point_part "pont")) o (l ++ i ++ lit " " ++ lit "alpont" ++ s).
  Proof.
    intros [[G1 G1'] [G2 G2']] C L.
    assert (WS : forall t, quiet is_ascii_ws (i ++ t)) by (intros t; apply (paren_head prefixed_show is_ascii_ws r); [exact C|]; intros u; apply quiet_prefixed; [exact G1|exact az_not_ws]).
    destruct (letters_of _ G1 G1') as [(h1 & A1 & E1)|(b & c & E1 & Hc & Y1)].
    - destruct C as [[EQ ->]|[NE ->]].
      + eapply (f_level_noun known hic_parse alpha_point_part "pont" _ (single h1)); auto.
        * apply read_alpha_point; [split; exact A1|]. left. split; [reflexivity|]. cbn [single r_start]. now rewrite E1.
        * pose proof (WS []) as W. now rewrite app_nil_r in W.
        * cbn [app]. intros E. apply app_eq_nil in E as [_ E]. discriminate.
        * now cbn.
      + destruct (letters_of _ G2 G2') as [(h2 & A2 & E2)|(b & c & E2 & Hc & Y2)].
        * eapply (f_level_noun known hic_parse alpha_point_part "pont" _ (mkRange h1 h2)); auto.
          -- apply read_alpha_point; [split; assumption|]. right. cbn [r_start r_end]. split; [|now rewrite E1, E2]. intros <-. apply NE. apply same_show; auto. congruence.
          -- pose proof (WS []) as W. now rewrite app_nil_r in W.
          -- cbn [app]. unfold from_to. intros E. apply app_eq_nil in E as [_ E]. discriminate.
          -- now cbn.
        * apply f_sk_lead; [exact L|apply WS|]. intros o1. unfold g_level. rewrite E2, <- E1. unfold from_to. cbn [app]. rewrite <- !app_assoc. cbn [app].
          assert (Y : exists p, yields alpha_point_part o1 (hic_show h1 ++ lit ")" ++ lit "–" ++ b :: c :: lit ")" ++ lit " " ++ lit "alpont" ++ s) p
                 (o1 + utf8_len (hic_show h1) + utf8_len (lit ")")) (lit "–" ++ b :: c :: lit ")" ++ lit " " ++ lit "alpont" ++ s)).
             { eexists. unfold alpha_point_part, range_part. eapply y_located. apply y_alt2.
               - eapply f_bind2; [apply y_sk; [now apply quiet_ws_hic|apply y_alpha_point_id; auto using stop_paren]|].
                 eapply f_bind2; [eapply y_bind; [apply y_some, y_T; reflexivity|apply y_dash]|].
                 eapply f_bind2; [apply y_sk; [|unfold alpha_point_id; eapply (y_sliced known _ _ [b] (c :: lit ")" ++ lit " " ++ lit "alpont" ++ s)); apply Y2]|].
                 + assert (W : quiet is_ascii_ws (prefixed_show (r_end r) ++ [])) by (apply quiet_prefixed; [exact G2|exact az_not_ws]). rewrite E2 in W. exact W.
                 + apply f_bind1. apply f_sk; [apply az_not_ws; exact Hc|]. eapply (f_tok_first known (N.eqb 41)); [reflexivity|reflexivity|]. cbn. apply N.eqb_neq. intros <-. discriminate.
               - eapply y_bind; [apply y_sk; [now apply quiet_ws_hic|apply y_alpha_point_id; auto using stop_paren]|]. eapply y_bind; [apply y_T; reflexivity|]. apply y_ret. }
             destruct Y as [p Y]. eapply f_bind2.
          -- apply (y_sep_one known alpha_point_part [] o1 (hic_show h1 ++ lit ")" ++ lit "–" ++ b :: c :: lit ")" ++ lit " " ++ lit "alpont" ++ s) p
               (o1 + utf8_len (hic_show h1) + utf8_len (lit ")")) [] (lit "–" ++ b :: c :: lit ")" ++ lit " " ++ lit "alpont" ++ s) lead_none); auto using lead_none; try reflexivity.
             ++ now apply quiet_ws_hic.
             ++ change (utf8_len []) with 0. rewrite N.add_0_r. exact Y.
          -- apply f_bind1, f_sk; [reflexivity|]. apply f_bind1. now apply f_tok.
    - apply f_level; [exact L|apply WS|]. intros o1.
      assert (T1 : exists t, i ++ lit " " ++ lit "alpont" ++ s = b :: c :: t).
      { destruct C as [[_ ->]|[_ ->]]; unfold from_to; rewrite E1; cbn [app]; eexists; reflexivity. }
      destruct T1 as [t ET]. pose proof (WS (lit " " ++ lit "alpont" ++ s)) as W. rewrite ET in *.
      assert (Y : yields (sk alpha_point_id) o1 (b :: c :: t) [b] (o1 + utf8_len [b]) (c :: t)).
      { apply y_sk; [exact W|]. unfold alpha_point_id. eapply (y_sliced known _ _ [b] (c :: t)). apply Y1. }
      assert (P : forall o, fails (ModelGrammar.T ")") o (c :: t)).
      { intros o2. apply f_sk; [apply az_not_ws; exact Hc|]. eapply (f_tok_first known (N.eqb 41)); [reflexivity|reflexivity|]. cbn. apply N.eqb_neq. intros <-. discriminate. }
      unfold alpha_point_part, range_part. apply f_located, f_alt; (eapply f_bind2; [exact Y|]).
      + apply f_bind1. eapply f_bind2; [apply y_none, P|]. apply f_sk; [apply az_not_ws; exact Hc|]. apply f_chr. cbn [quiet].
        unfold in_range in Hc. apply andb_true_iff in Hc. rewrite !N.leb_le in Hc. unfold dash_chars. change (lit "−–-") with [8722; 8211; 45]. cbn [existsb]. rewrite !orb_false_iff, !N.eqb_neq. lia.
      + apply f_bind1, P.
  Qed.
  Lemma f_points_sub q i l o s : sp_good q -> sp_text q i -> lead l -> fails points_of o (l ++ i ++ lit " " ++ lit "alpont" ++ s).
  Proof.
    intros G C L. destruct (sp_head is_ascii_ws q i [] G C no_ws_digit az_not_ws) as [NE W]. rewrite app_nil_r in W. unfold points_of.
    destruct q as [r|r]; cbn [sp_good sp_text] in *; apply f_alt; apply f_bind1.
    - apply (f_level known alpha_point_part "pont" l o); [exact L|now apply (dotted_head is_ascii_ws r), no_ws_digit|]. intros o1. apply f_alpha_point.
      + now apply (dotted_head is_ascii_ws r), no_ws_digit.
      + now apply (dotted_head _ r), digit_not_az.
    - destruct G as (G & S1 & S2). eapply (f_level_noun known numeric_parse num_point_part "pont" i r); auto; [now apply read_num_point|now cbn].
    - now apply (f_alpha_point_sub r).
    - assert (H : forall f t, (forall c, in_range 97 122 c = true -> f c = false) -> quiet f (i ++ t)).
      { intros f t Hf. apply (paren_head prefixed_show f r); [exact C|]. intros u. apply quiet_prefixed; [exact (proj1 (proj1 G))|exact Hf]. }
      apply (f_level known num_point_part "pont" l o); [exact L|apply H, az_not_ws|]. intros o1. apply f_num_point; [apply H, az_not_ws|apply H, az_not_digit].
  Qed.
End Run.
