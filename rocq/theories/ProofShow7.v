(** Proofs for C67: whole references. *)
From Verif Require Export ProofShow6.
From Coq Require Import Lia.
Local Open Scope peg_scope.
Local Open Scope N_scope.

(** [e] is the ending of the last noun. *)
Definition tail_sub (e : str) (z : ref_subpoint) (s : str) : Prop := exists i, sp_text z i /\ s = i ++ lit " " ++ lit "alpont" ++ e.
Definition tail_point (e : str) (q : ref_point) (so : option ref_subpoint) (s : str) : Prop :=
  exists i, pt_text q i /\ match so with
                           | None => s = i ++ lit " " ++ lit "pont" ++ e
                           | Some z => exists s', tail_sub e z s' /\ s = i ++ lit " " ++ lit "pont" ++ lit " " ++ s'
                           end.
Definition tail_par (e : str) (r : ref_paragraph) (po : option ref_point) (so : option ref_subpoint) (s : str) : Prop :=
  exists i, closed_by_paren (lit "(") numeric_show r i /\ match po with
                           | None => so = None /\ s = i ++ lit " " ++ lit "bekezdés" ++ e
                           | Some q => exists s', tail_point e q so s' /\ s = i ++ lit " " ++ lit "bekezdés" ++ lit " " ++ s'
                           end.
Definition po_read (x : two_kinds) (po : option ref_point) (o : N) : Prop := match po with None => x = no_kind | Some q => pt_read x q o end.
Definition so_read (x : two_kinds) (so : option ref_subpoint) : Prop := match so with None => x = no_kind | Some q => exists o, sp_read x q o end.
Definition so_good (so : option ref_subpoint) : Prop := match so with Some z => sp_good z | None => True end.

Record gref_read (r : reference) (g : g_ref) (o e : N) : Prop := {
  gr1 : match f_article r with None => gr_article g = None | Some x => exists p, gr_article g = Some [p] /\ ps_start (ga_pos p) = o /\ article_part p = Ok x end;
  gr2 : match f_paragraph r with
        | None => gr_paragraph g = None
        | Some x => exists p, gr_paragraph g = Some [p] /\ part_range numeric_parse p = Ok x /\ (f_article r = None -> ps_start (gp_pos p) = o)
        end;
  gr3 : match f_point r with
        | None => (gr_num_point g, gr_alpha_point g) = no_kind
        | Some q => exists st, pt_read (gr_num_point g, gr_alpha_point g) q st /\ (f_article r = None -> f_paragraph r = None -> st = o)
        end;
  gr4 : match f_subpoint r with
        | None => (gr_num_sub g, gr_alpha_sub g) = no_kind
        | Some q => exists st, sp_read (gr_num_sub g, gr_alpha_sub g) q st /\ (f_article r = None -> f_paragraph r = None -> f_point r = None -> st = o)
        end;
  gr5 : gr_pos g = ModelSem.mkPos o e }.

Section Run.
  Variable known : list str.
  Local Notation yields := (yields known).
  Local Notation fails := (fails known).

  Lemma tail_sub_head f e z s t : sp_good z -> tail_sub e z s -> (forall c, is_digit c = true -> f c = false) -> (forall c, in_range 97 122 c = true -> f c = false) -> s <> [] /\ quiet f (s ++ t).
  Proof.
    intros G (i & C & ->) D A. destruct (sp_head f z i ((lit " " ++ lit "alpont" ++ e) ++ t) G C D A) as [NE Q]. split; [|now rewrite <- app_assoc].
    intros E. apply app_eq_nil in E. tauto.
  Qed.
  Lemma tail_point_head f e q so s t : pt_good q -> tail_point e q so s -> (forall c, is_digit c = true -> f c = false) -> (forall c, in_range 97 122 c = true -> f c = false) -> s <> [] /\ quiet f (s ++ t).
  Proof.
    intros G (i & C & H) D A. assert (K : exists u, s = i ++ lit " " ++ u).
    { destruct so as [z|]; [destruct H as (s' & _ & ->)|subst s]; eexists; reflexivity. }
    destruct K as [u ->]. destruct (pt_head f q i ((lit " " ++ u) ++ t) G C D A) as [NE Q]. split; [|now rewrite <- app_assoc]. intros E. apply app_eq_nil in E. tauto.
  Qed.
  Lemma tail_par_head e r po so s : tail_par e r po so s -> exists u, s = 40 :: u.
  Proof.
    intros (i & C & H). assert (K : exists u, i = 40 :: u).
    { destruct C as [[_ ->]|[_ ->]]; unfold from_to; cbn [app]; eexists; reflexivity. }
    destruct K as [u ->]. destruct po as [q|]; [destruct H as (s' & _ & ->)|destruct H as [_ ->]]; cbn [app]; eexists; reflexivity.
  Qed.
  Lemma f_subpoints_nil o : fails subpoints_of o [].
  Proof.
    unfold subpoints_of. apply f_alt; apply f_bind1.
    - apply (f_level known alpha_subpoint_part "alpont" [] o []); [apply lead_none|exact I|]. intros o1. apply f_alpha_sub; exact I.
    - apply (f_level known num_subpoint_part "alpont" [] o []); [apply lead_none|exact I|]. intros o1. apply f_num_sub; exact I.
  Qed.
  Lemma f_points_nil o : fails points_of o [].
  Proof.
    unfold points_of. apply f_alt; apply f_bind1.
    - apply (f_level known alpha_point_part "pont" [] o []); [apply lead_none|exact I|]. intros o1. apply f_alpha_point; exact I.
    - apply (f_level known num_point_part "pont" [] o []); [apply lead_none|exact I|]. intros o1. apply f_num_point; exact I.
  Qed.
  Lemma no_paren_digit c : is_digit c = true -> (40 =? c) = false.
  Proof. unfold is_digit. rewrite andb_true_iff, !N.leb_le, N.eqb_neq. lia. Qed.
  Lemma no_paren_az c : in_range 97 122 c = true -> (40 =? c) = false.
  Proof. unfold in_range. rewrite andb_true_iff, !N.leb_le, N.eqb_neq. lia. Qed.
  Lemma no_dash_digit c : is_digit c = true -> existsb (N.eqb c) dash_chars = false.
  Proof. unfold is_digit. rewrite andb_true_iff, !N.leb_le. intros H. unfold dash_chars. change (lit "−–-") with [8722; 8211; 45]. cbn [existsb]. rewrite !orb_false_iff, !N.eqb_neq. lia. Qed.
  Lemma no_dash_az c : in_range 97 122 c = true -> existsb (N.eqb c) dash_chars = false.
  Proof. unfold in_range. rewrite andb_true_iff, !N.leb_le. intros H. unfold dash_chars. change (lit "−–-") with [8722; 8211; 45]. cbn [existsb]. rewrite !orb_false_iff, !N.eqb_neq. lia. Qed.
  (** What may follow a reference *)
  Record after_ref (u : str) : Prop := {
    ar_lower : quiet is_hun_lower u; ar_dash : quiet (N.eqb 45) u; ar_no_dash : forall o, fails (sk dash) o u;
    ar_sub : forall o, fails subpoints_of o u; ar_point : forall o, fails points_of o u;
    ar_par : forall o, fails reference_with_paragraph o u }.
  Section Rest.
  Variables (e u : str).
  Hypothesis small : forallb is_hun_lower e = true.
  Hypothesis after : after_ref u.
  Local Notation tail_sub := (tail_sub e).
  Local Notation tail_point := (tail_point e).
  Local Notation tail_par := (tail_par e).
  Lemma y_sub_tail z s l o : sp_good z -> tail_sub z s -> lead l -> exists x, yields subpoints_of o (l ++ s ++ u) x (o + utf8_len (l ++ s)) u /\ sp_read x z (o + utf8_len l).
  Proof.
    intros G (i & C & ->) L. destruct (y_subpoints known z i l o e u G C L small (ar_lower _ after)) as (x & Y & R). exists x. split; [|exact R]. now rewrite <- !app_assoc.
  Qed.
  Lemma y_rwp q so s l o : pt_good q -> so_good so -> tail_point q so s -> lead l ->
    exists x y, yields reference_with_point o (l ++ s ++ u) (x, y) (o + utf8_len (l ++ s)) u /\ pt_read x q (o + utf8_len l) /\ so_read y so.
  Proof.
    intros G Gs (i & C & H) L. unfold reference_with_point. destruct so as [z|].
    - destruct H as (s' & T & ->). rewrite <- !app_assoc. destruct (y_points known q i l o [] (lit " " ++ s' ++ u) G C L eq_refl eq_refl) as (x & Y & R).
      destruct (y_sub_tail z s' (lit " ") (o + utf8_len (l ++ i ++ lit " " ++ lit "pont" ++ [])) Gs T lead_space) as (y & Y' & R').
      exists x, y. split; [|split; [exact R|eexists; exact R']]. eapply y_bind; [exact Y|]. eapply y_bind; [apply y_some; exact Y'|]. eapply y_eq; [apply y_ret|].
      cbn [app]. rewrite !utf8_len_app. change (utf8_len []) with 0. lia.
    - subst s. rewrite <- !app_assoc. destruct (y_points known q i l o e u G C L small (ar_lower _ after)) as (x & Y & R). exists x, no_kind. split; [|split; [exact R|reflexivity]].
      eapply y_bind; [exact Y|]. eapply y_bind; [apply y_none, (ar_sub _ after)|]. apply y_ret.
  Qed.
  Lemma y_rwpar r po so s l o : range_of (fun x => numeric_ok x = true) r -> (forall q, po = Some q -> pt_good q) -> so_good so -> tail_par r po so s -> lead l ->
    exists p x y st, yields reference_with_paragraph o (l ++ s ++ u) ([p], (x, y)) (o + utf8_len (l ++ s)) u /\ ps_start (gp_pos p) = o + utf8_len l /\
      part_range numeric_parse p = Ok r /\ po_read x po st /\ so_read y so.
  Proof.
    intros G Gp Gs (i & C & H) L. unfold reference_with_paragraph.
    assert (W : quiet is_ascii_ws i /\ i <> []) by (destruct C as [[_ ->]|[_ ->]]; unfold from_to; cbn [app]; split; try reflexivity; discriminate). destruct W as [W NE].
    destruct po as [q|].
    - destruct H as (s' & T & ->). rewrite <- !app_assoc. destruct (y_level known numeric_parse paragraph_reference_part "bekezdés" i r l o [] (lit " " ++ s' ++ u) (read_paragraph known r i G C) L W NE) as (p & Y & Y1 & Y2); auto; try reflexivity; [now cbn|].
      destruct (y_rwp q so s' (lit " ") (o + utf8_len (l ++ i ++ lit " " ++ lit "bekezdés" ++ [])) (Gp q eq_refl) Gs T lead_space) as (x & y & Y' & R & R').
      exists p, x, y. eexists. split; [|split; [exact Y1|split; [exact Y2|split; [exact R|exact R']]]]. eapply y_bind; [exact Y|]. eapply y_bind; [apply y_some; exact Y'|]. eapply y_eq; [apply y_ret|].
      cbn [app]. rewrite !utf8_len_app. change (utf8_len []) with 0. lia.
    - destruct H as [-> ->]. rewrite <- !app_assoc. destruct (y_level known numeric_parse paragraph_reference_part "bekezdés" i r l o e u (read_paragraph known r i G C) L W NE) as (p & Y & Y1 & Y2); auto using ar_lower; try reflexivity; [now cbn|].
      exists p, no_kind, no_kind, 0. split; [|split; [exact Y1|split; [exact Y2|split; reflexivity]]]. eapply y_bind; [exact Y|].
      eapply y_bind; [apply y_none; apply f_bind1, (ar_point _ after)|]. apply y_ret.
  Qed.
  Lemma f_rwpar l o t : lead l -> quiet is_ascii_ws t -> quiet (N.eqb 40) t -> fails reference_with_paragraph o (l ++ t).
  Proof.
    intros L W Q. unfold reference_with_paragraph. apply f_bind1. apply (f_level known paragraph_reference_part "bekezdés" l o t); auto. intros o1. now apply f_paragraph_part.
  Qed.

  (** ** The rule for references *)
  (** after an article *)
  Definition y_art_facts (r : ref_article) (i : str) : Prop := range_of (fun x => article_ok x = true) r /\ a_book (r_start r) = a_book (r_end r) /\
    one_letter (a_ident (r_start r)) /\ one_letter (a_ident (r_end r)) /\ dotted article_show r i.
  Lemma y_art r i l o n t : y_art_facts r i -> lead l -> article_noun n t -> (forall o, fails (sk dash) o t) ->
    exists p, yields (sk article_reference) o (l ++ i ++ lit " " ++ n ++ t) [p] (o + utf8_len (l ++ i ++ lit " " ++ n)) t /\ ps_start (ga_pos p) = o + utf8_len l /\ article_part p = Ok r.
  Proof. intros (A & B & C & D & E). now apply y_article. Qed.

  Lemma ref_article_paragraph r i ra rp po so s o : f_article r = Some ra -> f_paragraph r = Some rp -> f_point r = po -> f_subpoint r = so -> y_art_facts ra i ->
    range_of (fun x => numeric_ok x = true) rp -> (forall q, po = Some q -> pt_good q) -> so_good so -> tail_par rp po so s ->
    exists g, yields g_reference o (i ++ lit " " ++ lit "§" ++ lit " " ++ s ++ u) g (o + utf8_len (i ++ lit " " ++ lit "§" ++ lit " " ++ s)) u /\ gref_read r g o (o + utf8_len (i ++ lit " " ++ lit "§" ++ lit " " ++ s)).
  Proof.
    intros E1 E2 E3 E4 A G Gp Gs T. destruct (tail_par_head _ _ _ _ _ T) as [u0 EU].
    destruct (y_art ra i [] o (lit "§") (lit " " ++ s ++ u) A lead_none) as (p & Y & Y1 & Y2); [left; split; reflexivity|intros o1; rewrite EU; apply f_sk_sp; [reflexivity|now apply f_chr]|].
    destruct (y_rwpar rp po so s (lit " ") (o + utf8_len ([] ++ i ++ lit " " ++ lit "§")) G Gp Gs T lead_space) as (pp & x & y & st & Y' & R1 & R2 & R3 & R4).
    eexists. split.
    - unfold g_reference. eapply y_located. apply y_alt1. eapply y_bind; [exact Y|]. eapply y_bind; [exact Y'|]. eapply y_eq; [apply y_ret|]. cbn [app]. rewrite !utf8_len_app. change (utf8_len []) with 0. lia.
    - rewrite <- E3, <- E4 in *. constructor; rewrite ?E1, ?E2; cbn.
      + exists p. repeat split; auto. rewrite Y1. change (utf8_len []) with 0. lia.
      + exists pp. repeat split; auto. discriminate.
      + destruct (f_point r) as [q|]; cbn in R3.
        * exists st. split; [now destruct x|discriminate].
        * now rewrite R3.
      + destruct (f_subpoint r) as [q|]; cbn in R4.
        * destruct R4 as [st' R4]. exists st'. split; [now destruct y|discriminate].
        * now rewrite R4.
      + reflexivity.
  Qed.
  Lemma ref_article_point r i ra q so s o : f_article r = Some ra -> f_paragraph r = None -> f_point r = Some q -> f_subpoint r = so -> y_art_facts ra i ->
    pt_good q -> so_good so -> tail_point q so s ->
    exists g, yields g_reference o (i ++ lit " " ++ lit "§" ++ lit " " ++ s ++ u) g (o + utf8_len (i ++ lit " " ++ lit "§" ++ lit " " ++ s)) u /\ gref_read r g o (o + utf8_len (i ++ lit " " ++ lit "§" ++ lit " " ++ s)).
  Proof.
    intros E1 E2 E3 E4 A G Gs T.
    assert (H : forall f t, (forall c, is_digit c = true -> f c = false) -> (forall c, in_range 97 122 c = true -> f c = false) -> quiet f (s ++ t)) by (intros f t D1 D2; now apply (tail_point_head f e q so)).
    assert (H' : forall f, (forall c, is_digit c = true -> f c = false) -> (forall c, in_range 97 122 c = true -> f c = false) -> quiet f (s ++ u)) by (intros f D1 D2; now apply H).
    destruct (y_art ra i [] o (lit "§") (lit " " ++ s ++ u) A lead_none) as (p & Y & Y1 & Y2).
    { left; split; reflexivity. }
    { intros o1; apply f_sk_sp; [apply H'; [apply no_ws_digit|apply az_not_ws]|apply f_chr, H'; [apply no_dash_digit|apply no_dash_az]]. }
    destruct (y_rwp q so s (lit " ") (o + utf8_len ([] ++ i ++ lit " " ++ lit "§")) G Gs T lead_space) as (x & y & Y' & R3 & R4).
    eexists. split.
    - unfold g_reference. eapply y_located. apply y_alt2.
      + eapply f_bind2; [exact Y|]. apply f_bind1. apply f_rwpar; [apply lead_space|apply H'; [apply no_ws_digit|apply az_not_ws]|apply H'; [apply no_paren_digit|apply no_paren_az]].
      + apply y_alt1. eapply y_bind; [exact Y|]. eapply y_bind; [apply y_some; exact Y'|]. eapply y_eq; [apply y_ret|]. cbn [app]. rewrite !utf8_len_app. change (utf8_len []) with 0. lia.
    - rewrite <- E4 in *. constructor; rewrite ?E1, ?E2, ?E3; cbn.
      + exists p. repeat split; auto. rewrite Y1. change (utf8_len []) with 0. lia.
      + reflexivity.
      + eexists. split; [destruct x; exact R3|discriminate].
      + destruct (f_subpoint r) as [z|]; cbn in R4.
        * destruct R4 as [st' R4]. exists st'. split; [now destruct y|discriminate].
        * now rewrite R4.
      + reflexivity.
  Qed.
  Lemma ref_article_only r i n ra o : f_article r = Some ra -> f_paragraph r = None -> f_point r = None -> f_subpoint r = None -> y_art_facts ra i -> article_noun n u ->
    exists g, yields g_reference o (i ++ lit " " ++ n ++ u) g (o + utf8_len (i ++ lit " " ++ n)) u /\ gref_read r g o (o + utf8_len (i ++ lit " " ++ n)).
  Proof.
    intros E1 E2 E3 E4 A N.
    destruct (y_art ra i [] o n u A lead_none N (ar_no_dash _ after)) as (p & Y & Y1 & Y2). cbn [app] in Y.
    eexists. split.
    - unfold g_reference. eapply y_located. apply y_alt2.
      + eapply f_bind2; [exact Y|]. apply f_bind1. apply (ar_par _ after).
      + apply y_alt1. eapply y_bind; [exact Y|]. eapply y_bind; [apply y_none, f_bind1, (ar_point _ after)|]. apply y_ret.
    - constructor; rewrite ?E1, ?E2, ?E3, ?E4; cbn; try reflexivity. exists p. repeat split; auto. rewrite Y1. change (utf8_len []) with 0. lia.
  Qed.
  Lemma ref_paragraph r rp po so s o : f_article r = None -> f_paragraph r = Some rp -> f_point r = po -> f_subpoint r = so ->
    range_of (fun x => numeric_ok x = true) rp -> (forall q, po = Some q -> pt_good q) -> so_good so -> tail_par rp po so s ->
    exists g, yields g_reference o (s ++ u) g (o + utf8_len s) u /\ gref_read r g o (o + utf8_len s).
  Proof.
    intros E1 E2 E3 E4 G Gp Gs T. destruct (tail_par_head _ _ _ _ _ T) as [u0 EU].
    assert (F : forall o, fails (sk article_reference) o (s ++ u)) by (intros o1; rewrite EU; apply (f_article_other known [] o1); [apply lead_none|reflexivity|reflexivity]).
    destruct (y_rwpar rp po so s [] o G Gp Gs T lead_none) as (pp & x & y & st & Y' & R1 & R2 & R3 & R4). cbn [app] in Y'.
    eexists. split.
    - unfold g_reference. eapply y_located. apply y_alt2; [apply f_bind1, F|]. apply y_alt2; [apply f_bind1, F|]. apply y_alt1. eapply y_bind; [exact Y'|]. apply y_ret.
    - rewrite <- E3, <- E4 in *. constructor; rewrite ?E1, ?E2; cbn.
      + reflexivity.
      + exists pp. repeat split; auto. intros _. rewrite R1. change (utf8_len []) with 0. lia.
      + destruct (f_point r) as [q|]; cbn in R3.
        * exists st. split; [now destruct x|discriminate].
        * now rewrite R3.
      + destruct (f_subpoint r) as [q|]; cbn in R4.
        * destruct R4 as [st' R4]. exists st'. split; [now destruct y|discriminate].
        * now rewrite R4.
      + reflexivity.
  Qed.
  Lemma f_article_pt q i l o v : pt_good q -> pt_text q i -> lead l -> noun_like v -> quiet (N.eqb 167) v -> fails (sk article_reference) o (l ++ i ++ lit " " ++ v).
  Proof.
    intros G C L N Q. destruct q as [r|r]; cbn in *; [now apply (f_article_num known r)|]. apply f_article_other; [exact L|..]; apply (paren_head hic_show _ r); try exact C; intros v1; apply quiet_hic;
      try exact (proj1 G); [apply az_not_ws|apply az_not_digit].
  Qed.
  Lemma f_article_sp q i l o v : sp_good q -> sp_text q i -> lead l -> noun_like v -> quiet (N.eqb 167) v -> fails (sk article_reference) o (l ++ i ++ lit " " ++ v).
  Proof.
    intros G C L N Q. destruct q as [r|r]; cbn in *; [now apply (f_article_num known r)|]. apply f_article_other; [exact L|..]; apply (paren_head prefixed_show _ r); try exact C; intros v1; apply quiet_prefixed;
      try exact (proj1 (proj1 G)); [apply az_not_ws|apply az_not_digit].
  Qed.
  Lemma ref_point_first r q so s o : f_article r = None -> f_paragraph r = None -> f_point r = Some q -> f_subpoint r = so -> pt_good q -> so_good so -> tail_point q so s ->
    exists g, yields g_reference o (s ++ u) g (o + utf8_len s) u /\ gref_read r g o (o + utf8_len s).
  Proof.
    intros E1 E2 E3 E4 G Gs T.
    assert (F : forall o, fails (sk article_reference) o (s ++ u)).
    { intros o1. destruct T as (i & C & H). destruct so as [z|]; [destruct H as (s' & _ & ->)|subst s].
      - rewrite <- !app_assoc. apply (f_article_pt q i [] o1 (lit "pont" ++ lit " " ++ s' ++ u) G C lead_none); [now cbn|reflexivity].
      - rewrite <- !app_assoc. apply (f_article_pt q i [] o1 (lit "pont" ++ e ++ u) G C lead_none); [now cbn|reflexivity]. }
    assert (H' : forall f, (forall c, is_digit c = true -> f c = false) -> (forall c, in_range 97 122 c = true -> f c = false) -> quiet f (s ++ u)) by (intros f D1 D2; now apply (tail_point_head f e q so)).
    assert (F' : forall o, fails reference_with_paragraph o (s ++ u)).
    { intros o1. apply (f_rwpar []); [apply lead_none|apply H'; [apply no_ws_digit|apply az_not_ws]|apply H'; [apply no_paren_digit|apply no_paren_az]]. }
    destruct (y_rwp q so s [] o G Gs T lead_none) as (x & y & Y' & R3 & R4). cbn [app] in Y'.
    eexists. split.
    - unfold g_reference. eapply y_located. apply y_alt2; [apply f_bind1, F|]. apply y_alt2; [apply f_bind1, F|]. apply y_alt2; [apply f_bind1, F'|]. apply y_alt1. eapply y_bind; [exact Y'|]. apply y_ret.
    - rewrite <- E4 in *. constructor; rewrite ?E1, ?E2, ?E3; cbn; try reflexivity.
      + exists (o + utf8_len []). split; [destruct x; exact R3|]. intros _ _. change (utf8_len []) with 0. lia.
      + destruct (f_subpoint r) as [z|]; cbn in R4.
        * destruct R4 as [st' R4]. exists st'. split; [now destruct y|discriminate].
        * now rewrite R4.
  Qed.
  Lemma ref_sub_first r z s o : f_article r = None -> f_paragraph r = None -> f_point r = None -> f_subpoint r = Some z -> sp_good z -> tail_sub z s ->
    exists g, yields g_reference o (s ++ u) g (o + utf8_len s) u /\ gref_read r g o (o + utf8_len s).
  Proof.
    intros E1 E2 E3 E4 G T.
    assert (F : forall o, fails (sk article_reference) o (s ++ u)).
    { intros o1. destruct T as (i & C & ->). rewrite <- !app_assoc. apply (f_article_sp z i [] o1 (lit "alpont" ++ e ++ u) G C lead_none); [now cbn|reflexivity]. }
    assert (H' : forall f, (forall c, is_digit c = true -> f c = false) -> (forall c, in_range 97 122 c = true -> f c = false) -> quiet f (s ++ u)) by (intros f D1 D2; now apply (tail_sub_head f e z)).
    assert (F' : forall o, fails reference_with_paragraph o (s ++ u)).
    { intros o1. apply (f_rwpar []); [apply lead_none|apply H'; [apply no_ws_digit|apply az_not_ws]|apply H'; [apply no_paren_digit|apply no_paren_az]]. }
    assert (F2 : forall o, fails points_of o (s ++ u)).
    { intros o1. destruct T as (i & C & ->). rewrite <- !app_assoc. apply (f_points_sub known z i [] o1 (e ++ u) G C lead_none). }
    destruct (y_sub_tail z s [] o G T lead_none) as (y & Y' & R4). cbn [app] in Y'.
    eexists. split.
    - unfold g_reference. eapply y_located. apply y_alt2; [apply f_bind1, F|]. apply y_alt2; [apply f_bind1, F|]. apply y_alt2; [apply f_bind1, F'|]. apply y_alt2; [apply f_bind1, f_bind1, F2|].
      eapply y_bind; [exact Y'|]. apply y_ret.
    - constructor; rewrite ?E1, ?E2, ?E3, ?E4; cbn; try reflexivity. exists (o + utf8_len []). split; [destruct y; exact R4|]. intros _ _ _. change (utf8_len []) with 0. lia.
  Qed.
  End Rest.
  Lemma after_nil : after_ref [].
  Proof.
    constructor; try exact I; intros o; auto using f_subpoints_nil, f_points_nil.
    - apply f_sk; [exact I|now apply f_chr].
    - apply (f_rwpar []); [apply lead_none|exact I|exact I].
  Qed.
End Run.
