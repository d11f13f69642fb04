(** Proofs for C67: articles. *)
From Verif Require Export ProofShow4.
From Coq Require Import Lia.
Local Open Scope peg_scope.
Local Open Scope N_scope.

Section Run.
  Variable known : list str.
  Local Notation yields := (yields known).
  Local Notation fails := (fails known).

  Definition book_rule : parser str := n <- sk g_number ;; T ":" ;; ret n.
  Definition book_text (b : option N) : str := match b with Some b => show_N b ++ [chr ":"] | None => [] end.
  Lemma quiet_ws_slash n t : quiet is_ascii_ws (numeric_show_slash n ++ t).
  Proof. unfold numeric_show_slash. destruct (n_suffix n); [rewrite <- app_assoc|]; apply quiet_ws_number. Qed.
  Lemma f_book n o t : stop t -> fails book_rule o (numeric_show_slash n ++ t).
  Proof.
    intros S. unfold book_rule, numeric_show_slash. destruct (n_suffix n) as [h|].
    - rewrite <- !app_assoc. eapply f_bind2; [apply y_sk; [apply quiet_ws_number|apply y_number; reflexivity]|]. apply f_bind1. apply f_T; reflexivity.
    - eapply f_bind2; [apply y_sk; [apply quiet_ws_number|apply y_number; eapply stop_quiet; eauto; reflexivity]|]. apply f_bind1. destruct S as (c & t' & -> & I).
      apply f_T; destruct I as [<-|[<-|[<-|[]]]]; reflexivity.
  Qed.
  Lemma f_book' n o t : stop t -> fails (sk g_number ;; T ":") o (numeric_show_slash n ++ t).
  Proof.
    intros S. unfold numeric_show_slash. destruct (n_suffix n) as [h|].
    - rewrite <- !app_assoc. eapply f_bind2; [apply y_sk; [apply quiet_ws_number|apply y_number; reflexivity]|]. apply f_T; reflexivity.
    - eapply f_bind2; [apply y_sk; [apply quiet_ws_number|apply y_number; eapply stop_quiet; eauto; reflexivity]|]. destruct S as (c & t' & -> & I).
      apply f_T; destruct I as [<-|[<-|[<-|[]]]]; reflexivity.
  Qed.
  Lemma y_book b o t : yields book_rule o ((show_N b ++ [chr ":"]) ++ t) (show_N b) (o + utf8_len (show_N b ++ [chr ":"])) t.
  Proof.
    unfold book_rule. rewrite <- app_assoc. eapply y_bind; [apply y_sk; [apply quiet_ws_number|apply y_number; reflexivity]|].
    eapply y_bind; [exact (y_T known ":" _ t eq_refl)|]. eapply y_eq; [apply y_ret|]. rewrite utf8_len_app. change (utf8_len (lit ":")) with (utf8_len [chr ":"]). lia.
  Qed.
  (** What is after the full stop of a single article is not taken for a range. *)
  Definition after_dot (t : str) : Prop :=
    forall o, exists v o' t', yields (opt (T "." ;; sk article_suffix)) o (lit "." ++ t) v o' t' /\ fails (sk dash) o' t'.
  Lemma quiet_ws_article x t : quiet is_ascii_ws (article_show x ++ t).
  Proof. unfold article_show. rewrite <- app_assoc. destruct (a_book x); [rewrite <- app_assoc; apply quiet_ws_number|apply quiet_ws_slash]. Qed.
  Lemma utf8_article x : utf8_len (article_show x) = utf8_len (book_text (a_book x)) + utf8_len (numeric_show_slash (a_ident x)).
  Proof. unfold article_show, book_text. now rewrite utf8_len_app. Qed.
  Lemma y_opt_book x o t : stop t -> yields (opt book_rule) o (article_show x ++ t) (match a_book x with Some b => Some (show_N b) | None => None end)
    (o + utf8_len (book_text (a_book x))) (numeric_show_slash (a_ident x) ++ t).
  Proof.
    intros S. unfold article_show, book_text. destruct (a_book x) as [b|].
    - rewrite <- app_assoc. apply y_some, y_book.
    - cbn [app]. eapply y_eq; [apply y_none; now apply f_book|]. change (utf8_len []) with 0. lia.
  Qed.
  Lemma y_article_part r i o t : range_of (fun x => article_ok x = true) r -> a_book (r_start r) = a_book (r_end r) ->
    one_letter (a_ident (r_start r)) -> one_letter (a_ident (r_end r)) -> dotted article_show r i -> after_dot t ->
    exists p, yields article_reference_part o (i ++ t) p (o + utf8_len i) t /\ ga_pos p = ModelSem.mkPos o (o + utf8_len i) /\ article_part p = Ok r.
  Proof.
    intros [G1 G2] B L1 L2 C D. set (bk := match a_book (r_start r) with Some b => Some (show_N b) | None => None end).
    assert (PB : opt_ok parse_u8 bk = Ok (a_book (r_start r))).
    { unfold bk. unfold article_ok in G1. apply andb_true_iff in G1 as [G1 _]. destruct (a_book (r_start r)) as [b|]; [|reflexivity]. cbn. unfold parse_u8. rewrite parse_unsigned_show; [reflexivity|now apply N.leb_le]. }
    assert (N1 : numeric_ok (a_ident (r_start r)) = true) by (unfold article_ok in G1; apply andb_true_iff in G1; tauto).
    assert (N2 : numeric_ok (a_ident (r_end r)) = true) by (unfold article_ok in G2; apply andb_true_iff in G2; tauto).
    destruct C as [[E ->]|[NE ->]].
    - exists (mkGArt bk None None (Some (numeric_show_slash (a_ident (r_start r)))) (ModelSem.mkPos o (o + utf8_len (article_show (r_start r) ++ lit ".")))). split; [|split]; cycle 1.
      + reflexivity.
      + unfold article_part. cbn [ga_book ga_id]. rewrite PB. cbn [obind]. rewrite numeric_parse_show_slash by assumption. cbn. unfold single. destruct r as [[a a'] [b b']]; cbn in *. congruence.
      + unfold article_reference_part. eapply (y_located known _ _ _ (mkGArt bk None None (Some (numeric_show_slash (a_ident (r_start r)))))). rewrite <- app_assoc.
        eapply y_bind; [apply (y_opt_book (r_start r)), stop_dot|]. apply y_alt2.
        * eapply f_bind2; [apply y_sk; [apply quiet_ws_slash|apply y_article_id; auto using stop_dot]|].
          destruct (D (o + utf8_len (book_text (a_book (r_start r))) + utf8_len (numeric_show_slash (a_ident (r_start r))))) as (v & o' & t' & Y & F).
          eapply f_bind2; [exact Y|]. apply f_bind1. exact F.
        * eapply y_bind; [apply y_sk; [apply quiet_ws_slash|apply y_article_id; auto using stop_dot]|]. eapply y_bind; [apply y_T; reflexivity|].
          eapply y_eq; [apply y_ret|]. rewrite utf8_len_app, utf8_article. lia.
    - exists (mkGArt bk (Some (numeric_show_slash (a_ident (r_start r)))) (Some (numeric_show_slash (a_ident (r_end r)))) None
        (ModelSem.mkPos o (o + utf8_len (from_to (article_show (r_start r)) (article_show (r_end r)) ++ lit ".")))). split; [|split]; cycle 1.
      + reflexivity.
      + unfold article_part. cbn [ga_book ga_id ga_start ga_end]. rewrite PB. cbn [obind]. rewrite !numeric_parse_show_slash by assumption. cbn. destruct r as [[a a'] [b b']]; cbn in *. congruence.
      + unfold article_reference_part.
        eapply (y_located known _ _ _ (mkGArt bk (Some (numeric_show_slash (a_ident (r_start r)))) (Some (numeric_show_slash (a_ident (r_end r)))) None)).
        unfold from_to. rewrite <- !app_assoc. eapply y_bind; [apply (y_opt_book (r_start r)), stop_dash|]. apply y_alt1.
        eapply y_bind; [apply y_sk; [apply quiet_ws_slash|apply y_article_id; auto using stop_dash]|].
        eapply y_bind; [apply y_none, f_bind1; apply f_T; reflexivity|]. eapply y_bind; [apply y_dash|].
        set (o1 := o + _ + _ + _).
        assert (Y : exists v, yields (opt (sk g_number ;; T ":")) o1 (article_show (r_end r) ++ lit "." ++ t) v (o1 + utf8_len (book_text (a_book (r_end r)))) (numeric_show_slash (a_ident (r_end r)) ++ lit "." ++ t)).
        { unfold article_show, book_text. destruct (a_book (r_end r)) as [b|].
          - exists (Some tt). rewrite <- !app_assoc. apply y_some. eapply y_bind; [apply y_sk; [apply quiet_ws_number|apply y_number; reflexivity]|].
            eapply y_eq; [exact (y_T known ":" _ _ eq_refl)|]. rewrite utf8_len_app. change (utf8_len (lit ":")) with (utf8_len [chr ":"]). lia.
          - exists None. cbn [app]. eapply y_eq; [apply y_none|change (utf8_len []) with 0; lia]. now apply f_book', stop_dot. }
        destruct Y as [v Y]. eapply y_bind; [exact Y|].
        eapply y_bind; [apply y_sk; [apply quiet_ws_slash|apply y_article_id; auto using stop_dot]|]. eapply y_bind; [apply y_T; reflexivity|].
        eapply y_eq; [apply y_ret|]. unfold o1. rewrite !utf8_len_app, !utf8_article. lia.
  Qed.

  (** The noun of an article *)
  Definition article_noun (n t : str) : Prop := (n = lit "§" /\ quiet (N.eqb 45) t) \/ (exists w, n = lit "§-" ++ w /\ w <> [] /\ forallb is_hun_lower w = true /\ quiet is_hun_lower t).
  Lemma y_article_suffix n o t : article_noun n t -> yields article_suffix o (n ++ t) tt (o + utf8_len n) t.
  Proof.
    intros [[-> Q]|(w & -> & NE & F & Q)]; unfold article_suffix.
    - apply y_alt2; [|apply y_tok]. apply f_bind1. eapply f_tok2; [reflexivity|]. eapply quiet_sub; [|exact Q]. intros c. cbn beta. now rewrite N.eqb_sym.
    - apply y_alt1. rewrite <- app_assoc. eapply y_bind; [apply y_tok|].
      destruct (y_many1_chars known is_hun_lower w (o + utf8_len (lit "§-")) t NE F Q) as [l H]. eapply y_eq; [eapply y_void; exact H|]. rewrite utf8_len_app. lia.
  Qed.
  Lemma article_noun_ws n t : article_noun n t -> quiet is_ascii_ws (n ++ t) /\ quiet (fun c => existsb (N.eqb c) sep_heads) (n ++ t).
  Proof. intros [[-> _]|(w & -> & _)]; split; reflexivity. Qed.
  Lemma y_article r i l o n t : range_of (fun x => article_ok x = true) r -> a_book (r_start r) = a_book (r_end r) ->
    one_letter (a_ident (r_start r)) -> one_letter (a_ident (r_end r)) -> dotted article_show r i -> lead l -> article_noun n t -> (forall o, fails (sk dash) o t) ->
    exists p, yields (sk article_reference) o (l ++ i ++ lit " " ++ n ++ t) [p] (o + utf8_len (l ++ i ++ lit " " ++ n)) t /\ ps_start (ga_pos p) = o + utf8_len l /\ article_part p = Ok r.
  Proof.
    intros G B L1 L2 C L N D. destruct (article_noun_ws _ _ N) as [W S].
    destruct (y_article_part r i (o + utf8_len l) (lit " " ++ n ++ t) G B L1 L2 C) as (p & Y & Y1 & Y2).
    { intros o1. exists (Some tt), (o1 + utf8_len (lit ".") + 1 + utf8_len n), t. split; [|apply D]. apply y_some. eapply y_bind; [apply y_T; reflexivity|]. apply y_sk_sp; [exact W|]. now apply y_article_suffix. }
    exists p. split; [|split; [now rewrite Y1|exact Y2]].
    assert (Q' : quiet is_ascii_ws (i ++ lit " " ++ n ++ t)).
    { destruct C as [[_ ->]|[_ ->]]; unfold from_to; rewrite <- !app_assoc; apply quiet_ws_article. }
    apply y_sk_lead; [exact L|exact Q'|]. unfold article_reference. eapply y_bind.
    - apply (y_sep_one known article_reference_part [] (o + utf8_len l) _ p (o + utf8_len l + utf8_len i) (lit " ") (n ++ t)); auto using lead_none, lead_space.
      change (utf8_len []) with 0. now rewrite N.add_0_r.
    - eapply y_bind; [apply y_sk_sp; [exact W|now apply y_article_suffix]|]. eapply y_eq; [apply y_ret|]. rewrite !utf8_len_app. change (utf8_len (lit " ")) with 1. lia.
  Qed.

  (** Texts which are not articles *)
  Lemma f_article_other l o t : lead l -> quiet is_ascii_ws t -> quiet is_digit t -> fails (sk article_reference) o (l ++ t).
  Proof.
    intros L W Q. apply f_sk_lead; auto. intros o1. unfold article_reference. apply f_bind1. apply (f_sep known _ [] o1 t); auto using lead_none. intros o2.
    unfold article_reference_part. apply f_located. eapply f_bind2; [apply y_none; apply f_bind1, f_sk; [exact W|now apply f_number]|].
    apply f_alt; apply f_bind1, f_sk; auto; apply f_sliced, f_bind1; now apply f_number.
  Qed.
  Definition odd (t : str) : Prop := quiet (fun c => is_digit c || is_ascii_ws c || existsb (N.eqb c) (lit "/:.−–-")) t.
  Lemma odd_quiet f t : (forall c, f c = true -> is_digit c || is_ascii_ws c || existsb (N.eqb c) (lit "/:.−–-") = true) -> odd t -> quiet f t.
  Proof. intros H. apply quiet_sub. exact H. Qed.
  Ltac oddly := eapply odd_quiet; [|eassumption]; intros c Hc; try (apply N.eqb_eq in Hc as <-; reflexivity); rewrite ?Hc, ?orb_true_r; try reflexivity.
  Lemma odd_letter h t : hic_ok h = true -> odd (hic_show h ++ t).
  Proof.
    destruct h as [b| | | | | | | |]; try reflexivity. cbn [hic_show app]. unfold odd, quiet. intros H. pose proof (az_no_ws _ H) as W. cbn in H. apply andb_true_iff in H. rewrite !N.leb_le in H.
    rewrite W. change (lit "/:.−–-") with [47; 58; 46; 8722; 8211; 45]. cbn [existsb]. unfold is_digit. rewrite !orb_false_iff, andb_false_iff, !N.leb_gt, !N.eqb_neq. lia.
  Qed.
  Lemma odd_article_id n o t : odd t -> yields (sk g_article_id) o (show_N n ++ t) (show_N n) (o + utf8_len (show_N n)) t.
  Proof.
    intros O. apply y_sk; [apply quiet_ws_number|]. unfold g_article_id. eapply y_sliced. eapply y_bind; [apply y_number; oddly|]. apply y_none, f_bind1.
    eapply (f_tok_first known (N.eqb 47)); [reflexivity|reflexivity|oddly].
  Qed.
  Lemma dash_article_id n o t : yields (sk g_article_id) o (show_N n ++ lit "–" ++ t) (show_N n) (o + utf8_len (show_N n)) (lit "–" ++ t).
  Proof.
    apply y_sk; [apply quiet_ws_number|]. unfold g_article_id. eapply y_sliced. eapply y_bind; [apply y_number; reflexivity|]. apply y_none, f_bind1.
    apply f_tok_head; [discriminate|reflexivity].
  Qed.
  Lemma f_T_odd s x o t : lit s = [x] -> In x (lit ":.") -> odd t -> fails (T s) o t.
  Proof.
    intros E I O. apply f_sk; [oddly|]. eapply (f_tok_first known (N.eqb x)); [exact E|apply N.eqb_refl|]. eapply odd_quiet; [|exact O]. intros c Hc. apply N.eqb_eq in Hc as <-.
    change (lit ":.") with [58; 46] in I. destruct I as [<-|[<-|[]]]; reflexivity.
  Qed.
  Lemma f_part_odd n o t : odd t -> fails article_reference_part o (show_N n ++ t).
  Proof.
    intros O. unfold article_reference_part. apply f_located. eapply f_bind2.
    - apply y_none. eapply f_bind2; [apply y_sk; [apply quiet_ws_number|apply y_number; oddly]|]. apply f_bind1. eapply f_T_odd; [reflexivity| |exact O]. change (lit ":.") with [58; 46]; cbn; auto.
    - apply f_alt; (eapply f_bind2; [now apply odd_article_id|]).
      + eapply f_bind2; [apply y_none, f_bind1; eapply f_T_odd; [reflexivity| |exact O]; change (lit ":.") with [58; 46]; cbn; auto|]. apply f_bind1, f_sk; [oddly|]. apply f_chr. oddly.
        revert Hc. unfold dash_chars. change (lit "−–-") with [8722; 8211; 45]. change (lit "/:.−–-") with [47; 58; 46; 8722; 8211; 45]. cbn [existsb]. rewrite !orb_true_iff. tauto.
      + apply f_bind1. eapply f_T_odd; [reflexivity| |exact O]. change (lit ":.") with [58; 46]; cbn; auto.
  Qed.
  Lemma f_part_odd2 n m o t : odd t -> fails article_reference_part o (show_N n ++ lit "–" ++ show_N m ++ t).
  Proof.
    intros O. unfold article_reference_part. apply f_located. eapply f_bind2.
    - apply y_none. eapply f_bind2; [apply y_sk; [apply quiet_ws_number|apply y_number; reflexivity]|]. apply f_bind1. apply f_T; reflexivity.
    - apply f_alt; (eapply f_bind2; [now apply dash_article_id|]).
      + eapply f_bind2; [apply y_none, f_bind1, f_T; reflexivity|]. eapply f_bind2; [apply y_dash|]. eapply f_bind2.
        * apply y_none. eapply f_bind2; [apply y_sk; [apply quiet_ws_number|apply y_number; oddly]|]. eapply f_T_odd; [reflexivity| |exact O]. change (lit ":.") with [58; 46]; cbn; auto.
        * eapply f_bind2; [now apply odd_article_id|]. apply f_bind1. eapply f_T_odd; [reflexivity| |exact O]. change (lit ":.") with [58; 46]; cbn; auto.
      + apply f_bind1, f_T; reflexivity.
  Qed.
  (** A number with a full stop, followed by another noun *)
  Lemma f_article_num r i l o s : range_of (fun x => numeric_ok x = true) r -> dotted numeric_show r i -> lead l -> noun_like s -> quiet (N.eqb 167) s ->
    fails (sk article_reference) o (l ++ i ++ lit " " ++ s).
  Proof.
    intros [G1 G2] C L N NS. destruct (noun_facts _ [] N) as (N1 & N2 & N3). rewrite app_nil_r in *.
    assert (AS : forall o, fails (sk article_suffix) o (lit " " ++ s)).
    { intros o1. apply f_sk_sp; [exact N1|]. unfold article_suffix. apply f_alt; [apply f_bind1|]; eapply (f_tok_first known (N.eqb 167)); try reflexivity; exact NS. }
    assert (Q' : quiet is_ascii_ws (i ++ lit " " ++ s)).
    { destruct C as [[_ ->]|[_ ->]]; unfold from_to; rewrite <- !app_assoc; apply quiet_ws_numeric. }
    apply f_sk_lead; [exact L|exact Q'|]. intros o1. unfold article_reference.
    assert (K : (forall o, fails article_reference_part o (i ++ lit " " ++ s)) \/ exists p, yields article_reference_part o1 (i ++ lit " " ++ s) p (o1 + utf8_len i) (lit " " ++ s)).
    { destruct (n_suffix (r_start r)) as [h|] eqn:E1.
      - left. intros o2. destruct C as [[_ ->]|[_ ->]]; unfold from_to, numeric_show; rewrite E1; rewrite <- !app_assoc; apply f_part_odd, odd_letter;
          unfold numeric_ok in G1; rewrite E1 in G1; apply andb_true_iff in G1; tauto.
      - destruct C as [[EQ ->]|[NE ->]].
        + right. destruct (y_article_part (mkRange (mkArt None (r_start r)) (mkArt None (r_start r))) (numeric_show (r_start r) ++ lit ".") o1 (lit " " ++ s)) as (p & Y & _); eauto.
          * split; cbn; unfold article_ok; cbn; exact G1.
          * unfold one_letter. cbn. now rewrite E1.
          * unfold one_letter. cbn. now rewrite E1.
          * left. split; [reflexivity|]. unfold article_show. cbn. unfold numeric_show, numeric_show_slash. now rewrite E1.
          * intros o2. exists None, o2, (lit "." ++ lit " " ++ s). split; [|apply f_dash_dot]. apply y_none. eapply f_bind2; [apply y_T; reflexivity|]. apply AS.
        + destruct (n_suffix (r_end r)) as [h|] eqn:E2.
          * left. intros o2. unfold from_to, numeric_show. rewrite E1, E2, <- !app_assoc. apply f_part_odd2, odd_letter. unfold numeric_ok in G2; rewrite E2 in G2; apply andb_true_iff in G2; tauto.
          * right. destruct (y_article_part (mkRange (mkArt None (r_start r)) (mkArt None (r_end r))) (from_to (numeric_show (r_start r)) (numeric_show (r_end r)) ++ lit ".") o1 (lit " " ++ s)) as (p & Y & _); eauto.
            -- split; cbn; unfold article_ok; cbn; [exact G1|exact G2].
            -- unfold one_letter. cbn. now rewrite E1.
            -- unfold one_letter. cbn. now rewrite E2.
            -- right. split; [cbn; congruence|]. unfold article_show. cbn. unfold numeric_show, numeric_show_slash. now rewrite E1, E2.
            -- intros o2. exists None, o2, (lit "." ++ lit " " ++ s). split; [|apply f_dash_dot]. apply y_none. eapply f_bind2; [apply y_T; reflexivity|]. apply AS. }
    destruct K as [K|[p K]].
    - apply f_bind1. apply (f_sep known _ [] o1); auto using lead_none.
    - eapply f_bind2.
      + apply (y_sep_one known article_reference_part [] o1 _ p (o1 + utf8_len i) (lit " ") s); auto using lead_none, lead_space. change (utf8_len []) with 0. now rewrite N.add_0_r.
      + apply f_bind1, AS.
  Qed.
End Run.
