(** Proofs for C78: articles, places and subtitles as they are named in sentences. *)
From Verif Require Export SpecSay7 ProofSay25 ProofSay19.
From Coq Require Import Lia.
Local Open Scope peg_scope.
Local Open Scope N_scope.

(** ** Numbers *)
Lemma number_is n s : number_said n s -> s = numeric_show_slash n /\ numeric_ok n = true /\ one_letter n.
Proof.
  intros [k H|k c H C]; unfold numeric_show_slash, numeric_ok, one_letter, u16_max; cbn [n_num n_suffix].
  - split; [reflexivity|]. split; [|exact I]. rewrite andb_true_r. now apply N.leb_le.
  - split; [|split; [|exact I]].
    + cbn [hic_show_upper]. unfold ascii_upper, in_range. replace ((97 <=? c + 32) && (c + 32 <=? 122)) with true by (symmetry; rewrite andb_true_iff, !N.leb_le; lia). replace (c + 32 - 32) with c by lia. reflexivity.
    + apply andb_true_iff. split; [now apply N.leb_le|]. unfold hic_ok, in_range. rewrite andb_true_iff, !N.leb_le. lia.
Qed.
Lemma number_digits n s t : number_said n s -> digit_first (s ++ t).
Proof. intros [k H|k c H C]; rewrite <- ?app_assoc; apply digit_first_number. Qed.
(** A number with a full stop is written as that of an article. *)
Lemma number_article n s : number_said n s -> y_art_facts (mkRange (mkArt None n) (mkArt None n)) (s ++ lit ".").
Proof.
  intros H. destruct (number_is n s H) as (-> & OK & L). unfold y_art_facts, range_of. cbn [r_start r_end a_book a_ident]. unfold article_ok. cbn [a_book a_ident]. repeat split; auto. left. auto.
Qed.

(** ** Articles *)
Lemma one_article_text x s : one_article x s -> exists i e, y_art_facts (mkRange x x) i /\ ending (PartArticle (mkRange x x)) e /\ s = i ++ lit " " ++ lit "§" ++ e.
Proof.
  intros (OK & L & H). apply one_part in H as (i & n & n' & e & P & E & ->). inversion P; subst. exists i, e. split; [|split; auto]. unfold y_art_facts, range_of. cbn [r_start r_end]. repeat split; auto.
Qed.
Definition alone (x : article_id) : reference := mkRef None (Some (mkRange x x)) None None None.
Lemma alone_readable x : article_ok x = true -> one_letter (a_ident x) -> readable_ref (alone x).
Proof.
  intros OK L. constructor; cbn; try discriminate.
  - constructor.
    + intros P. now cbn in P.
    + intros P. now cbn in P.
    + intros l l' R F P. destruct l; cbn in R; contradiction.
  - unfold parts_ok. cbn. split; [discriminate|]. split; [intros y E; injection E as <-; split; exact OK|]. repeat split; discriminate.
  - right. discriminate.
  - intros y E. injection E as <-. cbn. auto.
Qed.

Section Run.
  Variable known : list str.
  Local Notation yields := (yields known).
  Local Notation fails := (fails known).
  (** What comes after an article: a space, and something other than a dash *)
  Definition spaced (t : str) : Prop := exists v, t = lit " " ++ v /\ quiet is_ascii_ws v /\ quiet (fun c => existsb (N.eqb c) dash_chars) v.
  Lemma spaced_noun x e t : ending (PartArticle x) e -> spaced t -> article_noun (lit "§" ++ e) t /\ forall o, fails (sk dash) o t.
  Proof.
    intros E (v & -> & W & D). split; [|now apply no_dash_lead; [apply lead_space|..]]. inversion E as [p0|r0 w NE FW|p0 w NA]; subst; [left; split; reflexivity| |now destruct (NA x)].
    right. exists w. split; [reflexivity|]. split; [exact NE|]. split; [now apply smalls|reflexivity].
  Qed.
  Definition single_read (g : g_single) (x : article_id) (st en : N) : Prop := gs_pos g = ModelSem.mkPos st en /\ article_part (gs_part g) = Ok (mkRange x x).
  Lemma y_one x s l o t : one_article x s -> lead l -> spaced t ->
    exists g, yields (sk single_article_reference) o (l ++ s ++ t) g (o + utf8_len (l ++ s)) t /\ single_read g x (o + utf8_len l) (o + utf8_len (l ++ s)).
  Proof.
    intros H L S. destruct (one_article_text x s H) as (i & e & (G & B & L1 & L2 & C) & E & ->). destruct (spaced_noun _ e t E S) as [N D]. destruct (article_noun_ws _ _ N) as [W _]. set (n := lit "§" ++ e) in *.
    destruct (y_article_part known _ i (o + utf8_len l) (lit " " ++ n ++ t) G B L1 L2 C) as (p & Y & P1 & P2).
    { intros o1. exists (Some tt), (o1 + utf8_len (lit ".") + 1 + utf8_len n), t. split; [|apply D]. apply y_some. eapply y_bind; [apply y_T; reflexivity|]. apply y_sk_sp; [exact W|]. now apply y_article_suffix. }
    assert (W0 : quiet is_ascii_ws (i ++ lit " " ++ n ++ t)) by (apply digit_first_ws; eapply digit_first_article, C).
    exists (mkGSingle p (ModelSem.mkPos (o + utf8_len l) (o + utf8_len (l ++ i ++ lit " " ++ n)))). split; [|split; [reflexivity|exact P2]]. rewrite <- !app_assoc. apply y_sk_lead; [exact L|exact W0|].
    unfold single_article_reference. eapply (y_located known _ _ _ (mkGSingle p)). eapply y_bind; [apply y_sk; [exact W0|exact Y]|]. eapply y_bind; [apply y_sk_sp; [exact W|now apply y_article_suffix]|]. eapply y_eq; [apply y_ret|]. lens.
  Qed.
  Lemma one_digits x s t : one_article x s -> digit_first (s ++ t).
  Proof. intros H. destruct (one_article_text x s H) as (i & e & A & E & ->). rewrite <- app_assoc. eapply digit_first_article, A. Qed.

  (** ** Places *)
  Lemma y_article_word z t o : In z articles -> digit_first t -> exists x, yields (opt (sk g_az)) o (z ++ t) x (o + utf8_len z) t.
  Proof.
    intros IZ D. unfold articles in IZ. cbn [In] in IZ. destruct IZ as [<-|[<-|[<-|[]]]].
    - exists None. cbn [app]. change (utf8_len []) with 0. rewrite N.add_0_r. now apply az_not_digit_first.
    - exists (Some tt). apply y_some, y_sk; [reflexivity|]. unfold g_az. change (lit "a " ++ t) with (lit "a" ++ lit " " ++ t). eapply y_bind; [apply y_tok|]. eapply y_bind; [apply y_none, f_tok; reflexivity|].
      eapply y_eq; [apply y_tok|]. change (utf8_len (lit "a ")) with (utf8_len (lit "a") + utf8_len (lit " ")). lia.
    - exists (Some tt). apply y_some, y_sk; [reflexivity|]. unfold g_az. change (lit "az " ++ t) with (lit "a" ++ lit "z" ++ lit " " ++ t). eapply y_bind; [apply y_tok|]. eapply y_bind; [apply y_some, y_tok|].
      eapply y_eq; [apply y_tok|]. change (utf8_len (lit "az ")) with (utf8_len (lit "a") + utf8_len (lit "z") + utf8_len (lit " ")). lia.
  Qed.
  Definition near_tree (a : act_id) (near : option sr_element) (l : list out_ref) (p : option g_relative) : Prop :=
    (near = None /\ l = [] /\ p = None) \/
    exists g x st en, single_read g x st en /\ l = [mkOut st en (mkRef (Some a) (Some (mkRange x x)) None None None)] /\
      ((near = Some (SeSubtitleBeforeArticle x) /\ p = Some (GBefore g)) \/ (near = Some (SeSubtitleAfterArticle x) /\ p = Some (GAfter g))).
  Lemma y_side f w o v : on_side f w ->
    (f = SeSubtitleBeforeArticle /\ yields (one_of_sk ["megelőzően"; "megelőző"; "előtti"]%string) o (lit " " ++ w ++ lit " " ++ v) tt (o + utf8_len (lit " " ++ w)) (lit " " ++ v)) \/
    (f = SeSubtitleAfterArticle /\ fails (one_of_sk ["megelőzően"; "megelőző"; "előtti"]%string) o (lit " " ++ w ++ lit " " ++ v) /\ yields (one_of_sk ["követően"; "követő"]%string) o (lit " " ++ w ++ lit " " ++ v) tt (o + utf8_len (lit " " ++ w)) (lit " " ++ v)).
  Proof.
    intros [w' I|w' I]; cbn [map In] in I; [left|right]; (split; [reflexivity|]).
    - assert (K : forall u, In u ["megelőzően"; "megelőző"; "előtti"]%string -> yields (T u) o (lit " " ++ lit u ++ lit " " ++ v) tt (o + utf8_len (lit " " ++ lit u)) (lit " " ++ v)).
      { intros u J. rewrite utf8_len_app, N.add_assoc. apply y_T_sp. cbn [In] in J. repeat (destruct J as [<-|J]; [reflexivity|]). contradiction. }
      cbn [one_of_sk]. destruct I as [<-|[<-|[<-|[]]]].
      + apply y_alt2; [here|]. apply y_alt1, K. cbn; auto.
      + apply y_alt1, K. cbn; auto.
      + apply y_alt2; [here|]. apply y_alt2; [here|]. apply y_alt1, K. cbn; auto.
    - assert (K : forall u, In u ["követően"; "követő"]%string -> yields (T u) o (lit " " ++ lit u ++ lit " " ++ v) tt (o + utf8_len (lit " " ++ lit u)) (lit " " ++ v)).
      { intros u J. rewrite utf8_len_app, N.add_assoc. apply y_T_sp. cbn [In] in J. repeat (destruct J as [<-|J]; [reflexivity|]). contradiction. }
      cbn [one_of_sk]. destruct I as [<-|[<-|[]]]; (split; [here|]).
      + apply y_alt2; [here|]. apply y_alt1, K. cbn; auto.
      + apply y_alt1, K. cbn; auto.
  Qed.
  Lemma y_near a b near l s o v : near_said a b near l s -> near <> None -> utf8_len b = o -> 
    exists p, yields (opt (sk article_relative_position)) o (s ++ lit " " ++ v) p (o + utf8_len s) (lit " " ++ v) /\ near_tree a near l p.
  Proof.
    intros [|z x s' f w IZ H F] NN EB; [congruence|]. rewrite <- !app_assoc. set (t := lit " " ++ w ++ lit " " ++ v).
    assert (S : spaced t). { unfold t. exists (w ++ lit " " ++ v). split; [reflexivity|]. destruct F as [w I|w I]; cbn [map In] in I; repeat (destruct I as [<-|I]; [split; reflexivity|]); contradiction. }
    assert (W : quiet is_ascii_ws (z ++ s' ++ t)). { unfold articles in IZ. cbn [In] in IZ. destruct IZ as [<-|[<-|[<-|[]]]]; [|reflexivity|reflexivity]. cbn [app]. apply digit_first_ws. now apply (one_digits x). }
    assert (K : exists g o1, single_read g x (o + utf8_len (lit " " ++ z)) (o + utf8_len (lit " " ++ z ++ s')) /\ o1 = o + utf8_len (lit " " ++ z ++ s') /\ forall A (k : g_single -> parser A),
      (forall r o2 t2, yields (k g) o1 t r o2 t2 -> yields (opt (sk g_az) ;; s <- sk single_article_reference ;; k s) (o + 1) (z ++ s' ++ t) r o2 t2) /\
      (fails (k g) o1 t -> fails (opt (sk g_az) ;; s <- sk single_article_reference ;; k s) (o + 1) (z ++ s' ++ t))).
    { destruct (y_article_word z (s' ++ t) (o + 1) IZ (one_digits x s' t H)) as (y & YZ). destruct (y_one x s' [] (o + 1 + utf8_len z) t H lead_none S) as (g & YS & SR). cbn [app] in YS, SR.
      exists g, (o + utf8_len (lit " " ++ z ++ s')). split; [|split; [reflexivity|]].
      - unfold single_read in *. destruct SR as [-> SR]. split; [|exact SR]. f_equal; lens.
      - replace (o + 1 + utf8_len z + utf8_len s') with (o + utf8_len (lit " " ++ z ++ s')) in YS by lens. intros A k. split; [intros r o2 t2 Q|intros Q].
        + eapply y_bind; [exact YZ|]. eapply y_bind; [exact YS|exact Q].
        + eapply f_bind2; [exact YZ|]. eapply f_bind2; [exact YS|exact Q]. }
    destruct K as (g & o1 & SR & EO & K). rewrite EO in K.
    destruct (y_side f w (o + utf8_len (lit " " ++ z ++ s')) v F) as [[-> Y]|[-> [FB Y]]]; fold t in Y; try fold t in FB.
    - exists (Some (GBefore g)). split.
      + apply y_some. eapply y_eq; [apply y_sk_sp; [exact W|]; apply y_alt1; eapply y_bind; [apply y_sk; [exact W|]; apply K; eapply y_bind; [exact Y|apply y_ret]|apply y_ret]|lens].
      + right. exists g, x. eexists. eexists. split; [exact SR|]. split; [|left; auto]. unfold article_found. rewrite <- EB, <- !app_assoc. f_equal. f_equal; lens.
    - exists (Some (GAfter g)). split.
      + apply y_some. eapply y_eq; [apply y_sk_sp; [exact W|]; apply y_alt2; [apply f_bind1, f_sk; [exact W|]; apply K, f_bind1; exact FB|]; eapply y_bind; [apply y_sk; [exact W|]; apply K; eapply y_bind; [exact Y|apply y_ret]|apply y_ret]|lens].
      + right. exists g, x. eexists. eexists. split; [exact SR|]. split; [|right; auto]. unfold article_found. rewrite <- EB, <- !app_assoc. f_equal. f_equal; lens.
  Qed.

  (** ** Subtitles *)
  Definition after_word (t : str) : Prop := exists v, t = lit " " ++ v /\ strip_prefix (lit "cím") v = None.
  Lemma y_subtitle_token w t l o : subtitle_word w -> after_word t -> lead l -> yields (sk subtitle_token) o (l ++ w ++ t) tt (o + utf8_len (l ++ w)) t.
  Proof.
    intros (lw & F & ->) (v & -> & NC) L. apply smalls in F. rewrite utf8_len_app, N.add_assoc, <- app_assoc. apply y_sk_lead; [exact L|reflexivity|]. unfold subtitle_token. eapply y_bind; [apply y_tok|].
    assert (D : strip_prefix (lit "-") (lw ++ lit " " ++ v) = None).
    { destruct lw as [|x lw]; [reflexivity|]. cbn [forallb] in F. apply andb_true_iff in F as [F _]. change (lit "-") with [45]. cbn [app strip_prefix]. destruct (N.eqb_spec 45 x) as [<-|]; [discriminate F|reflexivity]. }
    eapply y_bind; [apply y_none, f_tok, D|]. destruct (y_many_chars known is_hun_lower lw (o + utf8_len l + utf8_len (lit "alcím")) (lit " " ++ v) F eq_refl) as [z Y]. eapply y_bind; [exact Y|].
    eapply y_eq; [eapply y_void, y_none|lens]. eapply f_bind2; [apply y_tok|]. apply f_bind1. now apply f_tok.
  Qed.
  Definition named_part : parser (option str * option str) :=
    (i <- sk subtitle_id ;; T "." ;; sk subtitle_token ;; ret (Some i, None)) <|> (q <- sk g_quote ;; sk subtitle_token ;; ret (None, Some q)) <|> (sk subtitle_token ;; ret (None, None)).
  Lemma with_subtitle_is : reference_with_subtitle =
    ((a <- sk single_article_reference ;; before_it (sk subtitle_token ;; ret (mkGWs (Some a) None None))) <|> (x <- named_part ;; a <- opt (T "és" ;; sk single_article_reference) ;; ret (mkGWs a (fst x) (snd x)))).
  Proof. reflexivity. Qed.
  Definition own_tree (own : option sr_element) (x : option str * option str) : Prop :=
    match own with
    | None => x = (None, None)
    | Some (SeSubtitleId n) => exists i, x = (Some i, None) /\ numeric_parse i = Ok n
    | Some (SeSubtitleTitle q) => x = (None, Some q)
    | Some _ => False
    end.
  Lemma word_head w t : subtitle_word w -> exists v, w ++ t = lit "alcím" ++ v.
  Proof. intros (lw & _ & ->). rewrite <- app_assoc. eauto. Qed.
  Lemma quote_head x q t : quotation x q -> exists v, q ++ t = lit "„" ++ v.
  Proof. intros (_ & _ & ->). rewrite <- app_assoc. eauto. Qed.
  Lemma number_dot n s v : number_said n s -> after_dot known (lit " " ++ lit "alcím" ++ v).
  Proof. intros H o. exists None, o, (lit "." ++ lit " " ++ lit "alcím" ++ v). split; [apply y_none; here|here]. Qed.
  Lemma f_single_number n s v o : number_said n s -> fails single_article_reference o (s ++ lit "." ++ lit " " ++ lit "alcím" ++ v).
  Proof.
    intros H. destruct (number_article n s H) as (G & B & L1 & L2 & C). destruct (y_article_part known _ _ o _ G B L1 L2 C (number_dot n s v H)) as (p & Y & _). rewrite <- app_assoc in Y.
    unfold single_article_reference. apply f_located. eapply f_bind2; [apply y_sk; [|exact Y]|].
    - apply digit_first_ws. now apply (number_digits n).
    - apply f_bind1. here.
  Qed.
  Lemma maybe_ws e s w t : maybe_named e s -> subtitle_word w -> quiet is_ascii_ws (s ++ w ++ t).
  Proof.
    intros M W. destruct (word_head w t W) as (v & ->). destruct M as [|e s [n s' H|x q H]]; [reflexivity|..]; rewrite <- ?app_assoc.
    - apply digit_first_ws. now apply (number_digits n).
    - destruct H as (_ & _ & ->). reflexivity.
  Qed.
  Lemma f_single_named e s w t o : maybe_named e s -> subtitle_word w -> fails single_article_reference o (s ++ w ++ t).
  Proof.
    intros M W. destruct (word_head w t W) as (v & ->). destruct M as [|e s [n s' H|x q H]]; rewrite <- ?app_assoc.
    - cbn [app]. apply f_single_other; reflexivity.
    - now apply (f_single_number n).
    - destruct H as (_ & _ & ->). apply f_single_other; reflexivity.
  Qed.
  Lemma y_named e s w t o : maybe_named e s -> subtitle_word w -> after_word t -> exists x, yields named_part o (s ++ w ++ t) x (o + utf8_len (s ++ w)) t /\ own_tree e x.
  Proof.
    intros M W A. pose proof (maybe_ws e s w t M W) as WS. unfold named_part. destruct M as [|e s [n s' H|x q H]].
    - exists (None, None). split; [|reflexivity]. cbn [app] in *. destruct (word_head w t W) as (v & E). apply y_alt2; [rewrite E; here|]. apply y_alt2; [rewrite E; here|].
      eapply y_bind; [exact (y_subtitle_token w t [] o W A lead_none)|]. apply y_ret.
    - destruct (number_is n s' H) as (-> & OK & L). exists (Some (numeric_show_slash n), None). split; [|exists (numeric_show_slash n); split; [reflexivity|now apply numeric_parse_show_slash]]. rewrite <- !app_assoc in *. apply y_alt1.
      eapply y_bind; [apply y_sk; [exact WS|now apply y_subtitle_id, stop_dot]|]. eapply y_bind; [apply y_T; reflexivity|]. eapply y_bind; [exact (y_subtitle_token w t (lit " ") _ W A lead_space)|]. eapply y_eq; [apply y_ret|]. lens.
    - exists (None, Some x). split; [|reflexivity]. pose proof (y_quote known x q o (lit " " ++ w ++ t) H) as YQ. rewrite <- !app_assoc in *. apply y_alt2; [destruct H as (_ & _ & ->); rewrite <- app_assoc; generalize (x ++ lit "”" ++ lit " " ++ w ++ t); intros v; here|]. apply y_alt1.
      eapply y_bind; [apply y_sk; [exact WS|exact YQ]|]. eapply y_bind; [exact (y_subtitle_token w t (lit " ") _ W A lead_space)|]. eapply y_eq; [apply y_ret|]. lens.
  Qed.
  (** What comes after the subtitle *)
  Record closing_words (t : str) : Prop := { cw_word : after_word t; cw_spaced : spaced t; cw_and : forall o, fails (T "és") o t }.
  Definition ref_tree (a : act_id) (x : option article_id) (own : option sr_element) (l : list out_ref) (r : g_with_subtitle) : Prop :=
    own_tree own (gws_id r, gws_title r) /\
    match x with
    | None => l = [] /\ gws_article r = None
    | Some x => exists g st en, single_read g x st en /\ gws_article r = Some g /\ l = [mkOut st en (mkRef (Some a) (Some (mkRange x x)) None None None)]
    end.
  Lemma y_and_before z w t o A (k : parser A) : In z and_before_it -> exists o', forall r o2 t2, yields k o' (lit " " ++ w ++ t) r o2 t2 -> yields (before_it k) o (lit " " ++ z ++ lit " " ++ w ++ t) r o2 t2.
  Proof.
    intros I. assert (K : exists o', yields (before_it (ret tt)) o (lit " " ++ z ++ lit " " ++ w ++ t) tt o' (lit " " ++ w ++ t)).
    { generalize (w ++ t). intros v. unfold and_before_it in I. cbn [map In] in I. repeat (destruct I as [<-|I]; [computed|]). contradiction. }
    destruct K as (o' & K). exists o'. intros r o2 t2 Y. unfold before_it in *. intros g G. specialize (K g G). unfold pbind in *.
    repeat match type of K with context [match ?e with _ => _ end] => destruct e as [[[? ?]| |] ?]; try discriminate end.
    injection K as -> ->. now apply Y.
  Qed.
  Lemma y_subtitle a b x own l s t o : subtitle_said a b x own l s -> utf8_len b = o -> closing_words t ->
    exists r o', yields (sk reference_with_subtitle) o (s ++ t) r o' t /\ ref_tree a x own l r.
  Proof.
    intros H EB [AW SP AND]. rewrite with_subtitle_is. destruct H as [x s z w H IZ W|e s w M W|e s w x s' M W H]; rewrite <- ?app_assoc.
    - assert (S : spaced (lit " " ++ z ++ lit " " ++ w ++ t)). { eexists. split; [reflexivity|]. unfold and_before_it in IZ. cbn [map In] in IZ. repeat (destruct IZ as [<-|IZ]; [split; reflexivity|]). contradiction. }
      destruct (y_one x s [] (o + 1) _ H lead_none S) as (g & Y & SR). cbn [app] in Y, SR. pose proof (digit_first_ws _ (one_digits x s (lit " " ++ z ++ lit " " ++ w ++ t) H)) as WS.
      destruct (y_and_before z w t (o + 1 + utf8_len s) _ (sk subtitle_token ;; ret (mkGWs (Some g) None None)) IZ) as (o' & K).
      exists (mkGWs (Some g) None None). eexists. split.
      + apply y_sk_sp; [exact WS|]. apply y_alt1. eapply y_bind; [exact Y|]. apply K. eapply y_bind; [exact (y_subtitle_token w t (lit " ") o' W AW lead_space)|]. apply y_ret.
      + split; [reflexivity|]. exists g. eexists. eexists. split; [exact SR|]. split; [reflexivity|]. unfold article_found. rewrite <- EB. f_equal. f_equal; lens.
    - destruct (y_named e s w t (o + 1) M W AW) as (x & Y & OT). pose proof (maybe_ws e s w t M W) as WS. exists (mkGWs None (fst x) (snd x)). eexists. split.
      + apply y_sk_sp; [exact WS|]. apply y_alt2; [apply f_bind1, f_sk; [exact WS|]; now apply (f_single_named e)|]. eapply y_bind; [exact Y|]. eapply y_bind; [apply y_none, f_bind1, AND|]. apply y_ret.
      + split; [destruct x; exact OT|]. auto.
    - set (u := lit " és " ++ s' ++ t).
      assert (AU : after_word u) by (eexists; split; [reflexivity|reflexivity]).
      destruct (y_named e s w u (o + 1) M W AU) as (x' & Y & OT). pose proof (maybe_ws e s w u M W) as WS.
      destruct (y_one x s' (lit " ") (o + 1 + utf8_len (s ++ w) + 1 + utf8_len (lit "és")) t H lead_space SP) as (g & YS & SR).
      exists (mkGWs (Some g) (fst x') (snd x')). eexists. split.
      + apply y_sk_sp; [exact WS|]. apply y_alt2; [apply f_bind1, f_sk; [exact WS|]; now apply (f_single_named e)|]. eapply y_bind; [exact Y|]. eapply y_bind; [apply y_some|apply y_ret]. eapply y_bind; [exact (y_T_sp known "és" _ (lit " " ++ s' ++ t) eq_refl)|exact YS].
      + split; [destruct x'; exact OT|]. exists g. eexists. eexists. split; [exact SR|]. split; [reflexivity|]. unfold article_found. rewrite <- EB. f_equal.
        change (lit " és ") with (lit " " ++ lit "és" ++ lit " "). f_equal; lens.
  Qed.
End Run.
