(** Proofs for C78: the sentence. *)
From Verif Require Export ProofSay28.
From Coq Require Import Lia.
Local Open Scope peg_scope.
Local Open Scope N_scope.

Section Run.
  Variables (rf : str -> option Z) (c : cache).
  Hypothesis roman : roman_from_reads rf.
  Local Notation known := (all_abbreviations c).
  Local Notation yields := (yields known).
  Local Notation fails := (fails known).
  (** ** One subtitle or a range, replaced *)
  Lemma names_article n m s s' : number_said n s -> number_said m s' -> n <> m -> y_art_facts (mkRange (mkArt None n) (mkArt None m)) (s ++ lit "–" ++ s' ++ lit ".").
  Proof.
    intros H H' D. destruct (number_is n s H) as (-> & OK & L), (number_is m s' H') as (-> & OK' & L'). unfold y_art_facts, range_of. cbn [r_start r_end a_book a_ident]. unfold article_ok. cbn [a_book a_ident]. repeat split; auto.
    right. cbn [r_start r_end]. split; [congruence|]. unfold from_to, article_show. cbn [a_book a_ident]. cbn [app]. now rewrite <- !app_assoc.
  Qed.
  Lemma rel_part r i v o : y_art_facts r i -> fails (sk article_relative_position) o (lit " " ++ i ++ lit " " ++ lit "alcím" ++ v).
  Proof.
    intros (G & B & L1 & L2 & C). assert (D : digit_first (i ++ lit " " ++ lit "alcím" ++ v)) by (eapply digit_first_article, C). pose proof (digit_first_ws _ D) as W.
    assert (A : after_dot known (lit " " ++ lit "alcím" ++ v)) by (intros o1; exists None, o1, (lit "." ++ lit " " ++ lit "alcím" ++ v); split; [apply y_none; here|here]).
    assert (F : forall o, fails (sk single_article_reference) o (i ++ lit " " ++ lit "alcím" ++ v)).
    { intros o1. destruct (y_article_part known r i o1 _ G B L1 L2 C A) as (p & Y & _). apply f_sk; [exact W|]. apply f_located. eapply f_bind2; [apply y_sk; [exact W|exact Y]|]. apply f_bind1. here. }
    apply f_sk_sp; [exact W|]. apply f_alt; apply f_bind1, f_sk; try exact W; (eapply f_bind2; [now apply az_not_digit_first|apply f_bind1, F]).
  Qed.
  Lemma rel_names own s w t o : own_names own s -> subtitle_word w -> fails (sk article_relative_position) o (lit " " ++ s ++ lit " " ++ w ++ t).
  Proof.
    intros H W. destruct (word_head w t W) as (v & ->). destruct H as [e s [n s' H|x q H]|n m s s' H H' D].
    - apply (rel_part _ _ v o (number_article n s' H)).
    - destruct H as (_ & _ & ->). rewrite <- !app_assoc. generalize (x ++ lit "”" ++ lit " " ++ lit "alcím" ++ v). intros u. here.
    - apply (rel_part _ _ v o (names_article n m s s' H H' D)).
  Qed.
  Lemma y_word w u l o : subtitle_word w -> quiet is_hun_lower u -> lead l -> yields (sk subtitle_suffix) o (l ++ w ++ u) tt (o + utf8_len (l ++ w)) u.
  Proof.
    intros (lw & F & ->) Q L. apply smalls in F. rewrite utf8_len_app, N.add_assoc, <- app_assoc. apply y_sk_lead; [exact L|reflexivity|]. unfold subtitle_suffix. now apply y_suffixed.
  Qed.
  Lemma y_names_kind own s w u o : own_names own s -> subtitle_word w -> quiet is_hun_lower u ->
    exists k q, yields kind_rule o (s ++ lit " " ++ w ++ u) k (o + utf8_len (s ++ lit " " ++ w)) u /\ struct_kind rf k = Ok q /\ sr_element_of_parent q = own.
  Proof.
    intros H W Q. unfold kind_rule.
    assert (K : forall s, digit_first (s ++ lit " " ++ w ++ u) -> forall p, (forall o, yields subtitle_reference_part o (s ++ lit " " ++ w ++ u) p (o + utf8_len s) (lit " " ++ w ++ u)) ->
      yields kind_rule o (s ++ lit " " ++ w ++ u) (GSubtitlePart p) (o + utf8_len (s ++ lit " " ++ w)) u).
    { intros s0 D p Y. pose proof (digit_first_ws _ D) as WS. unfold kind_rule. apply y_alt2; [apply f_bind1, f_sk; [exact WS|]; apply f_bind1; now apply f_chapter_id|]. apply y_alt2; [apply f_bind1, f_sk; [exact WS|]; apply f_bind1; now apply f_ordinal_capital|].
      apply y_alt2; [apply f_bind1, f_sk; [exact WS|]; apply f_bind1; now apply f_chapter_id|]. apply y_alt1. eapply y_bind; [apply y_sk; [exact WS|apply Y]|]. eapply y_bind; [apply (y_word w u (lit " ")); auto using lead_space|]. eapply y_eq; [apply y_ret|]. lens. }
    destruct H as [e s [n s' H|x q H]|n m s s' H H' D].
    - pose proof (number_digits n s' (lit "." ++ lit " " ++ w ++ u) H) as DF. destruct (number_is n s' H) as (-> & OK & L). exists (GSubtitlePart (mkGSub None None (Some (numeric_show_slash n)))), (SpSubtitleId n). split; [|split; [|reflexivity]].
      + apply K; [rewrite <- app_assoc; exact DF|]. intros o1. rewrite <- !app_assoc. pose proof (digit_first_ws _ DF) as WS. unfold subtitle_reference_part.
        assert (YI : yields (sk subtitle_id) o1 (numeric_show_slash n ++ lit "." ++ lit " " ++ w ++ u) (numeric_show_slash n) (o1 + utf8_len (numeric_show_slash n)) (lit "." ++ lit " " ++ w ++ u)) by (apply y_sk; [exact WS|now apply y_subtitle_id, stop_dot]).
        apply y_alt2; [eapply f_bind2; [exact YI|]; eapply f_bind2; [apply y_some, y_T; reflexivity|]; apply f_bind1|eapply y_bind; [exact YI|]; eapply y_bind; [apply y_T; reflexivity|]; eapply y_eq; [apply y_ret|lens]].
        destruct (word_head w u W) as (v & ->). here.
      + cbn [struct_kind subtitle_part gsp_id]. unfold subtitle_part. cbn [gsp_id]. now rewrite numeric_parse_show_slash.
    - exists (GSubtitleTitle x), (SpSubtitleTitle x). split; [|split; reflexivity]. pose proof (y_quote known x q) as YQ. 
      assert (EQ : exists v, q ++ lit " " ++ w ++ u = lit "„" ++ v) by (destruct H as (_ & _ & ->); rewrite <- app_assoc; eauto). destruct EQ as (v & EQ). assert (WS : quiet is_ascii_ws (q ++ lit " " ++ w ++ u)) by (now rewrite EQ).
      apply y_alt2; [rewrite EQ; here|]. apply y_alt2; [rewrite EQ; here|]. apply y_alt2; [rewrite EQ; here|]. apply y_alt2; [rewrite EQ; here|].
      eapply y_bind; [apply y_sk; [exact WS|]; unfold subtitle_title; eapply y_bind; [apply y_alt1, y_sk; [exact WS|now apply YQ]|]; eapply y_bind; [apply y_none; destruct (word_head w u W) as (v' & ->); here|]; eapply y_bind; [apply (y_word w u (lit " ")); auto using lead_space|apply y_ret]|]. eapply y_eq; [apply y_ret|lens].
    - pose proof (number_digits n s (lit "–" ++ s' ++ lit "." ++ lit " " ++ w ++ u) H) as DF. pose proof (number_digits m s' (lit "." ++ lit " " ++ w ++ u) H') as DF'. destruct (number_is n s H) as (-> & OK & L), (number_is m s' H') as (-> & OK' & L').
      exists (GSubtitlePart (mkGSub (Some (numeric_show_slash n)) (Some (numeric_show_slash m)) None)), (SpSubtitleRange (mkRange n m)). split; [|split; [|reflexivity]].
      + apply K; [rewrite <- !app_assoc; exact DF|]. intros o1. rewrite <- !app_assoc. unfold subtitle_reference_part. apply y_alt1.
        eapply y_bind; [apply y_sk; [now apply digit_first_ws|now apply y_subtitle_id, stop_dash]|]. eapply y_bind; [apply y_none; here|]. eapply y_bind; [apply y_dash|]. eapply y_bind; [apply y_sk; [now apply digit_first_ws|now apply y_subtitle_id, stop_dot]|].
        eapply y_bind; [apply y_T; reflexivity|]. eapply y_eq; [apply y_ret|lens].
      + cbn [struct_kind]. unfold subtitle_part. cbn [gsp_id gsp_start gsp_end]. rewrite !numeric_parse_show_slash; auto.
  Qed.
  Lemma names_book own s w u o : own_names own s -> subtitle_word w -> fails (sk book_reference) o (s ++ lit " " ++ w ++ u).
  Proof.
    intros H W. destruct H as [e s [n s' H|x q H]|n m s s' H H' D].
    - rewrite <- !app_assoc. pose proof (number_digits n s' (lit "." ++ lit " " ++ w ++ u) H) as DF. apply f_sk; [now apply digit_first_ws|]. apply f_bind1. now apply f_ordinal_capital.
    - destruct H as (_ & _ & ->). rewrite <- !app_assoc. generalize (x ++ lit "”" ++ lit " " ++ w ++ u). intros v. here.
    - rewrite <- !app_assoc. pose proof (number_digits n s (lit "–" ++ s' ++ lit "." ++ lit " " ++ w ++ u) H) as DF. apply f_sk; [now apply digit_first_ws|]. apply f_bind1. now apply f_ordinal_capital.
  Qed.
  Lemma names_ws own s t : own_names own s -> quiet is_ascii_ws (s ++ t) /\ after_act c (lit " " ++ s ++ t).
  Proof.
    assert (K : forall u, digit_first u -> quiet is_ascii_ws u /\ after_act c (lit " " ++ u)) by (intros u D; split; [now apply digit_first_ws|now apply digits_after_act]).
    intros H. destruct H as [e s [n s' H|x q H]|n m s s' H H' D]; rewrite <- ?app_assoc.
    - apply K. now apply (number_digits n).
    - destruct H as (_ & _ & ->). rewrite <- !app_assoc. split; [reflexivity|]. generalize (x ++ lit "”" ++ t). intros v. constructor; [reflexivity|failing|failing].
    - apply K. now apply (number_digits n).
  Qed.
  Lemma y_names own s w t s' u o : own_names own s -> subtitle_word w -> title_only_said t s' -> word_over known u ->
    exists x, yields struct_inner o (s ++ lit " " ++ w ++ s' ++ u) x (o + utf8_len (s ++ lit " " ++ w ++ s')) u /\ tree_is rf None own t x.
  Proof.
    intros H W S U. destruct (title_only_over known t s' u S U) as [Q YT]. assert (QL : quiet is_hun_lower (s' ++ u)) by (revert Q; apply quiet_sub; intros ch E; unfold is_hun_any; now rewrite E).
    destruct (y_names_kind own s w (s' ++ u) o H W QL) as (k & q & YK & SK & EK). destruct (YT (o + utf8_len (s ++ lit " " ++ w))) as (y & YX & EY). rewrite inner_is. exists (mkGAny None k t). split.
    - eapply y_bind; [apply y_none; now apply (names_book own)|]. eapply y_bind; [exact YK|]. eapply y_bind; [exact YX|]. rewrite EY. eapply y_eq; [apply y_ret|lens].
    - unfold tree_is, struct_ref_of. cbn [gas_book gas_ref gas_title_only opt_ok obind]. rewrite SK. cbn [obind]. now rewrite EK.
  Qed.

  (** ** The two kinds of sentences after the name of the act *)
  Inductive subtitle_reading (a : act_id) (r : struct_ref) (i : bool) (l : list out_ref) (whole : str) (o : N) (s : str) : Prop :=
  | read_with st t p q w : reads known whole (opt (sk any_structural_reference)) o s st (o + (utf8_len s - utf8_len t)) t -> opt_ok (struct_parent_of rf) st = Ok p -> (forall g st o, fails (block_rest g st) o t) ->
      sub_facts a r i l p q w -> (forall g, exists o', yields (with_rest g st) (o + (utf8_len s - utf8_len t)) t (mkGBlockSub g st q w i) o' []) -> subtitle_reading a r i l whole o s
  | read_structural f : l = [] -> change_tree rf c a r i f -> (exists x o1 t1, reads known whole (opt (sk any_structural_reference)) o s x o1 t1 /\ no_block c t1) ->
      (forall g, exists o', reads known whole (structural_rest g) o s (f g) o' []) -> subtitle_reading a r i l whole o s.
  Lemma r_within whole p sp u o : place whole o (sp ++ u) -> within_element p sp -> stands c u ->
    (exists st, reads known whole (opt (sk any_structural_reference)) o (sp ++ u) st (o + utf8_len sp) u /\ opt_ok (struct_parent_of rf) st = Ok p) /\ after_act c (sp ++ u).
  Proof.
    intros P W [(v & EV & WS & NS) OV SA SB]. destruct W as [|p k s E].
    - cbn [app] in *. split; [|exact SA]. exists None. split; [|reflexivity]. change (utf8_len []) with 0. rewrite N.add_0_r. subst u. apply r_none, x_sk_sp; [exact WS|]. apply x_struct; [now apply place_sp|apply NS].
    - rewrite <- !app_assoc in *. split.
      + destruct (r_parent rf c roman whole p k s u o P E OV) as (x & R & SP). exists (Some x). split; [|cbn [opt_ok]; now rewrite SP]. apply r_some. eapply r_eq; [exact R|lens].
      + pose proof (element_cap p k s u E) as C. clear - C. each_cap C. repeat (destruct I as [<-|I]; [constructor; [reflexivity|failing|failing]|]). contradiction.
  Qed.
  Lemma subtitle_reads whole a b r i l s : subtitle_change a b r i l s -> place whole (utf8_len b) s -> after_act c s /\ subtitle_reading a r i l whole (utf8_len b) s.
  Proof.
    intros H P.
    assert (K : forall p sp u q w, place whole (utf8_len b) (sp ++ u) -> within_element p sp -> stands c u -> sub_facts a r i l p q w ->
      (forall g st, exists o', yields (with_rest g st) (utf8_len (b ++ sp)) u (mkGBlockSub g st q w i) o' []) -> after_act c (sp ++ u) /\ subtitle_reading a r i l whole (utf8_len b) (sp ++ u)).
    { intros p sp u q w PL WE ST SF Y. destruct (r_within whole p sp u _ PL WE ST) as ((st & R & SP) & AA). split; [exact AA|].
      assert (EO : utf8_len b + (utf8_len (sp ++ u) - utf8_len u) = utf8_len (b ++ sp)) by (rewrite !utf8_len_app; lia).
      apply (read_with a r i l whole _ _ st u p q w); [rewrite EO, utf8_len_app; exact R|exact SP|apply (st_block _ _ ST)|exact SF|]. intros g. rewrite EO. apply Y. }
    destruct H as [p sp near l s f x own l' s' e WE N F S I|p sp near l s x own l' s' e WE N S I|p sp x s z w e WE H IZ W I|own s w t s' e H W S I].
    - destruct (y_added c a (b ++ sp) p near l s f x own l' s' e _ N F (eq_ind _ (fun y => subtitle_said a y x own l' s') S _ (app_assoc b sp (s ++ lit " " ++ f))) I eq_refl) as (q & w & SF & Y).
      apply (K p sp _ q w); auto. destruct near as [near|].
      + apply (near_stands c a (b ++ sp) (Some near) l); [exact N|discriminate].
      + assert (EN : s = []) by (inversion N; auto). subst s. cbn [app]. now apply (mid_stands c f a (b ++ sp ++ [] ++ lit " " ++ f) x own l').
    - destruct (said_space _ _ _ _ _ _ S) as (v & EV). assert (NN : Some near <> None) by discriminate.
      destruct (y_near known a (b ++ sp) (Some near) l s _ (v ++ e) N NN eq_refl) as (q & YQ & NT). replace (lit " " ++ v ++ e) with (s' ++ e) in YQ by (now rewrite EV, <- app_assoc).
      destruct (y_replaced c a (b ++ sp) p q l s x own l' s' e _ YQ (Some near) NT (or_introl NN) (eq_ind _ (fun y => subtitle_said a y x own l' s') S _ (app_assoc b sp s)) I eq_refl) as (w & SF & Y).
      apply (K p sp _ q w); auto. now apply (near_stands c a (b ++ sp) (Some near) l).
    - assert (S : subtitle_said a (b ++ sp) (Some x) None [article_found a ((b ++ sp) ++ lit " ") s x] (lit " " ++ s ++ lit " " ++ z ++ lit " " ++ w)) by now constructor.
      assert (YQ : yields (opt (sk article_relative_position)) (utf8_len (b ++ sp)) ([] ++ (lit " " ++ s ++ lit " " ++ z ++ lit " " ++ w) ++ e) None (utf8_len (b ++ sp) + utf8_len []) ((lit " " ++ s ++ lit " " ++ z ++ lit " " ++ w) ++ e)).
      { change (utf8_len []) with 0. rewrite N.add_0_r. cbn [app]. apply y_none. rewrite <- !app_assoc. now apply (rel_with c x). }
      rewrite <- (app_nil_r (b ++ sp)) in S. assert (NX : Some x <> None) by discriminate.
      destruct (y_replaced c a (b ++ sp) p None [] [] (Some x) None _ _ e _ YQ None (or_introl (conj eq_refl (conj eq_refl eq_refl))) (or_intror NX) S I eq_refl) as (w' & SF & Y). cbn [app] in *. rewrite <- !app_assoc in *.
      apply (K p sp _ None w'); auto. now apply (with_stands c x).
    - destruct (names_ws own s (lit " " ++ w ++ s' ++ e) H) as [WS AA]. split; [exact AA|].
      assert (YN := fun o => y_names own s w t s' e o H W S (over_replaced known e I)). destruct (YN (utf8_len b + 1)) as (x & Y & TI).
      assert (R : reads known whole (sk any_structural_reference) (utf8_len b) (lit " " ++ s ++ lit " " ++ w ++ s' ++ e) x (utf8_len b + 1 + utf8_len (s ++ lit " " ++ w ++ s')) e) by (apply r_sk_sp; [exact WS|]; apply r_struct; [now apply place_sp|exact Y]).
      assert (PE : place whole (utf8_len b + 1 + utf8_len (s ++ lit " " ++ w ++ s')) e). { apply place_sp in P. replace (s ++ lit " " ++ w ++ s' ++ e) with ((s ++ lit " " ++ w ++ s') ++ e) in P by (now rewrite <- !app_assoc). now apply place_on in P. }
      apply (read_structural a _ _ _ whole _ _ (fun g => mkGBlockStruct g None x false None)); [reflexivity| |eexists; eexists; eexists; split; [apply r_some; exact R|now apply block_ending]|].
      + intros g. split; [reflexivity|]. intros CA. unfold convert_structural_amendment. cbn [gbt_act gbt_parent gbt_ref gbt_book gbt_insertion]. rewrite CA. cbn [obind]. rewrite TI. reflexivity.
      + intros g. destruct (restructures c e _ (mkGBlockStruct g None x false None) (utf8_len b + 1 + utf8_len (s ++ lit " " ++ w ++ s')) I) as (o' & YR). exists o'. unfold structural_rest.
        eapply r_bind; [apply r_none, x_f; now apply (rel_names own)|]. apply r_alt2; [eapply x_bind2; [exact R|]; apply x_bind1; now apply x_ending|]. apply r_alt1. eapply r_bind; [exact R|]. apply r_y. exact YR.
  Qed.
End Run.
