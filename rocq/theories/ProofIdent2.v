(** More lemmas about identifiers: numeric, article, paragraph, prefixed and act identifiers. *)
From Verif Require Export ProofIdent.

Lemma hic_parse_not_panic s : hic_parse s <> Panic.
Proof.
  unfold hic_parse. destruct (N.eqb_spec (utf8_len s) 1) as [E|E].
  - apply utf8_len_one in E as [c [-> _]]. apply hic_of_char_not_panic.
  - destruct (assoc_str s digraph_table); discriminate.
Qed.
Lemma hic_parse_show x : hic_ok x = true -> hic_parse (hic_show x) = Ok x.
Proof.
  intros H. apply hic_parse_spelling. destruct x as [b| | | | | | | |]; cbn [hic_show]; norm_lit.
  - cbn in H. constructor. lia.
  - eapply (sp_digraph 99 115); cbn; tauto.
  - eapply (sp_digraph 100 122); cbn; tauto.
  - eapply (sp_digraph 103 121); cbn; tauto.
  - eapply (sp_digraph 108 121); cbn; tauto.
  - eapply (sp_digraph 110 121); cbn; tauto.
  - eapply (sp_digraph 115 122); cbn; tauto.
  - eapply (sp_digraph 116 121); cbn; tauto.
  - eapply (sp_digraph 122 115); cbn; tauto.
Qed.
Lemma hic_parse_show_upper x : hic_ok x = true -> hic_parse (hic_show_upper x) = Ok x.
Proof.
  intros H. apply hic_parse_spelling. destruct x as [b| | | | | | | |]; cbn [hic_show_upper]; norm_lit.
  - cbn in H. unfold ascii_upper. replace ((97 <=? b) && (b <=? 122))%N with true by lia. constructor. lia.
  - eapply (sp_digraph 99 115); cbn; tauto.
  - eapply (sp_digraph 100 122); cbn; tauto.
  - eapply (sp_digraph 103 121); cbn; tauto.
  - eapply (sp_digraph 108 121); cbn; tauto.
  - eapply (sp_digraph 110 121); cbn; tauto.
  - eapply (sp_digraph 115 122); cbn; tauto.
  - eapply (sp_digraph 116 121); cbn; tauto.
  - eapply (sp_digraph 122 115); cbn; tauto.
Qed.
Lemma spelling_ok s x : spelling s x -> hic_ok x = true.
Proof.
  intros H; destruct H as [c Hc|c Hc|a b d s Hin Hs]; cbn [hic_ok]; try lia.
  cbn [In] in Hin. repeat destruct Hin as [Hin|Hin]; try contradiction; injection Hin as _ _ <-; reflexivity.
Qed.
Lemma hic_parse_ok s x : hic_parse s = Ok x -> hic_ok x = true.
Proof. intros H. apply hic_parse_spelling in H. eapply spelling_ok, H. Qed.

Definition is_lower_c (c : char) : bool := ((97 <=? c) && (c <=? 122))%N.
Definition is_upper_c (c : char) : bool := ((65 <=? c) && (c <=? 90))%N.
Lemma hic_show_lower x : hic_ok x = true -> forallb is_lower_c (hic_show x) = true.
Proof. intros H. destruct x; try (vm_compute; reflexivity). cbn in *. unfold is_lower_c. lia. Qed.
Lemma hic_show_nonempty x : hic_show x <> [].
Proof. destruct x; cbn; norm_lit; discriminate. Qed.
Lemma hic_show_lower_str s x : hic_parse s = Ok x -> hic_show x = lower_str s.
Proof.
  intros H. apply hic_parse_spelling in H. destruct H as [c Hc|c Hc|a b d s Hin Hs].
  - cbn. unfold ascii_lower. replace ((65 <=? c) && (c <=? 90))%N with false by lia. reflexivity.
  - cbn. unfold ascii_lower. replace ((65 <=? c - 32) && (c - 32 <=? 90))%N with true by lia.
    f_equal. lia.
  - cbn [In] in Hin. repeat destruct Hin as [Hin|Hin]; try contradiction; injection Hin as <- <- <-;
    cbn [In] in Hs; repeat destruct Hs as [Hs|Hs]; try contradiction; subst s; vm_compute; reflexivity.
Qed.
(** What the first character of a letter spelling can be. *)
Lemma spelling_head s x : spelling s x ->
  exists c s', s = c :: s' /\ (is_lower_c c = true \/ is_upper_c c = true).
Proof.
  unfold is_lower_c, is_upper_c. intros H. destruct H as [c Hc|c Hc|a b d s Hin Hs].
  - exists c, []. split; [reflexivity|]. left. lia.
  - exists (c - 32)%N, []. split; [reflexivity|]. right. lia.
  - cbn [In] in Hin. repeat destruct Hin as [Hin|Hin]; try contradiction; injection Hin as <- <- <-;
    cbn [In] in Hs; repeat destruct Hs as [Hs|Hs]; try contradiction; subst s;
    eexists; eexists; (split; [reflexivity | vm_compute; auto]).
Qed.

(** ** Decimal digits *)
Lemma denotes_dec_iff s n : denotes_dec s n <-> s <> [] /\ forallb is_digit s = true /\ digits_value s = n.
Proof.
  split.
  - induction 1 as [d Hd|s n d H [IH1 [IH2 IH3]] Hd].
    + split; [discriminate|]. split; [cbn; unfold is_digit; lia|]. cbn. lia.
    + split; [now destruct s|]. split.
      * rewrite forallb_app, IH2. cbn. unfold is_digit. lia.
      * rewrite digits_value_app, IH3. cbn. lia.
  - intros [H1 [H2 H3]]. revert n H3. induction s as [|c s IH] using rev_ind; [congruence|].
    intros n H3. rewrite forallb_app in H2. apply andb_prop in H2 as [H2 Hc].
    cbn in Hc. unfold is_digit in Hc. rewrite digits_value_app in H3. cbn in H3.
    destruct s as [|a s].
    + replace n with (c - 48)%N by (rewrite <- H3; unfold digits_value; cbn; lia).
      replace c with (48 + (c - 48))%N at 1 by lia. constructor. lia.
    + replace c with (48 + (c - 48))%N by lia.
      set (s' := a :: s) in *. 
      replace n with (10 * digits_value s' + (c - 48))%N by lia.
      constructor; [|lia]. apply IH; [discriminate | exact H2 | reflexivity].
Qed.

(** ** Numeric identifiers *)
Lemma digit_not_letter c : is_lower_c c = true \/ is_upper_c c = true -> is_digit c = false.
Proof. unfold is_lower_c, is_upper_c, is_digit. lia. Qed.
Lemma split_suffix_not_panic p s : split_suffix p s <> Panic.
Proof.
  unfold split_suffix. destruct (span p s) as [a b]. destruct b as [|c b]; [discriminate|].
  destruct (c =? chr "/")%N; [destruct (is_empty b) eqn:E; cbn [obind]; [discriminate|rewrite E]
    | cbn [obind is_empty]].
  - pose proof (hic_parse_not_panic b). destruct (hic_parse b); cbn; congruence.
  - pose proof (hic_parse_not_panic (c :: b)). destruct (hic_parse (c :: b)); cbn; congruence.
Qed.
Lemma parse_unsigned_not_panic m s : parse_unsigned m s <> Panic.
Proof.
  unfold parse_unsigned. destruct (is_empty _); [discriminate|].
  destruct (forallb _ _); [|discriminate]. destruct (_ <=? _)%N; discriminate.
Qed.
Lemma parse_signed_not_panic a b s : parse_signed a b s <> Panic.
Proof.
  unfold parse_signed. destruct s as [|c s]; [discriminate|].
  destruct (c =? 45)%N; cbv zeta; destruct (is_empty _); try discriminate;
  (destruct (forallb _ _); [|discriminate]); destruct (_ && _); discriminate.
Qed.
Lemma numeric_parse_not_panic s : numeric_parse s <> Panic.
Proof.
  unfold numeric_parse. pose proof (split_suffix_not_panic is_digit s) as H.
  destruct (split_suffix is_digit s) as [[a b]| |]; cbn [obind]; try congruence.
  destruct (is_empty a); [discriminate|].
  pose proof (parse_unsigned_not_panic u16_max a) as H'. unfold parse_u16.
  destruct (parse_unsigned u16_max a); cbn; congruence.
Qed.
Lemma is_digit_slash : is_digit 47%N = false. Proof. reflexivity. Qed.
Lemma split_suffix_plain p ds : forallb p ds = true -> split_suffix p ds = Ok (ds, None).
Proof. intros H. unfold split_suffix. now rewrite (span_all p ds H). Qed.
Lemma split_suffix_letter p ds ls x : forallb p ds = true -> spelling ls x ->
  match ls with c :: _ => p c = false | [] => True end -> split_suffix p (ds ++ ls) = Ok (ds, Some x).
Proof.
  intros H S Hp. destruct (spelling_head _ _ S) as [c [s' [-> Hc]]].
  unfold split_suffix. rewrite (span_split p ds (c :: s') H Hp). norm_lit.
  replace (c =? 47)%N with false by (unfold is_lower_c, is_upper_c in Hc; lia).
  cbn [obind is_empty]. apply hic_parse_spelling in S. rewrite S. reflexivity.
Qed.
Lemma split_suffix_slash p ds ls x : forallb p ds = true -> spelling ls x -> p 47%N = false ->
  split_suffix p (ds ++ 47%N :: ls) = Ok (ds, Some x).
Proof.
  intros H S Hp. unfold split_suffix. rewrite (span_split p ds _ H) by exact Hp. norm_lit.
  rewrite N.eqb_refl. destruct (spelling_head _ _ S) as [c [s' [-> Hc]]]. cbn [is_empty obind].
  apply hic_parse_spelling in S. rewrite S. reflexivity.
Qed.
Lemma split_suffix_inv p s a o : split_suffix p s = Ok (a, o) ->
  forallb p a = true /\
  ((o = None /\ s = a) \/
   (exists ls x, o = Some x /\ spelling ls x /\ (s = a ++ ls \/ s = a ++ 47%N :: ls))).
Proof.
  unfold split_suffix. pose proof (span_app p s) as Ha. pose proof (span_fst p s) as Hp.
  destruct (span p s) as [u v]; cbn [fst snd] in *. destruct v as [|c v].
  - intros H; injection H as <- <-. rewrite app_nil_r in Ha. subst s. auto.
  - norm_lit. destruct (N.eqb_spec c 47) as [->|Hc].
    + destruct (is_empty v) eqn:E; cbn [obind]; [discriminate|]. rewrite E.
      destruct (hic_parse v) as [x| |] eqn:P; cbn [obind]; try discriminate.
      intros H; injection H as <- <-. split; [exact Hp|]. right. exists v, x.
      rewrite hic_parse_spelling in P. auto.
    + cbn [obind is_empty]. destruct (hic_parse (c :: v)) as [x| |] eqn:P; cbn [obind]; try discriminate.
      intros H; injection H as <- <-. split; [exact Hp|]. right. exists (c :: v), x.
      rewrite hic_parse_spelling in P. auto.
Qed.
Lemma parse_u16_digits ds n : forallb is_digit ds = true ->
  (parse_u16 ds = Ok n <-> ds <> [] /\ digits_value ds = n /\ (n <= 65535)%N).
Proof.
  intros H. unfold parse_u16, parse_unsigned. rewrite strip_plus_digits by exact H. rewrite H.
  destruct ds as [|c ds].
  - cbn. split; [discriminate|]. intros []; congruence.
  - cbn [is_empty]. unfold u16_max. destruct (N.leb_spec (digits_value (c :: ds)) 65535).
    + split; [intros E; injection E as <-; repeat split; [discriminate|lia] | intros [_ [-> _]]; reflexivity].
    + split; [discriminate | intros [_ [<- ?]]; lia].
Qed.
Lemma numeric_parse_spelling s x : numeric_parse s = Ok x <-> numeric_spelling s x.
Proof.
  unfold numeric_parse. split.
  - destruct (split_suffix is_digit s) as [[a o]| |] eqn:E; cbn [obind]; try discriminate.
    apply split_suffix_inv in E as [Hd E].
    destruct (is_empty a) eqn:Ea; [discriminate|].
    destruct (parse_u16 a) as [n| |] eqn:P; cbn [obind]; try discriminate.
    intros H; injection H as <-. apply parse_u16_digits in P as [P1 [P2 P3]]; [|exact Hd].
    assert (D : denotes_dec a n) by (apply denotes_dec_iff; auto).
    destruct E as [[-> ->]|[ls [x [-> [S [-> | ->]]]]]].
    + now constructor.
    + now constructor.
    + now apply ns_slash.
  - intros H. inversion H as [ds n D Hn E1 E2|ds n ls c D Hn S E1 E2|ds n ls c D Hn S E1 E2]; subst;
    apply denotes_dec_iff in D as [D1 [D2 D3]].
    + rewrite split_suffix_plain by exact D2. cbn [obind].
      apply is_empty_false in D1. rewrite D1. apply is_empty_false in D1.
      rewrite (proj2 (parse_u16_digits s n D2) (conj D1 (conj D3 Hn))). reflexivity.
    + rewrite (split_suffix_letter is_digit ds ls c D2 S).
      2:{ destruct (spelling_head _ _ S) as [k [s' [-> Hk]]]. now apply digit_not_letter. }
      cbn [obind]. apply is_empty_false in D1. rewrite D1. apply is_empty_false in D1.
      rewrite (proj2 (parse_u16_digits ds n D2) (conj D1 (conj D3 Hn))). reflexivity.
    + cbn [List.app]. rewrite (split_suffix_slash is_digit ds ls c D2 S is_digit_slash).
      cbn [obind]. apply is_empty_false in D1. rewrite D1. apply is_empty_false in D1.
      rewrite (proj2 (parse_u16_digits ds n D2) (conj D1 (conj D3 Hn))). reflexivity.
Qed.
Lemma denotes_show n : denotes_dec (show_N n) n.
Proof.
  apply denotes_dec_iff. split; [apply show_N_nonempty|]. split; [apply show_N_digits|].
  apply digits_value_show.
Qed.
Lemma numeric_parse_show x : numeric_ok x = true -> numeric_parse (numeric_show x) = Ok x.
Proof.
  destruct x as [n o]. unfold numeric_ok, numeric_show, u16_max; cbn [n_num n_suffix].
  intros H. apply andb_prop in H as [Hn Ho]. apply numeric_parse_spelling.
  destruct o as [c|].
  - constructor; [apply denotes_show | lia | now apply hic_parse_spelling, hic_parse_show].
  - constructor; [apply denotes_show | lia].
Qed.
Lemma numeric_parse_show_slash x : numeric_ok x = true -> numeric_parse (numeric_show_slash x) = Ok x.
Proof.
  destruct x as [n o]. unfold numeric_ok, numeric_show_slash, u16_max; cbn [n_num n_suffix].
  intros H. apply andb_prop in H as [Hn Ho]. apply numeric_parse_spelling.
  destruct o as [c|].
  - apply (ns_slash (show_N n) n (hic_show_upper c));
      [apply denotes_show | lia | now apply hic_parse_spelling, hic_parse_show_upper].
  - constructor; [apply denotes_show | lia].
Qed.
Lemma numeric_parse_ok s x : numeric_parse s = Ok x -> numeric_ok x = true.
Proof.
  intros H. apply numeric_parse_spelling in H. unfold numeric_ok, u16_max.
  destruct H as [ds n D Hn|ds n ls c D Hn S|ds n ls c D Hn S]; cbn [n_num n_suffix];
  try rewrite (spelling_ok _ _ S); lia.
Qed.

Lemma no_char_forall p c s : p c = false -> forallb p s = true -> no_char c s = true.
Proof.
  intros Hc. unfold no_char. apply forallb_impl. intros x Hx.
  destruct (N.eqb_spec x c); [subst; congruence | reflexivity].
Qed.
Definition is_alnum (c : char) : bool := is_digit c || is_lower_c c || is_upper_c c.
Lemma hic_show_alnum x : hic_ok x = true -> forallb is_alnum (hic_show x) = true.
Proof.
  intros H. apply hic_show_lower in H. revert H. apply forallb_impl. unfold is_alnum. intros c ->.
  now destruct (is_digit c).
Qed.
Lemma hic_show_upper_alnum x : hic_ok x = true -> forallb is_alnum (hic_show_upper x) = true.
Proof.
  intros H. destruct x; try (vm_compute; reflexivity).
  cbn in *. unfold is_alnum, is_digit, is_lower_c, is_upper_c, ascii_upper.
  replace ((97 <=? b) && (b <=? 122))%N with true by lia. lia.
Qed.
Lemma show_N_alnum n : forallb is_alnum (show_N n) = true.
Proof. generalize (show_N_digits n). apply forallb_impl. unfold is_alnum. now intros c ->. Qed.
Lemma numeric_show_alnum x : numeric_ok x = true -> forallb is_alnum (numeric_show x) = true.
Proof.
  destruct x as [n [c|]]; unfold numeric_ok, numeric_show; cbn [n_num n_suffix]; intros H.
  - apply andb_prop in H as [_ H]. rewrite forallb_app, show_N_alnum, hic_show_alnum by exact H. reflexivity.
  - apply show_N_alnum.
Qed.
Lemma numeric_show_nonempty x : numeric_show x <> [].
Proof.
  unfold numeric_show. pose proof (show_N_nonempty (n_num x)).
  destruct (n_suffix x); [|assumption]. now destruct (show_N (n_num x)).
Qed.
Lemma numeric_show_slash_no_char c x : numeric_ok x = true -> is_alnum c = false -> c <> 47%N ->
  no_char c (numeric_show_slash x) = true.
Proof.
  intros H Hc Hs. unfold numeric_show_slash. destruct x as [n [h|]]; cbn [n_num n_suffix].
  - unfold numeric_ok in H. cbn [n_num n_suffix] in H. apply andb_prop in H as [_ H]. norm_lit.
    rewrite !no_char_app, (no_char_forall _ _ _ Hc (show_N_alnum n)),
      (no_char_forall _ _ _ Hc (hic_show_upper_alnum h H)).
    cbn. destruct (N.eqb_spec 47 c); [congruence|reflexivity].
  - apply (no_char_forall _ _ _ Hc (show_N_alnum n)).
Qed.

(** ** Article identifiers *)
Lemma article_parse_show x : article_ok x = true -> article_parse (article_show x) = Ok x.
Proof.
  destruct x as [[b|] i]; unfold article_ok, article_show, article_parse, u8_max; cbn [a_book a_ident]; norm_lit;
  intros H; apply andb_prop in H as [Hb Hi].
  - rewrite <- app_assoc. cbn [List.app]. rewrite split_once_some by (now apply show_N_no_char).
    unfold parse_u8. rewrite parse_unsigned_show by (unfold u8_max; lia). cbn [obind].
    rewrite numeric_parse_show_slash by exact Hi. reflexivity.
  - cbn [List.app]. rewrite split_once_none by (now apply numeric_show_slash_no_char).
    rewrite numeric_parse_show_slash by exact Hi. reflexivity.
Qed.
Lemma article_parse_show_compact x : article_ok x = true ->
  article_parse_compact (article_show_compact x) = Ok x.
Proof.
  destruct x as [[b|] i]; unfold article_ok, article_show_compact, article_parse_compact, u8_max;
  cbn [a_book a_ident]; norm_lit; intros H; apply andb_prop in H as [Hb Hi].
  - rewrite <- app_assoc. cbn [List.app]. rewrite split_once_some by (now apply show_N_no_char).
    unfold parse_u8. rewrite parse_unsigned_show by (unfold u8_max; lia). cbn [obind].
    rewrite numeric_parse_show by exact Hi. reflexivity.
  - cbn [List.app]. rewrite split_once_none by (apply (no_char_forall _ _ _ (eq_refl : is_alnum 46%N = false)), numeric_show_alnum, Hi).
    rewrite numeric_parse_show by exact Hi. reflexivity.
Qed.
Lemma parse_unsigned_le m s n : parse_unsigned m s = Ok n -> (n <= m)%N.
Proof.
  unfold parse_unsigned. destruct (is_empty _); [discriminate|].
  destruct (forallb _ _); [|discriminate]. destruct (N.leb_spec (digits_value (strip_plus s)) m); [|discriminate].
  intros E; injection E as <-. assumption.
Qed.
Lemma article_parse_ok s x : article_parse s = Ok x -> article_ok x = true.
Proof.
  unfold article_parse, article_ok. destruct (split_once _ _) as [[a b]|].
  - destruct (parse_u8 a) as [n| |] eqn:E; cbn [obind]; try discriminate.
    destruct (numeric_parse b) as [y| |] eqn:E2; cbn [obind]; try discriminate.
    intros H; injection H as <-. cbn. apply parse_unsigned_le in E. rewrite (numeric_parse_ok _ _ E2).
    unfold u8_max in *. lia.
  - destruct (numeric_parse s) as [y| |] eqn:E2; cbn [obind]; try discriminate.
    intros H; injection H as <-. cbn. apply (numeric_parse_ok _ _ E2).
Qed.
Lemma article_parse_compact_ok s x : article_parse_compact s = Ok x -> article_ok x = true.
Proof.
  unfold article_parse_compact, article_ok. destruct (split_once _ _) as [[a b]|].
  - destruct (parse_u8 a) as [n| |] eqn:E; cbn [obind]; try discriminate.
    destruct (numeric_parse b) as [y| |] eqn:E2; cbn [obind]; try discriminate.
    intros H; injection H as <-. cbn. apply parse_unsigned_le in E. rewrite (numeric_parse_ok _ _ E2).
    unfold u8_max in *. lia.
  - destruct (numeric_parse s) as [y| |] eqn:E2; cbn [obind]; try discriminate.
    intros H; injection H as <-. cbn. apply (numeric_parse_ok _ _ E2).
Qed.
Lemma article_parse_not_panic s : article_parse s <> Panic.
Proof.
  unfold article_parse. destruct (split_once _ _) as [[a b]|].
  - unfold parse_u8. pose proof (parse_unsigned_not_panic u8_max a).
    destruct (parse_unsigned u8_max a); cbn [obind]; try congruence.
    pose proof (numeric_parse_not_panic b). destruct (numeric_parse b); cbn; congruence.
  - pose proof (numeric_parse_not_panic s). destruct (numeric_parse s); cbn; congruence.
Qed.
Lemma article_parse_compact_not_panic s : article_parse_compact s <> Panic.
Proof.
  unfold article_parse_compact. destruct (split_once _ _) as [[a b]|].
  - unfold parse_u8. pose proof (parse_unsigned_not_panic u8_max a).
    destruct (parse_unsigned u8_max a); cbn [obind]; try congruence.
    pose proof (numeric_parse_not_panic b). destruct (numeric_parse b); cbn; congruence.
  - pose proof (numeric_parse_not_panic s). destruct (numeric_parse s); cbn; congruence.
Qed.

(** ** Paragraph identifiers *)
Lemma paragraph_parse_show x : paragraph_ok x = true -> paragraph_parse (paragraph_show x) = Ok x.
Proof.
  destruct x as [n|]; cbn [paragraph_ok paragraph_show]; [|reflexivity]. intros H.
  unfold paragraph_parse. rewrite (proj2 (is_empty_false _) (numeric_show_nonempty n)).
  rewrite numeric_parse_show by exact H. reflexivity.
Qed.
Lemma paragraph_parse_ok s x : paragraph_parse s = Ok x -> paragraph_ok x = true.
Proof.
  unfold paragraph_parse. destruct (is_empty s); [intros H; injection H as <-; reflexivity|].
  destruct (numeric_parse s) as [y| |] eqn:E; cbn [obind]; try discriminate.
  intros H; injection H as <-. apply (numeric_parse_ok _ _ E).
Qed.
Lemma paragraph_parse_not_panic s : paragraph_parse s <> Panic.
Proof.
  unfold paragraph_parse. destruct (is_empty s); [discriminate|].
  pose proof (numeric_parse_not_panic s). destruct (numeric_parse s); cbn; congruence.
Qed.

(** ** Prefixed alphabetic identifiers *)
Lemma hic_of_char_latin b : (97 <= b <= 122)%N -> hic_of_char b = Ok (Latin b).
Proof.
  intros H. apply hic_of_char_ok. unfold ascii_lower.
  replace ((65 <=? b) && (b <=? 90))%N with false by lia. auto.
Qed.
Lemma prefixed_parse_show x : prefixed_ok x = true -> prefixed_latin x = true ->
  prefixed_parse (prefixed_show x) = Ok x.
Proof.
  destruct x as [[[p| | | | | | | |]|] [c| | | | | | | |]]; unfold prefixed_ok, prefixed_latin, prefixed_show, prefixed_parse;
  cbn [p_prefix p_chr is_latin hic_ok hic_show andb List.app]; intros H1 H2; try discriminate.
  - rewrite !hic_of_char_latin by lia. reflexivity.
  - rewrite !hic_of_char_latin by lia. reflexivity.
Qed.
Lemma prefixed_parse_latin s x : prefixed_parse s = Ok x -> prefixed_ok x = true /\ prefixed_latin x = true.
Proof.
  unfold prefixed_parse, prefixed_ok, prefixed_latin. destruct s as [|a [|b [|]]]; try discriminate.
  - destruct (hic_of_char a) as [y| |] eqn:E; cbn [obind]; try discriminate.
    intros H; injection H as <-. apply hic_of_char_ok in E as [Hr ->]. cbn. split; [lia|reflexivity].
  - destruct (hic_of_char a) as [y| |] eqn:E; cbn [obind]; try discriminate.
    destruct (hic_of_char b) as [z| |] eqn:E'; cbn [obind]; try discriminate.
    intros H; injection H as <-. apply hic_of_char_ok in E as [Hr ->]. apply hic_of_char_ok in E' as [Hr' ->].
    cbn. split; [lia|reflexivity].
Qed.
Lemma prefixed_parse_not_panic s : prefixed_parse s <> Panic.
Proof.
  unfold prefixed_parse. destruct s as [|a [|b [|]]]; try discriminate.
  - pose proof (hic_of_char_not_panic a). destruct (hic_of_char a); cbn; congruence.
  - pose proof (hic_of_char_not_panic a). destruct (hic_of_char a); cbn [obind]; try congruence.
    pose proof (hic_of_char_not_panic b). destruct (hic_of_char b); cbn; congruence.
Qed.

(** ** Orders agree with the legal order *)
Lemma numeric_cmp_before x y : numeric_ok x = true -> numeric_ok y = true ->
  (numeric_cmp x y = Lt <-> numeric_before x y).
Proof.
  destruct x as [n o], y as [m p]. unfold numeric_ok, numeric_cmp, numeric_before, lex; cbn [n_num n_suffix].
  intros H1 H2. apply andb_prop in H1 as [_ H1], H2 as [_ H2].
  destruct (N.compare_spec n m) as [->|E|E].
  - destruct o as [a|], p as [b|]; cbn [opt_cmp].
    + rewrite (hic_cmp_before a b H1 H2). split; [intros; right; auto | intros [?|[_ ?]]; [lia|assumption]].
    + split; [discriminate|]. intros [?|[_ []]]. lia.
    + split; [intros; right; auto | reflexivity].
    + split; [discriminate|]. intros [?|[_ []]]. lia.
  - split; [intros; left; assumption | reflexivity].
  - split; [discriminate|]. intros [?|[? _]]; lia.
Qed.
Lemma article_cmp_before x y : article_ok x = true -> article_ok y = true ->
  (article_cmp x y = Lt <-> article_before x y).
Proof.
  destruct x as [n o], y as [m p]. unfold article_ok, article_cmp, article_before, lex; cbn [a_book a_ident].
  intros H1 H2. apply andb_prop in H1 as [_ H1], H2 as [_ H2].
  pose proof (numeric_cmp_before o p H1 H2) as Hn.
  destruct n as [a|], m as [b|]; cbn [opt_cmp].
  - destruct (N.compare_spec a b) as [->|E|E].
    + rewrite Hn. split; [auto | intros [?|[_ ?]]; [lia|assumption]].
    + split; [auto | reflexivity].
    + split; [discriminate | intros [?|[? _]]; lia].
  - split; [discriminate | intros []].
  - split; auto.
  - exact Hn.
Qed.
Lemma paragraph_cmp_before x y : paragraph_ok x = true -> paragraph_ok y = true ->
  (paragraph_cmp x y = Lt <-> match x, y with
     | Some a, Some b => numeric_before a b | None, Some _ => True | _, None => False end).
Proof.
  destruct x as [a|], y as [b|]; cbn; intros H1 H2; try (split; [discriminate|intros []]).
  - now apply numeric_cmp_before.
  - split; auto.
Qed.

(** ** Succession *)
Lemma wsub_small m a b : (0 < m)%N -> (a < m)%N -> (b < m)%N -> (b <= a)%N -> wsub m a b = (a - b)%N.
Proof.
  intros. unfold wsub. replace (a + m - b)%N with ((a - b) + 1 * m)%N by lia.
  rewrite N.mod_add by lia. apply N.mod_small. lia.
Qed.
Lemma wsub_big m a b : (0 < m)%N -> (a < m)%N -> (b < m)%N -> (a < b)%N -> wsub m a b = (a + m - b)%N.
Proof. intros. unfold wsub. apply N.mod_small. lia. Qed.
Lemma wsub_one m a b : (1 < m)%N -> (a < m)%N -> (b < m)%N ->
  (wsub m a b = 1%N <-> a = (b + 1)%N \/ (a = 0%N /\ b = (m - 1)%N)).
Proof.
  intros Hm Ha Hb. destruct (N.le_gt_cases b a).
  - rewrite wsub_small by lia. lia.
  - rewrite wsub_big by lia. lia.
Qed.
Lemma hic_first_eq x : hic_first x = true <-> x = Latin 97.
Proof. unfold hic_first. norm_lit. apply hic_eqb_eq. Qed.
Lemma numeric_first_eq x : numeric_first x = true <-> x = mkNum 1 None.
Proof. apply numeric_eqb_eq. Qed.
(** Without the wrap-around of [u16]: exact. *)
Lemma numeric_next_follows x y : numeric_ok x = true -> numeric_ok y = true -> n_num x <> 0%N ->
  (numeric_next x y = true <-> numeric_follows x y).
Proof.
  destruct x as [n o], y as [m p]. unfold numeric_ok, numeric_next, numeric_follows, u16_max; cbn [n_num n_suffix].
  intros H1 H2 Hn. apply andb_prop in H1 as [H1a H1], H2 as [H2a H2].
  destruct o as [a|].
  - destruct p as [b|].
    + rewrite andb_true_iff, N.eqb_eq, (hic_next_follows a b H1 H2). reflexivity.
    + rewrite andb_true_iff, N.eqb_eq, hic_first_eq. reflexivity.
  - rewrite N.eqb_eq, wsub_one by lia. lia.
Qed.
(** In general: [follows], or the wrap-around from 65535 to 0. *)
Lemma numeric_next_general x y : numeric_ok x = true -> numeric_ok y = true ->
  (numeric_next x y = true <-> numeric_follows x y \/ (x = mkNum 0 None /\ n_num y = 65535%N)).
Proof.
  intros H1 H2. destruct (N.eq_dec (n_num x) 0) as [Z|NZ].
  - destruct x as [n o], y as [m p]. unfold numeric_ok, numeric_next, numeric_follows, u16_max in *; cbn [n_num n_suffix] in *.
    apply andb_prop in H1 as [H1a H1], H2 as [H2a H2]. subst n. destruct o as [a|].
    + destruct p as [b|].
      * rewrite andb_true_iff, N.eqb_eq, (hic_next_follows a b H1 H2).
        split; [auto | intros [?|[? _]]; [assumption|discriminate]].
      * rewrite andb_true_iff, N.eqb_eq, hic_first_eq.
        split; [auto | intros [?|[? _]]; [assumption|discriminate]].
    + rewrite N.eqb_eq, wsub_one by lia. split; [intros [?|[_ ?]]; [auto| right; split; [reflexivity|lia]]
      | intros [?|[_ ?]]; [auto| right; lia]].
  - rewrite (numeric_next_follows x y H1 H2 NZ). split; [auto|]. intros [?|[-> _]]; [assumption|].
    now cbn in NZ.
Qed.
Lemma article_next_general x y : article_ok x = true -> article_ok y = true ->
  (article_next x y = true <-> article_follows x y
    \/ (a_book x = a_book y /\ a_ident x = mkNum 0 None /\ n_num (a_ident y) = 65535%N)
    \/ (a_book x = Some 0%N /\ a_book y = Some 255%N /\ a_ident x = mkNum 1 None)).
Proof.
  destruct x as [n o], y as [m p]. unfold article_ok, article_next, article_follows, u8_max; cbn [a_book a_ident].
  intros H1 H2. apply andb_prop in H1 as [H1a H1], H2 as [H2a H2].
  pose proof (numeric_next_general o p H1 H2) as Hn.
  destruct n as [a|], m as [b|].
  - destruct (N.eqb_spec a b) as [->|E].
    + rewrite Hn. split.
      * intros [?|[? ?]]; [left; left; auto | right; left; auto].
      * intros [[[_ ?]|[? _]]|[[_ [? ?]]|[Q1 [Q2 _]]]]; auto; [lia|congruence].
    + destruct (N.eqb_spec (wsub 256 a b) 1) as [W|W].
      * rewrite numeric_first_eq. apply wsub_one in W; [|lia..]. split.
        -- intros ->. destruct W as [->|[-> ->]]; [left; right; auto | right; right; auto].
        -- intros [[[? _]|[? ?]]|[[Q1 _]|[Q1 [Q2 ?]]]]; congruence.
      * split; [discriminate|]. intros [[[? _]|[? ?]]|[[Q1 _]|[Q1 [Q2 ?]]]]; try congruence.
        -- exfalso. apply W. apply wsub_one; lia.
        -- exfalso. apply W. injection Q1 as ->. injection Q2 as ->. reflexivity.
  - split; [discriminate|]. intros [[]|[[? _]|[_ [? _]]]]; discriminate.
  - split; [discriminate|]. intros [[]|[[? _]|[? [_ _]]]]; discriminate.
  - rewrite Hn. split; [intros [?|?]; [auto | right; left; auto] |].
    intros [?|[[_ ?]|[? _]]]; [auto|auto|discriminate].
Qed.

(** Succession moves strictly forward (except for the wrap-arounds). *)
Lemma numeric_next_lt x y : numeric_ok x = true -> numeric_ok y = true -> n_num x <> 0%N ->
  numeric_next x y = true -> numeric_cmp y x = Lt.
Proof.
  destruct x as [n o], y as [m p]. unfold numeric_ok, numeric_next, numeric_cmp, u16_max; cbn [n_num n_suffix].
  intros H1 H2 Hn. apply andb_prop in H1 as [H1a H1], H2 as [H2a H2].
  destruct o as [a|].
  - destruct p as [b|].
    + rewrite andb_true_iff, N.eqb_eq. intros [-> H]. rewrite N.compare_refl. cbn. now apply hic_next_lt.
    + rewrite andb_true_iff, N.eqb_eq. intros [-> H]. rewrite N.compare_refl. reflexivity.
  - rewrite N.eqb_eq, wsub_one by lia. intros [->|[? _]]; [|lia].
    replace (m ?= m + 1)%N with Lt; [reflexivity|]. symmetry. apply N.compare_lt_iff. lia.
Qed.
Lemma article_next_lt x y : article_ok x = true -> article_ok y = true -> n_num (a_ident x) <> 0%N ->
  a_book x <> Some 0%N -> article_next x y = true -> article_cmp y x = Lt.
Proof.
  destruct x as [n o], y as [m p]. unfold article_ok, article_next, article_cmp, u8_max; cbn [a_book a_ident].
  intros H1 H2 Hn Hb. apply andb_prop in H1 as [H1a H1], H2 as [H2a H2].
  destruct n as [a|], m as [b|]; try discriminate.
  - destruct (N.eqb_spec a b) as [->|E].
    + intros H. cbn [opt_cmp]. rewrite N.compare_refl. cbn [lex]. now apply numeric_next_lt.
    + destruct (N.eqb_spec (wsub 256 a b) 1) as [W|W]; [|discriminate]. intros _.
      apply wsub_one in W; [|lia..]. destruct W as [->|[-> _]]; [|congruence]. cbn [opt_cmp].
      replace (b ?= b + 1)%N with Lt; [reflexivity|]. symmetry. apply N.compare_lt_iff. lia.
  - intros H. cbn. now apply numeric_next_lt.
Qed.
Lemma prefixed_next_lt x y : prefixed_next x y = true -> prefixed_cmp y x = Lt.
Proof.
  destruct x as [[p|] c], y as [[q|] d]; unfold prefixed_next, prefixed_cmp; cbn [p_prefix p_chr opt_cmp lex]; try discriminate.
  - destruct (hic_eqb p q) eqn:E; [|discriminate]. apply hic_eqb_eq in E. subst.
    rewrite (to_refl hic_total). apply hic_next_lt.
  - apply hic_next_lt.
Qed.
