(** Combined statements used by PropertiesIdent.v. *)
From Verif Require Export ProofIdent3.
From Coq Require Export Sorted.

Lemma c01_roundtrip x : hic_ok x = true ->
  hic_parse (hic_show x) = Ok x /\ hic_parse (hic_show_upper x) = Ok x.
Proof. split; [now apply hic_parse_show | now apply hic_parse_show_upper]. Qed.
Lemma c02_roundtrip x : numeric_ok x = true ->
  numeric_parse (numeric_show x) = Ok x /\ numeric_parse (numeric_show_slash x) = Ok x.
Proof. split; [now apply numeric_parse_show | now apply numeric_parse_show_slash]. Qed.

Lemma prefixed_parse_lower s x : prefixed_parse s = Ok x -> prefixed_show x = lower_str s.
Proof.
  unfold prefixed_parse, prefixed_show. destruct s as [|a [|b [|]]]; try discriminate.
  - destruct (hic_of_char a) as [y| |] eqn:E; cbn [obind]; try discriminate.
    intros H; apply Ok_inj in H; subst x. apply hic_of_char_ok in E as [Hr ->]. reflexivity.
  - destruct (hic_of_char a) as [y| |] eqn:E; cbn [obind]; try discriminate.
    destruct (hic_of_char b) as [z| |] eqn:E'; cbn [obind]; try discriminate.
    intros H; apply Ok_inj in H; subst x.
    apply hic_of_char_ok in E as [Hr ->]. apply hic_of_char_ok in E' as [Hr' ->]. reflexivity.
Qed.
Lemma c03_roundtrip :
  (forall x, article_ok x = true -> article_parse (article_show x) = Ok x) /\
  (forall x, paragraph_ok x = true -> paragraph_parse (paragraph_show x) = Ok x) /\
  (forall x, prefixed_ok x = true -> prefixed_latin x = true -> prefixed_parse (prefixed_show x) = Ok x).
Proof. split; [apply article_parse_show|]. split; [apply paragraph_parse_show|apply prefixed_parse_show]. Qed.
Lemma c03_parse_ok :
  (forall s, article_parse s <> Panic) /\ (forall s, paragraph_parse s <> Panic) /\
  (forall s, prefixed_parse s <> Panic) /\
  (forall s x, article_parse s = Ok x -> article_ok x = true) /\
  (forall s x, paragraph_parse s = Ok x -> paragraph_ok x = true) /\
  (forall s x, prefixed_parse s = Ok x ->
     prefixed_ok x = true /\ prefixed_latin x = true /\ prefixed_show x = lower_str s).
Proof.
  repeat split.
  - apply article_parse_not_panic.
  - apply paragraph_parse_not_panic.
  - apply prefixed_parse_not_panic.
  - apply article_parse_ok.
  - apply paragraph_parse_ok.
  - now apply prefixed_parse_latin in H.
  - now apply prefixed_parse_latin in H.
  - now apply prefixed_parse_lower.
Qed.
(** How an article identifier may be written: optional book number and ':' before a numeric one.
    (The book may carry a leading '+', Rust's integer parser allows it.) *)
Lemma article_parse_exact s x : article_parse s = Ok x <->
  (exists i, numeric_spelling s i /\ x = mkArt None i) \/
  (exists bs b is_ i, s = bs ++ 58%N :: is_ /\ denotes_dec (strip_plus bs) b /\ (b <= 255)%N /\
                     numeric_spelling is_ i /\ x = mkArt (Some b) i).
Proof.
  assert (NC : forall s i, numeric_spelling s i -> no_char 58 s = true).
  { assert (D : forall s n, denotes_dec s n -> no_char 58 s = true).
    { intros t n H. apply denotes_dec_iff in H as [_ [H _]]. now apply digits_no_char. }
    assert (L : forall s c, spelling s c -> no_char 58 s = true).
    { intros t c H. apply hic_parse_spelling in H as H'. pose proof (hic_parse_ok _ _ H') as Hok.
      destruct H as [k Hk|k Hk|a b d u Hin Hs].
      - unfold no_char; cbn. lia.
      - unfold no_char; cbn. lia.
      - cbn [In] in Hin. repeat destruct Hin as [Hin|Hin]; try contradiction; injection Hin as <- <- <-;
        cbn [In] in Hs; repeat destruct Hs as [Hs|Hs]; try contradiction; subst u; vm_compute; reflexivity. }
    intros t i H. destruct H as [ds n Hd _|ds n ls c Hd _ Hl|ds n ls c Hd _ Hl].
    - eauto.
    - rewrite no_char_app, (D _ _ Hd), (L _ _ Hl). reflexivity.
    - rewrite !no_char_app, (D _ _ Hd), (L _ _ Hl). reflexivity. }
  assert (U : forall bs b, parse_u8 bs = Ok b <-> denotes_dec (strip_plus bs) b /\ (b <= 255)%N).
  { intros bs b. unfold parse_u8, parse_unsigned, u8_max. rewrite denotes_dec_iff. cbv zeta.
    destruct (strip_plus bs) as [|c t] eqn:E; cbn [is_empty].
    - split; [discriminate|]. intros [[H _] _]; congruence.
    - destruct (forallb is_digit (c :: t)) eqn:F.
      + destruct (N.leb_spec (digits_value (c :: t)) 255) as [Hle|Hle].
        * split; [intros H; apply Ok_inj in H; subst b; repeat split; [discriminate|lia]
                 | intros [[_ [_ ->]] _]; reflexivity].
        * split; [discriminate | intros [[_ [_ <-]] ?]; lia].
      + split; [discriminate | intros [[_ [? _]] _]; congruence]. }
  unfold article_parse. norm_lit. split.
  - destruct (split_once 58 s) as [[bs t]|] eqn:E.
    + apply split_once_inv in E as [-> _].
      destruct (parse_u8 bs) as [b| |] eqn:Eb; cbn [obind]; try discriminate.
      destruct (numeric_parse t) as [i| |] eqn:Ei; cbn [obind]; try discriminate.
      intros H; apply Ok_inj in H; subst x. right. exists bs, b, t, i.
      apply U in Eb as [Eb1 Eb2]. apply numeric_parse_spelling in Ei. auto.
    + destruct (numeric_parse s) as [i| |] eqn:Ei; cbn [obind]; try discriminate.
      intros H; apply Ok_inj in H; subst x. left. exists i. apply numeric_parse_spelling in Ei. auto.
  - intros [[i [Hs ->]]|[bs [b [t [i [-> [Hb [Hle [Hs ->]]]]]]]]].
    + rewrite split_once_none by (eapply NC; eassumption). apply numeric_parse_spelling in Hs.
      rewrite Hs. reflexivity.
    + rewrite split_once_some.
      * rewrite (proj2 (U bs b) (conj Hb Hle)). cbn [obind]. apply numeric_parse_spelling in Hs.
        rewrite Hs. reflexivity.
      * apply denotes_dec_iff in Hb as [_ [Hb _]]. unfold strip_plus in Hb. destruct bs as [|c bs]; [reflexivity|].
        destruct (N.eqb_spec c 43) as [->|Hc].
        -- cbn. now apply digits_no_char.
        -- now apply digits_no_char.
Qed.

Lemma c04_identifiers :
  (forall x, hic_ok x = true -> hic_parse (hic_show x) = Ok x) /\
  (forall x, numeric_ok x = true -> numeric_parse (numeric_show x) = Ok x) /\
  (forall x, article_ok x = true -> article_parse_compact (article_show_compact x) = Ok x) /\
  (forall x, paragraph_ok x = true -> paragraph_parse (paragraph_show x) = Ok x) /\
  (forall x, prefixed_ok x = true -> prefixed_latin x = true -> prefixed_parse (prefixed_show x) = Ok x) /\
  (forall x, act_ok x = true -> act_parse_compact (act_show_compact x) = Ok x).
Proof.
  repeat split.
  - apply hic_parse_show.
  - apply numeric_parse_show.
  - apply article_parse_show_compact.
  - apply paragraph_parse_show.
  - apply prefixed_parse_show.
  - apply act_parse_show_compact.
Qed.
Lemma c04_ranges :
  (forall r : range hic, range_of (fun x => hic_ok x = true) r -> range_parse_compact (range_show_compact r) = Ok r) /\
  (forall r : range numeric, range_of (fun x => numeric_ok x = true) r -> range_parse_compact (range_show_compact r) = Ok r) /\
  (forall r : range article_id, range_of (fun x => article_ok x = true) r -> range_parse_compact (range_show_compact r) = Ok r) /\
  (forall r : range paragraph_id, range_of (fun x => paragraph_ok x = true) r -> range_parse_compact (range_show_compact r) = Ok r) /\
  (forall r : range prefixed, range_of (fun x => prefixed_ok x = true /\ prefixed_latin x = true) r ->
     range_parse_compact (range_show_compact r) = Ok r).
Proof.
  repeat split; intros r [H1 H2].
  - now apply (range_parse_show hic_compact).
  - now apply (range_parse_show numeric_compact).
  - now apply (range_parse_show article_compact).
  - now apply (range_parse_show paragraph_compact).
  - now apply (range_parse_show prefixed_compact).
Qed.
Lemma article_show_compact_nonempty x : article_show_compact x <> [].
Proof.
  unfold article_show_compact. intros E. apply app_eq_nil in E as [_ E]. now apply numeric_show_nonempty in E.
Qed.
Lemma prefixed_show_nonempty x : prefixed_show x <> [].
Proof.
  unfold prefixed_show. intros E. apply app_eq_nil in E as [_ E]. now apply hic_show_nonempty in E.
Qed.
(** Options.  For an optional [ParagraphIdentifier] the empty identifier is excluded. *)
Lemma c04_options :
  (forall o : option hic, (forall x, o = Some x -> hic_ok x = true) ->
     opt_parse_compact hic_parse (opt_show_compact hic_show o) = Ok o) /\
  (forall o : option numeric, (forall x, o = Some x -> numeric_ok x = true) ->
     opt_parse_compact numeric_parse (opt_show_compact numeric_show o) = Ok o) /\
  (forall o : option article_id, (forall x, o = Some x -> article_ok x = true) ->
     opt_parse_compact article_parse_compact (opt_show_compact article_show_compact o) = Ok o) /\
  (forall o : option prefixed, (forall x, o = Some x -> prefixed_ok x = true /\ prefixed_latin x = true) ->
     opt_parse_compact prefixed_parse (opt_show_compact prefixed_show o) = Ok o) /\
  (forall o : option act_id, (forall x, o = Some x -> act_ok x = true) ->
     opt_parse_compact act_parse_compact (opt_show_compact act_show_compact o) = Ok o) /\
  (forall o : option paragraph_id, (forall x, o = Some x -> paragraph_ok x = true /\ x <> None) ->
     opt_parse_compact paragraph_parse (opt_show_compact paragraph_show o) = Ok o).
Proof.
  repeat split; intros o H.
  - apply (opt_parse_show _ _ (fun x => hic_ok x = true)); auto using hic_parse_show, hic_show_nonempty.
  - apply (opt_parse_show _ _ (fun x => numeric_ok x = true)); auto using numeric_parse_show, numeric_show_nonempty.
  - apply (opt_parse_show _ _ (fun x => article_ok x = true));
      auto using article_parse_show_compact, article_show_compact_nonempty.
  - apply (opt_parse_show _ _ (fun x => prefixed_ok x = true /\ prefixed_latin x = true)).
    + intros x [H1 H2]. now apply prefixed_parse_show.
    + intros x _. apply prefixed_show_nonempty.
    + exact H.
  - apply (opt_parse_show _ _ (fun x => act_ok x = true));
      auto using act_parse_show_compact, act_show_compact_nonempty.
  - apply (opt_parse_show _ _ (fun x => paragraph_ok x = true /\ x <> None)).
    + intros x [H1 _]. now apply paragraph_parse_show.
    + intros [x|] [_ H2]; [apply numeric_show_nonempty | congruence].
    + exact H.
Qed.
(** Optional ranges (the form used inside references). *)
Lemma c04_optional_ranges :
  (forall o : option (range hic), (forall r, o = Some r -> range_of (fun x => hic_ok x = true) r) ->
     opt_parse_compact range_parse_compact (opt_show_compact range_show_compact o) = Ok o) /\
  (forall o : option (range numeric), (forall r, o = Some r -> range_of (fun x => numeric_ok x = true) r) ->
     opt_parse_compact range_parse_compact (opt_show_compact range_show_compact o) = Ok o) /\
  (forall o : option (range article_id), (forall r, o = Some r -> range_of (fun x => article_ok x = true) r) ->
     opt_parse_compact range_parse_compact (opt_show_compact range_show_compact o) = Ok o).
Proof.
  repeat split; intros o H; (eapply opt_parse_show; [ | | exact H]); cbv beta.
  - intros r [H1 H2]. now apply (range_parse_show hic_compact).
  - intros r _. apply range_show_nonempty, hic_show_nonempty.
  - intros r [H1 H2]. now apply (range_parse_show numeric_compact).
  - intros r _. apply range_show_nonempty, numeric_show_nonempty.
  - intros r [H1 H2]. now apply (range_parse_show article_compact).
  - intros r _. apply range_show_nonempty, article_show_compact_nonempty.
Qed.
(** Left inverse implies injective: used to restate C04 as "never share a string". *)
Lemma parse_show_inj {A} (show : A -> str) (parse : str -> outcome A) (P : A -> Prop) :
  (forall x, P x -> parse (show x) = Ok x) -> forall x y, P x -> P y -> show x = show y -> x = y.
Proof. intros H x y Hx Hy E. apply H in Hx, Hy. rewrite E in Hx. congruence. Qed.
Lemma c04_distinct :
  (forall x y, hic_ok x = true -> hic_ok y = true -> hic_show x = hic_show y -> x = y) /\
  (forall x y, numeric_ok x = true -> numeric_ok y = true -> numeric_show x = numeric_show y -> x = y) /\
  (forall x y, article_ok x = true -> article_ok y = true -> article_show_compact x = article_show_compact y -> x = y) /\
  (forall x y, act_ok x = true -> act_ok y = true -> act_show_compact x = act_show_compact y -> x = y) /\
  (forall x y : range article_id, range_of (fun x => article_ok x = true) x -> range_of (fun x => article_ok x = true) y ->
     range_show_compact x = range_show_compact y -> x = y) /\
  (forall x y : range numeric, range_of (fun x => numeric_ok x = true) x -> range_of (fun x => numeric_ok x = true) y ->
     range_show_compact x = range_show_compact y -> x = y).
Proof.
  repeat split.
  - exact (parse_show_inj _ _ _ hic_parse_show).
  - exact (parse_show_inj _ _ _ numeric_parse_show).
  - exact (parse_show_inj _ _ _ article_parse_show_compact).
  - exact (parse_show_inj _ _ _ act_parse_show_compact).
  - exact (parse_show_inj _ _ _ (proj1 (proj2 (proj2 c04_ranges)))).
  - exact (parse_show_inj _ _ _ (proj1 (proj2 c04_ranges))).
Qed.

Lemma strict_total_of {T} (eqb : T -> T -> bool) cmp : (forall x y, eqb x y = true <-> x = y) ->
  TotalOrd cmp -> strict_total eqb cmp.
Proof.
  intros E [H1 H2 H3]. repeat split; auto; try (apply H1); try (apply E).
Qed.
Lemma c05_total :
  strict_total hic_eqb hic_cmp /\ strict_total numeric_eqb numeric_cmp /\
  strict_total article_eqb article_cmp /\ strict_total paragraph_eqb paragraph_cmp /\
  strict_total prefixed_eqb prefixed_cmp /\ strict_total act_eqb act_cmp.
Proof.
  split; [|split; [|split; [|split; [|split]]]]; apply strict_total_of.
  - apply hic_eqb_eq. - apply hic_total.
  - apply numeric_eqb_eq. - apply numeric_total.
  - apply article_eqb_eq. - apply article_total.
  - apply paragraph_eqb_eq. - apply paragraph_total.
  - apply prefixed_eqb_eq. - apply prefixed_total.
  - apply act_eqb_eq. - apply act_total.
Qed.
Lemma before_irrefl x : hic_ok x = true -> ~ before x x.
Proof. intros H B. apply (hic_cmp_before x x H H) in B. rewrite (to_refl hic_total) in B. discriminate. Qed.
Lemma before_ok x y : before x y -> hic_ok x = true /\ hic_ok y = true.
Proof.
  intros [l1 [l2 [l3 E]]]. split; apply hic_ok_In; rewrite E.
  - apply in_elt.
  - rewrite in_app_iff. right. right. apply in_elt.
Qed.
Lemma prefixed_cmp_before x y : prefixed_ok x = true -> prefixed_ok y = true ->
  (prefixed_cmp x y = Lt <-> prefixed_before x y).
Proof.
  destruct x as [[p|] c], y as [[q|] d]; unfold prefixed_ok, prefixed_cmp, prefixed_before; cbn [p_prefix p_chr opt_cmp lex];
  intros H1 H2; apply andb_prop in H1 as [H1 H1'], H2 as [H2 H2'].
  - destruct (hic_cmp p q) eqn:E.
    + apply (to_eq hic_cmp hic_total) in E. subst q. cbn [lex]. rewrite (hic_cmp_before c d H1' H2').
      split; [auto|]. intros [B|[_ B]]; [|assumption]. now apply before_irrefl in B.
    + cbn [lex]. apply (hic_cmp_before p q H1 H2) in E. tauto.
    + cbn [lex]. split; [discriminate|]. intros [B|[-> _]].
      * apply (hic_cmp_before p q H1 H2) in B. congruence.
      * rewrite (to_refl hic_total) in E. discriminate.
  - cbn [lex]. split; [discriminate|intros []].
  - split; auto.
  - now apply hic_cmp_before.
Qed.
Lemma c05_legal :
  (forall x y, hic_ok x = true -> hic_ok y = true -> (hic_cmp x y = Lt <-> before x y)) /\
  (forall x y, numeric_ok x = true -> numeric_ok y = true -> (numeric_cmp x y = Lt <-> numeric_before x y)) /\
  (forall x y, article_ok x = true -> article_ok y = true -> (article_cmp x y = Lt <-> article_before x y)) /\
  (forall x y, prefixed_ok x = true -> prefixed_ok y = true -> (prefixed_cmp x y = Lt <-> prefixed_before x y)) /\
  (forall x y, paragraph_ok x = true -> paragraph_ok y = true -> (paragraph_cmp x y = Lt <-> match x, y with
     | Some a, Some b => numeric_before a b | None, Some _ => True | _, None => False end)) /\
  (forall x y, act_cmp x y = Lt <-> (act_year x < act_year y)%Z \/
     (act_year x = act_year y /\ (act_number x < act_number y)%Z)).
Proof.
  split; [|split; [|split; [|split; [|split]]]].
  - apply hic_cmp_before.
  - apply numeric_cmp_before.
  - apply article_cmp_before.
  - apply prefixed_cmp_before.
  - apply paragraph_cmp_before.
  - intros [a b] [c d]. unfold act_cmp; cbn [act_year act_number].
    destruct (Z.compare_spec a c) as [->|E|E]; cbn [lex].
    + rewrite Z.compare_lt_iff. lia.
    + split; [lia|reflexivity].
    + split; [discriminate|lia].
Qed.

Lemma c06_exact :
  (forall x y, hic_ok x = true -> hic_ok y = true -> (hic_next x y = true <-> follows x y)) /\
  (forall x y, numeric_ok x = true -> numeric_ok y = true ->
     (numeric_next x y = true <-> numeric_follows x y \/ (x = mkNum 0 None /\ n_num y = 65535%N))) /\
  (forall x y, article_ok x = true -> article_ok y = true ->
     (article_next x y = true <-> article_follows x y
      \/ (a_book x = a_book y /\ a_ident x = mkNum 0 None /\ n_num (a_ident y) = 65535%N)
      \/ (a_book x = Some 0%N /\ a_book y = Some 255%N /\ a_ident x = mkNum 1 None))) /\
  (forall x y, prefixed_ok x = true -> prefixed_ok y = true ->
     (prefixed_next x y = true <-> p_prefix x = p_prefix y /\ follows (p_chr x) (p_chr y))) /\
  (forall x y, paragraph_ok x = true -> paragraph_ok y = true ->
     (paragraph_next x y = true <-> exists a b, x = Some a /\ y = Some b /\
        (numeric_follows a b \/ (a = mkNum 0 None /\ n_num b = 65535%N)))).
Proof.
  split; [|split; [|split; [|split]]].
  - apply hic_next_follows.
  - apply numeric_next_general.
  - apply article_next_general.
  - intros [p c] [q d]. unfold prefixed_ok, prefixed_next; cbn [p_prefix p_chr]. intros H1 H2.
    apply andb_prop in H1 as [H1 H1'], H2 as [H2 H2'].
    destruct p as [p|], q as [q|].
    + destruct (hic_eqb p q) eqn:E.
      * apply hic_eqb_eq in E. subst q. rewrite (hic_next_follows c d H1' H2'). tauto.
      * split; [discriminate|]. intros [E' _]. injection E' as ->.
        rewrite (proj2 (hic_eqb_eq q q) eq_refl) in E. discriminate.
    + split; [discriminate|]. intros [? _]; discriminate.
    + split; [discriminate|]. intros [? _]; discriminate.
    + rewrite (hic_next_follows c d H1' H2'). tauto.
  - intros [x|] [y|]; cbn [paragraph_ok paragraph_next]; intros H1 H2;
    try (split; [discriminate | intros (a & b & E1 & E2 & _); discriminate]).
    rewrite (numeric_next_general x y H1 H2). split; [eauto 6|].
    intros (a & b & E1 & E2 & H). injection E1 as ->. injection E2 as ->. exact H.
Qed.
Lemma c06_forward :
  (forall x y, hic_next x y = true -> hic_cmp y x = Lt) /\
  (forall x y, numeric_ok x = true -> numeric_ok y = true -> n_num x <> 0%N ->
     numeric_next x y = true -> numeric_cmp y x = Lt) /\
  (forall x y, article_ok x = true -> article_ok y = true -> n_num (a_ident x) <> 0%N -> a_book x <> Some 0%N ->
     article_next x y = true -> article_cmp y x = Lt) /\
  (forall x y, prefixed_next x y = true -> prefixed_cmp y x = Lt) /\
  (forall x y, paragraph_ok x = true -> paragraph_ok y = true -> (forall n, x = Some n -> n_num n <> 0%N) ->
     paragraph_next x y = true -> paragraph_cmp y x = Lt).
Proof.
  split; [|split; [|split; [|split]]].
  - apply hic_next_lt.
  - apply numeric_next_lt.
  - apply article_next_lt.
  - apply prefixed_next_lt.
  - apply paragraph_next_lt.
Qed.
Lemma c06_irrefl :
  (forall x, hic_next x x = false) /\ (forall x, numeric_ok x = true -> numeric_next x x = false) /\
  (forall x, article_ok x = true -> article_next x x = false) /\
  (forall x, prefixed_next x x = false) /\
  (forall x, paragraph_ok x = true -> paragraph_next x x = false).
Proof.
  assert (Hh : forall x, hic_next x x = false).
  { intros x. destruct (hic_next x x) eqn:E; [|reflexivity]. apply hic_next_lt in E.
    rewrite (to_refl hic_total) in E. discriminate. }
  assert (Hn : forall x, numeric_ok x = true -> numeric_next x x = false).
  { intros [n [c|]] _; unfold numeric_next; cbn [n_num n_suffix].
    - rewrite Hh. apply andb_false_r.
    - unfold wsub. replace (n + 65536 - n)%N with 65536%N by lia. reflexivity. }
  split; [exact Hh|]. split; [exact Hn|]. split; [|split].
  - intros [[b|] i] H; unfold article_next, article_ok in *; cbn [a_book a_ident] in *; apply andb_prop in H as [_ H].
    + rewrite N.eqb_refl. auto.
    + auto.
  - intros x. destruct (prefixed_next x x) eqn:E; [|reflexivity]. apply prefixed_next_lt in E.
    rewrite (to_refl prefixed_total) in E. discriminate.
  - intros [x|] H; [now apply Hn | reflexivity].
Qed.
Lemma c06_wrap :
  (exists x y, numeric_ok x = true /\ numeric_ok y = true /\ numeric_next x y = true /\ numeric_cmp x y = Lt) /\
  (exists x y, article_ok x = true /\ article_ok y = true /\ article_next x y = true /\ article_cmp x y = Lt).
Proof.
  split.
  - exists (mkNum 0 None), (mkNum 65535 None). repeat split; vm_compute; reflexivity.
  - exists (mkArt (Some 0%N) (mkNum 1 None)), (mkArt (Some 255%N) (mkNum 7 None)).
    repeat split; vm_compute; reflexivity.
Qed.

Lemma c07_sorted :
  (forall l, chain (fun y x => hic_next y x = true) l ->
     StronglySorted (fun x y => hic_cmp x y = Lt) l /\ NoDup l) /\
  (forall l, chain (fun y x => prefixed_next y x = true) l ->
     StronglySorted (fun x y => prefixed_cmp x y = Lt) l /\ NoDup l) /\
  (forall l, Forall (fun i => numeric_ok i = true) l -> chain (fun y x => numeric_next y x = true) l ->
     Forall (fun i => n_num i <> 0%N) l ->
     StronglySorted (fun x y => numeric_cmp x y = Lt) l /\ NoDup l) /\
  (forall l, Forall (fun i => paragraph_ok i = true) l -> chain (fun y x => paragraph_next y x = true) l ->
     Forall (fun i => forall n, i = Some n -> n_num n <> 0%N) l ->
     StronglySorted (fun x y => paragraph_cmp x y = Lt) l /\ NoDup l) /\
  (forall l, Forall (fun i => article_ok i = true) l -> chain (fun y x => article_next y x = true) l ->
     Forall (fun i => n_num (a_ident i) <> 0%N /\ a_book i <> Some 0%N) l ->
     StronglySorted (fun x y => article_cmp x y = Lt) l /\ NoDup l).
Proof.
  split; [|split; [|split; [|split]]].
  - apply hic_chain_sorted.
  - apply prefixed_chain_sorted.
  - apply numeric_chain_sorted.
  - apply paragraph_chain_sorted.
  - apply article_chain_sorted.
Qed.
Lemma c07_from_first :
  (forall l, Forall (fun i => numeric_ok i = true) l -> chain (fun y x => numeric_next y x = true) l ->
     match l with x :: _ => numeric_first x = true | [] => True end -> (N.of_nat (List.length l) <= 65535)%N ->
     StronglySorted (fun x y => numeric_cmp x y = Lt) l /\ NoDup l) /\
  (forall l, Forall (fun i => article_ok i = true) l -> chain (fun y x => article_next y x = true) l ->
     match l with x :: _ => article_first x = true | [] => True end -> (N.of_nat (List.length l) <= 255)%N ->
     StronglySorted (fun x y => article_cmp x y = Lt) l /\ NoDup l).
Proof. split; [apply numeric_chain_from_first | apply article_chain_from_first]. Qed.
(** The length bounds are sharp: books 1:1, 2:1, ..., 255:1, 0:1, 1:1 is accepted as a chain. *)
Definition book_cycle : list article_id :=
  map (fun b => mkArt (Some (b mod 256)%N) (mkNum 1 None)) (Nrange 1 257).
Lemma c07_wrap : exists l, Forall (fun i => article_ok i = true) l /\
  chain (fun y x => article_next y x = true) l /\
  match l with x :: _ => article_first x = true | [] => True end /\ ~ NoDup l.
Proof.
  exists book_cycle. split; [|split; [|split]].
  - apply Forall_forall. intros x Hx.
    assert (G : forallb article_ok book_cycle = true) by (vm_compute; reflexivity).
    rewrite forallb_forall in G. now apply G.
  - apply chainb_chain. vm_compute. reflexivity.
  - vm_compute. reflexivity.
  - assert (E : exists l, book_cycle = mkArt (Some 1%N) (mkNum 1 None) :: l /\
      In (mkArt (Some 1%N) (mkNum 1 None)) l).
    { eexists. split; [vm_compute; reflexivity|].
      match goal with |- In ?x ?l => assert (G : existsb (article_eqb x) l = true) by (vm_compute; reflexivity) end.
      apply existsb_exists in G as [z [Hz E]]. apply article_eqb_eq in E. now subst z. }
    destruct E as [l [-> Hin]]. intros ND. inversion ND; contradiction.
Qed.

Lemma c52_roundtrip rf pre post x : roman_from_reads rf ->
  (1000 <= act_year x <= 9999)%Z -> (1 <= act_number x <= 3999)%Z ->
  forallb (fun c => negb (is_digit c)) pre = true ->
  exists s, act_show x = Ok s /\ act_parse rf (pre ++ s ++ post) = Ok x.
Proof.
  intros R Hy Hn Hpre. destruct (proj2 (act_show_ok_iff x) Hn) as [s Hs]. exists s. split; [exact Hs|].
  eapply act_parse_show_in_text; eassumption.
Qed.
Lemma c52_panic : forall rf, exists s x, act_parse rf s = Ok x /\ act_show x = Panic.
Proof.
  intros rf. exists (lit "2020/0"), (mkAct 2020 0). split; vm_compute; reflexivity.
Qed.
Lemma c52_panic_compact : exists s x, act_parse_compact s = Ok x /\ act_show x = Panic.
Proof. exists (lit "2020.4000"), (mkAct 2020 4000). split; vm_compute; reflexivity. Qed.

Lemma roman_read_reads : roman_from_reads (fun s => Some (roman_read s)).
Proof.
  assert (G : forallb (fun a => forallb (fun b => forallb (fun c => forallb (fun d =>
      Z.eqb (roman_read (roman4 a b c d)) (1000 * Z.of_N a + 100 * Z.of_N b + 10 * Z.of_N c + Z.of_N d))
      [0; 1; 2; 3; 4; 5; 6; 7; 8; 9]%N) [0; 1; 2; 3; 4; 5; 6; 7; 8; 9]%N) [0; 1; 2; 3; 4; 5; 6; 7; 8; 9]%N)
      [0; 1; 2; 3]%N = true) by (vm_compute; reflexivity).
  intros n Hn. destruct (roman_standard_digits4 n) as (a & b & c & d & [Ha [Hb [Hc Hd]]] & E & ->); [lia|].
  assert (A : In a [0; 1; 2; 3]%N) by (cbn [In]; lia). apply digit_cases in Hb, Hc, Hd.
  rewrite forallb_forall in G. specialize (G a A). rewrite forallb_forall in G. specialize (G b Hb).
  rewrite forallb_forall in G. specialize (G c Hc). rewrite forallb_forall in G. specialize (G d Hd).
  apply Z.eqb_eq in G. rewrite G. f_equal. lia.
Qed.
