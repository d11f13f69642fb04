(** Exact form of header lines (C61). *)
From Verif Require Import ProofBase ProofIdent ProofIdent2 ProofIdent4 ProofText ProofText2 ProofText3 ProofStruct.
From Verif Require Export SpecWritten.
From Coq Require Import Lia.

Lemma eat_cons c s : eat c (c :: s) = Some s.
Proof. cbn. now rewrite N.eqb_refl. Qed.
Lemma eat_other c d s : c <> d -> eat c (d :: s) = None.
Proof. intros H. cbn. destruct (N.eqb_spec c d); congruence. Qed.
Lemma digits_bool s : digits s <-> forallb is_digit s = true /\ s <> [].
Proof.
  unfold digits. rewrite forallb_forall, Forall_forall. unfold is_digit. split; intros [A B].
  - split; [intros x X; specialize (B x X); cbv beta in B; lia|exact A].
  - split; [exact B|]. intros x X. specialize (A x X). cbv beta in A. lia.
Qed.
Definition starts_digit (s : str) : bool := match s with c :: _ => is_digit c | [] => false end.
Lemma eat_digits_app d r : digits d -> starts_digit r = false -> eat_digits (d ++ r) = Some (d, r).
Proof.
  intros D R. apply digits_bool in D. destruct D as [D1 D2]. unfold eat_digits.
  destruct r as [|c r].
  - rewrite app_nil_r, span_all by exact D1. destruct d; [congruence|reflexivity].
  - assert (X : span is_digit (d ++ c :: r) = (d, c :: r)).
    { clear D2. induction d as [|x d IH]; cbn in *.
      - cbn in R. now rewrite R.
      - apply andb_true_iff in D1. destruct D1 as [-> D1]. now rewrite (IH D1). }
    rewrite X. destruct d; [congruence|reflexivity].
Qed.
(** [rest] may stand after the spaces. *)
Definition rest_ok (rest : str) : Prop := (forall t, rest <> lit " " ++ t) /\ ~ In 10%N rest.
Lemma no_newline_in s : no_newline s = true <-> ~ In 10%N s.
Proof.
  unfold no_newline. rewrite negb_true_iff. split.
  - intros H I. apply Bool.not_true_iff_false in H. apply H. apply existsb_exists. exists 10%N. now rewrite N.eqb_refl.
  - intros H. apply Bool.not_true_iff_false. intros E. apply existsb_exists in E. destruct E as (x & I & E).
    apply N.eqb_eq in E. now subst.
Qed.
Lemma eat_tail_exact s r : eat_tail s = Some r <-> rest_ok r /\ exists n, s = repeat (chr " ") (S n) ++ r.
Proof.
  split.
  - intros H. split; [|now apply eat_tail_inv]. unfold eat_tail in H. destruct (eat 32 s) as [s'|]; [|discriminate].
    destruct (no_newline (snd (span (N.eqb 32) s'))) eqn:E; [|discriminate]. injection H as <-. split.
    + intros t. change (lit " ") with [32%N]. pose proof (ProofBase.span_snd (N.eqb 32) s') as X. intros Y. rewrite Y in X.
      cbn in X. discriminate.
    + now apply no_newline_in.
  - intros [[R1 R2] [n ->]]. unfold eat_tail. cbn [repeat app]. change (chr " ") with 32%N. rewrite eat_cons.
    assert (X : span (N.eqb 32) (repeat 32%N n ++ r) = (repeat 32%N n, r)).
    { induction n as [|n IH]; cbn.
      - destruct r as [|c r]; [reflexivity|]. cbn. destruct (N.eqb_spec 32 c); [|reflexivity].
        exfalso. apply (R1 r). now subst.
      - now rewrite IH. }
    rewrite X. cbn [snd]. apply no_newline_in in R2. now rewrite R2.
Qed.
(** The exact shape of a matcher *)
Definition matches (m : str -> option (str * str)) (shape : str -> str -> Prop) : Prop :=
  forall s d rest, m s = Some (d, rest) <->
    exists lb n, shape lb d /\ s = lb ++ repeat (chr " ") (S n) ++ rest /\ rest_ok rest.
Lemma is_lower_small c : is_lower c = true <-> small c.
Proof. unfold is_lower, small. lia. Qed.
Lemma is_upper_capital c : is_upper_az c = true <-> capital c.
Proof. unfold is_upper_az, capital. lia. Qed.
Ltac eatx := repeat match goal with
  | H : None = Some _ |- _ => discriminate H
  | H : Some _ = Some _ |- _ => apply Some_inj in H
  | H : (_, _) = (_, _) |- _ => injection H as ? ?; subst
  | H : match eat ?c ?s with Some _ => _ | None => _ end = Some _ |- _ =>
      let E := fresh "E" in destruct (eat c s) eqn:E; [apply eat_inv in E; subst|discriminate H]
  | H : match eat_tail ?s with Some _ => _ | None => _ end = Some _ |- _ =>
      let E := fresh "E" in destruct (eat_tail s) eqn:E; [apply eat_tail_exact in E; destruct E as [? [? ?]]; subst|discriminate H]
  | H : match eat_digits ?s with Some _ => _ | None => _ end = Some _ |- _ =>
      let E := fresh "E" in let d := fresh "ds" in let r := fresh "rs" in destruct (eat_digits s) as [[d r]|] eqn:E;
        [apply eat_digits_inv in E; destruct E as (? & ? & ?); subst|discriminate H]
  end.
Definition par_shape (lb d : str) : Prop :=
  exists ds os, lb = lit "(" ++ d ++ lit ")" /\ d = ds ++ os /\ digits ds /\ (os = [] \/ exists c, small c /\ os = [c]).
Lemma match_paragraph_exact : matches match_paragraph par_shape.
Proof.
  intros s d rest. split.
  - unfold match_paragraph. intros H. eatx. destruct rs as [|c s'].
    + eatx. discriminate.
    + destruct (is_lower c) eqn:Ec.
      * eatx. exists (lit "(" ++ (ds ++ [c]) ++ lit ")"), x. split; [|split; [norm_lit; apps|assumption]].
        exists ds, [c]. split; [reflexivity|]. split; [reflexivity|]. split; [now apply digits_bool|]. right. exists c.
        split; [now apply is_lower_small|reflexivity].
      * eatx. exists (lit "(" ++ d ++ lit ")"), x. split; [|split; [apps|assumption]].
        exists d, []. split; [reflexivity|]. split; [now rewrite app_nil_r|]. split; [now apply digits_bool|]. now left.
  - intros (lb & n & (ds & os & -> & -> & D & O) & -> & R). unfold match_paragraph.
    change (lit "(") with [40%N]. change (lit ")") with [41%N]. rewrite <- !app_assoc. cbn [app]. rewrite eat_cons.
    assert (T : eat_tail (repeat (chr " ") (S n) ++ rest) = Some rest) by (apply eat_tail_exact; eauto).
    destruct O as [->|(c & Sc & ->)]; cbn [app].
    + rewrite eat_digits_app by (exact D || reflexivity). change (is_lower 41) with false. cbv iota. rewrite eat_cons, T.
      now rewrite app_nil_r.
    + apply is_lower_small in Sc. rewrite eat_digits_app; [|exact D|]. 2:{ cbn. unfold is_lower in Sc. unfold is_digit. lia. }
      rewrite Sc. now rewrite eat_cons, T.
Qed.
Definition num_shape (lb d : str) : Prop :=
  exists ds os, lb = d ++ lit "." /\ d = ds ++ os /\ digits ds /\
    (os = [] \/ exists c, small c /\ (os = [c] \/ os = lit "/" ++ [c])).
Lemma match_numeric_exact : matches match_numeric num_shape.
Proof.
  intros s d rest. split.
  - unfold match_numeric. intros H. eatx. destruct rs as [|c s'].
    + eatx. discriminate.
    + destruct (is_lower c) eqn:Ec.
      * eatx. exists ((ds ++ [c]) ++ lit "."), x. split; [|split; [apps|assumption]].
        exists ds, [c]. split; [reflexivity|]. split; [reflexivity|]. split; [now apply digits_bool|]. right. exists c.
        split; [now apply is_lower_small|now left].
      * destruct (N.eqb_spec c 47).
        -- destruct s' as [|f s'']; [eatx; discriminate|]. destruct (is_lower f) eqn:Ef.
           ++ eatx. exists ((ds ++ [47%N; f]) ++ lit "."), x. split; [|split; [apps|assumption]].
              exists ds, [47%N; f]. split; [reflexivity|]. split; [reflexivity|]. split; [now apply digits_bool|]. right.
              exists f. split; [now apply is_lower_small|]. right. reflexivity.
           ++ eatx. discriminate.
        -- eatx. exists (d ++ lit "."), x. split; [|split; [apps|assumption]].
           exists d, []. split; [reflexivity|]. split; [now rewrite app_nil_r|]. split; [now apply digits_bool|]. now left.
  - intros (lb & n & (ds & os & -> & -> & D & O) & -> & R). unfold match_numeric.
    change (lit ".") with [46%N]. rewrite <- !app_assoc.
    assert (T : eat_tail (repeat (chr " ") (S n) ++ rest) = Some rest) by (apply eat_tail_exact; eauto).
    destruct O as [->|(c & Sc & [->| ->])]; cbn [app].
    + rewrite eat_digits_app by (exact D || reflexivity). change (is_lower 46) with false.
      change ((46 =? 47)%N) with false. cbv iota. rewrite eat_cons, T. now rewrite app_nil_r.
    + apply is_lower_small in Sc. rewrite eat_digits_app; [|exact D|]. 2:{ cbn. unfold is_lower in Sc. unfold is_digit. lia. }
      rewrite Sc. now rewrite eat_cons, T.
    + apply is_lower_small in Sc. change (lit "/") with [47%N]. cbn [app].
      rewrite eat_digits_app; [|exact D|reflexivity]. change (is_lower 47) with false.
      change ((47 =? 47)%N) with true. cbv iota. rewrite Sc. now rewrite eat_cons, T.
Qed.
Definition alpha_shape (lb d : str) : Prop :=
  lb = d ++ lit ")" /\ ((exists c, small c /\ d = [c]) \/ In d digraphs).
Lemma digraph_in d : existsb (str_eqb d) digraphs = true <-> In d digraphs.
Proof.
  rewrite existsb_exists. split.
  - intros (x & I & E). apply str_eqb_eq in E. now subst.
  - intros H. exists d. split; [exact H|]. now apply str_eqb_eq.
Qed.
Lemma match_alpha_exact : matches match_alpha alpha_shape.
Proof.
  intros s d rest. split.
  - unfold match_alpha. destruct s as [|c s1]; [discriminate|]. destruct (eat 41 s1) eqn:E.
    + apply eat_inv in E. subst. destruct (is_lower c) eqn:Ec; [|discriminate]. intros H. eatx.
      exists ([c] ++ lit ")"), x. split; [|split; [reflexivity|assumption]]. split; [reflexivity|]. left. exists c.
      split; [now apply is_lower_small|reflexivity].
    + destruct s1 as [|d1 s2]; [discriminate|]. destruct (existsb _ digraphs) eqn:Ed; [|discriminate].
      intros H. eatx. exists ([c; d1] ++ lit ")"), x. split; [|split; [reflexivity|assumption]]. split; [reflexivity|].
      right. now apply digraph_in.
  - intros (lb & n & (-> & O) & -> & R). unfold match_alpha.
    change (lit ")") with [41%N]. rewrite <- !app_assoc.
    assert (T : eat_tail (repeat (chr " ") (S n) ++ rest) = Some rest) by (apply eat_tail_exact; eauto).
    destruct O as [(c & Sc & ->)|O]; cbn [app].
    + apply is_lower_small in Sc. now rewrite eat_cons, Sc, T.
    + assert (L : exists a b, d = [a; b] /\ b <> 41%N).
      { revert O. unfold digraphs. cbn [map]. norm_lit. cbn [In].
        intros O. repeat destruct O as [O|O]; try contradiction; subst d; eexists _, _; (split; [reflexivity|discriminate]). }
      destruct L as (a & b & -> & Nb). cbn [app]. rewrite eat_other by congruence. apply digraph_in in O. rewrite O.
      now rewrite eat_cons, T.
Qed.
Definition sub_shape (lb d : str) : Prop :=
  lb = d ++ lit ")" /\ ((exists c, small c /\ d = [c]) \/ exists b c, small b /\ small c /\ d = [b; c]).
Lemma match_alpha_sub_exact : matches match_alpha_sub sub_shape.
Proof.
  intros s d rest. split.
  - unfold match_alpha_sub. destruct s as [|c s1]; [discriminate|]. destruct (is_lower c) eqn:Ec; [|discriminate].
    apply is_lower_small in Ec. destruct (eat 41 s1) eqn:E.
    + apply eat_inv in E. subst. intros H. eatx.
      exists ([c] ++ lit ")"), x. split; [|split; [reflexivity|assumption]]. split; [reflexivity|]. left. exists c. auto.
    + destruct s1 as [|d1 s2]; [discriminate|]. destruct (is_lower d1) eqn:Ed; [|discriminate]. apply is_lower_small in Ed.
      intros H. eatx. exists ([c; d1] ++ lit ")"), x. split; [|split; [reflexivity|assumption]]. split; [reflexivity|].
      right. exists c, d1. auto.
  - intros (lb & n & (-> & O) & -> & R). unfold match_alpha_sub.
    change (lit ")") with [41%N]. rewrite <- !app_assoc.
    assert (T : eat_tail (repeat (chr " ") (S n) ++ rest) = Some rest) by (apply eat_tail_exact; eauto).
    destruct O as [(c & Sc & ->)|(b & c & Sb & Sc & ->)]; cbn [app].
    + apply is_lower_small in Sc. now rewrite Sc, eat_cons, T.
    + assert (Nc : c <> 41%N) by (unfold small in Sc; lia). apply is_lower_small in Sc, Sb. rewrite Sb.
      rewrite eat_other by congruence. now rewrite Sc, eat_cons, T.
Qed.
Definition article_shape (lb d : str) : Prop :=
  exists bs ds os sp, lb = d ++ lit "." ++ sp ++ lit "§" /\ (sp = [] \/ sp = lit " ") /\ d = bs ++ ds ++ os /\
    digits ds /\ (os = [] \/ exists c, capital c /\ os = lit "/" ++ [c]) /\
    (bs = [] \/ exists e, digits e /\ bs = e ++ lit ":").
Lemma eat_number_slash_exact s n r : eat_number_slash s = Some (n, r) -> s = n ++ r /\
  exists ds os, n = ds ++ os /\ digits ds /\ (os = [] \/ exists c, capital c /\ os = lit "/" ++ [c]).
Proof.
  unfold eat_number_slash. intros H. eatx.
  destruct rs as [|c [|e s']].
  - eatx. rewrite app_nil_r. split; [reflexivity|]. exists n, []. rewrite app_nil_r.
    split; [reflexivity|]. split; [now apply digits_bool|now left].
  - eatx. split; [reflexivity|]. exists n, []. rewrite app_nil_r. split; [reflexivity|]. split; [now apply digits_bool|now left].
  - destruct ((c =? 47)%N && is_upper_az e) eqn:E.
    + eatx. split; [now rewrite <- app_assoc|]. exists ds, [c; e]. split; [reflexivity|]. split; [now apply digits_bool|].
      right. exists e. apply andb_true_iff in E. destruct E as [E1 E2]. apply N.eqb_eq in E1. subst c.
      split; [now apply is_upper_capital|reflexivity].
    + eatx. split; [reflexivity|]. exists n, []. rewrite app_nil_r. split; [reflexivity|]. split; [now apply digits_bool|now left].
Qed.
Lemma eat_number_slash_app ds os s : digits ds -> (os = [] \/ exists c, capital c /\ os = lit "/" ++ [c]) ->
  eat_number_slash (ds ++ os ++ 46%N :: s) = Some (ds ++ os, 46%N :: s).
Proof.
  intros D O. unfold eat_number_slash. destruct O as [->|(c & Sc & ->)].
  - cbn [app]. rewrite eat_digits_app by (exact D || reflexivity). rewrite app_nil_r. destruct s; reflexivity.
  - apply is_upper_capital in Sc. change (lit "/") with [47%N]. cbn [app].
    rewrite eat_digits_app by (exact D || reflexivity). rewrite Sc. reflexivity.
Qed.
Lemma match_article_exact : matches match_article article_shape.
Proof.
  intros s d rest. split.
  - unfold match_article.
    set (book := match eat_digits s with
                 | Some (d, s') => match eat 58 s' with Some s'' => Some (d ++ [58%N], s'') | None => None end
                 | None => None end).
    assert (B : forall b s', (match book with Some (b, s') => (b, s') | None => ([], s) end) = (b, s') ->
       s = b ++ s' /\ (b = [] \/ exists e, digits e /\ b = e ++ lit ":")).
    { intros b s' H. subst book. destruct (eat_digits s) as [[e x]|] eqn:E.
      - destruct (eat 58 x) eqn:E2.
        + injection H as <- <-. apply eat_inv in E2. subst x. apply eat_digits_inv in E. destruct E as (-> & F & G).
          split; [now rewrite <- app_assoc|]. right. exists e. split; [now apply digits_bool|reflexivity].
        + injection H as <- <-. split; [reflexivity|now left].
      - injection H as <- <-. split; [reflexivity|now left]. }
    destruct (match book with Some (b, s') => (b, s') | None => ([], s) end) as [b s'].
    destruct (B b s' eq_refl) as [-> Hb]. clear B book.
    destruct (eat_number_slash s') as [[n s2]|] eqn:E; [|discriminate].
    apply eat_number_slash_exact in E. destruct E as (-> & ds & os & -> & D & O).
    intros H. eatx.
    assert (exists sp, (sp = [] \/ sp = lit " ") /\ s = sp ++ chr "§" :: repeat (chr " ") (S x) ++ rest) as (sp & Hsp & ->).
    { destruct (eat 32 s) as [y|] eqn:E2.
      - exists (lit " "). apply eat_inv in E2. subst. split; [now right|reflexivity].
      - exists []. subst s. split; [now left|reflexivity]. }
    exists ((b ++ ds ++ os) ++ lit "." ++ sp ++ lit "§"), x. split; [|split; [|assumption]].
    + exists b, ds, os, sp. auto 10.
    + norm_lit. rewrite <- ?app_assoc. cbn [app]. rewrite <- ?app_assoc. reflexivity.
  - intros (lb & n & (bs & ds & os & sp & -> & Sp & -> & D & O & B) & -> & R).
    assert (T : eat_tail (repeat (chr " ") (S n) ++ rest) = Some rest) by (apply eat_tail_exact; eauto).
    set (tl := 46%N :: sp ++ chr "§" :: repeat (chr " ") (S n) ++ rest).
    replace (((bs ++ ds ++ os) ++ lit "." ++ sp ++ lit "§") ++ repeat (chr " ") (S n) ++ rest) with (bs ++ ds ++ os ++ tl)
      by (subst tl; norm_lit; rewrite <- ?app_assoc; cbn [app]; rewrite <- ?app_assoc; reflexivity).
    assert (X : forall b s, match eat_number_slash (ds ++ os ++ tl) with
        | Some (n, s) => match eat 46 s with
            | Some s => let s := match eat 32 s with Some s' => s' | None => s end in
                match eat (chr "§") s with
                | Some s => match eat_tail s with Some r => Some (b ++ n, r) | None => None end
                | None => None end
            | None => None end
        | None => s end = Some (b ++ ds ++ os, rest)).
    { intros b s0. subst tl. rewrite eat_number_slash_app by assumption. rewrite eat_cons. cbv zeta.
      destruct Sp as [->| ->].
      - cbn [app]. rewrite eat_other by discriminate. now rewrite eat_cons, T.
      - change (lit " ") with [32%N]. cbn [app]. rewrite eat_cons. now rewrite eat_cons, T. }
    unfold match_article. destruct B as [->|(e & De & ->)].
    + cbn [app].
      assert (Bk : match eat_digits (ds ++ os ++ tl) with
           | Some (d, s') => match eat 58 s' with Some s'' => Some (d ++ [58%N], s'') | None => None end
           | None => None end = None).
      { destruct O as [->|(c & Sc & ->)]; try change (lit "/") with [47%N]; cbn [app]; subst tl;
          rewrite eat_digits_app by (exact D || reflexivity); cbv beta iota; rewrite eat_other by discriminate; reflexivity. }
      rewrite Bk. exact (X [] None).
    + change (lit ":") with [58%N]. rewrite <- !app_assoc. cbn [app]. rewrite eat_digits_app by (exact De || reflexivity).
      rewrite eat_cons. cbv iota beta. specialize (X (e ++ [58%N]) None). rewrite <- app_assoc in X. cbn [app] in X. exact X.
Qed.

(** *** parse_header *)
Lemma starts_with_app (b t : str) : starts_with b t = true <-> exists r, t = b ++ r.
Proof. unfold starts_with. destruct (strip_prefix b t) eqn:E.
  - split; [|reflexivity]. intros _. apply strip_prefix_some in E. eauto.
  - split; [discriminate|]. intros [r ->]. rewrite strip_prefix_app in E. discriminate.
Qed.
Lemma slice_rest l a b : content l = a ++ b -> content (slice l (Z.of_nat (List.length a)) None) = b.
Proof.
  intros H. rewrite <- glyphs_ch. rewrite slice_to_end, slice_glyphs_eq. 
  assert (L : List.length (content l) = (List.length a + List.length b)%nat) by (rewrite H; apply app_length).
  rewrite content_length in L.
  rewrite !convert_index_nat by lia. rewrite <- firstn_map, <- skipn_map, glyphs_ch, H, skipn_app, skipn_all, Nat.sub_diag.
  cbn [skipn app]. apply firstn_all2. lia.
Qed.
Section Header.
  Context {T : Type}.
  Variable m : str -> option (str * str).
  Variable shape : str -> str -> Prop.
  Variable parse : str -> outcome T.
  Variable form : str -> T -> Prop.
  Variable bl : list str.
  Hypothesis Hm : matches m shape.
  Hypothesis Hf : forall s i, form s i <-> exists d, shape s d /\ parse d = Ok i.
  Hypothesis Hp : forall d, parse d <> Panic.
  (** The three results *)
  Lemma header_cases l :
    (exists i r, parse_header m parse bl l = Ok (Some (i, r)) /\ header_of form bl l i r) \/
    (parse_header m parse bl l = Panic /\ label_only form l) \/
    (parse_header m parse bl l = Ok None /\ (forall i r, ~ header_of form bl l i r) /\ ~ label_only form l).
  Proof.
    unfold parse_header. destruct (m (content l)) as [[d rest]|] eqn:E.
    2:{ right. right. split; [reflexivity|]. split.
        - intros i r (s & n & rest & F & Hc & N1 & N2 & N3 & N4 & _). apply Hf in F. destruct F as (d & S & P).
          assert (X : m (content l) = Some (d, rest)) by (apply Hm; exists s, n; unfold rest_ok; auto). congruence.
        - intros (s & n & i & F & Hc). apply Hf in F. destruct F as (d & S & P).
          assert (X : m (content l) = Some (d, [])); [|congruence]. apply Hm. exists s, n. split; [exact S|]. rewrite app_nil_r.
          split; [exact Hc|]. split; [intros t; norm_lit; discriminate|intros []]. }
    apply Hm in E as E'. destruct E' as (lb & n & S & Hc & R).
    assert (Uni : forall s n' d' rest', shape s d' -> content l = s ++ repeat (chr " ") (Datatypes.S n') ++ rest' -> rest_ok rest' -> d' = d /\ rest' = rest).
    { intros s n' d' rest' S' Hc' R'. assert (X : m (content l) = Some (d', rest')) by (apply Hm; eauto).
      rewrite E in X. apply Some_inj in X. injection X as -> ->. auto. }
    destruct (parse d) as [i| |] eqn:P; [| |elim (Hp d P)].
    2:{ right. right. split; [reflexivity|]. split.
        - intros i r (s & k & rest' & F & Hc' & N1 & N2 & N3 & N4 & _). apply Hf in F. destruct F as (d' & S' & P').
          destruct (Uni _ _ _ _ S' Hc' (conj N2 N3)) as [-> _]. congruence.
        - intros (s & k & i & F & Hc'). apply Hf in F. destruct F as (d' & S' & P').
          destruct (Uni s k d' [] S') as [-> _]; [now rewrite app_nil_r| |congruence].
          split; [intros t; norm_lit; discriminate|intros []]. }
    assert (F : form lb i) by (apply Hf; eauto).
    set (pre := lb ++ repeat (chr " ") (Datatypes.S n)). assert (Hc2 : content l = pre ++ rest) by (subst pre; now rewrite <- app_assoc).
    assert (Eu : (utf8_len (content l) - utf8_len rest)%N = utf8_len pre) by (rewrite Hc2, utf8_len_app; lia).
    rewrite Eu.
    assert (Len : forall s k rest', content l = s ++ repeat (chr " ") (Datatypes.S k) ++ rest' -> rest' = rest ->
       (List.length s + Datatypes.S k)%nat = List.length pre).
    { intros s k rest' H ->. rewrite Hc2 in H. rewrite app_assoc in H. apply app_inv_tail in H. rewrite H, app_length, repeat_length.
      reflexivity. }
    destruct rest as [|c rest0] eqn:Er.
    - right. left. split.
      + rewrite app_nil_r in Hc2. unfold slice_bytes. rewrite Hc2, utf8_len_end. reflexivity.
      + exists lb, n, i. split; [exact F|]. rewrite app_nil_r in Hc2. exact Hc2.
    - rewrite <- Er in *. assert (Ne : rest <> []) by now rewrite Er. clear Er.
      pose proof (slice_bytes_ok l pre rest []) as SB. rewrite !app_nil_r in SB. rewrite <- Hc2 in SB.
      rewrite SB by (exact eq_refl || exact Ne). cbn [obind]. rewrite content_length, <- slice_to_end.
      set (r := slice l (Z.of_nat (List.length pre)) None). assert (Hr : content r = rest) by (subst r; now apply slice_rest).
      rewrite Hr. destruct (existsb (fun b => starts_with b rest) bl) eqn:Eb.
      + right. right. apply existsb_exists in Eb. destruct Eb as (b & Ib & Eb). apply starts_with_app in Eb. destruct Eb as [t Eb].
        split; [reflexivity|]. split.
        * intros i' r' (s & k & rest' & F' & Hc' & N1 & N2 & N3 & N4 & _). apply Hf in F'. destruct F' as (d' & S' & P').
          destruct (Uni _ _ _ _ S' Hc' (conj N2 N3)) as [_ ->]. exact (N4 b t Ib Eb).
        * intros (s & k & i' & F' & Hc'). apply Hf in F'. destruct F' as (d' & S' & P').
          destruct (Uni s k d' [] S') as [_ X]; [now rewrite app_nil_r| |congruence].
          split; [intros t'; norm_lit; discriminate|intros []].
      + left. exists i, r. split; [reflexivity|]. exists lb, n, rest. split; [exact F|]. split; [exact Hc|]. split; [exact Ne|].
        destruct R as [R1 R2]. split; [exact R1|]. split; [exact R2|]. split.
        * intros b t Ib X. apply Bool.not_true_iff_false in Eb. apply Eb. apply existsb_exists. exists b. split; [exact Ib|].
          apply starts_with_app. eauto.
        * subst r. now rewrite (Len lb n rest).
  Qed.
  Lemma header_of_fun l i r i' r' : header_of form bl l i r -> header_of form bl l i' r' -> i = i' /\ r = r'.
  Proof.
    intros (s & n & rest & F & Hc & N1 & N2 & N3 & N4 & ->) (s' & n' & rest' & F' & Hc' & N1' & N2' & N3' & N4' & ->).
    apply Hf in F, F'. destruct F as (d & S & P), F' as (d' & S' & P').
    assert (X : m (content l) = Some (d, rest)) by (apply Hm; exists s, n; unfold rest_ok; auto).
    assert (X' : m (content l) = Some (d', rest')) by (apply Hm; exists s', n'; unfold rest_ok; auto).
    rewrite X in X'. apply Some_inj in X'. injection X' as -> ->. split; [congruence|]. f_equal. f_equal.
    rewrite Hc in Hc'. apply (f_equal (@List.length _)) in Hc'. rewrite !app_length, !repeat_length in Hc'. lia.
  Qed.
  Lemma header_of_not_only l i r : header_of form bl l i r -> ~ label_only form l.
  Proof.
    intros (s & n & rest & F & Hc & N1 & N2 & N3 & N4 & ->) (s' & n' & i' & F' & Hc').
    apply Hf in F, F'. destruct F as (d & S & P), F' as (d' & S' & P').
    assert (X : m (content l) = Some (d, rest)) by (apply Hm; exists s, n; unfold rest_ok; auto).
    assert (X' : m (content l) = Some (d', [])).
    { apply Hm. exists s', n'. split; [exact S'|]. rewrite app_nil_r. split; [exact Hc'|]. split; [intros t; norm_lit; discriminate|intros []]. }
    congruence.
  Qed.
  Lemma header_exact l :
    (forall i r, parse_header m parse bl l = Ok (Some (i, r)) <-> header_of form bl l i r) /\
    (parse_header m parse bl l = Panic <-> label_only form l) /\
    parse_header m parse bl l <> Err.
  Proof.
    pose proof (header_of_fun l) as U. pose proof (header_of_not_only l) as V.
    destruct (header_cases l) as [(i & r & E & H)|[[E H]|(E & H1 & H2)]]; rewrite E.
    - split; [|split; [|discriminate]].
      + intros i' r'. split; [intros X; apply Ok_inj, Some_inj in X; now injection X as <- <-|].
        intros X. destruct (U _ _ _ _ H X) as [<- <-]. reflexivity.
      + split; [discriminate|]. intros X. elim (V _ _ H X).
    - split; [|split; [|discriminate]].
      + intros i' r'. split; [discriminate|]. intros X. elim (V _ _ X H).
      + tauto.
    - split; [|split; [|discriminate]].
      + intros i' r'. split; [discriminate|]. intros X. elim (H1 _ _ X).
      + split; [discriminate|]. intros X. elim (H2 X).
  Qed.
End Header.
(** *** the five kinds *)
Lemma par_form_shape s i : par_form s i <-> exists d, par_shape s d /\ paragraph_parse d = Ok i.
Proof.
  assert (Q : forall ds os : str, digits ds -> paragraph_parse (ds ++ os) = let* n := numeric_parse (ds ++ os) in Ok (Some n)).
  { intros ds os [N _]. unfold paragraph_parse. destruct ds; [congruence|reflexivity]. }
  split.
  - intros (ds & os & n & -> & D & O & S & ->). exists (ds ++ os). split.
    + exists ds, os. split; [now rewrite <- app_assoc|]. auto.
    + rewrite (Q ds os D). apply numeric_parse_spelling in S. now rewrite S.
  - intros (d & (ds & os & -> & -> & D & O) & P). rewrite (Q ds os D) in P.
    destruct (numeric_parse (ds ++ os)) as [n| |] eqn:E; cbn in P; try discriminate. apply Ok_inj in P. subst i.
    apply numeric_parse_spelling in E. exists ds, os, n. split; [now rewrite <- app_assoc|]. auto.
Qed.
Lemma num_form_shape s i : num_form s i <-> exists d, num_shape s d /\ numeric_parse d = Ok i.
Proof.
  split.
  - intros (ds & os & -> & D & O & S). exists (ds ++ os). split.
    + exists ds, os. split; [now rewrite <- app_assoc|]. auto.
    + now apply numeric_parse_spelling.
  - intros (d & (ds & os & -> & -> & D & O) & P). apply numeric_parse_spelling in P. exists ds, os.
    split; [now rewrite <- app_assoc|]. auto.
Qed.
Lemma alpha_form_shape s i : alpha_form s i <-> exists d, alpha_shape s d /\ hic_parse d = Ok i.
Proof.
  split.
  - intros (d & [S F] & ->). exists d. split; [|now apply hic_parse_spelling]. split; [reflexivity|].
    destruct S as [c Hc|c Hc|a b d' u Hin Hu].
    + left. exists c. now split.
    + exfalso. inversion F as [|x y Hx _]; subst. cbv beta in Hx. lia.
    + right. cbn [In] in Hin. repeat destruct Hin as [Hin|Hin]; try contradiction; injection Hin as <- <- <-;
      cbn [In] in Hu; repeat destruct Hu as [Hu|Hu]; try contradiction; subst u;
      try (exfalso; inversion F as [|x y Hx _]; subst; cbv beta in Hx; lia);
      (apply digraph_in; vm_compute; reflexivity).
  - intros (d & (-> & O) & P). apply hic_parse_spelling in P. exists d. split; [|reflexivity]. split; [exact P|].
    destruct O as [(c & Sc & ->)|O].
    + constructor; [exact Sc|constructor].
    + revert O. unfold digraphs. cbn [map]. norm_lit. cbn [In].
      intros O. repeat destruct O as [O|O]; try contradiction; subst d; repeat constructor; discriminate.
Qed.
Lemma small_hic c x : small c -> hic_of_char c = Ok x -> x = Latin c.
Proof.
  intros S H. apply hic_of_char_ok in H. destruct H as [_ ->]. unfold ascii_lower. unfold small in S.
  replace ((65 <=? c) && (c <=? 90))%N with false by lia. reflexivity.
Qed.
Lemma small_hic_ok c : small c -> hic_of_char c = Ok (Latin c).
Proof.
  intros S. unfold small in S. apply hic_of_char_ok. rewrite ascii_lower_range. split; [lia|]. unfold ascii_lower.
  replace ((65 <=? c) && (c <=? 90))%N with false by lia. reflexivity.
Qed.
Lemma sub_form_shape s i : sub_form s i <-> exists d, sub_shape s d /\ prefixed_parse d = Ok i.
Proof.
  split.
  - intros [(c & Sc & -> & ->)|(b & c & Sb & Sc & -> & ->)].
    + exists [c]. split; [split; [reflexivity|eauto]|]. cbn. now rewrite small_hic_ok.
    + exists [b; c]. split; [split; [reflexivity|right; exists b, c; auto]|]. cbn. now rewrite !small_hic_ok.
  - intros (d & (-> & O) & P). destruct O as [(c & Sc & ->)|(b & c & Sb & Sc & ->)]; cbn in P.
    + rewrite small_hic_ok in P by exact Sc. cbn in P. apply Ok_inj in P. left. exists c. auto.
    + rewrite !small_hic_ok in P by assumption. cbn in P. apply Ok_inj in P. right. exists b, c. auto.
Qed.
Lemma dec_digits e k : denotes_dec e k -> digits e.
Proof. intros H. apply denotes_dec_iff in H. destruct H as (A & B & _). apply digits_bool. now split. Qed.
Lemma digits_head c s : digits (c :: s) -> is_digit c = true.
Proof. intros H. apply digits_bool in H. destruct H as [H _]. cbn in H. now apply andb_true_iff in H. Qed.
Lemma article_form_shape s i : article_form s i <-> exists d, article_shape s d /\ article_parse d = Ok i.
Proof.
  assert (NC : forall ds os n, digits ds -> (os = [] \/ exists c, capital c /\ os = lit "/" ++ [c]) ->
     numeric_spelling (ds ++ os) n -> ~ In 58%N (ds ++ os)).
  { intros ds os n [_ D] O _ X. rewrite Forall_forall in D. apply in_app_iff in X. destruct X as [X|X].
    - specialize (D _ X). cbv beta in D. lia.
    - destruct O as [->|(c & Sc & ->)]; [destruct X|]. unfold capital in Sc. change (lit "/") with [47%N] in X.
      destruct X as [X|[X|[]]]; [discriminate X|subst c; lia]. }
  split.
  - intros (bs & ds & os & sp & -> & Sp & D & O & S & B). exists (bs ++ ds ++ os). split.
    + exists bs, ds, os, sp. split; [now rewrite <- !app_assoc|]. split; [exact Sp|]. split; [reflexivity|]. split; [exact D|].
      split; [exact O|]. destruct (a_book i); [|now left]. right. destruct B as (e & De & _ & ->). exists e.
      split; [now apply dec_digits in De|reflexivity].
    + apply article_parse_exact. destruct i as [[k|] n]; cbn [a_book a_ident] in *.
      * right. destruct B as (e & De & K & ->). exists e, k, (ds ++ os), n. split; [now rewrite <- app_assoc|].
        split; [|auto]. destruct e as [|c e]; [apply dec_digits in De; destruct De; congruence|].
        unfold strip_plus. apply dec_digits in De as De2. apply digits_head in De2. destruct (N.eqb_spec c 43); [subst c; discriminate|exact De].
      * left. subst bs. exists n. auto.
  - intros (d & (bs & ds & os & sp & -> & Sp & -> & D & O & B) & P). apply article_parse_exact in P.
    exists bs, ds, os, sp. split; [now rewrite <- !app_assoc|]. split; [exact Sp|]. split; [exact D|]. split; [exact O|].
    assert (C58 : ~ In 58%N (ds ++ os)).
    { destruct D as [_ D]. rewrite Forall_forall in D. intros X. apply in_app_iff in X. destruct X as [X|X].
      - specialize (D _ X). cbv beta in D. lia.
      - destruct O as [->|(c & Sc & ->)]; [destruct X|]. unfold capital in Sc. change (lit "/") with [47%N] in X.
        destruct X as [X|[X|[]]]; [discriminate X|subst c; lia]. }
    destruct P as [(n & Hn & ->)|(e & k & js & n & E & De & K & Hn & ->)]; cbn [a_book a_ident].
    + destruct B as [->|(e & De & ->)]; [now split|]. exfalso.
      assert (X : no_char 58 ((e ++ lit ":") ++ ds ++ os) = true).
      { revert Hn. clear. intros H.
        assert (D : forall s n, denotes_dec s n -> no_char 58 s = true).
        { intros t m H'. apply denotes_dec_iff in H' as [_ [H' _]]. now apply digits_no_char. }
        assert (L : forall s c, spelling s c -> no_char 58 s = true).
        { intros t c H'. destruct H' as [k Hk|k Hk|a b d u Hin Hs].
          - unfold no_char; cbn. lia.
          - unfold no_char; cbn. lia.
          - cbn [In] in Hin. repeat destruct Hin as [Hin|Hin]; try contradiction; injection Hin as <- <- <-;
            cbn [In] in Hs; repeat destruct Hs as [Hs|Hs]; try contradiction; subst u; vm_compute; reflexivity. }
        destruct H as [a b Hd _|a b ls c Hd _ Hl|a b ls c Hd _ Hl].
        - eauto.
        - rewrite no_char_app, (D _ _ Hd), (L _ _ Hl). reflexivity.
        - rewrite !no_char_app, (D _ _ Hd), (L _ _ Hl). reflexivity. }
      rewrite !no_char_app in X. apply andb_true_iff in X. destruct X as [X _]. apply andb_true_iff in X. destruct X as [_ X].
      vm_compute in X. discriminate.
    + destruct B as [->|(e' & De' & ->)].
      * exfalso. apply C58. cbn [app] in E. rewrite E. apply in_app_iff. right. now left.
      * change (lit ":") with [58%N] in E. rewrite <- app_assoc in E. cbn [app] in E.
        assert (X : e' = e /\ ds ++ os = js).
        { destruct (app_eq_app _ _ _ _ E) as [u [[-> E2]|[-> E2]]].
          - destruct u as [|c u]; cbn in E2.
            + injection E2 as E2. rewrite app_nil_r. auto.
            + injection E2 as <- E2. exfalso. destruct De' as [_ De']. rewrite Forall_forall in De'.
              specialize (De' 58%N). cbv beta in De'. assert (X : In 58%N (e ++ 58%N :: u)) by (apply in_app_iff; right; now left).
              specialize (De' X). lia.
          - destruct u as [|c u]; cbn in E2.
            + injection E2 as E2. rewrite app_nil_r. auto.
            + injection E2 as <- E2. exfalso. apply C58. rewrite E2. apply in_app_iff. right. now left. }
        destruct X as [-> <-]. split; [exact Hn|]. exists e. split; [|auto].
        destruct e as [|c e]; [destruct De'; congruence|]. apply digits_head in De'. unfold strip_plus in De.
        destruct (N.eqb_spec c 43); [subst c; discriminate|exact De].
Qed.
Theorem c61_paragraph : exact_header paragraph_header (header_of par_form paragraph_words) (label_only par_form).
Proof. intros l. exact (header_exact _ _ _ _ _ match_paragraph_exact par_form_shape paragraph_parse_not_panic l). Qed.
Theorem c61_number : exact_header numeric_header (header_of num_form point_words) (label_only num_form).
Proof. intros l. exact (header_exact _ _ _ _ _ match_numeric_exact num_form_shape numeric_parse_not_panic l). Qed.
Theorem c61_letter : exact_header alpha_point_header (header_of alpha_form point_words) (label_only alpha_form).
Proof. intros l. exact (header_exact _ _ _ _ _ match_alpha_exact alpha_form_shape hic_parse_not_panic l). Qed.
Theorem c61_article : exact_header (parse_header match_article article_parse []) (header_of article_form []) (label_only article_form).
Proof. intros l. exact (header_exact _ _ _ _ _ match_article_exact article_form_shape article_parse_not_panic l). Qed.
Theorem c61_sub p : exact_header (alpha_subpoint_header p) (sub_header_of p) (label_only sub_form).
Proof.
  intros l. destruct (header_exact _ _ _ _ pont match_alpha_sub_exact sub_form_shape prefixed_parse_not_panic l) as (A & B & C).
  unfold alpha_subpoint_header. destruct (parse_header match_alpha_sub prefixed_parse pont l) as [[[j r']|]| |] eqn:E; cbn.
  - assert (X : opt_eqb hic_eqb (p_prefix j) p = true <-> p_prefix j = p).
    { destruct (p_prefix j) as [a|], p as [b|]; cbn; try (split; congruence). rewrite hic_eqb_eq. split; congruence. }
    assert (H : header_of sub_form point_words l j r') by now apply A.
    split; [|split].
    + intros i r. unfold sub_header_of. rewrite <- A. destruct (opt_eqb hic_eqb (p_prefix j) p).
      * split; [intros Q; split; [exact Q|]; apply Ok_inj, Some_inj in Q; injection Q as <- <-; now apply X|]. now intros [Q _].
      * split; [discriminate|]. intros [Q Q2]. apply Ok_inj, Some_inj in Q. injection Q as <- <-. apply X in Q2. discriminate.
    + rewrite <- B. destruct (opt_eqb _ _ _); split; discriminate.
    + destruct (opt_eqb _ _ _); discriminate.
  - split; [|split; [|discriminate]].
    + intros i r. unfold sub_header_of. rewrite <- A. split; [discriminate|]. intros [Q _]. discriminate.
    + rewrite <- B. split; discriminate.
  - congruence.
  - split; [|split; [|discriminate]].
    + intros i r. unfold sub_header_of. rewrite <- A. split; [discriminate|]. intros [Q _]. discriminate.
    + rewrite <- B. split; auto.
Qed.
