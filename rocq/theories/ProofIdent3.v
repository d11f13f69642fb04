(** Compact strings, ranges, act identifiers and chains of identifiers. *)
From Verif Require Export ProofIdent2.

(** ** Compact strings of ranges and options, generically.
    [P] is the set of values for which printing and parsing are inverse. *)
Record CompactLaws {T} `{IdentCommon T} (P : T -> Prop) : Prop := {
  cl_parse_show : forall x, P x -> id_parse_compact (id_show_compact x) = Ok x;
  cl_no_dash : forall x, P x -> no_char 45 (id_show_compact x) = true;
  cl_no_us : forall x, P x -> no_char 95 (id_show_compact x) = true;
  cl_eqb : forall x y : T, id_eqb x y = true <-> x = y
}.
Arguments cl_parse_show {T H P}.
Arguments cl_no_dash {T H P}.
Arguments cl_no_us {T H P}.
Arguments cl_eqb {T H P}.

Lemma alnum_no_char c s : is_alnum c = false -> forallb is_alnum s = true -> no_char c s = true.
Proof. intros; eapply no_char_forall; eassumption. Qed.

Lemma hic_compact : CompactLaws (fun x : hic => hic_ok x = true).
Proof.
  split; cbn.
  - apply hic_parse_show.
  - intros x H. now apply alnum_no_char, hic_show_alnum.
  - intros x H. now apply alnum_no_char, hic_show_alnum.
  - apply hic_eqb_eq.
Qed.
Lemma numeric_compact : CompactLaws (fun x : numeric => numeric_ok x = true).
Proof.
  split; cbn.
  - apply numeric_parse_show.
  - intros x H. now apply alnum_no_char, numeric_show_alnum.
  - intros x H. now apply alnum_no_char, numeric_show_alnum.
  - apply numeric_eqb_eq.
Qed.
Lemma article_show_compact_no_char c x : is_alnum c = false -> c <> 46%N -> article_ok x = true ->
  no_char c (article_show_compact x) = true.
Proof.
  intros Hc Hd H. unfold article_show_compact, article_ok in *. norm_lit. apply andb_prop in H as [_ H].
  rewrite no_char_app, (alnum_no_char c (numeric_show (a_ident x)) Hc (numeric_show_alnum _ H)).
  rewrite andb_true_r. destruct (a_book x) as [b|]; [|reflexivity].
  rewrite no_char_app, (alnum_no_char c (show_N b) Hc (show_N_alnum b)). cbn.
  destruct (N.eqb_spec 46 c); [congruence|reflexivity].
Qed.
Lemma article_compact : CompactLaws (fun x : article_id => article_ok x = true).
Proof.
  split; cbn.
  - apply article_parse_show_compact.
  - intros x H. now apply article_show_compact_no_char.
  - intros x H. now apply article_show_compact_no_char.
  - apply article_eqb_eq.
Qed.
Lemma paragraph_compact : CompactLaws (fun x : paragraph_id => paragraph_ok x = true).
Proof.
  split; cbn.
  - apply paragraph_parse_show.
  - intros [x|] H; [now apply alnum_no_char, numeric_show_alnum | reflexivity].
  - intros [x|] H; [now apply alnum_no_char, numeric_show_alnum | reflexivity].
  - apply paragraph_eqb_eq.
Qed.
Lemma prefixed_show_alnum x : prefixed_ok x = true -> forallb is_alnum (prefixed_show x) = true.
Proof.
  unfold prefixed_ok, prefixed_show. intros H. apply andb_prop in H as [H1 H2].
  rewrite forallb_app, (hic_show_alnum _ H2). destruct (p_prefix x); [now rewrite hic_show_alnum | reflexivity].
Qed.
Lemma prefixed_compact : CompactLaws (fun x : prefixed => prefixed_ok x = true /\ prefixed_latin x = true).
Proof.
  split; cbn.
  - intros x [H1 H2]. now apply prefixed_parse_show.
  - intros x [H _]. now apply alnum_no_char, prefixed_show_alnum.
  - intros x [H _]. now apply alnum_no_char, prefixed_show_alnum.
  - apply prefixed_eqb_eq.
Qed.

Lemma range_eq {T} (x : range T) : x = mkRange (r_start x) (r_end x).
Proof. now destruct x. Qed.
Lemma range_parse_show {T} `{IdentCommon T} {P : T -> Prop} (L : CompactLaws P) (r : range T) :
  P (r_start r) -> P (r_end r) -> range_parse_compact (range_show_compact r) = Ok r.
Proof.
  intros Hs He. unfold range_show_compact, range_parse_compact, is_range. norm_lit.
  destruct (id_eqb (r_start r) (r_end r)) eqn:E; cbn [negb].
  - apply (cl_eqb L) in E. rewrite app_nil_r, split_once_none by (now apply (cl_no_dash L)).
    rewrite (cl_parse_show L _ Hs). cbn [obind]. unfold single. rewrite (range_eq r) at 3. now rewrite <- E.
  - cbn [List.app]. rewrite split_once_some by (now apply (cl_no_dash L)).
    rewrite (cl_parse_show L _ Hs), (cl_parse_show L _ He). cbn [obind]. now rewrite (range_eq r) at 3.
Qed.
Lemma range_show_no_us {T} `{IdentCommon T} {P : T -> Prop} (L : CompactLaws P) (r : range T) :
  P (r_start r) -> P (r_end r) -> no_char 95 (range_show_compact r) = true.
Proof.
  intros Hs He. unfold range_show_compact. rewrite no_char_app, (cl_no_us L _ Hs).
  destruct (is_range r); [|reflexivity]. rewrite no_char_app, (cl_no_us L _ He). reflexivity.
Qed.
Lemma opt_parse_show {A} (f : A -> str) (g : str -> outcome A) (P : A -> Prop) (o : option A) :
  (forall x, P x -> g (f x) = Ok x) -> (forall x, P x -> f x <> []) ->
  (forall x, o = Some x -> P x) -> opt_parse_compact g (opt_show_compact f o) = Ok o.
Proof.
  intros Hg Hne Ho. unfold opt_parse_compact, opt_show_compact. destruct o as [x|]; [|reflexivity].
  specialize (Ho x eq_refl). apply Hne in Ho as H. apply is_empty_false in H. rewrite H.
  rewrite (Hg x Ho). reflexivity.
Qed.
Lemma range_show_nonempty {T} `{IdentCommon T} (r : range T) :
  id_show_compact (r_start r) <> [] -> range_show_compact r <> [].
Proof. intros Hne E. unfold range_show_compact in E. apply app_eq_nil in E as [E _]. contradiction. Qed.

(** ** Act identifiers *)
Lemma act_parse_show_compact x : act_ok x = true -> act_parse_compact (act_show_compact x) = Ok x.
Proof.
  unfold act_ok, act_show_compact, act_parse_compact. norm_lit. intros H.
  rewrite !andb_true_iff in H. destruct H as [[[H1 H2] H3] H4].
  cbn [List.app]. rewrite split_once_some by (now apply show_Z_no_char).
  unfold parse_i16, parse_i32. rewrite !parse_signed_show by lia. cbn. now destruct x.
Qed.
Lemma act_show_compact_nonempty x : act_show_compact x <> [].
Proof. unfold act_show_compact. intros E. apply app_eq_nil in E as [_ E]. discriminate. Qed.
Lemma act_show_compact_no_us x : no_char 95 (act_show_compact x) = true.
Proof.
  unfold act_show_compact. rewrite !no_char_app, !show_Z_no_char; try reflexivity; discriminate.
Qed.
Lemma parse_signed_range lo hi s z : parse_signed lo hi s = Ok z -> (lo <= z <= hi)%Z.
Proof.
  unfold parse_signed. destruct (match s with [] => _ | _ => _ end) as [ng d].
  destruct (is_empty d); [discriminate|]. destruct (forallb is_digit d); [|discriminate]. cbv zeta.
  destruct (_ && _) eqn:E; [|discriminate]. intros H; injection H as <-. lia.
Qed.
Lemma act_parse_compact_ok s x : act_parse_compact s = Ok x -> act_ok x = true.
Proof.
  unfold act_parse_compact, act_ok. destruct (split_once _ _) as [[a b]|]; [|discriminate].
  destruct (parse_i16 a) eqn:E1; cbn [obind]; try discriminate.
  destruct (parse_i32 b) eqn:E2; cbn [obind]; try discriminate.
  intros H; injection H as <-. cbn. apply parse_signed_range in E1, E2. lia.
Qed.
Lemma act_parse_compact_not_panic s : act_parse_compact s <> Panic.
Proof.
  unfold act_parse_compact, parse_i16, parse_i32. destruct (split_once _ _) as [[a b]|]; [|discriminate].
  pose proof (parse_signed_not_panic i16_min i16_max a). destruct (parse_signed _ _ a); cbn [obind]; try congruence.
  pose proof (parse_signed_not_panic i32_min i32_max b). destruct (parse_signed _ _ b); cbn [obind]; congruence.
Qed.

(** Finite sweeps over decimal digits. *)
Definition Nrange (a : N) (len : nat) : list N := map (fun k => (a + N.of_nat k)%N) (seq 0 len).
Lemma Nrange_In a len n : (a <= n < a + N.of_nat len)%N -> In n (Nrange a len).
Proof.
  intros H. apply in_map_iff. exists (N.to_nat (n - a)). split; [lia|]. apply in_seq. lia.
Qed.
(** A property of the four digits of a roman numeral can be swept digit by digit. *)
Definition roman4 (a b c d : N) : str :=
  (roman_digit 77 77 77 a ++ roman_digit 67 68 77 b ++ roman_digit 88 76 67 c ++ roman_digit 73 86 88 d)%N%list.
Lemma roman_standard_digits4 n : (n <= 3999)%N -> exists a b c d,
  (a <= 3 /\ b <= 9 /\ c <= 9 /\ d <= 9)%N /\ n = (1000 * a + 100 * b + 10 * c + d)%N /\
  roman_standard n = roman4 a b c d.
Proof.
  intros H. exists (n / 1000)%N, (n / 100 mod 10)%N, (n / 10 mod 10)%N, (n mod 10)%N.
  split; [lia|]. split; [|reflexivity].
  rewrite (N.div_mod n 10) at 1 by lia. rewrite (N.div_mod (n / 10) 10) at 1 by lia.
  rewrite (N.div_mod (n / 10 / 10) 10) at 1 by lia. rewrite !N.div_div by lia.
  change (10 * 10)%N with 100%N. change (100 * 10)%N with 1000%N. lia.
Qed.
Lemma digit_cases d : (d <= 9)%N -> In d [0; 1; 2; 3; 4; 5; 6; 7; 8; 9]%N.
Proof. intros H. cbn [In]. lia. Qed.
Lemma roman_group (u d r : N) s9 s5 s4 s1 t : (1 <= u)%N -> (r < u)%N -> (d <= 9)%N ->
  roman_aux ([(9 * u, s9); (5 * u, s5); (4 * u, s4); (u, s1)]%N ++ t) (d * u + r)
  = match d with
    | 0 => [] | 1 => s1 | 2 => s1 ++ s1 | 3 => s1 ++ s1 ++ s1 | 4 => s4 | 5 => s5 | 6 => s5 ++ s1
    | 7 => s5 ++ s1 ++ s1 | 8 => s5 ++ s1 ++ s1 ++ s1 | _ => s9
    end%N ++ roman_aux t r.
Proof.
  intros Hu Hr Hd. cbn [List.app roman_aux].
  assert (D : forall v q x, (v * q <= x < v * q + v)%N -> (x / v = q)%N /\ (x mod v = x - v * q)%N).
  { intros v q x Hx. assert (E : (x / v = q)%N) by (symmetry; apply (N.div_unique x v q (x - v * q)); lia).
    split; [exact E|]. pose proof (N.div_mod x v ltac:(lia)). rewrite E in *. lia. }
  apply digit_cases in Hd. cbn [In] in Hd.
  repeat destruct Hd as [<-|Hd]; [..|contradiction];
  repeat match goal with
  | |- context [(?x / ?v)%N] =>
      first [ destruct (D v 0%N x ltac:(lia)) as [-> ->] | destruct (D v 1%N x ltac:(lia)) as [-> ->]
            | destruct (D v 2%N x ltac:(lia)) as [-> ->] | destruct (D v 3%N x ltac:(lia)) as [-> ->] ]
  end; change (N.to_nat 0) with 0%nat; change (N.to_nat 1) with 1%nat; change (N.to_nat 2) with 2%nat;
  change (N.to_nat 3) with 3%nat; cbn [rep_str List.app];
  repeat rewrite app_nil_r; repeat rewrite <- app_assoc;
  match goal with |- context [roman_aux t ?e] => replace e with r by lia end; reflexivity.
Qed.
Lemma roman_greedy_standard n : (1 <= n <= 3999)%N -> roman_aux roman_table n = roman_standard n.
Proof.
  intros H. destruct (roman_standard_digits4 n) as (a & b & c & d & [Ha [Hb [Hc Hd]]] & E & ->); [lia|].
  change roman_table with ((1000%N, lit "M") ::
    [(9 * 100, lit "CM"); (5 * 100, lit "D"); (4 * 100, lit "CD"); (100, lit "C")]%N ++
    [(9 * 10, lit "XC"); (5 * 10, lit "L"); (4 * 10, lit "XL"); (10, lit "X")]%N ++
    [(9 * 1, lit "IX"); (5 * 1, lit "V"); (4 * 1, lit "IV"); (1, lit "I")]%N ++ []).
  cbn [roman_aux].
  replace (n / 1000)%N with a by lia.
  replace (n mod 1000)%N with (b * 100 + (c * 10 + d))%N by lia.
  rewrite roman_group by lia. rewrite roman_group by lia.
  replace d with (d * 1 + 0)%N at 1 by lia. rewrite roman_group by lia.
  unfold roman4. norm_lit.
  assert (A : In a [0; 1; 2; 3]%N) by (cbn [In]; lia).
  apply digit_cases in Hb, Hc, Hd. clear E H Ha. f_equal; [|f_equal; [|f_equal]].
  - cbn [In] in A. repeat destruct A as [<-|A]; [reflexivity..|contradiction].
  - cbn [In] in Hb. repeat destruct Hb as [<-|Hb]; [reflexivity..|contradiction].
  - cbn [In] in Hc. repeat destruct Hc as [<-|Hc]; [reflexivity..|contradiction].
  - cbn [roman_aux]. rewrite app_nil_r.
    cbn [In] in Hd. repeat destruct Hd as [<-|Hd]; [reflexivity..|contradiction].
Qed.
Lemma roman_digit_chars o f t d : is_roman_digit o = true -> is_roman_digit f = true -> is_roman_digit t = true ->
  forallb is_roman_digit (roman_digit o f t d) = true.
Proof.
  intros Ho Hf Ht. unfold roman_digit.
  repeat match goal with |- context [match ?x with _ => _ end] => destruct x; try reflexivity end;
  cbn [forallb]; rewrite ?Ho, ?Hf, ?Ht; reflexivity.
Qed.
Lemma roman_standard_digits n : (1 <= n <= 3999)%N ->
  forallb is_roman_digit (roman_standard n) = true /\ roman_standard n <> [].
Proof.
  intros H. destruct (roman_standard_digits4 n) as (a & b & c & d & [Ha [Hb [Hc Hd]]] & E & ->); [lia|].
  split.
  - unfold roman4. rewrite !forallb_app, !roman_digit_chars by reflexivity. reflexivity.
  - unfold roman4. intros Z. apply app_eq_nil in Z as [Z1 Z]. apply app_eq_nil in Z as [Z2 Z].
    apply app_eq_nil in Z as [Z3 Z4].
    assert (G : forall o f t x, (x <= 9)%N -> roman_digit o f t x = [] -> x = 0%N).
    { intros o f t x Hx. apply digit_cases in Hx. cbn [In] in Hx.
      repeat destruct Hx as [<-|Hx]; [reflexivity|discriminate..|contradiction]. }
    apply G in Z1, Z2, Z3, Z4; lia.
Qed.
Lemma roman_to_spec z : roman_to z =
  if ((1 <=? z) && (z <=? 3999))%Z then Some (roman_standard (Z.to_N z)) else None.
Proof.
  unfold roman_to. destruct ((1 <=? z) && (z <=? 3999))%Z eqn:E; [|reflexivity].
  rewrite roman_greedy_standard by lia. reflexivity.
Qed.
Lemma show_four n : (1000 <= n <= 9999)%N -> exists a b c d, show_N n = [a; b; c; d].
Proof.
  intros H. rewrite (show_N_step n), (show_N_step (n / 10)), (show_N_step (n / 10 / 10)) by lia.
  rewrite (show_N_small (n / 10 / 10 / 10)) by lia. cbn [List.app]. eauto.
Qed.
Lemma roman_runs_first a b : forallb is_roman_digit a = true -> a <> [] ->
  match b with [] => True | c :: _ => is_roman_digit c = false end ->
  exists l, roman_runs (a ++ b) = (a, b) :: l.
Proof.
  intros H Hne Hb. induction a as [|c a IH]; [congruence|].
  cbn [forallb] in H. apply andb_prop in H as [Hc H]. cbn [List.app roman_runs]. rewrite Hc.
  destruct a as [|d a].
  - cbn [List.app]. exists []. destruct b as [|e b]; [reflexivity|]. cbn [roman_runs]. rewrite Hb. reflexivity.
  - destruct (IH H ltac:(discriminate)) as [l ->]. cbn. eauto.
Qed.
Lemma leftmost_skip {A} (f : str -> option A) (pre s : str) :
  (forall a b c, pre = a ++ c :: b -> f (c :: b ++ s) = None) -> leftmost f (pre ++ s) = leftmost f s.
Proof.
  induction pre as [|c pre IH]; intros H; [reflexivity|]. cbn [List.app leftmost].
  rewrite (H [] pre c eq_refl). apply IH. intros a b d E. apply (H (c :: a)). now rewrite E.
Qed.
Lemma take_digits4_digits a b c d r :
  forallb is_digit [a; b; c; d] = true -> take_digits4 (a :: b :: c :: d :: r) = Some ([a; b; c; d], r).
Proof.
  cbn. intros H. rewrite !andb_true_iff in H. destruct H as [H1 [H2 [H3 [H4 _]]]].
  now rewrite H1, H2, H3, H4.
Qed.
Lemma show_Z_pos z : (0 <= z)%Z -> show_Z z = show_N (Z.to_N z).
Proof. intros H. unfold show_Z. replace (z <? 0)%Z with false by lia. reflexivity. Qed.
(** The printed identifier is read back even when embedded in other text, as long as no digit precedes it. *)
Lemma act_parse_show_in_text rf pre post x s : roman_from_reads rf ->
  (1000 <= act_year x <= 9999)%Z -> (1 <= act_number x <= 3999)%Z ->
  forallb (fun c => negb (is_digit c)) pre = true ->
  act_show x = Ok s -> act_parse rf (pre ++ s ++ post) = Ok x.
Proof.
  intros R Hy Hn Hpre. unfold act_show. rewrite roman_to_spec.
  replace ((1 <=? act_number x) && (act_number x <=? 3999))%Z with true by lia.
  intros H; apply Ok_inj in H; subst s. unfold act_parse, try_classic.
  rewrite leftmost_skip.
  2:{ intros a b c ->. unfold classic_at. rewrite forallb_app in Hpre. cbn in Hpre.
      rewrite !andb_true_iff in Hpre. destruct Hpre as [_ [Hc _]]. apply negb_true_iff in Hc.
      unfold take_digits4. set (rest := b ++ _). clearbody rest.
      destruct rest as [|? [|? [|? ?]]]; try reflexivity. rewrite Hc. reflexivity. }
  rewrite (show_Z_pos (act_year x)) by lia.
  set (roman := roman_standard (Z.to_N (act_number x))).
  assert (Hlm : leftmost classic_at
     ((show_N (Z.to_N (act_year x)) ++ lit ". évi " ++ roman ++ lit ". törvény") ++ post)
     = Some (show_N (Z.to_N (act_year x)), roman)).
  { destruct (show_four (Z.to_N (act_year x))) as [a [b [c [d E]]]]; [lia|].
    pose proof (show_N_digits (Z.to_N (act_year x))) as D. rewrite E in *.
    assert (C : classic_at (([a; b; c; d] ++ lit ". évi " ++ roman ++ lit ". törvény") ++ post)
             = Some ([a; b; c; d], roman)).
    { unfold classic_at. rewrite <- app_assoc. cbn [List.app].
      rewrite (take_digits4_digits a b c d _ D). rewrite <- app_assoc.
      change (lit ". évi " ++ (roman ++ lit ". törvény") ++ post)
        with (46%N :: lit " évi " ++ (roman ++ lit ". törvény") ++ post).
      unfold any_char at 1. change (46 =? 10)%N with false. cbn match.
      rewrite strip_prefix_app. rewrite <- app_assoc.
      destruct (roman_runs_first roman (lit ". törvény" ++ post)) as [l Hl].
      - unfold roman. apply roman_standard_digits; lia.
      - unfold roman. apply roman_standard_digits; lia.
      - reflexivity.
      - rewrite Hl. cbn [find].
        replace (classic_tail (roman, lit ". törvény" ++ post)) with true; [reflexivity|].
        symmetry. unfold classic_tail. cbn [snd].
        change (lit ". törvény" ++ post) with (46%N :: lit " törvény" ++ post).
        unfold any_char. change (46 =? 10)%N with false. cbn match. apply starts_with_spec. eauto. }
    destruct (([a; b; c; d] ++ lit ". évi " ++ roman ++ lit ". törvény") ++ post) eqn:Q;
    cbn [leftmost]; rewrite C; reflexivity. }
  rewrite Hlm. unfold parse_i16, roman.
  rewrite <- (show_Z_pos (act_year x)) by lia.
  rewrite parse_signed_show by (unfold i16_min, i16_max; lia). cbn [to_opt].
  rewrite R by lia. rewrite Z2N.id by lia. now destruct x.
Qed.
Lemma act_show_ok_iff x : (exists s, act_show x = Ok s) <-> (1 <= act_number x <= 3999)%Z.
Proof.
  unfold act_show. rewrite roman_to_spec.
  destruct ((1 <=? act_number x) && (act_number x <=? 3999))%Z eqn:E.
  - split; [lia | eauto].
  - split; [intros [s H]; discriminate | lia].
Qed.
Lemma act_show_panic_iff x : act_show x = Panic <-> ~ (1 <= act_number x <= 3999)%Z.
Proof.
  unfold act_show. rewrite roman_to_spec.
  destruct ((1 <=? act_number x) && (act_number x <=? 3999))%Z eqn:E.
  - split; [discriminate | lia].
  - split; [lia | reflexivity].
Qed.

(** ** Chains *)
From Coq Require Import Sorted.
Definition lt_of {T} `{IdentCommon T} (x y : T) : Prop := id_cmp x y = Lt.
Lemma chain_sorted {T} (cmp : T -> T -> comparison) (R : T -> T -> Prop) (P : T -> Prop) l :
  TotalOrd cmp -> (forall x y, P x -> P y -> R y x -> cmp x y = Lt) ->
  Forall P l -> chain R l -> StronglySorted (fun x y => cmp x y = Lt) l /\ NoDup l.
Proof.
  intros TO HR HP HC.
  assert (S : StronglySorted (fun x y => cmp x y = Lt) l).
  { induction HC as [|x|x y l Rxy HC IH].
    - constructor.
    - repeat constructor.
    - inversion HP as [|? ? Px HP']; subst. specialize (IH HP'). constructor; [exact IH|].
      inversion HP' as [|? ? Py _]; subst. inversion IH as [|? ? _ F]; subst.
      pose proof (HR x y Px Py Rxy) as L. constructor; [exact L|].
      eapply Forall_impl; [|exact F]. intros z Hz. eapply (to_trans cmp TO); eassumption. }
  split; [exact S|]. clear HC HP. induction S as [|x l S IH F]; constructor; [|exact IH].
  intros Hin. rewrite Forall_forall in F. apply F in Hin. rewrite (to_refl TO) in Hin. discriminate.
Qed.
Lemma chain_tail {A} (R : A -> A -> Prop) x l : chain R (x :: l) -> chain R l.
Proof. intros H; inversion H; subst; [constructor|assumption]. Qed.

(** Along a chain starting from 1 the number grows by at most one per step, so it cannot wrap within
    65535 elements. *)
Lemma numeric_chain_no_wrap l : forall x k,
  Forall (fun i => numeric_ok i = true) (x :: l) -> chain (fun y x => numeric_next y x = true) (x :: l) ->
  (1 <= n_num x <= k)%N -> (k + N.of_nat (List.length l) <= 65535)%N ->
  Forall (fun i => n_num i <> 0%N) (x :: l).
Proof.
  induction l as [|y l IH]; intros x k HF HC Hx Hk.
  - constructor; [lia|constructor].
  - inversion HC as [| |? ? ? Hn HC']; subst. inversion HF as [|? ? Fx HF']; subst.
    constructor; [lia|]. cbn [List.length] in Hk.
    assert (Hy : (1 <= n_num y <= k + 1)%N).
    { inversion HF' as [|? ? Fy _]; subst. apply (numeric_next_general y x Fy Fx) in Hn as [Hn|[-> Hn]]; [|lia].
      unfold numeric_follows in Hn. destruct (n_suffix y), (n_suffix x); lia. }
    apply (IH y (k + 1)%N HF' HC' Hy). lia.
Qed.
Lemma numeric_chain_sorted l :
  Forall (fun i => numeric_ok i = true) l -> chain (fun y x => numeric_next y x = true) l ->
  Forall (fun i => n_num i <> 0%N) l ->
  StronglySorted (fun x y => numeric_cmp x y = Lt) l /\ NoDup l.
Proof.
  intros HF HC HN. apply (chain_sorted numeric_cmp (fun y x => numeric_next y x = true)
    (fun i => numeric_ok i = true /\ n_num i <> 0%N)).
  - apply numeric_total.
  - intros x y [Hx _] [Hy Hy0] H. now apply numeric_next_lt.
  - rewrite Forall_forall in *. auto.
  - exact HC.
Qed.
Lemma numeric_chain_from_first l :
  Forall (fun i => numeric_ok i = true) l -> chain (fun y x => numeric_next y x = true) l ->
  match l with x :: _ => numeric_first x = true | [] => True end ->
  (N.of_nat (List.length l) <= 65535)%N ->
  StronglySorted (fun x y => numeric_cmp x y = Lt) l /\ NoDup l.
Proof.
  intros HF HC H1 HL. apply numeric_chain_sorted; [assumption..|].
  destruct l as [|x l]; [constructor|]. apply numeric_first_eq in H1. subst x.
  apply (numeric_chain_no_wrap l (mkNum 1 None) 1%N HF HC); cbn [n_num List.length] in *; lia.
Qed.
Lemma hic_chain_sorted l : chain (fun y x => hic_next y x = true) l ->
  StronglySorted (fun x y => hic_cmp x y = Lt) l /\ NoDup l.
Proof.
  intros HC. apply (chain_sorted hic_cmp (fun y x => hic_next y x = true) (fun _ => True)).
  - apply hic_total.
  - intros x y _ _ H. now apply hic_next_lt.
  - apply Forall_forall. auto.
  - exact HC.
Qed.
Lemma prefixed_chain_sorted l : chain (fun y x => prefixed_next y x = true) l ->
  StronglySorted (fun x y => prefixed_cmp x y = Lt) l /\ NoDup l.
Proof.
  intros HC. apply (chain_sorted prefixed_cmp (fun y x => prefixed_next y x = true) (fun _ => True)).
  - apply prefixed_total.
  - intros x y _ _ H. now apply prefixed_next_lt.
  - apply Forall_forall. auto.
  - exact HC.
Qed.
Lemma paragraph_next_lt x y : paragraph_ok x = true -> paragraph_ok y = true ->
  (forall n, x = Some n -> n_num n <> 0%N) -> paragraph_next x y = true -> paragraph_cmp y x = Lt.
Proof.
  destruct x as [a|], y as [b|]; cbn; intros Hx Hy H0; try discriminate.
  intros H. apply numeric_next_lt; auto.
Qed.
Lemma paragraph_chain_sorted l :
  Forall (fun i => paragraph_ok i = true) l -> chain (fun y x => paragraph_next y x = true) l ->
  Forall (fun i => forall n, i = Some n -> n_num n <> 0%N) l ->
  StronglySorted (fun x y => paragraph_cmp x y = Lt) l /\ NoDup l.
Proof.
  intros HF HC HN. apply (chain_sorted paragraph_cmp (fun y x => paragraph_next y x = true)
    (fun i => paragraph_ok i = true /\ forall n, i = Some n -> n_num n <> 0%N)).
  - apply paragraph_total.
  - intros x y [Hx _] [Hy Hy0] H. now apply paragraph_next_lt.
  - rewrite Forall_forall in *. intros i Hi. split; [apply HF, Hi | apply HN, Hi].
  - exact HC.
Qed.
Lemma article_chain_sorted l :
  Forall (fun i => article_ok i = true) l -> chain (fun y x => article_next y x = true) l ->
  Forall (fun i => n_num (a_ident i) <> 0%N /\ a_book i <> Some 0%N) l ->
  StronglySorted (fun x y => article_cmp x y = Lt) l /\ NoDup l.
Proof.
  intros HF HC HN. apply (chain_sorted article_cmp (fun y x => article_next y x = true)
    (fun i => article_ok i = true /\ (n_num (a_ident i) <> 0%N /\ a_book i <> Some 0%N))).
  - apply article_total.
  - intros x y [Hx _] [Hy [Hy0 Hy1]] H. now apply article_next_lt.
  - rewrite Forall_forall in *. intros i Hi. split; [apply HF, Hi | apply HN, Hi].
  - exact HC.
Qed.
(** Both counters grow by at most one per step. *)
Lemma article_chain_no_wrap l : forall x k,
  Forall (fun i => article_ok i = true) (x :: l) -> chain (fun y x => article_next y x = true) (x :: l) ->
  (1 <= n_num (a_ident x) <= k)%N -> match a_book x with Some b => (1 <= b <= k)%N | None => True end ->
  (k + N.of_nat (List.length l) <= 255)%N ->
  Forall (fun i => n_num (a_ident i) <> 0%N /\ a_book i <> Some 0%N) (x :: l).
Proof.
  induction l as [|y l IH]; intros x k HF HC Hx Hb Hk.
  - constructor; [|constructor]. split; [lia|]. destruct (a_book x); [|discriminate]. intros E; injection E; lia.
  - inversion HC as [| |? ? ? Hn HC']; subst. inversion HF as [|? ? Fx HF']; subst.
    constructor.
    { split; [lia|]. destruct (a_book x); [|discriminate]. intros E; injection E; lia. }
    cbn [List.length] in Hk.
    assert (Hy : (1 <= n_num (a_ident y) <= k + 1)%N /\
                 match a_book y with Some b => (1 <= b <= k + 1)%N | None => True end).
    { inversion HF' as [|? ? Fy _]; subst.
      apply (article_next_general y x Fy Fx) in Hn as [Hn|[[_ [_ Hn]]|[_ [Hn _]]]]; [|lia|].
      - unfold article_follows, numeric_follows in Hn.
        destruct (a_book y) as [by_|], (a_book x) as [bx|]; try contradiction.
        + destruct Hn as [[-> Hn]|[-> ->]].
          * split; [|lia]. destruct (n_suffix (a_ident y)), (n_suffix (a_ident x)); lia.
          * cbn. lia.
        + split; [|exact I]. destruct (n_suffix (a_ident y)), (n_suffix (a_ident x)); lia.
      - exfalso. rewrite Hn in Hb. lia. }
    destruct Hy as [Hy1 Hy2]. apply (IH y (k + 1)%N HF' HC' Hy1 Hy2). lia.
Qed.
Lemma article_chain_from_first l :
  Forall (fun i => article_ok i = true) l -> chain (fun y x => article_next y x = true) l ->
  match l with x :: _ => article_first x = true | [] => True end ->
  (N.of_nat (List.length l) <= 255)%N ->
  StronglySorted (fun x y => article_cmp x y = Lt) l /\ NoDup l.
Proof.
  intros HF HC H1 HL. apply article_chain_sorted; [assumption..|].
  destruct l as [|x l]; [constructor|]. cbn [List.length] in HL.
  assert (H : n_num (a_ident x) = 1%N /\ match a_book x with Some b => b = 1%N | None => True end).
  { unfold article_first in H1. destruct (a_book x).
    - apply andb_prop in H1 as [H1 H2]. apply numeric_first_eq in H2. rewrite H2. cbn. lia.
    - apply numeric_first_eq in H1. rewrite H1. cbn. lia. }
  destruct H as [Ha Hb]. apply (article_chain_no_wrap l x 1%N HF HC).
  - lia.
  - destruct (a_book x); [lia|exact I].
  - lia.
Qed.
(** A computable test for chains, for witnesses. *)
Fixpoint chainb {A} (f : A -> A -> bool) (l : list A) : bool :=
  match l with x :: (y :: _) as l' => f y x && chainb f l' | _ => true end.
Lemma chainb_chain {A} (f : A -> A -> bool) l : chainb f l = true -> chain (fun y x => f y x = true) l.
Proof.
  induction l as [|x [|y l] IH]; intros H; [constructor|constructor|].
  cbn [chainb] in H. apply andb_prop in H as [H1 H2]. constructor; [exact H1|]. now apply IH.
Qed.
