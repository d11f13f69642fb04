(** Lemmas about [Base]. *)
From Verif Require Export Base.
Ltac Zify.zify_post_hook ::= Z.div_mod_to_equations.

Lemma Ok_inj {A} (a b : A) : Ok a = Ok b -> a = b.
Proof. congruence. Qed.
Lemma Some_inj {A} (a b : A) : Some a = Some b -> a = b.
Proof. congruence. Qed.
Lemma str_eqb_eq (a b : str) : str_eqb a b = true <-> a = b.
Proof. unfold str_eqb; destruct (list_eq_dec N.eq_dec a b); split; congruence. Qed.
Lemma str_eqb_refl (a : str) : str_eqb a a = true.
Proof. apply str_eqb_eq; reflexivity. Qed.
Lemma str_eqb_neq (a b : str) : str_eqb a b = false <-> a <> b.
Proof. unfold str_eqb; destruct (list_eq_dec N.eq_dec a b); split; congruence. Qed.

Lemma is_empty_true {A} (l : list A) : is_empty l = true <-> l = [].
Proof. destruct l; cbn; split; congruence. Qed.
Lemma is_empty_false {A} (l : list A) : is_empty l = false <-> l <> [].
Proof. destruct l; cbn; split; congruence. Qed.

(** ** span *)
Lemma span_app (p : char -> bool) (s : str) : fst (span p s) ++ snd (span p s) = s.
Proof.
  induction s as [|c s IH]; cbn; [reflexivity|].
  destruct (p c); [|reflexivity]. destruct (span p s) as [a b]; cbn in *. now rewrite IH.
Qed.
Lemma span_fst (p : char -> bool) (s : str) : forallb p (fst (span p s)) = true.
Proof.
  induction s as [|c s IH]; cbn; [reflexivity|].
  destruct (p c) eqn:E; [|reflexivity]. destruct (span p s) as [a b]; cbn in *. now rewrite E, IH.
Qed.
Lemma span_snd (p : char -> bool) (s : str) :
  match snd (span p s) with [] => True | c :: _ => p c = false end.
Proof.
  induction s as [|c s IH]; cbn; [exact I|].
  destruct (p c) eqn:E; [|exact E]. destruct (span p s) as [a b]; exact IH.
Qed.
Lemma span_split (p : char -> bool) (a b : str) :
  forallb p a = true -> (match b with [] => True | c :: _ => p c = false end) ->
  span p (a ++ b) = (a, b).
Proof.
  intros Ha Hb; induction a as [|c a IH]; cbn in *.
  - destruct b as [|c b]; [reflexivity|]. cbn. now rewrite Hb.
  - apply andb_prop in Ha as [Hc Ha]. rewrite Hc, (IH Ha). reflexivity.
Qed.
Lemma span_all (p : char -> bool) (a : str) : forallb p a = true -> span p a = (a, []).
Proof. intros Ha. rewrite <- (app_nil_r a) at 1. now apply span_split. Qed.

(** ** split_once, split_on *)
Definition no_char (c : char) (s : str) : bool := forallb (fun x => negb (x =? c)%N) s.
Lemma no_char_app c a b : no_char c (a ++ b) = no_char c a && no_char c b.
Proof. apply forallb_app. Qed.
Lemma no_char_In c s : no_char c s = true <-> ~ In c s.
Proof.
  unfold no_char. rewrite forallb_forall. split.
  - intros H Hin. specialize (H c Hin). rewrite N.eqb_refl in H. discriminate.
  - intros H x Hx. destruct (N.eqb_spec x c); [subst; contradiction | reflexivity].
Qed.
Lemma split_once_none c s : no_char c s = true -> split_once c s = None.
Proof.
  induction s as [|x s IH]; cbn; [reflexivity|]. intros H; apply andb_prop in H as [H1 H2].
  destruct (x =? c)%N; [discriminate|]. now rewrite IH.
Qed.
Lemma split_once_some c a b : no_char c a = true -> split_once c (a ++ c :: b) = Some (a, b).
Proof.
  induction a as [|x a IH]; cbn; intros H.
  - now rewrite N.eqb_refl.
  - apply andb_prop in H as [H1 H2]. destruct (x =? c)%N; [discriminate|]. now rewrite IH.
Qed.
Lemma split_once_inv c s a b : split_once c s = Some (a, b) -> s = a ++ c :: b /\ no_char c a = true.
Proof.
  revert a b; induction s as [|x s IH]; cbn; intros a b H; [discriminate|].
  destruct (N.eqb_spec x c).
  - injection H as <- <-. subst; auto.
  - destruct (split_once c s) as [[a' b']|]; [|discriminate]. injection H as <- <-.
    destruct (IH _ _ eq_refl) as [-> H2]. split; [reflexivity|]. cbn.
    destruct (N.eqb_spec x c); [contradiction|]. exact H2.
Qed.
Lemma split_once_none_inv c s : split_once c s = None -> no_char c s = true.
Proof.
  induction s as [|x s IH]; cbn; [reflexivity|].
  destruct (x =? c)%N; [discriminate|]. destruct (split_once c s) as [[? ?]|]; [discriminate|].
  intros _. now apply IH.
Qed.
Lemma split_on_single c s : no_char c s = true -> split_on c s = [s].
Proof.
  induction s as [|x s IH]; cbn; [reflexivity|]. intros H; apply andb_prop in H as [H1 H2].
  destruct (x =? c)%N; [discriminate|]. now rewrite IH.
Qed.
Lemma split_on_app c a b : no_char c a = true -> split_on c (a ++ c :: b) = a :: split_on c b.
Proof.
  induction a as [|x a IH]; cbn; intros H.
  - now rewrite N.eqb_refl.
  - apply andb_prop in H as [H1 H2]. destruct (x =? c)%N; [discriminate|]. now rewrite IH.
Qed.

(** ** prefixes and suffixes *)
Lemma strip_prefix_app p s : strip_prefix p (p ++ s) = Some s.
Proof. induction p as [|a p IH]; cbn; [destruct s; reflexivity|]. now rewrite N.eqb_refl. Qed.
Lemma strip_prefix_some p s r : strip_prefix p s = Some r <-> s = p ++ r.
Proof.
  split; [|intros ->; apply strip_prefix_app].
  revert s; induction p as [|a p IH]; intros s; cbn.
  - destruct s; congruence.
  - destruct s as [|b s]; [discriminate|]. destruct (N.eqb_spec a b); [|discriminate].
    intros H; subst. f_equal. now apply IH.
Qed.
Lemma starts_with_spec p s : starts_with p s = true <-> exists r, s = p ++ r.
Proof.
  unfold starts_with. destruct (strip_prefix p s) as [r|] eqn:E; cbn.
  - split; [|reflexivity]. intros _. exists r. now apply strip_prefix_some.
  - split; [discriminate|]. intros [r H]. apply strip_prefix_some in H. congruence.
Qed.
Lemma strip_suffix_some p s r : strip_suffix p s = Some r <-> s = r ++ p.
Proof.
  unfold strip_suffix. split.
  - destruct (strip_prefix (rev p) (rev s)) as [q|] eqn:E; [|discriminate].
    intros H; injection H as <-. apply strip_prefix_some in E.
    rewrite <- (rev_involutive s), E, rev_app_distr, rev_involutive. reflexivity.
  - intros ->. rewrite rev_app_distr, strip_prefix_app, rev_involutive. reflexivity.
Qed.
Lemma ends_with_spec p s : ends_with p s = true <-> exists r, s = r ++ p.
Proof.
  unfold ends_with. destruct (strip_suffix p s) as [r|] eqn:E; cbn.
  - split; [|reflexivity]. intros _. exists r. now apply strip_suffix_some.
  - split; [discriminate|]. intros [r H]. apply strip_suffix_some in H. congruence.
Qed.

(** ** utf8 lengths *)
Lemma char_len_pos c : (1 <= char_len c <= 4)%N.
Proof.
  unfold char_len. destruct (c <? 128)%N; [lia|]. destruct (c <? 2048)%N; [lia|].
  destruct (c <? 65536)%N; lia.
Qed.
Lemma utf8_len_app a b : (utf8_len (a ++ b) = utf8_len a + utf8_len b)%N.
Proof. unfold utf8_len. induction a as [|c a IH]; cbn [fold_right app]; lia. Qed.
Lemma utf8_len_cons c s : (utf8_len (c :: s) = char_len c + utf8_len s)%N.
Proof. reflexivity. Qed.
Lemma utf8_len_ge s : (N.of_nat (List.length s) <= utf8_len s)%N.
Proof.
  induction s as [|c s IH]; cbn [List.length]; [cbn; lia|].
  rewrite utf8_len_cons. pose proof (char_len_pos c). lia.
Qed.
Lemma utf8_len_one s : utf8_len s = 1%N -> exists c, s = [c] /\ (c < 128)%N.
Proof.
  destruct s as [|c [|d s]]; intros H.
  - discriminate.
  - exists c. split; [reflexivity|]. cbn in H. unfold char_len in H.
    destruct (N.ltb_spec c 128); [assumption|]. destruct (c <? 2048)%N; [discriminate|].
    destruct (c <? 65536)%N; discriminate.
  - exfalso. rewrite !utf8_len_cons in H. pose proof (char_len_pos c). pose proof (char_len_pos d). lia.
Qed.

(** ** decimal numbers *)
Lemma digits_value_app a b :
  digits_value (a ++ b) = fold_left (fun acc c => (acc * 10 + (c - 48))%N) b (digits_value a).
Proof. unfold digits_value. apply fold_left_app. Qed.

Lemma dec_aux_digits f n acc :
  forallb is_digit acc = true -> forallb is_digit (dec_aux f n acc) = true.
Proof.
  revert n acc; induction f as [|f IH]; intros n acc H; cbn [dec_aux]; [exact H|].
  assert (H' : forallb is_digit ((48 + n mod 10)%N :: acc) = true).
  { cbn [forallb]. rewrite H, andb_true_r. unfold is_digit. lia. }
  destruct (n / 10 =? 0)%N; [exact H'|]. now apply IH.
Qed.
Lemma show_N_digits n : forallb is_digit (show_N n) = true.
Proof. apply dec_aux_digits. reflexivity. Qed.

Fixpoint pow10 (s : str) : N := match s with [] => 1 | _ :: s' => 10 * pow10 s' end%N.
Lemma fold_digits_value s v :
  (fold_left (fun acc c => acc * 10 + (c - 48)) s v = v * pow10 s + digits_value s)%N.
Proof.
  revert v; induction s as [|c s IH]; intros v; cbn [fold_left pow10].
  - cbn. lia.
  - unfold digits_value. cbn [fold_left]. rewrite IH, (IH (0 * 10 + (c - 48))%N). lia.
Qed.
Lemma digits_value_cons c s : (digits_value (c :: s) = (c - 48) * pow10 s + digits_value s)%N.
Proof. unfold digits_value at 1. cbn [fold_left]. rewrite fold_digits_value. lia. Qed.

Lemma dec_aux_value f n acc :
  (n < 2 ^ N.of_nat f)%N ->
  digits_value (dec_aux f n acc) = (n * pow10 acc + digits_value acc)%N.
Proof.
  revert n acc; induction f as [|f IH]; intros n acc H; cbn [dec_aux].
  - cbn in H. replace n with 0%N by lia. lia.
  - rewrite Nat2N.inj_succ, N.pow_succ_r' in H.
    destruct (N.eqb_spec (n / 10) 0) as [E|E].
    + rewrite digits_value_cons. replace (48 + n mod 10 - 48)%N with (n mod 10)%N by lia.
      replace (n mod 10)%N with n by lia. lia.
    + rewrite IH by lia. rewrite digits_value_cons. cbn [pow10].
      replace (48 + n mod 10 - 48)%N with (n mod 10)%N by lia.
      pose proof (N.div_mod n 10). nia.
Qed.
Lemma N_lt_size n : (n < 2 ^ N.of_nat (S (N.size_nat n)))%N.
Proof.
  destruct n as [|p]; [cbn; lia|]. cbn [N.size_nat].
  induction p as [p IH|p IH|]; cbn [Pos.size_nat].
  - rewrite Nat2N.inj_succ, N.pow_succ_r'. lia.
  - rewrite Nat2N.inj_succ, N.pow_succ_r'. lia.
  - cbn. lia.
Qed.
Lemma digits_value_show n : digits_value (show_N n) = n.
Proof.
  unfold show_N. rewrite dec_aux_value by apply N_lt_size. cbn. lia.
Qed.
(** The fuel does not matter, hence a recursive characterisation of printing. *)
Lemma dec_aux_fuel f : forall f' n acc, (n < 2 ^ N.of_nat f)%N -> (n < 2 ^ N.of_nat f')%N ->
  dec_aux (S f) n acc = dec_aux (S f') n acc.
Proof.
  induction f as [|f IH]; intros f' n acc H H'.
  - change (2 ^ N.of_nat 0)%N with 1%N in H. assert (n = 0%N) by lia. subst n. reflexivity.
  - cbn [dec_aux]. destruct (N.eqb_spec (n / 10) 0) as [E|E]; [reflexivity|].
    destruct f' as [|f'].
    + change (2 ^ N.of_nat 0)%N with 1%N in H'. assert (n = 0%N) by lia. subst n. exfalso. apply E. reflexivity.
    + rewrite Nat2N.inj_succ, N.pow_succ_r' in H, H'.
      apply IH; generalize dependent (2 ^ N.of_nat f)%N; generalize dependent (2 ^ N.of_nat f')%N; intros; lia.
Qed.
Lemma dec_aux_acc f : forall n acc acc', dec_aux f n (acc ++ acc') = dec_aux f n acc ++ acc'.
Proof.
  induction f as [|f IH]; intros n acc acc'; [reflexivity|]. cbn [dec_aux].
  rewrite app_comm_cons. destruct (_ =? _)%N; [reflexivity|]. apply IH.
Qed.
Lemma show_N_small n : (n < 10)%N -> show_N n = [(48 + n)%N].
Proof.
  intros H. unfold show_N. cbn [dec_aux]. replace (n / 10 =? 0)%N with true by lia.
  f_equal. lia.
Qed.
Lemma N_lt_size' n : (n < 2 ^ N.of_nat (N.size_nat n))%N.
Proof.
  destruct n as [|p]; [reflexivity|]. cbn [N.size_nat].
  replace (N.of_nat (Pos.size_nat p)) with (N.size (N.pos p)); [apply N.size_gt|].
  cbn. clear. induction p; cbn [Pos.size Pos.size_nat]; rewrite ?Nat2N.inj_succ; try reflexivity;
  rewrite <- IHp; cbn; lia.
Qed.
Lemma show_N_step n : (10 <= n)%N -> show_N n = show_N (n / 10) ++ [(48 + n mod 10)%N].
Proof.
  intros H. unfold show_N at 1. cbn [dec_aux]. replace (n / 10 =? 0)%N with false by lia.
  change [(48 + n mod 10)%N] with ([] ++ [(48 + n mod 10)%N]) at 1. rewrite dec_aux_acc. f_equal.
  unfold show_N. pose proof (N_lt_size' n) as Hn. pose proof (N_lt_size' (n / 10)) as Hn'.
  destruct (N.size_nat n) as [|s].
  - change (2 ^ N.of_nat 0)%N with 1%N in Hn. lia.
  - rewrite Nat2N.inj_succ, N.pow_succ_r' in Hn.
    apply dec_aux_fuel; [|exact Hn'].
    generalize dependent (2 ^ N.of_nat s)%N. intros; lia.
Qed.
Lemma dec_aux_nonempty f n acc : (dec_aux (S f) n acc) <> [].
Proof.
  cbn [dec_aux]. assert (G : forall f n acc, acc <> [] -> dec_aux f n acc <> []).
  { clear. intros f; induction f as [|f IH]; intros n acc H; cbn [dec_aux]; [exact H|].
    destruct (n / 10 =? 0)%N; [discriminate|]. apply IH. discriminate. }
  destruct (n / 10 =? 0)%N; [discriminate|]. apply G. discriminate.
Qed.
Lemma show_N_nonempty n : show_N n <> [].
Proof. apply dec_aux_nonempty. Qed.

Lemma forallb_impl {A} (p q : A -> bool) l :
  (forall x, p x = true -> q x = true) -> forallb p l = true -> forallb q l = true.
Proof.
  intros H; induction l as [|x l IH]; cbn; [reflexivity|].
  intros E; apply andb_prop in E as [E1 E2]. now rewrite (H _ E1), IH.
Qed.
Lemma digits_no_char c s : is_digit c = false -> forallb is_digit s = true -> no_char c s = true.
Proof.
  intros Hc. apply forallb_impl. intros x Hx. destruct (N.eqb_spec x c); [congruence|reflexivity].
Qed.
Lemma show_N_no_char c n : is_digit c = false -> no_char c (show_N n) = true.
Proof. intros H. apply digits_no_char; [exact H | apply show_N_digits]. Qed.

Lemma strip_plus_digits s : forallb is_digit s = true -> strip_plus s = s.
Proof.
  destruct s as [|c s]; cbn; [reflexivity|]. intros H; apply andb_prop in H as [H _].
  destruct (N.eqb_spec c 43); [subst; discriminate|reflexivity].
Qed.
Lemma parse_unsigned_digits max s :
  forallb is_digit s = true -> s <> [] ->
  parse_unsigned max s = if (digits_value s <=? max)%N then Ok (digits_value s) else Err.
Proof.
  intros H Hne. unfold parse_unsigned. rewrite (strip_plus_digits _ H), H.
  destruct s; [congruence|reflexivity].
Qed.
Lemma parse_unsigned_show max n : (n <= max)%N -> parse_unsigned max (show_N n) = Ok n.
Proof.
  intros H. rewrite parse_unsigned_digits by (apply show_N_digits || apply show_N_nonempty).
  rewrite digits_value_show. destruct (N.leb_spec n max); [reflexivity|lia].
Qed.
Lemma parse_signed_show min max z :
  (min <= z <= max)%Z -> parse_signed min max (show_Z z) = Ok z.
Proof.
  intros H. unfold parse_signed, show_Z.
  destruct (Z.ltb_spec z 0) as [Hn|Hn].
  - rewrite N.eqb_refl.
    destruct (is_empty (show_N (Z.to_N (- z)))) eqn:E.
    { apply is_empty_true in E. now apply show_N_nonempty in E. }
    rewrite show_N_digits. cbv zeta. rewrite digits_value_show.
    replace (- Z.of_N (Z.to_N (- z)))%Z with z by lia.
    replace ((min <=? z)%Z && (z <=? max)%Z) with true by lia. reflexivity.
  - destruct (show_N (Z.to_N z)) as [|c s] eqn:E; [now apply show_N_nonempty in E|].
    assert (Hd : forallb is_digit (c :: s) = true) by (rewrite <- E; apply show_N_digits).
    assert (Hc : (c =? 45)%N = false).
    { cbn in Hd. apply andb_prop in Hd as [Hd _]. unfold is_digit in Hd. lia. }
    rewrite Hc, (strip_plus_digits _ Hd), Hd. cbn [is_empty]. rewrite <- E, digits_value_show.
    replace (Z.of_N (Z.to_N z)) with z by lia.
    replace ((min <=? z)%Z && (z <=? max)%Z) with true by lia. reflexivity.
Qed.
Lemma show_N_inj a b : show_N a = show_N b -> a = b.
Proof. intros H. rewrite <- (digits_value_show a), H. apply digits_value_show. Qed.
Lemma show_Z_no_char c z : is_digit c = false -> c <> 45%N -> no_char c (show_Z z) = true.
Proof.
  intros H1 H2. unfold show_Z. destruct (z <? 0)%Z.
  - cbn. destruct (N.eqb_spec 45 c); [congruence|]. now apply show_N_no_char.
  - now apply show_N_no_char.
Qed.
Lemma show_Z_inj a b : show_Z a = show_Z b -> a = b.
Proof.
  assert (G : forall z n, show_N n = 45%N :: z -> False).
  { intros z n H. pose proof (show_N_digits n) as D. rewrite H in D. discriminate. }
  unfold show_Z. destruct (Z.ltb_spec a 0); destruct (Z.ltb_spec b 0); intros E.
  - injection E as E. apply show_N_inj in E. lia.
  - symmetry in E. now apply G in E.
  - now apply G in E.
  - apply show_N_inj in E. lia.
Qed.

(** ** Total orders given by a comparison function *)
Record TotalOrd {A} (cmp : A -> A -> comparison) : Prop := {
  to_eq : forall x y, cmp x y = Eq <-> x = y;
  to_opp : forall x y, cmp y x = CompOpp (cmp x y);
  to_trans : forall x y z, cmp x y = Lt -> cmp y z = Lt -> cmp x z = Lt
}.
Lemma to_refl {A} {cmp : A -> A -> comparison} (H : TotalOrd cmp) x : cmp x x = Eq.
Proof. now apply (to_eq _ H). Qed.
Lemma to_le_trans {A} {cmp : A -> A -> comparison} (H : TotalOrd cmp) x y z :
  cmp x y <> Gt -> cmp y z <> Gt -> cmp x z <> Gt.
Proof.
  intros H1 H2. destruct (cmp x y) eqn:E1; [|clear H1|congruence].
  - apply (to_eq _ H) in E1. now subst.
  - destruct (cmp y z) eqn:E2; [| |congruence].
    + apply (to_eq _ H) in E2. subst. congruence.
    + rewrite (to_trans _ H _ _ _ E1 E2). discriminate.
Qed.
Lemma to_gt_lt {A} {cmp : A -> A -> comparison} (H : TotalOrd cmp) x y :
  cmp x y = Gt <-> cmp y x = Lt.
Proof. rewrite (to_opp _ H x y). destruct (cmp x y); cbn; split; congruence. Qed.

Lemma N_total : TotalOrd N.compare.
Proof.
  split; intros.
  - apply N.compare_eq_iff.
  - apply N.compare_antisym.
  - rewrite N.compare_lt_iff in *. lia.
Qed.
Lemma Z_total : TotalOrd Z.compare.
Proof.
  split; intros.
  - apply Z.compare_eq_iff.
  - apply Z.compare_antisym.
  - rewrite Z.compare_lt_iff in *. lia.
Qed.
(** Comparison through an injective key. *)
Lemma key_total {A B} (f : A -> B) cmp :
  (forall x y, f x = f y -> x = y) -> TotalOrd cmp -> TotalOrd (fun x y => cmp (f x) (f y)).
Proof.
  intros Hf H. split; intros.
  - rewrite (to_eq _ H). split; [apply Hf | congruence].
  - apply (to_opp _ H).
  - eapply (to_trans _ H); eassumption.
Qed.
Lemma lex_total {A B C} (f : A -> B) (g : A -> C) cb cc :
  (forall x y, f x = f y -> g x = g y -> x = y) -> TotalOrd cb -> TotalOrd cc ->
  TotalOrd (fun x y => lex (cb (f x) (f y)) (cc (g x) (g y))).
Proof.
  intros Hfg Hb Hc. split; intros; unfold lex in *.
  - split.
    + destruct (cb (f x) (f y)) eqn:E1; try discriminate. intros E2.
      apply (to_eq _ Hb) in E1. apply (to_eq _ Hc) in E2. now apply Hfg.
    + intros ->. now rewrite (to_refl Hb), (to_refl Hc).
  - rewrite (to_opp _ Hb (f x)), (to_opp _ Hc (g x)). now destruct (cb (f x) (f y)).
  - destruct (cb (f x) (f y)) eqn:E1; try discriminate.
    + apply (to_eq _ Hb) in E1. rewrite E1 in *.
      destruct (cb (f y) (f z)); try congruence. eapply (to_trans _ Hc); eassumption.
    + destruct (cb (f y) (f z)) eqn:E2; try discriminate.
      * apply (to_eq _ Hb) in E2. rewrite <- E2, E1. reflexivity.
      * now rewrite (to_trans _ Hb _ _ _ E1 E2).
Qed.
Lemma opt_total {A} (c : A -> A -> comparison) : TotalOrd c -> TotalOrd (opt_cmp c).
Proof.
  intros H. split.
  - intros [x|] [y|]; cbn; try (split; congruence). rewrite (to_eq _ H). split; congruence.
  - intros [x|] [y|]; cbn; try reflexivity. apply (to_opp _ H).
  - intros [x|] [y|] [z|]; cbn; try congruence. apply (to_trans _ H).
Qed.
