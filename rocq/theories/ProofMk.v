(** Lemmas about Hungarian words, dates and gazette issues (C41, C42, C46). *)
From Verif Require Export SpecMk ProofBase ProofText2.

(** ** C41 *)
Lemma hun_strs_length : List.length hun_strs = 101%nat.
Proof. vm_compute. reflexivity. Qed.
Definition opt_N_eqb (a : option N) (n : N) : bool := match a with Some b => N.eqb b n | None => false end.
Definition hun_check : bool :=
  forallb (fun p => opt_N_eqb (assoc (fst p) hun_entries) (snd p) &&
                    opt_N_eqb (assoc (to_uppercase (fst p)) hun_entries) (snd p) &&
                    opt_N_eqb (assoc (capitalize (fst p)) hun_entries) (snd p))
    (combine hun_strs (map N.of_nat (seq 0 101))).
Lemma hun_check_true : hun_check = true.
Proof. vm_compute. reflexivity. Qed.
Lemma opt_N_eqb_eq a n : opt_N_eqb a n = true -> a = Some n.
Proof. destruct a; cbn; [|discriminate]. intros H. apply N.eqb_eq in H. congruence. Qed.
Lemma to_hungarian_range n : (exists w, num_to_hungarian n = Ok w) <-> (n <= 100)%N.
Proof.
  unfold num_to_hungarian. destruct (nth_error hun_strs (N.to_nat n)) eqn:E; cbn.
  - split; [|eauto]. intros _. assert (N.to_nat n < List.length hun_strs)%nat by (apply nth_error_Some; congruence).
    rewrite hun_strs_length in H. lia.
  - apply nth_error_None in E. rewrite hun_strs_length in E. split; [intros [w H]; discriminate|lia].
Qed.
Lemma nth_error_seq len : forall start k, (k < len)%nat -> nth_error (seq start len) k = Some (start + k)%nat.
Proof.
  induction len as [|len IH]; intros start k H; [lia|]. destruct k; cbn.
  - f_equal; lia.
  - rewrite IH by lia. f_equal. lia.
Qed.
Lemma hun_pair n w : num_to_hungarian n = Ok w -> In (w, n) (combine hun_strs (map N.of_nat (seq 0 101))).
Proof.
  intros H. assert (L : (n <= 100)%N) by (apply to_hungarian_range; eauto).
  unfold num_to_hungarian in H. destruct (nth_error hun_strs (N.to_nat n)) eqn:E; [|discriminate].
  cbn in H. apply Ok_inj in H. subst s. apply nth_error_In with (N.to_nat n).
  rewrite nth_error_combine, E, nth_error_map, nth_error_seq by lia. cbn. f_equal. f_equal. lia.
Qed.
Lemma c41_roundtrip n w : num_to_hungarian n = Ok w ->
  num_from_hungarian w = Ok n /\ num_from_hungarian (to_uppercase w) = Ok n /\ num_from_hungarian (capitalize w) = Ok n.
Proof.
  intros H. apply hun_pair in H. pose proof hun_check_true as C. unfold hun_check in C.
  rewrite forallb_forall in C. specialize (C _ H). cbn [fst snd] in C.
  apply andb_true_iff in C. destruct C as [C C3]. apply andb_true_iff in C. destruct C as [C1 C2].
  apply opt_N_eqb_eq in C1, C2, C3. unfold num_from_hungarian. rewrite C1, C2, C3. repeat split.
Qed.
Lemma assoc_In {A} k (l : list (str * A)) v : assoc k l = Some v -> In (k, v) l.
Proof.
  induction l as [|[k' v'] l IH]; cbn; [discriminate|]. destruct (str_eqb k k') eqn:E; intros H.
  - apply str_eqb_eq in E. apply Some_inj in H. subst. now left.
  - right. auto.
Qed.
Lemma combine_seq_nth {A} : forall (l : list A) start len w n,
  In (w, n) (combine l (map N.of_nat (seq start len))) -> exists k, n = N.of_nat (start + k) /\ nth_error l k = Some w.
Proof.
  induction l as [|a l IH]; intros start [|len] w n H; cbn in H; try contradiction.
  destruct H as [H|H].
  - injection H as <- <-. exists 0%nat. split; [f_equal; lia|reflexivity].
  - apply IH in H. destruct H as (k & -> & E). exists (S k). split; [f_equal; lia|exact E].
Qed.
Lemma c41_accepts s n : num_from_hungarian s = Ok n ->
  exists w, num_to_hungarian n = Ok w /\ (s = w \/ s = to_uppercase w \/ s = capitalize w).
Proof.
  unfold num_from_hungarian. destruct (assoc s hun_entries) as [v|] eqn:E; [|discriminate]. cbn.
  intros H. apply Ok_inj in H. subst v. apply assoc_In in E. unfold hun_entries in E. apply in_flat_map in E.
  destruct E as ([w m] & P & Q). cbn [fst snd] in Q.
  apply combine_seq_nth in P. destruct P as (k & -> & P). 
  assert (W : num_to_hungarian (N.of_nat (0 + k)) = Ok w).
  { unfold num_to_hungarian. cbn [Nat.add]. rewrite Nat2N.id, P. reflexivity. }
  destruct Q as [Q|[Q|[Q|[]]]]; injection Q as <- <-; exists w; auto.
Qed.
Lemma c41_injective n m w : num_to_hungarian n = Ok w -> num_to_hungarian m = Ok w -> n = m.
Proof.
  intros H1 H2. apply c41_roundtrip in H1, H2. destruct H1 as [H1 _], H2 as [H2 _]. congruence.
Qed.
Lemma from_hungarian_not_panic s : num_from_hungarian s <> Panic /\ forall n, num_to_hungarian n <> Panic.
Proof. split; [unfold num_from_hungarian; destruct (assoc _ _); discriminate|]. intros n. unfold num_to_hungarian. destruct (nth_error _ _); discriminate. Qed.

(** ** C42 *)
Lemma is_leap_spec y : is_leap y = true <-> leap_year y.
Proof.
  unfold is_leap, leap_year. rewrite andb_true_iff, orb_true_iff, negb_true_iff, Z.eqb_neq, !Z.eqb_eq.
  assert (D : forall k, (k <> 0)%Z -> ((y mod k)%Z = 0%Z <-> (k | y)%Z)) by (intros; apply Z.mod_divide; assumption).
  rewrite <- !D by lia. clear D. split.
  - intros [A [B|B]]; [left; split; assumption|right; exact B].
  - intros [[A B]|B]; [split; [exact A|left; exact B]|]. split; [lia|right; exact B].
Qed.
Lemma month_len_spec y m n : (1 <= m <= 12)%N -> (month_length m (leap_year y) n <-> n = days_in_month y m).
Proof.
  intros H. assert (m = 1 \/ m = 2 \/ m = 3 \/ m = 4 \/ m = 5 \/ m = 6 \/ m = 7 \/ m = 8 \/ m = 9 \/ m = 10 \/ m = 11 \/ m = 12)%N as C by lia.
  pose proof (is_leap_spec y) as L.
  repeat destruct C as [C|C]; subst m; cbn; try reflexivity.
  unfold days_in_month. cbn. destruct (is_leap y).
  - split; [intros [A _]; apply A, L; reflexivity|]. intros ->. split; [reflexivity|]. intros X. exfalso. apply X, L. reflexivity.
  - split; [intros [_ B]; apply B; intros X; apply L in X; discriminate|]. intros ->. split; [|reflexivity].
    intros X. apply L in X. discriminate.
Qed.
Lemma valid_date_month y m d : valid_date y m d -> (1 <= m <= 12)%N.
Proof.
  intros (n & H & _). unfold month_length in H.
  destruct m as [|p]; [contradiction|].
  do 4 (try (destruct p as [p|p|]; try contradiction; try lia)).
Qed.
Lemma from_ymd_spec y m d x : from_ymd y m d = Some x <->
  x = mkDate y m d /\ valid_date y m d /\ (-262144 <= y <= 262143)%Z.
Proof.
  unfold from_ymd. split.
  - destruct (_ && _) eqn:E; [|discriminate]. intros H. apply Some_inj in H. subst x.
    rewrite !andb_true_iff, !Z.leb_le, !N.leb_le in E. split; [reflexivity|]. split; [|lia].
    exists (days_in_month y m). split; [apply month_len_spec; lia|lia].
  - intros (-> & V & R). pose proof (valid_date_month _ _ _ V) as M. destruct V as (n & L & D).
    apply month_len_spec in L; [|exact M]. subst n.
    replace (_ && _) with true; [reflexivity|]. symmetry. rewrite !andb_true_iff, !Z.leb_le, !N.leb_le. lia.
Qed.
Lemma month_spec s m : month_from_hungarian s = Ok m <-> (1 <= m <= 12)%N /\ s = month_name m.
Proof.
  unfold month_from_hungarian. split.
  - destruct (position (str_eqb s) hun_months) as [k|] eqn:E; [|discriminate]. intros H. apply Ok_inj in H. subst m.
    apply position_some in E. destruct E as [(a & E1 & E2) _]. apply str_eqb_eq in E2. subst a.
    assert (k < 12)%nat by (change 12%nat with (List.length hun_months); apply nth_error_Some; congruence).
    do 12 (destruct k as [|k]; [cbn in E1; apply Some_inj in E1; subst s; split; [lia|reflexivity]|]). lia.
  - intros [H ->]. assert (m = 1 \/ m = 2 \/ m = 3 \/ m = 4 \/ m = 5 \/ m = 6 \/ m = 7 \/ m = 8 \/ m = 9 \/ m = 10 \/ m = 11 \/ m = 12)%N as C by lia.
    repeat destruct C as [C|C]; subst m; vm_compute; reflexivity.
Qed.
Lemma month_name_no_space m : (1 <= m <= 12)%N -> forallb (fun c => negb (c =? 32)%N) (month_name m) = true /\ month_name m <> [].
Proof.
  intros H. assert (m = 1 \/ m = 2 \/ m = 3 \/ m = 4 \/ m = 5 \/ m = 6 \/ m = 7 \/ m = 8 \/ m = 9 \/ m = 10 \/ m = 11 \/ m = 12)%N as C by lia.
  repeat destruct C as [C|C]; subst m; vm_compute; split; congruence.
Qed.
(** What the date regex matches *)
Lemma match_date_inv ud s y m d : match_date ud s = Some (y, m, d) ->
  exists p q rest, s = y ++ [p; 32%N] ++ m ++ [32%N] ++ d ++ q :: rest /\
    List.length y = 4%nat /\ forallb ud y = true /\ forallb ud d = true /\
    (List.length d = 2%nat \/ List.length d = 1%nat /\ (ud q = true -> line_ends rest)) /\ m <> [] /\ no_char 32 m = true /\
    p <> 10%N /\ q <> 10%N.
Proof.
  unfold match_date. do 6 (destruct s as [|? s]; [discriminate|]).
  destruct (_ && _) eqn:E; [|discriminate].
  destruct (span _ s) as [month rest] eqn:S.
  pose proof (span_app (fun c => negb (c =? 32)%N) s) as SA. pose proof (span_fst (fun c => negb (c =? 32)%N) s) as SF.
  pose proof (span_snd (fun c => negb (c =? 32)%N) s) as SS.
  rewrite S in SA, SF, SS. cbn [fst snd] in SA, SF, SS.
  destruct (is_empty month) eqn:M; [discriminate|]. apply is_empty_false in M.
  repeat rewrite andb_true_iff in E. destruct E as (((((U1 & U2) & U3) & U4) & P) & SP). apply N.eqb_eq in SP. rewrite SP in *. clear SP.
  assert (NS : no_char 32 month = true).
  { unfold no_char. rewrite <- SF. apply f_equal2; [|reflexivity]. reflexivity. }
  destruct rest as [|sp [|e [|f rest']]]; try discriminate.
  assert (sp = 32%N).
  { cbn in SS. destruct (N.eqb_spec sp 32); [assumption|discriminate]. }
  subst sp. destruct (ud e) eqn:Ue; [|discriminate].
  assert (AC : forall c, any_char c = true -> c <> 10%N).
  { intros c H ->. discriminate. }
  intros H.
  assert (R : y = [n; n0; n1; n2] /\ m = month /\ exists q r, e :: f :: rest' = d ++ q :: r /\ forallb ud d = true /\
     (List.length d = 2%nat \/ List.length d = 1%nat /\ (ud q = true -> line_ends r)) /\ q <> 10%N).
  { destruct rest' as [|g rest'].
    - destruct (any_char f) eqn:F; [|discriminate]. injection H as <- <- <-. split; [reflexivity|]. split; [reflexivity|].
      exists f, []. cbn. rewrite Ue. repeat split; auto.
    - destruct (ud f && any_char g) eqn:F.
      + injection H as <- <- <-. apply andb_true_iff in F. destruct F as [F G]. split; [reflexivity|]. split; [reflexivity|].
        exists g, rest'. cbn. rewrite Ue, F. repeat split; auto.
      + destruct (any_char f) eqn:Af; [|discriminate]. injection H as <- <- <-. split; [reflexivity|]. split; [reflexivity|].
        exists f, (g :: rest'). cbn. rewrite Ue. split; [reflexivity|]. split; [reflexivity|]. split; [|auto].
        right. split; [reflexivity|]. intros Uf. rewrite Uf in F. cbn in F. unfold any_char in F.
        destruct (N.eqb_spec g 10); [assumption|discriminate]. }
  destruct R as (-> & -> & q & r & Q1 & Q2 & Q3 & Q4).
  exists n3, q, r. split.
  - cbn [app]. do 6 f_equal. rewrite <- SA. f_equal. cbn. f_equal. exact Q1.
  - cbn. rewrite U1, U2, U3, U4. auto 12.
Qed.
Lemma match_date_intro ud y m d p q rest :
  List.length y = 4%nat -> forallb ud y = true -> forallb ud d = true ->
  (List.length d = 2%nat \/ List.length d = 1%nat /\ (ud q = true -> line_ends rest)) -> m <> [] -> no_char 32 m = true ->
  p <> 10%N -> q <> 10%N ->
  match_date ud (y ++ [p; 32%N] ++ m ++ [32%N] ++ d ++ q :: rest) = Some (y, m, d).
Proof.
  intros L U V K M N P Q. do 4 (destruct y as [|? y]; [discriminate|]). destruct y; [|discriminate]. cbn [app].
  unfold match_date. cbn in U. rewrite !andb_true_iff in U. destruct U as (A1 & A2 & A3 & A4 & _). rewrite A1, A2, A3, A4.
  assert (AC : forall c, c <> 10%N -> any_char c = true) by (intros c H; unfold any_char; apply N.eqb_neq in H; now rewrite H).
  rewrite (AC p) by assumption. change (32 =? 32)%N with true. cbn [andb].
  rewrite span_split; [| |reflexivity].
  2:{ rewrite <- N. unfold no_char. reflexivity. }
  destruct (is_empty m) eqn:E; [apply is_empty_true in E; contradiction|].
  destruct K as [K|[K K']].
  - destruct d as [|a [|b [|]]]; try discriminate. cbn [app]. cbn in V. rewrite !andb_true_iff in V. destruct V as (V1 & V2 & _).
    rewrite V1, V2, (AC q) by assumption. reflexivity.
  - destruct d as [|a [|]]; try discriminate. cbn [app]. cbn in V. rewrite andb_true_r in V. rewrite V, (AC q) by assumption.
    destruct rest as [|g rest]; [reflexivity|]. destruct (ud q) eqn:Uq; [|reflexivity]. cbn.
    specialize (K' eq_refl). cbn in K'. subst g. reflexivity.
Qed.
Lemma forallb_ascii_ud ud s : digit_class ud -> forallb is_digit s = true -> forallb ud s = true.
Proof.
  intros D H. rewrite forallb_forall in *. intros c Hc. specialize (H c Hc). rewrite D; [exact H|].
  unfold is_digit in H. rewrite andb_true_iff, !N.leb_le in H. lia.
Qed.
Lemma parse_unsigned_inv max s n : parse_unsigned max s = Ok n ->
  forallb is_digit (strip_plus s) = true /\ strip_plus s <> [] /\ n = digits_value (strip_plus s) /\ (n <= max)%N.
Proof.
  unfold parse_unsigned. destruct (is_empty (strip_plus s)) eqn:E; [discriminate|]. apply is_empty_false in E.
  destruct (forallb is_digit (strip_plus s)) eqn:F; [|discriminate].
  destruct (N.leb_spec (digits_value (strip_plus s)) max); [|discriminate]. intros H0. apply Ok_inj in H0. subst. auto.
Qed.
Lemma parse_signed_inv lo hi s z : parse_signed lo hi s = Ok z ->
  match s with 45%N :: _ => True | _ => forallb is_digit (strip_plus s) = true /\ strip_plus s <> [] /\ z = Z.of_N (digits_value (strip_plus s)) end.
Proof.
  unfold parse_signed. destruct s as [|c s]; [discriminate|].
  destruct (N.eqb_spec c 45) as [->|N]; [auto|].
  intros H. assert (G : forallb is_digit (strip_plus (c :: s)) = true /\ strip_plus (c :: s) <> [] /\ z = Z.of_N (digits_value (strip_plus (c :: s)))).
  { destruct (is_empty (strip_plus (c :: s))) eqn:E; [discriminate|]. apply is_empty_false in E.
    destruct (forallb is_digit (strip_plus (c :: s))) eqn:F; [|discriminate].
    destruct (_ && _); [|discriminate]. apply Ok_inj in H. auto. }
  destruct c as [|p]; [exact G|]. repeat (destruct p as [p|p|]; try exact G). now elim N.
Qed.
(** Digit strings matched by [ud] parse only when they are ASCII digits *)
Lemma ud_no_sign ud c s : digit_class ud -> forallb ud (c :: s) = true -> strip_plus (c :: s) = c :: s /\ c <> 45%N.
Proof.
  intros D H. cbn in H. apply andb_true_iff in H. destruct H as [H _]. split.
  - cbn. destruct (N.eqb_spec c 43) as [->|]; [|reflexivity]. rewrite D in H by lia. discriminate.
  - intros ->. rewrite D in H by lia. discriminate.
Qed.
Lemma c42_accepts_only ud s dt : digit_class ud -> date_from_hungarian ud s = Ok dt -> dated ud s dt.
Proof.
  intros D. unfold date_from_hungarian. destruct (match_date ud s) as [[[ys ms] ds]|] eqn:M; [|discriminate].
  destruct (match_date_inv _ _ _ _ _ M) as (p & q & rest & E & L4 & Uy & Ud & L12 & _ & _ & Np & Nq).
  destruct (parse_i32 ys) as [y| |] eqn:Py; cbn [obind]; try discriminate.
  destruct (month_from_hungarian ms) as [m| |] eqn:Pm; cbn [obind]; try discriminate.
  destruct (parse_u32 ds) as [d| |] eqn:Pd; cbn [obind]; try discriminate.
  destruct (from_ymd y m d) as [x|] eqn:F; [|discriminate]. cbn. intros H. apply Ok_inj in H. subst x.
  apply from_ymd_spec in F. destruct F as (-> & V & _). cbn [d_year d_month d_day].
  apply month_spec in Pm. destruct Pm as [_ Pm].
  assert (ys <> []) by (destruct ys; [discriminate|congruence]).
  assert (ds <> []) by (destruct ds; [destruct L12 as [?|[? _]]; discriminate|congruence]).
  destruct ys as [|c1 ys]; [congruence|]. destruct ds as [|c2 ds]; [congruence|].
  destruct (ud_no_sign _ _ _ D Uy) as [S1 N1]. destruct (ud_no_sign _ _ _ D Ud) as [S2 N2].
  apply parse_signed_inv in Py. apply parse_unsigned_inv in Pd. rewrite S2 in Pd.
  assert (G : forallb is_digit (c1 :: ys) = true /\ y = Z.of_N (digits_value (c1 :: ys))).
  { rewrite S1 in Py. destruct c1 as [|c]; [tauto|].
    repeat (destruct c as [c|c|]; try (split; [apply Py|apply Py])). now elim N1. }
  exists (c1 :: ys), p, ms, (c2 :: ds), q, rest. destruct G as [G1 G2]. destruct Pd as (P1 & _ & P2 & _).
  split; [exact E|]. split; [exact L4|]. split; [exact G1|]. split; [exact G2|]. split; [exact Pm|].
  split; [exact L12|]. split; [exact P1|]. split; [exact P2|]. split; [exact Np|]. split; [exact Nq|exact V].
Qed.
Lemma year4_spec y : (0 <= y <= 9999)%Z ->
  List.length (year4 y) = 4%nat /\ forallb is_digit (year4 y) = true /\ Z.of_N (digits_value (year4 y)) = y.
Proof.
  intros H. unfold year4. split; [reflexivity|].
  assert (B : forall k, (0 <= (y / k) mod 10 < 10)%Z) by (intros; apply Z.mod_pos_bound; lia).
  pose proof (B 1000%Z). pose proof (B 100%Z). pose proof (B 10%Z). pose proof (B 1%Z).
  split.
  - cbn [map forallb]. unfold is_digit.
    repeat rewrite andb_true_iff. rewrite !N.leb_le. repeat split; lia.
  - cbn [map]. unfold digits_value. cbn [fold_left].
    assert (C : forall k, (48 + Z.to_N ((y / k) mod 10) - 48)%N = Z.to_N ((y / k) mod 10)) by (intros; lia).
    rewrite !C. clear C B. rewrite !N2Z.inj_add, !N2Z.inj_mul, !N2Z.inj_add, !N2Z.inj_mul, !N2Z.inj_add, !N2Z.inj_mul.
    rewrite !Z2N.id by tauto. change (Z.of_N 10) with 10%Z. change (Z.of_N 0) with 0%Z.
    clear - H. rewrite Z.div_1_r.
    assert (E2 : (y / 100 = y / 10 / 10)%Z) by (rewrite Z.div_div by lia; f_equal; lia).
    assert (E3 : (y / 1000 = y / 100 / 10)%Z) by (rewrite Z.div_div by lia; f_equal; lia).
    assert (Y3 : ((y / 1000) mod 10 = y / 1000)%Z) by (apply Z.mod_small; split; [apply Z.div_pos; lia|apply Z.div_lt_upper_bound; lia]).
    rewrite Y3. pose proof (Z.div_mod y 10 ltac:(lia)) as H0. pose proof (Z.div_mod (y / 10) 10 ltac:(lia)) as H1.
    pose proof (Z.div_mod (y / 100) 10 ltac:(lia)) as H2. rewrite <- E2 in H1. rewrite <- E3 in H2. clear E2 E3 Y3.
    assert (Q : (0 <= y / 1000)%Z) by (apply Z.div_pos; lia).
    generalize dependent (y / 1000)%Z. intros q3. generalize dependent ((y / 100) mod 10)%Z. generalize dependent (y / 100)%Z.
    intros q2. generalize dependent ((y / 10) mod 10)%Z. generalize dependent (y / 10)%Z. generalize (y mod 10)%Z. intros. lia.
Qed.
Lemma parse_i32_digits s : forallb is_digit s = true -> s <> [] -> (Z.of_N (digits_value s) <= i32_max)%Z ->
  parse_i32 s = Ok (Z.of_N (digits_value s)).
Proof.
  intros F N L. unfold parse_i32, parse_signed. destruct s as [|c s]; [congruence|].
  assert (c <> 45%N) by (intros ->; cbn in F; discriminate).
  destruct (N.eqb_spec c 45); [contradiction|]. rewrite strip_plus_digits by assumption.
  cbn [is_empty]. rewrite F. unfold i32_min, i32_max in *.
  replace ((-2147483648 <=? Z.of_N (digits_value (c :: s))) && (Z.of_N (digits_value (c :: s)) <=? 2147483647))%Z with true; [reflexivity|].
  symmetry. apply andb_true_iff. lia.
Qed.
Lemma digits_bound ds : forallb is_digit ds = true -> (digits_value ds < 10 ^ N.of_nat (List.length ds))%N.
Proof.
  induction ds as [|c ds IH] using rev_ind; intros H; [reflexivity|].
  rewrite forallb_app in H. apply andb_true_iff in H. destruct H as [H1 H2]. specialize (IH H1). cbn in H2.
  rewrite andb_true_r in H2. unfold is_digit in H2. rewrite andb_true_iff, !N.leb_le in H2.
  unfold digits_value in *. rewrite fold_left_app. cbn [fold_left]. rewrite app_length. cbn [List.length].
  rewrite Nat.add_1_r, Nat2N.inj_succ, N.pow_succ_r'. lia.
Qed.
Lemma c42_accepts ud s dt : digit_class ud -> dated ud s dt -> date_from_hungarian ud s = Ok dt.
Proof.
  intros D (ys & p & ms & ds & q & rest & -> & L4 & Y2 & Y3 & M & L & D1 & D2 & Np & Nq & V).
  pose proof (valid_date_month _ _ _ V) as Hm. destruct (month_name_no_space _ Hm) as [M1 M2]. rewrite <- M in M1, M2.
  unfold date_from_hungarian.
  rewrite match_date_intro; try assumption; [|now apply forallb_ascii_ud|now apply forallb_ascii_ud].
  pose proof (digits_bound _ Y2) as B1. rewrite L4 in B1. pose proof (digits_bound _ D1) as B2.
  rewrite parse_i32_digits; [|exact Y2|destruct ys; discriminate|unfold i32_max; lia]. cbn [obind].
  rewrite (proj2 (month_spec _ (d_month dt))) by auto. cbn [obind].
  unfold parse_u32. rewrite parse_unsigned_digits; [|exact D1|destruct ds; [destruct L as [?|[? _]]; discriminate|discriminate]].
  destruct (N.leb_spec (digits_value ds) 4294967295) as [_|B].
  - cbn [obind]. rewrite <- Y3, <- D2.
    rewrite (proj2 (from_ymd_spec (d_year dt) (d_month dt) (d_day dt) (mkDate (d_year dt) (d_month dt) (d_day dt)))).
    + destruct dt; reflexivity.
    + split; [reflexivity|]. split; [exact V|]. rewrite Y3. lia.
  - exfalso. destruct L as [L|[L _]]; rewrite L in B2; cbn in B2; lia.
Qed.
Lemma day_str d : (1 <= d <= 31)%N -> exists a, forallb is_digit (show_N d) = true /\ digits_value (show_N d) = d /\
  (show_N d = [a] \/ exists b, show_N d = [a; b]).
Proof.
  intros H. destruct (N.ltb_spec d 10).
  - exists (48 + d)%N. rewrite show_N_small by assumption. split; [|split].
    + cbn [forallb]. unfold is_digit. rewrite !andb_true_iff, !N.leb_le. repeat split; lia.
    + unfold digits_value. cbn. lia.
    + left; reflexivity.
  - rewrite show_N_step by assumption. rewrite show_N_small by (apply N.div_lt_upper_bound; lia).
    exists (48 + d / 10)%N. split; [|split].
    + pose proof (N.mod_upper_bound d 10 ltac:(lia)). assert (d / 10 < 10)%N by (apply N.div_lt_upper_bound; lia).
      cbn [forallb app]. unfold is_digit. rewrite !andb_true_iff, !N.leb_le. repeat split; lia.
    + unfold digits_value. cbn [app fold_left]. pose proof (N.div_mod d 10 ltac:(lia)).
      remember (d / 10)%N as q. remember (d mod 10)%N as r. clear - H1. lia.
    + right. eexists. reflexivity.
Qed.
Lemma c42_written ud y m d rest : digit_class ud -> (0 <= y <= 9999)%Z -> valid_date y m d ->
  date_from_hungarian ud (year4 y ++ lit ". " ++ month_name m ++ lit " " ++ show_N d ++ lit "." ++ rest) = Ok (mkDate y m d).
Proof.
  intros D Hy V. pose proof (valid_date_month _ _ _ V) as Hm.
  destruct (year4_spec y Hy) as (Y1 & Y2 & Y3). remember (year4 y) as ys.
  do 4 (destruct ys as [|? ys]; [discriminate|]). destruct ys; [|discriminate].
  assert (Hd : (1 <= d <= 31)%N).
  { destruct V as (k & Hk & V). split; [lia|]. apply month_len_spec in Hk; [|exact Hm]. subst k.
    transitivity (days_in_month y m); [lia|]. unfold days_in_month.
    repeat match goal with |- context [if ?b then _ else _] => destruct b end; lia. }
  destruct (month_name_no_space m Hm) as [M1 M2].
  destruct (day_str d Hd) as (a & D1 & D2 & D3).
  unfold date_from_hungarian.
  assert (U : forall c, is_digit c = true -> ud c = true).
  { intros c Hc. rewrite D; [exact Hc|]. unfold is_digit in Hc. rewrite andb_true_iff, !N.leb_le in Hc. lia. }
  assert (M : match_date ud ([n; n0; n1; n2] ++ lit ". " ++ month_name m ++ lit " " ++ show_N d ++ lit "." ++ rest) =
              Some ([n; n0; n1; n2], month_name m, show_N d)).
  { change (lit ". ") with [46; 32]%N. change (lit " ") with [32]%N. change (lit ".") with [46]%N. cbn [app].
    unfold match_date. cbn in Y2. rewrite !andb_true_iff in Y2. destruct Y2 as (A1 & A2 & A3 & A4 & _).
    rewrite !U by assumption. cbn [andb any_char N.eqb]. change (any_char 46) with true. change (32 =? 32)%N with true. cbn [andb].
    rewrite span_split; [|exact M1|reflexivity].
    destruct (is_empty (month_name m)) eqn:E; [apply is_empty_true in E; contradiction|].
    destruct D3 as [D3|[b D3]]; rewrite D3 in *; cbn [app]; cbn in D1; rewrite !andb_true_iff in D1.
    - rewrite U by apply D1. destruct rest as [|g rest]; [reflexivity|].
      rewrite (D 46%N) by lia. reflexivity.
    - destruct D1 as (B1 & B2 & _). rewrite !U by assumption. reflexivity. }
  rewrite M. rewrite parse_i32_digits; [|exact Y2|discriminate|rewrite Y3; unfold i32_max; lia]. cbn [obind].
  rewrite (proj2 (month_spec _ m)) by auto. cbn [obind].
  unfold parse_u32. rewrite parse_unsigned_show by lia. cbn [obind]. rewrite Y3.
  rewrite (proj2 (from_ymd_spec y m d (mkDate y m d))); [reflexivity|]. split; [reflexivity|]. split; [exact V|lia].
Qed.
Lemma date_not_panic ud s : date_from_hungarian ud s <> Panic.
Proof.
  unfold date_from_hungarian. destruct (match_date ud s) as [[[y m] d]|]; [|discriminate].
  assert (A : forall lo hi t, parse_signed lo hi t <> Panic).
  { intros lo hi t. unfold parse_signed. destruct t as [|c t].
    - cbn. discriminate.
    - destruct (c =? 45)%N; repeat (match goal with |- context [if ?b then _ else _] => destruct b end); discriminate. }
  assert (B : forall max t, parse_unsigned max t <> Panic).
  { intros max t. unfold parse_unsigned. repeat (match goal with |- context [if ?b then _ else _] => destruct b end); discriminate. }
  unfold parse_i32. specialize (A i32_min i32_max y). destruct (parse_signed i32_min i32_max y); cbn [obind]; try congruence.
  unfold month_from_hungarian. destruct (position _ _); cbn [obind]; [|discriminate].
  unfold parse_u32. specialize (B 4294967295%N d). destruct (parse_unsigned 4294967295 d); cbn [obind]; try congruence.
  destruct (from_ymd _ _ _); discriminate.
Qed.

(** ** C46 *)
Lemma split_on_two c s a b : split_on c s = [a; b] <-> s = a ++ c :: b /\ no_char c a = true /\ no_char c b = true.
Proof.
  split.
  - destruct (split_once c s) as [[x y]|] eqn:E.
    + apply split_once_inv in E. destruct E as [-> N]. rewrite split_on_app by assumption.
      intros H. injection H as <- H.
      destruct (split_once c y) as [[u v]|] eqn:E2.
      * apply split_once_inv in E2. destruct E2 as [-> N2]. rewrite split_on_app in H by assumption.
        exfalso. destruct (split_on c v) eqn:Q; [destruct v; cbn in Q; [discriminate|destruct (_ =? _)%N; [discriminate|destruct (split_on c v); discriminate]]|discriminate].
      * apply split_once_none_inv in E2. rewrite split_on_single in H by assumption. injection H as <-. auto.
    + apply split_once_none_inv in E. rewrite split_on_single by assumption. discriminate.
  - intros (-> & A & B). rewrite split_on_app by assumption. now rewrite split_on_single.
Qed.
Lemma c46_parse s i : mk_parse s = Ok i <->
  exists a b, s = a ++ lit "/" ++ b /\ ~ In (chr "/") a /\ ~ In (chr "/") b /\
    parse_i64 a = Ok (mk_year i) /\ parse_i64 b = Ok (mk_issue_no i).
Proof.
  change (lit "/") with [chr "/"]. cbn [app]. unfold mk_parse. split.
  - destruct (split_on (chr "/") s) as [|a [|b [|]]] eqn:E; try discriminate.
    apply split_on_two in E. destruct E as (-> & A & B). rewrite no_char_In in A, B.
    destruct (parse_i64 a) as [y| |] eqn:P1; cbn [obind]; try discriminate.
    destruct (parse_i64 b) as [n| |] eqn:P2; cbn [obind]; try discriminate.
    intros H. apply Ok_inj in H. subst i. exists a, b. cbn. auto.
  - intros (a & b & -> & A & B & P1 & P2). apply no_char_In in A, B.
    rewrite (proj2 (split_on_two (chr "/") (a ++ chr "/" :: b) a b)) by auto.
    rewrite P1, P2. cbn. now destruct i.
Qed.
Lemma c46_roundtrip i : (i64_min <= mk_year i <= i64_max)%Z -> (i64_min <= mk_issue_no i <= i64_max)%Z ->
  mk_parse (show_Z (mk_year i) ++ lit "/" ++ show_Z (mk_issue_no i)) = Ok i.
Proof.
  intros H1 H2. apply c46_parse. exists (show_Z (mk_year i)), (show_Z (mk_issue_no i)). split; [reflexivity|].
  assert (S : forall z, ~ In (chr "/") (show_Z z)).
  { intros z. rewrite <- no_char_In. apply show_Z_no_char; [reflexivity|vm_compute; discriminate]. }
  split; [apply S|]. split; [apply S|]. split; apply parse_signed_show; assumption.
Qed.
Lemma app_no_char_inj c a b a' b' : no_char c a = true -> no_char c a' = true -> a ++ c :: b = a' ++ c :: b' -> a = a' /\ b = b'.
Proof.
  intros H H' E. apply (f_equal (split_once c)) in E. rewrite !split_once_some in E by assumption. injection E; auto.
Qed.
Lemma c46_cache_key i j : cache_key i = cache_key j -> i = j.
Proof.
  unfold cache_key. intros H. apply app_inv_head in H. change (lit "/") with [chr "/"] in H. cbn [app] in H.
  assert (S : forall z, no_char (chr "/") (show_Z z) = true) by (intros z; apply show_Z_no_char; [reflexivity|vm_compute; discriminate]).
  apply app_no_char_inj in H; auto. destruct H as [H1 H2]. apply app_inv_tail in H2.
  apply show_Z_inj in H1, H2. destruct i, j; cbn in *; congruence.
Qed.
Lemma repeat_app_inj (x : char) n m a b : List.length a = List.length b -> repeat x n ++ a = repeat x m ++ b -> a = b.
Proof.
  intros L H. assert (n = m).
  { apply (f_equal (@List.length _)) in H. rewrite !app_length, !repeat_length in H. lia. }
  subst. now apply app_inv_head in H.
Qed.
Lemma digits_value_zeros n s : digits_value (repeat 48%N n ++ s) = digits_value s.
Proof. unfold digits_value. rewrite fold_left_app. f_equal. induction n; cbn; [reflexivity|exact IHn]. Qed.
Lemma pad_Z_value w z : (0 <= z)%Z -> digits_value (pad_Z w z) = Z.to_N z.
Proof.
  intros H. unfold pad_Z. destruct (Z.ltb_spec z 0); [lia|]. cbn [app]. rewrite digits_value_zeros, digits_value_show.
  f_equal. lia.
Qed.
Lemma pad_Z_2 z : (0 <= z < 100)%Z -> List.length (pad_Z 2 z) = 2%nat.
Proof.
  intros H. unfold pad_Z. destruct (Z.ltb_spec z 0); [lia|]. cbn [app List.length]. rewrite app_length, repeat_length.
  assert (L : (List.length (show_N (Z.to_N (Z.abs z))) <= 2)%nat).
  { destruct (N.ltb_spec (Z.to_N (Z.abs z)) 10); [rewrite show_N_small by assumption; cbn; lia|].
    rewrite show_N_step, show_N_small by (try assumption; apply N.div_lt_upper_bound; lia). cbn. lia. }
  lia.
Qed.
Lemma app_len_inj {A} (a b a' b' : list A) : List.length a = List.length a' -> a ++ b = a' ++ b' -> a = a' /\ b = b'.
Proof. revert a'. induction a; intros [|x a'] L H; cbn in *; try discriminate; [auto|]. injection H as -> H. destruct (IHa a' ltac:(lia) H). subst; auto. Qed.
Lemma mk_url_eq i : exists pre, mk_url i = pre ++ pad_Z 2 (Z.rem (mk_year i) 100) ++ pad_Z 3 (mk_issue_no i) ++ lit ".pdf" /\
  forall j, mk_url j = pre ++ pad_Z 2 (Z.rem (mk_year j) 100) ++ pad_Z 3 (mk_issue_no j) ++ lit ".pdf".
Proof. eexists. split; reflexivity. Qed.
Lemma c46_url i j : (0 <= mk_year i)%Z -> (0 <= mk_year j)%Z -> (mk_year i / 100 = mk_year j / 100)%Z ->
  (0 <= mk_issue_no i)%Z -> (0 <= mk_issue_no j)%Z -> mk_url i = mk_url j -> i = j.
Proof.
  intros Y1 Y2 C I1 I2 H. destruct (mk_url_eq i) as (pre & E1 & E2). rewrite E1, E2 in H. clear E1 E2. apply app_inv_head in H.
  rewrite !Z.rem_mod_nonneg in H by lia.
  pose proof (Z.mod_pos_bound (mk_year i) 100 ltac:(lia)). pose proof (Z.mod_pos_bound (mk_year j) 100 ltac:(lia)).
  apply app_len_inj in H; [|rewrite !pad_Z_2 by assumption; reflexivity]. destruct H as [H2 H3].
  apply app_inv_tail in H3. apply (f_equal digits_value) in H2, H3. rewrite !pad_Z_value in H2, H3 by lia.
  pose proof (Z.div_mod (mk_year i) 100 ltac:(lia)). pose proof (Z.div_mod (mk_year j) 100 ltac:(lia)).
  assert (mk_year i = mk_year j).
  { rewrite C in *. remember (mk_year i mod 100)%Z. remember (mk_year j mod 100)%Z. remember (mk_year j / 100)%Z.
    clear - H0 H1 H2 H H4. lia. }
  assert (mk_issue_no i = mk_issue_no j) by (clear - I1 I2 H3; lia).
  destruct i, j; cbn in *; congruence.
Qed.

(** get_issues *)
Lemma mk_cmp_spec a b : match mk_cmp a b with Lt => issue_lt a b | Eq => a = b | Gt => issue_lt b a end.
Proof.
  unfold mk_cmp, lex, issue_lt. destruct (Z.compare_spec (mk_year a) (mk_year b)) as [E|L|L]; try lia.
  destruct (Z.compare_spec (mk_issue_no a) (mk_issue_no b)) as [E2|L|L]; try (now left); try (right; lia).
  destruct a, b; cbn in *; congruence.
Qed.
Lemma issue_lt_trans a b c : issue_lt a b -> issue_lt b c -> issue_lt a c.
Proof. unfold issue_lt. lia. Qed.
Lemma set_insert_In x s y : In y (set_insert x s) <-> y = x \/ In y s.
Proof.
  induction s as [|a s IH]; cbn; [intuition congruence|].
  pose proof (mk_cmp_spec x a) as C. destruct (mk_cmp x a); cbn.
  - subst. intuition congruence.
  - intuition congruence.
  - rewrite IH. intuition congruence.
Qed.
Lemma set_insert_inc x s : increasing s -> increasing (set_insert x s).
Proof.
  induction 1 as [|a|a b l L H IH]; cbn.
  - constructor.
  - pose proof (mk_cmp_spec x a) as C. destruct (mk_cmp x a); [apply inc_one|apply inc_cons; [exact C|apply inc_one]..].
  - pose proof (mk_cmp_spec x a) as C. destruct (mk_cmp x a).
    + apply inc_cons; assumption.
    + apply inc_cons; [exact C|]. apply inc_cons; assumption.
    + cbn in IH. cbn. pose proof (mk_cmp_spec x b) as C2. destruct (mk_cmp x b); apply inc_cons; try assumption.
Qed.
Lemma find_issue_spec records a i : find_issue records a = Some i <-> issue_of records a i.
Proof.
  unfold issue_of. revert i. induction records as [|[j b] r IH]; intros i; cbn.
  - split; [discriminate|]. intros ([|? ?] & ? & H & _); discriminate.
  - destruct (act_eqb b a) eqn:E.
    + assert (b = a). { unfold act_eqb in E. apply andb_true_iff in E. rewrite !Z.eqb_eq in E. destruct a, b; cbn in *; f_equal; tauto. }
      subst b. split.
      * intros H. apply Some_inj in H. subst j. exists [], r. split; [reflexivity|]. intros j [].
      * intros ([|p pre] & post & H & N); cbn in H; [injection H as -> ->; reflexivity|].
        injection H as <- H. exfalso. apply (N j). now left.
    + rewrite IH. split.
      * intros (pre & post & -> & N). exists ((j, b) :: pre), post. split; [reflexivity|].
        intros j' [H|H]; [|now apply (N j')]. injection H as -> ->.
        unfold act_eqb in E. rewrite !Z.eqb_refl in E. discriminate.
      * intros ([|p pre] & post & H & N); cbn in H.
        -- injection H as -> -> ->. unfold act_eqb in E. rewrite !Z.eqb_refl in E. discriminate.
        -- injection H as <- ->. exists pre, post. split; [reflexivity|]. intros j' Hj. apply (N j'). now right.
Qed.
Lemma act_show_cases a : (has_name a /\ exists s, act_show a = Ok s) \/ (~ has_name a /\ act_show a = Panic).
Proof.
  unfold act_show, roman_to, has_name. destruct ((_ <=? _) && (_ <=? _))%Z eqn:E.
  - left. split; [lia|]. eauto.
  - right. split; [lia|reflexivity].
Qed.
Lemma unknown_tail records a acts x i : issue_of records a i -> (first_unknown records (a :: acts) x <-> first_unknown records acts x).
Proof.
  intros F. split.
  - intros ([|b pre] & post & E & P & N); cbn in E; injection E as -> ->.
    + exfalso. exact (N i F).
    + exists pre, post. split; [reflexivity|]. split; [|exact N]. intros c H. apply P. now right.
  - intros (pre & post & -> & P & N). exists (a :: pre), post. split; [reflexivity|]. split; [|exact N]. intros c [<-|H]; [eauto|auto].
Qed.
Lemma unknown_here records a acts x : (forall i, ~ issue_of records a i) -> (first_unknown records (a :: acts) x <-> x = a).
Proof.
  intros F. split.
  - intros ([|b pre] & post & E & P & N); cbn in E; injection E as -> ->; [reflexivity|].
    exfalso. destruct (P b (or_introl eq_refl)) as [i H]. exact (F i H).
  - intros ->. exists [], acts. split; [reflexivity|]. split; [intros b []|exact F].
Qed.
Lemma get_issues_loop_spec records acts : forall s, increasing s ->
  (forall r, get_issues_loop records acts s = Ok r ->
     increasing r /\ (forall a, In a acts -> exists i, issue_of records a i) /\
     forall i, In i r <-> In i s \/ exists a, In a acts /\ issue_of records a i) /\
  (get_issues_loop records acts s = Err <-> exists a, first_unknown records acts a /\ has_name a) /\
  (get_issues_loop records acts s = Panic <-> exists a, first_unknown records acts a /\ ~ has_name a).
Proof.
  induction acts as [|a acts IH]; intros s Hs; cbn [get_issues_loop].
  - split; [|split].
    + intros r H. apply Ok_inj in H. subst r. split; [exact Hs|]. split; [intros a []|]. intros i. split; [tauto|].
      intros [H|(a & [] & _)]. exact H.
    + split; [discriminate|]. intros (a & ([|? ?] & ? & H & _) & _); discriminate.
    + split; [discriminate|]. intros (a & ([|? ?] & ? & H & _) & _); discriminate.
  - destruct (find_issue records a) as [i0|] eqn:F.
    + apply find_issue_spec in F.
      assert (Un : forall i, issue_of records a i -> i = i0).
      { intros i H. apply find_issue_spec in H, F. congruence. }
      destruct (IH (set_insert i0 s) (set_insert_inc _ _ Hs)) as (A & B & C). split; [|split].
      * intros r H. destruct (A r H) as (A1 & A2 & A3). split; [exact A1|]. split.
        -- intros b [<-|Hb]; [eauto|auto].
        -- intros i. rewrite A3, set_insert_In. split.
           ++ intros [[->|H1]|(b & H1 & H2)]; [right; exists a; split; [now left|exact F]|now left|].
              right. exists b. split; [now right|exact H2].
           ++ intros [H1|(b & [<-|H1] & H2)]; [left; now right|left; left; now apply Un|]. right. eauto.
      * rewrite B. split; intros (x & H & K); exists x; split; try exact K; now apply (unknown_tail records a acts x i0 F).
      * rewrite C. split; intros (x & H & K); exists x; split; try exact K; now apply (unknown_tail records a acts x i0 F).
    + assert (N : forall i, ~ issue_of records a i). { intros i H. apply find_issue_spec in H. congruence. }
      destruct (act_show_cases a) as [[K [t E]]|[K E]]; rewrite E; cbn [obind]; (split; [discriminate|]).
      * split; [|split; [discriminate|]].
        -- split; [|reflexivity]. intros _. exists a. split; [now apply unknown_here|exact K].
        -- intros (x & H & K'). apply (unknown_here _ _ _ _ N) in H. subst x. contradiction.
      * split; [split; [discriminate|]|].
        -- intros (x & H & K'). apply (unknown_here _ _ _ _ N) in H. subst x. contradiction.
        -- split; [|reflexivity]. intros _. exists a. split; [now apply unknown_here|exact K].
Qed.
Lemma get_issues_spec records acts :
  (forall r, get_issues records acts = Ok r ->
     increasing r /\ (forall a, In a acts -> exists i, issue_of records a i) /\
     forall i, In i r <-> exists a, In a acts /\ issue_of records a i) /\
  (get_issues records acts = Err <-> exists a, first_unknown records acts a /\ has_name a) /\
  (get_issues records acts = Panic <-> exists a, first_unknown records acts a /\ ~ has_name a).
Proof.
  destruct (get_issues_loop_spec records acts [] inc_nil) as (A & B & C). split; [|split; assumption].
  intros r H. destruct (A r H) as (A1 & A2 & A3). split; [exact A1|]. split; [exact A2|]. intros i. rewrite A3. cbn. tauto.
Qed.
