(** Proofs about the delimiters of acts, the cover page, act headers and the spelled-out numbers. *)
From Verif Require Export ProofMk2.
From Coq Require Import Lia.

Theorem c41_spelled : hun_strs = map lit ordinal_words.
Proof. vm_compute. reflexivity. Qed.
Theorem c41_words n : num_to_hungarian n = ok_or (nth_error (map lit ordinal_words) (N.to_nat n)).
Proof. unfold num_to_hungarian. now rewrite c41_spelled. Qed.

Theorem c27_signature l : is_sign l = true <-> signature (content l).
Proof. rewrite is_sign_spec. unfold sign_lines, signature. cbn [map In]. intuition congruence. Qed.
Theorem c27_section_start l : is_section_start l = true <-> l_bold l = true /\ content l = lit "II. Törvények".
Proof. unfold is_section_start. now rewrite andb_true_iff, str_eqb_eq. Qed.
Theorem c27_section_end l : is_section_end l = true <-> l_bold l = true /\ section_heading (content l).
Proof.
  unfold is_section_end, section_stops, section_heading, begins. rewrite andb_true_iff. cbn [map existsb].
  rewrite !orb_true_iff, !starts_with_spec.
  repeat match goal with |- context [exists r, content l = ?p ++ r] => generalize (exists r, content l = p ++ r); intro end.
  intuition discriminate.
Qed.
Theorem c27_cover ud page d : cover_page ud page = Ok d <->
  exists l0 l1 l2 l3 rest, page = l0 :: l1 :: l2 :: l3 :: rest /\ begins (lit "MAGYAR KÖZLÖNY") (content l0) /\
    date_from_hungarian ud (content l3) = Ok d.
Proof.
  unfold cover_page. split.
  - destruct page as [|l0 [|l1 [|l2 [|l3 rest]]]]; try discriminate. cbn [List.length Nat.leb ensure obind].
    destruct (starts_with (lit "MAGYAR KÖZLÖNY") (content l0)) eqn:E; [|discriminate]. cbn [ensure obind]. intros H.
    exists l0, l1, l2, l3, rest. apply starts_with_spec in E. auto.
  - intros (l0 & l1 & l2 & l3 & rest & -> & B & H). cbn [List.length Nat.leb ensure obind].
    apply starts_with_spec in B. rewrite B. exact H.
Qed.
Theorem c27_cover_total ud page : cover_page ud page <> Panic.
Proof.
  unfold cover_page. destruct page as [|l0 [|l1 [|l2 [|l3 rest]]]]; try discriminate. cbn [List.length Nat.leb ensure obind].
  destruct (starts_with _ _); [|discriminate]. apply date_not_panic.
Qed.

(** ** Headers *)
Definition run_at (s : str) (j : nat) : Prop :=
  exists c rest, skipn j s = c :: torveny ++ rest /\ c <> 10%N.
Lemma roman_run_some k s n : roman_run k s = Some n <->
  exists j, (1 <= j <= k)%nat /\ run_at s j /\ n = firstn j s /\ forall i, (j < i <= k)%nat -> ~ run_at s i.
Proof.
  induction k as [|k IH].
  - cbn. split; [discriminate|]. intros (j & ? & _). lia.
  - cbn [roman_run]. assert (D : (exists c rest, skipn (S k) s = c :: rest /\ any_char c && starts_with torveny rest = true) <-> run_at s (S k)).
    { unfold run_at, any_char. split.
      - intros (c & rest & E & H). apply andb_prop in H as [H1 H2]. apply starts_with_spec in H2 as [r ->]. exists c, r. split; [exact E|].
        apply negb_true_iff, N.eqb_neq in H1. exact H1.
      - intros (c & rest & E & H). exists c, (torveny ++ rest). split; [exact E|]. apply andb_true_intro. split.
        + apply negb_true_iff, N.eqb_neq. exact H.
        + apply starts_with_spec. eauto. }
    assert (No : ~ run_at s (S k) -> (roman_run k s = Some n <->
       exists j, (1 <= j <= S k)%nat /\ run_at s j /\ n = firstn j s /\ forall i, (j < i <= S k)%nat -> ~ run_at s i)).
    { intros X. rewrite IH. split.
      - intros (j & L & R & E & M). exists j. split; [lia|]. split; [exact R|]. split; [exact E|]. intros i Li.
        destruct (Nat.eq_dec i (S k)) as [->|]; [exact X|apply M; lia].
      - intros (j & L & R & E & M). assert (j <> S k) by (intros ->; exact (X R)). exists j. split; [lia|]. split; [exact R|]. split; [exact E|].
        intros i Li. apply M. lia. }
    destruct (skipn (S k) s) as [|c rest] eqn:Ek.
    + apply No. intros R. apply D in R as (c & rest & E & _). discriminate.
    + destruct (any_char c && starts_with torveny rest) eqn:Et.
      * assert (R : run_at s (S k)) by (apply D; eauto). split.
        -- intros [= <-]. exists (S k). split; [lia|]. split; [exact R|]. split; [reflexivity|]. intros; lia.
        -- intros (j & L & _ & E & M). destruct (Nat.eq_dec j (S k)) as [->|]; [now rewrite E|]. exfalso. apply (M (S k)); [lia|exact R].
      * apply No. intros R. apply D in R as (c' & rest' & E & H). injection E as <- <-. congruence.
Qed.
Lemma run_then s n : roman_then_torveny s n <->
  exists j, (1 <= j <= List.length (fst (span is_act_roman s)))%nat /\ run_at s j /\ n = firstn j s.
Proof.
  unfold roman_then_torveny, run_at. split.
  - intros (c & rest & -> & Nn & Hc & F). exists (List.length n).
    assert (L : (List.length n <= List.length (fst (span is_act_roman (n ++ c :: lit " törvény" ++ rest))))%nat).
    { clear Nn. induction n as [|x n IH]; [cbn; lia|]. inversion F; subst. cbn [app span].
      assert (X : is_act_roman x = true) by (unfold is_act_roman; apply existsb_exists; exists x; split; [assumption|apply N.eqb_refl]).
      rewrite X. destruct (span is_act_roman (n ++ c :: lit " törvény" ++ rest)). cbn in *. apply le_n_S, IH. assumption. }
    split; [destruct n; [congruence|cbn [List.length] in *; lia]|]. split.
    + exists c, rest. split; [|exact Hc]. rewrite skipn_app, skipn_all, Nat.sub_diag. reflexivity.
    + now rewrite firstn_app, firstn_all, Nat.sub_diag, app_nil_r.
  - intros (j & L & (c & rest & E & Hc) & ->). exists c, rest. split; [rewrite <- (firstn_skipn j s) at 1; now rewrite E|].
    split; [|split; [exact Hc|]].
    + destruct s; [rewrite skipn_nil in E; discriminate|]. destruct j; [lia|discriminate].
    + rewrite <- (span_app is_act_roman s), firstn_app.
      replace (j - List.length (fst (span is_act_roman s)))%nat with 0%nat by lia. cbn [firstn]. rewrite app_nil_r.
      pose proof (span_fst is_act_roman s) as F. rewrite forallb_forall in F. apply Forall_forall. intros d Hd.
      assert (X : In d (fst (span is_act_roman s))).
      { rewrite <- (firstn_skipn j (fst (span is_act_roman s))). apply in_or_app. now left. }
      apply F in X. unfold is_act_roman in X. apply existsb_exists in X as (y & Y & Ey). apply N.eqb_eq in Ey. now subst.
Qed.
Lemma match_roman_spec s n : match_roman s = Some n <->
  roman_then_torveny s n /\ (forall n', roman_then_torveny s n' -> (List.length n' <= List.length n)%nat).
Proof.
  unfold match_roman. rewrite roman_run_some. set (k := List.length (fst (span is_act_roman s))).
  assert (Ls : (k <= List.length s)%nat).
  { unfold k. rewrite <- (span_app is_act_roman s) at 2. rewrite app_length. lia. }
  split.
  - intros (j & L & R & -> & M). split; [apply run_then; eauto|]. intros n' H. apply run_then in H as (i & Li & Ri & ->).
    fold k in Li. rewrite !firstn_length_le by lia. destruct (le_lt_dec i j); [assumption|]. exfalso. apply (M i); [lia|exact Ri].
  - intros [H M]. apply run_then in H as (j & L & R & ->). fold k in L. exists j. split; [exact L|]. split; [exact R|]. split; [reflexivity|].
    intros i Li Ri. assert (X : roman_then_torveny s (firstn i s)) by (apply run_then; exists i; fold k; split; [lia|auto]).
    apply M in X. rewrite !firstn_length_le in X by lia. lia.
Qed.
Theorem c27_header s y n : match_act_header s = Some (y, n) <-> header_text s y n.
Proof.
  unfold match_act_header, header_text. split.
  - destruct s as [|a [|b [|c [|d [|p r]]]]]; try discriminate.
    destruct (((a =? 49) || (a =? 50))%N && ((b =? 48) || (b =? 57))%N && is_digit c && is_digit d && any_char p) eqn:E; [|discriminate].
    rewrite !andb_true_iff, !orb_true_iff, !N.eqb_eq in E. unfold is_digit, any_char in E.
    rewrite !andb_true_iff, !N.leb_le, negb_true_iff, N.eqb_neq in E.
    destruct (strip_prefix (lit " évi ") r) as [r'|] eqn:Er; [|discriminate]. apply strip_prefix_some in Er. subst r.
    destruct (match_roman r') as [m|] eqn:Em; [|discriminate]. intros [= <- <-]. apply match_roman_spec in Em.
    exists a, b, c, d, p, r'. change (chr "1") with 49%N. change (chr "2") with 50%N. change (chr "0") with 48%N. change (chr "9") with 57%N.
    split; [reflexivity|]. tauto.
  - intros (a & b & c & d & p & r & -> & -> & A & B & C & D & P & R).
    change ([a; b; c; d; p] ++ lit " évi " ++ r) with (a :: b :: c :: d :: p :: (lit " évi " ++ r)). cbv beta iota.
    change (chr "1") with 49%N in A. change (chr "2") with 50%N in A. change (chr "0") with 48%N in B. change (chr "9") with 57%N in B.
    assert (E : ((a =? 49) || (a =? 50))%N && ((b =? 48) || (b =? 57))%N && is_digit c && is_digit d && any_char p = true).
    { rewrite !andb_true_iff, !orb_true_iff, !N.eqb_eq. unfold is_digit, any_char.
      rewrite !andb_true_iff, !N.leb_le, negb_true_iff, N.eqb_neq. tauto. }
    rewrite E, strip_prefix_app. apply match_roman_spec in R. now rewrite R.
Qed.
Lemma cons_inj {A} (x y : A) l m : x :: l = y :: m -> x = y /\ l = m.
Proof. intros H. injection H as -> ->. auto. Qed.
Lemma match_roman_exists s : is_some (match_roman s) = true <-> exists n, roman_then_torveny s n.
Proof.
  split.
  - destruct (match_roman s) as [n|] eqn:E; [|discriminate]. intros _. apply match_roman_spec in E. exists n. tauto.
  - intros [n H]. assert (X : exists m, match_roman s = Some m).
    { apply run_then in H as (j & L & R & _). unfold match_roman. revert L. generalize (List.length (fst (span is_act_roman s))). intros k L.
      destruct (roman_run k s) as [m|] eqn:E; [eauto|]. exfalso. revert R L E. clear. revert j. induction k as [|k IH]; intros j R L E; [lia|]. cbn [roman_run] in E.
      destruct (Nat.eq_dec j (S k)) as [->|].
      - destruct R as (c & rest & Ek & Hc). rewrite Ek in E. unfold any_char in E. apply N.eqb_neq in Hc. rewrite Hc in E.
        assert (S1 : starts_with torveny (torveny ++ rest) = true) by (apply starts_with_spec; eauto). rewrite S1 in E. discriminate.
      - apply (IH j R); [lia|]. destruct (skipn (S k) s) as [|c rest]; [exact E|]. destruct (any_char c && starts_with torveny rest); [discriminate|exact E]. }
    destruct X as [m ->]. reflexivity.
Qed.
Theorem c27_title s : has_act_title s = true <-> titled s.
Proof.
  unfold titled. induction s as [|x s IH].
  - split; [discriminate|]. intros ([|] & ? & ? & ? & ? & H & _); discriminate.
  - cbn [has_act_title]. rewrite orb_true_iff, IH, andb_true_iff. unfold is_digit. rewrite andb_true_iff, !N.leb_le. split.
    + intros [[D H]|(pre & d & c & r & n & -> & H)].
      * destruct s as [|c rest]; [discriminate|]. apply andb_prop in H as [C H]. destruct (strip_prefix (lit " évi ") rest) as [r|] eqn:E; [|discriminate].
        apply strip_prefix_some in E. subst rest. apply match_roman_exists in H as [n H]. exists [], x, c, r, n.
        split; [reflexivity|]. split; [exact D|]. split; [|exact H]. unfold any_char in C. apply negb_true_iff, N.eqb_neq in C. exact C.
      * exists (x :: pre), d, c, r, n. split; [reflexivity|exact H].
    + intros ([|y pre] & d & c & r & n & E & D & C & R).
      * change ([] ++ [d; c] ++ lit " évi " ++ r) with (d :: ([c] ++ lit " évi " ++ r)) in E. apply cons_inj in E as [-> E]. change ([c] ++ lit " évi " ++ r) with (c :: (lit " évi " ++ r)) in E. subst s. left. split; [exact D|]. rewrite strip_prefix_app. unfold any_char. apply N.eqb_neq in C. rewrite C.
        cbn [negb andb]. apply match_roman_exists. eauto.
      * apply cons_inj in E as [_ ->]. right. exists pre, d, c, r, n. auto.
Qed.
Theorem c27_header_id rf l id : act_header rf l = Some id <->
  exists y n k, header_text (content l) y n /\ parse_i16 y = Ok (act_year id) /\ rf n = Some k /\ k = act_number id.
Proof.
  unfold act_header. split.
  - destruct (match_act_header (content l)) as [[y n]|] eqn:E; [|discriminate]. apply c27_header in E.
    destruct (parse_i16 y) as [y'| |] eqn:Ey; try discriminate. destruct (rf n) as [k|] eqn:En; [|discriminate]. intros [= <-].
    exists y, n, k. auto.
  - intros (y & n & k & H & Y & R & ->). apply c27_header in H. rewrite H, Y, R. now destruct id.
Qed.
