(** Proofs for the abbreviation cache and the lookup of abbreviations in text (C36, C51). *)
From Verif Require Export SpecSem ProofBase ProofIdent.

Lemma str_cmp_spec a b : match str_cmp a b with Lt => str_lt a b | Eq => a = b | Gt => str_lt b a end.
Proof.
  revert b. induction a as [|x a IH]; intros [|y b]; cbn; try constructor.
  destruct (N.compare_spec x y) as [E|L|L]; cbn; [|now constructor|now constructor].
  subst. specialize (IH b). destruct (str_cmp a b); subst; auto using lt_tail.
Qed.
Lemma str_lt_irrefl a : ~ str_lt a a.
Proof. intros H. remember a as b eqn:E in H at 2. revert E. induction H; intros E; inversion E; subst; [lia|auto]. Qed.
Lemma str_lt_trans a b c : str_lt a b -> str_lt b c -> str_lt a c.
Proof.
  intros H. revert c. induction H; intros z K; inversion K; subst; constructor; auto; lia.
Qed.
Lemma str_lt_asym a b : str_lt a b -> str_lt b a -> False.
Proof. intros H K. exact (str_lt_irrefl a (str_lt_trans _ _ _ H K)). Qed.

Lemma str_eqb_spec a b : reflect (a = b) (str_eqb a b).
Proof. apply iff_reflect. symmetry. apply str_eqb_eq. Qed.

Lemma map_get_set {V} k (v : V) m k' : map_get k' (map_set k v m) = if str_eqb k' k then Some v else map_get k' m.
Proof.
  induction m as [|[j w] m IH]; cbn; [reflexivity|].
  pose proof (str_cmp_spec k j) as C. destruct (str_cmp k j).
  - subst j. cbn. destruct (str_eqb_spec k' k); reflexivity.
  - cbn. destruct (str_eqb_spec k' k); reflexivity.
  - cbn. rewrite IH. destruct (str_eqb_spec k' j) as [E|E]; [|reflexivity].
    destruct (str_eqb_spec k' k) as [F|F]; [|reflexivity]. subst. now apply str_lt_irrefl in C.
Qed.
Lemma map_set_keys {V} k (v : V) m x : In x (map fst (map_set k v m)) -> x = k \/ In x (map fst m).
Proof.
  induction m as [|[j w] m IH]; cbn; [intuition|].
  pose proof (str_cmp_spec k j) as C. destruct (str_cmp k j); cbn; intuition (subst; auto).
Qed.
Lemma map_set_is_map {V} k (v : V) m : is_map m -> is_map (map_set k v m).
Proof.
  unfold is_map, ascending. induction m as [|[j w] m IH]; cbn; intros H; [repeat constructor|].
  pose proof (str_cmp_spec k j) as C. inversion H as [|? ? H1 H2]; subst. destruct (str_cmp k j).
  - subst. constructor; auto.
  - constructor; [exact H|]. constructor; [exact C|]. eapply Forall_impl; [|exact H2]. intros x L. exact (str_lt_trans _ _ _ C L).
  - constructor; [auto|]. apply Forall_forall. intros x Hx. apply map_set_keys in Hx.
    destruct Hx as [->|Hx]; [exact C|]. rewrite Forall_forall in H2. auto.
Qed.
Lemma map_get_in {V} k (m : list (str * V)) v : map_get k m = Some v -> In k (map fst m).
Proof.
  induction m as [|[j w] m IH]; cbn; [discriminate|]. destruct (str_eqb_spec k j); [left; auto|right; auto].
Qed.
(** Maps with the same values are the same lists. *)
Lemma map_ext {V} (m m' : list (str * V)) : is_map m -> is_map m' -> (forall k, map_get k m = map_get k m') -> m = m'.
Proof.
  unfold is_map, ascending. revert m'. induction m as [|[j w] m IH]; intros [|[j' w'] m'] H H' E.
  - reflexivity.
  - specialize (E j'). cbn in E. destruct (str_eqb_spec j' j'); congruence.
  - specialize (E j). cbn in E. destruct (str_eqb_spec j j); congruence.
  - cbn in H, H'. inversion H as [|? ? H1 H2]; inversion H' as [|? ? H1' H2']; subst.
    rewrite Forall_forall in H2, H2'.
    assert (J : j = j').
    { pose proof (E j) as E1. pose proof (E j') as E2. cbn in E1, E2.
      destruct (str_eqb_spec j j); [|congruence]. destruct (str_eqb_spec j' j'); [|congruence].
      destruct (str_eqb_spec j j'); [assumption|]. destruct (str_eqb_spec j' j); [congruence|].
      symmetry in E1. apply map_get_in in E1, E2. apply H2' in E1. apply H2 in E2. destruct (str_lt_asym _ _ E1 E2). }
    subst j'.
    assert (W : w = w'). { specialize (E j). cbn in E. destruct (str_eqb_spec j j); congruence. }
    subst w'. f_equal. apply IH; auto. intros k. specialize (E k). cbn in E.
    destruct (str_eqb_spec k j) as [J|]; [|exact E]. subst k.
    destruct (map_get j m) eqn:G; [apply map_get_in in G; apply H2 in G; now apply str_lt_irrefl in G|].
    destruct (map_get j m') eqn:G'; [apply map_get_in in G'; apply H2' in G'; now apply str_lt_irrefl in G'|]. reflexivity.
Qed.

Lemma act_eqb_eq a b : act_eqb a b = true <-> a = b.
Proof.
  destruct a as [y n], b as [y' n']. unfold act_eqb. cbn. rewrite Bool.andb_true_iff, !Z.eqb_eq. split; [intros [-> ->]; auto|intros E; inversion E; auto].
Qed.
Lemma cache_add_get k a c k' : map_get k' (ca_map (cache_add k a c)) = if str_eqb k' k then Some a else map_get k' (ca_map c).
Proof.
  unfold cache_add. destruct (map_get k (ca_map c)) as [v|] eqn:G; [|apply map_get_set].
  destruct (act_eqb v a) eqn:E; [|apply map_get_set]. apply act_eqb_eq in E. subst.
  destruct (str_eqb_spec k' k); subst; auto.
Qed.
Lemma cache_add_is_map k a c : is_map (ca_map c) -> is_map (ca_map (cache_add k a c)).
Proof.
  intros H. unfold cache_add. destruct (map_get k (ca_map c)) as [v|]; [destruct (act_eqb v a)|]; cbn; auto using map_set_is_map.
Qed.
Lemma add_multiple_get l c k : map_get k (ca_map (cache_add_multiple l c)) = value_after (ca_map c) l k.
Proof.
  unfold value_after. revert c. induction l as [|[j a] l IH]; intros c; [reflexivity|].
  cbn [last_write]. change (cache_add_multiple ((j, a) :: l) c) with (cache_add_multiple l (cache_add j a c)).
  rewrite IH, cache_add_get. destruct (last_write k l); [reflexivity|]. destruct (str_eqb k j); reflexivity.
Qed.
Lemma add_multiple_is_map l c : is_map (ca_map c) -> is_map (ca_map (cache_add_multiple l c)).
Proof. revert c. induction l as [|[j a] l IH]; intros c H; [exact H|]. apply IH, cache_add_is_map, H. Qed.
Lemma add_multiple_app l l' c : cache_add_multiple (l ++ l') c = cache_add_multiple l' (cache_add_multiple l c).
Proof. apply fold_left_app. Qed.
(** C36 *)
Lemma c36_resolve m l k : cache_resolve (cache_add_multiple l (cache_from m)) k = ok_or (value_after m l k).
Proof. unfold cache_resolve. now rewrite add_multiple_get. Qed.
Lemma cache_add_changed k a c : ca_changed (cache_add k a c) = true <-> ca_changed c = true \/ map_get k (ca_map c) <> Some a.
Proof.
  unfold cache_add. destruct (map_get k (ca_map c)) as [v|] eqn:G.
  - destruct (act_eqb v a) eqn:E.
    + apply act_eqb_eq in E. subst. intuition congruence.
    + cbn. split; [|auto]. intros _. right. intros F. injection F as ->. assert (act_eqb a a = true) by now apply act_eqb_eq. congruence.
  - cbn. intuition congruence.
Qed.
Lemma c36_changed m l : ca_changed (cache_add_multiple l (cache_from m)) = true <->
  exists l1 k a l2, l = l1 ++ (k, a) :: l2 /\ value_after m l1 k <> Some a.
Proof.
  induction l as [|[k a] l IH] using rev_ind.
  - cbn. split; [discriminate|]. intros (l1 & k & a & l2 & E & _). destruct l1; discriminate.
  - rewrite add_multiple_app. cbn. rewrite cache_add_changed, IH, add_multiple_get. cbn. split.
    + intros [(l1 & j & b & l2 & -> & N)|N].
      * exists l1, j, b, (l2 ++ [(k, a)]). split; [now rewrite <- app_assoc|exact N].
      * exists l, k, a, []. auto.
    + intros (l1 & j & b & l2 & E & N). destruct l2 as [|p l2] using rev_ind.
      * apply app_inj_tail in E. destruct E as [-> E]. injection E as -> ->. auto.
      * change ((j, b) :: l2 ++ [p]) with (((j, b) :: l2) ++ [p]) in E. rewrite app_assoc in E. apply app_inj_tail in E.
        destruct E as [-> _]. left. exists l1, j, b, l2. auto.
Qed.
Lemma last_write_app l l' k : last_write k (l ++ l') = match last_write k l' with Some a => Some a | None => last_write k l end.
Proof.
  induction l as [|[j a] l IH]; cbn; [destruct (last_write k l'); reflexivity|]. rewrite IH. destruct (last_write k l'); reflexivity.
Qed.
Lemma value_after_app m l l' k : value_after m (l ++ l') k = match last_write k l' with Some a => Some a | None => value_after m l k end.
Proof. unfold value_after. rewrite last_write_app. destruct (last_write k l'); reflexivity. Qed.
Lemma c36_twice m l : is_map m ->
  ca_map (cache_add_multiple l (cache_add_multiple l (cache_from m))) = ca_map (cache_add_multiple l (cache_from m)).
Proof.
  intros H. apply map_ext; try (repeat apply add_multiple_is_map; exact H).
  intros k. rewrite <- add_multiple_app, !add_multiple_get. cbn. rewrite value_after_app. unfold value_after. destruct (last_write k l); reflexivity.
Qed.
(** If nothing is reported, nothing has changed. *)
Lemma unchanged_map l c : ca_changed (cache_add_multiple l c) = false -> ca_map (cache_add_multiple l c) = ca_map c /\ ca_changed c = false.
Proof.
  revert c. induction l as [|[k a] l IH]; intros c H; [auto|].
  change (cache_add_multiple ((k, a) :: l) c) with (cache_add_multiple l (cache_add k a c)) in *.
  apply IH in H. destruct H as [E F]. rewrite E. unfold cache_add in *.
  destruct (map_get k (ca_map c)) as [v|]; [destruct (act_eqb v a)|]; auto; discriminate.
Qed.
Lemma map_of_get {V} (l : list (str * V)) k : map_get k (map_of l) = map_get k (rev l).
Proof.
  unfold map_of. rewrite <- fold_left_rev_right. induction (rev l) as [|[j v] r IH]; cbn; [reflexivity|].
  rewrite map_get_set, IH. reflexivity.
Qed.
Lemma map_of_is_map {V} (l : list (str * V)) : is_map (map_of l).
Proof.
  unfold map_of. rewrite <- fold_left_rev_right. induction (rev l) as [|[j v] r IH]; cbn; [constructor|]. now apply map_set_is_map.
Qed.
(** C51 *)
Lemma is_prefix_spec k s : starts_with k s = true <-> is_prefix k s.
Proof. apply starts_with_spec. Qed.
Lemma parse_abbreviation_spec known s k : parse_abbreviation known s = Some k <->
  exists a b, known = a ++ k :: b /\ is_prefix k s /\ Forall (fun j => ~ is_prefix j s) a.
Proof.
  induction known as [|j known IH]; cbn.
  - split; [discriminate|]. intros (a & b & E & _). destruct a; discriminate.
  - destruct (starts_with j s) eqn:S.
    + apply is_prefix_spec in S. split.
      * intros E. injection E as <-. exists [], known. auto.
      * intros (a & b & E & P & F). destruct a as [|x a]; injection E as <- E; [reflexivity|]. inversion F; subst. tauto.
    + assert (~ is_prefix j s) by (intros P; apply is_prefix_spec in P; congruence). rewrite IH. split.
      * intros (a & b & -> & P & F). exists (j :: a), b. auto.
      * intros (a & b & E & P & F). destruct a as [|x a]; injection E as <- E; [tauto|]. inversion F; subst. exists a, b. auto.
Qed.
Lemma parse_abbreviation_none known s : parse_abbreviation known s = None <-> Forall (fun j => ~ is_prefix j s) known.
Proof.
  induction known as [|j known IH]; cbn; [split; [constructor|reflexivity]|].
  destruct (starts_with j s) eqn:S.
  - apply is_prefix_spec in S. split; [discriminate|]. intros F. inversion F; tauto.
  - assert (~ is_prefix j s) by (intros P; apply is_prefix_spec in P; congruence). rewrite IH. split; intros F; [auto|now inversion F].
Qed.
Lemma prefixes_compare k j s : is_prefix k s -> is_prefix j s -> (List.length k <= List.length j)%nat -> is_prefix k j.
Proof.
  intros [r ->] [q E] L. revert j q E L. induction k as [|c k IH]; intros j q E L; [now exists j|].
  destruct j as [|d j]; cbn in *; [lia|]. injection E as <- E. apply IH in E; [|lia]. destruct E as [t ->]. now exists t.
Qed.
Lemma c51_unique known s k : parse_abbreviation known s = Some k ->
  (forall i j, In i known -> In j known -> is_prefix i j -> i = j) ->
  forall j, In j known -> is_prefix j s -> j = k.
Proof.
  intros H U j Hj P. apply parse_abbreviation_spec in H. destruct H as (a & b & E & Pk & _).
  assert (In k known) by (subst; apply in_or_app; right; left; reflexivity).
  destruct (Nat.le_ge_cases (List.length k) (List.length j)) as [L|L].
  - symmetry. apply U; auto. now apply prefixes_compare with s.
  - apply U; auto. now apply prefixes_compare with s.
Qed.
Lemma prefix_not_lt k j : is_prefix k j -> str_lt j k -> False.
Proof.
  intros [r ->] H. induction k as [|c k IH]; cbn in H; inversion H; subst; [lia|auto].
Qed.
Lemma c51_shortest (m : list (str * act_id)) s k : is_map m -> parse_abbreviation (map fst m) s = Some k ->
  forall j, In j (map fst m) -> is_prefix j s -> is_prefix k j.
Proof.
  intros M H j Hj P. apply parse_abbreviation_spec in H. destruct H as (a & b & E & Pk & F).
  unfold is_map, ascending in M. rewrite E in *.
  destruct (Nat.le_ge_cases (List.length k) (List.length j)) as [L|L]; [now apply prefixes_compare with s|].
  assert (Q : is_prefix j k) by (now apply prefixes_compare with s).
  apply in_app_or in Hj. destruct Hj as [Hj|[<-|Hj]].
  - rewrite Forall_forall in F. now apply F in Hj.
  - now exists []; rewrite app_nil_r.
  - exfalso. assert (K : str_lt k j).
    { clear - M Hj. induction a as [|x a IH]; cbn in M; inversion M as [|? ? M1 M2]; subst; auto.
      rewrite Forall_forall in M2. auto. }
    exact (prefix_not_lt _ _ Q K).
Qed.
