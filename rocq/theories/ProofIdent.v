(** Lemmas about identifiers. *)
From Verif Require Export ProofBase SpecIdent.

(** Evaluate closed character and string literals in the goal / hypotheses. *)
Ltac norm_lit :=
  repeat match goal with
  | |- context [chr ?s] => let v := eval vm_compute in (chr s) in change (chr s) with v
  | H : context [chr ?s] |- _ => let v := eval vm_compute in (chr s) in change (chr s) with v in H
  | |- context [lit ?s] => let v := eval vm_compute in (lit s) in change (lit s) with v
  | H : context [lit ?s] |- _ => let v := eval vm_compute in (lit s) in change (lit s) with v in H
  end.

(** ** Equality tests *)
Lemma hic_eqb_eq x y : hic_eqb x y = true <-> x = y.
Proof.
  destruct x, y; cbn; try (split; congruence). rewrite N.eqb_eq. split; congruence.
Qed.
Lemma opt_eqb_eq {A} (eqb : A -> A -> bool) :
  (forall x y, eqb x y = true <-> x = y) -> forall x y, opt_eqb eqb x y = true <-> x = y.
Proof.
  intros H [x|] [y|]; cbn; try (split; congruence). rewrite H. split; congruence.
Qed.
Lemma numeric_eqb_eq x y : numeric_eqb x y = true <-> x = y.
Proof.
  unfold numeric_eqb. rewrite andb_true_iff, N.eqb_eq, (opt_eqb_eq _ hic_eqb_eq).
  destruct x, y; cbn. split; [intros []; congruence | intros H; injection H; auto].
Qed.
Lemma article_eqb_eq x y : article_eqb x y = true <-> x = y.
Proof.
  unfold article_eqb. rewrite andb_true_iff, numeric_eqb_eq, (opt_eqb_eq _ N.eqb_eq).
  destruct x, y; cbn. split; [intros []; congruence | intros H; injection H; auto].
Qed.
Lemma paragraph_eqb_eq x y : paragraph_eqb x y = true <-> x = y.
Proof. apply (opt_eqb_eq _ numeric_eqb_eq). Qed.
Lemma prefixed_eqb_eq x y : prefixed_eqb x y = true <-> x = y.
Proof.
  unfold prefixed_eqb. rewrite andb_true_iff, hic_eqb_eq, (opt_eqb_eq _ hic_eqb_eq).
  destruct x, y; cbn. split; [intros []; congruence | intros H; injection H; auto].
Qed.
Lemma act_eqb_eq x y : act_eqb x y = true <-> x = y.
Proof.
  unfold act_eqb. rewrite andb_true_iff, !Z.eqb_eq.
  destruct x, y; cbn. split; [intros []; congruence | intros H; injection H; auto].
Qed.

(** ** Total orders *)
Lemma ord_helper_inj x y : ord_helper x = ord_helper y -> x = y.
Proof. destruct x, y; cbn [ord_helper]; norm_lit; intros H; try reflexivity; try (exfalso; lia).
  f_equal; lia. Qed.
Lemma hic_total : TotalOrd hic_cmp.
Proof. apply (key_total ord_helper N.compare ord_helper_inj N_total). Qed.
Lemma numeric_total : TotalOrd numeric_cmp.
Proof.
  apply (lex_total n_num n_suffix N.compare (opt_cmp hic_cmp)).
  - intros [] []; cbn; congruence.
  - apply N_total.
  - apply opt_total, hic_total.
Qed.
Lemma article_total : TotalOrd article_cmp.
Proof.
  apply (lex_total a_book a_ident (opt_cmp N.compare) numeric_cmp).
  - intros [] []; cbn; congruence.
  - apply opt_total, N_total.
  - apply numeric_total.
Qed.
Lemma paragraph_total : TotalOrd paragraph_cmp.
Proof. apply opt_total, numeric_total. Qed.
Lemma prefixed_total : TotalOrd prefixed_cmp.
Proof.
  apply (lex_total p_prefix p_chr (opt_cmp hic_cmp) hic_cmp).
  - intros [] []; cbn; congruence.
  - apply opt_total, hic_total.
  - apply hic_total.
Qed.
Lemma act_total : TotalOrd act_cmp.
Proof.
  apply (lex_total act_year act_number Z.compare Z.compare).
  - intros [] []; cbn; congruence.
  - apply Z_total.
  - apply Z_total.
Qed.

(** ** The alphabet *)
Definition hic_dec (x y : hic) : {x = y} + {x <> y}.
Proof. decide equality. apply N.eq_dec. Defined.
Lemma hic_ok_In x : hic_ok x = true <-> In x alphabet.
Proof.
  split.
  - destruct x as [b| | | | | | | |]; try (intros _; cbn; tauto).
    cbn [hic_ok]. intros H.
    assert (Hb : b = Z.to_N (97 + (Z.of_N b - 97))) by lia.
    assert (exists k, (k <= 25)%N /\ b = (97 + k)%N) as [k [Hk ->]] by (exists (b - 97)%N; lia).
    clear -Hk.
    assert (Hin : In k (map N.of_nat (seq 0 26))).
    { apply in_map_iff. exists (N.to_nat k). split; [lia|]. apply in_seq. lia. }
    revert k Hk Hin.
    assert (G : forallb (fun k => existsb (hic_eqb (Latin (97 + k))) alphabet) (map N.of_nat (seq 0 26)) = true)
      by (vm_compute; reflexivity).
    intros k _ Hin. rewrite forallb_forall in G. specialize (G k Hin).
    apply existsb_exists in G as [y [Hy E]]. apply hic_eqb_eq in E. now rewrite E.
  - intros H. assert (G : forallb hic_ok alphabet = true) by (vm_compute; reflexivity).
    rewrite forallb_forall in G. now apply G.
Qed.

(** All splits l = l1 ++ y :: l2 ++ x :: l3 as a computable list of (y, l2, x). *)
Fixpoint pairs_from {A} (y : A) (l2 l : list A) : list (A * list A * A) :=
  match l with [] => [] | x :: l' => (y, l2, x) :: pairs_from y (l2 ++ [x]) l' end.
Fixpoint all_pairs {A} (l : list A) : list (A * list A * A) :=
  match l with [] => [] | y :: l' => pairs_from y [] l' ++ all_pairs l' end.
Lemma pairs_from_spec {A} (y : A) l2 l t m x :
  In (t, m, x) (pairs_from y l2 l) <-> t = y /\ exists m' l3, m = l2 ++ m' /\ l = m' ++ x :: l3.
Proof.
  revert l2; induction l as [|a l IH]; intros l2; cbn [pairs_from In].
  - split; [tauto|]. intros [_ [m' [l3 [_ H]]]]. destruct m'; discriminate.
  - rewrite IH. split.
    + intros [H|[-> [m' [l3 [-> ->]]]]].
      * injection H as <- <- <-. split; [reflexivity|]. exists [], l. now rewrite app_nil_r.
      * split; [reflexivity|]. exists (a :: m'), l3. now rewrite <- app_assoc.
    + intros [-> [m' [l3 [-> H]]]]. destruct m' as [|b m']; cbn in H; injection H as -> ->.
      * left. now rewrite app_nil_r.
      * right. split; [reflexivity|]. exists m', l3. now rewrite <- app_assoc.
Qed.
Lemma all_pairs_spec {A} (l : list A) y m x :
  In (y, m, x) (all_pairs l) <-> exists l1 l3, l = l1 ++ y :: m ++ x :: l3.
Proof.
  induction l as [|a l IH]; cbn [all_pairs].
  - split; [intros []|]. intros [l1 [l3 H]]. destruct l1; discriminate.
  - rewrite in_app_iff, IH, pairs_from_spec. split.
    + intros [[-> [m' [l3 [-> ->]]]] | [l1 [l3 ->]]].
      * exists [], l3. reflexivity.
      * exists (a :: l1), l3. reflexivity.
    + intros [l1 [l3 H]]. destruct l1 as [|b l1]; cbn in H; injection H as -> ->.
      * left. split; [reflexivity|]. exists m, l3. auto.
      * right. exists l1, l3. reflexivity.
Qed.
Lemma before_iff y x : before y x <-> exists m, In (y, m, x) (all_pairs alphabet).
Proof.
  unfold before. split.
  - intros [l1 [l2 [l3 H]]]. exists l2. apply all_pairs_spec. eauto.
  - intros [m H]. apply all_pairs_spec in H as [l1 [l3 H]]. eauto.
Qed.
Lemma follows_iff x y :
  follows x y <-> exists m, In (y, m, x) (all_pairs alphabet) /\ Forall (fun c => In c optional_letters) m.
Proof.
  unfold follows. split.
  - intros [l1 [l2 [l3 [H F]]]]. exists l2. split; [apply all_pairs_spec; eauto | exact F].
  - intros [m [H F]]. apply all_pairs_spec in H as [l1 [l3 H]]. eauto 6.
Qed.

Definition sweep (f : hic -> hic -> bool) : bool :=
  forallb (fun x => forallb (f x) alphabet) alphabet.
Lemma sweep_spec f : sweep f = true -> forall x y, hic_ok x = true -> hic_ok y = true -> f x y = true.
Proof.
  unfold sweep. intros H x y Hx Hy. apply hic_ok_In in Hx, Hy.
  rewrite forallb_forall in H. specialize (H x Hx). rewrite forallb_forall in H. now apply H.
Qed.
Definition beforeb (y x : hic) : bool :=
  existsb (fun '(a, _, b) => hic_eqb a y && hic_eqb b x) (all_pairs alphabet).
Definition followsb (x y : hic) : bool :=
  existsb (fun '(a, m, b) => hic_eqb a y && hic_eqb b x &&
     forallb (fun c => existsb (hic_eqb c) optional_letters) m) (all_pairs alphabet).
Lemma beforeb_spec y x : beforeb y x = true <-> before y x.
Proof.
  rewrite before_iff. unfold beforeb. rewrite existsb_exists. split.
  - intros [[[a m] b] [Hin H]]. apply andb_prop in H as [H1 H2].
    apply hic_eqb_eq in H1, H2. subst. eauto.
  - intros [m Hin]. exists (y, m, x). split; [exact Hin|].
    rewrite !(proj2 (hic_eqb_eq _ _) eq_refl). reflexivity.
Qed.
Lemma followsb_spec x y : followsb x y = true <-> follows x y.
Proof.
  rewrite follows_iff. unfold followsb. rewrite existsb_exists. split.
  - intros [[[a m] b] [Hin H]]. apply andb_prop in H as [H F]. apply andb_prop in H as [H1 H2].
    apply hic_eqb_eq in H1, H2. subst. exists m. split; [exact Hin|].
    apply Forall_forall. intros c Hc. rewrite forallb_forall in F. specialize (F c Hc).
    apply existsb_exists in F as [d [Hd E]]. apply hic_eqb_eq in E. now subst.
  - intros [m [Hin F]]. exists (y, m, x). split; [exact Hin|].
    rewrite !(proj2 (hic_eqb_eq _ _) eq_refl). cbn [andb].
    apply forallb_forall. intros c Hc. rewrite Forall_forall in F. specialize (F c Hc).
    apply existsb_exists. exists c. split; [exact F|]. now apply hic_eqb_eq.
Qed.
Definition is_lt (c : comparison) : bool := match c with Lt => true | _ => false end.
Lemma hic_cmp_before x y : hic_ok x = true -> hic_ok y = true ->
  (hic_cmp x y = Lt <-> before x y).
Proof.
  intros Hx Hy. rewrite <- beforeb_spec.
  assert (G : sweep (fun x y => Bool.eqb (is_lt (hic_cmp x y)) (beforeb x y)) = true)
    by (vm_compute; reflexivity).
  pose proof (sweep_spec _ G x y Hx Hy) as E. cbv beta in E. apply eqb_prop in E. rewrite <- E.
  destruct (hic_cmp x y); cbn; split; congruence.
Qed.
Lemma hic_next_follows x y : hic_ok x = true -> hic_ok y = true ->
  (hic_next x y = true <-> follows x y).
Proof.
  intros Hx Hy. rewrite <- followsb_spec.
  assert (G : sweep (fun x y => Bool.eqb (hic_next x y) (followsb x y)) = true)
    by (vm_compute; reflexivity).
  pose proof (sweep_spec _ G x y Hx Hy) as E. cbv beta in E. apply eqb_prop in E. now rewrite E.
Qed.
Lemma hic_next_lt x y : hic_next x y = true -> hic_cmp y x = Lt.
Proof.
  unfold hic_cmp. rewrite N.compare_lt_iff.
  destruct x, y; cbn [hic_next ord_helper]; norm_lit; try discriminate; intros H; try lia.
  destruct ((b0 <? b) && (b - b0 =? 1))%N eqn:E; lia.
Qed.

(** ** Parsing and printing letters *)
Lemma hic_of_char_ok c x :
  hic_of_char c = Ok x <-> (97 <= ascii_lower c <= 122)%N /\ x = Latin (ascii_lower c).
Proof.
  unfold hic_of_char. norm_lit. destruct ((97 <=? ascii_lower c) && (ascii_lower c <=? 122))%N eqn:E.
  - split; [intros H; injection H as <-; split; [lia|reflexivity] | intros [_ ->]; reflexivity].
  - split; [discriminate|]. intros [H _]. lia.
Qed.
Lemma hic_of_char_not_panic c : hic_of_char c <> Panic.
Proof. unfold hic_of_char. destruct (_ && _); discriminate. Qed.
Lemma ascii_lower_range c : (97 <= ascii_lower c <= 122)%N <->
  (97 <= c <= 122)%N \/ (65 <= c <= 90)%N.
Proof. unfold ascii_lower. destruct ((65 <=? c) && (c <=? 90))%N eqn:E; lia. Qed.

Lemma assoc_In {A} s (l : list (str * A)) v : assoc_str s l = Some v -> In (s, v) l.
Proof.
  induction l as [|[k w] l IH]; cbn; [discriminate|].
  destruct (str_eqb k s) eqn:E; [|auto]. apply str_eqb_eq in E. intros H; injection H as ->. left; congruence.
Qed.
Lemma hic_parse_spelling s x : hic_parse s = Ok x <-> spelling s x.
Proof.
  unfold hic_parse. destruct (N.eqb_spec (utf8_len s) 1) as [E|E].
  - apply utf8_len_one in E as [c [-> Hc]]. cbn match. rewrite hic_of_char_ok, ascii_lower_range.
    unfold ascii_lower. split.
    + intros [[H|H] ->].
      * replace ((65 <=? c) && (c <=? 90))%N with false by lia. now constructor.
      * replace ((65 <=? c) && (c <=? 90))%N with true by lia.
        replace [c] with [(c + 32 - 32)%N] by (f_equal; lia). constructor. lia.
    + intros H. inversion H as [d Hd E1 E2|d Hd E1 E2|a b d s' Hin Hs E1 E2]; subst.
      * replace ((65 <=? c) && (c <=? 90))%N with false by lia. auto.
      * replace ((65 <=? d - 32) && (d - 32 <=? 90))%N with true by lia.
        split; [lia|]. f_equal. lia.
      * exfalso. cbn in Hs. repeat destruct Hs as [Hs|Hs]; try discriminate; contradiction.
  - split.
    + destruct (assoc_str s digraph_table) as [v|] eqn:A; cbn [ok_or]; [|discriminate].
      intros H; injection H as ->. apply assoc_In in A.
      assert (G : forall s v, In (s, v) digraph_table -> spelling s v).
      { clear. intros s v H. unfold digraph_table in H. norm_lit. cbn [In] in H.
        repeat destruct H as [H|H]; try contradiction; injection H as <- <-;
        eapply sp_digraph; cbn [In];
          solve [ tauto | left; reflexivity | right; tauto
          | (first [left; reflexivity | right; left; reflexivity | right; right; left; reflexivity
          | do 3 right; left; reflexivity | do 4 right; left; reflexivity | do 5 right; left; reflexivity
          | do 6 right; left; reflexivity | do 7 right; left; reflexivity ]) ]. }
      now apply G.
    + intros H. destruct H as [c Hc|c Hc|a b d s Hin Hs].
      * exfalso. apply E. cbn. unfold char_len. destruct (N.ltb_spec c 128); lia.
      * exfalso. apply E. cbn. unfold char_len. destruct (N.ltb_spec (c - 32) 128); lia.
      * clear E. cbn [In] in Hin.
        repeat destruct Hin as [Hin|Hin]; try contradiction; injection Hin as <- <- <-;
        cbn [In] in Hs; repeat destruct Hs as [Hs|Hs]; try contradiction; subst s; vm_compute; reflexivity.
Qed.
