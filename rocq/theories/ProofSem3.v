(** Proofs for C37: what the references are, their order, and their place in the element's own text. *)
From Verif Require Export ProofSem2.

Section Outgoing.
  Variables (rf : str -> option Z) (c : cache).
  Lemma c37_meaning r l : is_list r = false ->
    get_outgoing_references rf c r = Ok l <-> recorded [] None 0 (root_events rf (ca_map c) r) l.
  Proof.
    intros L. rewrite outgoing_run by exact L. split.
    - destruct (run_events _ ob_new) as [b| |] eqn:E; cbn; intros H; try discriminate. injection H as <-.
      apply (run_recorded _ []) in E; [|exact says_nil]. destruct E as [_ (l & R & ->)]. exact R.
    - intros R. destruct (recorded_run _ [] ob_new l says_nil R) as (b & -> & E). cbn. now rewrite E.
  Qed.
  Lemma compound_meaning x l : compound_references rf c x = Ok l <-> recorded [] None 0 (compound_events rf (ca_map c) x) l.
  Proof.
    rewrite compound_run. split.
    - destruct (run_events _ ob_new) as [b| |] eqn:E; cbn; intros H; try discriminate. injection H as <-.
      apply (run_recorded _ []) in E; [|exact says_nil]. destruct E as [_ (l & R & ->)]. exact R.
    - intros R. destruct (recorded_run _ [] ob_new l says_nil R) as (b & -> & E). cbn. now rewrite E.
  Qed.
  Lemma compound_np x : compound_references rf c x <> Panic.
  Proof.
    rewrite compound_run. apply omap_np, run_not_panic. pose proof (root_np rf (ca_map c) (RList [GCompound x])) as R. cbn [root_events flat_map simple_events] in R.
    rewrite app_nil_r in R. exact R.
  Qed.
  Lemma simple_ok s : exists l, simple_references rf c s = Ok l /\ piece_says rf (ca_map c) s l.
  Proof.
    destruct s as [x|]; cbn.
    - destruct (compound_references rf c x) as [l| |] eqn:E.
      + exists l. split; [reflexivity|]. left. now apply compound_meaning.
      + exists []. split; [reflexivity|]. right. split; [reflexivity|]. intros l' R. apply compound_meaning in R. congruence.
      + now apply compound_np in E.
    - exists []. split; [reflexivity|]. left. constructor.
  Qed.
  Lemma c37_list l : exists ls, get_outgoing_references rf c (RList l) = Ok (List.concat ls) /\ Forall2 (piece_says rf (ca_map c)) l ls.
  Proof.
    cbn. induction l as [|s l (ls & E & F)].
    - exists []. split; [reflexivity|constructor].
    - destruct (simple_ok s) as (x & Ex & P). exists (x :: ls). cbn. rewrite Ex. cbn.
      destruct (map_ok (simple_references rf c) l) as [q| |]; cbn in *; try discriminate. injection E as E.
      split; [now rewrite E|]. constructor; auto.
  Qed.
  Lemma c37_no_panic r : get_outgoing_references rf c r <> Panic.
  Proof.
    destruct (is_list r) eqn:L.
    - destruct r; try discriminate. destruct (c37_list l) as (ls & -> & _). discriminate.
    - rewrite outgoing_run by exact L. apply omap_np, run_not_panic, root_np.
  Qed.
End Outgoing.

(** ** Order *)
Lemma in_order_app lo e1 e2 : in_order lo (e1 ++ e2) <->
  in_order lo e1 /\ in_order (fold_left (fun lo e => match e with EvPart p _ => ps_end p | EvEnd e => e | EvRecord => lo end) e1 lo) e2.
Proof.
  revert lo. induction e1 as [|[p a|e|] e1 IH]; intros lo; cbn; [tauto|rewrite IH; tauto|rewrite IH; tauto|apply IH].
Qed.
Lemma in_order_after evs : forall lo, in_order lo evs -> (lo <= after evs lo)%N.
Proof.
  induction evs as [|[p a|e|] evs IH]; intros lo H; cbn in *; [lia| | |auto].
  - destruct H as [H K]. apply IH in K. unfold after in K. lia.
  - destruct H as [H K]. apply IH in K. unfold after in K. lia.
Qed.
Lemma spans_weaken lo lo' l : (lo' <= lo)%N -> spans_ordered lo l -> spans_ordered lo' l.
Proof. destruct l; cbn; auto. intros H [K L]. split; [lia|exact L]. Qed.
(** [s] is the start of the reference being built: its parts so far are not empty *)
Lemma recorded_ordered ps s e evs l : recorded ps s e evs l -> forall lo, in_order lo evs ->
  match s with
  | None => spans_ordered lo l
  | Some n => (n < e <= lo)%N -> spans_ordered n l
  end.
Proof.
  induction 1 as [ps s e|ps s e p a evs l R IH|ps s e e' evs l R IH|ps s e r evs l Sa T R IH]; intros lo O; cbn in O.
  - destruct s; cbn; auto.
  - destruct O as [[O1 O2] O]. specialize (IH _ O). destruct s as [n|].
    + intros H. apply IH. lia.
    + specialize (IH ltac:(lia)). revert IH. apply spans_weaken. lia.
  - destruct O as [O1 O]. specialize (IH _ O). destruct s as [n|]; [intros H; apply IH; lia|].
    revert IH. apply spans_weaken. lia.
  - specialize (IH _ O). cbn in IH. intros H. cbn. split; [lia|]. revert IH. apply spans_weaken. lia.
Qed.
Lemma recorded_bound ps s e evs l : recorded ps s e evs l -> forall lo, in_order lo evs -> (e <= lo)%N -> Forall (fun o => (o_end o <= after evs lo)%N) l.
Proof.
  induction 1 as [ps s e|ps s e p a evs l R IH|ps s e e' evs l R IH|ps s e r evs l Sa T R IH]; intros lo O H; cbn in O.
  - constructor.
  - destruct O as [[O1 O2] O]. cbn. apply (IH _ O). lia.
  - destruct O as [O1 O]. cbn. apply (IH _ O). lia.
  - cbn. constructor; [|apply (IH _ O H)]. cbn. pose proof (in_order_after _ _ O). unfold after in *. lia.
Qed.
Lemma spans_app lo l1 l2 hi : spans_ordered lo l1 -> Forall (fun o => (o_end o <= hi)%N) l1 -> (lo <= hi)%N -> spans_ordered hi l2 -> spans_ordered lo (l1 ++ l2).
Proof.
  revert lo. induction l1 as [|o l1 IH]; intros lo S F H K; cbn in *.
  - revert K. apply spans_weaken. exact H.
  - destruct S as [S1 S2]. inversion F; subst. split; [exact S1|]. apply IH; auto.
Qed.
Lemma c37_ordered rf c r l : get_outgoing_references rf c r = Ok l ->
  forall lo, in_order lo (root_events rf (ca_map c) r) -> spans_ordered lo l /\ Forall (fun o => (o_end o <= after (root_events rf (ca_map c) r) lo)%N) l.
Proof.
  intros H lo O. destruct (is_list r) eqn:L.
  - destruct r as [x|x|x|x|x|x|xs]; try discriminate. destruct (c37_list rf c xs) as (ls & E & F). rewrite E in H. injection H as <-.
    cbn [root_events] in *. clear E L. revert lo O. induction F as [|s l xs ls P F IH]; intros lo O; cbn; [split; [exact I|constructor]|].
    cbn in O. apply in_order_app in O. destruct O as [O1 O2]. change (fold_left _ _ lo) with (after (simple_events rf (ca_map c) s) lo) in O2.
    pose proof (in_order_after _ _ O1) as G1. pose proof (in_order_after _ _ O2) as G2.
    unfold after in *. rewrite fold_left_app. specialize (IH _ O2). destruct IH as [IH1 IH2].
    assert (S : spans_ordered lo l /\ Forall (fun o => (o_end o <= after (simple_events rf (ca_map c) s) lo)%N) l).
    { destruct P as [P|[-> _]]; [|split; [exact I|constructor]]. split; [exact (recorded_ordered _ _ _ _ _ P _ O1)|].
      apply (recorded_bound _ _ _ _ _ P _ O1). lia. }
    destruct S as [S1 S2]. unfold after in S2. split.
    + apply spans_app with (hi := after (simple_events rf (ca_map c) s) lo); auto.
    + apply Forall_app. split; [|exact IH2]. eapply Forall_impl; [|exact S2]. cbn. intros o Ho. lia.
  - apply c37_meaning in H; [|exact L]. split; [exact (recorded_ordered _ _ _ _ _ H _ O)|].
    apply (recorded_bound _ _ _ _ _ H _ O). lia.
Qed.

(** ** Adjustment to the own text *)
Lemma kept_spec a b l : kept a b l (keep_map (adjust a b) l).
Proof.
  induction l as [|o l IH]; cbn; [constructor|]. unfold adjust at 1.
  destruct (N.ltb_spec a (o_end o)) as [H|H], (N.leb_spec (o_end o) b) as [K|K]; cbn; constructor; auto; lia.
Qed.
Lemma kept_unique a b l k k' : kept a b l k -> kept a b l k' -> k = k'.
Proof.
  intros H. revert k'. induction H; intros k' K; inversion K; subst; auto; try lia. f_equal. auto.
Qed.
Lemma kept_ordered a b l k lo : kept a b l k -> spans_ordered lo l -> spans_ordered (lo - a) k.
Proof.
  intros H. revert lo. induction H as [|o l k B H IH|o l k B H IH]; intros lo; cbn; [auto| |].
  - intros [S1 S2]. split; [lia|]. apply IH, S2.
  - intros [S1 S2]. apply IH in S2. revert S2. apply spans_weaken. lia.
Qed.
Lemma kept_inside a b l k : kept a b l k -> Forall (fun o => (0 < o_end o <= b - a)%N) k.
Proof. induction 1; auto. constructor; auto. cbn. lia. Qed.
Lemma trimmed_prefix js s s' : trimmed js s s' -> exists junk, s = s' ++ junk.
Proof.
  induction 1 as [s|j js s s' H [k ->]|j js s s' N H [k ->]]; [exists []; now rewrite app_nil_r|exists (k ++ j); now rewrite app_assoc|now exists k].
Qed.
Lemma strip_once_trimmed js : forall s, trimmed js s (fold_left strip_once js s).
Proof.
  induction js as [|j js IH]; intros s; cbn; [constructor|]. unfold strip_once at 2.
  destruct (strip_suffix j s) as [t|] eqn:E.
  - apply strip_suffix_some in E. subst. constructor. apply IH.
  - apply trim_miss; [|apply IH]. intros [t ->]. assert (strip_suffix j (t ++ j) = Some t) by now apply strip_suffix_some. congruence.
Qed.
Lemma strip_junk_trimmed s : trimmed conjunctions s (strip_junk s).
Proof. apply strip_once_trimmed. Qed.
Lemma trimmed_unique js s t t' : trimmed js s t -> trimmed js s t' -> t = t'.
Proof.
  intros H. revert t'. induction H as [s|j js s s' H IH|j js s s' N H IH]; intros t' K; inversion K; subst; auto.
  - match goal with E : _ ++ j = s ++ j |- _ => apply app_inv_tail in E; subst end. auto.
  - exfalso. match goal with E : ~ _ |- _ => apply E; eauto end.
  - exfalso. apply N. eauto.
Qed.
Lemma ends_sentence_spec s : ends_sentence s = true <-> closed s.
Proof.
  unfold ends_sentence, closed. destruct (rev s) as [|c r] eqn:E.
  - split; [discriminate|]. intros (t & c & -> & _). rewrite rev_app_distr in E. discriminate.
  - assert (S : s = rev r ++ [c]) by (rewrite <- (rev_involutive s), E; reflexivity).
    unfold is_sentence_end. rewrite existsb_exists. split.
    + intros (x & I & Q). apply N.eqb_eq in Q. subst x. exists (rev r), c. auto.
    + intros (t & d & S' & I). rewrite S' in S. apply app_inj_tail in S. destruct S as [_ ->]. exists c. split; [exact I|apply N.eqb_refl].
Qed.
Lemma assemble_sentence t : sentence t (assemble (t_before t) (t_own t) (t_after t)).
Proof.
  unfold assemble. destruct (t_after t) as [|c r] eqn:E; cbn [is_empty].
  - destruct (ends_sentence (strip_junk (t_own t))) eqn:S.
    + apply sentence_closed; [apply strip_junk_trimmed|exact E|now apply ends_sentence_spec].
    + apply sentence_stop; [apply strip_junk_trimmed|exact E|]. intros C. apply ends_sentence_spec in C. congruence.
  - rewrite <- E. apply sentence_open; [apply strip_junk_trimmed|congruence].
Qed.
Lemma sentence_unique t x y : sentence t x -> sentence t y -> x = y.
Proof.
  intros H K. destruct H, K; try contradiction; repeat match goal with H : trimmed _ _ ?a, K : trimmed _ _ ?b |- _ => pose proof (trimmed_unique _ _ _ _ H K); subst; clear K end; try contradiction; try congruence; reflexivity.
Qed.
(** The part of the sentence that can hold references of the element: its own text without conjunctions, and
    possibly the full stop *)
Lemma sentence_room t x own : sentence t x -> trimmed conjunctions (t_own t) own ->
  (utf8_len x - utf8_len (t_after t) - utf8_len (t_before t) =
   utf8_len own + if is_empty (t_after t) && negb (ends_sentence own) then 1 else 0)%N.
Proof.
  intros H T. destruct H as [o T' A|o T' A C|o T' A C]; pose proof (trimmed_unique _ _ _ _ T T'); subst o; rewrite !utf8_len_app.
  - destruct (t_after t); [congruence|]. cbn [is_empty andb]. lia.
  - rewrite A. apply ends_sentence_spec in C. rewrite C. cbn. lia.
  - rewrite A. destruct (ends_sentence own) eqn:E; [apply ends_sentence_spec in E; contradiction|].
    cbn [is_empty andb negb]. change (utf8_len (lit ".")) with 1%N. change (utf8_len []) with 0%N. lia.
Qed.

(** ** The same text *)
Lemma app_eq_split (a b c d : str) : a ++ b = c ++ d -> (utf8_len a <= utf8_len c)%N -> exists r, c = a ++ r /\ b = r ++ d.
Proof.
  revert c. induction a as [|x a IH]; intros c E L; [now exists c|]. destruct c as [|y c].
  - exfalso. rewrite utf8_len_cons in L. pose proof (char_len_pos x). change (utf8_len []) with 0%N in L. lia.
  - injection E as -> E. destruct (IH c E) as (r & -> & K); [|now exists r]. rewrite !utf8_len_cons in L. lia.
Qed.
Lemma piece_tail pre t a b x : piece (pre ++ t) a b x -> (utf8_len pre <= a)%N -> piece t (a - utf8_len pre) (b - utf8_len pre) x.
Proof.
  intros (p & q & E & A & B) L. apply app_eq_split in E; [|lia]. destruct E as (r & -> & E). exists r, q.
  rewrite utf8_len_app in A. rewrite !utf8_len_app in B. rewrite utf8_len_app. split; [exact E|lia].
Qed.
Lemma piece_head t post a b x : piece (t ++ post) a b x -> (b <= utf8_len t)%N -> piece t a b x.
Proof.
  intros (p & q & E & A & B) L. rewrite app_assoc in E. symmetry in E. apply app_eq_split in E; [|lia]. destruct E as (r & -> & E).
  exists p, r. rewrite <- app_assoc. auto.
Qed.
Lemma sentence_shape t x own : sentence t x -> trimmed conjunctions (t_own t) own -> x = t_before t ++ own_sentence t own ++ t_after t.
Proof.
  unfold own_sentence. intros H T. destruct H as [o T' A|o T' A C|o T' A C]; pose proof (trimmed_unique _ _ _ _ T T'); subst o.
  - destruct (t_after t); [congruence|]. cbn [is_empty andb]. now rewrite app_nil_r.
  - rewrite A. apply ends_sentence_spec in C. rewrite C. cbn. now rewrite !app_nil_r.
  - rewrite A. destruct (ends_sentence own) eqn:E; [apply ends_sentence_spec in E; contradiction|]. cbn [is_empty andb negb]. now rewrite app_nil_r.
Qed.
Lemma kept_same_text t text own out k : sentence t text -> trimmed conjunctions (t_own t) own ->
  kept (utf8_len (t_before t)) (utf8_len text - utf8_len (t_after t)) out k ->
  Forall (fun o => exists o', In o' out /\ o_ref o = o_ref o' /\
    forall x, (utf8_len (t_before t) <= o_start o')%N -> piece text (o_start o') (o_end o') x ->
      piece (own_sentence t own) (o_start o) (o_end o) x) k.
Proof.
  intros S T K. pose proof (sentence_shape _ _ _ S T) as E.
  assert (G : (utf8_len text - utf8_len (t_after t) = utf8_len (t_before t) + utf8_len (own_sentence t own))%N)
    by (rewrite E, !utf8_len_app; lia).
  rewrite G in K. clear G. induction K as [|o l k B K IH|o l k B K IH]; [constructor| |].
  - constructor.
    + exists o. split; [now left|]. split; [reflexivity|]. intros x L P. cbn. rewrite E in P.
      apply piece_tail in P; [|exact L]. apply piece_head in P; [exact P|lia].
    + eapply Forall_impl; [|exact IH]. cbn. intros q (o' & I & R). exists o'. auto.
  - eapply Forall_impl; [|exact IH]. cbn. intros q (o' & I & R). exists o'. auto.
Qed.
