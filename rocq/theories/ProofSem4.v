(** Proofs for C39 and C40: text amendments, repeals and enforcement dates. *)
From Verif Require Export ProofSem3.

(** ** Recorded references of an act *)
Lemma recorded_any_end evs : forall ps e e' l, recorded ps None e evs l -> recorded ps None e' evs l.
Proof.
  induction evs as [|[p a|x|] evs IH]; intros ps e e' l R; inversion R; subst.
  - constructor.
  - constructor. assumption.
  - constructor. assumption.
Qed.
Definition low_event (e : ref_event) : Prop := match e with EvPart _ (Ok a) => (1 <= part_level a <= 4)%nat | _ => True end.
Definition low_start (ps : list any_part) (s : option N) : Prop :=
  match s with None => True | Some _ => exists ps' a, ps = ps' ++ [a] /\ (1 <= part_level a <= 4)%nat end.
Lemma says_low ps a r : says (ps ++ [a]) r -> (1 <= part_level a <= 4)%nat ->
  is_some (f_article r) || is_some (f_paragraph r) || is_some (f_point r) || is_some (f_subpoint r) = true.
Proof.
  intros (_ & H1 & H2 & H3 & H4) L. rewrite in_force_snoc in *. destruct a; cbn in L, H1, H2, H3, H4; try lia;
  destruct (f_article r), (f_paragraph r), (f_point r), (f_subpoint r); cbn in *; try discriminate; reflexivity.
Qed.
Lemma valid_low_article r : check_parts r = true -> f_act r <> None ->
  is_some (f_article r) || is_some (f_paragraph r) || is_some (f_point r) || is_some (f_subpoint r) = true -> is_act_only r = false.
Proof.
  unfold check_parts, is_act_only. destruct (f_act r); [|congruence]. cbn.
  destruct (f_article r), (f_paragraph r), (f_point r), (f_subpoint r); cbn; auto; discriminate.
Qed.
Lemma try_ref_parts r : try_ref r = Ok r -> check_parts r = true.
Proof. unfold try_ref, ensure. destruct (check_parts r); cbn; [reflexivity|discriminate]. Qed.
Lemma in_force_act a ps x : in_force 0 ps = Some (PartAct a) -> (1 <= part_level x)%nat -> in_force 0 (ps ++ [x]) = Some (PartAct a).
Proof. intros H L. rewrite in_force_snoc. destruct (Nat.leb_spec (part_level x) 0); [lia|exact H]. Qed.
Lemma recorded_act a ps s e evs l : recorded ps s e evs l -> Forall low_event evs -> low_start ps s ->
  in_force 0 ps = Some (PartAct a) -> Forall (fun o => f_act (o_ref o) = Some a /\ is_act_only (o_ref o) = false) l.
Proof.
  induction 1 as [ps s e|ps s e p x evs l R IH|ps s e e' evs l R IH|ps s e r evs l Sa T R IH]; intros F S I; inversion F as [|? ? Fe F']; subst; auto.
  - apply IH; auto; [|apply in_force_act; cbn in Fe; auto; lia]. exists ps, x. auto.
  - constructor; [|apply IH; cbn; auto]. destruct S as (ps' & x & -> & L). cbn.
    assert (A : f_act r = Some a).
    { destruct Sa as (H & _). rewrite I in H. destruct (f_act r); cbn in H; [injection H as ->; reflexivity|discriminate]. }
    split; [exact A|]. apply valid_low_article; [now apply try_ref_parts|congruence|eapply says_low; eauto].
Qed.
Lemma parts_of_low a evs : Forall low_event evs -> forall ps, in_force 0 ps = Some (PartAct a) -> in_force 0 (ps ++ parts_of evs) = Some (PartAct a).
Proof.
  induction 1 as [|[p [x| |]|e|] evs Fe F IH]; intros ps I; cbn [parts_of]; rewrite ?app_nil_r; auto.
  change (x :: parts_of evs) with ([x] ++ parts_of evs). rewrite app_assoc. apply IH, in_force_act; auto. cbn in Fe. lia.
Qed.
(** Which parts the items have *)
Lemma omap_low {T} (x : outcome T) mk p : (forall r, (1 <= part_level (mk r) <= 4)%nat) -> low_event (EvPart p (omap mk x)).
Proof. intros H. destruct x; cbn; auto. Qed.
Lemma read_article_low p q : low_event (EvPart q (read_article p)).
Proof. unfold read_article. destruct (ga_book p) as [b|]; [destruct (parse_u8 b)|]; cbn [obind omap]; cbn; auto; apply (omap_low _ PartArticle q); intros; cbn; lia. Qed.
Lemma article_low p : Forall low_event (article_event p).
Proof. constructor; [apply read_article_low|constructor]. Qed.
Lemma single_low s : Forall low_event (single_events s).
Proof. constructor; [apply read_article_low|]. repeat constructor. Qed.
Lemma part_low {T} (parse : str -> outcome T) mk p : (forall r, (1 <= part_level (mk r) <= 4)%nat) -> Forall low_event (part_event parse mk p).
Proof. intros H. constructor; [now apply omap_low|constructor]. Qed.
Lemma lower_low par np ap ns als : Forall low_event (lower_events par np ap ns als).
Proof.
  unfold lower_events. rewrite !Forall_app. repeat split; apply opt_forall; intros; apply separated_forall; cbn; auto; intros;
  apply part_low; intros; cbn; lia.
Qed.
Lemma ref_low r : Forall low_event (ref_events r).
Proof.
  unfold ref_events. rewrite !Forall_app. repeat split; auto using lower_low; [|repeat constructor].
  apply opt_forall. intros. apply separated_forall; cbn; auto using article_low.
Qed.
(** A run that ends with a record has no open reference. *)
Lemma run_last evs b b' : run_events (evs ++ [EvRecord]) b = Ok b' -> ob_start b' = None.
Proof.
  rewrite run_events_app. destruct (run_events evs b) as [b1| |]; cbn; try discriminate.
  destruct (record_one b1) as [b2| |] eqn:E; cbn; try discriminate. intros H. injection H as <-.
  apply record_ok in E. destruct E as (s & _ & _ & ->). reflexivity.
Qed.
Lemma ref_last r b b' : run_events (ref_events r) b = Ok b' -> ob_start b' = None.
Proof.
  unfold ref_events. intros H. apply (run_last (opt_events (separated article_event) (gr_article r) ++
    lower_events (gr_paragraph r) (gr_num_point r) (gr_alpha_point r) (gr_num_sub r) (gr_alpha_sub r) ++ [EvEnd (ps_end (gr_pos r))]) b).
  rewrite <- !app_assoc. exact H.
Qed.
Lemma single_last s b b' : run_events (single_events s) b = Ok b' -> ob_start b' = None.
Proof. apply (run_last [EvPart (gs_pos s) (read_article (gs_part s))]). Qed.

(** ** Structural references *)
Section Struct.
  Variable rf : str -> option Z.
  Lemma subtitle_read s : omap sr_element_of_parent (subtitle_part s) = read_subtitle s.
  Proof.
    unfold subtitle_part, read_subtitle, read_range. destruct (gsp_id s) as [i|]; [destruct (numeric_parse i); reflexivity|].
    destruct (gsp_start s) as [x|], (gsp_end s) as [y|]; cbn; auto. destruct (numeric_parse x); cbn; auto. destruct (numeric_parse y); reflexivity.
  Qed.
  Lemma kind_read k : omap sr_element_of_parent (struct_kind rf k) = read_kind rf k.
  Proof.
    destruct k as [s|s|s|s|s]; cbn; [| | |apply subtitle_read|reflexivity].
    all: try (destruct (numeric_from_roman rf s); reflexivity).
    destruct (num_from_hungarian s); reflexivity.
  Qed.
  Lemma book_read o : opt_ok (book_of_grammar rf) o = read_book o.
  Proof. destruct o as [s|]; cbn; [|reflexivity]. destruct (num_from_hungarian s); reflexivity. Qed.
  Lemma parent_inj p q : sr_element_of_parent p = sr_element_of_parent q -> p = q.
  Proof. destruct p, q; cbn; congruence. Qed.
  Lemma struct_ref_spec g s a : omap (with_act a) (struct_ref_of rf g) = Ok s <-> structural rf a g s.
  Proof.
    unfold struct_ref_of. rewrite book_read. pose proof (kind_read (gas_ref g)) as K. split.
    - destruct (read_book (gas_book g)) as [b| |] eqn:B; cbn; try discriminate.
      destruct (struct_kind rf (gas_ref g)) as [k| |]; cbn in *; try discriminate. intros E. injection E as <-.
      unfold with_act. cbn. constructor; auto.
    - intros H. inversion H as [g' b e B E]; subst. rewrite B. cbn. rewrite E in K.
      destruct (struct_kind rf (gas_ref g)) as [k| |]; cbn in *; try discriminate. injection K as <-. reflexivity.
  Qed.
  Lemma parent_spec o q : opt_ok (struct_parent_of rf) o = Ok q <-> parent_read rf o q.
  Proof.
    destruct o as [g|]; cbn.
    - unfold struct_parent_of, ensure. pose proof (kind_read (gas_ref g)) as K. split.
      + destruct (gas_title_only g) eqn:T; cbn; try discriminate.
        destruct (struct_kind rf (gas_ref g)) as [k| |]; cbn in *; try discriminate. intros E. injection E as <-. now constructor.
      + intros H. inversion H as [|g' p T E]; subst. rewrite T. cbn. rewrite E in K.
        destruct (struct_kind rf (gas_ref g)) as [k| |]; cbn in *; try discriminate. injection K as K. apply parent_inj in K. now subst.
    - split; [intros E; injection E as <-; constructor|]. intros H. inversion H. reflexivity.
  Qed.
  Lemma single_read s : single_article s = first_article s.
  Proof.
    unfold single_article, first_article. rewrite <- article_part_read. destruct (article_part (gs_part s)); reflexivity.
  Qed.
  Lemma relative_read r : relative_element r = read_relative r.
  Proof. destruct r; cbn; now rewrite single_read. Qed.
  Lemma subtitle_ref_spec a s x : subtitle_ref a s = Ok x <-> exists e, read_subtitle s = Ok e /\ x = mkSRef a None None e false.
  Proof.
    unfold subtitle_ref. rewrite <- subtitle_read. destruct (subtitle_part s) as [p| |]; cbn; split; try discriminate.
    - intros E. injection E as <-. eauto.
    - intros (e & E & ->). congruence.
    - intros (e & E & _). discriminate.
    - intros (e & E & _). discriminate.
  Qed.
  Lemma map_ok_spec {A B} (f : A -> outcome B) l r : map_ok f l = Ok r <-> Forall2 (fun x y => f x = Ok y) l r.
  Proof.
    revert r. induction l as [|x l IH]; intros r; cbn.
    - split; [intros E; injection E as <-; constructor|]. intros H. inversion H. reflexivity.
    - split.
      + destruct (f x) as [y| |] eqn:E; cbn; try discriminate. destruct (map_ok f l) as [q| |]; cbn; try discriminate.
        intros H. injection H as <-. constructor; auto. now apply IH.
      + intros H. inversion H as [|? y ? q E F]; subst. rewrite E. cbn. apply IH in F. now rewrite F.
  Qed.
  Lemma subtitles_spec a l rs : map_ok (subtitle_ref a) l = Ok rs <->
    exists es, Forall2 (fun s e => read_subtitle s = Ok e) l es /\ rs = map (fun e => mkSRef a None None e false) es.
  Proof.
    rewrite map_ok_spec. split.
    - induction 1 as [|s x l rs H F (es & G & ->)]; [exists []; split; [constructor|reflexivity]|].
      apply subtitle_ref_spec in H. destruct H as (e & H & ->). exists (e :: es). split; [now constructor|reflexivity].
    - intros (es & F & ->). induction F as [|s e l es H F IH]; cbn; constructor; auto. apply subtitle_ref_spec. eauto.
  Qed.
End Struct.

(** ** C39 *)
Definition acts_only (l : list out_ref) : Prop := Forall (fun o => is_act_only (o_ref o) = true) l.
Lemma taken_all (f : reference -> ta_ref) l0 l : acts_only l0 -> Forall (fun o => is_act_only (o_ref o) = false) l ->
  taken_refs f (l0 ++ l) = map (fun o => f (o_ref o)) l.
Proof.
  intros H0 H. unfold taken_refs. rewrite map_app, filter_app, map_app.
  assert (E : filter (fun r => negb (is_act_only r)) (map o_ref l0) = []) by (induction H0 as [|o l0 K F IH]; cbn; [reflexivity|]; now rewrite K).
  rewrite E. cbn. induction H as [|o l K F IH]; cbn; [reflexivity|]. rewrite K. cbn. now rewrite IH.
Qed.
Section Ta.
  Variables (rf : str -> option Z) (a : act_id).
  (** A builder between two items, after the parts [ps] of the act [a] *)
  Definition between (ps : list any_part) (b : obuilder) : Prop :=
    says ps (ob_ref b) /\ ob_start b = None /\ acts_only (ob_result b) /\ in_force 0 ps = Some (PartAct a).
  Lemma run_item evs ps b b' : between ps b -> Forall low_event evs -> run_events evs b = Ok b' -> ob_start b' = None ->
    exists l, ob_result b' = ob_result b ++ l /\ recorded ps None 0 evs l /\ between (ps ++ parts_of evs) (snd (take_result b')) /\
    Forall (fun o => f_act (o_ref o) = Some a /\ is_act_only (o_ref o) = false) l.
  Proof.
    intros (S & St & R & I) L H N. apply (run_recorded _ ps) in H; [|exact S]. destruct H as [S' (l & Rl & E)].
    exists l. split; [exact E|]. rewrite St in Rl. split; [eapply recorded_any_end, Rl|]. split.
    - unfold between. cbn. repeat split; auto; try apply S'; [constructor|]. now apply parts_of_low.
    - eapply recorded_act; eauto. exact Logic.I.
  Qed.
  Lemma item_run evs ps b l : between ps b -> recorded ps None 0 evs l -> exists b', run_events evs b = Ok b' /\ ob_result b' = ob_result b ++ l.
  Proof.
    intros (S & St & R & I) Rl. destruct (recorded_run evs ps b l S) as (b' & E & F).
    - rewrite St. eapply recorded_any_end, Rl.
    - exists b'. auto.
  Qed.
  Lemma low_only l : Forall (fun o => f_act (o_ref o) = Some a /\ is_act_only (o_ref o) = false) l -> Forall (fun o => is_act_only (o_ref o) = false) l.
  Proof. apply Forall_impl. now intros o [_ H]. Qed.
  Lemma ta_item_spec ps b t rs b' : between ps b -> convert_ta_ref rf a t b = Ok (rs, b') ->
    exists ps', ta_item rf a ps t rs ps' /\ between ps' b'.
  Proof.
    intros B. destruct t as [s|p ch|l|r o|]; cbn [convert_ta_ref].
    - rewrite feed_single_run. destruct (run_events _ b) as [b1| |] eqn:E; cbn; try discriminate. intros H. injection H as <- <-.
      destruct (run_item _ _ _ _ B (single_low s) E (single_last _ _ _ E)) as (l' & El & R & B' & F). rewrite El, taken_all by (apply B || now apply low_only).
      eexists. split; [constructor; exact R|exact B'].
    - unfold ta_struct_ref. destruct (opt_ok (struct_parent_of rf) p) as [q| |] eqn:P; cbn; try discriminate. apply parent_spec in P.
      destruct ch as [g|r]; cbn.
      + destruct (struct_ref_of rf g) as [x| |] eqn:G; cbn; try discriminate. intros H. injection H as <- <-. exists ps. split; [|exact B].
        assert (S : structural rf (Some a) g (with_act (Some a) x)) by (apply struct_ref_spec; rewrite G; reflexivity).
        exact (ta_struct rf a ps p g q _ P S).
      + rewrite relative_read. destruct (read_relative r) as [e| |] eqn:G; cbn; try discriminate. intros H. injection H as <- <-.
        exists ps. split; [|exact B]. now constructor.
    - destruct (map_ok (subtitle_ref (Some a)) l) as [q| |] eqn:E; cbn; try discriminate. intros H. injection H as <- <-.
      apply subtitles_spec in E. destruct E as (es & F & ->). exists ps. split; [|exact B]. rewrite map_map. now constructor.
    - rewrite feed_ref_run. destruct (run_events _ b) as [b1| |] eqn:E; cbn; try discriminate. intros H. injection H as <- <-.
      destruct (run_item _ _ _ _ B (ref_low r) E (ref_last _ _ _ E)) as (l' & El & R & B' & F). rewrite El, taken_all by (apply B || now apply low_only).
      eexists. split; [|exact B']. destruct o as [[|]|]; now constructor.
    - intros H. injection H as <- <-. exists ps. split; [constructor|exact B].
  Qed.
  Lemma ta_item_complete ps b t rs ps' : between ps b -> ta_item rf a ps t rs ps' -> exists b', convert_ta_ref rf a t b = Ok (rs, b') /\ between ps' b'.
  Proof.
    intros B H. destruct H as [s l R|p g q s P G|p r q e P G|l es F|r o l R|].
    - destruct (item_run _ _ _ _ B R) as (b1 & E & El). destruct (run_item _ _ _ _ B (single_low s) E (single_last _ _ _ E)) as (l' & El' & _ & B' & F).
      assert (l' = l) by (rewrite El in El'; now apply app_inv_head in El'). subst l'.
      eexists. split; [|exact B']. cbn [convert_ta_ref]. rewrite feed_single_run, E. cbn. now rewrite El, taken_all by (apply B || now apply low_only).
    - exists b. split; [|exact B]. cbn [convert_ta_ref]. unfold ta_struct_ref. apply parent_spec in P. rewrite P. cbn.
      apply struct_ref_spec in G. destruct (struct_ref_of rf g) as [x| |]; cbn in *; try discriminate. injection G as <-. reflexivity.
    - exists b. split; [|exact B]. cbn [convert_ta_ref]. unfold ta_struct_ref. apply parent_spec in P. rewrite P. cbn.
      rewrite relative_read, G. reflexivity.
    - exists b. split; [|exact B]. cbn [convert_ta_ref].
      assert (E : map_ok (subtitle_ref (Some a)) l = Ok (map (fun e => mkSRef (Some a) None None e false) es)) by (apply subtitles_spec; eauto).
      rewrite E. cbn. now rewrite map_map.
    - destruct (item_run _ _ _ _ B R) as (b1 & E & El). destruct (run_item _ _ _ _ B (ref_low r) E (ref_last _ _ _ E)) as (l' & El' & _ & B' & F).
      assert (l' = l) by (rewrite El in El'; now apply app_inv_head in El'). subst l'.
      eexists. split; [|exact B']. cbn [convert_ta_ref]. rewrite feed_ref_run, E. cbn. rewrite El, taken_all by (apply B || now apply low_only).
      destruct o as [[|]|]; reflexivity.
    - exists b. split; [reflexivity|exact B].
  Qed.
  Lemma ta_loop_spec l : forall ps b rs, between ps b -> convert_ta_loop rf a l b = Ok rs <-> ta_items rf a ps l rs.
  Proof.
    induction l as [|t l IH]; intros ps b rs B; cbn.
    - split; [intros E; injection E as <-; constructor|]. intros H. inversion H. reflexivity.
    - split.
      + destruct (convert_ta_ref rf a t b) as [[r1 b1]| |] eqn:E; cbn; try discriminate.
        destruct (ta_item_spec _ _ _ _ _ B E) as (ps' & T & B').
        destruct (convert_ta_loop rf a l b1) as [r2| |] eqn:L; cbn; try discriminate. intros H. injection H as <-.
        econstructor; [exact T|]. now apply (IH _ _ _ B').
      + intros H. inversion H as [|? ? ? r1 ps' r2 T L]; subst. destruct (ta_item_complete _ _ _ _ _ B T) as (b1 & E & B').
        rewrite E. cbn. apply (IH _ _ _ B') in L. now rewrite L.
  Qed.
  Lemma ta_item_act ps t rs ps' : in_force 0 ps = Some (PartAct a) -> ta_item rf a ps t rs ps' ->
    Forall (fun r => ta_act r = Some a) rs /\ in_force 0 ps' = Some (PartAct a).
  Proof.
    intros I H. destruct H as [s l R|p g q s P G|p r q e P G|l es F|r o l R|]; auto.
    - split; [|apply parts_of_low; auto using single_low]. apply (recorded_act a) in R; auto using single_low; [|exact Logic.I].
      apply Forall_map. eapply Forall_impl; [|exact R]. now intros o [A _].
    - split; [|exact I]. apply Forall_map. apply Forall_forall. reflexivity.
    - split; [|apply parts_of_low; auto using ref_low]. apply (recorded_act a) in R; auto using ref_low; [|exact Logic.I].
      apply Forall_map. eapply Forall_impl; [|exact R]. now intros x [A _].
  Qed.
  Lemma ta_items_act ps l rs : in_force 0 ps = Some (PartAct a) -> ta_items rf a ps l rs -> Forall (fun r => ta_act r = Some a) rs.
  Proof.
    intros I H. induction H as [|ps t l rs ps' rs' T L IH]; [constructor|]. destruct (ta_item_act _ _ _ _ I T) as [F I'].
    apply Forall_app. auto.
  Qed.
End Ta.
Lemma nth_error_ext_len {A} (l l' : list A) : List.length l = List.length l' ->
  (forall n, (n < List.length l)%nat -> nth_error l n = nth_error l' n) -> l = l'.
Proof.
  revert l'. induction l as [|x l IH]; intros [|y l'] L H; cbn in L; try discriminate; [reflexivity|].
  pose proof (H 0%nat ltac:(cbn; lia)) as H0. cbn in H0. injection H0 as ->. f_equal. apply IH; [lia|].
  intros n Hn. apply (H (S n)). cbn. lia.
Qed.
Section C39.
  Variables (rf : str -> option Z) (c : cache).
  Lemma feed_act_between act a : denoted_act rf (ca_map c) act = Ok a -> exists b, feed_act rf c act ob_new = Ok b /\ between a [PartAct a] b.
  Proof.
    intros E. unfold feed_act. rewrite act_denoted, E. cbn [obind].
    assert (V : build (ob_ref (ob_set (act_ref_pos act) (set_act a) ob_new)) = Ok (mkRef (Some a) None None None None)) by reflexivity.
    unfold record_one. rewrite V. cbn. eexists. split; [reflexivity|]. split; [exact (says_set [] (PartAct a) empty_ref says_nil)|].
    cbn. repeat split. constructor; [reflexivity|constructor].
  Qed.
  Lemma ta_references_spec act l rs : convert_ta_references rf c act l = Ok rs <->
    exists a, denoted_act rf (ca_map c) act = Ok a /\ ta_items rf a [PartAct a] l rs.
  Proof.
    unfold convert_ta_references. rewrite act_denoted. split.
    - destruct (denoted_act rf (ca_map c) act) as [a| |] eqn:D; cbn; try discriminate.
      destruct (feed_act_between _ _ D) as (b & -> & B). cbn. intros H. exists a. split; [reflexivity|]. now apply (ta_loop_spec rf a l [PartAct a] b).
    - intros (a & D & H). rewrite D. cbn. destruct (feed_act_between _ _ D) as (b & -> & B). cbn. now apply (ta_loop_spec rf a l [PartAct a] b).
  Qed.
  Lemma product_spec {A B C} (f : A -> B -> C) xs ys : product f xs ys (flat_map (fun x => map (f x) ys) xs).
  Proof.
    induction xs as [|x xs [L IH]]; cbn; split; auto.
    - intros i j x y H. destruct i; discriminate.
    - now rewrite app_length, map_length, L.
    - intros [|i] j x' y H K; cbn in *.
      + injection H as <-. rewrite nth_error_app1.
        * now apply map_nth_error.
        * rewrite map_length. apply nth_error_Some. congruence.
      + rewrite nth_error_app2 by (rewrite map_length; lia). rewrite map_length.
        replace (_ - _)%nat with (i * List.length ys + j)%nat by lia. now apply IH.
  Qed.
  Lemma product_unique {A B C} (f : A -> B -> C) xs ys l l' : product f xs ys l -> product f xs ys l' -> l = l'.
  Proof.
    intros [L H] [L' H']. apply nth_error_ext_len; [congruence|]. intros n Hn.
    destruct ys as [|y0 ys0].
    - cbn in L. rewrite Nat.mul_0_r in L. lia.
    - set (ys := y0 :: ys0) in *. assert (P : List.length ys <> 0%nat) by discriminate.
      assert (En : n = (n / List.length ys * List.length ys + n mod List.length ys)%nat) by (rewrite Nat.mul_comm; apply Nat.div_mod; exact P).
      assert (Q : (n / List.length ys < List.length xs)%nat) by (apply Nat.div_lt_upper_bound; [exact P|lia]).
      assert (M : (n mod List.length ys < List.length ys)%nat) by (now apply Nat.mod_upper_bound).
      destruct (nth_error xs (n / List.length ys)) as [x|] eqn:X; [|apply nth_error_None in X; lia].
      destruct (nth_error ys (n mod List.length ys)) as [y|] eqn:Y; [|apply nth_error_None in Y; lia].
      rewrite En. rewrite (H _ _ _ _ X Y). now rewrite (H' _ _ _ _ X Y).
  Qed.
  Lemma c39_text x l : convert_text_amendment rf c x = Ok l <->
    exists a rs, denoted_act rf (ca_map c) (gta_act x) = Ok a /\ ta_items rf a [PartAct a] (gta_refs x) rs /\
      product (fun r p => mkTa r (fst p) (snd p)) rs (gta_parts x) l.
  Proof.
    unfold convert_text_amendment. split.
    - destruct (feed_act rf c (gta_act x) ob_new) as [b0| |]; cbn; try discriminate.
      destruct (convert_ta_references rf c (gta_act x) (gta_refs x)) as [rs| |] eqn:E; cbn; try discriminate. intros H. injection H as <-.
      apply ta_references_spec in E. destruct E as (a & D & T). exists a, rs. repeat split; auto; apply product_spec.
    - intros (a & rs & D & T & P). destruct (feed_act_between _ _ D) as (b & -> & _). cbn.
      assert (E : convert_ta_references rf c (gta_act x) (gta_refs x) = Ok rs) by (apply ta_references_spec; eauto). rewrite E. cbn. f_equal.
      eapply product_unique; [apply product_spec|exact P].
  Qed.
  Lemma repeal_of_spec t r : repeal_of t = Ok r <-> plain_repeal t r.
  Proof.
    split.
    - destruct t as [r' [| |]|s|r']; cbn; try discriminate; intros E; injection E as <-; constructor.
    - intros H. destruct H; reflexivity.
  Qed.
  Lemma c39_repeal x p : convert_repeal rf c x = Ok p <->
    exists a rs, denoted_act rf (ca_map c) (gre_act x) = Ok a /\ ta_items rf a [PartAct a] (gre_refs x) rs /\
      match gre_texts x with
      | [] => exists l, Forall2 plain_repeal rs l /\ p = PhRepeal (l ++ match gre_refs x with [] => [RrRef (ref_of_act a)] | _ => [] end)
      | _ => exists l, product (fun r t => mkTa r t []) rs (gre_texts x) l /\ p = PhText l
      end.
  Proof.
    unfold convert_repeal, convert_element_repeal. split.
    - destruct (gre_texts x) as [|t ts] eqn:T; cbn [is_empty].
      + destruct (convert_ta_references rf c (gre_act x) (gre_refs x)) as [rs| |] eqn:E; cbn [obind omap]; try discriminate.
        apply ta_references_spec in E. destruct E as (a & D & I). intros H. exists a, rs. split; [exact D|]. split; [exact I|].
        destruct (map_ok repeal_of rs) as [l| |] eqn:M; cbn in H; try discriminate. apply map_ok_spec in M.
        assert (F : Forall2 plain_repeal rs l) by (clear -M; induction M; constructor; auto; now apply repeal_of_spec).
        exists l. split; [exact F|]. destruct (gre_refs x) as [|r0 r1]; cbn in H.
        * rewrite act_denoted, D in H. cbn in H. congruence.
        * rewrite app_nil_r. congruence.
      + destruct (feed_act rf c (gre_act x) ob_new) as [b0| |]; cbn [obind]; try discriminate.
        destruct (convert_ta_references rf c (gre_act x) (gre_refs x)) as [rs| |] eqn:E; cbn [obind]; try discriminate. intros H. injection H as <-.
        apply ta_references_spec in E. destruct E as (a & D & I). exists a, rs. split; [exact D|]. split; [exact I|].
        eexists. split; [apply product_spec|reflexivity].
    - intros (a & rs & D & I & H).
      assert (E : convert_ta_references rf c (gre_act x) (gre_refs x) = Ok rs) by (apply ta_references_spec; eauto). rewrite E. cbn [obind].
      destruct (gre_texts x) as [|t ts]; cbn [is_empty].
      + destruct H as (l & F & ->).
        assert (M : map_ok repeal_of rs = Ok l) by (apply map_ok_spec; clear -F; induction F; constructor; auto; now apply repeal_of_spec).
        rewrite M. cbn. destruct (gre_refs x); cbn; [|now rewrite app_nil_r]. rewrite act_denoted, D. reflexivity.
      + destruct H as (l & P & ->). destruct (feed_act_between _ _ D) as (b & -> & _). cbn [obind]. do 2 f_equal. eapply product_unique; [apply product_spec|exact P].
  Qed.
End C39.

(** ** C40 *)
Lemma date_spec d x : convert_date d = Ok x <-> read_date d x.
Proof.
  unfold convert_date, read_date. split.
  - destruct (parse_i32 (gd_year d)) as [y| |]; cbn; try discriminate. destruct (month_from_hungarian (gd_month d)) as [m| |]; cbn; try discriminate.
    destruct (parse_u32 (gd_day d)) as [n| |]; cbn; try discriminate. unfold from_ymd.
    destruct ((-262144 <=? y) && (y <=? 262143))%Z eqn:E1; cbn [andb]; [|discriminate].
    destruct ((1 <=? m) && (m <=? 12) && (1 <=? n) && (n <=? days_in_month y m))%N eqn:E2; cbn; [|discriminate].
    intros H. injection H as <-. cbn. rewrite !andb_true_iff, ?Z.leb_le, ?N.leb_le in *. tauto.
  - intros (-> & -> & -> & Y & M & D). cbn [obind]. unfold from_ymd.
    assert (E1 : ((-262144 <=? d_year x) && (d_year x <=? 262143))%Z = true) by (rewrite !andb_true_iff, ?Z.leb_le; tauto).
    assert (E2 : ((1 <=? d_month x) && (d_month x <=? 12) && (1 <=? d_day x) && (d_day x <=? days_in_month (d_year x) (d_month x)))%N = true)
      by (rewrite !andb_true_iff, ?N.leb_le; tauto).
    rewrite E1, E2. cbn. destruct x; reflexivity.
Qed.
Lemma ordinal_spec o n : convert_ordinal o = Ok n <-> read_ordinal o n.
Proof. destruct o; reflexivity. Qed.
Lemma ed_date_spec d e : convert_ed_date d = Ok e <-> read_ed_date d e.
Proof.
  split.
  - destruct d as [[o|]|d|[s|] o]; cbn.
    + destruct (convert_ordinal o) as [n| |] eqn:E; cbn; try discriminate. intros H. injection H as <-. constructor. now apply ordinal_spec.
    + intros H. injection H as <-. constructor.
    + destruct (convert_date d) as [x| |] eqn:E; cbn; try discriminate. intros H. injection H as <-. constructor. now apply date_spec.
    + destruct (num_from_hungarian s) as [m| |] eqn:M; cbn; try discriminate.
      destruct (convert_ordinal o) as [n| |] eqn:E; cbn; try discriminate. intros H. injection H as <-. constructor; [exact M|now apply ordinal_spec].
    + destruct (convert_ordinal o) as [n| |] eqn:E; cbn; try discriminate. intros H. injection H as <-. constructor. now apply ordinal_spec.
  - intros H. destruct H as [d x D| |o n O|o n O|s m o n M O]; cbn; auto.
    + apply date_spec in D. now rewrite D.
    + apply ordinal_spec in O. now rewrite O.
    + apply ordinal_spec in O. now rewrite O.
    + apply ordinal_spec in O. now rewrite M, O.
Qed.
Lemma ed_refs_spec rf l : forall b acc b' rs, convert_ed_refs rf l b acc = Ok (b', rs) <->
  run_events (flat_map ed_events l) b = Ok b' /\ exists r, ed_structurals rf l r /\ rs = acc ++ r.
Proof.
  induction l as [|[g|ss|x|] l IH]; intros b acc b' rs; cbn [convert_ed_refs flat_map ed_events].
  - cbn. split.
    + intros E. injection E as <- <-. split; [reflexivity|]. exists []. rewrite app_nil_r. split; [constructor|reflexivity].
    + intros (E & r & H & ->). inversion H. rewrite app_nil_r. congruence.
  - cbn [app]. split.
    + destruct (struct_ref_of rf g) as [s| |] eqn:E; cbn; try discriminate. rewrite IH. intros (R & r & H & ->). split; [exact R|].
      exists (s :: r). split; [|now rewrite <- app_assoc]. constructor; [|exact H]. apply struct_ref_spec. rewrite E. cbn.
      unfold struct_ref_of in E. destruct (opt_ok (book_of_grammar rf) (gas_book g)); cbn in E; try discriminate.
      destruct (struct_kind rf (gas_ref g)); cbn in E; try discriminate. injection E as <-. reflexivity.
    + intros (R & r & H & ->). inversion H as [|? s ? r' S H'| | |]; subst. apply struct_ref_spec in S.
      destruct (struct_ref_of rf g) as [s'| |] eqn:E; cbn in S; try discriminate.
      assert (s' = s).
      { injection S as <-. unfold struct_ref_of in E. destruct (opt_ok (book_of_grammar rf) (gas_book g)); cbn in E; try discriminate.
        destruct (struct_kind rf (gas_ref g)); cbn in E; try discriminate. injection E as <-. reflexivity. }
      subst s'. cbn. apply IH. split; [exact R|]. exists r'. split; [exact H'|now rewrite <- app_assoc].
  - cbn [app]. split.
    + destruct (map_ok (subtitle_ref None) ss) as [q| |] eqn:E; cbn; try discriminate. apply subtitles_spec in E. destruct E as (es & F & ->).
      rewrite IH. intros (R & r & H & ->). split; [exact R|]. eexists. split; [apply eds_subtitles; [exact F|exact H]|now rewrite <- app_assoc].
    + intros (R & r & H & ->). inversion H as [| |? es ? r' F H'| |]; subst.
      assert (E : map_ok (subtitle_ref None) ss = Ok (map (fun e => mkSRef None None None e false) es)) by (apply subtitles_spec; eauto).
      rewrite E. cbn. apply IH. split; [exact R|]. exists r'. split; [exact H'|now rewrite <- app_assoc].
  - rewrite run_events_app, feed_ref_run. destruct (run_events (ref_events x) b) as [b1| |]; cbn; [rewrite IH|split; [discriminate|intros [H _]; discriminate]..].
    split; intros (R & r & H & ->); (split; [exact R|]).
    + exists r. split; [now constructor|reflexivity].
    + inversion H; subst. eauto.
  - cbn [app]. rewrite IH. split; intros (R & r & H & ->); (split; [exact R|]).
    + exists r. split; [now constructor|reflexivity].
    + inversion H; subst. eauto.
Qed.
Lemma c40_spec rf x e : convert_enforcement rf x = Ok e <->
  exists refs structs d ir,
    recorded [] None 0 (flat_map ed_events (ge_refs x)) refs /\ ed_structurals rf (ge_refs x) structs /\  read_ed_date (ge_date x) d /\ opt_date (ge_repeal x) ir /\  e = mkEd (map o_ref refs) structs (match ge_refs x with [] => true | _ => false end) d ir.
Proof.
  unfold convert_enforcement. split.
  - destruct (convert_ed_refs rf (ge_refs x) ob_new []) as [[b rs]| |] eqn:E; cbn; try discriminate.
    apply ed_refs_spec in E. destruct E as (R & r & S & ->). apply (run_recorded _ []) in R; [|exact says_nil]. destruct R as (_ & l & R & El).
    destruct (convert_ed_date (ge_date x)) as [d| |] eqn:D; cbn; try discriminate. apply ed_date_spec in D.
    destruct (opt_ok convert_date (ge_repeal x)) as [ir| |] eqn:I; cbn; try discriminate. intros H. injection H as <-.
    exists l, r, d, ir. repeat split; auto.
    + unfold opt_ok in I. destruct (ge_repeal x) as [y|]; [|injection I as <-; exact Logic.I].
      destruct (convert_date y) eqn:Y; cbn in I; try discriminate. injection I as <-. now apply date_spec.
    + rewrite El. cbn. destruct (ge_refs x); reflexivity.
  - intros (l & r & d & ir & R & S & D & I & ->). destruct (recorded_run _ [] ob_new l says_nil R) as (b & E & El).
    assert (E' : convert_ed_refs rf (ge_refs x) ob_new [] = Ok (b, r)) by (apply ed_refs_spec; split; [exact E|exists r; auto]).
    rewrite E'. cbn. apply ed_date_spec in D. rewrite D. cbn.
    assert (I' : opt_ok convert_date (ge_repeal x) = Ok ir).
    { destruct (ge_repeal x) as [y|], ir as [z|]; cbn in I; try contradiction; [|reflexivity]. cbn. apply date_spec in I. now rewrite I. }
    rewrite I'. cbn. rewrite El. cbn. destruct (ge_refs x); reflexivity.
Qed.
