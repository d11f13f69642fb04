(** Proofs for the outgoing references (C37): feeding the builder is running the events of the sentence. *)
From Verif Require Export ProofSem ProofIdent2 ProofRef ProofRef2.

(** ** The builder of references and the parts in force *)
Definition set_any (a : any_part) (r : reference) : reference :=
  match a with
  | PartEmpty => r | PartAct x => set_act x r | PartArticle x => set_article x r
  | PartParagraph x => set_paragraph x r | PartPoint x => set_point x r | PartSubpoint x => set_subpoint x r
  end.
Lemma in_force_snoc L ps a : in_force L (ps ++ [a]) =
  if (part_level a <=? L)%nat then (if (part_level a =? L)%nat then Some a else None) else in_force L ps.
Proof. unfold in_force. rewrite rev_app_distr. cbn. destruct (part_level a <=? L)%nat; reflexivity. Qed.
Lemma says_set ps a r : says ps r -> says (ps ++ [a]) (set_any a r).
Proof.
  intros (H0 & H1 & H2 & H3 & H4). unfold says. rewrite !in_force_snoc. destruct a; cbn; auto.
Qed.
Lemma says_nil : says [] empty_ref.
Proof. unfold says. cbn. auto. Qed.
Lemma option_map_inj {A B} (f : A -> B) (I : forall x y, f x = f y -> x = y) o o' : option_map f o = option_map f o' -> o = o'.
Proof. destruct o, o'; cbn; try discriminate; auto. intros E. injection E as E. f_equal. auto. Qed.
Lemma says_unique ps r r' : says ps r -> says ps r' -> r = r'.
Proof.
  intros (H0 & H1 & H2 & H3 & H4) (K0 & K1 & K2 & K3 & K4). destruct r, r'; cbn in *.
  rewrite <- K0 in H0. rewrite <- K1 in H1. rewrite <- K2 in H2. rewrite <- K3 in H3. rewrite <- K4 in H4.
  apply option_map_inj in H0, H1, H2, H3, H4; congruence.
Qed.
Lemma try_ref_same r r' : try_ref r = Ok r' -> r' = r.
Proof. unfold try_ref, ensure. destruct (check_parts r), (check_ranges r); cbn; congruence. Qed.

(** ** Running events *)
Fixpoint run_events (evs : list ref_event) (b : obuilder) : outcome obuilder :=
  match evs with
  | [] => Ok b
  | EvPart p a :: evs' => let* a := a in run_events evs' (ob_set p (set_any a) b)
  | EvEnd e :: evs' => run_events evs' (ob_set_end e b)
  | EvRecord :: evs' => let* b := record_one b in run_events evs' b
  end.
Lemma run_events_app e1 e2 b : run_events (e1 ++ e2) b = (let* b := run_events e1 b in run_events e2 b).
Proof.
  revert b. induction e1 as [|[p [a| |]|e|] e1 IH]; intros b; cbn; auto. destruct (record_one b); cbn; auto.
Qed.
Lemma feed_opt_run {A} (f : A -> obuilder -> outcome obuilder) g o b :
  (forall x b, f x b = run_events (g x) b) -> feed_opt f o b = run_events (opt_events g o) b.
Proof. destruct o; cbn; auto. Qed.
Lemma feed_all_run {A} (f : A -> obuilder -> outcome obuilder) g l b :
  (forall x b, f x b = run_events (g x) b) -> feed_all f l b = run_events (flat_map g l) b.
Proof.
  intros H. revert b. induction l as [|x l IH]; intros b; cbn; [reflexivity|].
  rewrite run_events_app, H. destruct (run_events (g x) b); cbn; auto.
Qed.
Lemma separated_cons {A} (f : A -> list ref_event) x l :
  separated f (x :: l) = f x ++ flat_map (fun y => EvRecord :: f y) l.
Proof.
  revert x. induction l as [|y l IH]; intros x; [cbn; now rewrite app_nil_r|].
  change (separated f (x :: y :: l)) with (f x ++ EvRecord :: separated f (y :: l)). rewrite IH. reflexivity.
Qed.
Lemma feed_parts_run {A} (f : A -> obuilder -> outcome obuilder) g l b :
  (forall x b, f x b = run_events (g x) b) -> feed_parts f l b = run_events (separated g l) b.
Proof.
  intros H. destruct l as [|x l]; [reflexivity|]. rewrite separated_cons, run_events_app. cbn [feed_parts]. rewrite H.
  destruct (run_events (g x) b) as [b1| |]; cbn; auto. revert b1. induction l as [|y l IH]; intros b1; cbn; [reflexivity|].
  destruct (record_one b1) as [b2| |]; cbn; auto. rewrite run_events_app, H. destruct (run_events (g y) b2); cbn; auto.
Qed.
Lemma part_range_read {T} (parse : str -> outcome T) p : part_range parse p = read_range parse (gp_start p) (gp_end p) (gp_id p).
Proof. unfold part_range, read_range. destruct (gp_id p); [reflexivity|]. destruct (gp_start p), (gp_end p); reflexivity. Qed.
Lemma feed_part_run {T} (parse : str -> outcome T) set mk p b :
  (forall r x, set r x = set_any (mk r) x) -> feed_part parse set p b = run_events (part_event parse mk p) b.
Proof.
  intros H. unfold feed_part, part_event. rewrite part_range_read. cbn.
  destruct (read_range parse (gp_start p) (gp_end p) (gp_id p)) as [r| |]; cbn; auto.
  unfold ob_set. now rewrite H.
Qed.
Lemma article_part_read p : omap PartArticle (article_part p) = read_article p.
Proof.
  unfold article_part, read_article, opt_ok. destruct (ga_book p) as [bk|]; [destruct (parse_u8 bk)|]; cbn; auto;
  unfold read_range; (destruct (ga_id p) as [i|]; [destruct (numeric_parse i); reflexivity|]);
  destruct (ga_start p) as [st|], (ga_end p) as [en|]; cbn; auto;
  destruct (numeric_parse st); cbn; auto; destruct (numeric_parse en); reflexivity.
Qed.
Lemma feed_article_run p b : feed_article p b = run_events (article_event p) b.
Proof. unfold feed_article, article_event. cbn. rewrite <- article_part_read. destruct (article_part p); reflexivity. Qed.
Lemma feed_single_run s b : feed_single s b = run_events (single_events s) b.
Proof.
  unfold feed_single, single_events. cbn. rewrite <- article_part_read. destruct (article_part (gs_part s)); cbn; auto.
  destruct (record_one _); reflexivity.
Qed.
Lemma feed_relative_run r b : feed_relative r b = run_events (relative_events r) b.
Proof. destruct r; apply feed_single_run. Qed.
Lemma lower_run par np ap ns als b :
  (let* b := feed_opt (feed_parts feed_paragraph) par b in
   let* b := feed_opt (feed_parts feed_num_point) np b in
   let* b := feed_opt (feed_parts feed_alpha_point) ap b in
   let* b := feed_opt (feed_parts feed_num_sub) ns b in
   feed_opt (feed_parts feed_alpha_sub) als b) = run_events (lower_events par np ap ns als) b.
Proof.
  unfold lower_events. rewrite run_events_app.
  rewrite (feed_opt_run (feed_parts feed_paragraph) (separated (part_event numeric_parse PartParagraph)))
    by (intros; apply feed_parts_run; intros; now apply feed_part_run).
  destruct (run_events _ b) as [b1| |]; cbn [obind]; auto. clear b. rewrite run_events_app.
  rewrite (feed_opt_run (feed_parts feed_num_point) (separated (part_event numeric_parse (fun r => PartPoint (PtNum r)))))
    by (intros; apply feed_parts_run; intros; now apply feed_part_run).
  destruct (run_events _ b1) as [b| |]; cbn [obind]; auto. clear b1. rewrite run_events_app.
  rewrite (feed_opt_run (feed_parts feed_alpha_point) (separated (part_event hic_parse (fun r => PartPoint (PtAlpha r)))))
    by (intros; apply feed_parts_run; intros; now apply feed_part_run).
  destruct (run_events _ b) as [b1| |]; cbn [obind]; auto. clear b. rewrite run_events_app.
  rewrite (feed_opt_run (feed_parts feed_num_sub) (separated (part_event numeric_parse (fun r => PartSubpoint (SpNum r)))))
    by (intros; apply feed_parts_run; intros; now apply feed_part_run).
  destruct (run_events _ b1) as [b| |]; cbn [obind]; auto. clear b1.
  now rewrite (feed_opt_run (feed_parts feed_alpha_sub) (separated (part_event prefixed_parse (fun r => PartSubpoint (SpAlpha r)))))
    by (intros; apply feed_parts_run; intros; now apply feed_part_run).
Qed.
Lemma obind_assoc {A B C} (x : outcome A) (f : A -> outcome B) (g : B -> outcome C) :
  obind (obind x f) g = obind x (fun a => obind (f a) g).
Proof. destruct x; reflexivity. Qed.
Lemma obind_ext {A B} (x : outcome A) (f g : A -> outcome B) : (forall a, f a = g a) -> obind x f = obind x g.
Proof. destruct x; cbn; auto. Qed.
Lemma record_last b : record_one b = run_events [EvRecord] b.
Proof. cbn. destruct (record_one b); reflexivity. Qed.
Lemma lower_then par np ap ns als b (k : obuilder -> outcome obuilder) :
  (let* b := feed_opt (feed_parts feed_paragraph) par b in
   let* b := feed_opt (feed_parts feed_num_point) np b in
   let* b := feed_opt (feed_parts feed_alpha_point) ap b in
   let* b := feed_opt (feed_parts feed_num_sub) ns b in
   let* b := feed_opt (feed_parts feed_alpha_sub) als b in k b) = (let* b := run_events (lower_events par np ap ns als) b in k b).
Proof.
  rewrite <- lower_run. rewrite !obind_assoc. apply obind_ext. intros. rewrite !obind_assoc. apply obind_ext. intros.
  rewrite !obind_assoc. apply obind_ext. intros. rewrite !obind_assoc. apply obind_ext. reflexivity.
Qed.
Lemma feed_ref_run r b : feed_ref r b = run_events (ref_events r) b.
Proof.
  unfold feed_ref, ref_events. rewrite run_events_app.
  rewrite (feed_opt_run _ (separated article_event)) by (intros; apply feed_parts_run; apply feed_article_run).
  apply obind_ext. intros b1. rewrite lower_then, run_events_app. apply obind_ext. intros b2. cbn.
  destruct (record_one _); reflexivity.
Qed.
Lemma feed_ins_run r b : feed_ins r b = run_events (ins_events r) b.
Proof.
  unfold feed_ins, ins_events. rewrite run_events_app.
  rewrite (feed_parts_run _ (separated article_event)) by (intros; apply feed_parts_run; apply feed_article_run).
  apply obind_ext. intros b1. rewrite lower_then, run_events_app. apply obind_ext. intros b2. cbn.
  destruct (record_one _); reflexivity.
Qed.
Section Sem2.
  Variable rf : str -> option Z.
  Lemma act_denoted c a : convert_act_reference rf c a = denoted_act rf (ca_map c) a.
  Proof.
    destruct a as [[i ab]|s p]; cbn.
    - unfold act_of_grammar. pose proof (parse_signed_not_panic i16_min i16_max (gai_year i)) as P.
      unfold parse_i16. destruct (parse_signed _ _ _); cbn; [destruct (rf _); reflexivity|reflexivity|congruence].
    - unfold cache_resolve, ok_or. destruct (map_get s (ca_map c)); reflexivity.
  Qed.
  Lemma act_pos_same a : act_ref_pos a = act_position a.
  Proof. destruct a as [[i ab]|s p]; reflexivity. Qed.
  Lemma feed_act_run c a b : feed_act rf c a b = run_events (act_events_of rf (ca_map c) a) b.
  Proof.
    unfold feed_act, act_events_of. cbn. rewrite act_denoted, act_pos_same. destruct (denoted_act _ _ a); cbn; auto.
    destruct (record_one _); reflexivity.
  Qed.
  Lemma feed_ta_run t b : feed_ta_ref t b = run_events (ta_events t) b.
  Proof. destruct t as [s|p [g|r]|l|r o|]; cbn [feed_ta_ref ta_events]; auto using feed_single_run, feed_relative_run, feed_ref_run. Qed.
  Lemma feed_ed_run r b : feed_ed_ref r b = run_events (ed_events r) b.
  Proof. destruct r; cbn [feed_ed_ref ed_events]; auto using feed_ref_run. Qed.
  Lemma compound_run c x : compound_references rf c x = omap ob_result (run_events (compound_events rf (ca_map c) x) ob_new).
  Proof.
    unfold compound_references, compound_events. rewrite run_events_app.
    rewrite (feed_opt_run _ (act_events_of rf (ca_map c))) by apply feed_act_run.
    destruct (run_events _ ob_new) as [b| |]; cbn; auto.
    rewrite (feed_all_run _ ref_events) by apply feed_ref_run. destruct (run_events _ b); reflexivity.
  Qed.
  Lemma block_run c x : block_references rf c x = omap ob_result (run_events (root_events rf (ca_map c) (RBlock x)) ob_new).
  Proof.
    unfold block_references. cbn [root_events]. rewrite !run_events_app, feed_act_run.
    destruct (run_events _ ob_new) as [b| |]; cbn [obind omap]; auto.
    rewrite run_events_app, (feed_opt_run _ ref_events) by apply feed_ref_run.
    destruct (run_events _ b) as [b1| |]; cbn [obind omap]; auto.
    rewrite (feed_opt_run _ ins_events) by apply feed_ins_run. destruct (run_events _ b1); reflexivity.
  Qed.
  Lemma outgoing_run c r : is_list r = false ->
    get_outgoing_references rf c r = omap ob_result (run_events (root_events rf (ca_map c) r) ob_new).
  Proof.
    intros L. destruct r as [x|x|x|x|x|x|l]; try discriminate.
    - apply block_run.
    - cbn [get_outgoing_references root_events]. rewrite !run_events_app, feed_act_run.
      destruct (run_events _ ob_new) as [b| |]; cbn [obind omap]; auto.
      rewrite run_events_app, (feed_opt_run _ relative_events) by apply feed_relative_run.
      destruct (run_events _ b) as [b1| |]; cbn [obind omap]; auto.
      rewrite (feed_opt_run _ single_events) by apply feed_single_run. destruct (run_events _ b1); reflexivity.
    - cbn [get_outgoing_references root_events]. rewrite feed_act_run. destruct (run_events _ ob_new); reflexivity.
    - cbn [get_outgoing_references root_events]. rewrite !run_events_app, feed_act_run.
      destruct (run_events _ ob_new) as [b| |]; cbn [obind omap]; auto.
      rewrite (feed_all_run _ ta_events) by apply feed_ta_run. destruct (run_events _ b); reflexivity.
    - cbn [get_outgoing_references root_events]. rewrite (feed_all_run _ ed_events) by apply feed_ed_run.
      destruct (run_events _ ob_new); reflexivity.
    - cbn [get_outgoing_references root_events]. rewrite !run_events_app, feed_act_run.
      destruct (run_events _ ob_new) as [b| |]; cbn [obind omap]; auto.
      rewrite (feed_all_run _ ta_events) by apply feed_ta_run. destruct (run_events _ b); reflexivity.
  Qed.
End Sem2.

(** ** Running events and [recorded] *)
Lemma record_ok b b' : record_one b = Ok b' <->
  exists s, ob_start b = Some s /\ try_ref (ob_ref b) = Ok (ob_ref b) /\
    b' = mkOb (ob_ref b) (ob_result b ++ [mkOut s (ob_end b) (ob_ref b)]) None (ob_end b).
Proof.
  unfold record_one, build. destruct (ob_start b) as [s|]; cbn.
  - destruct (try_ref (ob_ref b)) as [r| |] eqn:T; cbn.
    + pose proof (try_ref_same _ _ T). subst r. split.
      * intros E. injection E as <-. eauto.
      * intros (s' & E & _ & ->). congruence.
    + split; [discriminate|]. intros (s' & _ & E & _). discriminate.
    + split; [discriminate|]. intros (s' & _ & E & _). discriminate.
  - split; [discriminate|]. intros (s' & E & _). discriminate.
Qed.
Definition start_after (s : option N) (p : pos) : option N := match s with None => Some (ps_start p) | s => s end.
Lemma run_recorded evs : forall ps b b', says ps (ob_ref b) -> run_events evs b = Ok b' ->
  says (ps ++ parts_of evs) (ob_ref b') /\ exists l, recorded ps (ob_start b) (ob_end b) evs l /\ ob_result b' = ob_result b ++ l.
Proof.
  induction evs as [|[p [a| |]|e|] evs IH]; intros ps b b' S H; cbn in H; try discriminate.
  - injection H as <-. cbn. rewrite app_nil_r. split; [exact S|]. exists []. split; [constructor|now rewrite app_nil_r].
  - apply (IH (ps ++ [a])) in H; [|cbn; now apply says_set]. destruct H as [S' (l & R & E)]. cbn [parts_of].
    rewrite <- app_assoc in S'. split; [exact S'|]. exists l. split; [|exact E]. constructor. cbn in R.
    destruct (ob_start b); exact R.
  - apply (IH ps) in H; [|exact S]. destruct H as [S' (l & R & E)]. split; [exact S'|]. exists l. split; [now constructor|exact E].
  - destruct (record_one b) as [b1| |] eqn:R1; cbn in H; try discriminate. apply record_ok in R1. destruct R1 as (s & Es & T & ->).
    apply (IH ps) in H; [|exact S]. destruct H as [S' (l & R & E)]. split; [exact S'|]. exists (mkOut s (ob_end b) (ob_ref b) :: l).
    rewrite Es. split; [now constructor|]. rewrite E. cbn. now rewrite <- app_assoc.
Qed.
Lemma recorded_run evs : forall ps b l, says ps (ob_ref b) -> recorded ps (ob_start b) (ob_end b) evs l ->
  exists b', run_events evs b = Ok b' /\ ob_result b' = ob_result b ++ l.
Proof.
  induction evs as [|[p a|e|] evs IH]; intros ps b l S R; inversion R as [|? ? ? ? ? ? ? R'|? ? ? ? ? ? R'|? ? ? r ? ? Sr T R']; subst.
  - exists b. now rewrite app_nil_r.
  - cbn. apply (IH (ps ++ [a0]) (ob_set p (set_any a0) b)); [cbn; now apply says_set|]. cbn. destruct (ob_start b); exact R'.
  - cbn. exact (IH ps (ob_set_end e b) l S R').
  - cbn. rewrite <- (says_unique _ _ _ S Sr) in T. unfold record_one, build. rewrite <- H0. cbn. rewrite T. cbn.
    destruct (IH ps (mkOb (ob_ref b) (ob_result b ++ [mkOut s (ob_end b) (ob_ref b)]) None (ob_end b)) l0 S R') as (b' & E & F).
    exists b'. split; [exact E|]. rewrite F. cbn. rewrite <- app_assoc. cbn. now rewrite (says_unique _ _ _ S Sr).
Qed.
Lemma run_not_panic evs : Forall (fun e => match e with EvPart _ Panic => False | _ => True end) evs -> forall b, run_events evs b <> Panic.
Proof.
  induction 1 as [|[p [a| |]|e|] evs P F IH]; intros b; cbn; try discriminate; try tauto; auto.
  unfold record_one, build. destruct (ob_start b); cbn; [|discriminate].
  pose proof (try_ref_not_panic (ob_ref b)) as T. destruct (try_ref (ob_ref b)); cbn; auto; congruence.
Qed.
Definition no_panic_ev (e : ref_event) : Prop := match e with EvPart _ Panic => False | _ => True end.
Lemma read_range_np {T} (parse : str -> outcome T) a b c : (forall s, parse s <> Panic) -> read_range parse a b c <> Panic.
Proof.
  intros P. unfold read_range. destruct c as [i|]; [|destruct a as [s|], b as [e|]]; try discriminate.
  - specialize (P i). destruct (parse i); cbn; congruence.
  - pose proof (P s). pose proof (P e). destruct (parse s); cbn; try congruence. destruct (parse e); cbn; congruence.
Qed.
Lemma omap_np {A B} (f : A -> B) x : x <> Panic -> omap f x <> Panic.
Proof. destruct x; cbn; congruence. Qed.
Lemma read_article_np p : read_article p <> Panic.
Proof.
  unfold read_article. destruct (ga_book p) as [bk|]; cbn.
  - pose proof (parse_unsigned_not_panic u8_max bk). unfold parse_u8. destruct (parse_unsigned u8_max bk); cbn; try congruence.
    apply omap_np, read_range_np. intros s. apply omap_np, numeric_parse_not_panic.
  - apply omap_np, read_range_np. intros s. apply omap_np, numeric_parse_not_panic.
Qed.
Lemma ev_np p a : a <> Panic -> no_panic_ev (EvPart p a).
Proof. destruct a; cbn; auto. Qed.
Lemma separated_forall {A} (P : ref_event -> Prop) f (l : list A) : P EvRecord -> (forall x, Forall P (f x)) -> Forall P (separated f l).
Proof.
  intros R F. destruct l as [|x l]; [constructor|]. rewrite separated_cons. apply Forall_app. split; [apply F|].
  induction l; cbn; constructor; auto. apply Forall_app. auto.
Qed.
Lemma part_np {T} (parse : str -> outcome T) mk p : (forall s, parse s <> Panic) -> Forall no_panic_ev (part_event parse mk p).
Proof. intros P. constructor; [|constructor]. apply ev_np, omap_np, read_range_np, P. Qed.
Lemma opt_forall {A} (P : ref_event -> Prop) f (o : option A) : (forall x, Forall P (f x)) -> Forall P (opt_events f o).
Proof. destruct o; cbn; auto. Qed.
Lemma flat_forall {A} (P : ref_event -> Prop) f (l : list A) : (forall x, Forall P (f x)) -> Forall P (flat_map f l).
Proof. intros F. induction l; cbn; [constructor|]. apply Forall_app. auto. Qed.
Lemma article_np p : Forall no_panic_ev (article_event p).
Proof. constructor; [|constructor]. apply ev_np, read_article_np. Qed.
Lemma lower_np par np ap ns als : Forall no_panic_ev (lower_events par np ap ns als).
Proof.
  unfold lower_events. rewrite !Forall_app. repeat split; apply opt_forall; intros; apply separated_forall; cbn; auto; intros;
  apply part_np; auto using numeric_parse_not_panic, hic_parse_not_panic, prefixed_parse_not_panic.
Qed.
Lemma single_np s : Forall no_panic_ev (single_events s).
Proof. constructor; [apply ev_np, read_article_np|]. repeat constructor. Qed.
Lemma relative_np s : Forall no_panic_ev (relative_events s).
Proof. destruct s; apply single_np. Qed.
Lemma ref_np r : Forall no_panic_ev (ref_events r).
Proof.
  unfold ref_events. rewrite !Forall_app. repeat split; auto using lower_np; [|repeat constructor].
  apply opt_forall. intros. apply separated_forall; cbn; auto using article_np.
Qed.
Lemma ins_np r : Forall no_panic_ev (ins_events r).
Proof.
  unfold ins_events. rewrite !Forall_app. repeat split; auto using lower_np; [|repeat constructor].
  apply separated_forall; cbn; auto. intros. apply separated_forall; cbn; auto using article_np.
Qed.
Section Sem3.
  Variables (rf : str -> option Z) (m : list (str * act_id)).
  Lemma denoted_np a : denoted_act rf m a <> Panic.
  Proof. destruct a as [[i ab]|s p]; cbn; [destruct (parse_i16 (gai_year i)), (rf (gai_number i))|destruct (map_get s m)]; discriminate. Qed.
  Lemma act_np a : Forall no_panic_ev (act_events_of rf m a).
  Proof. constructor; [apply ev_np, omap_np, denoted_np|]. repeat constructor. Qed.
  Lemma ta_np t : Forall no_panic_ev (ta_events t).
  Proof. destruct t as [s|p [g|r]|l|r o|]; cbn [ta_events]; auto using single_np, relative_np, ref_np. Qed.
  Lemma root_np r : Forall no_panic_ev (root_events rf m r).
  Proof.
    destruct r; cbn [root_events]; rewrite ?Forall_app; repeat split; auto using act_np, opt_forall, flat_forall, ref_np, ins_np, relative_np, single_np, ta_np.
    - apply flat_forall. intros []; cbn [ed_events]; auto using ref_np.
    - apply flat_forall. intros [c|]; cbn [simple_events]; auto. unfold compound_events. rewrite Forall_app.
      split; auto using opt_forall, flat_forall, act_np, ref_np.
  Qed.
End Sem3.
