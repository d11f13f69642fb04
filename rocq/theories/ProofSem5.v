(** Proofs for C50: what the elements of an act are given by the grammar. *)
From Verif Require Export ProofSem4 ProofWalk2.

Section C50.
  Variables (rf : str -> option Z) (gp : str -> list str -> outcome g_root).
  Notation understood := (understood rf gp).
  Notation worked := (worked rf gp).
  Definition kept_info (intro : bool) (i : sem_info) : sem_info := if intro then intro_info i else i.
  Lemma kept_info_phrase intro out new p : kept_info intro (mkSi out new p) = mkSi out new (phrase_kept intro p).
  Proof. destruct intro, p as [[]|]; reflexivity. Qed.
  Lemma extract_understood st t intro : let '(st', o) := extract_semantic_info rf gp t st in
    ad_prefix st' = ad_prefix st /\ ad_postfix st' = ad_postfix st /\
    let task := mkTask (top (ad_prefix st)) t (top (ad_postfix st)) intro in
    match o with
    | Ok i => understood (ad_cache st) task (kept_info intro i) (ad_cache st')
    | _ => forall i c, ~ understood (ad_cache st) task i c
    end.
  Proof.
    set (task := mkTask (top (ad_prefix st)) t (top (ad_postfix st)) intro). unfold extract_semantic_info. cbn zeta.
    set (text := assemble (top (ad_prefix st)) t (top (ad_postfix st))).
    assert (S : sentence task text) by exact (assemble_sentence task).
    destruct (gp text (all_abbreviations (ad_cache st))) as [root| |] eqn:G; cbn [obind].
    2, 3: split; [reflexivity|split; [reflexivity|]]; intros i c H; inversion H as [text' root new out kp p S' G' N O K P]; subst;
      rewrite (sentence_unique _ _ _ S' S) in G'; unfold all_abbreviations in G; congruence.
    destruct (get_new_abbreviations rf root) as [new| |] eqn:N; cbn [obind].
    2, 3: split; [reflexivity|split; [reflexivity|]]; intros i c H; inversion H as [text' root' new out kp p S' G' N' O K P]; subst;
      rewrite (sentence_unique _ _ _ S' S) in G'; unfold all_abbreviations in G; congruence.
    cbn [ad_prefix ad_postfix ad_cache]. split; [reflexivity|split; [reflexivity|]].
    assert (U : forall i c, understood (ad_cache st) task i c -> exists out p, get_outgoing_references rf (cache_add_multiple new (ad_cache st)) root = Ok out /\
      extract_special_phrase rf (cache_add_multiple new (ad_cache st)) root = Ok p).
    { intros i c H. inversion H as [text' root' new' out kp p S' G' N' O K P]; subst. rewrite (sentence_unique _ _ _ S' S) in G'.
      unfold all_abbreviations in G. rewrite G in G'. injection G' as <-. rewrite N in N'. injection N' as <-. eauto. }
    destruct (get_outgoing_references rf _ root) as [out| |] eqn:O; cbn [obind].
    2, 3: intros i c H; destruct (U i c H) as (o' & p' & A & B); discriminate.
    destruct (extract_special_phrase rf _ root) as [p| |] eqn:P; cbn [obind].
    2, 3: intros i c H; destruct (U i c H) as (o' & p' & A & B); discriminate.
    rewrite kept_info_phrase. exact (understood_ rf gp (ad_cache st) task text root new out _ p S G N O (kept_spec _ _ _) P).
  Qed.
  Lemma worked_length c ts old new o c' : worked c ts old new o c' -> List.length old = List.length ts /\ List.length new = List.length ts.
  Proof. induction 1 as [|c t ts i old new o c1 c2 j U W [A B]|]; cbn; auto. Qed.
  Lemma worked_app c ts old new c1 ts2 old2 new2 o c2 : worked c ts old new (Ok tt) c1 -> worked c1 ts2 old2 new2 o c2 ->
    worked c (ts ++ ts2) (old ++ old2) (new ++ new2) o c2.
  Proof.
    intros W W2. remember (Ok tt) as k eqn:E. induction W as [|c t ts i old new o' c1 c' j U W IH|c t ts old o' c1 F N L]; subst; cbn.
    - exact W2.
    - econstructor; eauto.
    - contradiction.
  Qed.
  Lemma worked_more c ts old new o c1 ts2 old2 : worked c ts old new o c1 -> o <> Ok tt -> List.length old2 = List.length ts2 ->
    worked c (ts ++ ts2) (old ++ old2) (new ++ old2) o c1.
  Proof.
    intros W N L2. induction W as [|c t ts i old new o' c1 c' j U W IH|c t ts old o' c1 F N' L]; cbn.
    - contradiction.
    - econstructor; eauto.
    - constructor; auto. rewrite !app_length. lia.
  Qed.

  (** ** Going through the elements *)
  Definition ninf (n : node) : list sem_info := map (fun p => info (snd p)) (preorder n).
  Definition goes {A} (st : adder) (tasks : str -> str -> list task) (old : list sem_info) (inf : A -> list sem_info)
      (r : (A * adder) * outcome unit) : Prop :=
    worked (ad_cache st) (tasks (top (ad_prefix st)) (top (ad_postfix st))) old (inf (fst (fst r))) (snd r) (ad_cache (snd (fst r))) /\
    (snd r = Ok tt -> ad_prefix (snd (fst r)) = ad_prefix st /\ ad_postfix (snd (fst r)) = ad_postfix st).
  Lemma goes_map {A B} (h : A -> B) st tasks old inf r : goes st tasks old (fun a => inf (h a)) r -> goes st tasks old inf (mut_map h r).
  Proof. destruct r as [[x s] o]. exact (fun H => H). Qed.
  Lemma goes_list {A} (f : A -> adder -> (A * adder) * outcome unit) (tasks : A -> str -> str -> list task) (inf : A -> list sem_info) l :
    (forall x, In x l -> forall b a, List.length (inf x) = List.length (tasks x b a)) ->
    (forall x, In x l -> forall st, goes st (tasks x) (inf x) inf (f x st)) ->
    forall st, goes st (fun b a => flat_map (fun x => tasks x b a) l) (flat_map inf l) (flat_map inf) (mut_list f l st).
  Proof.
    intros L H. induction l as [|x l IH]; intros st.
    - split; [constructor|auto].
    - cbn [mut_list flat_map]. destruct (H x (or_introl eq_refl) st) as [W S]. destruct (f x st) as [[x' st'] o]. cbn [fst snd] in W, S.
      assert (LL : forall b a, List.length (flat_map inf l) = List.length (flat_map (fun x => tasks x b a) l)).
      { intros b a. clear -L. induction l as [|y l IH]; [reflexivity|]. cbn. rewrite !app_length. rewrite (L y) with (b := b) (a := a); [|right; now left].
        rewrite IH; [reflexivity|]. intros z [<-|I]; apply L; [now left|right; now right]. }
      destruct o as [[]| |].
      + destruct (S eq_refl) as [S1 S2]. destruct (IH (fun y I => L y (or_intror I)) (fun y I => H y (or_intror I)) st') as [W2 S3].
        destruct (mut_list f l st') as [[l2 s2] o2]. cbn [fst snd] in W2, S3. rewrite S1, S2 in *. split; cbn [fst snd flat_map].
        * eapply worked_app; eauto.
        * exact S3.
      + split; cbn [fst snd flat_map]; [|discriminate]. apply worked_more; auto; discriminate.
      + split; cbn [fst snd flat_map]; [|discriminate]. apply worked_more; auto; discriminate.
  Qed.
  Lemma ninf_length n : forall b a, List.length (ninf n) = List.length (node_tasks b a n).
  Proof.
    induction n as [r x l IH] using node_ind'. intros b a. unfold ninf. cbn. f_equal. rewrite map_length.
    generalize (b ++ own_text x ++ lit " ") (wrap_up_text x ++ a). intros b' a'. induction IH as [|n l H F IH']; [reflexivity|].
    cbn. rewrite !app_length, <- IH'. f_equal. rewrite <- (H b' a'). unfold ninf. now rewrite map_length.
  Qed.
  Lemma ninf_node r x l : ninf (Node r x l) = info x :: flat_map ninf l.
  Proof. unfold ninf. cbn. f_equal. induction l as [|n l IH]; cbn; [reflexivity|]. now rewrite map_app, IH. Qed.
  (** An element with identifier [id], at [r], with the nodes [below b] for its body [b] *)
  Lemma goes_elem k wc base (e : elem k) r (below : sae_body (children_of_kind k) -> list node) st :
    relative_to (own_ref k (s_id e)) base = Ok r ->
    (forall t, below (BText t) = []) ->
    (forall i c w, s_body e = BChildren i c w -> forall st,
       goes st (fun b a => flat_map (node_tasks b a) (below (BChildren i c w))) (flat_map ninf (below (BChildren i c w)))
         (fun c' => flat_map ninf (below (BChildren i c' w))) (wc r c st)) ->
    let res := mut_elem (sem_visitor rf gp) k wc base e st in
    s_id (fst (fst res)) = s_id e /\
    goes st (fun b a => node_tasks b a (Node r (El k e) (below (s_body e)))) (ninf (Node r (El k e) (below (s_body e))))
      (fun e' => ninf (Node r (El k e') (below (s_body e')))) res.
  Proof.
    intros R T H. cbn zeta. unfold mut_elem. rewrite R. cbn [sem_visitor on_enter_mut on_exit_mut]. unfold sem_enter.
    destruct e as [id b si ch]. cbn [s_body s_id]. destruct b as [t|i c w].
    - pose proof (extract_understood st t false) as X. destruct (extract_semantic_info rf gp t st) as [st' [i| |]]; cbn [and_then] in *.
      + unfold sem_exit; cbn [and_then fst snd with_info s_body]. split; [reflexivity|]. unfold goes. cbn [and_then fst snd s_body with_info s_id s_si s_change].
        rewrite !ninf_node, !T. destruct X as (P1 & P2 & U). split; [|auto]. cbn [flat_map node_tasks].
        rewrite ?T. cbn [flat_map]. econstructor; [exact U|constructor].
      + split; [reflexivity|]. unfold goes. cbn [and_then fst snd s_body with_info s_id s_si s_change].
        rewrite !ninf_node, !T. destruct X as (P1 & P2 & U). split; [|discriminate]. cbn [flat_map node_tasks].
        rewrite ?T. constructor; [exact U|discriminate|reflexivity].
      + split; [reflexivity|]. unfold goes. cbn [and_then fst snd s_body with_info s_id s_si s_change].
        rewrite !ninf_node, !T. destruct X as (P1 & P2 & U). split; [|discriminate]. cbn [flat_map node_tasks].
        rewrite ?T. constructor; [exact U|discriminate|reflexivity].
    - specialize (H i c w eq_refl). pose proof (extract_understood st i true) as X. destruct (extract_semantic_info rf gp i st) as [st' [inf| |]]; cbn [and_then fst snd] in *.
      2, 3: split; [reflexivity|]; destruct X as (P1 & P2 & U); split; cbn [fst snd]; [|discriminate]; cbn [s_body]; rewrite ninf_node; cbn [node_tasks];
        constructor; [exact U|discriminate|]; cbn [List.length]; f_equal;
        clear; induction (below (BChildren i c w)) as [|n l IH]; [reflexivity|]; cbn [flat_map]; rewrite !app_length, IH; f_equal; apply ninf_length.
      destruct X as (P1 & P2 & U). cbn [with_info s_body].
      set (st1 := mkAdder _ _ _). specialize (H st1). destruct (wc r c st1) as [[c' st2] o2]. destruct H as [W S]. cbn [fst snd] in W, S.
      assert (B : top (ad_prefix st1) = top (ad_prefix st) ++ i ++ lit " ") by (cbn; now rewrite P1).
      assert (A : top (ad_postfix st1) = wrap_up_text (El k (mkSae id (BChildren i c w) si ch)) ++ top (ad_postfix st)).
      { cbn. rewrite P2. destruct w as [w|]; [now rewrite <- app_assoc|reflexivity]. }
      rewrite B, A in W. change (ad_cache st1) with (ad_cache st') in W.
      destruct o2 as [[]| |]; cbn [and_then fst snd with_body sem_exit s_body].
      + destruct (S eq_refl) as [S1 S2]. split; [reflexivity|]. unfold goes. cbn [fst snd s_body with_body with_info s_id s_si s_change]. rewrite !ninf_node.
        split; [|intros _; rewrite S1, S2; cbn; auto]. cbn [ad_cache]. cbn [node_tasks]. econstructor; [exact U|exact W].
      + split; [reflexivity|]. unfold goes. cbn [fst snd s_body with_body with_info s_id s_si s_change]. rewrite !ninf_node.
        split; [|discriminate]. cbn [node_tasks]. econstructor; [exact U|exact W].
      + split; [reflexivity|]. unfold goes. cbn [fst snd s_body with_body with_info s_id s_si s_change]. rewrite !ninf_node.
        split; [|discriminate]. cbn [node_tasks]. econstructor; [exact U|exact W].
  Qed.
  Lemma goes_nodes {A} (f : A -> adder -> (A * adder) * outcome unit) (nd : A -> node) l st :
    (forall x st, In x l -> goes st (fun b a => node_tasks b a (nd x)) (ninf (nd x)) (fun x' => ninf (nd x')) (f x st)) ->
    goes st (fun b a => flat_map (node_tasks b a) (map nd l)) (flat_map ninf (map nd l)) (fun l' => flat_map ninf (map nd l')) (mut_list f l st).
  Proof.
    intros H. pose proof (goes_list f (fun x b a => node_tasks b a (nd x)) (fun x => ninf (nd x)) l) as G.
    specialize (G (fun x _ b a => ninf_length (nd x) b a) (fun x I st => H x st I) st). destruct G as [W S]. split; [|exact S].
    rewrite !flat_map_concat_map, !map_map, <- !flat_map_concat_map. exact W.
  Qed.
  Lemma goes_alpha_sub c a p q (e : alpha_subpoint) st : plain_point q ->
    let r := mut_elem (sem_visitor rf gp) KAlphaSub mut_none (pos_point c a p q) e st in
    goes st (fun b a' => node_tasks b a' (alpha_sub_node c a p q e)) (ninf (alpha_sub_node c a p q e)) (fun e' => ninf (alpha_sub_node c a p q e')) r.
  Proof.
    intros P. destruct (goes_elem KAlphaSub mut_none (pos_point c a p q) e (pos_sub c a p q (at_alpha_sub (s_id e))) (fun _ => []) st) as [I G];
      [now apply rel_sub|reflexivity|intros i []|].
    cbn zeta in *. destruct (mut_elem (sem_visitor rf gp) KAlphaSub _ _ e st) as [[e' st'] o]. cbn [fst snd ident_of children_of_kind] in I. destruct G as [W S]. split; [|exact S].
    cbn [fst snd] in *. unfold alpha_sub_node. rewrite I. exact W.
  Qed.
  Lemma goes_num_sub c a p q (e : num_subpoint) st : plain_point q ->
    let r := mut_elem (sem_visitor rf gp) KNumSub mut_none (pos_point c a p q) e st in
    goes st (fun b a' => node_tasks b a' (num_sub_node c a p q e)) (ninf (num_sub_node c a p q e)) (fun e' => ninf (num_sub_node c a p q e')) r.
  Proof.
    intros P. destruct (goes_elem KNumSub mut_none (pos_point c a p q) e (pos_sub c a p q (at_num_sub (s_id e))) (fun _ => []) st) as [I G];
      [now apply rel_sub|reflexivity|intros i []|].
    cbn zeta in *. destruct (mut_elem (sem_visitor rf gp) KNumSub _ _ e st) as [[e' st'] o]. cbn [fst snd ident_of children_of_kind] in I. destruct G as [W S]. split; [|exact S].
    cbn [fst snd] in *. unfold num_sub_node. rewrite I. exact W.
  Qed.
  Lemma goes_alpha c a p (e : alpha_point) st :
    let r := mut_elem (sem_visitor rf gp) KAlpha (mut_alpha_children (sem_visitor rf gp)) (pos_par c a p) e st in
    goes st (fun b a' => node_tasks b a' (alpha_node c a p e)) (ninf (alpha_node c a p e)) (fun e' => ninf (alpha_node c a p e')) r.
  Proof.
    set (below := fun b : sae_body alpha_children => match b with
      | BText _ => []
      | BChildren _ (AcAlpha l) _ => map (alpha_sub_node c a p (at_alpha (s_id e))) l
      | BChildren _ (AcNum l) _ => map (num_sub_node c a p (at_alpha (s_id e))) l end).
    destruct (goes_elem KAlpha (mut_alpha_children (sem_visitor rf gp)) (pos_par c a p) e (pos_point c a p (at_alpha (s_id e))) below st) as [I G];
      [apply rel_alpha|reflexivity| |].
    - intros i ch w _ st'. destruct ch as [l|l]; cbn [mut_alpha_children below]; apply goes_map; apply goes_nodes; intros; [apply goes_alpha_sub|apply goes_num_sub]; apply plain_alpha.
    - cbn zeta in *. destruct (mut_elem (sem_visitor rf gp) KAlpha _ _ e st) as [[e' st'] o]. cbn [fst snd ident_of children_of_kind] in I. destruct G as [W S]. split; [|exact S].
      cbn [fst snd] in *. unfold alpha_node. rewrite I. exact W.
  Qed.
  Lemma goes_num c a p (e : num_point) st :
    let r := mut_elem (sem_visitor rf gp) KNum (mut_num_children (sem_visitor rf gp)) (pos_par c a p) e st in
    goes st (fun b a' => node_tasks b a' (num_node c a p e)) (ninf (num_node c a p e)) (fun e' => ninf (num_node c a p e')) r.
  Proof.
    set (below := fun b : sae_body num_children => match b with
      | BText _ => []
      | BChildren _ (NcAlpha l) _ => map (alpha_sub_node c a p (at_num (s_id e))) l end).
    destruct (goes_elem KNum (mut_num_children (sem_visitor rf gp)) (pos_par c a p) e (pos_point c a p (at_num (s_id e))) below st) as [I G];
      [apply rel_num|reflexivity| |].
    - intros i ch w _ st'. destruct ch as [l]; cbn [mut_num_children below]; apply goes_map; apply goes_nodes; intros; apply goes_alpha_sub; apply plain_num.
    - cbn zeta in *. destruct (mut_elem (sem_visitor rf gp) KNum _ _ e st) as [[e' st'] o]. cbn [fst snd ident_of children_of_kind] in I. destruct G as [W S]. split; [|exact S].
      cbn [fst snd] in *. unfold num_node. rewrite I. exact W.
  Qed.
  Lemma goes_par c a (e : paragraph) st :
    let r := mut_elem (sem_visitor rf gp) KPar (mut_par_children (sem_visitor rf gp)) (pos_article c a) e st in
    goes st (fun b a' => node_tasks b a' (par_node c a e)) (ninf (par_node c a e)) (fun e' => ninf (par_node c a e')) r.
  Proof.
    set (below := fun b : sae_body par_children => match b with
      | BChildren _ (PcAlpha l) _ => map (alpha_node c a (s_id e)) l
      | BChildren _ (PcNum l) _ => map (num_node c a (s_id e)) l
      | _ => [] end).
    destruct (goes_elem KPar (mut_par_children (sem_visitor rf gp)) (pos_article c a) e (pos_par c a (s_id e)) below st) as [I G];
      [apply rel_par|reflexivity| |].
    - intros i ch w _ st'. destruct ch as [l|l|l|b|b]; cbn [mut_par_children below].
      1, 2: apply goes_map; apply goes_nodes; intros; [apply goes_alpha || apply goes_num].
      all: split; [constructor|auto].
    - cbn zeta in *. destruct (mut_elem (sem_visitor rf gp) KPar _ _ e st) as [[e' st'] o]. cbn [fst snd ident_of children_of_kind] in I. destruct G as [W S]. split; [|exact S].
      cbn [fst snd] in *. unfold par_node. rewrite I. exact W.
  Qed.
  Definition child_nodes (c : act_id) (ch : act_child) : list node := match ch with ChArticle x => article_nodes c x | _ => [] end.
  Lemma goes_article c (x : article) st :
    goes st (fun b a => flat_map (node_tasks b a) (article_nodes c x)) (flat_map ninf (article_nodes c x))
      (fun x' => flat_map ninf (article_nodes c x')) (mut_article (sem_visitor rf gp) (ref_of_act c) x st).
  Proof. unfold mut_article. rewrite rel_article. apply goes_map. apply goes_nodes. intros. apply goes_par. Qed.
  Lemma goes_child c (ch : act_child) st :
    goes st (fun b a => flat_map (node_tasks b a) (child_nodes c ch)) (flat_map ninf (child_nodes c ch))
      (fun x' => flat_map ninf (child_nodes c x')) (mut_child (sem_visitor rf gp) (ref_of_act c) ch st).
  Proof.
    destruct ch as [e|t|x]; cbn [mut_child].
    1, 2: split; [constructor|auto].
    apply goes_map. apply goes_article.
  Qed.
  Lemma flat_ninf_length l b a : List.length (flat_map ninf l) = List.length (flat_map (node_tasks b a) l).
  Proof. induction l as [|n l IH]; [reflexivity|]. cbn [flat_map]. now rewrite !app_length, IH, (ninf_length n b a). Qed.
  Lemma act_nodes_children c l : flat_map (fun x => article_nodes c x) (articles_of l) = flat_map (child_nodes c) l.
  Proof. induction l as [|[e|t|x] l IH]; cbn [articles_of child_article flat_map child_nodes]; auto. cbn [app]. now rewrite <- IH. Qed.
  Lemma infos_nodes a : infos a = flat_map ninf (flat_map (child_nodes (ac_id a)) (ac_children a)).
  Proof.
    unfold infos, elements. assert (E : act_nodes a = flat_map (child_nodes (ac_id a)) (ac_children a)) by (rewrite <- act_nodes_children; reflexivity).
    rewrite E. clear E. induction (flat_map (child_nodes (ac_id a)) (ac_children a)) as [|n l IH]; cbn [flat_map map]; [reflexivity|].
    rewrite map_app, IH. reflexivity.
  Qed.
  Lemma tasks_nodes a : act_tasks a = flat_map (node_tasks [] []) (flat_map (child_nodes (ac_id a)) (ac_children a)).
  Proof. unfold act_tasks, act_nodes, act_articles. rewrite <- act_nodes_children. reflexivity. Qed.
  Lemma goes_act (a : act) st :
    goes st (fun b a' => flat_map (node_tasks b a') (flat_map (child_nodes (ac_id a)) (ac_children a))) (infos a) infos
      (mut_act (sem_visitor rf gp) a st) /\ ac_id (fst (fst (mut_act (sem_visitor rf gp) a st))) = ac_id a.
  Proof.
    unfold mut_act.
    pose proof (goes_list (mut_child (sem_visitor rf gp) (ref_of_act (ac_id a))) (fun ch b a' => flat_map (node_tasks b a') (child_nodes (ac_id a) ch))
      (fun ch => flat_map ninf (child_nodes (ac_id a) ch)) (ac_children a)) as G.
    specialize (G (fun ch _ b a' => flat_ninf_length _ b a') (fun ch _ st => goes_child (ac_id a) ch st) st).
    destruct (mut_list _ (ac_children a) st) as [[l st'] o]. split; [|reflexivity]. destruct G as [W S]. split; [|exact S].
    cbn [mut_map fst snd] in *. rewrite !infos_nodes. cbn [ac_id ac_children]. rewrite !flat_map_flat_map. exact W.
  Qed.
  Lemma sem_annotates : annotates (sem_visitor rf gp).
  Proof.
    split; intros k r e s; cbn [sem_visitor on_enter_mut on_exit_mut].
    - unfold sem_enter. destruct (s_body e) eqn:B.
      + destruct (extract_semantic_info rf gp t s) as [s' [i| |]]; cbn; auto.
      + destruct (extract_semantic_info rf gp intro s) as [s' [i| |]]; cbn; auto.
    - unfold sem_exit. destruct (s_body e) eqn:B; cbn; auto.
  Qed.
  Lemma c50_act a : let '(a', o) := add_semantic_info rf gp a in exists c',
    worked (cache_from (ac_abbrevs a)) (act_tasks a) (infos a) (infos a') (omap (fun _ => tt) o) c' /\
    bare_act a' = bare_act (with_abbrevs a (ac_abbrevs a')) /\
    match o with
    | Ok changed => ac_abbrevs a' = ca_map c' /\ changed = ca_changed c'
    | _ => ac_abbrevs a' = ac_abbrevs a
    end.
  Proof.
    unfold add_semantic_info. set (st := mkAdder [] [] (cache_from (ac_abbrevs a))).
    pose proof (goes_act a st) as [[W S] I]. pose proof (annot_act _ sem_annotates a st) as B.
    destruct (mut_act (sem_visitor rf gp) a st) as [[a' s] o]. cbn [fst snd] in *. rewrite tasks_nodes.
    destruct o as [[]| |]; cbn [omap fst snd] in *; exists (ad_cache s); (split; [exact W|]).
    - split; [|cbn; auto]. unfold bare_act in *. cbn in *. injection B as B1 B2 B3 B4 B5 B6. congruence.
    - unfold bare_act in *. cbn in *. injection B as B1 B2 B3 B4 B5 B6. split; congruence.
    - unfold bare_act in *. cbn in *. injection B as B1 B2 B3 B4 B5 B6. split; congruence.
  Qed.
  Lemma worked_all c ts old new c' : worked c ts old new (Ok tt) c' -> all_understood rf gp c ts new c'.
  Proof.
    intros W. remember (Ok tt) as k eqn:E. induction W as [|c t ts i old new o' c1 c2 j U W IH|c t ts old o' c1 F N L]; subst; [constructor| |contradiction].
    econstructor; eauto.
  Qed.
  Lemma worked_split c ts old new o c' : worked c ts old new o c' -> o <> Ok tt -> exists done t rest is c1,
    ts = done ++ t :: rest /\ all_understood rf gp c done is c1 /\ (forall i c2, ~ understood c1 t i c2) /\
    new = is ++ skipn (List.length done) old.
  Proof.
    intros W N. induction W as [|c t ts i old new o' c1 c2 j U W IH|c t ts old o' c1 F N' L].
    - contradiction.
    - destruct (IH N) as (d & t' & r & is & c3 & -> & A & F & ->). exists (t :: d), t', r, (i :: is), c3. repeat split; auto. econstructor; eauto.
    - exists [], t, ts, [], c. repeat split; auto. constructor.
  Qed.
  (** A single article *)
  Lemma on_article_spec {T} i (f : article -> article * T) l :
    match on_article i f l with
    | None => Forall (fun ch => forall x, ch = ChArticle x -> ar_ident x <> i) l
    | Some (l', t) => exists pre x post, l = pre ++ ChArticle x :: post /\ ar_ident x = i /\
        Forall (fun ch => forall x, ch = ChArticle x -> ar_ident x <> i) pre /\
        l' = pre ++ ChArticle (fst (f x)) :: post /\ t = snd (f x)
    end.
  Proof.
    assert (N : forall ch l, on_article i f (ch :: l) = match on_article i f l with Some (l2, t) => Some (ch :: l2, t) | None => None end ->
      (forall x, ch = ChArticle x -> ar_ident x <> i) ->
      match on_article i f l with
      | None => Forall (fun ch => forall x, ch = ChArticle x -> ar_ident x <> i) l
      | Some (l', t) => exists pre x post, l = pre ++ ChArticle x :: post /\ ar_ident x = i /\
          Forall (fun ch => forall x, ch = ChArticle x -> ar_ident x <> i) pre /\
          l' = pre ++ ChArticle (fst (f x)) :: post /\ t = snd (f x)
      end ->
      match on_article i f (ch :: l) with
      | None => Forall (fun ch => forall x, ch = ChArticle x -> ar_ident x <> i) (ch :: l)
      | Some (l', t) => exists pre x post, ch :: l = pre ++ ChArticle x :: post /\ ar_ident x = i /\
          Forall (fun ch => forall x, ch = ChArticle x -> ar_ident x <> i) pre /\
          l' = pre ++ ChArticle (fst (f x)) :: post /\ t = snd (f x)
      end).
    { intros ch l0 E D H. rewrite E. destruct (on_article i f l0) as [[l2 t]|].
      - destruct H as (pre & x & post & -> & Ei & F & -> & ->). exists (ch :: pre), x, post. repeat split; auto.
      - constructor; auto. }
    induction l as [|[e|t|x] l IH]; [constructor|apply N; [reflexivity|discriminate|exact IH]..|].
    cbn [on_article]. destruct (article_eqb (ar_ident x) i) eqn:E.
    - apply article_eqb_eq in E. destruct (f x) as [x' t] eqn:F. exists [], x, l. rewrite F. repeat split; auto.
    - specialize (N (ChArticle x) l). cbn [on_article] in N. rewrite E in N. apply N; [reflexivity| |exact IH].
      intros y Hy. injection Hy as <-. intros D. apply article_eqb_eq in D. congruence.
  Qed.
  Lemma article_infos_nodes c x : article_infos c x = flat_map ninf (article_nodes c x).
  Proof. unfold article_infos. induction (article_nodes c x) as [|n l IH]; cbn [flat_map map]; [reflexivity|]. now rewrite map_app, IH. Qed.
  Lemma bare_article_mut c x st : bare_article (fst (fst (mut_article (sem_visitor rf gp) (ref_of_act c) x st))) = bare_article x.
  Proof.
    pose proof (annot_act (sem_visitor rf gp) sem_annotates (mkActS c [] [] default_date [] [ChArticle x]) st) as B.
    unfold mut_act in B. cbn [ac_children ac_id mut_list mut_child] in B.
    destruct (mut_article (sem_visitor rf gp) (ref_of_act c) x st) as [[x' s'] [[]| |]]; unfold bare_act in B; cbn [ac_children map bare_child fst snd mut_map] in B |- *; congruence.
  Qed.
  Lemma c50_article i a : let '(a', o) := add_semantic_info_to_article rf gp i a in
    (o = Err /\ a' = a /\ Forall (fun ch => forall x, ch = ChArticle x -> ar_ident x <> i) (ac_children a)) \/
    exists pre x x' post c', ac_children a = pre ++ ChArticle x :: post /\ ac_children a' = pre ++ ChArticle x' :: post /\
      Forall (fun ch => forall x, ch = ChArticle x -> ar_ident x <> i) pre /\ ar_ident x = i /\ bare_article x' = bare_article x /\
      a' = with_abbrevs (with_children a (ac_children a')) (ac_abbrevs a') /\
      worked (cache_from (ac_abbrevs a)) (article_tasks (ac_id a) x) (article_infos (ac_id a) x) (article_infos (ac_id a) x') (omap (fun _ => tt) o) c' /\
      match o with
      | Ok changed => ac_abbrevs a' = ca_map c' /\ changed = ca_changed c'
      | _ => ac_abbrevs a' = ac_abbrevs a
      end.
  Proof.
    unfold add_semantic_info_to_article. set (st := mkAdder [] [] (cache_from (ac_abbrevs a))).
    set (f := fun x => let '((x', s), o) := mut_article (sem_visitor rf gp) (ref_of_act (ac_id a)) x st in (x', (s, o))).
    pose proof (on_article_spec i f (ac_children a)) as H. destruct (on_article i f (ac_children a)) as [[l [s o]]|].
    - destruct H as (pre & x & post & E & Ei & F & -> & Eo). pose proof (goes_article (ac_id a) x st) as [W _].
      pose proof (bare_article_mut (ac_id a) x st) as B. unfold f in *.
      destruct (mut_article (sem_visitor rf gp) (ref_of_act (ac_id a)) x st) as [[x' s'] o']. cbn [fst snd] in *. injection Eo as -> ->.
      destruct o' as [[]| |]; right; exists pre, x, x', post, (ad_cache s'); rewrite !article_infos_nodes; repeat split; auto; destruct a; reflexivity.
    - left. auto.
  Qed.
End C50.
