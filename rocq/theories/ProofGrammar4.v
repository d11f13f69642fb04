(** Proofs about the grammar: adding semantic information with it, and printing the result. *)
From Verif Require Export ProofGrammar3 ProofOut3.
From Coq Require Import Lia.
Local Open Scope N_scope.

(** ** The abbreviations stay non-empty *)
Lemma root_acts t P r : root_words t P r -> Forall (act_words t P) (root_act_refs r).
Proof.
  destruct r as [x|x|x|x|x|x|l]; cbn [root_words root_act_refs]; try (intros (H & _); constructor; [exact H|constructor]); [constructor|].
  intros [_ H]. induction H as [|s l S _ IH]; [constructor|]. cbn [flat_map]. apply Forall_app. split; [|exact IH].
  destruct s as [[[a|] rs]|]; cbn; try constructor; try constructor. now destruct S.
Qed.
Lemma transpose_In {A} (l : list (outcome A)) : forall r x, transpose l = Ok r -> In x r -> In (Ok x) l.
Proof.
  induction l as [|[y| |] l IH]; intros r x; cbn; try discriminate; [intros [= <-] []|].
  destruct (transpose l) as [r'| |]; try discriminate. intros [= <-] [<-|I]; [now left|right; now apply (IH r')].
Qed.
Lemma new_names rf t P r new k a : root_words t P r -> get_new_abbreviations rf r = Ok new -> In (k, a) new -> introduces t k.
Proof.
  intros W E I. apply (transpose_In _ _ _ E) in I. apply in_flat_map in I as (x & I & J).
  pose proof (proj1 (Forall_forall _ _) (root_acts _ _ _ W) x I) as H. destruct x as [[i [s|]]|]; cbn in J; try tauto.
  destruct J as [J|[]]. destruct (act_of_grammar rf i); try discriminate. injection J as -> _. cbn in H. tauto.
Qed.
Definition named (c : cache) : Prop := Forall (fun k => k <> []) (all_abbreviations c).
Lemma named_add k a c : k <> [] -> named c -> named (cache_add k a c).
Proof.
  intros K H. assert (X : Forall (fun k => k <> []) (map fst (map_set k a (ca_map c)))).
  { apply Forall_forall. intros x I. apply map_set_keys in I as [->|I]; [exact K|]. exact (proj1 (Forall_forall _ _) H x I). }
  unfold cache_add, named. destruct (map_get k (ca_map c)); [destruct (act_eqb _ _)|]; auto.
Qed.
Lemma named_add_multiple l : forall c, Forall (fun p => fst p <> []) l -> named c -> named (cache_add_multiple l c).
Proof.
  induction l as [|[k a] l IH]; intros c F H; [exact H|]. inversion F; subst. apply IH; [assumption|]. now apply named_add.
Qed.
Lemma grammar_np s c : named c -> grammar_parse s (all_abbreviations c) <> Panic.
Proof. intros H. now apply grammar_total. Qed.
Lemma grammar_named rf s c r new : named c -> grammar_parse s (all_abbreviations c) = Ok r -> get_new_abbreviations rf r = Ok new ->
  named (cache_add_multiple new c).
Proof.
  intros H P N. pose proof (grammar_good s _ H) as G. rewrite P in G. destruct G as [G _]. apply named_add_multiple; [|exact H].
  apply Forall_forall. intros [k a] I. destruct (new_names _ _ _ _ _ _ _ G N I) as (? & ? & ? & ? & ? & ? & ? & ? & ? & _ & _ & _ & _ & K & _). exact K.
Qed.
(** ** Where abbreviations come from *)
Lemma cache_add_keys l : forall c k, In k (all_abbreviations (cache_add_multiple l c)) -> In k (all_abbreviations c) \/ In k (map fst l).
Proof.
  induction l as [|[j a] l IH]; intros c k I; [now left|]. cbn [map fst In]. apply (IH (cache_add j a c)) in I as [I|I]; [|tauto].
  assert (X : In k (map fst (map_set j a (ca_map c))) -> In k (all_abbreviations c) \/ j = k \/ In k (map fst l)).
  { intros J. apply map_set_keys in J as [->|J]; auto. }
  revert I. unfold cache_add, all_abbreviations in *. destruct (map_get j (ca_map c)); [destruct (act_eqb _ _)|]; cbn; auto.
Qed.
Lemma learnt rf : forall c ts is c2, all_understood rf grammar_parse c ts is c2 -> named c -> forall k, In k (all_abbreviations c2) ->
  In k (all_abbreviations c) \/ exists t text, In t ts /\ sentence t text /\ introduces text k.
Proof.
  induction 1 as [|c t ts i is c' c2 U A IH]; intros N k I; [now left|].
  destruct U as [text root new out kk p S P Ab O K X]. pose proof (grammar_named rf _ _ _ _ N P Ab) as N'.
  destruct (IH N' k I) as [J|(t' & x & J & R)]; [|right; exists t', x; split; [now right|exact R]].
  apply cache_add_keys in J as [J|J]; [now left|]. right. exists t, text. split; [now left|]. split; [exact S|].
  apply in_map_iff in J as ([j a] & <- & J). pose proof (grammar_good text (map fst (ca_map c)) N) as G. rewrite P in G.
  exact (new_names _ _ _ _ _ _ _ (proj1 G) Ab J).
Qed.
Theorem abbreviations_introduced rf a : Forall (fun k => k <> []) (map fst (ac_abbrevs a)) ->
  let '(a', o) := add_semantic_info rf grammar_parse a in
  forall k, In k (map fst (ac_abbrevs a')) -> In k (map fst (ac_abbrevs a)) \/
    exists t text, In t (act_tasks a) /\ sentence t text /\ introduces text k.
Proof.
  intros N. pose proof (c50_act rf grammar_parse a) as C. destruct (add_semantic_info rf grammar_parse a) as [a' o].
  destruct C as (c' & W & _ & E). destruct o as [ch| |]; [|rewrite E; now left|rewrite E; now left].
  destruct E as [-> _]. cbn in W. apply worked_all in W. exact (learnt rf _ _ _ _ W N).
Qed.
Theorem grammar_no_panic rf a : Forall (fun k => k <> []) (map fst (ac_abbrevs a)) ->
  snd (add_semantic_info rf grammar_parse a) <> Panic /\ forall i, snd (add_semantic_info_to_article rf grammar_parse i a) <> Panic.
Proof.
  intros H. split; [|intros i].
  - exact (invariant_no_panic rf grammar_parse named grammar_np (grammar_named rf) a H).
  - exact (invariant_no_panic_article rf grammar_parse named grammar_np (grammar_named rf) i a H).
Qed.

(** ** Boundaries of the references *)
Lemma recorded_boundaries t ps s e evs l : recorded ps s e evs l -> Forall (event_boundary t) evs ->
  match s with Some n => boundary t n | None => True end -> boundary t e ->
  Forall (fun o => boundary t (o_start o) /\ boundary t (o_end o)) l.
Proof.
  induction 1 as [ps s e|ps s e p a evs l R IH|ps s e e' evs l R IH|ps s e r evs l Sa T R IH]; intros F S E; try constructor.
  - inversion F as [|? ? B F']; subst. destruct B as [B1 B2]. apply IH; auto. now destruct s.
  - inversion F; subst. now apply IH.
  - cbn. auto.
  - inversion F; subst. now apply IH.
Qed.
Lemma boundary_0 t : boundary t 0.
Proof. now exists [], t. Qed.
Lemma out_boundaries rf c t r l : get_outgoing_references rf c r = Ok l -> Forall (event_boundary t) (root_events rf (ca_map c) r) ->
  Forall (fun o => boundary t (o_start o) /\ boundary t (o_end o)) l.
Proof.
  intros H F. destruct (is_list r) eqn:L.
  - destruct r as [x|x|x|x|x|x|xs]; try discriminate. destruct (c37_list rf c xs) as (ls & E & G). rewrite E in H. injection H as <-.
    cbn [root_events] in *. clear E L. induction G as [|s l xs ls P G IH]; cbn in *; [constructor|].
    apply Forall_app in F as [F1 F2]. apply Forall_app. split; [|now apply IH].
    destruct P as [P|[-> _]]; [|constructor]. exact (recorded_boundaries _ _ _ _ _ _ P F1 I (boundary_0 t)).
  - apply c37_meaning in H; [|exact L]. exact (recorded_boundaries _ _ _ _ _ _ H F I (boundary_0 t)).
Qed.
Lemma app_byte_split (a b c d : str) : a ++ b = c ++ d -> utf8_len a <= utf8_len c -> exists x, c = a ++ x /\ b = x ++ d.
Proof.
  revert c. induction a as [|x a IH]; intros c E L; [now exists c|]. destruct c as [|y c].
  - rewrite utf8_len_cons in L. pose proof (char_len_pos x). change (utf8_len []) with 0 in L. lia.
  - cbn in E. injection E as <- E. rewrite !utf8_len_cons in L. destruct (IH c E ltac:(lia)) as (z & -> & ->). now exists z.
Qed.
Lemma boundary_tail u v n : boundary (u ++ v) n -> boundary v (n - utf8_len u).
Proof.
  intros (a & b & E & L). destruct (N.le_gt_cases (utf8_len u) n) as [H|H].
  - rewrite <- L in H. destruct (app_byte_split u v a b E H) as (x & -> & ->). exists x, b. split; [reflexivity|]. rewrite utf8_len_app in L. lia.
  - replace (n - utf8_len u) with 0 by lia. apply boundary_0.
Qed.
Lemma boundary_head u v n : boundary (u ++ v) n -> n <= utf8_len u -> boundary u n.
Proof.
  intros (a & b & E & L) H. rewrite <- L in H. destruct (app_byte_split a b u v (eq_sym E) H) as (x & -> & ->). now exists a, x.
Qed.
Lemma boundary_app u v n : boundary u n -> boundary (u ++ v) n.
Proof. intros (a & b & -> & L). exists a, (b ++ v). now rewrite app_assoc. Qed.
(** What is left out at the end begins with a one-byte character. *)
Lemma trimmed_junk js : Forall (fun j => exists c s, j = c :: s /\ char_len c = 1) js -> forall s s', trimmed js s s' ->
  s = s' \/ exists c x, s = s' ++ c :: x /\ char_len c = 1.
Proof.
  intros F. induction 1 as [s|j js s s' T IH|j js s s' N T IH]; inversion F; subst; [now left| |now apply IH].
  destruct H1 as (c & x & -> & W). destruct (IH H2) as [->|(d & y & -> & V)]; right; [now exists c, x|].
  exists d, (y ++ c :: x). now rewrite <- app_assoc.
Qed.
Lemma conjunctions_narrow : Forall (fun j => exists c s, j = c :: s /\ char_len c = 1) conjunctions.
Proof. repeat constructor; eexists; eexists; (split; [reflexivity|reflexivity]). Qed.
Lemma own_boundary t own n : trimmed conjunctions (t_own t) own -> boundary (own_sentence t own) n ->
  boundary (t_own t ++ lit ".") n /\ (n <= utf8_len (t_own t) -> boundary (t_own t) n).
Proof.
  intros T B. assert (X : boundary (own ++ lit ".") n).
  { unfold own_sentence in B. destruct (_ && _)%bool; [exact B|]. rewrite app_nil_r in B. now apply boundary_app. }
  destruct (trimmed_junk _ conjunctions_narrow _ _ T) as [E|(c & x & E & W)].
  - rewrite E. split; [exact X|]. intros L. now apply (boundary_head _ _ _ X).
  - assert (Y : boundary (t_own t) n).
    { rewrite E. destruct X as (a & b & A & L). destruct (N.le_gt_cases n (utf8_len own)) as [H|H].
      - rewrite <- L in H. symmetry in A. destruct (app_byte_split a b own _ A H) as (z & -> & ->). exists a, (z ++ c :: x). now rewrite app_assoc.
      - rewrite <- L in H. destruct (app_byte_split own (lit ".") a b A ltac:(lia)) as (z & -> & Z).
        rewrite utf8_len_app in H. assert (z = lit ".") as ->.
        { destruct z as [|z1 z]; [change (utf8_len []) with 0 in H; lia|]. assert (Q : lit "." = [46]) by reflexivity. rewrite Q in Z |- *.
          destruct z; [now injection Z as <- _|discriminate]. }
        exists (own ++ [c]), x. split; [now rewrite <- app_assoc|]. rewrite utf8_len_app in L |- *. rewrite utf8_len_cons, W.
        change (utf8_len (lit ".")) with 1 in L. change (utf8_len []) with 0. lia. }
    split; [now apply boundary_app|auto].
Qed.
Lemma spans_boundaries_cuttable t l : forall lo, spans_ordered lo l -> Forall (fun o => boundary t (o_start o) /\ boundary t (o_end o)) l -> cuttable t lo l.
Proof.
  induction l as [|o l IH]; intros lo S F; cbn in *; [exact I|]. destruct S as [S T]. inversion F as [|? ? [B1 B2] F']; subst. repeat split; auto; lia.
Qed.
Definition inside (t : str) (l : list out_ref) : Prop := Forall (fun o => o_end o <= utf8_len t) l.
Lemma kept_boundaries t text own out k : sentence t text -> trimmed conjunctions (t_own t) own ->
  kept (utf8_len (t_before t)) (utf8_len text - utf8_len (t_after t)) out k ->
  (exists lo, spans_ordered lo out) ->
  Forall (fun o => boundary text (o_start o) /\ boundary text (o_end o)) out ->
  Forall (fun o => boundary (own_sentence t own) (o_start o) /\ boundary (own_sentence t own) (o_end o)) k.
Proof.
  intros S T K [lo O] F. pose proof (sentence_shape _ _ _ S T) as E.
  assert (G : utf8_len text - utf8_len (t_after t) = utf8_len (t_before t) + utf8_len (own_sentence t own)) by (rewrite E, !utf8_len_app; lia).
  rewrite G in K. clear G. revert lo O. induction K as [|o l k B K IH|o l k B K IH]; intros lo O; [constructor| |].
  - inversion F as [|? ? [B1 B2] F']; subst. destruct O as [O1 O2]. constructor; [|now apply (IH F' _ O2)]. cbn.
    apply boundary_tail in B1. apply boundary_tail in B2. split; (eapply boundary_head; [eassumption|]); lia.
  - inversion F; subst. destruct O as [O1 O2]. now apply (IH H2 _ O2).
Qed.
Lemma closed_trimmed js : Forall (fun j => forall s, ~ closed (s ++ j)) js -> forall s s', trimmed js s s' -> closed s -> s' = s.
Proof.
  intros F. induction 1 as [s|j js s s' T IH|j js s s' N T IH]; intros C; [reflexivity| |]; inversion F; subst; [exfalso; now apply (H1 s)|auto].
Qed.
Lemma conjunctions_open : Forall (fun j => forall s, ~ closed (s ++ j)) conjunctions.
Proof.
  unfold conjunctions. apply Forall_map. repeat constructor; intros s (t & c & E & I);
    match type of E with s ++ ?j = _ => let b := eval vm_compute in (last j 0) in let a := eval vm_compute in (removelast j) in replace j with (a ++ [b]) in E by reflexivity end;
    rewrite app_assoc in E; apply app_inj_tail in E as [_ <-]; vm_compute in I; intuition discriminate.
Qed.
Definition printable (x : str * list out_ref) : Prop :=
  cuttable (fst x ++ lit ".") 0 (snd x) /\ (closed (fst x) \/ inside (fst x) (snd x) -> cuttable (fst x) 0 (snd x)).
Lemma understood_printable rf c t i c2 : named c -> understood rf grammar_parse c t i c2 ->
  printable (t_own t, si_outgoing i) /\ named c2.
Proof.
  intros N U. destruct U as [text root new out k p S P A O K X]. cbn [si_outgoing].
  split; [|exact (grammar_named rf text c root new N P A)].
  pose proof (grammar_good text (map fst (ca_map c)) N) as G. rewrite P in G. destruct G as [_ G].
  specialize (G rf (ca_map (cache_add_multiple new c))). destruct G as (G1 & G2 & G3).
  destruct (c37_ordered _ _ _ _ O 0 G1) as [O1 O2]. pose proof (out_boundaries _ _ _ _ _ O G3) as B.
  assert (T : exists own, trimmed conjunctions (t_own t) own) by (destruct S; eauto). destruct T as (own & T).
  pose proof (kept_boundaries _ _ _ _ _ S T K (ex_intro _ 0 O1) B) as B'.
  pose proof (kept_ordered _ _ _ _ _ K O1) as O'. change (0 - utf8_len (t_before t)) with 0 in O'.
  assert (C : cuttable (t_own t ++ lit ".") 0 k).
  { apply spans_boundaries_cuttable; [exact O'|]. eapply Forall_impl; [|exact B']. cbn. intros o [H1 H2]. split; now apply (own_boundary t own). }
  assert (D : inside (t_own t) k -> cuttable (t_own t) 0 k).
  { intros J. apply spans_boundaries_cuttable; [exact O'|]. clear - J O' B' T. revert O'. generalize 0.
    induction k as [|o k IH]; intros n O'; [constructor|]. inversion B' as [|? ? [H1 H2] B2]; subst. inversion J; subst. destruct O' as [O1 O2].
    constructor; [|now apply (IH B2 H4 (o_end o))]. split; apply (own_boundary t own); auto; lia. }
  split; [exact C|]. cbn [fst snd]. intros [Cl|J]; [|auto]. apply D.
  pose proof (kept_in_own _ _ _ _ _ S T K) as J. pose proof (closed_trimmed _ conjunctions_open _ _ T Cl) as E. subst own.
  eapply Forall_impl; [|exact J]. cbn. intros o [_ H]. unfold own_sentence in H. apply ends_sentence_spec in Cl. rewrite Cl in H.
  cbn [negb] in H. rewrite Bool.andb_false_r, app_nil_r in H. exact H.
Qed.
Lemma all_printable rf : forall c ts is c2, all_understood rf grammar_parse c ts is c2 -> named c ->
  Forall2 (fun t i => printable (t_own t, si_outgoing i)) ts is.
Proof.
  induction 1 as [|c t ts i is c' c2 U A IH]; intros N; constructor; destruct (understood_printable _ _ _ _ _ N U); auto.
Qed.

(** ** The elements of an act and their texts *)
Definition shown (x : any_elem) : str * list out_ref := (own_text x, si_outgoing (info x)).
Definition below_refs (c : par_children) : list (str * list out_ref) := match c with PcBlock _ | PcStruct _ => pc_refs c | _ => [] end.
Definition amendment_refs (e : paragraph) : list (str * list out_ref) :=
  match s_body e with BText _ => [] | BChildren _ c _ => below_refs c end.
Definition node_shown (n : node) : list (str * list out_ref) := map (fun p => shown (snd p)) (preorder n).
Lemma shown_list {A} (nd : A -> node) (rs : A -> list (str * list out_ref)) l : (forall x, node_shown (nd x) = rs x) ->
  map (fun p => shown (snd p)) (flat_map preorder (map nd l)) = flat_map rs l.
Proof. intros H. induction l as [|x l IH]; [reflexivity|]. cbn [map flat_map]. rewrite map_app, IH. f_equal. apply H. Qed.
Lemma shown_alpha_sub c a p q e : node_shown (alpha_sub_node c a p q e) = sub_refs e.
Proof. unfold node_shown, alpha_sub_node, sub_refs, elem_refs. cbn. unfold shown. cbn. destruct (s_body e) as [t|i [] w]. reflexivity. Qed.
Lemma shown_num_sub c a p q e : node_shown (num_sub_node c a p q e) = sub_refs e.
Proof. unfold node_shown, num_sub_node, sub_refs, elem_refs. cbn. unfold shown. cbn. destruct (s_body e) as [t|i [] w]. reflexivity. Qed.
Lemma shown_alpha c a p e : node_shown (alpha_node c a p e) = alpha_refs e.
Proof.
  unfold node_shown, alpha_node, alpha_refs, elem_refs. cbn [preorder map snd]. unfold shown at 1. cbn [own_text info].
  destruct e as [id body si ch]. cbn [s_body s_si s_id]. destruct body as [t|i [l|l] w]; [reflexivity|..]; f_equal; apply shown_list; intros; [apply shown_alpha_sub|apply shown_num_sub].
Qed.
Lemma shown_num c a p e : node_shown (num_node c a p e) = num_refs e.
Proof.
  unfold node_shown, num_node, num_refs, elem_refs. cbn [preorder map snd]. unfold shown at 1. cbn [own_text info].
  destruct e as [id body si ch]. cbn [s_body s_si s_id]. destruct body as [t|i [l] w]; [reflexivity|..]; f_equal; apply shown_list; intros; apply shown_alpha_sub.
Qed.
Lemma shown_par c a e : elem_refs pc_refs e = node_shown (par_node c a e) ++ amendment_refs e.
Proof.
  unfold node_shown, par_node, elem_refs, amendment_refs. cbn [preorder map snd]. unfold shown at 1. cbn [own_text info].
  destruct e as [id body si ch]. cbn [s_body s_si s_id]. destruct body as [t|i [l|l|l|b|b] w]; try reflexivity; cbn [below_refs]; rewrite app_nil_r; f_equal; symmetry; apply shown_list; intros;
    [apply shown_alpha|apply shown_num].
Qed.
Definition act_amendment_refs (a : act) : list (str * list out_ref) := flat_map (child_refs amendment_refs) (ac_children a).
Lemma act_refs_In a p : In p (act_refs a) <-> In p (map (fun p => shown (snd p)) (elements a)) \/ In p (act_amendment_refs a).
Proof.
  assert (E : act_nodes a = flat_map (child_nodes (ac_id a)) (ac_children a)) by (rewrite <- act_nodes_children; reflexivity).
  unfold act_refs, elements, act_amendment_refs. rewrite E. clear E. generalize (ac_id a) as c. intros c.
  induction (ac_children a) as [|ch l IH]; [cbn; tauto|]. cbn [flat_map]. rewrite flat_map_app, map_app, !in_app_iff, IH.
  enough (H : In p (child_refs (elem_refs pc_refs) ch) <-> In p (map (fun p => shown (snd p)) (flat_map preorder (child_nodes c ch))) \/ In p (child_refs amendment_refs ch)) by tauto.
  destruct ch as [e|t|x]; cbn [child_refs child_nodes]; try (cbn; tauto). destruct x as [id ti es chg].
  unfold article_nodes. cbn [ar_children ar_ident].
  induction es as [|e es IHe]; [cbn; tauto|]. cbn [map flat_map]. rewrite map_app, !in_app_iff, IHe, (shown_par c id), in_app_iff.
  unfold node_shown. tauto.
Qed.

(** What [bare_act] keeps *)
Lemma amendment_refs_bare e : amendment_refs (bare_par e) = amendment_refs e.
Proof. unfold amendment_refs, bare_par, bare. cbn [s_body]. destruct (s_body e) as [t|i [l|l|l|b|b] w]; reflexivity. Qed.
Lemma act_amendment_refs_bare a : act_amendment_refs (bare_act a) = act_amendment_refs a.
Proof.
  unfold act_amendment_refs, bare_act. cbn [ac_children]. induction (ac_children a) as [|[e|t|x] l IH]; cbn [map flat_map]; try exact IH; [reflexivity|].
  rewrite IH. f_equal. cbn [bare_child child_refs]. unfold bare_article. cbn [ar_children].
  induction (ar_children x) as [|e es IHe]; [reflexivity|]. cbn [map flat_map]. now rewrite IHe, amendment_refs_bare.
Qed.
Definition node_texts (n : node) : list str := map (fun p => own_text (snd p)) (preorder n).
Lemma texts_list {A} (nd nd' : A -> node) (b : A -> A) l : (forall x, node_texts (nd' (b x)) = node_texts (nd x)) ->
  map (fun p => own_text (snd p)) (flat_map preorder (map nd' (map b l))) = map (fun p => own_text (snd p)) (flat_map preorder (map nd l)).
Proof. intros H. induction l as [|x l IH]; [reflexivity|]. cbn [map flat_map]. rewrite !map_app, IH. f_equal. apply H. Qed.
Lemma texts_alpha_sub c a p q c' a' p' q' e : node_texts (alpha_sub_node c a p q (bare_sub e)) = node_texts (alpha_sub_node c' a' p' q' e).
Proof. destruct e as [id [t|i [] w] si ch]. reflexivity. Qed.
Lemma texts_num_sub c a p q c' a' p' q' e : node_texts (num_sub_node c a p q (bare_sub e)) = node_texts (num_sub_node c' a' p' q' e).
Proof. destruct e as [id [t|i [] w] si ch]. reflexivity. Qed.
Lemma texts_alpha c a p c' a' p' e : node_texts (alpha_node c a p (bare_alpha e)) = node_texts (alpha_node c' a' p' e).
Proof.
  destruct e as [id [t|i [l|l] w] si ch]; [reflexivity|..]; unfold node_texts, alpha_node, bare_alpha, bare; cbn [s_body preorder map s_id snd]; f_equal; apply texts_list; intros;
    [apply texts_alpha_sub|apply texts_num_sub].
Qed.
Lemma texts_num c a p c' a' p' e : node_texts (num_node c a p (bare_num e)) = node_texts (num_node c' a' p' e).
Proof.
  destruct e as [id [t|i [l] w] si ch]; [reflexivity|..]; unfold node_texts, num_node, bare_num, bare; cbn [s_body preorder map s_id snd]; f_equal; apply texts_list; intros;
    apply texts_alpha_sub.
Qed.
Lemma texts_par c a c' a' e : node_texts (par_node c a (bare_par e)) = node_texts (par_node c' a' e).
Proof.
  destruct e as [id [t|i [l|l|l|b|b] w] si ch]; try reflexivity; unfold node_texts, par_node, bare_par, bare; cbn [s_body preorder map s_id snd]; f_equal; apply texts_list; intros;
    [apply texts_alpha|apply texts_num].
Qed.
Definition act_own_texts (a : act) : list str := map (fun p => own_text (snd p)) (elements a).
Lemma act_texts_bare a : act_own_texts (bare_act a) = act_own_texts a.
Proof.
  unfold act_own_texts, elements.
  assert (E : forall a, act_nodes a = flat_map (child_nodes (ac_id a)) (ac_children a)) by (intros; rewrite <- act_nodes_children; reflexivity).
  rewrite !E. clear E. unfold bare_act. cbn [ac_children ac_id]. generalize (ac_id a) as c. intros c.
  induction (ac_children a) as [|[e|t|x] l IH]; cbn [map flat_map bare_child child_nodes]; try exact IH; [reflexivity|].
  rewrite !flat_map_app, !map_app, IH. f_equal. unfold article_nodes, bare_article. cbn [ar_children ar_ident]. apply texts_list. intros. apply texts_par.
Qed.
Lemma node_tasks_texts : forall n b a, map t_own (node_tasks b a n) = node_texts n.
Proof.
  fix IH 1. intros [r x l] b a. unfold node_texts. cbn [node_tasks preorder map t_own snd]. f_equal.
  generalize (b ++ own_text x ++ lit " "), (wrap_up_text x ++ a). induction l as [|n l IHl]; intros b' a'; [reflexivity|].
  cbn [flat_map]. rewrite !map_app, IHl, (IH n). reflexivity.
Qed.
Lemma tasks_texts a : map t_own (act_tasks a) = act_own_texts a.
Proof.
  unfold act_tasks, act_own_texts, elements. induction (act_nodes a) as [|n l IH]; [reflexivity|]. cbn [flat_map]. rewrite !map_app, IH, node_tasks_texts. reflexivity.
Qed.
Lemma Forall2_map_left {A B C} (R : B -> C -> Prop) (f : A -> B) l l' : Forall2 (fun x y => R (f x) y) l l' <-> Forall2 R (map f l) l'.
Proof.
  split.
  - induction 1; constructor; auto.
  - revert l'. induction l; intros l' H; inversion H; subst; constructor; auto.
Qed.
Lemma Forall2_both {A B C} (R : B -> C -> Prop) (f : A -> B) (g : A -> C) l : Forall2 R (map f l) (map g l) -> Forall (fun x => R (f x) (g x)) l.
Proof. induction l; intros H; inversion H; subst; constructor; auto. Qed.

(** ** Printing after adding semantic information *)
Theorem recorded_printable rf a : Forall (fun k => k <> []) (map fst (ac_abbrevs a)) -> Forall (fun x => snd x = []) (act_refs a) ->
  is_ok (snd (add_semantic_info rf grammar_parse a)) = true -> Forall printable (act_refs (fst (add_semantic_info rf grammar_parse a))).
Proof.
  intros N E O. pose proof (c50_act rf grammar_parse a) as C. destruct (add_semantic_info rf grammar_parse a) as [a' o]. cbn [fst snd] in *.
  destruct C as (c' & W & B & _). destruct o as [ch| |]; try discriminate. cbn [omap] in W. apply worked_all in W.
  apply all_printable in W; [|exact N].
  assert (T : act_own_texts a' = act_own_texts a).
  { rewrite <- act_texts_bare, B. rewrite act_texts_bare. reflexivity. }
  assert (M : act_amendment_refs a' = act_amendment_refs a).
  { rewrite <- act_amendment_refs_bare, B. rewrite act_amendment_refs_bare. reflexivity. }
  apply (Forall2_map_left (fun s i => printable (s, si_outgoing i)) t_own) in W. rewrite tasks_texts, <- T in W.
  unfold act_own_texts, infos in W. apply Forall2_both in W.
  apply Forall_forall. intros p I. apply act_refs_In in I as [I|I].
  - apply in_map_iff in I as (x & <- & I). exact (proj1 (Forall_forall _ _) W x I).
  - rewrite M in I. assert (J : In p (act_refs a)) by (apply act_refs_In; now right).
    pose proof (proj1 (Forall_forall _ _) E p J) as K. cbn in K. destruct p as [s l]. cbn in K. subst l. split; cbn; auto.
Qed.
