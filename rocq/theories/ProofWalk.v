(** Proofs for the walkers (C33, C34). *)
From Verif Require Import ProofBase ProofIdent ProofRef.
From Verif Require Export SpecWalk.

(** ** Positions *)
Lemma single_article a : is_range (@single article_id a) = false.
Proof. unfold is_range, single. cbn. rewrite (proj2 (article_eqb_eq a a)); reflexivity. Qed.
Lemma single_numeric a : is_range (@single numeric a) = false.
Proof. unfold is_range, single. cbn. rewrite (proj2 (numeric_eqb_eq a a)); reflexivity. Qed.
Lemma single_hic a : is_range (@single hic a) = false.
Proof. unfold is_range, single. cbn. rewrite (proj2 (hic_eqb_eq a a)); reflexivity. Qed.
Definition plain_point (q : ref_point) : Prop := point_is_range q = false.
Lemma plain_alpha i : plain_point (at_alpha i).
Proof. apply single_hic. Qed.
Lemma plain_num i : plain_point (at_num i).
Proof. apply single_numeric. Qed.
Lemma rel_article c a : relative_to (ref_of_article_elem a) (ref_of_act c) = Ok (pos_article c a).
Proof. unfold relative_to. cbn -[try_ref single]. unfold try_ref, check_ranges. cbn -[is_range single]. now rewrite single_article. Qed.
Lemma rel_par c a p : relative_to (ref_of_paragraph_elem p) (pos_article c a) = Ok (pos_par c a p).
Proof.
  unfold relative_to. destruct p; cbn -[try_ref single]; unfold try_ref, check_ranges; cbn -[is_range single].
  - now rewrite single_article, single_numeric.
  - now rewrite single_article.
Qed.
Lemma rel_point c a p r q : f_act r = None -> f_article r = None -> f_paragraph r = None -> f_point r = Some q -> f_subpoint r = None ->
  plain_point q -> relative_to r (pos_par c a p) = Ok (pos_point c a p q).
Proof.
  intros A B C D E P. unfold plain_point in P. unfold relative_to. rewrite A, B, C, D, E. cbn -[try_ref single]. unfold try_ref, check_ranges.
  unfold check_ranges. destruct p; cbn -[is_range point_is_range single]; now rewrite ?single_article, ?single_numeric, ?P.
Qed.
Lemma rel_alpha c a p i : relative_to (ref_of_alpha_point i) (pos_par c a p) = Ok (pos_point c a p (at_alpha i)).
Proof. apply rel_point; try reflexivity. apply plain_alpha. Qed.
Lemma rel_num c a p i : relative_to (ref_of_numeric_point i) (pos_par c a p) = Ok (pos_point c a p (at_num i)).
Proof. apply rel_point; try reflexivity. apply plain_num. Qed.
Lemma rel_sub c a p q r t : f_act r = None -> f_article r = None -> f_paragraph r = None -> f_point r = None -> f_subpoint r = Some t ->
  plain_point q -> relative_to r (pos_point c a p q) = Ok (pos_sub c a p q t).
Proof.
  intros A B C D E P. unfold plain_point in P. unfold relative_to. rewrite A, B, C, D, E. cbn -[try_ref single]. unfold try_ref, check_ranges.
  unfold check_ranges. destruct p; cbn -[is_range point_is_range single]; now rewrite ?single_article, ?single_numeric, ?P.
Qed.

(** ** The immutable walker (C33) *)
Section Run.
  Context {S : Type} (v : visitor S).
  Lemma run_app a b s : run v (a ++ b) s = and_then (run v a s) (fun _ => run v b).
  Proof.
    revert s. induction a as [|ev a IH]; intros s; [reflexivity|]. cbn.
    destruct (match ev with Enter r (El k e) => on_enter v k r e s | Exit r (El k e) => on_exit v k r e s end) as [s' [[]| |]];
      [apply IH|reflexivity..].
  Qed.
  Lemma walk_list_run {A} (f : A -> S -> S * outcome unit) (g : A -> node) l : (forall x, In x l -> forall s, f x s = run v (node_events (g x)) s) ->
    forall s, walk_list f l s = run v (flat_map node_events (map g l)) s.
  Proof.
    induction l as [|x l IH]; intros H s; [reflexivity|]. cbn [walk_list map flat_map]. rewrite run_app, (H x) by now left.
    destruct (run v (node_events (g x)) s) as [s' [[]| |]]; cbn; try reflexivity. apply IH. intros y Hy. apply H. now right.
  Qed.
  Lemma walk_elem_run k wc base (e : elem k) r below s : relative_to (own_ref k (s_id e)) base = Ok r ->
    (forall s, match s_body e with BChildren _ c _ => wc r c s | BText _ => (s, Ok tt) end = run v (flat_map node_events below) s) ->
    walk_elem v k wc base e s = run v (node_events (Node r (El k e) below)) s.
  Proof.
    intros R H. unfold walk_elem. rewrite R. cbn [and_then node_events run].
    destruct (on_enter v k r e s) as [s' [[]| |]]; cbn [and_then]; try reflexivity.
    rewrite run_app, H. destruct (run v (flat_map node_events below) s') as [s'' [[]| |]]; cbn; try reflexivity.
    destruct (on_exit v k r e s'') as [s3 [[]| |]]; reflexivity.
  Qed.
  Lemma walk_alpha_sub_run c a p q e s : plain_point q ->
    walk_elem v KAlphaSub walk_none (pos_point c a p q) e s = run v (node_events (alpha_sub_node c a p q e)) s.
  Proof.
    intros P. apply walk_elem_run; [now apply rel_sub|]. intros s'. destruct (s_body e) as [|? []]; reflexivity.
  Qed.
  Lemma walk_num_sub_run c a p q e s : plain_point q ->
    walk_elem v KNumSub walk_none (pos_point c a p q) e s = run v (node_events (num_sub_node c a p q e)) s.
  Proof.
    intros P. apply walk_elem_run; [now apply rel_sub|]. intros s'. destruct (s_body e) as [|? []]; reflexivity.
  Qed.
  Lemma walk_alpha_run c a p e s :
    walk_elem v KAlpha (walk_alpha_children v) (pos_par c a p) e s = run v (node_events (alpha_node c a p e)) s.
  Proof.
    apply walk_elem_run; [apply rel_alpha|]. intros s'. destruct e as [id b si ch]. cbn [s_body s_id]. destruct b as [|i [l|l] w]; [reflexivity|..]; apply walk_list_run; intros x _ s0.
    - apply walk_alpha_sub_run, plain_alpha.
    - apply walk_num_sub_run, plain_alpha.
  Qed.
  Lemma walk_num_run c a p e s :
    walk_elem v KNum (walk_num_children v) (pos_par c a p) e s = run v (node_events (num_node c a p e)) s.
  Proof.
    apply walk_elem_run; [apply rel_num|]. intros s'. destruct e as [id b si ch]. cbn [s_body s_id]. destruct b as [|i [l] w]; [reflexivity|..]; apply walk_list_run; intros x _ s0.
    apply walk_alpha_sub_run, plain_num.
  Qed.
  Lemma walk_par_run c a e s :
    walk_elem v KPar (walk_par_children v) (pos_article c a) e s = run v (node_events (par_node c a e)) s.
  Proof.
    apply walk_elem_run; [apply rel_par|]. intros s'. destruct e as [id b si ch]. cbn [s_body s_id]. destruct b as [|i [l|l|l|b|b] w]; try reflexivity; apply walk_list_run; intros x _ s0.
    - apply walk_alpha_run.
    - apply walk_num_run.
  Qed.
  Lemma walk_act_run a s : walk_act v a s = run v (act_events a) s.
  Proof.
    unfold walk_act, act_events, act_nodes, act_articles. generalize (ac_children a) as l. intros l. revert s.
    induction l as [|ch l IH]; intros s; [reflexivity|]. cbn [walk_list articles_of].
    destruct ch as [e|t|x]; cbn [walk_child child_article and_then]; [apply IH..|].
    cbn [flat_map]. rewrite flat_map_app, run_app. unfold walk_article. rewrite rel_article. cbn [and_then].
    rewrite (walk_list_run _ (par_node (ac_id a) (ar_ident x))) by (intros; apply walk_par_run).
    destruct (run v (flat_map node_events (map (par_node (ac_id a) (ar_ident x)) (ar_children x))) s) as [s' [[]| |]]; cbn; try reflexivity.
    apply IH.
  Qed.
End Run.

Section NodeInd.
  Variable P : node -> Prop.
  Hypothesis H : forall r x l, Forall P l -> P (Node r x l).
  Fixpoint node_ind' (n : node) : P n :=
    match n with
    | Node r x l => H r x l ((fix go l : Forall P l := match l with [] => Forall_nil _ | y :: l' => Forall_cons y (node_ind' y) (go l') end) l)
    end.
End NodeInd.
Lemma flat_map_flat_map {A B C} (f : A -> list B) (g : B -> list C) l : flat_map g (flat_map f l) = flat_map (fun x => flat_map g (f x)) l.
Proof. induction l as [|x l IH]; [reflexivity|]. cbn. now rewrite flat_map_app, IH. Qed.
Lemma flat_map_ext_Forall {A B} (f g : A -> list B) l : Forall (fun x => f x = g x) l -> flat_map f l = flat_map g l.
Proof. induction 1; cbn; congruence. Qed.
Lemma entered_node n : entered (node_events n) = preorder n.
Proof.
  induction n as [r x l IH] using node_ind'. cbn [node_events preorder]. unfold entered in *. cbn [flat_map app].
  f_equal. rewrite flat_map_app, flat_map_flat_map. cbn. rewrite app_nil_r. now apply flat_map_ext_Forall.
Qed.
Lemma entered_act a : entered (act_events a) = elements a.
Proof.
  unfold act_events, elements, entered. rewrite flat_map_flat_map. apply flat_map_ext_Forall.
  rewrite Forall_forall. intros n _. apply entered_node.
Qed.
Lemma nested_app a b : nested a -> nested b -> nested (a ++ b).
Proof.
  induction 1 as [|r x inner rest Hi _ Hr IH]; intros Hb; [exact Hb|]. cbn. rewrite <- app_assoc. cbn. constructor; auto.
Qed.
Lemma nested_flat l : Forall (fun n => nested (node_events n)) l -> nested (flat_map node_events l).
Proof. induction 1; cbn; [constructor|]. now apply nested_app. Qed.
Lemma nested_node n : nested (node_events n).
Proof.
  induction n as [r x l IH] using node_ind'. cbn. apply (nest_cons r x (flat_map node_events l) []); [now apply nested_flat|constructor].
Qed.
Lemma nested_act a : nested (act_events a).
Proof. apply nested_flat. rewrite Forall_forall. intros n _. apply nested_node. Qed.
Lemma exited_perm n : Permutation (exited (node_events n)) (preorder n).
Proof.
  induction n as [r x l IH] using node_ind'. cbn [node_events preorder]. unfold exited in *. cbn [flat_map app].
  rewrite flat_map_app, flat_map_flat_map. cbn. rewrite Permutation_app_comm. cbn. constructor.
  induction IH as [|n l Hn _ IH]; cbn; [constructor|]. now apply Permutation_app.
Qed.
Lemma exited_act a : Permutation (exited (act_events a)) (elements a).
Proof.
  unfold act_events, elements, exited. rewrite flat_map_flat_map. induction (act_nodes a) as [|n l IH]; cbn; [constructor|].
  apply Permutation_app; [apply exited_perm|exact IH].
Qed.
(** The calls a recording visitor gets *)
Definition recorder : visitor (list event) :=
  mkVisitor (fun k r e s => (s ++ [Enter r (El k e)], Ok tt)) (fun k r e s => (s ++ [Exit r (El k e)], Ok tt)).
Lemma recorder_run es s : run recorder es s = (s ++ es, Ok tt).
Proof.
  revert s. induction es as [|ev es IH]; intros s; [now rewrite app_nil_r|]. destruct ev as [r [k e]|r [k e]]; cbn; rewrite IH, <- app_assoc; reflexivity.
Qed.
Lemma recorder_walk a : walk_act recorder a [] = (act_events a, Ok tt).
Proof. rewrite walk_act_run. apply recorder_run. Qed.
