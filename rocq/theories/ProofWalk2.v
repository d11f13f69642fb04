(** Proofs for the mutable walker (C34). *)
From Verif Require Import ProofBase ProofIdent ProofRef.
From Verif Require Export ProofWalk.

(** ** The trace does not change the run *)
Definition strip {A S} (r : (A * (S * list call)) * outcome unit) : (A * S) * outcome unit :=
  let '((a, (s, _)), o) := r in ((a, s), o).
Section Strip.
  Context {S : Type} (v : visitor_mut S).
  Lemma strip_list {A} (f : A -> S * list call -> (A * (S * list call)) * outcome unit) g l :
    (forall x s, strip (f x s) = g x (fst s)) -> forall s, strip (mut_list f l s) = mut_list g l (fst s).
  Proof.
    intros H. induction l as [|x l IH]; intros s; [now destruct s|]. cbn. specialize (H x s).
    destruct (f x s) as [[x' [s' log]] o]. cbn in H. rewrite <- H. destruct o as [[]| |]; try reflexivity.
    specialize (IH (s', log)). destruct (mut_list f l (s', log)) as [[l2 [s2 log2]] o2]. cbn in IH. now rewrite <- IH.
  Qed.
  Lemma strip_map {A B} (h : A -> B) (r : (A * (S * list call)) * outcome unit) : strip (mut_map h r) = mut_map h (strip r).
  Proof. now destruct r as [[a [s l]] o]. Qed.
  Lemma strip_elem k wc wc' base e s : (forall r c s, strip (wc r c s) = wc' r c (fst s)) ->
    strip (mut_elem (traced v) k wc base e s) = mut_elem v k wc' base e (fst s).
  Proof.
    intros H. unfold mut_elem. destruct (relative_to _ base) as [r| |]; [|now destruct s..]. cbn.
    destruct (on_enter_mut v k r e (fst s)) as [[e1 s1] [[]| |]]; cbn; try reflexivity.
    destruct (s_body e1) as [t|i c w].
    - cbn. now destruct (on_exit_mut v k r e1 s1) as [[e2 s2] o].
    - specialize (H r c (s1, snd s ++ [mkCall true r (Ok tt)])). cbn in H.
      destruct (wc r c _) as [[c' [s2 log]] o]. cbn in H. rewrite <- H. destruct o as [[]| |]; cbn; try reflexivity.
      now destruct (on_exit_mut v k r _ s2) as [[e3 s3] o3].
  Qed.
  Lemma strip_none r c s : strip (mut_none r c s) = @mut_none S r c (fst s).
  Proof. destruct c. Qed.
  Lemma strip_alpha r c s : strip (mut_alpha_children (traced v) r c s) = mut_alpha_children v r c (fst s).
  Proof. destruct c; cbn; rewrite strip_map; f_equal; apply strip_list; intros; first [apply (strip_elem KAlphaSub), strip_none|apply (strip_elem KNumSub), strip_none]. Qed.
  Lemma strip_num r c s : strip (mut_num_children (traced v) r c s) = mut_num_children v r c (fst s).
  Proof. destruct c; cbn; rewrite strip_map; f_equal; apply strip_list; intros; first [apply (strip_elem KAlphaSub), strip_none|apply (strip_elem KNumSub), strip_none]. Qed.
  Lemma strip_par r c s : strip (mut_par_children (traced v) r c s) = mut_par_children v r c (fst s).
  Proof.
    destruct c; cbn; try (now destruct s); rewrite strip_map; f_equal; apply strip_list; intros; [apply (strip_elem KAlpha), strip_alpha|apply (strip_elem KNum), strip_num].
  Qed.
  Lemma strip_act a s : strip (mut_act (traced v) a s) = mut_act v a (fst s).
  Proof.
    unfold mut_act. rewrite strip_map. f_equal. apply strip_list. intros [e|t|x] s'; cbn; try (now destruct s').
    rewrite strip_map. f_equal. unfold mut_article. destruct (relative_to _ _); [|now destruct s'..].
    rewrite strip_map. rewrite (strip_list _ (mut_elem v KPar (mut_par_children v) a0)); [reflexivity|].
    intros. apply (strip_elem KPar), strip_par.
  Qed.
End Strip.

(** ** The calls made *)
Lemma made_app l1 l2 o d1 d2 : made l1 (Ok tt) d1 -> made l2 o d2 -> made (l1 ++ l2) o (d1 ++ d2).
Proof.
  intros [(_ & <- & F)|(N & _)]; [|congruence]. intros [(-> & <- & F2)|(N & b & c & a & -> & -> & F2 & E)].
  - left. split; [reflexivity|]. split; [apply map_app|]. now apply Forall_app.
  - right. split; [exact N|]. exists (l1 ++ b), c, a. rewrite app_assoc. split; [reflexivity|]. split; [now rewrite !map_app, !app_assoc|].
    split; [now apply Forall_app|exact E].
Qed.
Lemma made_stop l o d1 d2 : o <> Ok tt -> made l o d1 -> made l o (d1 ++ d2).
Proof.
  intros N [(E & _)|(_ & b & c & a & -> & -> & F & E)]; [congruence|]. right. split; [exact N|].
  exists b, c, (a ++ d2). rewrite app_assoc. auto.
Qed.
Lemma made_one b r o : made [mkCall b r o] o [(b, r)].
Proof.
  destruct o as [[]| |].
  - left. repeat split. repeat constructor.
  - right. split; [discriminate|]. exists [], (mkCall b r Err), []. repeat split. constructor.
  - right. split; [discriminate|]. exists [], (mkCall b r Panic), []. repeat split. constructor.
Qed.
Definition grows {A S} (r : (A * (S * list call)) * outcome unit) (log : list call) (due : list (bool * reference)) : Prop :=
  exists new, snd (snd (fst r)) = log ++ new /\ made new (snd r) due.
Lemma made_nil : made [] (Ok tt) [].
Proof. left. repeat split. constructor. Qed.
Section Calls.
  Context {S : Type} (v : visitor_mut S) (K : keeps_body v).
  Definition due (n : node) : list (bool * reference) := map event_pos (node_events n).
  Lemma grows_map {A B} (h : A -> B) (r : (A * (S * list call)) * outcome unit) log d : grows r log d -> grows (mut_map h r) log d.
  Proof. now destruct r as [[a [s l]] o]. Qed.
  Lemma grows_list {A} (f : A -> S * list call -> (A * (S * list call)) * outcome unit) (g : A -> list (bool * reference)) l :
    (forall x s, grows (f x s) (snd s) (g x)) -> forall s, grows (mut_list f l s) (snd s) (flat_map g l).
  Proof.
    intros H. induction l as [|x l IH]; intros s.
    - exists []. split; [now rewrite app_nil_r|apply made_nil].
    - cbn [mut_list flat_map]. specialize (H x s). destruct (f x s) as [[x' [s' log]] o]. destruct H as (new & E & M). cbn in E, M.
      destruct o as [[]| |].
      + specialize (IH (s', log)). destruct (mut_list f l (s', log)) as [[l2 [s2 log2]] o2]. destruct IH as (new2 & E2 & M2). cbn in E2, M2.
        exists (new ++ new2). cbn. split; [now rewrite E2, E, app_assoc|]. now apply made_app.
      + exists new. split; [exact E|]. now apply made_stop.
      + exists new. split; [exact E|]. now apply made_stop.
  Qed.
  Lemma grows_elem k wc base (e : elem k) r below s : relative_to (own_ref k (s_id e)) base = Ok r ->
    (forall s, match s_body e with
               | BChildren _ c _ => grows (wc r c s) (snd s) (flat_map due below)
               | BText _ => below = [] end) ->
    grows (mut_elem (traced v) k wc base e s) (snd s) (due (Node r (El k e) below)).
  Proof.
    intros R H. specialize (K k r e (fst s)).
    assert (D : due (Node r (El k e) below) = [(true, r)] ++ flat_map due below ++ [(false, r)]).
    { unfold due. cbn. rewrite map_app. cbn. f_equal. f_equal.
      clear. induction below; cbn; [reflexivity|]. now rewrite map_app, IHbelow. }
    rewrite D. clear D. unfold mut_elem. rewrite R. cbn -[app flat_map]. destruct (on_enter_mut v k r e (fst s)) as [[e1 s1] o1]. cbn in K |- *. rewrite <- K in H.
    assert (M1 := made_one true r o1). destruct o1 as [[]| |]; cbn -[app flat_map].
    2,3: eexists; split; [reflexivity|]; apply (made_stop _ _ [(true, r)]); [discriminate|exact M1].
    destruct (s_body e1) as [t|i c w] eqn:B.
    - specialize (H s). subst below. cbn -[app flat_map]. assert (M2 := made_one false r). destruct (on_exit_mut v k r e1 s1) as [[e2 s2] o2]. cbn -[app flat_map].
      exists ([mkCall true r (Ok tt)] ++ [mkCall false r o2]). split; [cbn [fst snd]; now rewrite app_assoc|].
      apply (made_app [_] [_] _ [(true, r)] [(false, r)]); [exact M1|apply M2].
    - specialize (H (s1, snd s ++ [mkCall true r (Ok tt)])). destruct (wc r c _) as [[c' [s2 log]] o2]. destruct H as (new & E & M). cbn [fst snd] in E, M.
      destruct o2 as [[]| |]; cbn -[app flat_map].
      + assert (M3 := made_one false r). destruct (on_exit_mut v k r _ s2) as [[e3 s3] o3]. cbn -[app flat_map].
        exists ([mkCall true r (Ok tt)] ++ new ++ [mkCall false r o3]). split; [cbn [fst snd]; now rewrite E, <- !app_assoc|].
        apply (made_app [_] _ _ [(true, r)]); [exact M1|]. apply made_app; [exact M|apply M3].
      + exists ([mkCall true r (Ok tt)] ++ new). split; [cbn [fst snd]; now rewrite E, <- !app_assoc|].
        apply (made_app [_] _ _ [(true, r)]); [exact M1|]. now apply made_stop.
      + exists ([mkCall true r (Ok tt)] ++ new). split; [cbn [fst snd]; now rewrite E, <- !app_assoc|].
        apply (made_app [_] _ _ [(true, r)]); [exact M1|]. now apply made_stop.
  Qed.
  Lemma due_map {A} (g : A -> node) l : flat_map due (map g l) = flat_map (fun x => due (g x)) l.
  Proof. induction l; cbn; congruence. Qed.
  Lemma grows_alpha_sub c a p q e s : plain_point q ->
    grows (mut_elem (traced v) KAlphaSub mut_none (pos_point c a p q) e s) (snd s) (due (alpha_sub_node c a p q e)).
  Proof. intros P. apply (grows_elem KAlphaSub); [now apply rel_sub|]. intros s'. now destruct (s_body e) as [|? []]. Qed.
  Lemma grows_num_sub c a p q e s : plain_point q ->
    grows (mut_elem (traced v) KNumSub mut_none (pos_point c a p q) e s) (snd s) (due (num_sub_node c a p q e)).
  Proof. intros P. apply (grows_elem KNumSub); [now apply rel_sub|]. intros s'. now destruct (s_body e) as [|? []]. Qed.
  Lemma grows_alpha c a p e s :
    grows (mut_elem (traced v) KAlpha (mut_alpha_children (traced v)) (pos_par c a p) e s) (snd s) (due (alpha_node c a p e)).
  Proof.
    apply (grows_elem KAlpha); [apply rel_alpha|]. intros s'. destruct e as [id b si ch]. cbn [s_body s_id].
    destruct b as [|i [l|l] w]; [reflexivity|..]; cbn [mut_alpha_children]; apply grows_map; rewrite due_map; apply grows_list; intros.
    - apply grows_alpha_sub, plain_alpha.
    - apply grows_num_sub, plain_alpha.
  Qed.
  Lemma grows_num c a p e s :
    grows (mut_elem (traced v) KNum (mut_num_children (traced v)) (pos_par c a p) e s) (snd s) (due (num_node c a p e)).
  Proof.
    apply (grows_elem KNum); [apply rel_num|]. intros s'. destruct e as [id b si ch]. cbn [s_body s_id].
    destruct b as [|i [l] w]; [reflexivity|..]; cbn [mut_num_children]; apply grows_map; rewrite due_map; apply grows_list; intros.
    apply grows_alpha_sub, plain_num.
  Qed.
  Lemma grows_par c a e s :
    grows (mut_elem (traced v) KPar (mut_par_children (traced v)) (pos_article c a) e s) (snd s) (due (par_node c a e)).
  Proof.
    apply (grows_elem KPar); [apply rel_par|]. intros s'. destruct e as [id b si ch]. cbn [s_body s_id].
    destruct b as [|i [l|l|l|b|b] w]; cbn [mut_par_children].
    1: reflexivity.
    3-5: exists []; split; [cbn; now rewrite app_nil_r|apply made_nil].
    - apply grows_map. rewrite due_map. apply grows_list. intros. apply grows_alpha.
    - apply grows_map. rewrite due_map. apply grows_list. intros. apply grows_num.
  Qed.
  Lemma grows_act a s : grows (mut_act (traced v) a s) (snd s) (map event_pos (act_events a)).
  Proof.
    unfold mut_act. apply grows_map.
    assert (E : map event_pos (act_events a) = flat_map (fun ch => match ch with
        | ChArticle x => flat_map due (map (par_node (ac_id a) (ar_ident x)) (ar_children x)) | _ => [] end) (ac_children a)).
    { unfold act_events, act_nodes, act_articles. induction (ac_children a) as [|ch l IH]; [reflexivity|].
      destruct ch as [e|t|x]; cbn [articles_of child_article flat_map]; [exact IH..|].
      rewrite flat_map_app, map_app, IH. f_equal. clear. induction (map _ (ar_children x)) as [|n l IH]; cbn; [reflexivity|].
      now rewrite map_app, IH. }
    rewrite E. apply grows_list. intros [e|t|x] s'.
    1,2: exists []; split; [cbn; now rewrite app_nil_r|apply made_nil].
    cbn [mut_child]. apply grows_map. unfold mut_article. rewrite rel_article. apply grows_map. rewrite due_map. apply grows_list. intros. apply grows_par.
  Qed.
End Calls.
Lemma c34_calls {S} (v : visitor_mut S) a s : keeps_body v ->
  made (snd (snd (fst (mut_act (traced v) a (s, []))))) (snd (mut_act (traced v) a (s, []))) (map event_pos (act_events a)).
Proof. intros K. destruct (grows_act v K a (s, [])) as (new & E & M). rewrite E. exact M. Qed.

(** ** Visitors that change nothing *)
Section Frozen.
  Context {S : Type} (v : visitor_mut S) (K : changes_nothing v).
  Definition same {A} (x : A) (r : S * outcome unit) : (A * S) * outcome unit := ((x, fst r), snd r).
  Lemma same_list {A} (f : A -> S -> (A * S) * outcome unit) g l : (forall x s, f x s = same x (g x s)) ->
    forall s, mut_list f l s = same l (walk_list g l s).
  Proof.
    intros H. induction l as [|x l IH]; intros s; [reflexivity|]. cbn. rewrite H. unfold same. destruct (g x s) as [s' [[]| |]]; cbn; try reflexivity.
    rewrite IH. reflexivity.
  Qed.
  Lemma same_map {A B} (h : A -> B) x r : mut_map h (same x r) = same (h x) r.
  Proof. reflexivity. Qed.
  Lemma same_elem k wc wc' base (e : elem k) s : (forall r c s, wc r c s = same c (wc' r c s)) ->
    mut_elem v k wc base e s = same e (walk_elem (forget v) k wc' base e s).
  Proof.
    intros H. unfold mut_elem, walk_elem. destruct (relative_to _ base) as [r| |]; cbn; try reflexivity.
    destruct (K k r e s) as [K1 _]. destruct (on_enter_mut v k r e s) as [[e1 s1] [[]| |]]; cbn in *; subst e1; try reflexivity.
    destruct (s_body e) as [t|i c w] eqn:B; cbn.
    - destruct (K k r e s1) as [_ K2]. destruct (on_exit_mut v k r e s1) as [[e2 s2] o2]; cbn in *. now subst e2.
    - rewrite H. unfold same. assert (E : with_body e (BChildren i c w) = e) by (unfold with_body; rewrite <- B; now destruct e).
      destruct (wc' r c s1) as [s2 [[]| |]]; cbn; rewrite ?E; try reflexivity.
      destruct (K k r e s2) as [_ K2]. destruct (on_exit_mut v k r e s2) as [[e3 s3] o3]; cbn in *. now subst e3.
  Qed.
  Lemma same_none r c s : @mut_none S r c s = same c (walk_none r c s).
  Proof. destruct c. Qed.
  Lemma same_alpha r c s : mut_alpha_children v r c s = same c (walk_alpha_children (forget v) r c s).
  Proof. destruct c; cbn; rewrite <- same_map; f_equal; apply same_list; intros; first [apply (same_elem KAlphaSub), same_none|apply (same_elem KNumSub), same_none]. Qed.
  Lemma same_num r c s : mut_num_children v r c s = same c (walk_num_children (forget v) r c s).
  Proof. destruct c; cbn; rewrite <- same_map; f_equal; apply same_list; intros; first [apply (same_elem KAlphaSub), same_none|apply (same_elem KNumSub), same_none]. Qed.
  Lemma same_par r c s : mut_par_children v r c s = same c (walk_par_children (forget v) r c s).
  Proof.
    destruct c; cbn; try reflexivity; rewrite <- same_map; f_equal; apply same_list; intros; [apply (same_elem KAlpha), same_alpha|apply (same_elem KNum), same_num].
  Qed.
  Lemma same_act a s : mut_act v a s = same a (walk_act (forget v) a s).
  Proof.
    unfold mut_act, walk_act. rewrite (same_list _ (walk_child (forget v) (ref_of_act (ac_id a)))).
    - rewrite same_map. now destruct a.
    - intros [e|t|x] s'; cbn [mut_child walk_child]; try reflexivity. unfold mut_article, walk_article. rewrite rel_article.
      cbn [and_then]. rewrite (same_list _ (walk_elem (forget v) KPar (walk_par_children (forget v)) (pos_article (ac_id a) (ar_ident x)))).
      + rewrite !same_map. now destruct x.
      + intros. apply (same_elem KPar), same_par.
  Qed.
End Frozen.

(** ** Visitors that only annotate *)
Section Annot.
  Context {S : Type} (v : visitor_mut S) (K : annotates v).
  Lemma annot_list {A} (f : A -> S -> (A * S) * outcome unit) (g : A -> A) l : (forall x s, g (fst (fst (f x s))) = g x) ->
    forall s, map g (fst (fst (mut_list f l s))) = map g l.
  Proof.
    intros H. induction l as [|x l IH]; intros s; [reflexivity|]. cbn. specialize (H x s). destruct (f x s) as [[x' s'] [[]| |]]; cbn in *; try (cbn; congruence).
    specialize (IH s'). destruct (mut_list f l s') as [[l2 s2] o]. cbn in *. congruence.
  Qed.
  Lemma annot_elem k wc (h : children_of_kind k -> children_of_kind k) base (e : elem k) s :
    (forall r c s, h (fst (fst (wc r c s))) = h c) -> bare h (fst (fst (mut_elem v k wc base e s))) = bare h e.
  Proof.
    intros H. unfold mut_elem. destruct (relative_to _ base) as [r| |]; cbn; try reflexivity. destruct K as [K1 K2].
    destruct (K1 k r e s) as [B1 I1]. destruct (on_enter_mut v k r e s) as [[e1 s1] o1]. cbn in *.
    assert (E1 : bare h e1 = bare h e) by (unfold bare; now rewrite B1, I1). rewrite <- E1.
    destruct o1 as [[]| |]; cbn; try reflexivity.
    assert (X : forall e2 s2, bare h (fst (fst (on_exit_mut v k r e2 s2))) = bare h e2).
    { intros e2 s2. unfold bare. destruct (K2 k r e2 s2) as [-> ->]. reflexivity. }
    destruct (s_body e1) as [t|i c w] eqn:B.
    - cbn. specialize (X e1 s1). now destruct (on_exit_mut v k r e1 s1) as [[e2 s2] [[]| |]].
    - cbn. specialize (H r c s1). destruct (wc r c s1) as [[c' s2] o2]. cbn in H.
      assert (E2 : bare h (with_body e1 (BChildren i c' w)) = bare h e1) by (unfold bare, with_body; cbn; now rewrite B, H).
      rewrite <- E2. destruct o2 as [[]| |]; cbn; try reflexivity. apply X.
  Qed.
  Lemma annot_map {A B} (g : A -> B) (r : (A * S) * outcome unit) : fst (fst (mut_map g r)) = g (fst (fst r)).
  Proof. now destruct r as [[]]. Qed.
  Lemma annot_sub_list {I} (f : sae I Empty_set -> S -> (sae I Empty_set * S) * outcome unit) l s :
    (forall x s, bare_sub (fst (fst (f x s))) = bare_sub x) -> map bare_sub (fst (fst (mut_list f l s))) = map bare_sub l.
  Proof. intros H. now apply annot_list. Qed.
  Lemma annot_act a s : bare_act (fst (fst (mut_act v a s))) = bare_act a.
  Proof.
    assert (SA : forall base x s, bare_sub (fst (fst (mut_elem v KAlphaSub mut_none base x s))) = bare_sub x)
      by (intros; apply (annot_elem KAlphaSub); intros r []).
    assert (SN : forall base x s, bare_sub (fst (fst (mut_elem v KNumSub mut_none base x s))) = bare_sub x)
      by (intros; apply (annot_elem KNumSub); intros r []).
    assert (PA : forall base x s, bare_alpha (fst (fst (mut_elem v KAlpha (mut_alpha_children v) base x s))) = bare_alpha x).
    { intros. apply (annot_elem KAlpha). intros r [l|l] s'; cbn [mut_alpha_children]; rewrite annot_map; f_equal; apply annot_sub_list; auto. }
    assert (PN : forall base x s, bare_num (fst (fst (mut_elem v KNum (mut_num_children v) base x s))) = bare_num x).
    { intros. apply (annot_elem KNum). intros r [l] s'; cbn [mut_num_children]; rewrite annot_map; f_equal; apply annot_sub_list; auto. }
    assert (PP : forall base x s, bare_par (fst (fst (mut_elem v KPar (mut_par_children v) base x s))) = bare_par x).
    { intros. apply (annot_elem KPar). intros r [l|l|l|b|b] s'; cbn [mut_par_children]; try reflexivity; rewrite annot_map; f_equal; apply annot_list; auto. }
    unfold mut_act. rewrite annot_map. unfold bare_act. cbn. f_equal. apply annot_list. intros [e|t|x] s'; cbn; try reflexivity.
    rewrite annot_map. cbn. f_equal. unfold mut_article. destruct (relative_to _ _); cbn; try reflexivity. rewrite annot_map.
    unfold bare_article. cbn. f_equal. apply annot_list. auto.
  Qed.
End Annot.

(** ** Visitors without state *)
Section Pure.
  Variables (g h : forall k, reference -> elem k -> elem k).
  Let v := stateless g h.
  Lemma pure_list {A} (f : A -> unit -> (A * unit) * outcome unit) (m : A -> A) l : (forall x s, f x s = ((m x, tt), Ok tt)) ->
    forall s, mut_list f l s = ((map m l, tt), Ok tt).
  Proof. intros H. induction l as [|x l IH]; intros []; [reflexivity|]. cbn. now rewrite H, IH. Qed.
  Lemma pure_elem k wc m base (e : elem k) s r : relative_to (own_ref k (s_id e)) base = Ok r ->
    (forall c s, wc r c s = ((m r c, tt), Ok tt)) -> mut_elem v k wc base e s = ((mapped g h k m r e, tt), Ok tt).
  Proof.
    intros R H. unfold mut_elem. rewrite R. cbn. unfold mapped. destruct s. destruct (s_body (g k r e)); cbn; [reflexivity|]. now rewrite H.
  Qed.
  Lemma pure_act a : mut_act v a tt = ((m_act g h a, tt), Ok tt).
  Proof.
    assert (SA : forall c a p q x s, plain_point q -> mut_elem v KAlphaSub mut_none (pos_point c a p q) x s = ((m_alpha_sub g h c a p q x, tt), Ok tt)).
    { intros. apply (pure_elem KAlphaSub); [now apply rel_sub|]. intros []. }
    assert (SN : forall c a p q x s, plain_point q -> mut_elem v KNumSub mut_none (pos_point c a p q) x s = ((m_num_sub g h c a p q x, tt), Ok tt)).
    { intros. apply (pure_elem KNumSub); [now apply rel_sub|]. intros []. }
    assert (PA : forall c a p x s, mut_elem v KAlpha (mut_alpha_children v) (pos_par c a p) x s = ((m_alpha g h c a p x, tt), Ok tt)).
    { intros. apply (pure_elem KAlpha); [apply rel_alpha|]. intros [l|l] s'; cbn [mut_alpha_children].
      - now rewrite (pure_list _ (m_alpha_sub g h c a0 p (at_alpha (s_id x)))) by (intros; apply SA, plain_alpha).
      - now rewrite (pure_list _ (m_num_sub g h c a0 p (at_alpha (s_id x)))) by (intros; apply SN, plain_alpha). }
    assert (PN : forall c a p x s, mut_elem v KNum (mut_num_children v) (pos_par c a p) x s = ((m_num g h c a p x, tt), Ok tt)).
    { intros. apply (pure_elem KNum); [apply rel_num|]. intros [l] s'; cbn [mut_num_children].
      now rewrite (pure_list _ (m_alpha_sub g h c a0 p (at_num (s_id x)))) by (intros; apply SA, plain_num). }
    assert (PP : forall c a x s, mut_elem v KPar (mut_par_children v) (pos_article c a) x s = ((m_par g h c a x, tt), Ok tt)).
    { intros. apply (pure_elem KPar); [apply rel_par|]. intros [l|l|l|b|b] []; cbn [mut_par_children]; try reflexivity.
      - now rewrite (pure_list _ (m_alpha g h c a0 (s_id x))) by (intros; apply PA).
      - now rewrite (pure_list _ (m_num g h c a0 (s_id x))) by (intros; apply PN). }
    unfold mut_act. erewrite pure_list; [reflexivity|]. intros [e|t|x] []; cbn; try reflexivity. unfold mut_article. rewrite rel_article.
    now rewrite (pure_list _ (m_par g h (ac_id a) (ar_ident x))) by (intros; apply PP).
  Qed.
End Pure.

(** ** Visitors that fail *)
Section Stubborn.
  Context {S : Type} (v : visitor_mut S).
  Let w := stubborn v.
  Let T : Type := (S * option (outcome unit))%type.
  (** [F] does what [f] does and keeps the failure. *)
  Definition keeps {A} (f : A -> S -> (A * S) * outcome unit) (F : A -> T -> (A * T) * outcome unit) (x : A) : Prop :=
    (forall s o, F x (s, Some o) = ((x, (s, Some o)), Ok tt)) /\
    (forall s, F x (s, None) = let '((x', s'), o) := f x s in ((x', (s', failure o)), Ok tt)).
  Lemma keeps_list {A} f F (l : list A) : (forall x, keeps f F x) -> keeps (mut_list f) (mut_list F) l.
  Proof.
    intros H. induction l as [|x l [I1 I2]]; [split; reflexivity|]. destruct (H x) as [H1 H2]. split; intros s; cbn [mut_list].
    - intros o. now rewrite H1, I1.
    - rewrite H2. destruct (f x s) as [[x' s'] o]. destruct o as [[]| |]; cbn [failure].
      + rewrite I2. now destruct (mut_list f l s') as [[l2 s2] o2].
      + now rewrite I1.
      + now rewrite I1.
  Qed.
  Lemma keeps_map {A B} (h : A -> B) f F (x : A) : keeps f F x ->
    (forall s o, mut_map h (F x (s, Some o)) = ((h x, (s, Some o)), Ok tt)) /\
    (forall s, mut_map h (F x (s, None)) = let '((y, s'), o) := mut_map h (f x s) in ((y, (s', failure o)), Ok tt)).
  Proof. intros [H1 H2]. split; intros s; [intros o; now rewrite H1|]. rewrite H2. now destruct (f x s) as [[x' s'] o]. Qed.
  Lemma map_kept {A B} (h : A -> B) (r : (A * S) * outcome unit) :
    mut_map h (let '((y, s'), o) := r in ((y, (s', failure o)), Ok tt)) = let '((y, s'), o) := mut_map h r in ((y, (s', failure o)), Ok tt).
  Proof. now destruct r as [[y s'] o]. Qed.
  Lemma keeps_elem k wc WC base (e : elem k) r : relative_to (own_ref k (s_id e)) base = Ok r -> (forall c, keeps (wc r) (WC r) c) ->
    keeps (mut_elem v k wc base) (mut_elem w k WC base) e.
  Proof.
    intros R H. assert (Eta : forall (x : elem k) i c t, s_body x = BChildren i c t -> with_body x (BChildren i c t) = x)
      by (intros x i c t E; unfold with_body; rewrite <- E; now destruct x).
    split; intros s; unfold mut_elem; rewrite R.
    - intros o. cbn. destruct (s_body e) as [t|i c t] eqn:B; [reflexivity|]. rewrite (proj1 (H c)). cbn. now rewrite (Eta _ _ _ _ B).
    - cbn. destruct (on_enter_mut v k r e s) as [[e1 s1] o1]. cbn.
      assert (D : forall o, (forall u, o <> Ok u) -> let '((y, s'), q) := and_then
          (match s_body e1 with
           | BText _ => ((e1, (s1, Some o)), Ok tt)
           | BChildren i c t => let '((c', s'), q) := WC r c (s1, Some o) in ((with_body e1 (BChildren i c' t), s'), q)
           end) (fun _ es => on_exit_mut w k r (fst es) (snd es)) in ((y, s'), q) = ((e1, (s1, Some o)), Ok tt)).
      { intros o _. destruct (s_body e1) as [t|i c t] eqn:B; [reflexivity|]. rewrite (proj1 (H c)). cbn. now rewrite (Eta _ _ _ _ B). }
      destruct o1 as [[]| |]; cbn [failure].
      + cbn. destruct (s_body e1) as [t|i c t] eqn:B.
        * cbn. now destruct (on_exit_mut v k r e1 s1) as [[e2 s2] o2].
        * rewrite (proj2 (H c)). destruct (wc r c s1) as [[c' s2] o2]. cbn. destruct o2 as [[]| |]; cbn; try reflexivity.
      + specialize (D Err ltac:(discriminate)). cbn in D |- *. destruct (and_then _ _) as [[y s'] q]. exact D.
      + specialize (D Panic ltac:(discriminate)). cbn in D |- *. destruct (and_then _ _) as [[y s'] q]. exact D.
  Qed.
  Lemma keeps_act a : keeps (mut_act v) (mut_act w) a.
  Proof.
    assert (NO : forall r c, keeps (@mut_none S r) (@mut_none T r) c) by (intros r []).
    assert (PA : forall c a p x, keeps (mut_elem v KAlpha (mut_alpha_children v) (pos_par c a p)) (mut_elem w KAlpha (mut_alpha_children w) (pos_par c a p)) x).
    { intros. apply (keeps_elem KAlpha _ _ _ _ _ (rel_alpha _ _ _ _)).
      intros [l|l]; cbn [mut_alpha_children]; apply keeps_map, keeps_list; intros y;
        [eapply (keeps_elem KAlphaSub)|eapply (keeps_elem KNumSub)]; try (intros z; apply NO); (eapply rel_sub; [reflexivity..|apply plain_alpha]). }
    assert (PN : forall c a p x, keeps (mut_elem v KNum (mut_num_children v) (pos_par c a p)) (mut_elem w KNum (mut_num_children w) (pos_par c a p)) x).
    { intros. apply (keeps_elem KNum _ _ _ _ _ (rel_num _ _ _ _)).
      intros [l]; cbn [mut_num_children]; apply keeps_map, keeps_list; intros y; eapply (keeps_elem KAlphaSub); try (intros z; apply NO); (eapply rel_sub; [reflexivity..|apply plain_num]). }
    assert (PP : forall c a x, keeps (mut_elem v KPar (mut_par_children v) (pos_article c a)) (mut_elem w KPar (mut_par_children w) (pos_article c a)) x).
    { intros. apply (keeps_elem KPar _ _ _ _ _ (rel_par _ _ _)).
      intros [l|l|l|b|b]; cbn [mut_par_children]; try (split; reflexivity); apply keeps_map, keeps_list; auto. }
    unfold mut_act, keeps. 
    pose proof (keeps_map (fun l => mkActS (ac_id a) (ac_subject a) (ac_preamble a) (ac_date a) (ac_abbrevs a) l) (mut_list (mut_child v (ref_of_act (ac_id a))))
      (mut_list (mut_child w (ref_of_act (ac_id a)))) (ac_children a)) as X.
    destruct a as [i sb pr d ab ch]. cbn [ac_id ac_subject ac_preamble ac_date ac_abbrevs ac_children] in *. apply X. clear X.
    apply keeps_list. intros [e|t|x]; try (split; reflexivity). cbn [mut_child]. 
    unfold keeps, mut_article. cbn [mut_child]. unfold mut_article. rewrite rel_article.
    pose proof (keeps_map (fun l => mkArticle (ar_ident x) (ar_title x) l (ar_change x)) _ _ (ar_children x) (keeps_list _ _ (ar_children x) (PP i (ar_ident x)))) as [X1 X2].
    split; intros s.
    - intros o. rewrite X1. now destruct x.
    - rewrite X2. apply (map_kept ChArticle).
  Qed.
  Lemma stubborn_act a s : let '((b, (s', f)), o) := mut_act w a (s, None) in
    o = Ok tt /\ mut_act v a s = ((b, s'), match f with Some o => o | None => Ok tt end).
  Proof.
    rewrite (proj2 (keeps_act a)). destruct (mut_act v a s) as [[b s'] o]. now destruct o as [[]| |].
  Qed.
End Stubborn.
