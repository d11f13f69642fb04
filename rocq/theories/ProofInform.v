(** Proofs for C83: semantic information changes nothing else, and the act is determined by it. *)
From Verif Require Export SpecInform.
From Verif Require Import ProofWalk2.
From Verif Require ProofSem5.
From Coq Require Import Lia.

(** ** Visitors that only put in information *)
Section Blank.
  Context {S : Type} (v : visitor_mut S).
  Definition informs : Prop :=
    (forall k r e s, let e' := fst (fst (on_enter_mut v k r e s)) in s_body e' = s_body e /\ s_id e' = s_id e /\ s_change e' = s_change e) /\
    (forall k r e s, let e' := fst (fst (on_exit_mut v k r e s)) in s_body e' = s_body e /\ s_id e' = s_id e /\ s_change e' = s_change e).
  Hypothesis K : informs.
  Lemma blank_elem k wc (h : children_of_kind k -> children_of_kind k) base (e : elem k) s :
    (forall r c s, h (fst (fst (wc r c s))) = h c) -> blank h (fst (fst (mut_elem v k wc base e s))) = blank h e.
  Proof.
    intros H. unfold mut_elem. destruct (relative_to _ base) as [r| |]; cbn; try reflexivity. destruct K as [K1 K2].
    destruct (K1 k r e s) as (B1 & I1 & C1). destruct (on_enter_mut v k r e s) as [[e1 s1] o1]. cbn in *.
    assert (E1 : blank h e1 = blank h e) by (unfold blank; now rewrite B1, I1, C1). rewrite <- E1.
    destruct o1 as [[]| |]; cbn; try reflexivity.
    assert (X : forall e2 s2, blank h (fst (fst (on_exit_mut v k r e2 s2))) = blank h e2).
    { intros e2 s2. unfold blank. destruct (K2 k r e2 s2) as (-> & -> & ->). reflexivity. }
    destruct (s_body e1) as [t|i c w] eqn:B.
    - cbn. specialize (X e1 s1). now destruct (on_exit_mut v k r e1 s1) as [[e2 s2] [[]| |]].
    - cbn. specialize (H r c s1). destruct (wc r c s1) as [[c' s2] o2]. cbn in H.
      assert (E2 : blank h (with_body e1 (BChildren i c' w)) = blank h e1) by (unfold blank, with_body; cbn; now rewrite B, H).
      rewrite <- E2. destruct o2 as [[]| |]; cbn; try reflexivity. apply X.
  Qed.
  Lemma blank_kept a s : blank_act (fst (fst (mut_act v a s))) = blank_act a.
  Proof.
    assert (SA : forall base x s, blank_sub (fst (fst (mut_elem v KAlphaSub mut_none base x s))) = blank_sub x)
      by (intros; apply (blank_elem KAlphaSub); intros r []).
    assert (SN : forall base x s, blank_sub (fst (fst (mut_elem v KNumSub mut_none base x s))) = blank_sub x)
      by (intros; apply (blank_elem KNumSub); intros r []).
    assert (PA : forall base x s, blank_alpha (fst (fst (mut_elem v KAlpha (mut_alpha_children v) base x s))) = blank_alpha x).
    { intros. apply (blank_elem KAlpha). intros r [l|l] s'; cbn [mut_alpha_children]; rewrite annot_map; f_equal; apply annot_list; auto. }
    assert (PN : forall base x s, blank_num (fst (fst (mut_elem v KNum (mut_num_children v) base x s))) = blank_num x).
    { intros. apply (blank_elem KNum). intros r [l] s'; cbn [mut_num_children]; rewrite annot_map; f_equal; apply annot_list; auto. }
    assert (PP : forall base x s, blank_par (fst (fst (mut_elem v KPar (mut_par_children v) base x s))) = blank_par x).
    { intros. apply (blank_elem KPar). intros r [l|l|l|b|b] s'; cbn [mut_par_children]; try reflexivity; rewrite annot_map; f_equal; apply annot_list; auto. }
    unfold mut_act. rewrite annot_map. unfold blank_act. cbn. f_equal. apply annot_list. intros [e|t|x] s'; cbn; try reflexivity.
    rewrite annot_map. cbn. f_equal. unfold mut_article. destruct (relative_to _ _); cbn; try reflexivity. rewrite annot_map.
    unfold blank_article. cbn. f_equal. apply annot_list. auto.
  Qed.
End Blank.
Lemma sem_informs rf gp : informs (sem_visitor rf gp).
Proof.
  split; intros k r e s; cbn [sem_visitor on_enter_mut on_exit_mut].
  - unfold sem_enter. destruct (s_body e) as [t|i c w] eqn:B; destruct (extract_semantic_info rf gp _ s) as [s' [x| |]]; cbn; auto.
  - unfold sem_exit. destruct (s_body e) eqn:B; cbn; auto.
Qed.
Lemma blank_rest rf gp a : let '(a', o) := add_semantic_info rf gp a in blank_act a' = blank_act (with_abbrevs a (ac_abbrevs a')).
Proof.
  unfold add_semantic_info. set (st := mkAdder [] [] (cache_from (ac_abbrevs a))). pose proof (blank_kept _ (sem_informs rf gp) a st) as B.
  destruct (mut_act (sem_visitor rf gp) a st) as [[a' s] o]. cbn [fst snd] in B. unfold blank_act in B. injection B as B1 B2 B3 B4 B5 B6.
  destruct o as [[]| |]; unfold blank_act; cbn; congruence.
Qed.
Lemma blank_article_mut rf gp c x st : blank_article (fst (fst (mut_article (sem_visitor rf gp) (ref_of_act c) x st))) = blank_article x.
Proof.
  pose proof (blank_kept _ (sem_informs rf gp) (mkActS c [] [] default_date [] [ChArticle x]) st) as B.
  unfold mut_act in B. cbn [ac_children ac_id mut_list mut_child] in B.
  destruct (mut_article (sem_visitor rf gp) (ref_of_act c) x st) as [[x' s'] [[]| |]]; unfold blank_act in B; cbn [ac_children map blank_child fst snd mut_map] in B |- *; congruence.
Qed.
Lemma blank_rest_article rf gp i a : let '(a', o) := add_semantic_info_to_article rf gp i a in blank_act a' = blank_act (with_abbrevs a (ac_abbrevs a')).
Proof.
  unfold add_semantic_info_to_article. set (st := mkAdder [] [] (cache_from (ac_abbrevs a))).
  set (f := fun x => let '((x', s), o) := mut_article (sem_visitor rf gp) (ref_of_act (ac_id a)) x st in (x', (s, o))).
  pose proof (ProofSem5.on_article_spec i f (ac_children a)) as H. destruct (on_article i f (ac_children a)) as [[l [s o]]|].
  - destruct H as (pre & x & post & E & Ei & F & -> & Eo). pose proof (blank_article_mut rf gp (ac_id a) x st) as B. unfold f in *.
    destruct (mut_article (sem_visitor rf gp) (ref_of_act (ac_id a)) x st) as [[x' s'] o']. cbn [fst snd] in *. injection Eo as -> ->.
    destruct o' as [[]| |]; unfold blank_act, with_abbrevs, with_children; cbn; rewrite E, !map_app; cbn [map blank_child fst]; rewrite B; reflexivity.
  - destruct a; reflexivity.
Qed.
(** ** The information determines the act *)
Lemma app_split {A} (a b c d : list A) : List.length a = List.length c -> a ++ b = c ++ d -> a = c /\ b = d.
Proof.
  revert c. induction a as [|x a IH]; intros [|y c] L E; cbn in *; try discriminate; [auto|]. injection E as -> E. injection L as L. destruct (IH c L E) as [-> ->]. auto.
Qed.
Definition node_infos (n : node) : list sem_info := map (fun p => info (snd p)) (preorder n).
Lemma node_infos_is r k (e : elem k) l : node_infos (Node r (El k e) l) = s_si e :: flat_map node_infos l.
Proof.
  unfold node_infos. cbn [preorder map snd info]. f_equal. induction l as [|n l IH]; [reflexivity|]. cbn [flat_map]. now rewrite map_app, IH.
Qed.
(** The information in a list of elements: [f] are the nodes, [g] erases *)
Section Lists.
  Context {A : Type} (f : A -> node) (f' : A -> node) (g : A -> A).
  Hypothesis len : forall x y, g x = g y -> List.length (node_infos (f x)) = List.length (node_infos (f' y)).
  Hypothesis same : forall x y, g x = g y -> node_infos (f x) = node_infos (f' y) -> x = y.
  Lemma lists_len l l' : map g l = map g l' -> List.length (flat_map node_infos (map f l)) = List.length (flat_map node_infos (map f' l')).
  Proof.
    revert l'. induction l as [|x l IH]; intros [|y l'] E; cbn in E; try discriminate; [reflexivity|]. injection E as E1 E2. cbn. rewrite !app_length. f_equal; auto.
  Qed.
  Lemma lists_same l l' : map g l = map g l' -> flat_map node_infos (map f l) = flat_map node_infos (map f' l') -> l = l'.
  Proof.
    revert l'. induction l as [|x l IH]; intros [|y l'] E F; cbn in E; try discriminate; [reflexivity|]. injection E as E1 E2. cbn in F.
    destruct (app_split _ _ _ _ (len x y E1) F) as [F1 F2]. f_equal; auto.
  Qed.
End Lists.

Section Same.
  Variables (c c' : act_id) (a a' : article_id).
  Lemma sub_same {I} (x y : sae I Empty_set) : blank_sub x = blank_sub y -> s_si x = s_si y -> x = y.
  Proof. unfold blank_sub, blank. destruct x as [i [t|n [] w] si ch], y as [i' [t'|n' [] w'] si' ch']; cbn. intros E F. injection E as -> -> ->. now subst. Qed.
  Lemma alpha_sub_len p p' q q' x y : List.length (node_infos (alpha_sub_node c a p q x)) = List.length (node_infos (alpha_sub_node c' a' p' q' y)).
  Proof. reflexivity. Qed.
  Lemma num_sub_len p p' q q' x y : List.length (node_infos (num_sub_node c a p q x)) = List.length (node_infos (num_sub_node c' a' p' q' y)).
  Proof. reflexivity. Qed.
  Lemma alpha_sub_same p p' q q' x y : blank_sub x = blank_sub y -> node_infos (alpha_sub_node c a p q x) = node_infos (alpha_sub_node c' a' p' q' y) -> x = y.
  Proof. intros E F. injection F as F. now apply sub_same. Qed.
  Lemma num_sub_same p p' q q' x y : blank_sub x = blank_sub y -> node_infos (num_sub_node c a p q x) = node_infos (num_sub_node c' a' p' q' y) -> x = y.
  Proof. intros E F. injection F as F. now apply sub_same. Qed.
  Lemma alpha_len p p' x y : blank_alpha x = blank_alpha y -> List.length (node_infos (alpha_node c a p x)) = List.length (node_infos (alpha_node c' a' p' y)).
  Proof.
    unfold blank_alpha, blank, alpha_node. rewrite !node_infos_is. cbn [List.length]. destruct x as [i [t|n [l|l] w] si ch], y as [i' [t'|n' [l'|l'] w'] si' ch']; cbn; intros E; try discriminate E; try reflexivity; f_equal; injection E as _ _ E _ _; apply (lists_len _ _ blank_sub); auto.
  Qed.
  Lemma alpha_same p p' x y : blank_alpha x = blank_alpha y -> node_infos (alpha_node c a p x) = node_infos (alpha_node c' a' p' y) -> x = y.
  Proof.
    unfold blank_alpha, blank, alpha_node. rewrite !node_infos_is. destruct x as [i [t|n [l|l] w] si ch], y as [i' [t'|n' [l'|l'] w'] si' ch']; cbn [s_id s_body s_change s_si]; intros E F; try discriminate E; pose proof (f_equal (hd si_default) F) as F1; pose proof (f_equal (@tl sem_info) F) as F2; cbn [hd tl] in F1, F2; clear F.
    - injection E as -> -> ->. now subst.
    - injection E as -> -> E -> ->. subst. do 3 f_equal. apply (lists_same _ _ blank_sub) in F2; [now subst| | |exact E]; [intros; apply alpha_sub_len|intros; eapply alpha_sub_same; eassumption].
    - injection E as -> -> E -> ->. subst. do 3 f_equal. apply (lists_same _ _ blank_sub) in F2; [now subst| | |exact E]; [intros; apply num_sub_len|intros; eapply num_sub_same; eassumption].
  Qed.
  Lemma num_len p p' x y : blank_num x = blank_num y -> List.length (node_infos (num_node c a p x)) = List.length (node_infos (num_node c' a' p' y)).
  Proof.
    unfold blank_num, blank, num_node. rewrite !node_infos_is. cbn [List.length]. destruct x as [i [t|n [l] w] si ch], y as [i' [t'|n' [l'] w'] si' ch']; cbn; intros E; try discriminate E; try reflexivity; f_equal; injection E as _ _ E _ _; apply (lists_len _ _ blank_sub); auto.
  Qed.
  Lemma num_same p p' x y : blank_num x = blank_num y -> node_infos (num_node c a p x) = node_infos (num_node c' a' p' y) -> x = y.
  Proof.
    unfold blank_num, blank, num_node. rewrite !node_infos_is. destruct x as [i [t|n [l] w] si ch], y as [i' [t'|n' [l'] w'] si' ch']; cbn [s_id s_body s_change s_si]; intros E F; try discriminate E; pose proof (f_equal (hd si_default) F) as F1; pose proof (f_equal (@tl sem_info) F) as F2; cbn [hd tl] in F1, F2; clear F.
    - injection E as -> -> ->. now subst.
    - injection E as -> -> E -> ->. subst. do 3 f_equal. apply (lists_same _ _ blank_sub) in F2; [now subst| | |exact E]; [intros; apply alpha_sub_len|intros; eapply alpha_sub_same; eassumption].
  Qed.
  Lemma par_len x y : blank_par x = blank_par y -> List.length (node_infos (par_node c a x)) = List.length (node_infos (par_node c' a' y)).
  Proof.
    unfold blank_par, blank, par_node. rewrite !node_infos_is. cbn [List.length]. destruct x as [i [t|n [l|l|l|b|b] w] si ch], y as [i' [t'|n' [l'|l'|l'|b'|b'] w'] si' ch']; cbn; intros E; try discriminate E; try reflexivity; f_equal; injection E as _ _ E _ _.
    - apply (lists_len _ _ blank_alpha); [intros; now apply alpha_len|exact E].
    - apply (lists_len _ _ blank_num); [intros; now apply num_len|exact E].
  Qed.
  Lemma par_same x y : blank_par x = blank_par y -> node_infos (par_node c a x) = node_infos (par_node c' a' y) -> x = y.
  Proof.
    unfold blank_par, blank, par_node. rewrite !node_infos_is. destruct x as [i [t|n [l|l|l|b|b] w] si ch], y as [i' [t'|n' [l'|l'|l'|b'|b'] w'] si' ch']; cbn [s_id s_body s_change s_si]; intros E F; try discriminate E; pose proof (f_equal (hd si_default) F) as F1; pose proof (f_equal (@tl sem_info) F) as F2; cbn [hd tl] in F1, F2; clear F.
    - injection E as -> -> ->. now subst.
    - injection E as -> -> E -> ->. subst. do 3 f_equal. apply (lists_same _ _ blank_alpha) in F2; [now subst| | |exact E]; [intros; now apply alpha_len|intros; eapply alpha_same; eassumption].
    - injection E as -> -> E -> ->. subst. do 3 f_equal. apply (lists_same _ _ blank_num) in F2; [now subst| | |exact E]; [intros; now apply num_len|intros; eapply num_same; eassumption].
    - injection E as -> -> -> -> ->. now subst.
    - injection E as -> -> -> -> ->. now subst.
    - injection E as -> -> -> -> ->. now subst.
  Qed.
End Same.
Lemma infos_is x : infos x = flat_map (fun a => flat_map node_infos (map (par_node (ac_id x) (ar_ident a)) (ar_children a))) (act_articles x).
Proof.
  unfold infos, elements, act_nodes. induction (act_articles x) as [|y l IH]; [reflexivity|]. cbn [flat_map]. rewrite flat_map_app, map_app, IH. f_equal.
  clear IH. generalize (map (par_node (ac_id x) (ar_ident y)) (ar_children y)). intros k. induction k as [|n k IH]; [reflexivity|]. cbn [flat_map]. now rewrite map_app, IH.
Qed.
Lemma blank_same a b : blank_act a = blank_act b -> infos a = infos b -> a = b.
Proof.
  rewrite !infos_is. destruct a as [i s p d m l], b as [i' s' p' d' m' l']. unfold blank_act, act_articles. cbn [ac_id ac_subject ac_preamble ac_date ac_abbrevs ac_children]. intros E. injection E as -> -> -> -> -> E. intros F. f_equal.
  revert l' E F. induction l as [|x l IH]; intros [|y l'] E F; cbn in E; try discriminate; [reflexivity|]. injection E as E1 E2.
  destruct x as [e|t|x], y as [e'|t'|y]; cbn [blank_child] in E1; try discriminate E1; cbn [articles_of child_article] in F.
  - injection E1 as ->. f_equal. now apply IH.
  - injection E1 as ->. f_equal. now apply IH.
  - destruct x as [n ti ch lc], y as [n' ti' ch' lc']. unfold blank_article in E1. cbn in E1. injection E1 as -> -> E1 ->. cbn [flat_map ar_ident ar_children] in F.
    apply app_split in F as [F1 F2]; [|apply (lists_len _ _ blank_par); [intros; now apply par_len|exact E1]].
    apply (lists_same _ _ blank_par) in F1; [subst| | |exact E1]; [f_equal; now apply IH|intros; now apply par_len|intros; eapply par_same; eassumption].
Qed.
Lemma informed_unique a is m b b' : informed a is m b -> informed a is m b' -> b = b'.
Proof. intros [B1 B2] [C1 C2]. apply blank_same; congruence. Qed.
Lemma blank_article_same c x y : blank_article x = blank_article y -> article_infos c x = article_infos c y -> x = y.
Proof.
  intros B I. assert (E : mkActS c [] [] default_date [] [ChArticle x] = mkActS c [] [] default_date [] [ChArticle y]).
  { apply blank_same; [unfold blank_act; cbn; now rewrite B|]. unfold infos, elements, act_nodes, act_articles. cbn. rewrite !app_nil_r. exact I. }
  now injection E.
Qed.
