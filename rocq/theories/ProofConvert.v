(** Converting quoted blocks into amendments (C35). *)
From Verif Require Import ProofBase ProofIdent ProofIdent2 ProofIdent3 ProofIdent4 ProofText ProofText2.
From Verif Require Export SpecConvert ProofStruct11.

(** ** [try_each] *)
Lemma try_each_app {A} (f : A -> A * outcome unit) l m :
  try_each f (l ++ m) =
  let r := try_each f l in
  match snd r with Ok _ => (fst r ++ fst (try_each f m), snd (try_each f m)) | _ => (fst r ++ m, snd r) end.
Proof.
  induction l as [|a l IH]; cbn; [now destruct (try_each f m)|].
  destruct (f a) as [a' [u| |]]; cbn; [|reflexivity..]. rewrite IH. destruct (try_each f l) as [l' [u'| |]]; cbn; reflexivity.
Qed.
Lemma try_each_length {A} (f : A -> A * outcome unit) l : List.length (fst (try_each f l)) = List.length l.
Proof.
  induction l as [|a l IH]; cbn; [reflexivity|]. destruct (f a) as [a' [u| |]]; cbn; [|reflexivity..].
  destruct (try_each f l); cbn in *. now rewrite IH.
Qed.
Lemma try_each_all {A} (R : A -> A -> Prop) (f : A -> A * outcome unit) l :
  (forall a, R a a) -> (forall a, R a (fst (f a))) -> Forall2 R l (fst (try_each f l)).
Proof.
  intros Hr Hf. induction l as [|a l IH]; cbn; [constructor|]. specialize (Hf a). destruct (f a) as [a' [u| |]]; cbn in *.
  - destruct (try_each f l); cbn in *. now constructor.
  - constructor; [exact Hf|]. clear IH. induction l; constructor; auto.
  - constructor; [exact Hf|]. clear IH. induction l; constructor; auto.
Qed.
Lemma try_each_ok {A} (R : A -> A -> Prop) (f : A -> A * outcome unit) l u :
  (forall a u, snd (f a) = Ok u -> R a (fst (f a))) -> snd (try_each f l) = Ok u -> Forall2 R l (fst (try_each f l)).
Proof.
  intros Hf. revert u. induction l as [|a l IH]; intros u; cbn; [constructor|]. specialize (Hf a).
  destruct (f a) as [a' [v| |]]; cbn in *; [|discriminate..].
  destruct (try_each f l) as [l' r]; cbn in *. intros E. constructor; eauto.
Qed.
Lemma try_each_fail {A} (R : A -> A -> Prop) (f : A -> A * outcome unit) l :
  (forall a u, snd (f a) = Ok u -> R a (fst (f a))) -> snd (try_each f l) <> Ok tt ->
  exists done done' x rest, l = done ++ x :: rest /\ fst (try_each f l) = done' ++ fst (f x) :: rest /\
    Forall2 R done done' /\ snd (f x) = snd (try_each f l).
Proof.
  intros Hf. induction l as [|a l IH]; cbn; [congruence|]. specialize (Hf a).
  destruct (f a) as [a' [v| |]] eqn:E; cbn in *.
  - destruct (try_each f l) as [l' r]; cbn in *. intros N. destruct (IH N) as (d & d' & x & rest & -> & -> & F & Ex).
    exists (a :: d), (a' :: d'), x, rest. cbn. repeat split; [|exact Ex]. constructor; eauto.
  - intros _. exists [], [], a, l. rewrite E. cbn. auto.
  - intros _. exists [], [], a, l. rewrite E. cbn. auto.
Qed.

(** ** The whole act is one list of paragraphs *)
Section Flat.
  Context (rf : str -> option Z) (up : char -> bool).
  Notation f := (convert_paragraph rf up).
  Definition child_pars (c : act_child) : list paragraph := match c with ChArticle a => ar_children a | _ => [] end.
  Lemma flat_children cs : flat_map ar_children (articles_of cs) = flat_map child_pars cs.
  Proof. unfold articles_of. induction cs as [|[e|s|a] cs IH]; cbn; [reflexivity|exact IH..|]. now rewrite <- IH. Qed.
  Lemma convert_child_flat c :
    child_pars (fst (convert_child rf up c)) = fst (try_each f (child_pars c)) /\
    snd (convert_child rf up c) = snd (try_each f (child_pars c)).
  Proof. destruct c as [e|s|a]; cbn; [auto..|]. unfold convert_article. destruct (try_each f (ar_children a)); cbn; auto. Qed.
  Lemma convert_flat cs :
    flat_map child_pars (fst (try_each (convert_child rf up) cs)) = fst (try_each f (flat_map child_pars cs)) /\
    snd (try_each (convert_child rf up) cs) = snd (try_each f (flat_map child_pars cs)).
  Proof.
    induction cs as [|c cs [IH1 IH2]]; cbn; [auto|]. rewrite try_each_app. destruct (convert_child_flat c) as [E1 E2].
    destruct (convert_child rf up c) as [c' r]; cbn in *. subst r. rewrite <- IH1, <- IH2, <- E1.
    destruct (snd (try_each f (child_pars c))) as [u| |]; cbn.
    - destruct (try_each (convert_child rf up) cs); cbn; auto.
    - auto.
    - auto.
  Qed.
  Lemma convert_act_flat a :
    act_pars (fst (convert_act rf up a)) = fst (try_each f (act_pars a)) /\
    snd (convert_act rf up a) = snd (try_each f (act_pars a)).
  Proof.
    unfold convert_act, act_pars, act_articles. destruct (convert_flat (ac_children a)) as [E1 E2].
    destruct (try_each (convert_child rf up) (ac_children a)) as [cs r]; cbn in *. now rewrite !flat_children.
  Qed.
  (** Only paragraphs change. *)
  Lemma convert_paragraph_head p : head_kept p (fst (f p)).
  Proof.
    unfold convert_paragraph, head_kept. destruct p as [i [t|intro c w] si ch]; cbn; [auto|].
    destruct c as [l|l|qs|b|b]; cbn; auto. destruct qs as [|q [|q' qs]]; cbn; auto.
    destruct (si_phrase si) as [[b|b|b|b|b]|]; cbn; auto.
    - destruct (convert_simple _ _); cbn; auto.
    - destruct (convert_structural _ _ _ _); cbn; auto.
  Qed.
  Lemma convert_act_frame (R : paragraph -> paragraph -> Prop) a :
    (forall p, R p p) -> (forall p, R p (fst (f p))) -> same_act_but R a (fst (convert_act rf up a)).
  Proof.
    intros Hr Hf. unfold convert_act. pose proof (try_each_all (same_child R) (convert_child rf up) (ac_children a)) as T.
    destruct (try_each _ _) as [cs r]; cbn in *. repeat (split; [reflexivity|]). apply T.
    - intros [e|s|x]; cbn; auto. repeat (split; [reflexivity|]). induction (ar_children x); constructor; auto.
    - intros [e|s|x]; cbn; auto. unfold convert_article.
      pose proof (try_each_all R f (ar_children x) Hr Hf) as E. destruct (try_each _ _); cbn in *. now repeat split.
  Qed.
  Lemma convert_act_ok (R : paragraph -> paragraph -> Prop) a u :
    (forall p u, snd (f p) = Ok u -> R p (fst (f p))) -> snd (convert_act rf up a) = Ok u ->
    same_act_but R a (fst (convert_act rf up a)).
  Proof.
    intros Hf. unfold convert_act. pose proof (try_each_ok (same_child R) (convert_child rf up) (ac_children a)) as T.
    destruct (try_each _ _) as [cs r]; cbn in *. intros E. repeat (split; [reflexivity|]). apply (T u); [|exact E].
    intros [e|s|x] v; cbn; auto. unfold convert_article.
    pose proof (try_each_ok R f (ar_children x) v Hf) as E'. destruct (try_each _ _); cbn in *.
    intros Ev. specialize (E' Ev). now repeat split.
  Qed.
End Flat.
