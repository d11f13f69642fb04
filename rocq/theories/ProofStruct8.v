(** Consecutive identifiers are strictly increasing (C28), openings of elements (C31). *)
From Verif Require Import ProofBase ProofIdent ProofIdent2 ProofIdent3 ProofIdent4 ProofText ProofText2.
From Coq Require FinFun.
From Verif Require Export ProofStruct7.

Lemma chain_increasing {I} (R B : I -> I -> Prop) l : (forall x y, R y x -> B x y) -> (forall x y z, B x y -> B y z -> B x z) ->
  (forall x, ~ B x x) -> chain R l -> increasing B l.
Proof.
  intros HR HT HI HC.
  assert (S : StronglySorted B l).
  { induction HC as [|x|x y l Rxy HC IH]; [constructor|repeat constructor|]. constructor; [exact IH|].
    inversion IH as [|? ? Sl Fl]; subst. constructor; [auto|]. revert Fl. apply Forall_impl. intros z. apply HT. auto. }
  split; [exact S|]. clear HC. induction S as [|x l _ IH F]; constructor; [|exact IH].
  intros Hin. rewrite Forall_forall in F. now apply F in Hin; apply HI in Hin.
Qed.
Lemma before_ok x y : before x y -> hic_ok x = true /\ hic_ok y = true.
Proof.
  intros (l1 & l2 & l3 & E). assert (A : forall c, In c alphabet -> hic_ok c = true).
  { assert (F : forallb hic_ok alphabet = true) by reflexivity. now rewrite forallb_forall in F. }
  split; apply A; rewrite E.
  - apply in_or_app. right. now left.
  - apply in_or_app. right. right. apply in_or_app. right. now left.
Qed.
Lemma before_trans x y z : before x y -> before y z -> before x z.
Proof.
  intros H1 H2. destruct (before_ok _ _ H1) as [Kx Ky], (before_ok _ _ H2) as [_ Kz].
  apply hic_cmp_before in H1, H2; try assumption. apply hic_cmp_before; try assumption.
  exact (to_trans _ hic_total _ _ _ H1 H2).
Qed.
Lemma before_irrefl x : ~ before x x.
Proof.
  intros H. destruct (before_ok _ _ H) as [K _]. apply hic_cmp_before in H; try assumption.
  assert (E : hic_cmp x x = Eq) by apply (to_refl hic_total). congruence.
Qed.
Lemma follows_before x y : follows y x -> before x y.
Proof. intros (l1 & l2 & l3 & E & _). exists l1, l2, l3. exact E. Qed.
Lemma numeric_before_trans x y z : numeric_before x y -> numeric_before y z -> numeric_before x z.
Proof.
  unfold numeric_before. intros [H1|[E1 H1]] [H2|[E2 H2]]; try (left; lia). right. split; [lia|].
  destruct (n_suffix x), (n_suffix y), (n_suffix z); try tauto. revert H1 H2. apply before_trans.
Qed.
Lemma numeric_before_irrefl x : ~ numeric_before x x.
Proof. intros [H|[_ H]]; [lia|]. destruct (n_suffix x); [|exact H]. now apply before_irrefl in H. Qed.
Lemma numeric_follows_before x y : numeric_follows y x -> numeric_before x y.
Proof.
  unfold numeric_follows, numeric_before. destruct (n_suffix y), (n_suffix x).
  - intros [-> H]. right. split; [reflexivity|]. now apply follows_before.
  - intros [-> _]. right. now split.
  - lia.
  - lia.
Qed.
Lemma num_chain_no_wrap l : forall x k, chain num_succ (x :: l) -> (n_num x <= k)%N -> (k + N.of_nat (List.length l) <= 65535)%N ->
  chain numeric_follows (x :: l).
Proof.
  induction l as [|y l IH]; intros x k HC Hx Hk; [constructor|]. inversion HC as [| |? ? ? Hn HC']; subst. cbn [List.length] in Hk.
  assert (F : numeric_follows y x) by (destruct Hn as [Hn|[_ Hn]]; [exact Hn|lia]).
  constructor; [exact F|]. apply (IH y (k + 1)%N HC'); [|lia].
  unfold numeric_follows in F. destruct (n_suffix y), (n_suffix x); lia.
Qed.
Lemma num_increasing ids : starting num_one num_succ ids -> (N.of_nat (List.length ids) <= 65535)%N -> increasing numeric_before ids.
Proof.
  intros [HC HF] HL. apply (chain_increasing numeric_follows); [apply numeric_follows_before|apply numeric_before_trans|apply numeric_before_irrefl|].
  destruct ids as [|x l]; [constructor|]. unfold num_one in HF. subst x. cbn [List.length] in HL. apply (num_chain_no_wrap l _ 1%N HC); cbn; lia.
Qed.
Lemma par_increasing ids : starting par_one par_succ ids -> (N.of_nat (List.length ids) <= 65535)%N -> increasing par_before ids.
Proof.
  intros [HC HF] HL.
  assert (E : exists ns, ids = map Some ns /\ chain num_succ ns).
  { destruct ids as [|x l]; [contradiction|]. unfold par_one in HF. clear HL. revert x HC HF. generalize (mkNum 1 None) as n.
    induction l as [|y l IH]; intros n x HC ->.
    - exists [n]. split; [reflexivity|constructor].
    - inversion HC as [| |? ? ? Hn HC']; subst. destruct Hn as (a & b & -> & Eb & Hn). injection Eb as <-.
      destruct (IH a (Some a) HC' eq_refl) as (ns & En & Cn). destruct ns as [|m ns]; [discriminate|].
      cbn in En. injection En as <- ->. exists (n :: a :: ns). split; [reflexivity|]. now constructor. }
  destruct E as (ns & -> & Cn). rewrite map_length in HL.
  assert (S : starting num_one num_succ ns).
  { split; [exact Cn|]. destruct ns as [|n ns]; [contradiction|]. cbn in HF. unfold par_one in HF. now injection HF as ->. }
  destruct (num_increasing ns S HL) as [S1 S2]. split.
  - clear - S1. induction S1 as [|n ns _ IH F]; constructor; [exact IH|]. apply Forall_map. exact F.
  - apply FinFun.Injective_map_NoDup; [|exact S2]. intros a b. congruence.
Qed.
Lemma alpha_increasing ids : chain follows ids -> increasing before ids.
Proof. apply chain_increasing; [apply follows_before|apply before_trans|apply before_irrefl]. Qed.
Lemma sub_increasing ids : chain sub_succ ids -> increasing prefixed_before ids.
Proof.
  intros HC. apply (chain_increasing sub_succ); [| | |exact HC].
  - intros x y [E H]. apply follows_before in H. unfold prefixed_before. rewrite E. destruct (p_prefix x); auto.
  - intros x y z. unfold prefixed_before. destruct (p_prefix x) as [a|], (p_prefix y) as [b|], (p_prefix z) as [c|]; try tauto.
    + intros [H1|[-> H1]] [H2|[-> H2]]; eauto using before_trans.
    + apply before_trans.
  - intros x. unfold prefixed_before. destruct (p_prefix x) as [a|]; [intros [H|[_ H]]|intros H]; now apply before_irrefl in H.
Qed.

(** ** Headers come where quotes are balanced (C31) *)
Lemma segments_prefix {A} (segs : list (list A)) (P : list A -> Prop) :
  P [] -> (forall a b, P a -> P b -> P (a ++ b)) -> Forall P (removelast segs) -> forall a seg b, segs = a ++ seg :: b -> P (List.concat a).
Proof.
  intros P0 Pa. induction segs as [|x segs IH]; intros F a seg b E; [now destruct a|].
  destruct a as [|y a]; [exact P0|]. cbn [app] in E. injection E as <- E. cbn [List.concat].
  destruct segs as [|z segs]; [now destruct a|]. cbn [removelast] in F. inversion F as [|? ? Fx Fs]; subst. apply Pa; [exact Fx|].
  exact (IH Fs a seg b E).
Qed.
Lemma balanced_nil : balanced [].
Proof. reflexivity. Qed.
Lemma lay_list_opened {I C} (label : str -> I -> Prop) (lc : I -> C -> option str -> list line -> list line -> Prop) es g ls :
  lay_list label lc es g ls -> opened_outside_quotes (fun e hl => exists r, heads label hl (s_id e) r) es ls.
Proof.
  intros H. assert (K : exists segs, ls = List.concat segs /\ Forall balanced (removelast segs) /\
    Forall2 (fun e seg => exists hl tl, seg = hl :: tl /\ exists r, heads label hl (s_id e) r) es segs).
  { induction H as [e g ls H|e es g seg ls H B _ (segs & -> & F & F2)].
    - exists [ls]. cbn. rewrite app_nil_r. split; [reflexivity|]. split; [constructor|]. constructor; [|constructor].
      destruct H as (hl & tl & r & body & g1 & g2 & -> & Hh & _). eauto.
    - exists (seg :: segs). split; [reflexivity|]. split.
      + destruct segs; [now inversion F2; constructor|]. cbn [removelast]. constructor; [exact B|exact F].
      + constructor; [|exact F2]. destruct H as (hl & tl & r & body & g1 & g2 & -> & Hh & _). eauto. }
  destruct K as (segs & -> & F & F2). exists segs. split; [reflexivity|]. split; [exact F2|].
  apply (segments_prefix segs balanced balanced_nil); [|exact F]. intros a b. apply balanced_app.
Qed.
Lemma lay_siblings_opened {I C} (label : str -> I -> Prop) (lc : I -> C -> option str -> list line -> list line -> Prop) es w g ls :
  lay_siblings label lc es w g ls -> opened_outside_quotes (fun e hl => exists r, heads label hl (s_id e) r) es ls.
Proof. intros (wl & _ & H). now apply lay_list_opened in H. Qed.
Lemma lay_act_opened rf cs ls : lay_act rf cs ls -> opened_outside_quotes (act_header rf) cs ls.
Proof.
  intros H. assert (K : exists segs, ls = List.concat segs /\ Forall balanced (removelast segs) /\
    Forall2 (fun e seg => exists hl tl, seg = hl :: tl /\ act_header rf e hl) cs segs).
  { assert (Hd : forall c ls, lay_act_child rf c ls -> exists hl tl, ls = hl :: tl /\ act_header rf c hl).
    { intros [e|s|a] l0; cbn.
      - intros (hl & tl & i & suf & -> & E & S & P & _). exists hl, tl. eauto 8.
      - intros (hl & tl & t & -> & B & _ & P). exists hl, tl. split; [reflexivity|]. split; [exact B|].
        destruct (st_id s); [|exact I]. destruct P as (d & D & E). eauto.
      - intros (hl & tl & r & -> & Hh & _). exists hl, tl. eauto. }
    induction H as [c ls H B|c cs seg ls H B _ (segs & -> & F & F2)].
    - exists [ls]. cbn. rewrite app_nil_r. split; [reflexivity|]. split; [constructor|]. constructor; [|constructor]. auto.
    - exists (seg :: segs). split; [reflexivity|]. split; [|constructor; auto].
      destruct segs; [now inversion F2; constructor|]. cbn [removelast]. constructor; [exact B|exact F]. }
  destruct K as (segs & -> & F & F2). exists segs. split; [reflexivity|]. split; [exact F2|].
  apply (segments_prefix segs balanced balanced_nil); [|exact F]. intros a b. apply balanced_app.
Qed.
Lemma lay_act_balanced rf cs ls : lay_act rf cs ls -> balanced ls.
Proof. induction 1; [assumption|now apply balanced_app]. Qed.
