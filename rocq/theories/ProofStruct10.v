(** The text of an act (C30), identifiers of converted amendments (C28). *)
From Verif Require Import ProofBase ProofIdent ProofIdent2 ProofIdent3 ProofIdent4 ProofText ProofText2.
From Verif Require Export ProofStruct9.

Lemma lay_act_child_text rf c ls : lay_act_child rf c ls -> act_child_text rf c (no_spaces (text ls)).
Proof.
  destruct c as [e|s|a]; cbn.
  - intros (hl & tl & i & suf & -> & E & S & P & T). exists i, suf. rewrite ns_text_cons, E, T, c20_join. auto.
  - intros (hl & tl & t & -> & _ & T & P). rewrite ns_text_cons, T, join_acc. destruct (st_id s) as [i|].
    + destruct P as (d & D & E). exists d. split; [exact D|]. rewrite E. change (lit ". ") with (lit "." ++ lit " ").
      rewrite !no_spaces_app. change (no_spaces (lit " ")) with (@nil char). cbn [app]. now rewrite <- !app_assoc.
    + now rewrite P.
  - intros (hl & tl & r & -> & Hh & L). apply heads_text in Hh. destruct Hh as (h & Lh & Eh). apply lay_article_text in L.
    destruct L as (t & Ht & E). exists h, t. split; [exact Lh|]. split; [exact Ht|].
    rewrite ns_text_cons in E. now rewrite ns_text_cons, Eh, <- E, app_assoc.
Qed.
Lemma lay_act_text rf cs ls : lay_act rf cs ls ->
  exists ts, Forall2 (act_child_text rf) cs ts /\ no_spaces (text ls) = List.concat ts.
Proof.
  induction 1 as [c ls H _|c cs seg ls H _ _ (ts & F & E)]; apply lay_act_child_text in H.
  - eexists [_]. split; [repeat constructor; exact H|]. cbn. now rewrite app_nil_r.
  - eexists (_ :: ts). split; [constructor; [exact H|exact F]|]. cbn. now rewrite ns_text_app, E.
Qed.
Lemma parse_complex_body_text rf up ctx lines pre cs : parse_complex_body rf up ctx lines = Ok (pre, cs) ->
  exists ts, Forall2 (act_child_text rf) cs ts /\ no_spaces (text lines) = no_spaces pre ++ List.concat ts.
Proof.
  intros H. apply parse_complex_body_inv in H. destruct H as (pl & body & -> & -> & _ & L & _). apply lay_act_text in L.
  destruct L as (ts & F & E). exists ts. split; [exact F|]. now rewrite ns_text_app, E, c20_join.
Qed.

Lemma extracted_starting {I C} label lc first (succ : I -> I -> Prop) eqb (ok : I -> C -> Prop) iok ctx w c e ls r :
  (forall x y, eqb x y = true -> x = y) ->
  extracted label lc first succ eqb ok iok ctx w c (Some e) ls r -> starting (eq e) succ (map s_id (em_elems r)).
Proof. intros He (_ & _ & Ch & _ & (i & is & Ei & Ef) & _). split; [exact Ch|]. rewrite Ei. now apply He in Ef. Qed.
Lemma convert_simple_ordered pos ls c : convert_simple pos ls = Ok c -> ba_ordered pos c.
Proof.
  unfold convert_simple. intros H. apply obind_ok in H. destruct H as (_ & _ & H). unfold ba_ordered.
  destruct (get_last_part pos) as [|ac|ar|p|[p|p]|[p|p]]; try discriminate.
  - apply obind_ok in H. destruct H as (a & _ & H). apply obind_ok in H. destruct H as (ls' & _ & H).
    apply obind_ok in H. destruct H as (r & E & H). apply Ok_inj in H. subst c. apply extract_paragraphs_inv in E. split.
    + eapply extracted_starting; [|exact E]. intros x y. apply paragraph_eqb_eq.
    + apply E.
  - apply obind_ok in H. destruct H as (r & E & H). apply Ok_inj in H. subst c. apply extract_num_points_inv in E. split.
    + eapply extracted_starting; [|exact E]. intros x y. apply numeric_eqb_eq.
    + apply E.
  - apply obind_ok in H. destruct H as (r & E & H). apply Ok_inj in H. subst c. apply extract_alpha_points_inv in E. split.
    + eapply extracted_starting; [|exact E]. intros x y. apply hic_eqb_eq.
    + apply E.
  - apply obind_ok in H. destruct H as (r & E & H). apply Ok_inj in H. subst c. apply extract_num_subpoints_inv in E.
    eapply extracted_starting; [|exact E]. intros x y. apply numeric_eqb_eq.
  - apply obind_ok in H. destruct H as (r & E & H). apply Ok_inj in H. subst c. apply extract_alpha_subpoints_inv in E.
    eapply extracted_starting; [|exact E]. intros x y. apply prefixed_eqb_eq.
Qed.
