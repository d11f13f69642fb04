(** What the converted blocks hold (C35). *)
From Verif Require Import ProofBase ProofIdent ProofIdent2 ProofIdent3 ProofIdent4 ProofText ProofText2.
From Verif Require Export ProofConvert.

Lemma extract_no_wrap {I C} {H : IdentCommon I} h (pc : pctx -> I -> option line -> list line -> outcome (em_result C)) ctx c e ls r :
  extract_multiple h pc ctx false c e ls = Ok r -> em_wrap r = None /\ em_rest r = [].
Proof.
  unfold extract_multiple. destruct ls as [|l ls]; [discriminate|]. intros E.
  apply obind_ok in E. destruct E as ([[i s]|] & _ & E); [|discriminate].
  apply obind_ok in E. destruct E as (_ & _ & E). apply obind_ok in E. destruct E as (q & _ & E).
  apply obind_ok in E. destruct E as ([ib el] & _ & E). apply obind_ok in E. destruct E as (r' & F & E).
  apply obind_ok in E. destruct E as (_ & _ & E). apply Ok_inj in E. subst r'. unfold em_finish in F.
  apply obind_ok in F. destruct F as ([e' g] & _ & F). apply Ok_inj in F. now subst r.
Qed.
Lemma slice_bytes_text l h l' : slice_bytes l (utf8_len h) None = Ok l' -> starts_with h (content l) = true ->
  content l = h ++ content l' /\ content l' <> [].
Proof.
  intros E S. apply starts_with_spec in S. destruct S as (t & S). unfold slice_bytes in E.
  destruct t as [|x t]; [rewrite app_nil_r in S; rewrite S, utf8_len_end in E; discriminate|].
  rewrite S, char_position_app in E. apply Ok_inj in E. subst l'.
  assert (L : (List.length h <= l_len l)%nat) by (rewrite <- content_len, S, app_length; lia).
  assert (Ec : content (slice l (Z.of_nat (List.length h)) None) = x :: t).
  { rewrite <- glyphs_ch, slice_glyphs_eq, convert_index_nat by exact L.
    rewrite firstn_all2 by (rewrite skipn_length, glyphs_length; lia).
    rewrite <- skipn_map, glyphs_ch, S, skipn_app, skipn_all, Nat.sub_diag. reflexivity. }
  rewrite Ec. split; [exact S|discriminate].
Qed.
Lemma convert_simple_holds pos ls c : convert_simple pos ls = Ok c -> holds_block pos ls c.
Proof.
  intros H. split; [now apply (convert_simple_ordered _ ls)|]. unfold convert_simple in H.
  apply obind_ok in H. destruct H as (_ & _ & H).
  destruct (get_last_part pos) as [|ac|ar|p|[p|p]|[p|p]] eqn:P; try discriminate.
  - apply obind_ok in H. destruct H as (a & Ha & H). apply obind_ok in H. destruct H as (ls' & Ht & H).
    apply obind_ok in H. destruct H as (r & E & H). apply Ok_inj in H. subst c.
    destruct (extract_no_wrap _ _ _ _ _ _ _ E) as [W R]. apply c29_par in E. destruct E as (m & M & E).
    destruct r as [re rw rr]; cbn in W, R, E, M; subst rw rr; cbn in E; rewrite app_nil_r in E. unfold trim_article_header in Ht.
    destruct ls as [|l ls]; [discriminate|]. destruct (starts_with _ (content l)) eqn:S.
    + apply obind_ok in Ht. destruct Ht as (l' & Hs & Ht). apply Ok_inj in Ht. subst ls'.
      destruct (slice_bytes_text _ _ _ Hs S) as [T _].
      exists (article_show (r_start a) ++ lit ". §"), m. split; [exact M|]. split.
      * rewrite <- E, !ns_text_cons, T. change (lit ". § ") with (lit ". §" ++ lit " "). rewrite !no_spaces_app.
        change (no_spaces (lit " ")) with (@nil char). now rewrite app_nil_r, <- !app_assoc.
      * right. exists p, a. destruct (f_article pos); [|discriminate]. apply Ok_inj in Ha. now subst.
    + apply Ok_inj in Ht. subst ls'. exists [], m. auto.
  - apply obind_ok in H. destruct H as (r & E & H). apply Ok_inj in H. subst c. exists [].
    destruct (extract_no_wrap _ _ _ _ _ _ _ E) as [W R]. apply c29_num in E. destruct E as (m & M & E).
    destruct r as [re rw rr]; cbn in W, R, E, M; subst rw rr; cbn in E; rewrite app_nil_r in E. eauto.
  - apply obind_ok in H. destruct H as (r & E & H). apply Ok_inj in H. subst c. exists [].
    destruct (extract_no_wrap _ _ _ _ _ _ _ E) as [W R]. apply c29_alpha in E. destruct E as (m & M & E).
    destruct r as [re rw rr]; cbn in W, R, E, M; subst rw rr; cbn in E; rewrite app_nil_r in E. eauto.
  - apply obind_ok in H. destruct H as (r & E & H). apply Ok_inj in H. subst c. exists [].
    destruct (extract_no_wrap _ _ _ _ _ _ _ E) as [W R]. apply c29_num_sub in E. destruct E as (m & M & E).
    destruct r as [re rw rr]; cbn in W, R, E, M; subst rw rr; cbn in E; rewrite app_nil_r in E. eauto.
  - apply obind_ok in H. destruct H as (r & E & H). apply Ok_inj in H. subst c. exists [].
    destruct (extract_no_wrap _ _ _ _ _ _ _ E) as [W R]. apply c29_alpha_sub in E. destruct E as (m & M & E).
    destruct r as [re rw rr]; cbn in W, R, E, M; subst rw rr; cbn in E; rewrite app_nil_r in E. eauto.
Qed.

(** ** Articles *)
Lemma ca_loop_inv rf ls : forall f p done seg cs, seg_ok rf (AsArticle p) seg -> last_ok f -> af_last f = Some (ap_id p) ->
  ca_loop f p done ls = Ok cs ->
  exists new ts, cs = done ++ new /\ Forall2 (act_child_text rf) new ts /\ no_spaces (text (seg ++ ls)) = List.concat ts /\
    chain article_succ (article_ids new) /\ hd_error (article_ids new) = Some (ap_id p) /\
    List.length (article_ids new) = List.length new /\ (forall x, In (ChArticle x) new -> ordered_article x).
Proof.
  induction ls as [|l ls IH]; intros f p done seg cs Hs Lf Ef H; cbn in H.
  - apply obind_ok in H. destruct H as (a & Ha & H). apply Ok_inj in H. subst cs.
    assert (F : act_finish BlockAm (AsArticle p) = Ok [ChArticle a]) by (cbn; now rewrite Ha).
    apply (finish_ok rf _ _ _ _ Hs) in F. destruct F as (c & Ec & L & Ei & O). injection Ec as <-.
    exists [ChArticle a]. apply lay_act_child_text in L. eexists [_]. split; [reflexivity|]. split; [repeat constructor; exact L|].
    rewrite app_nil_r. split; [cbn; now rewrite app_nil_r|]. unfold act_child, article in *. rewrite Ei. cbn. split; [constructor|]. split; [reflexivity|].
    split; [reflexivity|]. intros x [E|[]]. injection E as <-. apply O.
  - destruct (try_article BlockAm f None l) as [[f' p']| |] eqn:T; [| |discriminate].
    + apply obind_ok in H. destruct H as (a & Ha & H).
      assert (F : act_finish BlockAm (AsArticle p) = Ok [ChArticle a]) by (cbn; now rewrite Ha).
      apply (finish_ok rf _ _ _ _ Hs) in F. destruct F as (c & Ec & L & Ei & O). injection Ec as <-.
      apply try_article_inv in T; [|exact Lf]. destruct T as (r & Hh & El & Ef' & Lf' & Hc).
      apply (IH _ _ _ [l]) in H; [|exists l, [], r; auto|assumption..].
      destruct H as (new & ts & -> & F & Et & Ch & Hd & Hl & Ho).
      exists (ChArticle a :: new). apply lay_act_child_text in L. eexists (_ :: ts). split; [now rewrite <- app_assoc|].
      split; [constructor; [exact L|exact F]|]. split; [cbn; rewrite ns_text_app; cbn in Et; now rewrite <- Et|].
      change (ChArticle a :: new) with ([ChArticle a] ++ new). rewrite article_ids_app. unfold act_child, article in *. rewrite Ei. cbn [st_ids app].
      destruct (article_ids new) as [|i ids]; [discriminate|]. cbn in Hd. injection Hd as ->.
      specialize (Hc _ Ch). unfold from in Hc. rewrite Ef in Hc. split; [exact Hc|]. split; [reflexivity|].
      split; [cbn in Hl |- *; now rewrite Hl|]. intros x [E|E]; [injection E as <-; apply O|auto].
    + apply (feed_ok _ _ _ l) in Hs. apply (IH _ _ _ _ _ Hs Lf) in H; [|exact Ef]. rewrite <- app_assoc in H. exact H.
Qed.
Lemma convert_structural_holds rf up pos ls cs : convert_structural rf up pos ls = Ok cs -> holds_structure rf pos ls cs.
Proof.
  assert (W : forall (Q : act_child -> str -> Prop) new ts, Forall2 (act_child_text rf) new ts ->
    Forall2 (fun c t => act_child_text rf c t \/ Q c t) new ts) by (induction 1; constructor; auto).
  unfold convert_structural, holds_structure.
  assert (Body : (let* r := parse_complex_body rf up BlockAm ls in Ok (snd r)) = Ok cs ->
    forall Q : act_child -> str -> Prop,
    (exists ts, Forall2 (fun c t => act_child_text rf c t \/ Q c t) cs ts /\ no_spaces (text ls) = List.concat ts) /\
    chain article_succ (article_ids cs) /\ (forall x, In (ChArticle x) cs -> ordered_article x)).
  { intros H Q. apply obind_ok in H. destruct H as ([p cs'] & H & E). apply Ok_inj in E. cbn in E. subst cs'.
    pose proof (c28_body _ _ _ _ _ _ H) as (O & Ch & _). pose proof (c30_body _ _ _ _ _ _ H) as (_ & _ & _ & _ & _ & _ & _ & Ep).
    apply parse_complex_body_text in H. destruct H as (ts & F & E). rewrite (Ep eq_refl) in E. cbn in E.
    split; [|auto]. exists ts. split; [now apply W|exact E]. }
  assert (Se : forall i ty (Q : act_child -> str -> Prop), (let* r := convert_title_only_se rf i ty ls in Ok [r]) = Ok cs ->
    (forall t, Q (ChStruct (mkSe i t ty None)) (no_spaces t)) ->
    (exists ts, Forall2 (fun c t => act_child_text rf c t \/ Q c t) cs ts /\ no_spaces (text ls) = List.concat ts) /\
    chain article_succ (article_ids cs) /\ (forall x, In (ChArticle x) cs -> ordered_article x) /\
    exists c, cs = [c] /\ article_ids cs = []).
  { intros i ty Q H HQ. apply obind_ok in H. destruct H as (c & H & E). apply Ok_inj in E. subst cs. unfold convert_title_only_se in H.
    destruct ls as [|l ls']; [discriminate|]. apply obind_ok in H. destruct H as (h & Hh & H). apply Ok_inj in H. subst c.
    assert (Fd : forall ls p, fold_left sp_feed ls p = mkSP (sp_id p) (fold_left (fun s l => append_to l s) ls (sp_title p)) (sp_ty p)).
    { clear. induction ls as [|l ls IH]; intros p; cbn; [now destruct p|]. rewrite IH. reflexivity. }
    rewrite Fd. unfold sp_finish. cbn [sp_id sp_title sp_ty]. split.
    2:{ cbn. split; [constructor|]. split; [intros x [E|[]]; discriminate|]. eexists. split; reflexivity. }
    destruct h as [p|]; cbn [sp_feed sp_id sp_title sp_ty].
    - apply try_se_inv in Hh. destruct Hh as (T & Ti & j & suf & E & S & P). exists [no_spaces (text (l :: ls'))]. split; [|cbn; rewrite app_nil_r; reflexivity].
      constructor; [|constructor]. left. exists j, suf. cbn [se_ty se_id se_title]. rewrite T, Ti. split; [exact S|]. split; [exact P|].
      now rewrite ns_text_cons, E, join_acc.
    - exists [no_spaces (text (l :: ls'))]. split; [|cbn; rewrite app_nil_r; reflexivity]. constructor; [|constructor]. right.
      specialize (HQ (fold_left (fun s l => append_to l s) ls' (append_to l []))). rewrite join_acc, append_no_spaces in HQ.
      change (no_spaces []) with (@nil char) in HQ. cbn [app] in HQ. now rewrite ns_text_cons. }
  assert (St : forall (Q : act_child -> str -> Prop), (let* r := convert_subtitle_only_se up ls in Ok [r]) = Ok cs ->
    (exists ts, Forall2 (fun c t => act_child_text rf c t \/ Q c t) cs ts /\ no_spaces (text ls) = List.concat ts) /\
    chain article_succ (article_ids cs) /\ (forall x, In (ChArticle x) cs -> ordered_article x) /\
    exists c, cs = [c] /\ article_ids cs = []).
  { intros Q H. apply obind_ok in H. destruct H as (c & H & E). apply Ok_inj in E. subst cs. unfold convert_subtitle_only_se in H.
    destruct ls as [|l ls']; [discriminate|]. apply obind_ok in H. destruct H as ([p|] & Hh & H); [|discriminate]. cbn in H. apply Ok_inj in H. subst c.
    apply try_subtitle_inv in Hh. destruct Hh as (B & Hh).
    assert (Fd : forall ls p, fold_left tp_feed ls p = mkStP (tp_id p) (fold_left (fun s l => append_to l s) ls (tp_title p))).
    { clear. induction ls as [|l ls IH]; intros p; cbn; [now destruct p|]. rewrite IH. reflexivity. }
    rewrite Fd. split.
    2:{ cbn. split; [constructor|]. split; [intros x [E|[]]; discriminate|]. eexists. split; reflexivity. }
    exists [no_spaces (text (l :: ls'))]. split; [|cbn; rewrite app_nil_r; reflexivity]. constructor; [|constructor]. left.
    apply lay_act_child_text. cbn. exists l, ls', (tp_title p). auto. }
  intros H. destruct (sr_elem pos) as [i|i|i|i|i|s|a|a|a| |r] eqn:P.
  all: try (destruct (sr_title_only pos) eqn:T;
    [unfold convert_title_only in H; rewrite P in H; first [discriminate H|
       specialize (St (fun c t => true = true /\ bare_title pos c t) H); tauto |
       specialize (Se _ _ (fun c t => true = true /\ bare_title pos c t) H);
       destruct Se as (S1 & S2 & S3 & S4); [intros t; split; [reflexivity|eexists; split; [reflexivity|]; cbn; auto]|tauto]]
    |specialize (Body H (fun c t => false = true /\ bare_title pos c t)); destruct Body as (B1 & B2 & B3);
     split; [exact B1|split; [exact B2|split; [exact B3|discriminate]]]]; fail).
  unfold convert_articles in H. destruct ls as [|l ls']; [discriminate|]. apply obind_ok in H. destruct H as ([f p] & T & H).
  apply try_article_inv in T; [|exact I]. destruct T as (x & Hh & El & Ef & Lf & Hc). apply article_eqb_eq in Hc.
  apply (ca_loop_inv rf _ _ _ _ [l]) in H; [|exists l, [], x; auto|assumption..].
  destruct H as (new & ts & E & F & Et & Ch & Hd & Hl & Ho). cbn in E. subst cs. rewrite Hc. split; [|auto]. exists ts. split; [now apply W|exact Et].
Qed.
