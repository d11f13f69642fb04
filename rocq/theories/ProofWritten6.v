(** Written amendments are read back (C64). *)
From Verif Require Import ProofBase ProofIdent ProofIdent2 ProofIdent4 ProofText ProofText2 ProofText3 ProofStruct2 ProofStruct3 ProofStruct4 ProofStruct5 ProofStruct6 ProofStruct7 ProofConvert ProofConvert2 ProofConvert3.
From Verif Require Export ProofWritten5.
From Coq Require Import Lia.

Lemma from_nonempty {I C} (hd : line -> I -> line -> Prop) succ opens (wch : I -> option line -> C -> list line -> list line -> list line -> Prop) first es ls :
  w_from hd succ opens wch first es ls -> is_empty ls = false.
Proof. intros (e & es' & hl & tl & _ & -> & _). reflexivity. Qed.
Lemma read_header_cut a ls ls' : ls <> [] -> after_article_header a ls ls' -> trim_article_header a ls = Ok ls'.
Proof.
  intros N H. unfold trim_article_header. destruct ls as [|l tl]; [congruence|]. unfold after_article_header in H.
  set (h := article_show a ++ lit ". § ") in *. cbv zeta in *. destruct H as [(l0 & tl0 & t & E & Ec & Nt & ->)|[-> H]].
  - injection E as <- <-. assert (S : starts_with h (content l) = true) by (apply starts_with_app; eauto). rewrite S.
    assert (X : slice_bytes l (utf8_len h) None = Ok (slice l (Z.of_nat (List.length h)) None)).
    { unfold slice_bytes. rewrite Ec. destruct t as [|c t]; [congruence|]. rewrite char_position_app. reflexivity. }
    rewrite X. reflexivity.
  - destruct (starts_with h (content l)) eqn:S; [|reflexivity]. apply starts_with_app in S. destruct S as [t S]. elim (H l tl t eq_refl S).
Qed.
Lemma header_cut_nes a ls ls' : after_article_header a ls ls' -> Forall not_ending_in_space ls -> Forall not_ending_in_space ls'.
Proof.
  unfold after_article_header. set (h := article_show a ++ lit ". § "). cbv zeta.
  intros [(l & tl & t & -> & Ec & _ & ->)|[-> _]] F; [|exact F]. apply Forall_cons_iff in F. destruct F as [F1 F2]. constructor; [|exact F2].
  intros s E. rewrite (slice_rest l h t Ec) in E. apply (F1 (h ++ s)). rewrite Ec, E. apply app_assoc.
Qed.
Lemma get_paragraph_eqb (a b : paragraph_id) : paragraph_eqb a b = true <-> a = b.
Proof.
  destruct a as [a|], b as [b|]; unfold paragraph_eqb; cbn; try (split; congruence). rewrite numeric_eqb_eq. split; congruence.
Qed.
Theorem read_amended pos c ls : Forall not_ending_in_space ls -> w_amended pos c ls -> convert_simple pos ls = Ok c.
Proof.
  intros N W. unfold w_amended in W. unfold convert_simple. destruct (get_last_part pos) as [| | |p|[p|p]|[p|p]], c as [es|es|es|es|es]; try contradiction.
  - destruct W as (a & ls' & Ea & Hh & W).
    assert (Ne : ls <> []).
    { intros ->. destruct Hh as [(l & tl & t & X & _)|[-> _]]; [discriminate|]. apply from_nonempty in W. discriminate. }
    assert (Ee : is_empty ls = false) by (destruct ls; [congruence|reflexivity]). rewrite Ee. cbn [negb ensure obind].
    rewrite Ea. cbn [ok_or obind]. rewrite (read_header_cut _ _ _ Ne Hh). cbn [obind]. pose proof (header_cut_nes _ _ _ Hh N) as N'.
    unfold extract_paragraphs.
    rewrite (read_siblings _ _ _ _ _ _ _ _ c61_paragraph (only_space par_form) (proj1 good_par) (proj2 good_par)
      (par_children_read BlockAm) (par_children_none BlockAm) false (eq (Some (r_start p))) (Some (Some (r_start p))) false es [] [] ls'); [reflexivity| |discriminate|exact N'|exact W].
    intros l i r _ <-. now apply get_paragraph_eqb.
  - rewrite (from_nonempty _ _ _ _ _ _ _ W). cbn [negb ensure obind]. unfold extract_num_points.
    rewrite (read_siblings _ _ _ _ _ _ _ _ c61_number (only_space num_form) (proj1 good_num) (proj2 good_num)
      (num_children_read BlockAm) (num_children_none BlockAm) false (eq (r_start p)) (Some (r_start p)) false es [] [] ls); [reflexivity| |discriminate|exact N|exact W].
    intros l i r _ <-. now apply numeric_eqb_eq.
  - rewrite (from_nonempty _ _ _ _ _ _ _ W). cbn [negb ensure obind]. unfold extract_alpha_points.
    rewrite (read_siblings _ _ _ _ _ _ _ _ c61_letter (only_space alpha_form) (proj1 good_alpha) (proj2 good_alpha)
      (alpha_children_read BlockAm) (alpha_children_none BlockAm) false (eq (r_start p)) (Some (r_start p)) false es [] [] ls); [reflexivity| |discriminate|exact N|exact W].
    intros l i r _ <-. now apply hic_eqb_eq.
  - rewrite (from_nonempty _ _ _ _ _ _ _ W). cbn [negb ensure obind]. unfold extract_num_subpoints.
    rewrite (read_siblings _ _ _ _ _ _ _ _ c61_number (only_space num_form) (proj1 good_num) (proj2 good_num)
      (leaf_children BlockAm) (leaf_none BlockAm) false (eq (r_start p)) (Some (r_start p)) false es [] [] ls); [reflexivity| |discriminate|exact N|exact W].
    intros l i r _ <-. now apply numeric_eqb_eq.
  - rewrite (from_nonempty _ _ _ _ _ _ _ W). cbn [negb ensure obind]. unfold extract_alpha_subpoints.
    rewrite (read_siblings _ _ _ _ _ _ _ _ (c61_sub (p_prefix (r_start p))) (only_space sub_form) (proj1 (good_sub _)) (proj2 (good_sub _))
      (leaf_children BlockAm) (leaf_none BlockAm) false (eq (r_start p)) (Some (r_start p)) false es [] [] ls); [reflexivity| |discriminate|exact N|exact W].
    intros l i r _ <-. now apply prefixed_eqb_eq.
Qed.
(** ** Articles *)
Lemma articles_go_on last : last_article_ok last -> forall tl i ls done rest, Forall not_ending_in_space tl ->
  (forall x l y j r', tl = x ++ l :: y -> ~ article_line BlockAm last l j r') ->
  ca_loop (fac last) (mkAP i ls) done (tl ++ rest) = ca_loop (fac last) (mkAP i (ls ++ tl)) done rest.
Proof.
  intros K tl. induction tl as [|l tl IH]; intros i ls done rest N O; cbn [app].
  - now rewrite app_nil_r.
  - apply Forall_cons_iff in N. destruct N as [N1 N2]. cbn [ca_loop].
    destruct (try_article_exact BlockAm last l N1 K) as [A [E|(j & r & E)]].
    + rewrite E. unfold ap_feed. cbn [ap_id ap_lines]. rewrite IH.
      * now rewrite <- app_assoc.
      * exact N2.
      * intros x m y j r' ->. exact (O (l :: x) m y j r' eq_refl).
    + apply A in E. elim (O [] l tl j r eq_refl E).
Qed.
Lemma read_articles i hl r cs ls : w_articles i hl r cs ls -> forall done, article_ok i = true -> not_ending_in_space r -> Forall not_ending_in_space ls ->
  ca_loop (fac (Some (i, indent hl))) (mkAP i [r]) done ls = Ok (done ++ cs).
Proof.
  intros W. induction W as [a hl r tl Wa O|a hl r tl j hl' r' cs ls Wa O H W IH]; intros done K Nr N.
  - rewrite <- (app_nil_r tl) at 1. rewrite (articles_go_on (Some (ar_ident a, indent hl)) K tl _ _ _ [] N O). cbn [ca_loop].
    cbn [app]. rewrite (read_article BlockAm a (r :: tl)); [reflexivity|now constructor|exact Wa].
  - apply Forall_app in N. destruct N as [N1 N2]. apply Forall_cons_iff in N2. destruct N2 as [Nh N2].
    rewrite (articles_go_on (Some (ar_ident a, indent hl)) K tl _ _ _ _ N1 O). cbn [ca_loop].
    destruct (try_article_exact BlockAm (Some (ar_ident a, indent hl)) hl' Nh K) as [A _]. rewrite (proj2 (A j r') H).
    cbn [app]. rewrite (read_article BlockAm a (r :: tl)); [|now constructor|exact Wa]. cbn [obind].
    change (mkFac (Some j) (Some (indent hl'))) with (fac (Some (j, indent hl'))). destruct H as [H _]. rewrite IH.
    + now rewrite <- app_assoc.
    + exact (article_hd_ok _ _ _ H).
    + exact (article_hd_nes _ _ _ H Nh).
    + exact N2.
Qed.
Lemma feed_titles ls : forall p, fold_left sp_feed ls p = mkSP (sp_id p) (app_from (sp_title p) ls) (sp_ty p).
Proof. induction ls as [|l ls IH]; intros p; cbn [fold_left]; [now destruct p|]. rewrite IH. reflexivity. Qed.
Lemma feed_subtitles ls : forall p, fold_left tp_feed ls p = mkStP (tp_id p) (app_from (tp_title p) ls).
Proof. induction ls as [|l ls IH]; intros p; cbn [fold_left]; [now destruct p|]. rewrite IH. reflexivity. Qed.
Lemma read_title_of rf ty i c ls : w_title_of rf ty i c ls -> convert_title_only_se rf i ty ls = Ok c.
Proof.
  intros (e & -> & <- & Ec & H). destruct e as [ei et ety ech]. cbn [se_id se_title se_ty se_change] in *. subst ech. destruct H as [(hl & tl & -> & Hh & ->)|(-> & -> & H)].
  - cbn [convert_title_only_se]. apply try_se_exact in Hh. rewrite Hh. cbn [obind]. rewrite feed_titles. reflexivity.
  - destruct ls as [|l ls]; [contradiction|]. cbn [convert_title_only_se].
    assert (E : try_se rf ety l = Ok None).
    { destruct (try_se_np rf ety l) as [A B]. destruct (try_se rf ety l) as [[p|]| |] eqn:E; [|reflexivity|congruence|congruence].
      pose proof (try_se_some _ _ _ _ E) as P. rewrite P in E. apply try_se_exact in E. elim (H _ E). }
    rewrite E. cbn [obind]. rewrite feed_titles. reflexivity.
Qed.
Theorem read_structure rf up pos cs ls : Forall not_ending_in_space ls -> w_structure rf up pos cs ls -> convert_structural rf up pos ls = Ok cs.
Proof.
  intros N W. unfold w_structure in W. unfold convert_structural.
  assert (Full : (exists preamble, w_act rf up BlockAm preamble cs ls) -> (let* r := parse_complex_body rf up BlockAm ls in Ok (snd r)) = Ok cs).
  { intros [pre X]. rewrite (read_act rf up BlockAm pre cs ls N X). reflexivity. }
  assert (Sub : forall c, (exists s hl tl t, c = ChSubtitle s /\ ls = hl :: tl /\ subtitle_line up BlockAm true hl (st_id s) t /\
              st_title s = fold_left (fun s l => append_to l s) tl t /\ st_change s = None) -> convert_subtitle_only_se up ls = Ok c).
  { intros c (s & hl & tl & t & -> & -> & H & Et & Ec). cbn [convert_subtitle_only_se]. apply (try_subtitle_exact up BlockAm true hl) in H.
    rewrite H. cbn [obind ok_or]. rewrite feed_subtitles. unfold tp_finish. cbn [tp_id tp_title]. destruct s. cbn in *. now subst. }
  destruct (sr_elem pos) as [i|i|i|i|i|i|i|i|i| |i] eqn:Es; try solve
    [destruct (sr_title_only pos); [|exact (Full W)]; destruct W as (c & -> & W); unfold convert_title_only; rewrite Es;
      first [contradiction|rewrite (Sub c W); reflexivity|rewrite (read_title_of _ _ _ _ _ W); reflexivity]].
  all: destruct W as (hl & tl & r & -> & Hh & W); apply Forall_cons_iff in N; destruct N as [N1 N2]; cbn [convert_articles].
  all: assert (E : try_article BlockAm af_new (Some (r_start i)) hl = Ok (mkFac (Some (r_start i)) (Some (indent hl)), mkAP (r_start i) [r]));
    [unfold try_article; cbn [af_indent af_new ensure obind]; destruct (c61_article hl) as (A & _); rewrite (proj2 (A _ _) Hh); cbn [obind];
     rewrite (proj2 (article_eqb_eq (r_start i) (r_start i)) eq_refl); reflexivity|].
  all: rewrite E; cbn [obind]; change (mkFac (Some (r_start i)) (Some (indent hl))) with (fac (Some (r_start i, indent hl)));
    rewrite (read_articles _ _ _ _ _ W []); [reflexivity|exact (article_hd_ok _ _ _ Hh)|exact (article_hd_nes _ _ _ Hh N1)|exact N2].
Qed.
Theorem read_block rf up p p' : becomes rf up p p' -> convert_paragraph rf up p = (p', Ok tt).
Proof.
  intros (i & q & w & c & Eb & -> & N & H). unfold convert_paragraph. rewrite Eb.
  destruct (si_phrase (s_si p)) as [[x|x|x|x|x]|]; try contradiction; destruct H as (y & -> & W).
  - rewrite (read_amended _ _ _ N W). reflexivity.
  - rewrite (read_structure _ _ _ _ _ N W). reflexivity.
Qed.
Theorem read_blocks rf up a b : same_act_but (fun p p' => (candidate p /\ becomes rf up p p') \/ (~ candidate p /\ p' = p)) a b ->
  convert_act rf up a = (b, Ok tt).
Proof.
  intros (E1 & E2 & E3 & E4 & E5 & F). unfold convert_act.
  assert (P : forall p p', (candidate p /\ becomes rf up p p') \/ (~ candidate p /\ p' = p) -> convert_paragraph rf up p = (p', Ok tt)).
  { intros p p' [[_ B]|[N ->]]; [exact (read_block _ _ _ _ B)|]. unfold convert_paragraph, candidate, amending, one_block in *.
    destruct (s_body p) as [t|i c w]; [reflexivity|]. destruct c as [l|l|qs|x|x]; try reflexivity. destruct qs as [|q [|q' qs]]; try reflexivity.
    destruct (si_phrase (s_si p)) as [[x|x|x|x|x]|]; try reflexivity; exfalso; apply N; split; eauto. }
  assert (L : forall A (f : A -> A * outcome unit) (R : A -> A -> Prop), (forall x y, R x y -> f x = (y, Ok tt)) -> forall l l', Forall2 R l l' -> try_each f l = (l', Ok tt)).
  { intros A f R H l l' Fl. induction Fl as [|x y l l' Hx _ IH]; cbn [try_each]; [reflexivity|]. now rewrite (H x y Hx), IH. }
  assert (C : forall x y, same_child (fun p p' => (candidate p /\ becomes rf up p p') \/ (~ candidate p /\ p' = p)) x y -> convert_child rf up x = (y, Ok tt)).
  { intros [e|e|x] [e'|e'|y] S; cbn [same_child] in S; try discriminate; try (injection S as <-; reflexivity).
    destruct S as (A1 & A2 & A3 & S). cbn [convert_child]. unfold convert_article. rewrite (L _ _ _ P _ _ S).
    destruct x, y. cbn in *. now subst. }
  rewrite (L _ _ _ C _ _ F). destruct a, b. cbn in *. now subst.
Qed.
