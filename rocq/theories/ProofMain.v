(** Proofs for C68: lines as text. *)
From Verif Require Export SpecMain ProofMk.
From Coq Require Import Lia.

Lemma c68_line tags l : shown_line tags l (quick_display l tags).
Proof.
  exists (Z.to_nat (Z.quot (indent l) (5 * unit_pt))). split.
  - unfold column. change (5 * unit_pt)%Z with 5000%Z. destruct (Z.ltb_spec (indent l) 0).
    + left. split; [lia|]. assert (Z.quot (indent l) 5000 <= 0)%Z by (apply Z.quot_le_upper_bound; lia). lia.
    + right. rewrite Z.quot_div_nonneg by lia. assert (0 <= indent l / 5000)%Z by (apply Z.div_pos; lia).
      rewrite Z2Nat.id by lia. pose proof (Z.div_mod (indent l) 5000). pose proof (Z.mod_pos_bound (indent l) 5000). lia.
  - unfold quick_display, marks. destruct tags; cbn [andb]; [|rewrite Nat.sub_0_r; reflexivity].
    destruct (l_bold l), (l_just l); cbn [negb app]; rewrite ?app_nil_r, <- ?app_assoc; try reflexivity.
    + rewrite app_length. change (List.length (lit "<BOLD>")) with 6%nat. change (List.length (lit "<NJ>")) with 4%nat.
      rewrite <- Nat.sub_add_distr. reflexivity.
    + now rewrite Nat.sub_0_r.
Qed.
Lemma column_once l n m : column l n -> column l m -> n = m.
Proof. unfold column. change (5 * unit_pt)%Z with 5000%Z. lia. Qed.
Lemma shown_once tags l s s' : shown_line tags l s -> shown_line tags l s' -> s = s'.
Proof. intros (n & C & ->) (m & D & ->). now rewrite (column_once _ _ _ C D). Qed.
Lemma c68_line_iff tags l s : quick_display l tags = s <-> shown_line tags l s.
Proof. split; [intros <-; apply c68_line|]. apply shown_once, c68_line. Qed.

Lemma show_page_rows tags p : show_page tags p = of_rows (map (fun l => quick_display l tags) p).
Proof. unfold show_page, of_rows. now rewrite map_map. Qed.
Lemma shown_all tags p : Forall2 (shown_line tags) p (map (fun l => quick_display l tags) p).
Proof. induction p; constructor; auto. apply c68_line. Qed.
Lemma of_rows_app a b : of_rows (a ++ b) = of_rows a ++ of_rows b.
Proof. unfold of_rows. now rewrite map_app, concat_app. Qed.
Lemma pages_rows tags all ps : forall n, exists rows, rows_of_pages tags all (n + 1) ps rows /\ show_pages_from tags all n ps = of_rows rows.
Proof.
  induction ps as [|p ps IH]; intros n; [exists []; split; [constructor|reflexivity]|].
  destruct (IH (n + 1)%N) as (rows & R & E).
  exists ([[]; lit "------- page " ++ show_N (n + 1) ++ lit "/" ++ show_N all ++ lit " -------"; []] ++ map (fun l => quick_display l tags) p ++ rows).
  split; [constructor; [apply shown_all|exact R]|].
  cbn [show_pages_from]. rewrite E, show_page_rows, !of_rows_app. unfold of_rows at 3. cbn [map List.concat app].
  unfold newline. rewrite <- !app_assoc. cbn [app]. rewrite <- ?app_assoc. reflexivity.
Qed.
Lemma rows_once tags all ps : forall k r r', rows_of_pages tags all k ps r -> rows_of_pages tags all k ps r' -> r = r'.
Proof.
  induction ps as [|p ps IH]; intros k r r' A B; inversion A as [|? ? ? s1 x1 F1 R1]; inversion B as [|? ? ? s2 x2 F2 R2]; subst; [reflexivity|].
  rewrite (IH _ _ _ R1 R2). f_equal. f_equal. clear -F1 F2. revert s2 F2. induction F1; intros s2 F2; inversion F2; subst; [reflexivity|].
  f_equal; [eapply shown_once; eassumption|auto].
Qed.
Lemma c68_pages tags ps s : show_pages tags ps = s <-> exists rows, rows_of_pages tags (N.of_nat (List.length ps)) 1 ps rows /\ s = of_rows rows.
Proof.
  unfold show_pages. destruct (pages_rows tags (N.of_nat (List.length ps)) ps 0) as (rows & R & E). rewrite E. split.
  - intros <-. eauto.
  - intros (rows' & R' & ->). now rewrite (rows_once _ _ _ _ _ _ R R').
Qed.
Lemma pad_digits w z : (0 <= z)%Z -> forallb is_digit (pad_Z w z) = true.
Proof.
  intros H. unfold pad_Z. destruct (z <? 0)%Z eqn:E; [lia|]. cbn [app]. rewrite forallb_app, show_N_digits, andb_true_r.
  induction (w - _ - _)%nat; [reflexivity|cbn; assumption].
Qed.
Lemma show_N_length k : forall n, (n < 10 ^ N.of_nat (S k))%N -> (List.length (show_N n) <= S k)%nat.
Proof.
  induction k as [|k IH]; intros n H.
  - rewrite show_N_small; [cbn; lia|]. exact H.
  - destruct (N.ltb_spec n 10); [rewrite show_N_small by assumption; cbn; lia|]. rewrite show_N_step by assumption. rewrite app_length. cbn [List.length].
    assert (n / 10 < 10 ^ N.of_nat (S k))%N. { apply N.div_lt_upper_bound; [lia|]. rewrite <- N.pow_succ_r'. now rewrite <- Nat2N.inj_succ. }
    specialize (IH _ H1). lia.
Qed.
Lemma pad_length k z : (0 <= z)%Z -> (Z.to_N z < 10 ^ N.of_nat (S k))%N -> List.length (pad_Z (S k) z) = S k.
Proof.
  intros H L. unfold pad_Z. destruct (z <? 0)%Z eqn:E; [lia|]. rewrite Z.abs_eq by assumption. cbn [app List.length]. rewrite app_length, repeat_length, Nat.sub_0_r.
  pose proof (show_N_length k _ L). lia.
Qed.
Lemma show_date_iso d : (0 <= d_year d <= 9999)%Z -> (d_month d < 100)%N -> (d_day d < 100)%N -> iso_date d (show_date d).
Proof.
  intros Y M D. unfold show_date. replace ((0 <=? d_year d) && (d_year d <=? 9999))%Z with true by lia.
  exists (pad_Z 4 (d_year d)), (pad_Z 2 (Z.of_N (d_month d))), (pad_Z 2 (Z.of_N (d_day d))). split; [reflexivity|].
  split; [apply (pad_length 3); change (10 ^ N.of_nat 4)%N with 10000%N; lia|]. split; [apply pad_digits; lia|]. split; [apply pad_Z_value; lia|].
  split; (split; [apply (pad_length 1); change (10 ^ N.of_nat 2)%N with 100%N; lia|]; split; [apply pad_digits; lia|rewrite pad_Z_value by lia; apply N2Z.id]).
Qed.
Lemma c68_raw tags r i : act_show (ar_id r) = Ok i -> (0 <= d_year (ar_date r) <= 9999)%Z -> (d_month (ar_date r) < 100)%N -> (d_day (ar_date r) < 100)%N ->
  exists d shown, iso_date (ar_date r) d /\ Forall2 (shown_line tags) (ar_body r) shown /\
    show_raw tags r = Ok (of_rows ([lit "Act ID: " ++ i ++ lit " - " ++ ar_subject r; lit "Pub date: " ++ d; []] ++ shown)).
Proof.
  intros A Y M D. exists (show_date (ar_date r)), (map (fun l => quick_display l tags) (ar_body r)). split; [now apply show_date_iso|]. split; [apply shown_all|].
  unfold show_raw. rewrite A. cbn [obind]. rewrite of_rows_app, show_page_rows. unfold of_rows at 2. cbn [map List.concat app]. unfold newline.
  rewrite <- !app_assoc. cbn [app]. rewrite <- ?app_assoc. reflexivity.
Qed.
