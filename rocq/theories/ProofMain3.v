(** Proofs for C69: editor sessions. *)
From Verif Require Export ProofMain2 ProofOut ProofIdent4.
From Verif Require Export SpecText.
From Coq Require Import Lia.
Local Notation length := List.length.

Lemma starts_space s : starts_with (lit " ") s = false <-> forall t, s <> chr " " :: t.
Proof.
  split.
  - intros H t ->. discriminate.
  - intros H. destruct (starts_with (lit " ") s) eqn:E; [|reflexivity]. apply starts_with_spec in E as [r ->]. now specialize (H r).
Qed.
Lemma ends_space s : ends_with (lit " ") s = false <-> forall t, s <> t ++ [chr " "].
Proof.
  unfold ends_with, strip_suffix. change (rev (lit " ")) with [chr " "]. split.
  - intros H t ->. rewrite rev_app_distr in H. discriminate.
  - intros H. destruct (strip_prefix [chr " "] (rev s)) eqn:E; [|reflexivity]. apply strip_prefix_some in E. apply (f_equal (@rev _)) in E. rewrite rev_involutive in E.
    cbn [app rev] in E. now apply H in E.
Qed.
Lemma tidy_iff l : tidy l <-> starts_with (lit " ") (content l) = false /\ ends_with (lit " ") (content l) = false.
Proof. unfold tidy. now rewrite starts_space, ends_space. Qed.

Fixpoint rows_from (q : Z) (ls : list line) : list str :=
  match ls with [] => [] | l :: ls' => let q' := (q + depth (content l))%Z in (aligned 4 (show_Z q') ++ [chr " "] ++ quick_display l false) :: rows_from q' ls' end.
Lemma editor_file_rows ls : Forall tidy ls -> forall q, editor_file q ls = Ok (of_rows (rows_from (q_level q) ls)).
Proof.
  induction 1 as [|l ls T F IH]; intros q; [reflexivity|]. cbn [editor_file]. apply tidy_iff in T as [T1 T2]. rewrite T1, T2. cbn [negb ensure obind].
  rewrite IH. cbn [obind rows_from]. rewrite qc_update_level. unfold of_rows. cbn [map List.concat]. unfold pad_left, aligned, newline. rewrite <- !app_assoc. reflexivity.
Qed.
Lemma editor_file_fails ls : Exists (fun l => ~ tidy l) ls -> forall q, editor_file q ls = Err.
Proof.
  induction 1 as [l ls T|l ls E IH]; intros q; cbn [editor_file].
  - destruct (ends_with _ (content l)) eqn:A; [reflexivity|]. cbn [negb ensure obind]. destruct (starts_with _ (content l)) eqn:B; [reflexivity|]. exfalso. apply T. now apply tidy_iff.
  - destruct (ends_with _ (content l)); [reflexivity|]. destruct (starts_with _ (content l)); [reflexivity|]. cbn [negb ensure obind]. now rewrite IH.
Qed.
Lemma rows_from_length ls : forall q, length (rows_from q ls) = length ls.
Proof. induction ls; intros; cbn; auto. Qed.
Lemma quotes_at_cons l ls k : quotes_at (l :: ls) (S k) = (depth (content l) + quotes_at ls k)%Z.
Proof. unfold quotes_at. rewrite firstn_cons. change (text (l :: firstn (S k) ls)) with (content l ++ text (firstn (S k) ls)). now rewrite ProofText.depth_app. Qed.
Lemma quotes_at_zero l ls : quotes_at (l :: ls) 0 = depth (content l).
Proof. unfold quotes_at. cbn [firstn]. change (text [l]) with (content l ++ []). now rewrite app_nil_r. Qed.
Lemma rows_from_nth ls : forall q k l row, nth_error ls k = Some l -> nth_error (rows_from q ls) k = Some row ->
  row = aligned 4 (show_Z (q + quotes_at ls k)) ++ [chr " "] ++ quick_display l false.
Proof.
  induction ls as [|l0 ls IH]; intros q [|k] l row E R; cbn [nth_error rows_from] in *; try discriminate.
  - apply Some_inj in E, R. subst. now rewrite quotes_at_zero.
  - rewrite (IH _ _ _ _ E R), quotes_at_cons. now rewrite Z.add_assoc.
Qed.
Lemma c69_file ls : Forall tidy ls -> exists rows, editor_file qc_default ls = Ok (of_rows rows) /\ editor_rows ls rows.
Proof.
  intros T. exists (rows_from 0 ls). split; [apply (editor_file_rows ls T qc_default)|]. split; [apply rows_from_length|].
  intros k l row E R. exists (quick_display l false). split; [apply c68_line|]. now apply (rows_from_nth ls 0).
Qed.

(** Where it is opened *)
Lemma editor_place_spec ls : forall q i un, (0 <= q_level q)%Z ->
  match editor_place q i un ls with
  | Some r =>
     (exists k, r = (i + k)%nat /\ (k < length ls)%nat /\ (q_level q + quotes_at ls k < 0)%Z /\ forall j, (j < k)%nat -> (0 <= q_level q + quotes_at ls j)%Z) \/
     ((forall j, (j < length ls)%nat -> (0 <= q_level q + quotes_at ls j)%Z) /\
      ((exists k, r = (i + S k)%nat /\ (k < length ls)%nat /\ (q_level q + quotes_at ls k = 0)%Z /\ forall j, (k < j < length ls)%nat -> (0 < q_level q + quotes_at ls j)%Z) \/
       (un = Some r /\ forall j, (j < length ls)%nat -> (0 < q_level q + quotes_at ls j)%Z)))
  | None => un = None /\ forall j, (j < length ls)%nat -> (0 < q_level q + quotes_at ls j)%Z
  end.
Proof.
  induction ls as [|l ls IH]; intros q i un H; cbn [editor_place].
  - destruct un; [right; split; [intros j; cbn; lia|right; split; [reflexivity|intros j; cbn; lia]]|split; [reflexivity|intros j; cbn; lia]].
  - pose proof (qc_update_level q l) as L. destruct (qc_update q l) as [q' r] eqn:U. cbn [fst] in L.
    assert (R : r = ensure (0 <=? q_level q')%Z). { unfold qc_update in U. injection U as <- <-. reflexivity. }
    assert (E : q_end q' = (0 <? q_level q')%Z). { unfold qc_update in U. injection U as <- _. reflexivity. }
    rewrite R. destruct (Z.leb_spec 0 (q_level q')) as [P|P]; cbn [ensure is_ok negb].
    + specialize (IH q' (S i) (if q_end q' then un else Some (S i)) P). rewrite E in *. clear E.
      assert (A : forall j, (q_level q + quotes_at (l :: ls) (S j) = q_level q' + quotes_at ls j)%Z) by (intros j; rewrite quotes_at_cons; lia).
      assert (B : (q_level q + quotes_at (l :: ls) 0 = q_level q')%Z) by (rewrite quotes_at_zero; lia).
      destruct (editor_place q' (S i) _ ls) as [r0|].
      * destruct IH as [(k & -> & K1 & K2 & K3)|(N & IH)].
        -- left. exists (S k). split; [lia|]. split; [cbn; lia|]. rewrite A. split; [exact K2|]. intros [|j] J; [rewrite B; lia|rewrite A; apply K3; lia].
        -- right. split; [intros [|j] J; [rewrite B; lia|rewrite A; apply N; cbn in J; lia]|].
           destruct IH as [(k & -> & K1 & K2 & K3)|(U' & K)].
           ++ left. exists (S k). split; [lia|]. split; [cbn; lia|]. rewrite A. split; [exact K2|]. intros [|j] J; [lia|]. rewrite A. apply K3. cbn in J. lia.
           ++ destruct (Z.ltb_spec 0 (q_level q')) as [Q|Q].
              ** right. split; [exact U'|]. intros [|j] J; [rewrite B; lia|rewrite A; apply K; cbn in J; lia].
              ** apply Some_inj in U'. subst r0. left. exists O. split; [lia|]. split; [cbn; lia|]. rewrite B. split; [lia|]. intros [|j] J; [lia|]. rewrite A. apply K. cbn in J. lia.
      * destruct IH as [U' K]. destruct (Z.ltb_spec 0 (q_level q')) as [Q|Q]; [|discriminate]. split; [exact U'|]. intros [|j] J; [rewrite B; lia|rewrite A; apply K; cbn in J; lia].
    + left. exists O. split; [lia|]. split; [cbn; lia|]. rewrite quotes_at_zero. split; [lia|]. intros j J. lia.
Qed.
Lemma c69_place ls : opened_at ls (open_at_line ls).
Proof.
  unfold open_at_line. pose proof (editor_place_spec ls qc_default 0 None) as H. change (q_level qc_default) with 0%Z in H. specialize (H (Z.le_refl 0)).
  destruct (editor_place qc_default 0 None ls) as [r|].
  - destruct H as [(k & -> & K1 & K2 & K3)|(N & [(k & -> & K1 & K2 & K3)|(D & _)])]; [| |discriminate].
    + left. cbn [Nat.add]. rewrite Z.add_0_l in K2. split; [exact K1|]. split; [exact K2|]. intros j J. exact (K3 j J).
    + right. split; [exact N|]. split; [lia|]. split; [intros j J; apply K3; lia|]. intros j J. injection J as ->. exact K2.
  - destruct H as [_ H]. right. split; [intros j J; specialize (H j J); lia|]. split; [lia|]. split; [intros j J; apply H; lia|]. discriminate.
Qed.

(** What is read back *)
Lemma no_char_In c s : ~ In c s -> no_char c s = true.
Proof. intros H. unfold no_char. apply forallb_forall. intros x I. apply negb_true_iff, N.eqb_neq. now intros ->. Qed.
Lemma split_rows rows : Forall (fun r => ~ In 10%N r) rows -> split_on 10%N (of_rows rows) = rows ++ [[]].
Proof.
  induction 1 as [|r rows H F IH]; [reflexivity|]. change (of_rows (r :: rows)) with ((r ++ [10%N]) ++ of_rows rows). rewrite <- app_assoc. cbn [app].
  rewrite split_on_app by now apply no_char_In. now rewrite IH.
Qed.
Lemma lines_rows rows : Forall (fun r => ~ In 10%N r) rows -> str_lines (of_rows rows) = map strip_cr rows.
Proof. intros H. unfold str_lines. rewrite split_rows by assumption. rewrite rev_app_distr. cbn [rev app is_empty]. now rewrite rev_involutive, app_nil_r. Qed.
Lemma strip_cr_app p t : ~ In 13%N p -> strip_cr (p ++ t) = p ++ strip_cr t.
Proof.
  intros H. unfold strip_cr. rewrite rev_app_distr. destruct (rev t) as [|c u] eqn:E.
  - apply (f_equal (@rev _)) in E. rewrite rev_involutive in E. subst t. cbn [app]. rewrite app_nil_r. destruct (rev p) as [|c u] eqn:E'; [reflexivity|].
    destruct (N.eqb_spec c 13) as [->|]; [|reflexivity]. exfalso. apply H. apply in_rev. rewrite E'. now left.
  - cbn [app]. destruct (c =? 13)%N; [|reflexivity]. now rewrite rev_app_distr, rev_involutive.
Qed.
Lemma trim_start_app_space u c : is_whitespace c = true -> trim_start (u ++ [c]) = match trim_start u with [] => [] | v => v ++ [c] end.
Proof.
  intros W. induction u as [|d u IH]; cbn [app trim_start]; [now rewrite W|]. destruct (is_whitespace d); [exact IH|reflexivity].
Qed.
Lemma trim_end_space u c : is_whitespace c = true -> trim (u ++ [c]) = trim u.
Proof.
  intros W. unfold trim. rewrite trim_start_app_space by assumption. destruct (trim_start u) as [|d v]; [reflexivity|].
  rewrite rev_app_distr. cbn [rev app trim_start]. now rewrite W.
Qed.
Lemma trim_strip t : trim (strip_cr t) = trim t.
Proof.
  unfold strip_cr. destruct (rev t) as [|c u] eqn:E; [reflexivity|]. destruct (N.eqb_spec c 13) as [->|]; [|reflexivity].
  apply (f_equal (@rev _)) in E. rewrite rev_involutive in E. subst t. cbn [rev]. now rewrite trim_end_space.
Qed.
Lemma read_left rows : left_rows rows -> texts_after_five (str_lines (left_file rows)) = Ok (map (fun r => trim (snd r)) rows).
Proof.
  intros L. unfold left_file. rewrite lines_rows.
  - induction L as [|[p t] rows (A & B & C) L IH]; [reflexivity|]. cbn [map fst snd] in *. cbn [texts_after_five]. rewrite strip_cr_app by assumption.
    destruct (split_at_byte (p ++ strip_cr t) 5) as [[a b]|] eqn:E.
    + assert (E' : split_at_byte (p ++ strip_cr t) 5 = Some (p, strip_cr t)) by now apply split_at_byte_ok. rewrite E in E'. injection E' as -> ->.
      rewrite IH. cbn [obind]. now rewrite trim_strip.
    + assert (E' : split_at_byte (p ++ strip_cr t) 5 = Some (p, strip_cr t)) by now apply split_at_byte_ok. congruence.
  - apply Forall_map. eapply Forall_impl; [|exact L]. cbn beta. tauto.
Qed.
Lemma store_same st i fs : store_set st i fs i = Ok fs.
Proof. unfold store_set. now rewrite (proj2 (act_eqb_eq i i) eq_refl). Qed.
Lemma store_other st i fs j : j <> i -> store_set st i fs j = st j.
Proof. intros N. unfold store_set. destruct (act_eqb i j) eqn:E; [|reflexivity]. apply act_eqb_eq in E. congruence. Qed.
Lemma session edit st raw name fs rows : act_show (ar_id raw) = Ok name -> st (ar_id raw) = Ok fs -> Forall tidy (ar_body raw) -> left_rows rows ->
  (forall file shown, editor_rows (ar_body raw) shown -> file = of_rows shown -> edit (S (open_at_line (ar_body raw))) file = Ok (left_file rows)) ->
  run_fixup_editor edit st raw =
    match update_fixups fs (editor_lines (ar_body raw)) (map (fun r => trim (snd r)) rows) with
    | Some (Ok fs') => Ok (store_set st (ar_id raw) fs')
    | Some Err => Err
    | _ => Panic
    end.
Proof.
  intros A S T L E. unfold run_fixup_editor, load_fixups. rewrite A. cbn [obind]. destruct (c69_file _ T) as (shown & F & R). rewrite F. cbn [obind].
  rewrite (E _ shown R eq_refl). cbn [obind]. rewrite read_left by assumption. cbn [obind]. rewrite S. cbn [obind].
  destruct (update_fixups fs _ _) as [[fs'| |]|]; reflexivity.
Qed.
Lemma uf_same_texts fs l : update_fixups fs l l = Some (Ok fs).
Proof.
  unfold update_fixups. rewrite Nat.eqb_refl. cbn [uf_loop]. assert (E : change_position l l = None); [|now rewrite E].
  unfold change_position. induction l as [|s l IH]; [reflexivity|]. cbn [combine position fst snd]. assert (Q : str_eqb s s = true) by now apply str_eqb_eq. rewrite Q. cbn [negb].
  now rewrite IH.
Qed.
