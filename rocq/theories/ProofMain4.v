(** Proofs for C69: sessions that change nothing, and the text after a session. *)
From Verif Require Export ProofMain3.
From Coq Require Import Lia.
Local Notation length := List.length.

Lemma show_Z_ascii z : Forall (fun c => (c < 128)%N /\ c <> 10%N /\ c <> 13%N) (show_Z z).
Proof.
  assert (D : forall n, Forall (fun c => (c < 128)%N /\ c <> 10%N /\ c <> 13%N) (show_N n)).
  { intros n. apply Forall_forall. intros c I. pose proof (show_N_digits n) as H. rewrite forallb_forall in H. specialize (H c I). unfold is_digit in H. lia. }
  unfold show_Z. destruct (z <? 0)%Z; [|apply D]. constructor; [lia|apply D].
Qed.
Lemma ascii_len s : Forall (fun c => (c < 128)%N /\ c <> 10%N /\ c <> 13%N) s -> utf8_len s = N.of_nat (length s).
Proof.
  induction 1 as [|c s (A & _) F IH]; [reflexivity|]. rewrite utf8_len_cons, IH. unfold char_len. replace (c <? 128)%N with true by lia. cbn [length]. lia.
Qed.
Lemma show_Z_five z : (-10000 < z < 100000)%Z -> (length (show_Z z) <= 5)%nat.
Proof.
  intros H. unfold show_Z. destruct (Z.ltb_spec z 0).
  - cbn [length]. assert (Z.to_N (- z) < 10 ^ N.of_nat 4)%N by (change (10 ^ N.of_nat 4)%N with 10000%N; lia). pose proof (show_N_length 3 _ H1). lia.
  - assert (Z.to_N z < 10 ^ N.of_nat 5)%N by (change (10 ^ N.of_nat 5)%N with 100000%N; lia). pose proof (show_N_length 4 _ H1). lia.
Qed.
Lemma spaces_ascii n : Forall (fun c => (c < 128)%N /\ c <> 10%N /\ c <> 13%N) (repeat (chr " ") n).
Proof. induction n; cbn [repeat]; constructor; auto. change (chr " ") with 32%N. lia. Qed.
Lemma row_cut z t : (-10000 < z < 100000)%Z -> ~ In 10%N t -> exists p u, aligned 4 (show_Z z) ++ [chr " "] ++ t = p ++ u /\
  utf8_len p = 5%N /\ ~ In 10%N (p ++ u) /\ ~ In 13%N p /\ (u = t \/ u = chr " " :: t).
Proof.
  intros H T. pose proof (show_Z_five z H) as L. pose proof (show_Z_ascii z) as A.
  assert (AL : Forall (fun c => (c < 128)%N /\ c <> 10%N /\ c <> 13%N) (aligned 4 (show_Z z))).
  { unfold aligned. apply Forall_app. split; [apply spaces_ascii|exact A]. }
  assert (LN : length (aligned 4 (show_Z z)) = 4%nat \/ length (aligned 4 (show_Z z)) = 5%nat).
  { unfold aligned. rewrite app_length, repeat_length. lia. }
  assert (NI : forall s, Forall (fun c => (c < 128)%N /\ c <> 10%N /\ c <> 13%N) s -> ~ In 10%N s /\ ~ In 13%N s).
  { intros s F. rewrite Forall_forall in F. split; intros I; apply F in I; lia. }
  destruct LN as [E|E].
  - exists (aligned 4 (show_Z z) ++ [chr " "]), t. assert (AL' : Forall (fun c => (c < 128)%N /\ c <> 10%N /\ c <> 13%N) (aligned 4 (show_Z z) ++ [chr " "])).
    { apply Forall_app. split; [exact AL|]. exact (spaces_ascii 1). }
    split; [now rewrite <- app_assoc|]. split; [rewrite (ascii_len _ AL'), app_length, E; reflexivity|].
    split; [intros I; apply in_app_or in I as [I|I]; [now apply NI in I|contradiction]|]. split; [now apply NI|now left].
  - exists (aligned 4 (show_Z z)), (chr " " :: t). split; [reflexivity|]. split; [rewrite (ascii_len _ AL), E; reflexivity|].
    split; [intros I; apply in_app_or in I as [I|[I|I]]; [now apply NI in I|discriminate|contradiction]|]. split; [now apply NI|now right].
Qed.
Lemma trim_spaces n s : trim (repeat (chr " ") n ++ s) = trim s.
Proof. unfold trim. induction n; [reflexivity|]. cbn [repeat app trim_start]. change (is_whitespace (chr " ")) with true. exact IHn. Qed.
Lemma untouched_rows ls : (forall l, In l ls -> ~ In 10%N (content l)) -> forall q, (forall k, (k < length ls)%nat -> (-10000 < q + quotes_at ls k < 100000)%Z) ->
  exists rows, left_rows rows /\ of_rows (rows_from q ls) = left_file rows /\ map (fun r => trim (snd r)) rows = editor_lines ls.
Proof.
  induction ls as [|l ls IH]; intros NF q B; [exists []; split; [constructor|split; reflexivity]|].
  destruct (IH (fun x I => NF x (or_intror I)) (q + depth (content l))%Z) as (rows & L & E & M).
  { intros k K. specialize (B (S k)). rewrite quotes_at_cons in B. cbn [List.length] in B. lia. }
  assert (B0 := B 0%nat ltac:(cbn; lia)). rewrite quotes_at_zero in B0.
  destruct (c68_line false l) as (n & _ & Q). cbn [marks app length] in Q. rewrite Nat.sub_0_r in Q.
  destruct (row_cut (q + depth (content l)) (quick_display l false) B0) as (p & u & R & P1 & P2 & P3 & P4).
  { rewrite Q. intros I. apply in_app_or in I as [I|I]; [apply repeat_spec in I; discriminate|]. exact (NF l (or_introl eq_refl) I). }
  exists ((p, u) :: rows). split; [constructor; [cbn; auto|exact L]|]. split.
  - cbn [rows_from]. change (of_rows ((?a) :: ?b)) with ((a ++ [10%N]) ++ of_rows b). rewrite R. rewrite E. reflexivity.
  - unfold editor_lines in *. cbn [map snd]. rewrite M. f_equal. rewrite Q in P4. destruct P4 as [->| ->]; [apply trim_spaces|].
    change (chr " " :: repeat (chr " ") n ++ content l) with (repeat (chr " ") (S n) ++ content l). apply trim_spaces.
Qed.
