(** A reader of dates for C86: all dates of the calendar are read as they are written. *)
From Verif Require Import SpecKeep ProofBase ProofMain ProofSave ProofKeep3.
From Coq Require Import Lia.
Open Scope list_scope.

Definition all_digits (s : str) : outcome N := if negb (is_empty s) && forallb is_digit s then Ok (digits_value s) else Err.
Definition read_parts (minus : bool) (s : str) : outcome date :=
  let* (y, s) := ok_or (split_once (chr "-") s) in
  let* (m, d) := ok_or (split_once (chr "-") s) in
  let* y := all_digits y in
  let* m := all_digits m in
  let* d := all_digits d in
  ok_or (from_ymd (if minus then - Z.of_N y else Z.of_N y)%Z m d).
Definition read_date (s : str) : outcome date :=
  match s with
  | c :: r => if (c =? chr "-")%N then read_parts true r else if (c =? chr "+")%N then read_parts false r else read_parts false s
  | [] => Err
  end.
Definition calendar (d : date) : Prop := from_ymd (d_year d) (d_month d) (d_day d) = Some d.
Lemma calendar_has : has_dates calendar.
Proof. intros y m d x H. unfold calendar. pose proof H as E. unfold from_ymd in E. destruct (_ && _); [|discriminate]. injection E as <-. exact H. Qed.
Lemma pad_read w z : (0 <= z)%Z -> all_digits (pad_Z w z) = Ok (Z.to_N z).
Proof.
  intros H. unfold all_digits. rewrite (pad_digits w z H), (pad_Z_value w z H). replace (is_empty (pad_Z w z)) with false; [reflexivity|]. unfold pad_Z. destruct (z <? 0)%Z eqn:E; [lia|].
  cbn [app]. pose proof (show_N_nonempty (Z.to_N (Z.abs z))) as N. destruct (repeat _ _); [|reflexivity]. now destruct (show_N _).
Qed.
Lemma pad_no_dash w z : (0 <= z)%Z -> no_char (chr "-") (pad_Z w z) = true.
Proof. intros H. apply (ProofIdent2.no_char_forall is_digit); [reflexivity|]. now apply pad_digits. Qed.
Lemma parts_read (minus : bool) w y m d x : from_ymd (if minus then - Z.of_N y else Z.of_N y)%Z m d = Some x ->
  read_parts minus (pad_Z w (Z.of_N y) ++ lit "-" ++ pad_Z 2 (Z.of_N m) ++ lit "-" ++ pad_Z 2 (Z.of_N d)) = Ok x.
Proof.
  intros E. unfold read_parts. change (lit "-") with [chr "-"]. cbn [app]. rewrite (split_once_some _ _ _ (pad_no_dash w (Z.of_N y) (N2Z.is_nonneg y))). cbn [ok_or obind].
  rewrite (split_once_some _ _ _ (pad_no_dash 2 (Z.of_N m) (N2Z.is_nonneg m))). cbn [ok_or obind]. rewrite !pad_read by apply N2Z.is_nonneg. cbn [obind]. rewrite !N2Z.id, E. reflexivity.
Qed.
Lemma pad_head w z : (0 <= z)%Z -> exists c r, pad_Z w z = c :: r /\ is_digit c = true.
Proof.
  intros H. pose proof (pad_digits w z H) as P. pose proof (pad_read w z H) as R. destruct (pad_Z w z) as [|c r]; [discriminate R|]. exists c, r. split; [reflexivity|]. now apply andb_prop in P as [P _].
Qed.
Lemma calendar_read : reads_dates calendar read_date.
Proof.
  split; [|split].
  - intros [y m d] H. unfold calendar in H. cbn [d_year d_month d_day] in H. unfold show_date. cbn [d_year d_month d_day]. destruct ((0 <=? y) && (y <=? 9999))%Z eqn:A; [|destruct (y <? 0)%Z eqn:B].
    + assert (Y : (0 <= y)%Z) by lia. pose proof (parts_read false 4 (Z.to_N y) m d (mkDate y m d)) as R. cbv iota in R. rewrite Z2N.id in R by exact Y. specialize (R H).
      destruct (pad_head 4 y Y) as (c & r & E & C). rewrite E in *. cbn [app] in *. unfold read_date. unfold is_digit in C. rewrite R.
      change (chr "-") with 45%N. change (chr "+") with 43%N. destruct (c =? 45)%N eqn:X; [lia|]. destruct (c =? 43)%N eqn:Z; [lia|]. reflexivity.
    + assert (P : pad_Z 5 y = chr "-" :: pad_Z 4 (- y)).
      { unfold pad_Z. rewrite B. destruct (- y <? 0)%Z eqn:C; [lia|]. rewrite Z.abs_opp. cbn [app List.length]. repeat f_equal; lia. }
      rewrite P. cbn [app read_date]. rewrite N.eqb_refl. pose proof (parts_read true 4 (Z.to_N (- y)) m d (mkDate y m d)) as R. cbv iota in R. rewrite Z2N.id in R by lia. rewrite Z.opp_involutive in R. exact (R H).
    + change (lit "+") with [chr "+"]. cbn [app read_date]. change ((chr "+" =? chr "-")%N) with false. rewrite N.eqb_refl. cbv iota.
      pose proof (parts_read false 4 (Z.to_N y) m d (mkDate y m d)) as R. cbv iota in R. rewrite Z2N.id in R by lia. exact (R H).
  - intros s d. assert (P : forall b t, read_parts b t = Ok d -> calendar d).
    { intros b t. unfold read_parts. destruct (split_once _ t) as [[y u]|]; cbn [ok_or obind]; [|discriminate]. destruct (split_once _ u) as [[m v]|]; cbn [ok_or obind]; [|discriminate].
      destruct (all_digits y); cbn [obind]; try discriminate. destruct (all_digits m); cbn [obind]; try discriminate. destruct (all_digits v); cbn [obind]; try discriminate.
      destruct (from_ymd _ _ _) as [x|] eqn:E; cbn; [|discriminate]. intros X. apply Ok_inj in X. subst x. exact (calendar_has _ _ _ _ E). }
    unfold read_date. destruct s as [|c r]; [discriminate|]. destruct (c =? _)%N; [apply P|]. destruct (c =? _)%N; apply P.
  - assert (P : forall b t, read_parts b t <> Panic).
    { intros b t. unfold read_parts. destruct (split_once _ t) as [[y u]|]; cbn [ok_or obind]; [|discriminate]. destruct (split_once _ u) as [[m v]|]; cbn [ok_or obind]; [|discriminate]. unfold all_digits.
      destruct (negb (is_empty y) && _); cbn [obind]; try discriminate. destruct (negb (is_empty m) && _); cbn [obind]; try discriminate. destruct (negb (is_empty v) && _); cbn [obind]; try discriminate.
      destruct (from_ymd _ _ _); cbn; discriminate. }
    intros s. unfold read_date. destruct s as [|c r]; [discriminate|]. destruct (c =? _)%N; [apply P|]. destruct (c =? _)%N; apply P.
Qed.
