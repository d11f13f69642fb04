(** A way to write trees of values as texts and to read them, to show that the conditions of C87 can be met. *)
From Verif Require Import SpecDisk.
From Coq Require Import Lia.
Local Open Scope list_scope.

(** Characters are moved up by one, and zero ends a string. *)
Definition wr_str (s : str) : str := map N.succ s ++ [0%N].
Fixpoint rd_str (s : str) : option (str * str) :=
  match s with
  | [] => None
  | c :: r => if (c =? 0)%N then Some ([], r) else match rd_str r with Some (t, q) => Some (N.pred c :: t, q) | None => None end
  end.
Definition wr_Z (z : Z) : str := [if (z <? 0)%Z then 1%N else 0%N; Z.abs_N z].
Definition rd_Z (s : str) : option (Z * str) :=
  match s with b :: n :: r => Some (if (b =? 1)%N then Z.opp (Z.of_N n) else Z.of_N n, r) | _ => None end.
Fixpoint wr_value (v : value) : str :=
  match v with
  | VNull => [0%N]
  | VBool b => [1%N; if b then 1%N else 0%N]
  | VInt z => 2%N :: wr_Z z
  | VFloat z => 3%N :: wr_Z z
  | VStr s => 4%N :: wr_str s
  | VSeq l => 5%N :: flat_map (fun v => 1%N :: wr_value v) l ++ [0%N]
  | VMap l => 6%N :: flat_map (fun p => 1%N :: wr_str (fst p) ++ wr_value (snd p)) l ++ [0%N]
  end.
Fixpoint rd_value (n : nat) (s : str) : option (value * str) :=
  match n with
  | O => None
  | S n =>
      match s with
      | [] => None
      | t :: r =>
          if (t =? 0)%N then Some (VNull, r)
          else if (t =? 1)%N then match r with b :: r => Some (VBool (b =? 1)%N, r) | [] => None end
          else if (t =? 2)%N then match rd_Z r with Some (z, q) => Some (VInt z, q) | None => None end
          else if (t =? 3)%N then match rd_Z r with Some (z, q) => Some (VFloat z, q) | None => None end
          else if (t =? 4)%N then match rd_str r with Some (z, q) => Some (VStr z, q) | None => None end
          else if (t =? 5)%N then match rd_seq n r with Some (z, q) => Some (VSeq z, q) | None => None end
          else match rd_map n r with Some (z, q) => Some (VMap z, q) | None => None end
      end
  end
with rd_seq (n : nat) (s : str) : option (list value * str) :=
  match n with
  | O => None
  | S n =>
      match s with
      | [] => None
      | t :: r =>
          if (t =? 0)%N then Some ([], r)
          else match rd_value n r with Some (v, q) => match rd_seq n q with Some (l, q) => Some (v :: l, q) | None => None end | None => None end
      end
  end
with rd_map (n : nat) (s : str) : option (list (str * value) * str) :=
  match n with
  | O => None
  | S n =>
      match s with
      | [] => None
      | t :: r =>
          if (t =? 0)%N then Some ([], r)
          else match rd_str r with
               | Some (k, q) => match rd_value n q with Some (v, q) => match rd_map n q with Some (l, q) => Some ((k, v) :: l, q) | None => None end | None => None end
               | None => None
               end
      end
  end.
Definition wr_text (f : format) (v : value) : str := wr_value v.
Definition rd_text (f : format) (s : str) : outcome value := match rd_value (List.length s) s with Some (v, []) => Ok v | _ => Err end.

Lemma rd_wr_str s r : rd_str (wr_str s ++ r) = Some (s, r).
Proof.
  unfold wr_str. induction s as [|c s IH]; cbn; [reflexivity|]. destruct (N.succ c =? 0)%N eqn:E; [apply N.eqb_eq in E; lia|].
  rewrite IH. now rewrite N.pred_succ.
Qed.
Lemma rd_wr_Z z r : rd_Z (wr_Z z ++ r) = Some (z, r).
Proof.
  unfold wr_Z, rd_Z. cbn [app]. assert (A : (if (((if (z <? 0)%Z then 1 else 0) =? 1)%N) then Z.opp (Z.of_N (Z.abs_N z)) else Z.of_N (Z.abs_N z)) = z); [|now rewrite A].
  rewrite N2Z.inj_abs_N. destruct (z <? 0)%Z eqn:E; [apply Z.ltb_lt in E|apply Z.ltb_ge in E]; [change (- Z.abs z = z)%Z|change (Z.abs z = z)]; lia.
Qed.
Lemma len_app {A} (l m : list A) : List.length (l ++ m) = List.length l + List.length m.
Proof. apply app_length. Qed.
Lemma seq_more n v r : rd_seq (S n) (1%N :: v) = r -> r = match rd_value n v with Some (v, q) => match rd_seq n q with Some (l, q) => Some (v :: l, q) | None => None end | None => None end.
Proof. intros <-. reflexivity. Qed.
Lemma map_more n v r : rd_map (S n) (1%N :: v) = r -> r = match rd_str v with
  | Some (k, q) => match rd_value n q with Some (v, q) => match rd_map n q with Some (l, q) => Some ((k, v) :: l, q) | None => None end | None => None end | None => None end.
Proof. intros <-. reflexivity. Qed.
Lemma one_more {A} (f : A -> str) a l r : (flat_map (fun a => 1%N :: f a) (a :: l) ++ [0%N]) ++ r = 1%N :: f a ++ (flat_map (fun a => 1%N :: f a) l ++ [0%N]) ++ r.
Proof. cbn [flat_map]. rewrite <- !app_assoc. reflexivity. Qed.
Ltac decide_tags := repeat match goal with |- context[(?a =? ?b)%N] => let c := eval vm_compute in (a =? b)%N in
  match c with true => idtac | false => idtac end; change (a =? b)%N with c; cbv iota end.
Lemma rd_wr n : (forall v r, List.length (wr_value v) <= n -> rd_value n (wr_value v ++ r) = Some (v, r)) /\
  (forall l r, List.length (flat_map (fun v => 1%N :: wr_value v) l ++ [0%N]) <= n ->
    rd_seq n ((flat_map (fun v => 1%N :: wr_value v) l ++ [0%N]) ++ r) = Some (l, r)) /\
  (forall l r, List.length (flat_map (fun p => 1%N :: wr_str (fst p) ++ wr_value (snd p)) l ++ [0%N]) <= n ->
    rd_map n ((flat_map (fun p => 1%N :: wr_str (fst p) ++ wr_value (snd p)) l ++ [0%N]) ++ r) = Some (l, r)).
Proof.
  induction n as [|n (IV & IS & IM)].
  - refine (conj _ (conj _ _)).
    + intros v r H. destruct v; cbn [wr_value List.length] in H; lia.
    + intros l r H. rewrite len_app in H. cbn in H. lia.
    + intros l r H. rewrite len_app in H. cbn in H. lia.
  - refine (conj _ (conj _ _)).
    + intros v r H. destruct v as [|b|z|z|s|l|l]; cbn [wr_value] in H |- *; cbn [app rd_value]; decide_tags.
      * reflexivity.
      * destruct b; reflexivity.
      * now rewrite rd_wr_Z.
      * now rewrite rd_wr_Z.
      * now rewrite rd_wr_str.
      * cbn [List.length] in H. rewrite IS by lia. reflexivity.
      * cbn [List.length] in H. rewrite IM by lia. reflexivity.
    + intros [|v l] r H; [reflexivity|]. pose proof (one_more wr_value v l []) as Q. rewrite app_nil_r in Q. rewrite Q in H. cbn [List.length] in H.
      rewrite len_app, app_nil_r in H. rewrite (one_more wr_value). rewrite (seq_more _ _ _ eq_refl). rewrite IV by lia. rewrite IS by lia. reflexivity.
    + intros [|[k v] l] r H; [reflexivity|]. pose proof (one_more (fun p => wr_str (fst p) ++ wr_value (snd p)) (k, v) l []) as Q. rewrite app_nil_r in Q.
      rewrite Q in H. cbn [List.length fst snd] in H. rewrite !len_app in H. rewrite (one_more (fun p => wr_str (fst p) ++ wr_value (snd p))). cbn [fst snd].
      rewrite (map_more _ _ _ eq_refl). rewrite <- app_assoc, rd_wr_str, IV by lia. rewrite IM by (rewrite ?len_app; cbn [List.length] in *; lia). reflexivity.
Qed.
Lemma texts_are_read : texts_read wr_text rd_text.
Proof. intros f v. unfold rd_text, wr_text. rewrite <- (app_nil_r (wr_value v)) at 2. rewrite (proj1 (rd_wr _)) by lia. reflexivity. Qed.
