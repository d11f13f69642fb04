(** Proofs about byte offsets, justification and equality of lines. *)
From Verif Require Export ProofText2.
From Coq Require Import Lia.

Lemma char_position_start s b k : char_position s b = Some k <-> char_start s b k.
Proof.
  split.
  - intros H. apply char_position_some in H. unfold char_start. tauto.
  - intros [L <-]. rewrite <- (firstn_skipn k s) at 1. destruct (skipn k s) as [|c r] eqn:E.
    + exfalso. assert (X : List.length (skipn k s) = 0%nat) by now rewrite E. rewrite skipn_length in X. lia.
    + rewrite char_position_app. f_equal. apply firstn_length_le. lia.
Qed.
Lemma content_length l : List.length (content l) = l_len l.
Proof. unfold content, l_len. apply map_length. Qed.
Lemma slice_to_end l f : slice l f None = slice l f (Some (Z.of_nat (l_len l))).
Proof. unfold slice. now rewrite convert_index_nat by lia. Qed.
Theorem c18_bytes_exact l from to r : slice_bytes l from to = Ok r <->
  exists f t, char_start (content l) from f /\ byte_end (content l) to t /\ r = slice l (Z.of_nat f) (Some (Z.of_nat t)).
Proof.
  unfold slice_bytes. destruct (char_position (content l) from) as [f|] eqn:E.
  2:{ split; [discriminate|]. intros (f & _ & H & _). apply char_position_start in H. congruence. }
  apply char_position_start in E.
  assert (U : forall f', char_start (content l) from f' -> f' = f).
  { intros f' H. apply char_position_start in H. apply char_position_start in E. congruence. }
  destruct to as [t|].
  - cbn [byte_end]. destruct (N.leb_spec (utf8_len (content l)) t) as [L|L].
    + split.
      * intros [= <-]. exists f, (List.length (content l)). auto.
      * intros (f' & t' & H & [[_ ->]|[X _]] & ->); [|lia]. now rewrite (U f' H).
    + destruct (char_position (content l) t) as [t'|] eqn:Et.
      * split.
        -- intros [= <-]. exists f, t'. apply char_position_start in Et. auto.
        -- intros (f' & t'' & H & [[X _]|[_ X]] & ->); [lia|]. apply char_position_start in X. rewrite (U f' H). congruence.
      * split; [discriminate|]. intros (f' & t'' & H & [[X _]|[_ X]] & ->); [lia|]. apply char_position_start in X. congruence.
  - cbn [byte_end]. rewrite content_length, slice_to_end. split.
    + intros [= <-]. exists f, (l_len l). auto.
    + intros (f' & t' & H & -> & ->). now rewrite (U f' H).
Qed.
Theorem c18_bytes_not_err l from to : slice_bytes l from to <> Err.
Proof.
  unfold slice_bytes. destruct (char_position (content l) from); [|discriminate]. destruct to; [|discriminate].
  destruct (N.leb _ _); [discriminate|]. destruct (char_position _ _); discriminate.
Qed.
Theorem c19_slice_justified l from to f t : index_of (l_len l) from f -> end_index (l_len l) to t ->
  (l_just (slice l from to) = true <-> l_just l = true /\ (f < t)%nat /\ t = l_len l).
Proof.
  intros Hf Ht. unfold slice. rewrite (index_of_fun _ _ _ _ (convert_index_spec l from) Hf).
  replace (match to with Some t => convert_index l t | None => l_len l end) with t.
  2:{ destruct to as [i|]; cbn in Ht; [|exact Ht]. symmetry. exact (index_of_fun _ _ _ _ (convert_index_spec l i) Ht). }
  destruct (Nat.leb_spec t f) as [L|L].
  - cbn. split; [discriminate|lia].
  - cbn. rewrite andb_true_iff, Nat.eqb_eq. intuition.
Qed.
Lemma last_justified_rev ls : match filter (fun l => negb (l_empty l)) ls with l :: _ => l_just l | [] => false end = true <->
  exists b l a, ls = b ++ l :: a /\ l_parts l <> [] /\ Forall (fun m => l_parts m = []) b /\ l_just l = true.
Proof.
  induction ls as [|x ls IH]; cbn.
  - split; [discriminate|]. intros ([|y b] & l & a & H & _); discriminate.
  - unfold l_empty at 1. destruct (l_parts x) as [|q qs] eqn:E; cbn.
    + rewrite IH. split.
      * intros (b & l & a & -> & P & F & J). exists (x :: b), l, a. repeat split; auto.
      * intros ([|y b] & l & a & H & P & F & J); injection H as -> ->; [congruence|]. inversion F. exists b, l, a. auto.
    + split.
      * intros J. exists [], x, ls. repeat split; auto. rewrite E. discriminate.
      * intros ([|y b] & l & a & H & P & F & J); injection H as -> ->; [exact J|]. inversion F. congruence.
Qed.
Theorem c19_concat_justified ls : l_just (from_multiple ls) = true <-> exists l, last_nonempty ls l /\ l_just l = true.
Proof.
  cbn. unfold last_justified. rewrite last_justified_rev. unfold last_nonempty. split.
  - intros (b & l & a & H & P & F & J). exists l. split; [|exact J]. exists (rev a), (rev b).
    split; [|split; [exact P|now apply Forall_rev]].
    rewrite <- (rev_involutive ls), H, rev_app_distr. cbn. now rewrite <- app_assoc.
  - intros (l & (a & b & -> & P & F) & J). exists (rev b), l, (rev a). split; [|split; [exact P|split; [now apply Forall_rev|exact J]]].
    rewrite rev_app_distr. cbn. now rewrite <- app_assoc.
Qed.
Theorem c19_equal a b : line_eqb a b = true <-> indent a = indent b /\ content a = content b /\ l_bold a = l_bold b.
Proof.
  unfold line_eqb. rewrite !andb_true_iff, Z.eqb_eq, str_eqb_eq, Bool.eqb_true_iff. tauto.
Qed.
