(** Proofs for C68: the test helper reads lines back. *)
From Verif Require Export ProofMain.
From Coq Require Import Lia.

Lemma starts_with_split p s : starts_with p s = true -> exists t, s = p ++ t.
Proof. intros H. now apply starts_with_spec. Qed.
Lemma contains_part p s : str_contains p s = true -> part_of p s.
Proof.
  induction s as [|c s IH]; cbn; intros H.
  - rewrite orb_false_r in H. apply starts_with_split in H as [t H]. exists [], t. exact H.
  - apply orb_true_iff in H as [H|H]; [apply starts_with_split in H as [t H]; now exists [], t|]. destruct (IH H) as (a & b & ->). now exists (c :: a), b.
Qed.
Lemma not_contains p s : ~ part_of p s -> str_contains p s = false.
Proof. intros N. destruct (str_contains p s) eqn:E; [|reflexivity]. now apply contains_part in E. Qed.
Lemma replace_none p n s : str_contains p s = false -> replace_aux p n 0 s = s.
Proof.
  induction s as [|c s IH]; [reflexivity|]. cbn [str_contains replace_aux]. intros H. apply orb_false_iff in H as [H1 H2]. rewrite H1. now rewrite IH.
Qed.
Lemma contains_skip p c s : starts_with p (c :: s) = false -> str_contains p (c :: s) = str_contains p s.
Proof. intros H. cbn [str_contains]. now rewrite H. Qed.
Lemma spaces_skip p n s : (forall t, starts_with p (chr " " :: t) = false) -> str_contains p (repeat (chr " ") n ++ s) = str_contains p s.
Proof. intros H. induction n; [reflexivity|]. cbn [repeat app]. rewrite contains_skip by apply H. exact IHn. Qed.
Lemma replace_spaces p m n s : (forall t, starts_with p (chr " " :: t) = false) -> replace_aux p m 0 (repeat (chr " ") n ++ s) = repeat (chr " ") n ++ replace_aux p m 0 s.
Proof. intros H. induction n; [reflexivity|]. cbn [repeat app replace_aux]. rewrite H. now rewrite IHn. Qed.
Lemma bold_space t : starts_with (lit "<BOLD>") (chr " " :: t) = false. Proof. reflexivity. Qed.
Lemma nj_space t : starts_with (lit "<NJ>") (chr " " :: t) = false. Proof. reflexivity. Qed.
Lemma bold_nj t : starts_with (lit "<BOLD>") (lit "<NJ>" ++ t) = false. Proof. reflexivity. Qed.

(** What remains of the text after the marks are taken away: spaces and the content *)
Lemma unmarked l k : testable (content l) ->
  let s := marks true l ++ repeat (chr " ") k ++ content l in
  str_contains (lit "<BOLD>") s = l_bold l /\ str_contains (lit "<NJ>") s = negb (l_just l) /\
  str_replace (lit "<NJ>") (lit "    ") (str_replace (lit "<BOLD>") (lit "      ") s) = repeat (chr " ") (List.length (marks true l) + k) ++ content l.
Proof.
  intros (_ & _ & _ & NB & NN). apply not_contains in NB, NN. cbn zeta. set (r := repeat (chr " ") k ++ content l).
  assert (B : str_contains (lit "<BOLD>") r = false) by (unfold r; rewrite spaces_skip; [exact NB|exact bold_space]).
  assert (J : str_contains (lit "<NJ>") r = false) by (unfold r; rewrite spaces_skip; [exact NN|exact nj_space]).
  assert (RB : str_contains (lit "<BOLD>") (lit "<NJ>" ++ r) = false).
  { change (lit "<NJ>" ++ r) with (60 :: 78 :: 74 :: 62 :: r)%N. do 4 (rewrite contains_skip by reflexivity). exact B. }
  assert (HB : replace_aux (lit "<BOLD>") (lit "      ") 0 r = r) by now apply replace_none.
  assert (HJ : replace_aux (lit "<NJ>") (lit "    ") 0 r = r) by now apply replace_none.
  unfold marks. destruct (l_bold l), (l_just l); cbn [negb app]; rewrite ?app_nil_r; unfold str_replace.
  - split; [reflexivity|]. split.
    + change (lit "<BOLD>" ++ r) with (60 :: 66 :: 79 :: 76 :: 68 :: 62 :: r)%N. do 6 (rewrite contains_skip by reflexivity). exact J.
    + change (lit "<BOLD>" ++ r) with (60 :: 66 :: 79 :: 76 :: 68 :: 62 :: r)%N. cbn [replace_aux].
      change (starts_with (lit "<BOLD>") (60 :: 66 :: 79 :: 76 :: 68 :: 62 :: r)%N) with true. cbn [List.length]. change (List.length (lit "<BOLD>") - 1)%nat with 5%nat. cbn [replace_aux]. rewrite HB.
      change (lit "      " ++ r) with (repeat (chr " ") 6 ++ r). rewrite replace_spaces by exact nj_space. rewrite HJ. unfold r. rewrite app_assoc, <- repeat_app. reflexivity.
  - split; [reflexivity|]. split.
    + rewrite <- app_assoc. change (lit "<BOLD>" ++ lit "<NJ>" ++ r) with (60 :: 66 :: 79 :: 76 :: 68 :: 62 :: lit "<NJ>" ++ r)%N. do 6 (rewrite contains_skip by reflexivity). reflexivity.
    + rewrite <- app_assoc. change (lit "<BOLD>" ++ lit "<NJ>" ++ r) with (60 :: 66 :: 79 :: 76 :: 68 :: 62 :: lit "<NJ>" ++ r)%N. cbn [replace_aux].
      change (starts_with (lit "<BOLD>") (60 :: 66 :: 79 :: 76 :: 68 :: 62 :: lit "<NJ>" ++ r)%N) with true. change (List.length (lit "<BOLD>") - 1)%nat with 5%nat. cbn [replace_aux].
      rewrite (replace_none _ _ _ RB). change (lit "      " ++ lit "<NJ>" ++ r) with (repeat (chr " ") 6 ++ lit "<NJ>" ++ r). rewrite replace_spaces by exact nj_space.
      change (lit "<NJ>" ++ r) with (60 :: 78 :: 74 :: 62 :: r)%N. cbn [replace_aux]. change (starts_with (lit "<NJ>") (60 :: 78 :: 74 :: 62 :: r)%N) with true.
      change (List.length (lit "<NJ>") - 1)%nat with 3%nat. cbn [replace_aux]. rewrite HJ. change (lit "    ") with (repeat (chr " ") 4). unfold r. rewrite !app_assoc, <- !repeat_app. reflexivity.
  - split; [exact B|]. split; [exact J|]. rewrite HB, HJ. reflexivity.
  - split; [exact RB|]. split; [reflexivity|]. rewrite (replace_none _ _ _ RB).
    change (lit "<NJ>" ++ r) with (60 :: 78 :: 74 :: 62 :: r)%N. cbn [replace_aux]. change (starts_with (lit "<NJ>") (60 :: 78 :: 74 :: 62 :: r)%N) with true.
    change (List.length (lit "<NJ>") - 1)%nat with 3%nat. cbn [replace_aux]. rewrite HJ. change (lit "    ") with (repeat (chr " ") 4). unfold r. rewrite !app_assoc, <- !repeat_app. reflexivity.
Qed.
Lemma fts_spaces b n : forall k s, (0 < k)%Z -> fts_loop b k (repeat (chr " ") n ++ s) = fts_loop b (k + Z.of_nat n) s.
Proof.
  induction n as [|n IH]; intros k s H; [cbn; now rewrite Z.add_0_r|]. cbn [repeat app fts_loop]. change (chr " " =? 32)%N with true. cbn iota.
  destruct (k =? 0)%Z eqn:E; [lia|]. cbn [app]. rewrite IH by lia. f_equal. lia.
Qed.
Lemma fts_text b s : forall k, (k = 0 \/ k = 1)%Z -> (k = 1%Z -> forall t, s <> chr " " :: t) -> single_spaces s ->
  map p_ch (fts_loop b k s) = s /\ forallb (fun p => Bool.eqb (p_bold p) b) (fts_loop b k s) = true.
Proof.
  induction s as [|c s IH]; intros k K F S; [now split|]. cbn [fts_loop].
  assert (S' : single_spaces s) by (destruct s; cbn in S |- *; tauto).
  destruct (c =? 32)%N eqn:E.
  - apply N.eqb_eq in E. subst c. destruct K as [->| ->]; [|now specialize (F eq_refl s)]. cbn [Z.eqb app].
    destruct (IH 1%Z (or_intror eq_refl)) as [A B]; [|exact S'|].
    + intros _ t ->. cbn in S. tauto.
    + change (0 + 1)%Z with 1%Z. change (0 =? 0)%Z with true. cbn [app map forallb p_ch p_bold]. rewrite A, B, eqb_reflx. now split.
  - destruct (IH 0%Z (or_introl eq_refl)) as [A B]; [intros ?; lia|exact S'|]. cbn [map forallb p_ch p_bold]. rewrite A, B, eqb_reflx. now split.
Qed.
Lemma bold_all b ps : ps <> [] -> forallb (fun p => Bool.eqb (p_bold p) b) ps = true -> l_bold (from_parts ps false) = b /\ l_bold (from_parts ps true) = b.
Proof.
  intros N H. cbn [from_parts l_bold]. assert (G : count_bold ps = if b then List.length ps else O).
  { clear N. unfold count_bold. induction ps as [|p ps IH]; [now destruct b|]. cbn in H. apply andb_true_iff in H as [H1 H2]. apply eqb_prop in H1. specialize (IH H2).
    cbn [filter List.length]. rewrite H1. destruct b; cbn [List.length]; lia. }
  rewrite G. destruct ps as [|p ps]; [congruence|]. cbn [List.length]. destruct b; (split; [apply Nat.ltb_lt || apply Nat.ltb_ge; lia|apply Nat.ltb_lt || apply Nat.ltb_ge; lia]).
Qed.
Lemma c68_read_back l n : testable (content l) -> column l n ->
  let l' := from_test_str (quick_display l true) in
  content l' = content l /\ l_bold l' = l_bold l /\ l_just l' = l_just l /\
  indent l' = (5 * unit_pt * (Z.of_nat (Nat.max n (List.length (marks true l))) + 2))%Z.
Proof.
  intros T C. destruct (c68_line true l) as (m & D & E). rewrite (column_once _ _ _ D C) in E. clear m D. rewrite E. set (k := (n - List.length (marks true l))%nat).
  destruct (unmarked l k T) as (B & J & R). cbn zeta in B, J, R. cbn zeta. unfold from_test_str. rewrite B, J, R, negb_involutive.
  destruct T as (NE & F & S & _ & _). rewrite fts_spaces by lia. set (sp := (1 + Z.of_nat (List.length (marks true l) + k))%Z).
  destruct (content l) as [|c s] eqn:EC; [congruence|]. cbn [fts_loop]. assert (Ec : (c =? 32)%N = false).
  { destruct (N.eqb_spec c 32) as [->|]; [|reflexivity]. exfalso. now apply (F s). }
  rewrite Ec. destruct (fts_text (l_bold l) s 0 (or_introl eq_refl)) as [X Y]; [intros ?; lia|destruct s; cbn in S |- *; tauto|].
  split; [unfold content, from_parts; cbn [l_parts map p_ch]; now rewrite X|]. split.
  - assert (Z : forall j, l_bold (from_parts (mkPart ((5 + sp * 5) * unit_pt) c (l_bold l) :: fts_loop (l_bold l) 0 s) j) = l_bold l).
    { intros j. destruct (bold_all (l_bold l) (mkPart ((5 + sp * 5) * unit_pt) c (l_bold l) :: fts_loop (l_bold l) 0 s)) as [P Q]; [discriminate|cbn [forallb p_bold]; rewrite eqb_reflx; exact Y|]. destruct j; [exact Q|exact P]. }
    apply Z.
  - split; [reflexivity|]. unfold indent, from_parts. cbn [l_parts p_dx]. change unit_pt with 1000%Z. unfold sp, k. lia.
Qed.
