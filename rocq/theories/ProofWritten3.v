(** Written lists of elements are read back (C62): the kinds of elements. *)
From Verif Require Import ProofBase ProofIdent ProofIdent2 ProofIdent4 ProofText ProofText2 ProofStruct2 ProofStruct4.
From Verif Require Export ProofWritten2.
From Coq Require Import Lia.

Lemma only_space {I} (form : str -> I -> Prop) l : label_only form l -> ~ not_ending_in_space l.
Proof.
  intros (s & n & i & _ & E) H. apply (H (s ++ repeat (chr " ") n)). rewrite E.
  change (repeat (chr " ") (S n)) with (chr " " :: repeat (chr " ") n). rewrite repeat_cons, app_assoc. reflexivity.
Qed.
Lemma heads_nes {I} (label : str -> I -> Prop) l i r : heads label l i r -> not_ending_in_space l -> not_ending_in_space r.
Proof.
  intros H N t E. apply heads_content in H. destruct H as (s & n & _ & Ec & _). apply (N (s ++ repeat (chr " ") (S n) ++ t)).
  rewrite Ec, E, <- !app_assoc. reflexivity.
Qed.
Lemma heads_level {I} (label : str -> I -> Prop) l i r : (forall s i, label s i -> ascii_str s) -> heads label l i r ->
  depth (content l) = depth (content r).
Proof.
  intros A Hh. apply heads_content in Hh. destruct Hh as (s & n & L & -> & _).
  rewrite !depth_app, depth_repeat_space, (ascii_depth s (A s i L)). lia.
Qed.
Definition good_header {I} `{IdentCommon I} (hd : line -> I -> line -> Prop) (succ : I -> I -> Prop) : Prop :=
  (forall l i r, hd l i r -> depth (content l) = depth (content r) /\ (not_ending_in_space l -> not_ending_in_space r)) /\
  (forall l i r l' i' r', hd l i r -> hd l' i' r' -> (id_next i i' = true <-> succ i i')).
Lemma good_num : good_header num_hd num_succ.
Proof.
  assert (X : forall l i r, num_hd l i r -> heads num_label l i r /\ numeric_ok i = true).
  { intros l i r H. apply c61_number in H. now apply numeric_header_ok. }
  split.
  - intros l i r H. apply X in H. destruct H as [H _]. split; [|exact (heads_nes _ _ _ _ H)].
    exact (heads_level _ _ _ _ num_label_ascii H).
  - intros l i r l' i' r' H H'. apply X in H, H'. now apply c06_exact.
Qed.
Lemma good_sub p : good_header (sub_header_of p) sub_succ.
Proof.
  assert (X : forall l i r, sub_header_of p l i r -> heads alpha_sub_label l i r /\ prefixed_ok i = true).
  { intros l i r H. apply c61_sub in H. now apply alpha_sub_header_ok in H. }
  split.
  - intros l i r H. apply X in H. destruct H as [H _]. split; [|exact (heads_nes _ _ _ _ H)].
    exact (heads_level _ _ _ _ alpha_sub_label_ascii H).
  - intros l i r l' i' r' H H'. apply X in H, H'. now apply c06_exact.
Qed.
Lemma good_alpha : good_header alpha_hd follows.
Proof.
  assert (X : forall l i r, alpha_hd l i r -> heads alpha_label l i r /\ hic_ok i = true).
  { intros l i r H. apply c61_letter in H. now apply alpha_header_ok in H. }
  split.
  - intros l i r H. apply X in H. destruct H as [H _]. split; [|exact (heads_nes _ _ _ _ H)].
    exact (heads_level _ _ _ _ alpha_label_ascii H).
  - intros l i r l' i' r' H H'. apply X in H, H'. now apply c06_exact.
Qed.
Lemma good_par : good_header par_hd par_succ.
Proof.
  assert (X : forall l i r, par_hd l i r -> heads par_label l i r /\ paragraph_ok i = true).
  { intros l i r H. apply c61_paragraph in H. now apply paragraph_header_ok in H. }
  split.
  - intros l i r H. apply X in H. destruct H as [H _]. split; [|exact (heads_nes _ _ _ _ H)].
    exact (heads_level _ _ _ _ par_label_ascii H).
  - intros l i r l' i' r' H H'. apply X in H, H'. now apply c06_exact.
Qed.
(** A line that is no header with a first identifier *)
Lemma extract_multiple_err {I C} `{IdentCommon I} header (children : pctx -> I -> option line -> list line -> outcome (em_result C))
    hd alone ctx w c l ls : exact_header header hd alone -> (forall l, alone l -> ~ not_ending_in_space l) -> not_ending_in_space l ->
  (forall i r, hd l i r -> id_first i = false) -> extract_multiple header children ctx w c None (l :: ls) = Err.
Proof.
  intros Hh Ha N F. unfold extract_multiple. destruct (Hh l) as (A & B & D).
  destruct (header l) as [[[i r]|]| |] eqn:E; cbn [obind]; [| |congruence|].
  - rewrite (F i r); [reflexivity|now apply A].
  - reflexivity.
  - exfalso. apply (Ha l); [now apply B|exact N].
Qed.
Lemma not_first {I} `{IdentCommon I} (first : I -> Prop) (hd : line -> I -> line -> Prop) l :
  (forall i, id_first i = true -> first i) -> ~ (exists j r, hd l j r /\ first j) -> forall i r, hd l i r -> id_first i = false.
Proof. intros F N i r Hi. destruct (id_first i) eqn:E; [|reflexivity]. exfalso. apply N. exists i, r. auto. Qed.
Lemma num_first_iff i : numeric_first i = true <-> num_one i.
Proof. apply numeric_first_eq. Qed.
Lemma sub_first_iff i : prefixed_first i = true <-> sub_a i.
Proof. unfold prefixed_first, sub_a. apply hic_first_eq. Qed.
Lemma alpha_first_iff i : hic_first i = true <-> alpha_a i.
Proof. apply hic_first_eq. Qed.
Lemma par_first_iff i : paragraph_first i = true <-> par_one i.
Proof.
  unfold paragraph_first, par_one. destruct i as [n|]; [|split; discriminate]. rewrite numeric_first_eq. split; congruence.
Qed.

(** *** leaves *)
Section Leaf.
  Context {I : Type} `{IdentCommon I}.
  Lemma leaf_children : forall ctx (i : I) (prev : option line) c wl g ls, Forall not_ending_in_space ls -> w_no_children i prev c wl g ls ->
    ls <> [] /\ @no_children I Empty_set ctx i prev ls = Ok (mkEm c (wrap_text wl) g).
  Proof. intros ctx i prev []. Qed.
  Lemma leaf_none : forall ctx (i : I) (prev : option line) l ls, not_ending_in_space l -> ~ opens_none i prev l ->
    @no_children I Empty_set ctx i prev (l :: ls) = Err.
  Proof. reflexivity. Qed.
End Leaf.
Lemma w_nonempty {I C} ctx hd succ opens wch wrapped first (es : list (sae I C)) wl g ls :
  w_many ctx hd succ opens wch wrapped first es wl g ls -> ls <> [].
Proof. intros [(e & es' & hl & tl & _ & -> & _) _]. discriminate. Qed.
Theorem read_num_subpoints ctx es wl g ls : Forall not_ending_in_space ls -> w_num_subpoints ctx es wl g ls ->
  extract_num_subpoints ctx true true None ls = Ok (mkEm es (wrap_text wl) g).
Proof.
  intros N [W M]. unfold extract_num_subpoints.
  refine (read_siblings _ _ _ _ _ _ _ _ c61_number (only_space num_form) (proj1 good_num) (proj2 good_num)
    (leaf_children ctx) (leaf_none ctx) true num_one None true es wl g ls _ (fun _ => M) N W).
  intros l i r _ F. now apply num_first_iff.
Qed.
Theorem read_alpha_subpoints ctx p es wl g ls : Forall not_ending_in_space ls -> w_alpha_subpoints ctx p es wl g ls ->
  extract_alpha_subpoints p ctx true true None ls = Ok (mkEm es (wrap_text wl) g).
Proof.
  intros N [W M]. unfold extract_alpha_subpoints.
  refine (read_siblings _ _ _ _ _ _ _ _ (c61_sub p) (only_space sub_form) (proj1 (good_sub p)) (proj2 (good_sub p))
    (leaf_children ctx) (leaf_none ctx) true sub_a None true es wl g ls _ (fun _ => M) N W).
  intros l i r _ F. now apply sub_first_iff.
Qed.
(** *** points *)
Lemma num_children_read ctx : forall i (prev : option line) c wl g ls, Forall not_ending_in_space ls -> w_num_children ctx i prev c wl g ls ->
  ls <> [] /\ num_point_children ctx i prev ls = Ok (mkEm c (wrap_text wl) g).
Proof.
  intros i prev [es] wl g ls N W. split; [exact (w_nonempty _ _ _ _ _ _ _ _ _ _ _ W)|]. unfold num_point_children.
  rewrite (read_alpha_subpoints ctx None es wl g ls N W). reflexivity.
Qed.
Lemma num_children_none ctx : forall i (prev : option line) l ls, not_ending_in_space l -> ~ opens_num i prev l ->
  num_point_children ctx i prev (l :: ls) = Err.
Proof.
  intros i prev l ls N O. unfold num_point_children, extract_alpha_subpoints.
  rewrite (extract_multiple_err _ _ _ _ ctx true true l ls (c61_sub None) (only_space sub_form) N); [reflexivity|].
  apply (not_first sub_a); [apply sub_first_iff|exact O].
Qed.
Lemma sub_first_char p l i r : sub_header_of p l i r -> exists c t, content l = c :: t /\ small c.
Proof.
  intros [(s & n & rest & F & E & _) _]. destruct F as [(c & Sc & -> & _)|(b & c & Sb & _ & -> & _)]; rewrite E; eexists _, _; (split; [reflexivity|assumption]).
Qed.
Lemma alpha_first_char l i r : alpha_hd l i r -> exists c t, content l = c :: t /\ small c.
Proof.
  intros (s & n & rest & (d & [S F] & ->) & E & _).
  assert (X : exists c t, d = c :: t) by (destruct S as [c Hc|c Hc|a b d' u Hin Hu]; eauto;
    cbn [In] in Hu; repeat destruct Hu as [Hu|Hu]; try contradiction; subst; eauto).
  destruct X as (c & t & ->). inversion F as [|x y Hx _]; subst. rewrite E. eexists _, _. split; [reflexivity|exact Hx].
Qed.
Lemma num_first_char l i r : num_hd l i r -> exists c t, content l = c :: t /\ (48 <= c <= 57)%N.
Proof.
  intros (s & n & rest & (ds & os & -> & D & _) & E & _). destruct ds as [|c ds]; [destruct D; congruence|].
  destruct D as [_ D]. inversion D as [|x y Hx _]; subst. rewrite E. eexists _, _. split; [reflexivity|exact Hx].
Qed.
Lemma small_not_num l c t : content l = c :: t -> small c -> forall i r, ~ num_hd l i r.
Proof.
  intros E S i r H. apply num_first_char in H. destruct H as (c' & t' & E' & D). rewrite E in E'. injection E' as <- <-.
  unfold small in S. lia.
Qed.
Lemma first_line {I C} ctx hd succ opens wch wrapped first (es : list (sae I C)) wl g ls :
  w_many ctx hd succ opens wch wrapped first es wl g ls -> exists hl tl i r, ls = hl :: tl /\ hd hl i r /\ first i.
Proof.
  intros [(e & es' & hl & tl & -> & -> & F & W) _]. exists hl, tl, (s_id e).
  inversion W; subst; eexists; (split; [reflexivity|split; [eassumption|exact F]]).
Qed.
Lemma alpha_children_read ctx : forall i (prev : option line) c wl g ls, Forall not_ending_in_space ls -> w_alpha_children ctx i prev c wl g ls ->
  ls <> [] /\ alpha_point_children ctx i prev ls = Ok (mkEm c (wrap_text wl) g).
Proof.
  intros i prev c wl g ls N W. unfold alpha_point_children. destruct c as [es|es].
  - split; [exact (w_nonempty _ _ _ _ _ _ _ _ _ _ _ W)|].
    destruct (first_line _ _ _ _ _ _ _ _ _ _ _ W) as (hl & tl & j & r & El & Hj & _).
    rewrite (read_alpha_subpoints ctx (Some i) es wl g ls N W). unfold extract_num_subpoints. rewrite El in N |- *.
    apply Forall_cons_iff in N. destruct N as [N _].
    rewrite (extract_multiple_err _ _ _ _ ctx true true hl tl c61_number (only_space num_form) N); [reflexivity|].
    destruct (sub_first_char _ _ _ _ Hj) as (c & t & Ec & Sc). intros k r' Hk. elim (small_not_num hl c t Ec Sc k r' Hk).
  - split; [exact (w_nonempty _ _ _ _ _ _ _ _ _ _ _ W)|].
    rewrite (read_num_subpoints ctx es wl g ls N W). reflexivity.
Qed.
Lemma alpha_children_none ctx : forall i (prev : option line) l ls, not_ending_in_space l -> ~ opens_alpha i prev l ->
  alpha_point_children ctx i prev (l :: ls) = Err.
Proof.
  intros i prev l ls N O. unfold alpha_point_children, extract_alpha_subpoints, extract_num_subpoints.
  rewrite (extract_multiple_err _ _ _ _ ctx true true l ls c61_number (only_space num_form) N).
  2:{ apply (not_first num_one); [apply num_first_iff|]. intros X. apply O. now left. }
  rewrite (extract_multiple_err _ _ _ _ ctx true true l ls (c61_sub (Some i)) (only_space sub_form) N); [reflexivity|].
  apply (not_first sub_a); [apply sub_first_iff|]. intros X. apply O. now right.
Qed.
Theorem read_num_points ctx es wl g ls : Forall not_ending_in_space ls -> w_num_points ctx es wl g ls ->
  extract_num_points ctx true true None ls = Ok (mkEm es (wrap_text wl) g).
Proof.
  intros N [W M]. unfold extract_num_points.
  refine (read_siblings _ _ _ _ _ _ _ _ c61_number (only_space num_form) (proj1 good_num) (proj2 good_num)
    (num_children_read ctx) (num_children_none ctx) true num_one None true es wl g ls _ (fun _ => M) N W).
  intros l i r _ F. now apply num_first_iff.
Qed.
Theorem read_alpha_points ctx es wl g ls : Forall not_ending_in_space ls -> w_alpha_points ctx es wl g ls ->
  extract_alpha_points ctx true true None ls = Ok (mkEm es (wrap_text wl) g).
Proof.
  intros N [W M]. unfold extract_alpha_points.
  refine (read_siblings _ _ _ _ _ _ _ _ c61_letter (only_space alpha_form) (proj1 good_alpha) (proj2 good_alpha)
    (alpha_children_read ctx) (alpha_children_none ctx) true alpha_a None true es wl g ls _ (fun _ => M) N W).
  intros l i r _ F. now apply alpha_first_iff.
Qed.
