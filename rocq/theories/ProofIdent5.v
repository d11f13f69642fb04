(** Proofs about printed forms of identifiers and about ranges. *)
From Verif Require Export ProofIdent4.
From Coq Require Import Lia.

Lemma show_N_plain n : plain_digits (show_N n) n.
Proof.
  split.
  - induction n as [n IH] using (well_founded_induction N.lt_wf_0). destruct (N.lt_ge_cases n 10) as [L|L].
    + rewrite show_N_small by exact L. constructor. lia.
    + rewrite show_N_step by exact L. rewrite (N.div_mod n 10) at 3 by lia. apply dd_snoc.
      * apply IH. apply N.div_lt; lia.
      * pose proof (N.mod_lt n 10). lia.
  - induction n as [n IH] using (well_founded_induction N.lt_wf_0). intros s' E. destruct (N.lt_ge_cases n 10) as [L|L].
    + rewrite show_N_small in E by exact L. now injection E as _ <-.
    + rewrite show_N_step in E by exact L. destruct (show_N (n / 10)) as [|c s] eqn:E2; [now apply show_N_nonempty in E2|].
      cbn in E. injection E as -> <-. assert (X : s = []) by (apply (IH (n / 10)%N); [apply N.div_lt; lia|exact E2]). subst s.
      exfalso. assert (D : digits_value (show_N (n / 10)) = 0%N) by (rewrite E2; reflexivity). rewrite digits_value_show in D.
      assert (1 <= n / 10)%N by (apply N.div_le_lower_bound; lia). lia.
Qed.
Lemma show_small x : hic_ok x = true -> small_letters (hic_show x) x.
Proof.
  intros H. split; [apply hic_parse_spelling, (proj1 (c01_roundtrip x H))|].
  destruct x as [b| | | | | | | |]; cbn in H |- *; [|vm_compute; repeat constructor; discriminate..]. constructor; [lia|constructor].
Qed.
Lemma show_capital x : hic_ok x = true -> capital_letters (hic_show_upper x) x.
Proof.
  intros H. split; [apply hic_parse_spelling, (proj2 (c01_roundtrip x H))|].
  destruct x as [b| | | | | | | |]; cbn in H |- *; [|vm_compute; repeat constructor; discriminate..].
  constructor; [|constructor]. unfold ascii_upper. replace ((97 <=? b) && (b <=? 122))%N with true by lia. lia.
Qed.
Lemma show_numeric x : numeric_ok x = true -> printed_numeric (numeric_show x) x /\ printed_slash (numeric_show_slash x) x.
Proof.
  unfold numeric_ok, numeric_show, numeric_show_slash, printed_numeric, printed_slash. destruct x as [n [c|]]; cbn [n_num n_suffix]; intros H.
  - apply andb_prop in H as [_ H]. split.
    + exists (show_N n), (hic_show c). split; [reflexivity|]. split; [apply show_N_plain|now apply show_small].
    + exists (show_N n), (chr "/" :: hic_show_upper c). split; [reflexivity|]. split; [apply show_N_plain|].
      exists (hic_show_upper c). split; [reflexivity|now apply show_capital].
  - split; exists (show_N n), []; (split; [now rewrite app_nil_r|]; split; [apply show_N_plain|reflexivity]).
Qed.
Theorem c03_printed :
  (forall x, hic_ok x = true -> small_letters (hic_show x) x) /\
  (forall x, numeric_ok x = true -> printed_numeric (numeric_show x) x) /\
  (forall x, article_ok x = true -> printed_article (article_show x) x) /\
  (forall x, prefixed_ok x = true -> exists ps cs, prefixed_show x = ps ++ cs /\ small_letters cs (p_chr x) /\
     match p_prefix x with Some p => small_letters ps p | None => ps = [] end).
Proof.
  split; [exact show_small|]. split; [intros x H; now apply show_numeric|]. split.
  - intros [[b|] i] H; unfold article_ok, printed_article, article_show in *; cbn [a_book a_ident] in *; apply andb_prop in H as [_ H].
    + exists (show_N b), (numeric_show_slash i). split; [now rewrite <- app_assoc|]. split; [apply show_N_plain|now apply show_numeric].
    + now apply show_numeric.
  - intros [[p|] c] H; unfold prefixed_ok, prefixed_show in *; cbn [p_prefix p_chr] in *; apply andb_prop in H as [H1 H2].
    + exists (hic_show p), (hic_show c). repeat split; try (now apply show_small).
    + exists [], (hic_show c). repeat split; now apply show_small.
Qed.

(** ** Ranges *)
Theorem c05_ranges T (C : IdentCommon T) : strict_total id_eqb id_cmp ->
  strict_total (@range_eqb T _) range_cmp /\
  (forall x y : range T, range_cmp x y = Lt <-> id_cmp (r_start x) (r_start y) = Lt \/
     (r_start x = r_start y /\ id_cmp (r_end x) (r_end y) = Lt)) /\
  (forall (r : range T) i, range_contains r i = true <->
     (r_start r = i \/ id_cmp (r_start r) i = Lt) /\ (i = r_end r \/ id_cmp i (r_end r) = Lt)).
Proof.
  intros (E & B & O & Tr). assert (TO : TotalOrd (@id_cmp T _)) by now split. split; [|split].
  - apply strict_total_of.
    + intros [a b] [c d]. unfold range_eqb. rewrite andb_true_iff, !B. cbn. split; [intros [-> ->]|intros [= -> ->]]; auto.
    + apply lex_total; [|exact TO|exact TO]. intros [a b] [c d]; cbn. congruence.
  - intros x y. unfold range_cmp, lex. destruct (id_cmp (r_start x) (r_start y)) eqn:D.
    + apply E in D. rewrite D. split; [auto|]. intros [X|[_ X]]; congruence.
    + split; auto.
    + split; [discriminate|]. intros [X|[X _]]; [congruence|]. apply E in X. congruence.
  - intros r i. unfold range_contains, cmp_le, cmp_ge. rewrite andb_true_iff. rewrite (O i (r_end r)).
    pose proof (E (r_start r) i) as E1. pose proof (E i (r_end r)) as E2.
    destruct (id_cmp (r_start r) i); destruct (id_cmp i (r_end r)); cbn in *; intuition congruence.
Qed.
