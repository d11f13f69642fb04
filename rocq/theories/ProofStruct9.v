(** Headers of structural elements (C47). *)
From Verif Require Import ProofBase ProofIdent ProofIdent2 ProofIdent3 ProofIdent4 ProofText ProofText2 ProofMk.
From Verif Require Export ProofStruct8.

Lemma hic_show_spelling x : hic_ok x = true -> spelling (hic_show x) x.
Proof. intros H. apply hic_parse_spelling. now apply hic_parse_show. Qed.
Lemma roman_round_trip rf i s : roman_from_reads rf -> numeric_ok i = true -> numeric_to_roman i = Ok s -> numeric_from_roman rf s = Ok i.
Proof.
  intros Hr Hok. unfold numeric_to_roman. rewrite roman_to_spec.
  destruct ((1 <=? Z.of_N (n_num i)) && (Z.of_N (n_num i) <=? 3999))%Z eqn:E; [|discriminate]. cbn [ok_or obind]. rewrite N2Z.id.
  apply andb_prop in E as [E1 E2]. assert (B : (1 <= n_num i <= 3999)%N) by lia. intros H. apply Ok_inj in H. subst s.
  destruct (roman_standard_digits _ B) as [D _]. unfold numeric_from_roman. destruct i as [n [c|]]; cbn [n_num n_suffix] in *.
  - unfold numeric_ok in Hok. cbn [n_num n_suffix] in Hok. apply andb_prop in Hok as [_ Hok].
    norm_lit. cbn [app]. rewrite (split_suffix_slash _ _ _ c D (hic_show_spelling c Hok) eq_refl). cbn [obind]. rewrite (Hr _ B). cbn [ok_or obind].
    f_equal. f_equal. lia.
  - rewrite (split_suffix_plain _ _ D). cbn [obind]. rewrite (Hr _ B). cbn [ok_or obind]. f_equal. f_equal. lia.
Qed.
Lemma no_newline_app a b : no_newline (a ++ b) = no_newline a && no_newline b.
Proof. unfold no_newline. rewrite existsb_app. now destruct (existsb _ a), (existsb _ b). Qed.
Lemma roman_digits_no_newline s : forallb is_roman_digit s = true -> no_newline s = true.
Proof.
  unfold no_newline. intros H. destruct (existsb (N.eqb 10) s) eqn:E; [|reflexivity]. apply existsb_exists in E. destruct E as (c & Hc & E).
  apply N.eqb_eq in E. subst c. rewrite forallb_forall in H. apply H in Hc. discriminate.
Qed.
Lemma spelling_no_newline s x : spelling s x -> no_newline s = true.
Proof.
  intros [c H|c H|a b d s' H1 H2].
  - unfold no_newline. cbn [existsb]. destruct (N.eqb_spec 10 c); [lia|reflexivity].
  - unfold no_newline. cbn [existsb]. destruct (N.eqb_spec 10 (c - 32)); [lia|reflexivity].
  - cbn [In] in H1. repeat destruct H1 as [H1|H1]; try contradiction; injection H1 as <- <- <-;
      cbn [In] in H2; repeat destruct H2 as [H2|H2]; try contradiction; subst; reflexivity.
Qed.
Lemma roman_no_newline i s : numeric_ok i = true -> numeric_to_roman i = Ok s -> no_newline s = true.
Proof.
  intros Hok. unfold numeric_to_roman. rewrite roman_to_spec.
  destruct ((1 <=? Z.of_N (n_num i)) && (Z.of_N (n_num i) <=? 3999))%Z eqn:E; [|discriminate]. cbn [ok_or obind]. rewrite N2Z.id.
  apply andb_prop in E as [E1 E2]. assert (B : (1 <= n_num i <= 3999)%N) by lia. intros H. apply Ok_inj in H. subst s.
  destruct (roman_standard_digits _ B) as [D _]. apply roman_digits_no_newline in D. destruct i as [n [c|]]; cbn [n_num n_suffix] in *; [|exact D].
  unfold numeric_ok in Hok. cbn [n_num n_suffix] in Hok. apply andb_prop in Hok as [_ Hok].
  rewrite !no_newline_app, D, (spelling_no_newline _ _ (hic_show_spelling c Hok)). reflexivity.
Qed.
Lemma hun_no_newline : forallb (fun w => no_newline (to_uppercase w)) hun_strs = true.
Proof. vm_compute. reflexivity. Qed.
Lemma hungarian_no_newline n w : num_to_hungarian n = Ok w -> no_newline (to_uppercase w) = true.
Proof.
  intros H. pose proof hun_no_newline as F. rewrite forallb_forall in F. apply F. unfold num_to_hungarian in H.
  destruct (nth_error hun_strs (N.to_nat n)) eqn:E; [|discriminate]. apply Ok_inj in H. subst. now apply nth_error_In in E.
Qed.

(** Two suffixes that end in different characters *)
Lemma strip_other p c q d s : c <> d -> strip_suffix (p ++ [c]) (s ++ q ++ [d]) = None.
Proof.
  intros H. destruct (strip_suffix _ _) as [r|] eqn:E; [|reflexivity]. apply strip_suffix_some in E. rewrite !app_assoc in E.
  apply app_inj_tail in E as [_ E]. congruence.
Qed.
Lemma strip_same p s : strip_suffix p (s ++ p) = Some s.
Proof. now apply strip_suffix_some. Qed.
Definition se_last (ty : se_type) : str * char :=
  match ty with
  | TBook => (lit " KÖNY", chr "V") | TPart _ => (lit " RÉS", chr "Z") | TTitle => (lit ". CÍ", chr "M") | TChapter => (lit ". FEJEZE", chr "T")
  end.
Definition same_se (a b : se_type) : bool :=
  match a, b with TBook, TBook | TPart _, TPart _ | TTitle, TTitle | TChapter, TChapter => true | _, _ => false end.
Lemma match_se_same ty g : no_newline g = true -> match_se ty (g ++ fst (se_last ty) ++ [snd (se_last ty)]) = Some g.
Proof.
  intros N. unfold match_se.
  assert (F : forall q, firstn (List.length g) (g ++ q) = g) by (intros q; now rewrite firstn_app, Nat.sub_diag, firstn_all, firstn_O, app_nil_r).
  destruct ty; cbn zeta; cbn [se_last fst snd].
  - change (lit " KÖNYV") with (lit " KÖNY" ++ [chr "V"]). rewrite strip_same, F, N. reflexivity.
  - change (lit " RÉSZ") with (lit " RÉS" ++ [chr "Z"]). rewrite strip_same, F, N. reflexivity.
  - change (lit ". CÍM") with (lit ". CÍ" ++ [chr "M"]). rewrite strip_same, F, N. reflexivity.
  - rewrite map_app. change (map ascii_lower (lit ". FEJEZE" ++ [chr "T"])) with (lit ". fejezet"). rewrite strip_same, map_length, F, N. reflexivity.
Qed.
Lemma match_se_other ty ty' g : same_se ty' ty = false -> match_se ty' (g ++ fst (se_last ty) ++ [snd (se_last ty)]) = None.
Proof.
  intros N. unfold match_se. 
  destruct ty'; cbn zeta.
  - change (lit " KÖNYV") with (lit " KÖNY" ++ [chr "V"]). destruct ty; try discriminate; cbn [se_last fst snd]; rewrite strip_other by discriminate; reflexivity.
  - change (lit " RÉSZ") with (lit " RÉS" ++ [chr "Z"]). destruct ty; try discriminate; cbn [se_last fst snd]; rewrite strip_other by discriminate; reflexivity.
  - change (lit ". CÍM") with (lit ". CÍ" ++ [chr "M"]). destruct ty; try discriminate; cbn [se_last fst snd]; rewrite strip_other by discriminate; reflexivity.
  - change (lit ". fejezet") with (lit ". fejeze" ++ [chr "t"]).
    destruct ty; try discriminate; cbn [se_last fst snd]; rewrite !map_app; cbn [map]; rewrite strip_other by discriminate; reflexivity.
Qed.
Lemma try_se_other rf ty ty' g l : content l = g ++ fst (se_last ty) ++ [snd (se_last ty)] -> same_se ty' ty = false -> try_se rf ty' l = Ok None.
Proof. intros E N. unfold try_se. rewrite E, (match_se_other ty ty' g N). reflexivity. Qed.
Lemma try_se_same rf ty g l i : content l = g ++ fst (se_last ty) ++ [snd (se_last ty)] -> no_newline g = true ->
  se_parse_identifier rf ty g = Ok i -> try_se rf ty l = Ok (Some (mkSP i [] ty)).
Proof. intros E N P. unfold try_se. rewrite E, (match_se_same ty g N), P. reflexivity. Qed.
Definition err {A} (o : outcome A) : bool := match o with Err => true | _ => false end.
Lemma special_not_ordinal : forallb (fun s => err (num_from_hungarian (lit s))) ["ÁLTALÁNOS"; "KÜLÖNÖS"; "ZÁRÓ"]%string = true.
Proof. vm_compute. reflexivity. Qed.
Lemma c47_round_trip rf ty i h l : roman_from_reads rf -> numeric_ok i = true ->
  (ty = TBook \/ ty = TPart false -> n_suffix i = None) ->
  se_header ty i = Ok h -> content l = h -> first_se rf se_types l = Ok (Some (mkSP i [] ty)).
Proof.
  intros Hr Hok Hs Hh Hc.
  assert (Hun : n_suffix i = None -> forall s, numeric_to_hungarian i = Ok s -> no_newline (to_uppercase s) = true /\
    (let* n := num_from_hungarian (to_uppercase s) in Ok (mkNum n None)) = Ok i).
  { intros Es s H. unfold numeric_to_hungarian in H. rewrite Es in H. apply obind_ok in H. destruct H as (w & Hw & H). apply Ok_inj in H. subst w.
    split; [now apply hungarian_no_newline in Hw|]. apply c41_roundtrip in Hw. destruct Hw as (_ & -> & _). cbn. destruct i as [n x]. cbn in *. now subst x. }
  destruct ty as [|[]| |]; cbn [se_header] in Hh.
  - apply obind_ok in Hh. destruct Hh as (s & E & Hh). apply Ok_inj in Hh. subst h. destruct (Hun (Hs (or_introl eq_refl)) s E) as [N P].
    unfold se_types. cbn [first_se]. rewrite (try_se_same rf TBook (to_uppercase s) l i); [reflexivity|now rewrite Hc|exact N|exact P].
  - assert (K : exists w, content l = lit w ++ lit " RÉS" ++ [chr "Z"] /\ num_from_hungarian (lit w) = Err /\ parse_special_part (lit w) = Ok i /\ no_newline (lit w) = true).
    { pose proof special_not_ordinal as F. cbn [forallb] in F. apply andb_prop in F as [F1 F]. apply andb_prop in F as [F2 F]. apply andb_prop in F as [F3 _].
      assert (X : forall o : outcome N, err o = true -> o = Err) by (intros []; now cbn). apply X in F1, F2, F3.
      destruct (numeric_eqb i (mkNum 1 None)) eqn:E1; [apply numeric_eqb_eq in E1; apply Ok_inj in Hh; subst; exists "ÁLTALÁNOS"%string; auto|].
      destruct (numeric_eqb i (mkNum 2 None)) eqn:E2; [apply numeric_eqb_eq in E2; apply Ok_inj in Hh; subst; exists "KÜLÖNÖS"%string; auto|].
      destruct (numeric_eqb i (mkNum 3 None)) eqn:E3; [apply numeric_eqb_eq in E3; apply Ok_inj in Hh; subst; exists "ZÁRÓ"%string; auto|discriminate]. }
    destruct K as (w & E & Eh & Ep & N). unfold se_types. cbn [first_se].
    rewrite (try_se_other rf (TPart true) TBook (lit w) l E eq_refl). cbn [obind].
    assert (T : try_se rf (TPart false) l = Ok None).
    { unfold try_se. pose proof (match_se_same (TPart false) (lit w) N) as M. cbn [se_last fst snd] in M. rewrite E, M. cbn [se_parse_identifier].
      rewrite Eh. reflexivity. }
    rewrite T. cbn [obind]. rewrite (try_se_same rf (TPart true) (lit w) l i E N Ep). reflexivity.
  - apply obind_ok in Hh. destruct Hh as (s & E & Hh). apply Ok_inj in Hh. subst h. destruct (Hun (Hs (or_intror eq_refl)) s E) as [N P].
    unfold se_types. cbn [first_se]. rewrite (try_se_other rf (TPart false) TBook (to_uppercase s) l); [|now rewrite Hc|reflexivity]. cbn [obind].
    rewrite (try_se_same rf (TPart false) (to_uppercase s) l i); [reflexivity|now rewrite Hc|exact N|exact P].
  - apply obind_ok in Hh. destruct Hh as (s & E & Hh). apply Ok_inj in Hh. subst h.
    assert (C : content l = s ++ fst (se_last TTitle) ++ [snd (se_last TTitle)]) by now rewrite Hc.
    unfold se_types. cbn [first_se]. rewrite !(try_se_other rf TTitle _ s l C) by reflexivity. cbn [obind].
    rewrite (try_se_same rf TTitle s l i C (roman_no_newline _ _ Hok E)); [reflexivity|]. exact (roman_round_trip rf i s Hr Hok E).
  - apply obind_ok in Hh. destruct Hh as (s & E & Hh). apply Ok_inj in Hh. subst h.
    assert (C : content l = s ++ fst (se_last TChapter) ++ [snd (se_last TChapter)]) by now rewrite Hc.
    unfold se_types. cbn [first_se]. rewrite !(try_se_other rf TChapter _ s l C) by reflexivity. cbn [obind].
    rewrite (try_se_same rf TChapter s l i C (roman_no_newline _ _ Hok E)); [reflexivity|]. exact (roman_round_trip rf i s Hr Hok E).
Qed.
(** When a header can be printed *)
Lemma c47_printable ty i : (exists h, se_header ty i = Ok h) <->
  match ty with
  | TBook | TPart false => (n_num i <= 100)%N
  | TPart true => n_suffix i = None /\ (1 <= n_num i <= 3)%N
  | TTitle | TChapter => (1 <= n_num i <= 3999)%N
  end.
Proof.
  assert (H : (exists s, numeric_to_hungarian i = Ok s) <-> (n_num i <= 100)%N).
  { rewrite <- to_hungarian_range. unfold numeric_to_hungarian. destruct (num_to_hungarian (n_num i)); cbn; split; intros [s E]; try discriminate; eauto. }
  assert (R : (exists s, numeric_to_roman i = Ok s) <-> (1 <= n_num i <= 3999)%N).
  { unfold numeric_to_roman. rewrite roman_to_spec. destruct ((1 <=? Z.of_N (n_num i)) && (Z.of_N (n_num i) <=? 3999))%Z eqn:E; cbn.
    - apply andb_prop in E as [E1 E2]. split; [lia|eauto].
    - split; [intros [s F]; discriminate|]. intros B. exfalso. apply andb_false_iff in E. lia. }
  assert (O : forall (x : outcome str) t, (exists h, (let* s := x in Ok (t s : str)) = Ok h) <-> exists s, x = Ok s).
  { intros [s| |] t; cbn; split; intros [h E]; try discriminate; eauto. }
  destruct ty as [|[]| |]; cbn [se_header]; rewrite ?O; try assumption.
  destruct i as [n x]. cbn [n_num n_suffix].
  destruct (numeric_eqb (mkNum n x) (mkNum 1 None)) eqn:E1; [apply numeric_eqb_eq in E1; injection E1 as -> ->; split; [intros _; split; [reflexivity|lia]|eauto]|].
  destruct (numeric_eqb (mkNum n x) (mkNum 2 None)) eqn:E2; [apply numeric_eqb_eq in E2; injection E2 as -> ->; split; [intros _; split; [reflexivity|lia]|eauto]|].
  destruct (numeric_eqb (mkNum n x) (mkNum 3 None)) eqn:E3; [apply numeric_eqb_eq in E3; injection E3 as -> ->; split; [intros _; split; [reflexivity|lia]|eauto]|].
  split; [intros [h F]; discriminate|]. intros [-> B].
  assert (C : n = 1%N \/ n = 2%N \/ n = 3%N) by lia. destruct C as [->|[->| ->]]; discriminate.
Qed.
