(** Proofs for C70: consequences of what a run does, and runs without panics. *)
From Verif Require Export ProofMain6.
From Coq Require Import Lia.
Local Notation length := List.length.

Lemma act_show_inj a b s : act_show a = Ok s -> act_show b = Ok s -> a = b.
Proof.
  intros A B. assert (Na := act_show_ok _ _ A). assert (Nb := act_show_ok _ _ B). unfold has_name, act_show in *.
  destruct (roman_to (act_number a)) as [ra|] eqn:Ra; [|discriminate]. destruct (roman_to (act_number b)) as [rb|] eqn:Rb; [|discriminate].
  rewrite <- B in A. clear B. apply (f_equal (fun o => match o with Ok t => split_once (chr ".") t | _ => None end)) in A. cbv beta iota in A.
  assert (X : forall y r, split_once (chr ".") (show_Z y ++ lit ". évi " ++ r ++ lit ". törvény") = Some (show_Z y, lit " évi " ++ r ++ lit ". törvény")).
  { intros y r. exact (split_once_some (chr ".") (show_Z y) (lit " évi " ++ r ++ lit ". törvény") ltac:(now apply show_Z_no_char)). }
  rewrite !X in A.
  assert (Y : show_Z (act_year a) = show_Z (act_year b)) by congruence.
  assert (T : lit " évi " ++ ra ++ lit ". törvény" = lit " évi " ++ rb ++ lit ". törvény") by congruence.
  apply app_inv_head, app_inv_tail in T. subst rb. apply show_Z_inj in Y.
  assert (Z : act_number a = act_number b).
  { pose proof (roman_read_reads (Z.to_N (act_number a)) ltac:(lia)) as P. pose proof (roman_read_reads (Z.to_N (act_number b)) ltac:(lia)) as Q.
    unfold roman_to in Ra, Rb. replace ((1 <=? act_number a) && (act_number a <=? 3999))%Z with true in Ra by lia.
    replace ((1 <=? act_number b) && (act_number b <=? 3999))%Z with true in Rb by lia. rewrite roman_greedy_standard in Ra, Rb by lia.
    cbv beta in P, Q. assert (roman_standard (Z.to_N (act_number a)) = roman_standard (Z.to_N (act_number b))) by congruence. rewrite H in P. rewrite P in Q. injection Q as Q. lia. }
  destruct a, b; cbn in *; congruence.
Qed.
(** Files *)
Lemma c70_distinct g dir a b na nb p : act_show a = Ok na -> act_show b = Ok nb -> file_of g dir na p -> file_of g dir nb p -> a = b.
Proof.
  intros A B (e & f & -> & -> & F) (e' & f' & -> & -> & F').
  assert (E : na = nb).
  { destruct F as [[D ->]|(D1 & D2 & ->)], F' as [[D' E]|(D1' & D2' & E)].
    - apply app_inv_head, app_inv_tail in E. exact E.
    - exfalso. destruct D as [D|(d & D)]; [contradiction|]. exact (D2' d D).
    - exfalso. destruct D' as [D'|(d & D')]; [contradiction|]. exact (D2 d D').
    - apply app_inv_head, app_inv_head, app_inv_tail in E. exact E. }
  subst nb. exact (act_show_inj _ _ _ A B).
Qed.

(** Acts *)
Lemma act_did_others x g an st raw an' st' s ok : act_did x g an st raw an' st' s ok ->
  (exists used, an = used ++ an') /\ (forall j, j <> ar_id raw -> st' j = st j) /\
  forall fs, st (ar_id raw) = Ok fs -> exists added, st' (ar_id raw) = Ok (fs ++ added).
Proof.
  assert (K : forall st raw, (forall j, j <> ar_id raw -> (st : store) j = st j) /\ forall fs, st (ar_id raw) = Ok fs -> exists added, st (ar_id raw) = Ok (fs ++ added)).
  { intros u r. split; [reflexivity|]. intros fs E. exists []. now rewrite app_nil_r. }
  induction 1 as [an st raw s T NF|an st raw s I F|t e an st raw s I F A|e an st raw s I F|t e an st raw s I F A N|t e an st raw s raw' st1 an' st' s' ok I F A X R D IH].
  - split; [now exists []|apply K].
  - split; [now exists []|apply K].
  - split; [now exists [(Ok t, e)]|apply K].
  - split; [now exists [(Err, e)]|apply K].
  - split; [now exists [(Ok t, e)]|apply K].
  - destruct IH as ((used & ->) & O & P). split; [now exists ((Ok t, e) :: used)|]. apply editor_appends in R as [R1 R2].
    assert (Ei : ar_id raw' = ar_id raw) by (apply fixed_iff in X as (? & ? & _ & _ & ->); reflexivity). rewrite Ei in *.
    split; [intros j J; now rewrite O, R1|]. intros fs S. destruct (R2 fs S) as (a1 & E1). destruct (P _ E1) as (a2 & E2). exists (a1 ++ a2). now rewrite app_assoc.
Qed.
Lemma act_did_text x g an st raw an' st' s ok : act_did x g an st raw an' st' s ok -> ~ forced g ->
  if ok then text_of x g st' raw s else s = [] /\ forall t, ~ text_of x g st' raw t.
Proof.
  induction 1 as [an st raw s T NF|an st raw s I F|t e an st raw s I F A|e an st raw s I F|t e an st raw s I F A N|t e an st raw s raw' st1 an' st' s' ok I F A X R D IH];
    intros NFo; [exact T|..]; (destruct F as [[_ F]|[F ->]]; [contradiction|]); auto.
  exact (IH NFo).
Qed.
Lemma act_did_forced x g an st raw an' st' s ok : act_did x g an st raw an' st' s ok -> forced g -> ok = false.
Proof. induction 1; intros F; auto. contradiction. Qed.
Lemma act_did_alone x g an st raw an' st' s ok : ag_interactive g = false -> act_did x g an st raw an' st' s ok -> an' = an /\ st' = st.
Proof. intros I D. inversion D; subst; auto; congruence. Qed.
Lemma acts_did_alone x g acts an st raws an' st' h fine fin : ag_interactive g = false -> acts_did x g acts an st raws an' st' h fine fin -> an' = an /\ st' = st.
Proof.
  intros I. induction 1 as [| |an st raw raws name before t an1 st1 s this an' st' h fine fin N R O A D IH|]; auto.
  destruct (act_did_alone _ _ _ _ _ _ _ _ _ I A) as [-> ->]. exact IH.
Qed.
Lemma issues_did_alone x g acts an st l an' st' h fine : ag_interactive g = false -> issues_did x g acts an st l an' st' h fine -> an' = an /\ st' = st.
Proof.
  intros I. induction 1 as [|an st i l an1 st1 an' st' h h' f f' A B IH]; auto. 
  assert (E : an1 = an /\ st1 = st) by (inversion A; subst; auto; eapply acts_did_alone; eassumption). destruct E as [-> ->]. exact IH.
Qed.
(** Everything that is written *)
Lemma acts_did_written x g acts an st raws an' st' h fine fin : acts_did x g acts an st raws an' st' h fine fin ->
  forall t s, In (Wrote t s) h -> exists raw name before an1 st1 an2 st2 ok, In raw raws /\ requested acts raw /\ act_show (ar_id raw) = Ok name /\ output_to x g name before t /\
    act_did x g an1 st1 raw an2 st2 s ok /\ (fine = true -> ok = true).
Proof.
  induction 1 as [an st|an st raw raws an' st' h fine fin N R A IH|an st raw raws name before t0 an1 st1 s0 this an' st' h fine fin N R O A D IH|]; intros t s I; try contradiction.
  - destruct (IH t s I) as (r & nm & bf & a1 & s1 & a2 & s2 & ok & X & Y). exists r, nm, bf, a1, s1, a2, s2, ok. split; [now right|exact Y].
  - apply in_app_or in I as [I|[I|I]].
    + exfalso. unfold output_to in O. destruct (ag_dir g); [destruct O as (p & _ & _ & -> & _)|destruct O as (-> & _)]; destruct I as [I|[]]; discriminate.
    + injection I as -> ->. exists raw, name, before, an, st, an1, st1, this. repeat match goal with |- _ /\ _ => split end; auto; [now left|]. intros F. now apply andb_true_iff in F.
    + destruct (IH t s I) as (r & nm & bf & a1 & s1 & a2 & s2 & ok & X & Y1 & Y2 & Y3 & Y4 & Y5). exists r, nm, bf, a1, s1, a2, s2, ok.
      repeat match goal with |- _ /\ _ => split end; auto; [now right|]. intros F. apply Y5. now apply andb_true_iff in F.
Qed.
Lemma issues_did_written x g acts an st l an' st' h fine : issues_did x g acts an st l an' st' h fine -> ag_until g <> PdfLines ->
  forall t s, In (Wrote t s) h -> exists i pages raws raw name before an1 st1 an2 st2 ok, In i l /\ x_pages x i = Ok pages /\ parse_mk_pages (x_ud x) (x_rf x) pages = Ok raws /\
    In raw raws /\ requested acts raw /\ act_show (ar_id raw) = Ok name /\ output_to x g name before t /\ act_did x g an1 st1 raw an2 st2 s ok /\ (fine = true -> ok = true).
Proof.
  induction 1 as [|an st i l an1 st1 an' st' h h' f f' A B IH]; intros U t s I; [contradiction|].
  apply in_app_or in I as [I|I].
  - destruct A; try contradiction; try (destruct I as [I|[]]; discriminate).
    apply in_app_or in I as [I|I]; [|destruct finished; [contradiction|destruct I as [I|[]]; discriminate]].
    destruct (acts_did_written _ _ _ _ _ _ _ _ _ _ _ H2 t s I) as (r & nm & bf & a1 & s1 & a2 & s2 & ok & Y0 & Y1 & Y2 & Y3 & Y4 & Y5).
    exists i, pages, raws, r, nm, bf, a1, s1, a2, s2, ok. repeat match goal with |- _ /\ _ => split end; auto; [now left|]. intros F. apply Y5. now apply andb_true_iff in F.
  - destruct (IH U t s I) as (j & pages & raws & r & nm & bf & a1 & s1 & a2 & s2 & ok & X & Y1 & Y2 & Y3 & Y4 & Y5 & Y6 & Y7 & Y8).
    exists j, pages, raws, r, nm, bf, a1, s1, a2, s2, ok. repeat match goal with |- _ /\ _ => split end; auto; [now right|]. intros F. apply Y8. now apply andb_true_iff in F.
Qed.
Lemma acts_did_all x g acts an st raws an' st' h fine fin : (forall p, x_creatable x p = true) -> acts_did x g acts an st raws an' st' h fine fin ->
  forall raw, In raw raws -> requested acts raw -> exists name before t s, act_show (ar_id raw) = Ok name /\ output_to x g name before t /\ In (Wrote t s) h.
Proof.
  intros C. induction 1 as [an st|an st r raws an' st' h fine fin N R A IH|an st r raws name before t0 an1 st1 s0 this an' st' h fine fin N R O A D IH|an st r raws name N R (dir & p & _ & _ & X)]; intros raw I Q.
  - contradiction.
  - destruct I as [->|I]; [contradiction|auto].
  - destruct I as [->|I].
    + exists name, before, t0, s0. split; [exact N|]. split; [exact O|]. apply in_or_app. right. now left.
    + destruct (IH raw I Q) as (nm & bf & t & s & X & Y & Z). exists nm, bf, t, s. split; [exact X|]. split; [exact Y|]. apply in_or_app. right. now right.
  - rewrite C in X. discriminate.
Qed.
Lemma issues_did_all x g acts an st l an' st' h fine : (forall p, x_creatable x p = true) -> issues_did x g acts an st l an' st' h fine ->
  forall i pages raws raw, In i l -> x_pages x i = Ok pages -> ag_until g <> PdfLines -> parse_mk_pages (x_ud x) (x_rf x) pages = Ok raws -> In raw raws -> requested acts raw ->
  exists name before t s, act_show (ar_id raw) = Ok name /\ output_to x g name before t /\ In (Wrote t s) h.
Proof.
  intros C. induction 1 as [|an st i l an1 st1 an' st' h h' f f' A B IH]; intros j pages raws raw I X U P R Q; [contradiction|].
  destruct I as [->|I].
  - inversion A; subst; try congruence. assert (raws0 = raws) by congruence. subst raws0.
    destruct (acts_did_all _ _ _ _ _ _ _ _ _ _ _ C H2 raw R Q) as (nm & bf & t & s & X1 & Y & Z). exists nm, bf, t, s. split; [exact X1|]. split; [exact Y|].
    apply in_or_app. left. apply in_or_app. now left.
  - destruct (IH j pages raws raw I X U P R Q) as (nm & bf & t & s & X1 & Y & Z). exists nm, bf, t, s. split; [exact X1|]. split; [exact Y|]. apply in_or_app. now right.
Qed.
