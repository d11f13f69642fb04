(** Proofs for C69, C70: editor sessions, interactive runs, and names of files. *)
From Verif Require Export ProofMain5.
From Coq Require Import Lia.
Local Notation length := List.length.

(** Sessions (C69) *)
Lemma c69_session edit st raw name fs rows : act_show (ar_id raw) = Ok name -> st (ar_id raw) = Ok fs -> Forall tidy (ar_body raw) -> left_rows rows ->
  (forall i shown, opened_at (ar_body raw) i -> editor_rows (ar_body raw) shown -> edit (S i) (of_rows shown) = Ok (left_file rows)) ->
  run_fixup_editor edit st raw =
    match update_fixups fs (editor_lines (ar_body raw)) (map (fun r => trim (snd r)) rows) with
    | Some (Ok fs') => Ok (store_set st (ar_id raw) fs')
    | Some Err => Err
    | _ => Panic
    end.
Proof.
  intros A S T L E. eapply session; try eassumption. intros file shown R ->. apply E; [apply c69_place|exact R].
Qed.
Lemma c69_untouched st raw name fs : act_show (ar_id raw) = Ok name -> st (ar_id raw) = Ok fs -> Forall tidy (ar_body raw) ->
  (forall l, In l (ar_body raw) -> ~ In 10%N (content l)) ->
  (forall k, (k < length (ar_body raw))%nat -> (-10000 < quotes_at (ar_body raw) k < 100000)%Z) ->
  exists st', run_fixup_editor (fun _ file => Ok file) st raw = Ok st' /\ forall j, st' j = st j.
Proof.
  intros A S T NF B. destruct (untouched_rows (ar_body raw) NF 0 B) as (rows & L & E & M).
  unfold run_fixup_editor, load_fixups. rewrite A. cbn [obind]. rewrite (editor_file_rows _ T qc_default). cbn [obind]. change (q_level qc_default) with 0%Z.
  rewrite E. rewrite read_left by assumption. cbn [obind]. rewrite S. cbn [obind]. rewrite M, uf_same_texts. cbn [obind].
  eexists. split; [reflexivity|]. intros j. unfold store_set. destruct (act_eqb (ar_id raw) j) eqn:Q; [|reflexivity]. apply act_eqb_eq in Q. now subst j.
Qed.
Lemma run_editor_ok edit st raw st' : run_fixup_editor edit st raw = Ok st' ->
  exists file contents new fs fs', editor_file qc_default (ar_body raw) = Ok file /\ edit (S (open_at_line (ar_body raw))) file = Ok contents /\
    texts_after_five (str_lines contents) = Ok new /\ st (ar_id raw) = Ok fs /\ update_fixups fs (editor_lines (ar_body raw)) new = Some (Ok fs') /\
    st' = store_set st (ar_id raw) fs'.
Proof.
  unfold run_fixup_editor, load_fixups. intros E. destruct (act_show (ar_id raw)); try discriminate E. cbn [obind] in E.
  destruct (editor_file qc_default (ar_body raw)) as [file| |]; try discriminate E. cbn [obind] in E.
  destruct (edit _ file) as [contents| |] eqn:D; try discriminate E. cbn [obind] in E.
  destruct (texts_after_five _) as [new| |] eqn:N; try discriminate E. cbn [obind] in E.
  destruct (st (ar_id raw)) as [fs| |]; try discriminate E. cbn [obind] in E.
  destruct (update_fixups _ _ new) as [[fs'| |]|] eqn:U; try discriminate E. cbn [obind] in E.
  exists file, contents, new, fs, fs'. repeat split; auto. congruence.
Qed.
Lemma tidy_dec l : {tidy l} + {~ tidy l}.
Proof.
  destruct (starts_with (lit " ") (content l)) eqn:A; [right; intros T; apply tidy_iff in T as [T _]; congruence|].
  destruct (ends_with (lit " ") (content l)) eqn:B; [right; intros T; apply tidy_iff in T as [_ T]; congruence|]. left. now apply tidy_iff.
Qed.
Lemma c69_next_load edit st raw raw' fs st' rows :
  st (ar_id raw) = Ok fs -> applies_to fs (ar_body raw) (ar_body raw') -> no_double_empty (ar_body raw') -> (forall l, In l (ar_body raw') -> trim (content l) = content l) ->
  ar_id raw' = ar_id raw -> left_rows rows ->
  (forall i shown, opened_at (ar_body raw') i -> editor_rows (ar_body raw') shown -> edit (S i) (of_rows shown) = Ok (left_file rows)) ->
  run_fixup_editor edit st raw' = Ok st' ->
  (forall j, j <> ar_id raw -> st' j = st j) /\
  exists fs' body, st' (ar_id raw) = Ok fs' /\ applies_to fs' (ar_body raw) body /\
    map content body = edited_lines (map content (ar_body raw')) (map (fun r => trim (snd r)) rows).
Proof.
  intros S A N T I L E R. apply run_editor_ok in R as (file & contents & new & fs0 & fs' & F & Q & X & S' & U & ->). rewrite I, S in S'. injection S' as <-.
  assert (TD : Forall tidy (ar_body raw')).
  { destruct (Forall_Exists_dec tidy tidy_dec (ar_body raw')) as [H|H]; [exact H|].
    rewrite (editor_file_fails _ H) in F. discriminate. }
  destruct (c69_file _ TD) as (shown & F' & RW). rewrite F in F'. injection F' as ->.
  rewrite (E _ shown (c69_place _) RW) in Q. injection Q as <-. rewrite read_left in X by assumption. injection X as <-.
  split; [intros j J; apply store_other; congruence|]. rewrite I. exists fs'. pose proof (proj2 (applies_fixups _ _ _) A) as A'.
  destruct (c25_reload fs (ar_body raw) (map (fun r => trim (snd r)) rows) fs') as (body & B1 & B2).
  - now rewrite A'.
  - now rewrite A'.
  - rewrite A'. exact T.
  - unfold load_body. rewrite A'. cbn [fst]. now rewrite c26_fixed.
  - exists body. split; [apply store_same|]. split; [now apply applies_fixups|]. now rewrite A' in B2.
Qed.

(** Interactive runs (C70) *)
Lemma editor_appends edit st raw st' : run_fixup_editor edit st raw = Ok st' -> (forall j, j <> ar_id raw -> st' j = st j) /\
  forall fs, st (ar_id raw) = Ok fs -> exists added, st' (ar_id raw) = Ok (fs ++ added).
Proof.
  intros R. apply run_editor_ok in R as (file & contents & new & fs0 & fs' & _ & _ & _ & S' & U & ->). split; [intros j J; now apply store_other|].
  intros fs S. rewrite S in S'. injection S' as <-. apply c24_reproduces in U as (_ & added & -> & _). exists added. apply store_same.
Qed.
