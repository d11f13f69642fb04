(** Proofs for C89: the cache of issues. *)
From Verif Require Import ModelFetch ProofBase ProofMk ProofFixup.
Local Open Scope list_scope.

Lemma cache_path_inj dir i j : cache_path dir i = cache_path dir j -> i = j.
Proof. unfold cache_path. destruct (join_form dir) as (p & J). rewrite !J. intros E. apply app_inv_head in E. exact (c46_cache_key i j E). Qed.
Lemma put_same d p c : put_file d p c p = c.
Proof. unfold put_file. now rewrite str_eqb_refl. Qed.
Lemma put_other d p c q : q <> p -> put_file d p c q = d q.
Proof. intros N. unfold put_file. now rewrite (proj2 (str_eqb_neq q p) N). Qed.
Lemma mk_eq_dec (i j : mk_issue) : {i = j} + {i <> j}.
Proof. decide equality; apply Z.eq_dec. Defined.
Section F.
Variables (sv : server) (w : writing) (dir : str).
Lemma cached d i b : d (cache_path dir i) = Some b -> download sv w dir d i = (d, [], Ok b).
Proof. intros E. unfold download. cbv zeta. now rewrite E. Qed.
Lemma fetched d i b : d (cache_path dir i) = None -> sv (mk_url i) = Ok b -> w (cache_path dir i) b = None ->
  exists d', download sv w dir d i = (d', [mk_url i], Ok b) /\ d' (cache_path dir i) = Some b.
Proof. intros E S W. unfold download. cbv zeta. rewrite E, S, W. eexists. split; [reflexivity|apply put_same]. Qed.
Lemma unreachable d i : d (cache_path dir i) = None -> sv (mk_url i) = Err -> download sv w dir d i = (d, [mk_url i], Err).
Proof. intros E S. unfold download. cbv zeta. now rewrite E, S. Qed.
Lemma kept d i d' us o : download sv w dir d i = (d', us, o) -> (forall q, q <> cache_path dir i -> d' q = d q) /\ (forall b, o = Ok b -> d' (cache_path dir i) = Some b) /\
  (forall b, d (cache_path dir i) = Some b -> d' = d /\ us = [] /\ o = Ok b) /\ (d (cache_path dir i) = None -> us = [mk_url i]) /\
  (forall b, o = Ok b -> d (cache_path dir i) = Some b \/ d (cache_path dir i) = None /\ sv (mk_url i) = Ok b).
Proof.
  unfold download. cbv zeta. destruct (d (cache_path dir i)) as [c|] eqn:E.
  - intros X. injection X as <- <- <-. repeat split; auto; try congruence. intros b X. left. congruence.
  - destruct (sv (mk_url i)) as [b| |] eqn:S; [destruct (w (cache_path dir i) b) as [c|]|..]; intros X; injection X as <- <- <-.
    + repeat split; try congruence. intros q N. now apply put_other.
    + repeat split; try congruence. * intros q N. now apply put_other. * intros c X. rewrite put_same. congruence. * intros c X. right. split; congruence.
    + repeat split; congruence.
    + repeat split; congruence.
Qed.
Lemma twice_any0 sv2 w2 d i d' us b : download sv w dir d i = (d', us, Ok b) -> download sv2 w2 dir d' i = (d', [], Ok b).
Proof. intros E. destruct (kept _ _ _ _ _ E) as (_ & K & _). specialize (K b eq_refl). unfold download. cbv zeta. now rewrite K. Qed.
Lemma others d i d' us o j : download sv w dir d i = (d', us, o) -> j <> i -> d' (cache_path dir j) = d (cache_path dir j).
Proof. intros E N. apply (proj1 (kept _ _ _ _ _ E)). intros X. apply N. exact (cache_path_inj _ _ _ X). Qed.
Lemma others_result d i d' us o j d1 u1 o1 d2 u2 o2 : download sv w dir d i = (d', us, o) -> j <> i ->
  download sv w dir d j = (d1, u1, o1) -> download sv w dir d' j = (d2, u2, o2) -> u1 = u2 /\ o1 = o2.
Proof.
  intros E N A B. pose proof (others _ _ _ _ _ _ E N) as K. unfold download in A, B. cbv zeta in A, B. rewrite K in B.
  destruct (d (cache_path dir j)) as [c|]; [|destruct (sv (mk_url j)) as [b| |]; [destruct (w (cache_path dir j) b)|..]]; injection A as _ <- <-; injection B as _ <- <-; auto.
Qed.

(** A sequence: cached contents stay, and the requests are those of the issues that were not there. *)
Lemma all_keep l : forall d d' us os i b, download_all sv w dir d l = (d', us, os) -> d (cache_path dir i) = Some b -> d' (cache_path dir i) = Some b.
Proof.
  induction l as [|j l IH]; intros d d' us os i b; cbn [download_all].
  - intros E. now injection E as <- _ _.
  - destruct (download sv w dir d j) as [[d1 u] o] eqn:D. destruct (download_all sv w dir d1 l) as [[d2 u2] os2] eqn:R. intros E H. injection E as <- _ _.
    apply (IH _ _ _ _ _ _ R). destruct (mk_eq_dec i j) as [->|N].
    + destruct (proj1 (proj2 (proj2 (kept _ _ _ _ _ D))) b H) as (-> & _). exact H.
    + now rewrite (others _ _ _ _ _ _ D N).
Qed.
End F.
Section G.
Variables (sv : server) (w : writing) (dir : str).
Lemma all_held l : forall d d' us os, download_all sv w dir d l = (d', us, os) ->
  Forall2 (fun i o => forall b, o = Ok b -> d' (cache_path dir i) = Some b) l os.
Proof.
  induction l as [|j l IH]; intros d d' us os; cbn [download_all].
  - intros E. injection E as _ _ <-. constructor.
  - destruct (download sv w dir d j) as [[d1 u] o] eqn:D. destruct (download_all sv w dir d1 l) as [[d2 u2] os2] eqn:R. intros E. injection E as <- _ <-.
    constructor; [|exact (IH _ _ _ _ R)]. intros b X. apply (all_keep _ _ _ _ _ _ _ _ _ _ R). exact (proj1 (proj2 (kept _ _ _ _ _ _ _ _ D)) b X).
Qed.
Lemma all_asked l : forall d d' us os, download_all sv w dir d l = (d', us, os) -> Forall (fun o => exists b, o = Ok b) os ->
  exists asked, us = map mk_url asked /\ NoDup asked /\ (forall i, In i asked <-> In i l /\ d (cache_path dir i) = None).
Proof.
  induction l as [|j l IH]; intros d d' us os; cbn [download_all].
  - intros E _. injection E as _ <- _. exists []. split; [reflexivity|]. split; [constructor|]. intros i. cbn. tauto.
  - destruct (download sv w dir d j) as [[d1 u] o] eqn:D. destruct (download_all sv w dir d1 l) as [[d2 u2] os2] eqn:R. intros E F. injection E as _ <- <-.
    inversion F as [|x y (b & B) F2]; subst x y. destruct (IH _ _ _ _ R F2) as (asked & U & ND & A).
    destruct (kept _ _ _ _ _ _ _ _ D) as (_ & K1 & K2 & K3 & _). specialize (K1 b B).
    assert (NI : ~ In j asked). { intros X. apply A in X. destruct X as (_ & X). congruence. }
    assert (OT : forall i, i <> j -> d1 (cache_path dir i) = d (cache_path dir i)) by (intros i N; exact (others _ _ _ _ _ _ _ _ _ D N)).
    destruct (d (cache_path dir j)) as [c|] eqn:DJ.
    + destruct (K2 c eq_refl) as (-> & -> & _). exists asked. split; [exact U|]. split; [exact ND|]. intros i. rewrite A. cbn [In]. split; [tauto|].
      intros ([<-|I] & X); [congruence|tauto].
    + rewrite (K3 eq_refl). exists (j :: asked). split; [cbn; now rewrite U|]. split; [now constructor|]. intros i. cbn [In]. rewrite A. split.
      * intros [<-|(I & X)]; [auto|]. split; [auto|]. destruct (mk_eq_dec i j) as [->|N]; [exact DJ|]. now rewrite <- (OT i N).
      * intros (I & X). destruct (mk_eq_dec i j) as [->|N]; [auto|]. right. rewrite (OT i N). destruct I as [<-|I]; [congruence|auto].
Qed.
End G.

Definition twice_any sv w sv2 w2 dir := twice_any0 sv w dir sv2 w2.

(** A server and a full disk: the answer has four bytes, and only the first two are written. *)
Definition bad_server : server := fun _ => Ok (lit "%PDF").
Definition full_disk : writing := fun _ b => Some (Some (firstn 2 b)).
Lemma broken : exists sv w dir d i d1 us1 rest b, d (cache_path dir i) = None /\ download sv w dir d i = (d1, us1, Err) /\ sv (mk_url i) = Ok b /\ rest <> b /\
  download sv w dir d1 i = (d1, [], Ok rest).
Proof.
  exists bad_server, full_disk, (lit "cache"), (fun _ => None), (mkIssue 2020 1).
  eexists. eexists. exists (lit "%P"), (lit "%PDF"). split; [reflexivity|]. split; [reflexivity|]. split; [reflexivity|]. split; [intros X; vm_compute in X; discriminate|]. vm_compute. reflexivity.
Qed.
Definition issue_file (i : mk_issue) : str := lit "MK/" ++ show_Z (mk_year i) ++ lit "/" ++ show_Z (mk_issue_no i) ++ lit ".pdf".
Lemma fetch_slash d i : cache_path (d ++ lit "/") i = d ++ lit "/" ++ issue_file i.
Proof.
  unfold cache_path, join_path. assert (E : ends_with (lit "/") (d ++ lit "/") = true) by (apply ends_with_spec; eauto). rewrite E, orb_true_r.
  now rewrite <- app_assoc.
Qed.
Lemma fetch_none i : cache_path [] i = issue_file i.
Proof. reflexivity. Qed.
Lemma fetch_other d i : d <> [] -> (forall r, d <> r ++ lit "/") -> cache_path d i = d ++ lit "/" ++ issue_file i.
Proof.
  intros N S. unfold cache_path, join_path. destruct (ends_with (lit "/") d) eqn:E; [apply ends_with_spec in E; destruct E as [r E]; now apply S in E|].
  destruct d; [congruence|reflexivity].
Qed.
Lemma place d i : let f := lit "MK/" ++ show_Z (mk_year i) ++ lit "/" ++ show_Z (mk_issue_no i) ++ lit ".pdf" in
  cache_path (d ++ lit "/") i = d ++ lit "/" ++ f /\ cache_path [] i = f /\ (d <> [] -> (forall r, d <> r ++ lit "/") -> cache_path d i = d ++ lit "/" ++ f).
Proof. exact (conj (fetch_slash d i) (conj (fetch_none i) (fetch_other d i))). Qed.

(** When files can be written, what is returned for an issue is the same function in all of a run. *)
Lemma given_one sv w dir d i d' us o : (forall p b, w p b = None) -> download sv w dir d i = (d', us, o) ->
  let given d i := match d (cache_path dir i) with Some b => Ok b | None => sv (mk_url i) end in o = given d i /\ forall j, given d' j = given d j.
Proof.
  intros W E given. unfold download in E. cbv zeta in E. subst given. cbv beta.
  destruct (d (cache_path dir i)) as [c|] eqn:C; [injection E as <- _ <-; auto|].
  destruct (sv (mk_url i)) as [b| |] eqn:S; [rewrite W in E|..]; injection E as <- _ <-; split; auto.
  intros j. destruct (mk_eq_dec j i) as [->|N]; [now rewrite put_same, C, S|].
  rewrite put_other; [reflexivity|]. intros X. apply N. exact (cache_path_inj _ _ _ X).
Qed.
Lemma all_given sv w dir l : (forall p b, w p b = None) -> forall d d' us os, download_all sv w dir d l = (d', us, os) ->
  os = map (fun i => match d (cache_path dir i) with Some b => Ok b | None => sv (mk_url i) end) l.
Proof.
  intros W. induction l as [|j l IH]; intros d d' us os; cbn [download_all].
  - intros E. injection E as _ _ <-. reflexivity.
  - destruct (download sv w dir d j) as [[d1 u] o] eqn:D. destruct (download_all sv w dir d1 l) as [[d2 u2] os2] eqn:R. intros E. injection E as _ _ <-.
    destruct (given_one _ _ _ _ _ _ _ _ W D) as (-> & G). cbn [map]. f_equal. rewrite (IH _ _ _ _ R). apply map_ext. exact G.
Qed.
