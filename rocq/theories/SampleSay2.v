(** Deciding what a sentence says (C81, C82), for the examples. *)
From Verif Require Export SampleSay PropertiesSay6 ProofSay40.
From Coq Require Import Lia.
Local Open Scope N_scope.

Lemma sa_everyday s : match sa_next (rev s) with Some c => negb (c =? chr ":") | None => true end = true \/
    (exists u k, s = u ++ k ++ lit ":" /\ forallb (fun e => negb (starts_with (rev e) (rev k))) amending_ends = true /\ (12 < List.length k)%nat /\ match rev k with c :: _ => negb (sa_white c) | [] => true end = true) ->
  sa_has (lit "szöveg") s = false -> sa_has (lit "lép hatályba") s = false -> starts_with (lit "Hatályát vesz") s = false -> everyday s.
Proof.
  intros A B C D. split.
  - intros u k v w J Q V W. subst s. destruct A as [A|(u' & k' & Q & F & L & X)].
    + rewrite app_assoc, app_assoc, rev_app_distr, rev_app_distr in A. replace (rev (lit ":")) with [chr ":"] in A by reflexivity.
      assert (N : sa_next ((rev w ++ [chr ":"]) ++ rev ((u ++ k) ++ v)) = Some (chr ":")).
      { clear A. rewrite <- app_assoc. apply Forall_rev in W. induction W as [|x t WX W IH]; [reflexivity|]. cbn [app sa_next]. apply sa_white_is in WX. rewrite WX. exact IH. }
      rewrite <- !app_assoc in A, N. rewrite N in A. discriminate A.
    + apply (f_equal (@rev char)) in Q. rewrite !rev_app_distr in Q. replace (rev (lit ":")) with [chr ":"] in Q by reflexivity. rewrite <- !app_assoc in Q. cbn [app] in Q.
      apply Forall_rev in W, V. destruct W as [|x t WX W]; [|injection Q as Q _; rewrite Q in WX; apply sa_white_is in WX; discriminate WX]. cbn [app] in Q. injection Q as Q.
      destruct V as [|x t VX V].
      * cbn [app] in Q. rewrite forallb_forall in F. specialize (F k J). apply negb_true_iff in F.
        assert (G : starts_with (rev k) (rev k') = true); [|congruence]. apply starts_with_spec.
        assert (K : (List.length (rev k) <= 12)%nat) by (unfold amending_ends in J; cbn [map In] in J; repeat (destruct J as [<-|J]; [vm_compute; lia|]); contradiction).
        apply (f_equal (firstn (List.length (rev k')))) in Q. rewrite !firstn_app, firstn_all in Q. rewrite Nat.sub_diag, firstn_O, app_nil_r in Q. rewrite rev_length in Q at 1.
        rewrite firstn_all2 in Q by (rewrite rev_length; rewrite rev_length in K; lia). eexists. symmetry. exact Q.
      * cbn [app] in Q. destruct (rev k') as [|y z] eqn:RK; [apply (f_equal (@List.length char)) in RK; rewrite rev_length in RK; cbn in RK; lia|]. injection Q as -> _.
        apply sa_white_is in VX. now rewrite VX in X.
  - intros [_ H]. apply sa_has_in in H. congruence.
  - intros H. apply sa_has_in in H. congruence.
  - now apply sa_begins.
Qed.
(** ** What a text introduces *)
Fixpoint sa_skip (t : str) : str := match t with c :: t' => if sa_white c then sa_skip t' else t | [] => [] end.
Fixpoint sa_until (t : str) : str := match t with c :: t' => if c =? chr ")" then [] else c :: sa_until t' | [] => [] end.
Definition sa_new (t : str) : str :=
  match sa_skip (skipn 12 t) with c :: t' => if c =? chr ":" then sa_until (sa_skip t') else sa_until (c :: t') | [] => [] end.
Fixpoint sa_introduced (t : str) : list str :=
  match t with [] => [] | _ :: t' => (if starts_with (lit "továbbiakban") t then [sa_new t] else []) ++ sa_introduced t' end.
Lemma sa_skip_white w t : spaces w -> sa_skip (w ++ t) = sa_skip t.
Proof. intros W. induction W as [|c w C W IH]; [reflexivity|]. cbn [app sa_skip]. apply sa_white_is in C. now rewrite C. Qed.
Lemma sa_until_is k t : ~ In (chr ")") k -> sa_until (k ++ lit ")" ++ t) = k.
Proof.
  induction k as [|c k IH]; intros N; [reflexivity|]. cbn [app sa_until]. destruct (N.eqb_spec c (chr ")")) as [->|D]; [exfalso; apply N; now left|]. rewrite IH; [reflexivity|]. intros H. apply N. now right.
Qed.
Lemma sa_new_is v colon w k post : spaces v -> spaces w -> (colon = lit ":" \/ colon = [] /\ w = [] /\ ~ (exists k', k = lit ":" ++ k')) -> k <> [] -> ~ In (chr ")") k -> ~ (exists c k', k = c :: k' /\ spaces [c]) ->
  sa_new (lit "továbbiakban" ++ v ++ colon ++ w ++ k ++ lit ")" ++ post) = k.
Proof.
  intros V W C NE NP NS. unfold sa_new. change (skipn 12 (lit "továbbiakban" ++ ?x)) with x. rewrite (sa_skip_white v _ V).
  assert (K : sa_skip (k ++ lit ")" ++ post) = k ++ lit ")" ++ post).
  { destruct k as [|c k]; [contradiction|]. cbn [app sa_skip]. destruct (sa_white c) eqn:E; [|reflexivity]. exfalso. apply NS. exists c, k. split; [reflexivity|]. constructor; [now apply sa_white_is|constructor]. }
  destruct C as [->|(-> & -> & D)].
  - change (lit ":" ++ ?x) with (58 :: x). cbn [sa_skip]. change (sa_white 58) with false. cbn iota. change (58 =? chr ":") with true. cbn iota. rewrite (sa_skip_white w _ W), K. now apply sa_until_is.
  - cbn [app]. rewrite K. destruct k as [|c k]; [contradiction|]. cbn [app]. destruct (N.eqb_spec c (chr ":")) as [->|E]; [exfalso; apply D; now exists k|]. exact (sa_until_is (c :: k) post NP).
Qed.
Lemma sa_introduced_in pre t x : starts_with (lit "továbbiakban") t = true -> t <> [] -> sa_new t = x -> In x (sa_introduced (pre ++ t)).
Proof.
  intros S NE <-. induction pre as [|c pre IH].
  - destruct t as [|c t]; [contradiction|]. cbn [app sa_introduced]. rewrite S. now left.
  - cbn [app sa_introduced]. apply in_or_app. now right.
Qed.
Lemma sa_introduces t k : introduces t k -> In k (sa_introduced t).
Proof.
  intros (pre & s & u & u1 & u2 & v & colon & w & post & -> & A & F & C & NE & NP & NS). inversion F as [|? ? F1 F2]; subst. inversion F2 as [|? ? F3 F4]; subst. inversion F4 as [|? ? F5 F6]; subst. inversion F6 as [|? ? F7 F8]; subst. inversion F8 as [|? ? F9 _]; subst.
  rewrite !app_assoc. rewrite <- (app_assoc _ (lit ")") post), <- (app_assoc _ k), <- (app_assoc _ w), <- (app_assoc _ colon), <- (app_assoc _ v), <- (app_assoc _ (lit "továbbiakban")).
  apply sa_introduced_in; [apply starts_with_spec; eexists; reflexivity|intros E; apply (f_equal (@List.length char)) in E; rewrite app_length in E; vm_compute in E; discriminate E|]. now apply sa_new_is.
Qed.
Definition sa_names (m : list (str * act_id)) (text : str) : list str := map fst m ++ sa_introduced text.
Lemma sa_name_in m text k : name_in m text k -> In k (sa_names m text).
Proof. intros [H|H]; apply in_or_app; [now left|right; now apply sa_introduces]. Qed.
Lemma sa_no_name m text s : forallb (fun k => negb (starts_with k s)) (sa_names m text) = true -> no_name_at m text s.
Proof. intros E k J. apply sa_name_in in J. rewrite forallb_forall in E. specialize (E _ J). apply negb_true_iff in E. now apply sa_begins. Qed.
Lemma sa_spoken_known m text all before a rest c k : sa_digit c || sa_white c || (c =? opening_quote) = false -> existsb (str_eqb (c :: k)) (map fst (m ++ before)) = true -> value_after m all (c :: k) = Some a ->
  forallb (fun k' => negb (starts_with k' (c :: k ++ rest)) || str_eqb k' (c :: k)) (sa_names m text) = true -> act_spoken m text all before a rest (c :: k) (utf8_len (c :: k)) [].
Proof.
  intros H E V F. rewrite !orb_false_iff in H. destruct H as ((H1 & H2) & H3). apply spoken_known; [exact (sa_not _ _ (sa_digit_is c) H1)|exact (sa_not _ _ (sa_white_is c) H2)|now apply N.eqb_neq| |exact V|].
  - apply existsb_exists in E as (x & J & E). apply str_eqb_eq in E. now subst.
  - intros k' J (r & B). apply sa_name_in in J. rewrite forallb_forall in F. specialize (F _ J). apply orb_true_iff in F as [F|F]; [|now apply str_eqb_eq].
    apply negb_true_iff in F. rewrite B, (proj2 (starts_with_spec k' (k' ++ r))) in F; [discriminate|now exists r].
Qed.
Lemma sa_abbreviation c k : sa_white c || sa_digit c || (c =? chr ":") = false -> existsb (N.eqb (chr ")")) (c :: k) = false -> abbreviation (c :: k).
Proof.
  intros H E. rewrite !orb_false_iff in H. destruct H as ((H1 & H2) & H3). split.
  - exists c, k. split; [reflexivity|]. split; [exact (sa_not _ _ (sa_white_is c) H1)|]. split; [exact (sa_not _ _ (sa_digit_is c) H2)|now apply N.eqb_neq].
  - intros J. apply sa_exists in J. congruence.
Qed.
Ltac b_word := apply speech_other; [apply op_word; sa_plain|apply sa_no_name; sa_true|sa_gaps|].
Ltac b_mark := apply speech_other; [apply sa_mark; sa_true|apply sa_no_name; sa_true|sa_gaps|].
Ltac b_number := apply speech_other; [apply sa_number; [discriminate|sa_true|sa_true|sa_true]|apply sa_no_name; sa_true|sa_gaps|].
Lemma sa_spoken m before own after intro text l k news ab : assemble before own after = text -> text <> [] -> everyday text -> speech m text news 0 [] text l news -> map_with news ab ->
  keep_map (adjust (utf8_len before) (utf8_len text - utf8_len after)) l = k -> spoken_task m (mkTask before own after intro) (mkSi k ab None) news.
Proof.
  intros E NE O P M <-. apply (spoken_task_of m _ text l _ news ab); [|exact NE|exact O|exact P|apply ProofSem3.kept_spec|exact M].
  rewrite <- E. exact (ProofSem3.assemble_sentence (mkTask before own after intro)).
Qed.
