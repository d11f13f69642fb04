(** Deciding whether a sentence is an ordinary one (C80), for the examples. *)
From Verif Require Export PropertiesSay PropertiesSay2 PropertiesSay3 PropertiesSay4 PropertiesSay5 ProofSay36.
From Coq Require Import Lia.
Local Open Scope N_scope.

(** ** Deciding what is an ordinary sentence *)
Definition sa_small (c : char) : bool := ((97 <=? c) && (c <=? 122)) || existsb (N.eqb c) (lit "éáőúöüóíű").
Definition sa_big (c : char) : bool := ((65 <=? c) && (c <=? 90)) || existsb (N.eqb c) (lit "ÉÁŐÚÖÜÓÍŰ").
Definition sa_letter (c : char) : bool := sa_small c || sa_big c.
Definition sa_white (c : char) : bool := existsb (N.eqb c) [32; 9; 10; 12; 13].
Definition sa_digit (c : char) : bool := (48 <=? c) && (c <=? 57).
Definition sa_dash (c : char) : bool := existsb (N.eqb c) (lit "−–-").
Lemma sa_exists c l : existsb (N.eqb c) l = true <-> In c l.
Proof. rewrite existsb_exists. split; [intros (x & I & E); apply N.eqb_eq in E; now subst|intros I; exists c; split; [exact I|apply N.eqb_refl]]. Qed.
Lemma sa_small_is c : sa_small c = true <-> small_letter c.
Proof. unfold sa_small, small_letter, lower_letter. rewrite orb_true_iff, andb_true_iff, sa_exists, !N.leb_le. tauto. Qed.
Lemma sa_letter_is c : sa_letter c = true <-> letter c.
Proof. unfold sa_letter, letter, big_letter, upper_letter. rewrite orb_true_iff, sa_small_is. unfold sa_big. rewrite orb_true_iff, andb_true_iff, sa_exists, !N.leb_le. tauto. Qed.
Lemma sa_white_is c : sa_white c = true <-> white c. Proof. apply sa_exists. Qed.
Lemma sa_digit_is c : sa_digit c = true <-> digit c. Proof. unfold sa_digit, digit. rewrite andb_true_iff, !N.leb_le. tauto. Qed.
Lemma sa_dash_is c : sa_dash c = true <-> dash_mark c. Proof. apply sa_exists. Qed.
Lemma sa_not (b : bool) (P : Prop) : (b = true <-> P) -> b = false -> ~ P. Proof. intros H E Q. apply H in Q. congruence. Qed.
Lemma sa_all (f : char -> bool) (P : char -> Prop) s : (forall c, f c = true -> P c) -> forallb f s = true -> Forall P s.
Proof. intros H E. apply Forall_forall. intros c J. apply H. rewrite forallb_forall in E. exact (E c J). Qed.
Lemma sa_starts (f : char -> bool) (P : char -> Prop) r : (forall c, P c -> f c = true) -> match r with [] => true | c :: _ => negb (f c) end = true -> ~ starts_by P r.
Proof. intros H E (c & u & -> & Q). apply H in Q. rewrite Q in E. discriminate. Qed.
Fixpoint sa_next (t : str) : option char := match t with [] => None | c :: t' => if sa_white c then sa_next t' else Some c end.
Lemma sa_ahead (f : char -> bool) (P : char -> Prop) r : (forall c, f c = true -> P c) -> match sa_next r with None => true | Some c => f c end = true -> ahead_is P r.
Proof.
  intros H E s c u -> W N. apply H. revert E. induction W as [|x s X W IH]; cbn [app sa_next].
  - destruct (sa_white c) eqn:Q; [now apply sa_white_is in Q|]. exact (fun e => e).
  - apply sa_white_is in X. rewrite X. exact IH.
Qed.
Lemma sa_unknown (m : list (str * act_id)) s : forallb (fun p => negb (starts_with (fst p) s)) m = true -> not_known m s.
Proof. intros E k b J (r & ->). rewrite forallb_forall in E. specialize (E _ J). cbn [fst] in E. rewrite (proj2 (starts_with_spec k (k ++ r))) in E; [discriminate|now exists r]. Qed.
Lemma sa_begins k s : starts_with k s = false -> ~ begins_with k s.
Proof. intros E (r & ->). rewrite (proj2 (starts_with_spec k (k ++ r))) in E; [discriminate|now exists r]. Qed.
Definition sa_word_end (r : str) : bool := match r with [] => true | c :: _ => negb (sa_letter c || (c =? hyphen)) end.
Lemma sa_long w r : forallb sa_letter w = true -> (3 <=? List.length w)%nat = true -> sa_word_end r = true -> plain_word w r.
Proof.
  intros A B C. rewrite <- (app_nil_r w). apply long_word; [now apply Nat.leb_le|apply (sa_all sa_letter); [intros c; apply sa_letter_is|exact A]|constructor|].
  apply (sa_starts (fun c => sa_letter c || (c =? hyphen))); [|exact C]. intros c [H| ->]; [apply sa_letter_is in H; now rewrite H|apply orb_true_r].
Qed.
Lemma sa_short_word w r : w <> [] -> forallb sa_letter w = true -> sa_word_end r = true -> match sa_next r with None => true | Some c => negb (sa_dash c) && negb (c =? chr ")") end = true -> plain_word w r.
Proof.
  intros NE A B C. apply short_word; [exact NE|apply (sa_all sa_letter); [intros c; apply sa_letter_is|exact A]| |].
  - apply (sa_starts sa_letter); [intros c; apply sa_letter_is|]. destruct r as [|x r]; [reflexivity|]. cbn in B. destruct (sa_letter x); [discriminate B|reflexivity].
  - apply (sa_ahead (fun c => negb (sa_dash c) && negb (c =? chr ")"))); [|exact C]. intros c H. apply andb_true_iff in H as [H K]. apply negb_true_iff in H, K. split; [apply (sa_not _ _ (sa_dash_is c) H)|now apply N.eqb_neq].
Qed.
Lemma sa_gap g t : (g = [] \/ g = lit " ") -> match t with [] => true | c :: _ => negb (sa_white c) end = true -> gap g t.
Proof. intros G E. split; [exact G|]. apply (sa_starts sa_white); [intros c; apply sa_white_is|exact E]. Qed.
Lemma sa_ordinary s : match sa_next (rev s) with Some c => negb (c =? chr ":") | None => true end = true \/
    (exists u k, s = u ++ k ++ lit ":" /\ forallb (fun e => negb (starts_with (rev e) (rev k))) amending_ends = true /\ (12 < List.length k)%nat /\ match rev k with c :: _ => negb (sa_white c) | [] => true end = true) ->
  sa_has (lit "szöveg") s = false -> sa_has (lit "lép hatályba") s = false -> starts_with (lit "Hatályát vesz") s = false -> sa_has (lit "továbbiakban") s = false -> ordinary s.
Proof.
  intros A B C D E. split.
  - intros u k v w J Q V W. subst s. destruct A as [A|(u' & k' & Q & F & L & X)].
    + rewrite app_assoc, app_assoc, rev_app_distr, rev_app_distr in A. replace (rev (lit ":")) with [chr ":"] in A by reflexivity.
      assert (N : sa_next ((rev w ++ [chr ":"]) ++ rev ((u ++ k) ++ v)) = Some (chr ":")).
      { clear A. rewrite <- app_assoc. apply Forall_rev in W. induction W as [|x t WX W IH]; [reflexivity|]. cbn [app sa_next]. apply sa_white_is in WX. rewrite WX. exact IH. }
      rewrite <- !app_assoc in A, N. rewrite N in A. discriminate A.
    + apply (f_equal (@rev char)) in Q. rewrite !rev_app_distr in Q. replace (rev (lit ":")) with [chr ":"] in Q by reflexivity. rewrite <- !app_assoc in Q. cbn [app] in Q.
      apply Forall_rev in W, V. destruct W as [|x t WX W]; [|injection Q as Q _; rewrite Q in WX; apply sa_white_is in WX; discriminate WX]. cbn [app] in Q. injection Q as Q.
      destruct V as [|x t VX V].
      * cbn [app] in Q. rewrite forallb_forall in F. specialize (F k J). apply negb_true_iff in F.
        assert (G : starts_with (rev k) (rev k') = true); [|congruence]. apply starts_with_spec.
        assert (K : (List.length (rev k) <= 12)%nat) by (unfold amending_ends in J; cbn [map In] in J; repeat (destruct J as [<-|J]; [vm_compute; lia|]); contradiction).
        apply (f_equal (firstn (List.length (rev k')))) in Q. rewrite !firstn_app, firstn_all in Q. rewrite Nat.sub_diag, firstn_O, app_nil_r in Q. rewrite rev_length in Q at 1.
        rewrite firstn_all2 in Q by (rewrite rev_length; rewrite rev_length in K; lia). eexists. symmetry. exact Q.
      * cbn [app] in Q. destruct (rev k') as [|y z] eqn:RK; [apply (f_equal (@List.length char)) in RK; rewrite rev_length in RK; cbn in RK; lia|]. injection Q as -> _.
        apply sa_white_is in VX. now rewrite VX in X.
  - intros [_ H]. apply sa_has_in in H. congruence.
  - intros H. apply sa_has_in in H. congruence.
  - now apply sa_begins.
  - intros H. apply sa_has_in in H. congruence.
Qed.
Ltac sa_true := vm_compute; reflexivity.
Ltac sa_plain := first [apply sa_long; sa_true|apply sa_short_word; [discriminate|sa_true|sa_true|sa_true]].
Ltac sa_gaps := apply sa_gap; [first [now left|now right]|sa_true].
Ltac a_word := apply prose_other; [apply op_word; sa_plain|apply sa_unknown; sa_true|sa_gaps|].
Lemma sa_mark c r : sa_white c || sa_letter c || sa_digit c || (c =? hyphen) || (c =? chr "(") || (c =? opening_quote) = false -> other_piece [c] r.
Proof.
  intros H. rewrite !orb_false_iff in H. destruct H as (((((H1 & H2) & H3) & H4) & H5) & H6). apply op_mark; try (now apply N.eqb_neq);
    [apply (sa_not _ _ (sa_white_is c)); assumption|apply (sa_not _ _ (sa_letter_is c)); assumption|apply (sa_not _ _ (sa_digit_is c)); assumption].
Qed.
Ltac a_mark := apply prose_other; [apply sa_mark; sa_true|apply sa_unknown; sa_true|sa_gaps|].
Lemma sa_number d r : d <> [] -> forallb sa_digit d = true -> match r with c :: _ => negb (sa_digit c || sa_letter c || (c =? chr "/")) | [] => true end = true ->
  match sa_next r with Some c => negb (sa_dash c || (c =? chr ".") || (c =? chr ":")) | None => true end = true -> other_piece d r.
Proof.
  intros NE A B C. apply op_number. split.
  - split; [exact NE|]. apply (sa_all sa_digit); [intros c; apply sa_digit_is|exact A].
  - apply (sa_starts (fun c => sa_digit c || sa_letter c || (c =? chr "/"))); [|exact B]. intros c [H|[H|H]]; [apply sa_digit_is in H; now rewrite H| |rewrite H; apply orb_true_r].
    assert (L : letter c) by (left; now left). apply sa_letter_is in L. rewrite L, orb_true_r. reflexivity.
  - apply (sa_ahead (fun c => negb (sa_dash c || (c =? chr ".") || (c =? chr ":")))); [|exact C]. intros c H. apply negb_true_iff in H. apply orb_false_iff in H as [H K]. apply orb_false_iff in H as [H L].
    split; [apply (sa_not _ _ (sa_dash_is c)); assumption|]. split; now apply N.eqb_neq.
Qed.
Ltac a_number := apply prose_other; [apply sa_number; [discriminate|sa_true|sa_true|sa_true]|apply sa_unknown; sa_true|sa_gaps|].
Definition sa_after_dot (r : str) : bool := match r with x :: c :: _ => sa_white x && sa_letter c && forallb (fun k => negb (starts_with k (tl r))) (counted ++ connecting) | _ => false end.
Lemma sa_year d r : d <> [] -> forallb sa_digit d = true -> sa_after_dot r = true -> year_like d r.
Proof.
  intros NE A B. destruct r as [|x [|c r]]; try discriminate B. apply andb_true_iff in B as [B F]. apply andb_true_iff in B as [X L]. cbn [tl] in F. split.
+ split; [exact NE|]. apply (sa_all sa_digit); [intros ?; apply sa_digit_is|exact A].
+ apply (sa_ahead sa_letter); [|cbn [sa_next]; rewrite X; destruct (sa_white c) eqn:W; [|exact L]; exfalso; apply sa_white_is in W; cbn in W; repeat (destruct W as [<-|W]; [vm_compute in L; discriminate L|]); contradiction].
  intros y H. split; intros K; [apply sa_dash_is in K|apply sa_digit_is in K]; unfold sa_dash, sa_digit in K.
  * apply sa_exists in K. cbn in K. repeat (destruct K as [<-|K]; [vm_compute in H; discriminate H|]). contradiction.
  * apply andb_true_iff in K as [K1 K2]. apply N.leb_le in K1, K2. unfold sa_letter, sa_small, sa_big in H.
    assert (I : In y (lit "0123456789")).
    { replace y with (48 + (y - 48)) by lia. assert (D : y - 48 < 10) by lia. revert D. generalize (y - 48). intros n D.
      assert (T : In n [0; 1; 2; 3; 4; 5; 6; 7; 8; 9]). { cbn [In]. lia. } cbn [In] in T. repeat (destruct T as [<-|T]; [vm_compute; tauto|]). contradiction. }
    cbn in I. repeat (destruct I as [<-|I]; [vm_compute in H; discriminate H|]). contradiction.
+ intros s u E W k J (b & ->). rewrite forallb_forall in F. specialize (F k J).
  destruct s as [|y [|z s]]; cbn [app] in E.
  * unfold counted, connecting in J. cbn [map app In] in J.
    apply (f_equal (fun l => match l with y :: _ => sa_white y | [] => false end)) in E. rewrite X in E.
    repeat (destruct J as [<-|J]; [vm_compute in E; discriminate E|]). contradiction.
  * injection E as <- E. rewrite E in F. rewrite (proj2 (starts_with_spec k (k ++ b))) in F; [discriminate|now exists b].
  * injection E as <- <- E. inversion W as [|? ? _ W2]; subst. inversion W2 as [|? ? W3 _]; subst. cbn in W3. repeat (destruct W3 as [<-|W3]; [vm_compute in L; discriminate L|]). contradiction.
Qed.
Lemma sa_dated_piece d r : d <> [] -> forallb sa_digit d = true -> sa_after_dot r = true -> starts_with (lit "évi") (tl r) = false -> other_piece d (lit "." ++ r).
Proof.
  intros NE A B F. apply op_dated; [now apply sa_year|]. destruct r as [|x [|c r]]; try discriminate B. apply andb_true_iff in B as [B _]. apply andb_true_iff in B as [X L]. cbn [tl] in F.
  intros s u E W. exfalso. destruct s as [|y [|z s]]; cbn [app] in E.
  - apply (f_equal (fun l => match l with y :: _ => sa_white y | [] => false end)) in E. rewrite X in E. vm_compute in E. discriminate E.
  - apply (f_equal (@tl char)) in E. cbn [tl] in E. rewrite E, (proj2 (starts_with_spec (lit "évi") (lit "évi" ++ u))) in F; [discriminate|now exists u].
  - injection E as <- <- E. inversion W as [|? ? _ W2]; subst. inversion W2 as [|? ? W3 _]; subst. cbn in W3. repeat (destruct W3 as [<-|W3]; [vm_compute in L; discriminate L|]). contradiction.
Qed.
Ltac a_dated := apply prose_other; [apply sa_dated_piece; [discriminate|sa_true|sa_true|sa_true]|apply sa_unknown; sa_true|sa_gaps|].
(** After a list a word or a mark *)
Lemma sa_over w r : plain_word w r -> w <> [] -> match w with c :: _ => negb (sa_white c || sa_dash c || existsb (N.eqb c) (lit ",;")) | [] => false end = true ->
  forallb (fun k => negb (starts_with k (w ++ r))) connecting = true -> list_over (lit " " ++ w ++ r).
Proof.
  intros P NE A B. destruct w as [|c w]; [discriminate A|]. apply negb_true_iff in A. rewrite !orb_false_iff in A. destruct A as ((A1 & A2) & A3).
  apply lo_space; [apply (sa_starts sa_white); [intros x; apply sa_white_is|cbn [app]; now rewrite A1]|now apply nr_word| |].
  - apply (sa_starts (fun c => sa_dash c || existsb (N.eqb c) (lit ",;"))); [|cbn [app]; now rewrite A2, A3]. intros x [H|H]; [apply sa_dash_is in H; now rewrite H|apply sa_exists in H; rewrite H; apply orb_true_r].
  - intros k J. rewrite forallb_forall in B. specialize (B k J). apply negb_true_iff in B. now apply sa_begins.
Qed.
Lemma sa_over_mark c r : sa_white c || sa_letter c || sa_digit c || sa_dash c || existsb (N.eqb c) (lit "(,;") = false -> list_over (c :: r).
Proof.
  intros H. rewrite !orb_false_iff in H. destruct H as ((((H1 & H2) & H3) & H4) & H5). apply lo_mark;
    [apply (sa_not _ _ (sa_white_is c) H1)|apply (sa_not _ _ (sa_letter_is c) H2)|apply (sa_not _ _ (sa_digit_is c) H3)|apply (sa_not _ _ (sa_dash_is c) H4)|apply (sa_not _ _ (sa_exists c _) H5)].
Qed.
