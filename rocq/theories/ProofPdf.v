(** Lines of a page (C43). *)
From Verif Require Export SpecPdf.
From Coq Require Import Lia.

Section Lines.
  Variable fl : floats.
  Local Notation pchar := (pchar fl).
  Variable sort : (pchar -> pchar -> comparison) -> list pchar -> list pchar.
  Local Notation consolidate := (consolidate_line fl sort).
  Local Notation loop := (lines_loop fl sort).

  Lemma readable_app a b : readable (a ++ b) = readable a ++ readable b.
  Proof. apply filter_app. Qed.
  Lemma drop_readable ps : readable (map part_text (drop_spaces ps)) = readable (map part_text ps).
  Proof. induction ps as [|p ps IH]; [reflexivity|]. cbn [drop_spaces]. destruct (p_ch p =? 32)%N eqn:E; [|reflexivity]. cbn. rewrite E. exact IH. Qed.
  Lemma readable_rev l : readable (rev l) = rev (readable l).
  Proof.
    induction l as [|x l IH]; [reflexivity|]. cbn [rev]. rewrite readable_app, IH. unfold readable. cbn. now destruct (negb _); [|rewrite app_nil_r].
  Qed.
  Lemma trim_readable ps : readable (map part_text (trim_parts ps)) = readable (map part_text ps).
  Proof. unfold trim_parts. rewrite map_rev, readable_rev, drop_readable, map_rev, readable_rev, rev_involutive. apply drop_readable. Qed.
  Lemma parts_readable cs : forall prev x, readable (map part_text (line_parts fl prev x cs)) = readable (map (char_text fl) cs).
  Proof.
    induction cs as [|c cs IH]; intros prev x; [reflexivity|]. cbn [line_parts]. rewrite map_app, readable_app. cbn [map].
    set (b := match prev with Some t => _ | None => false end). replace (readable _) with (@nil (char * bool)) at 1 by now destruct b.
    cbn [app]. change (readable (?a :: ?l)) with (readable ([a] ++ l)). rewrite !readable_app, IH. reflexivity.
  Qed.
  Lemma perm_readable a b : Permutation a b -> Permutation (readable a) (readable b).
  Proof.
    unfold readable. induction 1 as [|x a b H IH|x y a|a b c H1 IH1 H2 IH2]; cbn.
    - constructor.
    - destruct (negb _); [now constructor|exact IH].
    - destruct (negb (fst x =? 32)%N), (negb (fst y =? 32)%N); try reflexivity. constructor.
    - now transitivity (filter (fun p : char * bool => negb (fst p =? 32)%N) b).
  Qed.
  Lemma consolidate_readable m cs : moves fl sort -> Permutation (readable (map part_text (l_parts (consolidate m cs)))) (readable (map (char_text fl) cs)).
  Proof.
    intros P. unfold consolidate_line. assert (Q : Permutation (readable (map (char_text fl) (sort (by_x fl) cs))) (readable (map (char_text fl) cs))).
    { apply perm_readable, Permutation_map, P. }
    destruct (rev (sort (by_x fl) cs)) as [|l r] eqn:E.
    - apply (f_equal (@rev _)) in E. rewrite rev_involutive in E. now rewrite E in Q.
    - cbn [l_parts from_parts]. rewrite trim_readable, parts_readable. exact Q.
  Qed.
  Lemma loop_readable m cs : moves fl sort -> forall cur, Permutation (readable (lines_text (loop m cur cs))) (readable (map (char_text fl) (cur ++ cs))).
  Proof.
    intros P. unfold lines_text. induction cs as [|c cs IH]; intros cur; cbn [lines_loop].
    - cbn [flat_map]. rewrite !app_nil_r. now apply consolidate_readable.
    - set (d := match cur with h :: _ => _ | [] => _ end). destruct (f_lt fl d (f_half fl)).
      + rewrite (IH (cur ++ [c])), <- app_assoc. reflexivity.
      + cbn [flat_map]. rewrite flat_map_app, !readable_app, IH. rewrite (map_app (char_text fl) cur (c :: cs)), readable_app.
        replace (readable (flat_map _ (if f_lt fl (f_gap fl) d then [empty_line] else []))) with (@nil (char * bool)) by now destruct (f_lt _ _ _).
        apply Permutation_app; [now apply consolidate_readable|reflexivity].
  Qed.
  Lemma c43_conserved k : moves fl sort ->
    Permutation (readable (lines_text (page_of_lines fl sort k))) (readable (map (char_text fl) (cl_chars _ k))).
  Proof.
    intros P. unfold page_of_lines. rewrite loop_readable by exact P. cbn [app].
    apply perm_readable, Permutation_map, P.
  Qed.

  (** Groups *)
  Lemma loop_groups m cs : forall h t, group_ok fl (h :: t) -> exists gs t',
    List.concat ((h :: t') :: gs) = (h :: t) ++ cs /\ Forall (group_ok fl) ((h :: t') :: gs) /\ groups_apart fl ((h :: t') :: gs) /\
    set_as fl (fun g l => l = consolidate m g) ((h :: t') :: gs) (loop m (h :: t) cs).
  Proof.
    induction cs as [|c cs IH]; intros h t G.
    - exists [], t. cbn [List.concat lines_loop]. split; [reflexivity|]. split; [now constructor|]. split; [exact I|]. now constructor.
    - cbn [lines_loop]. destruct (f_lt fl _ (f_half fl)) eqn:L.
      + destruct (IH h (t ++ [c])) as (gs & t' & E & R); [cbn; apply Forall_app; split; [exact G|]; constructor; [exact L|constructor]|].
        exists gs, t'. split; [|exact R]. rewrite E. cbn. now rewrite <- app_assoc.
      + destruct (IH c []) as (gs & t' & E & F & A & S); [constructor|]. exists ((c :: t') :: gs), t.
        split; [exact (f_equal (app (h :: t)) E)|]. split; [now constructor|]. split.
        * split; [|exact A]. unfold same_line, y_distance. now rewrite L.
        * exact (Set_next fl _ h t c t' gs _ _ eq_refl S).
  Qed.
  Lemma set_as_impl (P Q : list pchar -> line -> Prop) gs ls : set_as fl P gs ls ->
    Forall (fun g => forall l, P g l -> Q g l) gs -> set_as fl Q gs ls.
  Proof.
    induction 1 as [g l H|a g b g' gs l ls H S IH]; intros F; inversion F; subst; constructor; auto.
  Qed.

  (** One line *)
  Lemma parts_text a cs : map part_text (line_parts fl (Some (threshold fl a)) (pc_x _ a) cs) = map snd (tl (placed fl (a :: cs))).
  Proof.
    revert a. induction cs as [|b cs IH]; intros a; [reflexivity|]. cbn [line_parts placed tl]. rewrite !map_app. cbn [map app]. rewrite IH.
    unfold new_word, word_end. fold (threshold fl a). destruct (_ || _); reflexivity.
  Qed.
  Lemma parts_places a cs : exact_coord fl -> absolute (f_coord fl (pc_x _ a)) (line_parts fl (Some (threshold fl a)) (pc_x _ a) cs) =
    map (fun p => (f_coord fl (fst p), snd p)) (tl (placed fl (a :: cs))).
  Proof.
    intros [_ X]. revert a. induction cs as [|b cs IH]; intros a; [reflexivity|]. cbn [line_parts placed tl]. rewrite !map_app.
    unfold new_word, word_end. fold (threshold fl a). destruct (_ || _); cbn [app map absolute p_dx part_text p_ch p_bold fst snd]; rewrite !X.
    - replace (f_coord fl (pc_x _ a) + (f_coord fl (threshold fl a) - f_coord fl (pc_x _ a)))%Z with (f_coord fl (threshold fl a)) by lia.
      replace (f_coord fl (threshold fl a) + (f_coord fl (pc_x _ b) - f_coord fl (threshold fl a)))%Z with (f_coord fl (pc_x _ b)) by lia.
      now rewrite IH.
    - replace (f_coord fl (pc_x _ a) + (f_coord fl (pc_x _ b) - f_coord fl (pc_x _ a)))%Z with (f_coord fl (pc_x _ b)) by lia. now rewrite IH.
  Qed.
  Lemma parts_last cs : forall prev x c, exists ps dx, line_parts fl prev x (cs ++ [c]) = ps ++ [mkPart dx (pc_ch _ c) (pc_bold _ c)].
  Proof.
    induction cs as [|a cs IH]; intros prev x c; cbn [app line_parts].
    - eexists _, _. reflexivity.
    - destruct (IH (Some (threshold fl a)) (pc_x _ a) c) as (ps & dx & ->). rewrite app_comm_cons, app_assoc. eexists _, _. reflexivity.
  Qed.
  Lemma drop_solid p ps : p_ch p <> 32%N -> drop_spaces (p :: ps) = p :: ps.
  Proof. intros H. cbn. now apply N.eqb_neq in H as ->. Qed.
  Lemma trim_solid cs : cs <> [] -> no_spaces fl cs -> trim_parts (line_parts fl None (f_zero fl) cs) = line_parts fl None (f_zero fl) cs.
  Proof.
    intros N S. destruct cs as [|a cs]; [contradiction|]. unfold trim_parts.
    assert (D : drop_spaces (line_parts fl None (f_zero fl) (a :: cs)) = line_parts fl None (f_zero fl) (a :: cs)).
    { cbn [line_parts app]. apply drop_solid. now inversion S. }
    rewrite D. destruct (@exists_last _ (a :: cs) N) as (cs' & c & E). rewrite E in *. destruct (parts_last cs' None (f_zero fl) c) as (ps & dx & ->).
    rewrite rev_app_distr. cbn [rev app]. rewrite drop_solid; [cbn [rev]; now rewrite rev_involutive|]. cbn [p_ch].
    unfold no_spaces in S. apply Forall_app in S as [_ S]. now inversion S.
  Qed.
  Lemma consolidate_line_of m cs : moves fl sort -> cs <> [] -> no_spaces fl cs -> line_of fl m (sort (by_x fl) cs) (consolidate m cs).
  Proof.
    intros P N S. unfold consolidate_line. assert (S' : no_spaces fl (sort (by_x fl) cs)).
    { unfold no_spaces in *. rewrite Forall_forall in *. intros x X. apply S. now apply (Permutation_in _ (P (by_x fl) cs)). }
    assert (N' : sort (by_x fl) cs <> []).
    { intros E. pose proof (P (by_x fl) cs) as H. rewrite E in H. now apply Permutation_nil in H. }
    destruct (@exists_last _ _ N') as (cs' & c & E). rewrite E in *. rewrite rev_app_distr. cbn [rev app].
    rewrite trim_solid by assumption. unfold line_of. cbn [l_parts l_bold l_just from_parts]. repeat split.
    - destruct (cs' ++ [c]) as [|a l]; [now destruct N'|]. cbn [line_parts app map placed part_text]. rewrite parts_text. reflexivity.
    - intros X. destruct (cs' ++ [c]) as [|a l]; [now destruct N'|]. cbn [line_parts app map absolute placed fst snd p_dx].
      destruct X as [Z X]. rewrite X, Z. replace (0 + (f_coord fl (pc_x _ a) - 0))%Z with (f_coord fl (pc_x _ a)) by lia.
      rewrite parts_places by now split. reflexivity.
    - intros c' l H. apply app_inj_tail in H as [_ <-]. reflexivity.
  Qed.
  Lemma sorted_x cs : sorts fl sort -> weak_order (f_lt fl) -> left_to_right fl (sort (by_x fl) cs).
  Proof.
    intros S W. assert (E : forall a b, is_less fl (by_x fl) a b = f_lt fl (pc_x _ a) (pc_x _ b)) by (intros; unfold is_less, by_x, compare_float; now destruct (f_lt _ _ _)).
    assert (H : StronglySorted (fun a b => is_less fl (by_x fl) b a = false) (sort (by_x fl) cs)).
    { apply S. destruct W as (W1 & W2 & W3). split; [|split]; intros *; rewrite !E; eauto. }
    unfold left_to_right. induction H as [|a l H IH F]; constructor; [exact IH|]. eapply Forall_impl; [|exact F]. intros b. cbv beta. now rewrite E.
  Qed.
  Lemma sorted_y cs : sorts fl sort -> weak_order (f_lt fl) -> top_to_bottom fl (sort (by_y fl) cs).
  Proof.
    intros S W. assert (E : forall a b, is_less fl (by_y fl) a b = f_lt fl (pc_y _ b) (pc_y _ a)) by (intros; unfold is_less, by_y, compare_float; now destruct (f_lt _ _ _)).
    assert (H : StronglySorted (fun a b => is_less fl (by_y fl) b a = false) (sort (by_y fl) cs)).
    { apply S. destruct W as (W1 & W2 & W3). split; [|split]; intros *; rewrite !E; eauto. }
    unfold top_to_bottom. induction H as [|a l H IH F]; constructor; [exact IH|]. eapply Forall_impl; [|exact F]. intros b. cbv beta. now rewrite E.
  Qed.
  Lemma c43_lines k : moves fl sort -> f_lt fl (f_zero fl) (f_half fl) = true -> cl_chars _ k <> [] -> no_spaces fl (cl_chars _ k) ->
    exists gs, Permutation (List.concat gs) (cl_chars _ k) /\ (sorts fl sort -> weak_order (f_lt fl) -> top_to_bottom fl (List.concat gs)) /\
    Forall (group_ok fl) gs /\ groups_apart fl gs /\
    set_as fl (fun g l => exists cs, Permutation cs g /\ (sorts fl sort -> weak_order (f_lt fl) -> left_to_right fl cs) /\
    line_of fl (right_edge fl (cl_chars _ k)) cs l) gs (page_of_lines fl sort k).
  Proof.
    intros P Z N S. unfold page_of_lines. set (m := right_margin fl (cl_chars _ k)). pose proof (P (by_y fl) (cl_chars _ k)) as Q.
    pose proof (sorted_y (cl_chars _ k)) as Y. destruct (sort (by_y fl) (cl_chars _ k)) as [|c cs] eqn:E.
    { apply Permutation_nil in Q. contradiction. }
    cbn [lines_loop]. rewrite Z. cbn [app]. destruct (loop_groups m cs c []) as (gs & t & C & G & A & L); [constructor|].
    exists ((c :: t) :: gs). rewrite C. split; [exact Q|]. split; [exact Y|]. split; [exact G|]. split; [exact A|].
    eapply set_as_impl; [exact L|]. apply Forall_forall. intros g Hg l ->. exists (sort (by_x fl) g). split; [apply P|]. split; [apply sorted_x|].
    apply consolidate_line_of; [exact P| |].
    - rewrite Forall_forall in G. specialize (G g Hg). now destruct g.
    - unfold no_spaces in *. rewrite Forall_forall in *. intros x X. apply S. apply (Permutation_in _ Q).
      change (c :: cs) with ([c] ++ cs). rewrite <- C. apply in_concat. now exists g.
  Qed.
  Lemma c43_empty k : moves fl sort -> cl_chars _ k = [] -> page_of_lines fl sort k = [empty_line].
  Proof.
    intros P E. unfold page_of_lines. rewrite E. pose proof (P (by_y fl) []) as Q. apply Permutation_sym, Permutation_nil in Q. rewrite Q. cbn [lines_loop].
    unfold consolidate_line. pose proof (P (by_x fl) []) as R. apply Permutation_sym, Permutation_nil in R. now rewrite R.
  Qed.
End Lines.
