(** Written lists of elements are read back (C62): any element type. *)
From Verif Require Import ProofBase ProofText ProofText2 ProofStruct2.
From Verif Require Export ProofWritten.
From Coq Require Import Lia.

Lemma qc_step_ok q l : (0 <= q_level q + depth (content l))%Z ->
  exists q', qc_step q l = Ok q' /\ q_level q' = (q_level q + depth (content l))%Z /\ q_begin q' = (0 <? q_level q)%Z.
Proof.
  intros H. apply qc_update_ok in H. unfold qc_step. pose proof (qc_update_level q l) as L.
  assert (B : q_begin (fst (qc_update q l)) = (0 <? q_level q)%Z) by reflexivity.
  destruct (qc_update q l) as [q1 r]. cbn [fst snd] in *. subst r. cbn [obind]. eauto.
Qed.
Lemma check_end_zero q : q_level q = 0%Z -> qc_check_end q = Ok tt.
Proof. intros H. unfold qc_check_end. rewrite H. reflexivity. Qed.
Lemma position_none {A} (f : A -> bool) l : Forall (fun x => f x = false) l -> position f l = None.
Proof. induction 1 as [|x l E F IH]; cbn; [reflexivity|]. now rewrite E, IH. Qed.
Lemma position_app {A} (f : A -> bool) a x b : Forall (fun x => f x = false) a -> f x = true -> position f (a ++ x :: b) = Some (List.length a).
Proof. intros F E. induction F as [|y a Ey F IH]; cbn; [now rewrite E|]. now rewrite Ey, IH. Qed.
Lemma last_line_snoc a l : last_line (a ++ [l]) = if l_empty l then last_line a else Some l.
Proof.
  unfold last_line. rewrite nonempty_app, nonempty_one, map_app. destruct (l_empty l); cbn [map].
  - now rewrite app_nil_r.
  - apply last_last.
Qed.
Lemma join_app_one a l : join (a ++ [l]) = append_to l (join a).
Proof. apply c20_join_snoc. Qed.
Lemma keep_wrap wl g : keep_rest (wrap_text wl) g = wrap_text (wl ++ g).
Proof.
  revert wl. induction g as [|l g IH]; intros wl; cbn.
  - now rewrite app_nil_r.
  - unfold keep_rest in IH. replace (add_wrap (wrap_text wl) l) with (wrap_text (wl ++ [l])).
    + rewrite IH, <- app_assoc. reflexivity.
    + destruct wl as [|x wl]; cbn [wrap_text app add_wrap].
      * now rewrite c20_single.
      * change (x :: wl ++ [l]) with ((x :: wl) ++ [l]). now rewrite join_app_one.
Qed.
Lemma text_snoc_depth a l : depth (text (a ++ [l])) = (depth (text a) + depth (content l))%Z.
Proof. now rewrite depth_text_app, text_one. Qed.

Section Read.
  Context {I C : Type} `{IdentCommon I}.
  Variable header : line -> outcome (option (I * line)).
  Variable children : pctx -> I -> option line -> list line -> outcome (em_result C).
  Variable ctx : pctx.
  Variable hd : line -> I -> line -> Prop.
  Variable alone : line -> Prop.
  Variable succ : I -> I -> Prop.
  Variable opens : I -> option line -> line -> Prop.
  Variable wch : I -> option line -> C -> list line -> list line -> list line -> Prop.
  Hypothesis Hh : exact_header header hd alone.
  Hypothesis Ha : forall l, alone l -> ~ not_ending_in_space l.
  Hypothesis Hd : forall l i r, hd l i r -> depth (content l) = depth (content r) /\ (not_ending_in_space l -> not_ending_in_space r).
  Hypothesis Hs : forall l i r l' i' r', hd l i r -> hd l' i' r' -> (id_next i i' = true <-> succ i i').
  Hypothesis Hc : forall i prev c wl g ls, Forall not_ending_in_space ls -> wch i prev c wl g ls ->
    ls <> [] /\ children ctx i prev ls = Ok (mkEm c (wrap_text wl) g).
  Hypothesis Hno : forall i prev l ls, not_ending_in_space l -> ~ opens i prev l -> children ctx i prev (l :: ls) = Err.

  (** Lines before the children, or all lines of a text *)
  Lemma scan_quiet i : forall b a q rest, q_level q = depth (text a) -> Forall not_ending_in_space b ->
    (forall x y, b = x ++ y -> (0 <= depth (text (a ++ x)))%Z) ->
    (forall x l y, b = x ++ l :: y -> balanced (a ++ x) -> ~ opens i (last_line (a ++ x)) l) ->
    exists q', q_level q' = depth (text (a ++ b)) /\
    parse_scan children ctx i q (last_line a) (join a) (b ++ rest) =
    parse_scan children ctx i q' (last_line (a ++ b)) (join (a ++ b)) rest.
  Proof.
    intros b. induction b as [|l b IH]; intros a q rest Q N P O.
    - rewrite app_nil_r. now exists q.
    - apply Forall_cons_iff in N. destruct N as [N1 N2]. cbn [app parse_scan].
      assert (P1 : (0 <= q_level q + depth (content l))%Z).
      { rewrite Q, <- text_snoc_depth. apply (P [l] b). reflexivity. }
      destruct (qc_step_ok q l P1) as (q1 & -> & L1 & B1). cbn [obind].
      destruct (IH (a ++ [l]) q1 rest) as (q' & Q' & E).
      { now rewrite L1, text_snoc_depth, Q. }
      { exact N2. }
      { intros x y ->. rewrite <- app_assoc. apply (P (l :: x) y). reflexivity. }
      { intros x m y -> B. rewrite <- app_assoc in *. apply (O (l :: x) m y); [reflexivity|exact B]. }
      rewrite <- app_assoc in Q', E. cbn [app] in Q', E. exists q'. split; [exact Q'|]. rewrite <- E.
      rewrite last_line_snoc, join_app_one.
      destruct (q_begin q1) eqn:Eb; [reflexivity|].
      rewrite Hno; [reflexivity|exact N1|]. specialize (O [] l b eq_refl). rewrite app_nil_r in O. apply O.
      unfold balanced. rewrite <- Q. rewrite B1 in Eb. specialize (P [] (l :: b) eq_refl). rewrite app_nil_r, <- Q in P. lia.
  Qed.
  Lemma read_body giving i b given ls : Forall not_ending_in_space ls -> (giving = true -> ctx = BlockAm) ->
    w_body opens wch giving i b given ls ->
    sae_parse children ctx (if giving then GiveIt else KeepIt) i ls = Ok (new_sae i b, given).
  Proof.
    intros N G [[B P] W]. unfold sae_parse. destruct b as [t|intro c w].
    - destruct W as (own & E & T & Q & J).
      destruct (scan_quiet i ls [] qc_default [] eq_refl N) as (q' & Q' & S).
      { intros x y ->. exact (P x y eq_refl). }
      { intros x l y -> Bx. exact (Q x l y eq_refl Bx). }
      rewrite app_nil_r in S. cbn [app] in S, Q'. change (last_line []) with (@None line) in S. change (join []) with (@nil char) in S.
      rewrite S. cbn [parse_scan]. rewrite check_end_zero by (rewrite Q'; exact B). cbn [obind].
      destruct giving.
      + rewrite (G eq_refl). destruct J as [(a & l & -> & Fa & Fl)|[F ->]].
        * rewrite E at 1. rewrite <- app_assoc. cbn [app]. rewrite position_app.
          -- replace (firstn (List.length a + 1) ls) with (a ++ [l]).
             2:{ rewrite E. rewrite firstn_app. rewrite firstn_all2 by (rewrite app_length; cbn; lia).
                 replace (List.length a + 1 - List.length (a ++ [l]))%nat with 0%nat by (rewrite app_length; cbn; lia).
                 cbn. now rewrite app_nil_r. }
             replace (skipn (List.length a + 1) ls) with given.
             2:{ rewrite E. rewrite skipn_app. rewrite skipn_all2 by (rewrite app_length; cbn; lia).
                 replace (List.length a + 1 - List.length (a ++ [l]))%nat with 0%nat by (rewrite app_length; cbn; lia).
                 reflexivity. }
             now rewrite T.
          -- eapply Forall_impl; [|exact Fa]. cbv beta. intros x ->. reflexivity.
          -- now rewrite Fl.
        * rewrite app_nil_r in E. subst own. rewrite position_none.
          -- now rewrite T.
          -- eapply Forall_impl; [|exact F]. cbv beta. intros x ->. reflexivity.
      + subst given. rewrite app_nil_r in E. subst own. rewrite T. destruct ctx; reflexivity.
    - destruct W as (pre & mid & wl & g & -> & Bp & -> & Q & Wc & W).
      apply Forall_app in N. destruct N as [N1 N2].
      destruct (scan_quiet i pre [] qc_default mid eq_refl N1) as (q' & Q' & S).
      { intros x y ->. apply (P x (y ++ mid)). now rewrite app_assoc. }
      { intros x l y -> Bx. exact (Q x l y eq_refl Bx). }
      cbn [app] in S, Q'. change (last_line []) with (@None line) in S. change (join []) with (@nil char) in S.
      rewrite S. destruct (Hc i (last_line pre) c wl g mid N2 Wc) as [Nm Hm]. destruct mid as [|l mid]; [congruence|].
      cbn [parse_scan].
      assert (P1 : (0 <= q_level q' + depth (content l))%Z).
      { rewrite Q', <- text_snoc_depth. apply (P (pre ++ [l]) mid). now rewrite <- app_assoc. }
      destruct (qc_step_ok q' l P1) as (q1 & -> & L1 & B1). cbn [obind].
      rewrite B1, Q'. unfold balanced in Bp. rewrite Bp. cbn [Z.ltb Z.compare]. rewrite Hm. cbn [obind em_elems em_wrap em_rest].
      destruct giving.
      + destruct W as [-> ->]. reflexivity.
      + destruct W as [-> ->]. now rewrite <- keep_wrap.
  Qed.
  (** Lines that go on with the unfinished element *)
  Lemma loop_goes_on hi i : forall tl a q body acc rest, q_level q = depth (text a) -> Forall not_ending_in_space tl ->
    (forall x y, tl = x ++ y -> (0 <= depth (text (a ++ x)))%Z) ->
    (forall x l y, tl = x ++ l :: y -> balanced (a ++ x) -> at_margin hi l -> forall j r, hd l j r -> id_next j i = false) ->
    exists q', q_level q' = depth (text (a ++ tl)) /\
    em_loop header children ctx hi q i body acc (tl ++ rest) =
    em_loop header children ctx hi q' i (body ++ nonempty tl) acc rest.
  Proof.
    intros tl. induction tl as [|l tl IH]; intros a q body acc rest Q N P O.
    - rewrite app_nil_r. exists q. split; [exact Q|]. cbn. now rewrite app_nil_r.
    - apply Forall_cons_iff in N. destruct N as [N1 N2]. cbn [app em_loop].
      assert (P1 : (0 <= q_level q + depth (content l))%Z).
      { rewrite Q, <- text_snoc_depth. apply (P [l] tl). reflexivity. }
      destruct (qc_step_ok q l P1) as (q1 & -> & L1 & B1). cbn [obind].
      assert (E : (if q_begin q1 then Ok None else check_header header i hi l) = Ok None).
      { destruct (q_begin q1) eqn:Eb; [reflexivity|]. unfold check_header.
        destruct (indent_less_or_eq l hi) eqn:Ei; [|reflexivity]. cbn [negb].
        destruct (Hh l) as (A & B & D). destruct (header l) as [[[j r]|]| |] eqn:El; cbn [obind]; [| |congruence|].
        - assert (Hj : hd l j r) by now apply A. rewrite (O [] l tl eq_refl) with (r := r); [reflexivity| |now apply Z.ltb_lt|exact Hj].
          rewrite app_nil_r. unfold balanced. rewrite <- Q. specialize (P [] (l :: tl) eq_refl). rewrite app_nil_r, <- Q in P. lia.
        - reflexivity.
        - exfalso. apply (Ha l); [now apply B|exact N1]. }
      rewrite E. cbn [obind].
      destruct (IH (a ++ [l]) q1 (if l_empty l then body else body ++ [l]) acc rest) as (q' & Q' & X).
      { now rewrite L1, text_snoc_depth, Q. }
      { exact N2. }
      { intros x y ->. rewrite <- app_assoc. apply (P (l :: x) y). reflexivity. }
      { intros x m y -> Bx. rewrite <- app_assoc in Bx. apply (O (l :: x) m y); [reflexivity|exact Bx]. }
      rewrite <- app_assoc in Q'. exists q'. split; [exact Q'|]. rewrite X. f_equal. unfold nonempty. cbn [filter].
      destruct (l_empty l); cbn [negb]; [reflexivity|]. now rewrite <- app_assoc.
  Qed.
  Lemma fresh_eq (e : sae I C) : fresh e -> new_sae (s_id e) (s_body e) = e.
  Proof. destruct e as [i b s c]. unfold fresh, new_sae. cbn. now intros [-> ->]. Qed.
  Lemma nes_nonempty ls : Forall not_ending_in_space ls -> Forall not_ending_in_space (nonempty ls).
  Proof. intros F. rewrite Forall_forall in *. intros x X. apply filter_In in X. now apply F. Qed.
  Variable wrapped : bool.
  Lemma read_list hi es wl given ls : w_list ctx hd succ opens wch wrapped hi es wl given ls ->
    forall e es' hl tl r acc q, es = e :: es' -> ls = hl :: tl -> Forall not_ending_in_space ls ->
    hd hl (s_id e) r -> q_level q = depth (content hl) ->
    (let* (ib, elems) := em_loop header children ctx hi q (s_id e) [r] acc tl in
     em_finish children ctx wrapped hi (fst ib) (snd ib) elems) = Ok (mkEm (acc ++ es) (wrap_text wl) given).
  Proof.
    intros W. induction W as [e wl given hl tl r1 Hr [B P] G F W|e e2 es wl given hl tl r1 hl2 ls Hr [B P] G F Wb M S W IH];
      intros e0 es0 hl0 tl0 r acc q E1 E2 N Hr' Q.
    - injection E1 as <- <-. injection E2 as <- <-.
      assert (r1 = r) by (pose proof (proj1 (Hh hl)) as U; apply U in Hr; apply U in Hr'; congruence). subst r1.
      apply Forall_cons_iff in N. destruct N as [Nh N].
      destruct (loop_goes_on hi (s_id e) tl [hl] q [r] acc [] ltac:(now rewrite text_one) N) as (q' & Q' & X).
      { intros x y ->. exact (P (hl :: x) y eq_refl). }
      { intros x l y E Bx A j r' Hj. destruct (id_next j (s_id e)) eqn:En; [|reflexivity]. exfalso.
        apply (Hs _ _ _ _ _ _ Hj Hr) in En. exact (G x l y E Bx A j r' Hj En). }
      rewrite app_nil_r in X. rewrite X. cbn [em_loop]. rewrite check_end_zero by (rewrite Q'; exact B). cbn [obind fst snd app].
      assert (Nr : Forall not_ending_in_space (r :: nonempty tl)).
      { constructor; [now apply (Hd _ _ _ Hr)|now apply nes_nonempty]. }
      pose proof (read_body false (s_id e) (s_body e)) as RBf. pose proof (read_body true (s_id e) (s_body e)) as RBt. cbv iota in RBf, RBt.
      unfold em_finish. destruct wrapped.
      + destruct ctx eqn:Ec.
        * destruct W as (own & Eo & Wb & Fo & Fw & ->). rewrite Eo in Nr |- *. apply Forall_app in Nr. destruct Nr as [Nr _].
          assert (Fo' : Forall (fun x => indent_less_or_eq x hi = false) own).
          { eapply Forall_impl; [|exact Fo]. cbv beta. unfold at_margin, indent_less_or_eq. intros x. lia. }
          pose proof (RBf [] own Nr ltac:(discriminate) Wb) as RB.
          rewrite (fresh_eq e F) in RB. destruct wl as [|w wl].
          -- rewrite app_nil_r. rewrite position_none by exact Fo'. rewrite RB. reflexivity.
          -- rewrite position_app; [|exact Fo'|unfold indent_less_or_eq; now apply Z.ltb_lt].
             rewrite firstn_app, firstn_all, Nat.sub_diag, skipn_app, skipn_all, Nat.sub_diag. cbn [firstn skipn app].
             rewrite app_nil_r, RB. reflexivity.
        * destruct W as [Wb J].
          pose proof (RBt (wl ++ given) _ Nr ltac:(reflexivity) Wb) as RB.
          rewrite (fresh_eq e F) in RB. rewrite RB. cbn [obind]. destruct J as [(a & l & -> & Fa & Fl)|[Fj ->]].
          -- rewrite <- app_assoc. cbn [app]. rewrite position_app.
             ++ replace (firstn (List.length a + 1) (a ++ l :: given)) with (a ++ [l]).
                2:{ rewrite firstn_app, firstn_all2 by lia. now replace (List.length a + 1 - List.length a)%nat with 1%nat by lia. }
                replace (skipn (List.length a + 1) (a ++ l :: given)) with given.
                2:{ rewrite skipn_app, skipn_all2 by lia. now replace (List.length a + 1 - List.length a)%nat with 1%nat by lia. }
                f_equal. f_equal. destruct a; reflexivity.
             ++ eapply Forall_impl; [|exact Fa]. cbv beta. intros x ->. reflexivity.
             ++ now rewrite Fl.
          -- rewrite app_nil_r. rewrite position_none.
             ++ f_equal. f_equal. destruct wl; reflexivity.
             ++ eapply Forall_impl; [|exact Fj]. cbv beta. intros x ->. reflexivity.
      + destruct W as (Wb & -> & ->).
        pose proof (read_body false (s_id e) (s_body e) [] _ Nr ltac:(discriminate) Wb) as RB. cbv iota in RB.
        rewrite (fresh_eq e F) in RB. rewrite RB. reflexivity.
    - injection E1 as <- <-. cbn [app] in E2. injection E2 as <- <-.
      assert (r1 = r) by (pose proof (proj1 (Hh hl)) as U; apply U in Hr; apply U in Hr'; congruence). subst r1.
      cbn [app] in N. apply Forall_cons_iff in N. destruct N as [Nh N]. apply Forall_app in N. destruct N as [N N2].
      destruct (loop_goes_on hi (s_id e) tl [hl] q [r] acc (hl2 :: ls) ltac:(now rewrite text_one) N) as (q' & Q' & X).
      { intros x y ->. exact (P (hl :: x) y eq_refl). }
      { intros x l y E Bx A j r' Hj. destruct (id_next j (s_id e)) eqn:En; [|reflexivity]. exfalso.
        apply (Hs _ _ _ _ _ _ Hj Hr) in En. exact (G x l y E Bx A j r' Hj En). }
      rewrite X. cbn [em_loop app].
      assert (Hr2 : exists r2, hd hl2 (s_id e2) r2 /\ (0 <= depth (content hl2))%Z).
      { inversion W as [e9 wl9 given9 hl9 tl9 r9 Hr9 [_ P9] _ _ _ Ee Ew Eg El|e9 e9' es9 wl9 given9 hl9 tl9 r9 hl9' ls9 Hr9 [_ P9] _ _ _ _ _ _ Ee Ew Eg El]; subst.
        - exists r9. split; [exact Hr9|]. specialize (P9 [hl2] ls eq_refl). now rewrite text_one in P9.
        - exists r9. split; [exact Hr9|]. specialize (P9 [hl2] tl9 eq_refl). now rewrite text_one in P9. }
      destruct Hr2 as (r2 & Hr2 & D2). change (depth (text (hl :: tl)) = 0%Z) in B. cbn [app] in Q'.
      destruct (qc_step_ok q' hl2) as (q2 & -> & L2 & B2); [rewrite Q', B; exact D2|]. cbn [obind].
      rewrite B2, Q', B. rewrite Z.ltb_irrefl. unfold check_header.
      replace (indent_less_or_eq hl2 hi) with true by (symmetry; unfold indent_less_or_eq; now apply Z.ltb_lt). cbn [negb].
      replace (header hl2) with (Ok (Some (s_id e2, r2))) by (symmetry; now apply Hh). cbn [obind].
      replace (id_next (s_id e2) (s_id e)) with true by (symmetry; apply (Hs _ _ _ _ _ _ Hr2 Hr); exact S). cbn [obind].
      assert (Nr : Forall not_ending_in_space (r :: nonempty tl)).
      { constructor; [now apply (Hd _ _ _ Hr)|now apply nes_nonempty]. }
      pose proof (read_body false (s_id e) (s_body e) [] _ Nr ltac:(discriminate) Wb) as RB. cbv iota in RB.
      rewrite (fresh_eq e F) in RB. rewrite RB. cbn [obind].
      specialize (IH e2 es hl2 ls r2 (acc ++ [e]) q2 eq_refl eq_refl N2 Hr2).
      rewrite IH by (rewrite L2, Q', B; reflexivity). rewrite <- app_assoc. reflexivity.
  Qed.
  Lemma read_siblings (first : I -> Prop) exp many es wl given ls :
    (forall l i r, hd l i r -> first i -> (match exp with Some e => id_eqb i e | None => id_first i end) = true) ->
    (many = true -> (2 <= List.length es)%nat) -> Forall not_ending_in_space ls ->
    w_siblings ctx hd succ opens wch wrapped first es wl given ls ->
    extract_multiple header children ctx wrapped many exp ls = Ok (mkEm es (wrap_text wl) given).
  Proof.
    intros Hf M N (e & es' & hl & tl & -> & -> & F & W). unfold extract_multiple.
    assert (Hr : exists r, hd hl (s_id e) r /\ (0 <= depth (content hl))%Z).
    { inversion W as [e9 wl9 given9 hl9 tl9 r9 Hr9 [_ P9] _ _ _ Ee Ew Eg El|e9 e9' es9 wl9 given9 hl9 tl9 r9 hl9' ls9 Hr9 [_ P9] _ _ _ _ _ _ Ee Ew Eg El]; subst.
      - exists r9. split; [exact Hr9|]. specialize (P9 [hl] tl eq_refl). now rewrite text_one in P9.
      - exists r9. split; [exact Hr9|]. specialize (P9 [hl] tl9 eq_refl). now rewrite text_one in P9. }
    destruct Hr as (r & Hr & D). replace (header hl) with (Ok (Some (s_id e, r))) by (symmetry; now apply Hh). cbn [obind].
    rewrite (Hf _ _ _ Hr F). cbn [ensure obind]. destruct (Hd _ _ _ Hr) as [Dr _].
    destruct (qc_step_ok qc_default r) as (q1 & -> & L1 & B1); [cbn; lia|]. cbn [obind].
    pose proof (read_list (indent hl) _ _ _ _ W e es' hl tl r [] q1 eq_refl eq_refl N Hr) as X.
    cbn [q_level qc_default] in L1. specialize (X ltac:(rewrite L1, <- Dr; cbn; lia)).
    apply obind_ok in X. destruct X as ([ib elems] & E & X). rewrite E. cbn [obind].
    rewrite X. cbn [obind em_elems app]. destruct many; [|reflexivity].
    replace (negb true || (1 <? List.length (e :: es'))%nat) with true by (symmetry; specialize (M eq_refl); cbn [negb orb]; apply Nat.ltb_lt; exact M).
    reflexivity.
  Qed.
End Read.
