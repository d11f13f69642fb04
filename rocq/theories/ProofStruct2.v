(** Proofs about SAEParser::parse and extract_multiple for any element type (C28, C29, C31). *)
From Verif Require Import ProofBase ProofText ProofText2.
From Verif Require Export ProofStruct.

Lemma qc_step_inv q l q' : qc_step q l = Ok q' ->
  q_level q' = (q_level q + depth (content l))%Z /\ q_begin q' = (0 <? q_level q)%Z /\
  q_end q' = (0 <? q_level q')%Z /\ (0 <= q_level q')%Z.
Proof.
  unfold qc_step. pose proof (qc_update_level q l) as L. pose proof (qc_update_ok q l) as K.
  assert (B : q_begin (fst (qc_update q l)) = (0 <? q_level q)%Z) by reflexivity.
  assert (E : q_end (fst (qc_update q l)) = (0 <? q_level (fst (qc_update q l)))%Z) by reflexivity.
  destruct (qc_update q l) as [q1 r]. cbn [fst snd] in *. destruct r as [[]| |]; cbn [obind]; try discriminate.
  intros H. apply Ok_inj in H. subst q'. destruct K as [K _]. specialize (K eq_refl). repeat split; try assumption. lia.
Qed.
Lemma qc_step_not_panic q l : qc_step q l <> Panic.
Proof.
  unfold qc_step. pose proof (qc_update_err q l). destruct (qc_update q l) as [q' [[]| |]]; cbn in *; congruence.
Qed.
Lemma obind_ok {A B} (x : outcome A) (k : A -> outcome B) b : obind x k = Ok b -> exists a, x = Ok a /\ k a = Ok b.
Proof. destruct x; cbn; intros H; try discriminate. eauto. Qed.
Lemma ensure_ok b u : ensure b = Ok u -> b = true.
Proof. unfold ensure. now destruct b. Qed.
Lemma check_end_ok q u : qc_check_end q = Ok u -> q_level q = 0%Z.
Proof. unfold qc_check_end. intros H. apply ensure_ok in H. now apply Z.eqb_eq. Qed.
Lemma text_app a b : text (a ++ b) = text a ++ text b.
Proof. unfold text. now rewrite map_app, concat_app. Qed.
Lemma text_cons l b : text (l :: b) = content l ++ text b.
Proof. reflexivity. Qed.
Lemma text_one l : text [l] = content l.
Proof. unfold text. cbn. apply app_nil_r. Qed.
Lemma depth_text_app a b : depth (text (a ++ b)) = (depth (text a) + depth (text b))%Z.
Proof. now rewrite text_app, depth_app. Qed.
Lemma balanced_app a b : balanced a -> balanced b -> balanced (a ++ b).
Proof. unfold balanced. rewrite depth_text_app. lia. Qed.
Lemma nonempty_app a b : nonempty (a ++ b) = nonempty a ++ nonempty b.
Proof. apply filter_app. Qed.
Lemma nonempty_one l : nonempty [l] = if l_empty l then [] else [l].
Proof. unfold nonempty. cbn. now destruct (l_empty l). Qed.
Lemma depth_repeat_space n : depth (repeat (chr " ") n) = 0%Z.
Proof. induction n; [reflexivity|]. cbn [repeat]. change (chr " " :: repeat (chr " ") n) with ([chr " "] ++ repeat (chr " ") n).
  rewrite depth_app, IHn. reflexivity. Qed.
Lemma chain_app_one {A} (R : A -> A -> Prop) l : forall x y, chain R (l ++ [x]) -> R y x -> chain R ((l ++ [x]) ++ [y]).
Proof.
  induction l as [|a l IH]; intros x y H Hr; cbn [app] in *.
  - constructor; [exact Hr|constructor].
  - destruct l as [|b l]; cbn [app] in *.
    + inversion H; subst. constructor; [assumption|]. now apply (IH x y).
    + inversion H; subst. constructor; [assumption|]. now apply (IH x y).
Qed.
Lemma wrap_of_app w a b : wrap_of w a -> wrap_of (keep_rest w b) (a ++ b).
Proof.
  revert w a. induction b as [|l b IH]; intros w a H; cbn [keep_rest fold_left].
  - now rewrite app_nil_r.
  - fold (keep_rest (add_wrap w l) b). replace (a ++ l :: b) with ((a ++ [l]) ++ b) by now rewrite <- app_assoc.
    apply IH. right. split; [|now destruct a].
    destruct H as [[-> ->]|[-> Ha]]; cbn [add_wrap app].
    + now rewrite c20_single.
    + now rewrite c20_join_snoc.
Qed.

Section Generic.
  Context {I C : Type} `{IdentCommon I}.
  Variable header : line -> outcome (option (I * line)).
  Variable children : pctx -> I -> option line -> list line -> outcome (em_result C).
  Variable label : str -> I -> Prop.
  Variable lay_children : I -> C -> option str -> list line -> list line -> Prop.
  Variable iok : I -> Prop.
  Variable cok : I -> C -> Prop.
  Hypothesis header_heads : forall l i r, header l = Ok (Some (i, r)) -> heads label l i r /\ iok i.
  Hypothesis label_quotes : forall s i, label s i -> depth s = 0%Z.
  Hypothesis children_lay : forall ctx i prev ls e, children ctx i prev ls = Ok e ->
    lay_children i (em_elems e) (em_wrap e) (em_rest e) ls /\ cok i (em_elems e).
  Hypothesis children_keep : forall i c w g ls, lay_children i c w g ls -> lay_children i c (keep_rest w g) [] ls.

  Definition body_cok (i : I) (b : sae_body C) : Prop := match b with BText _ => True | BChildren _ c _ => cok i c end.
  Definition fresh (e : sae I C) : Prop := s_si e = si_default /\ s_change e = None.

  Lemma heads_depth l i r : heads label l i r -> depth (content l) = depth (content r).
  Proof.
    intros Hh. apply heads_content in Hh. destruct Hh as (s & n & L & -> & _).
    rewrite !depth_app, depth_repeat_space, (label_quotes _ _ L). lia.
  Qed.
  Lemma parse_scan_inv ctx id body : forall q prev intro pre0 s found,
    parse_scan children ctx id q prev intro body = Ok (s, found) ->
    intro = join pre0 -> q_level q = depth (text pre0) -> (0 <= q_level q)%Z ->
    match found with
    | None => s = join (pre0 ++ body) /\ balanced (pre0 ++ body)
    | Some e => exists pre mid prev', body = pre ++ mid /\ balanced (pre0 ++ pre) /\ s = join (pre0 ++ pre) /\
                  children ctx id prev' mid = Ok e
    end.
  Proof.
    induction body as [|l body IH]; intros q prev intro pre0 s found Hs Hi Hq Hp; cbn [parse_scan] in Hs.
    - apply obind_ok in Hs. destruct Hs as (u & Hc & Hs). apply check_end_ok in Hc.
      apply Ok_inj in Hs. injection Hs as <- <-. rewrite app_nil_r. split; [exact Hi|]. unfold balanced. lia.
    - apply obind_ok in Hs. destruct Hs as (q' & Hq' & Hs). apply qc_step_inv in Hq'. destruct Hq' as (L & B & _ & P).
      assert (next : parse_scan children ctx id q' (if l_empty l then prev else Some l) (append_to l intro) body = Ok (s, found) ->
        match found with
        | None => s = join (pre0 ++ l :: body) /\ balanced (pre0 ++ l :: body)
        | Some e => exists pre mid prev', l :: body = pre ++ mid /\ balanced (pre0 ++ pre) /\ s = join (pre0 ++ pre) /\
                      children ctx id prev' mid = Ok e
        end).
      { intros Hn. apply (IH _ _ _ (pre0 ++ [l])) in Hn.
        - destruct found as [e|].
          + destruct Hn as (pre & mid & prev' & -> & Hb & -> & Hc). exists (l :: pre), mid, prev'.
            rewrite <- app_assoc in Hb. rewrite <- app_assoc. auto.
          + rewrite <- !app_assoc in Hn. exact Hn.
        - rewrite c20_join_snoc. now subst intro.
        - rewrite depth_text_app, text_one. lia.
        - exact P. }
      destruct (q_begin q') eqn:Eb; [now apply next|].
      destruct (children ctx id prev (l :: body)) as [e| |] eqn:Ec; [|now apply next|discriminate].
      apply Ok_inj in Hs. injection Hs as <- <-. exists [], (l :: body), prev.
      rewrite app_nil_r. split; [reflexivity|]. split; [|split; [exact Hi|exact Ec]].
      symmetry in B. apply Z.ltb_ge in B. unfold balanced. lia.
  Qed.
  Lemma sae_parse_inv ctx mode id body e g : sae_parse children ctx mode id body = Ok (e, g) ->
    s_id e = id /\ fresh e /\ body_cok id (s_body e) /\ lay_body lay_children id (s_body e) g body /\
    (mode = KeepIt -> g = []).
  Proof.
    unfold sae_parse. intros Hs. apply obind_ok in Hs. destruct Hs as ([intro found] & Hp & Hs).
    apply (parse_scan_inv _ _ _ _ _ _ []) in Hp; [|reflexivity|reflexivity|cbn; lia].
    destruct found as [r|].
    - destruct Hp as (pre & mid & prev & -> & Hb & -> & Hc). cbn [app] in *.
      apply children_lay in Hc. destruct Hc as [Hl Hk]. destruct mode; apply Ok_inj in Hs; injection Hs as <- <-; cbn.
      + repeat split; try assumption. exists pre, mid. repeat split; try assumption. now apply children_keep.
      + repeat split; try assumption; [|discriminate]. exists pre, mid. auto.
    - destruct Hp as [-> Hb]. cbn [app] in *.
      assert (T : new_sae id (BText (join body)) = e -> [] = g ->
        s_id e = id /\ fresh e /\ body_cok id (s_body e) /\ lay_body lay_children id (s_body e) g body /\ (mode = KeepIt -> g = [])).
      { intros <- <-. cbn. repeat split. exists body. now rewrite app_nil_r. }
      destruct ctx, mode; try (apply Ok_inj in Hs; injection Hs as He Hg; now apply T).
      destruct (position _ body) as [k|].
      + apply Ok_inj in Hs. injection Hs as <- <-. cbn. repeat split; [|discriminate].
        exists (firstn (k + 1) body). now rewrite firstn_skipn.
      + apply Ok_inj in Hs. injection Hs as He Hg. now apply T.
  Qed.

  (** One finished element with its header. *)
  Lemma finished ctx id hl tl r e g : heads label hl id r -> sae_parse children ctx KeepIt id (r :: nonempty tl) = Ok (e, g) ->
    s_id e = id /\ fresh e /\ body_cok (s_id e) (s_body e) /\ lay_elem label lay_children e [] (hl :: tl).
  Proof.
    intros Hh Hs. apply sae_parse_inv in Hs. destruct Hs as (Hi & Hf & Hk & Hl & Hg). rewrite (Hg eq_refl) in Hl.
    repeat split; try apply Hf; try assumption.
    - now rewrite Hi.
    - exists hl, tl, r, (r :: nonempty tl), [], []. rewrite Hi, app_nil_r. auto.
  Qed.
  Lemma em_loop_inv ctx hi lines : forall q id body elems id' body' elems' hl tl r,
    em_loop header children ctx hi q id body elems lines = Ok (id', body', elems') ->
    heads label hl id r -> iok id -> body = r :: nonempty tl -> q_level q = depth (text (hl :: tl)) -> (0 <= q_level q)%Z ->
    exists es init hl' tl' r',
      elems' = elems ++ es /\ hl :: tl ++ lines = init ++ hl' :: tl' /\ heads label hl' id' r' /\
      body' = r' :: nonempty tl' /\ balanced (hl' :: tl') /\ balanced init /\
      (forall e given ls, lay_elem label lay_children e given ls -> lay_list label lay_children (es ++ [e]) given (init ++ ls)) /\
      chain (fun y x => id_next y x = true) (map s_id es ++ [id']) /\ List.hd id (map s_id es ++ [id']) = id /\
      Forall fresh es /\ Forall (fun e => body_cok (s_id e) (s_body e)) es /\ Forall iok (map s_id es ++ [id']).
  Proof.
    induction lines as [|l lines IH]; intros q id body elems id' body' elems' hl tl r Hl Hh Ho Hb Hq Hp; cbn [em_loop] in Hl.
    - apply obind_ok in Hl. destruct Hl as (u & Hc & Hl). apply check_end_ok in Hc.
      apply Ok_inj in Hl. injection Hl as <- <- <-. exists [], [], hl, tl, r.
      rewrite !app_nil_r. cbn [app map]. repeat split; try assumption; try constructor; try (unfold balanced; lia).
      + assumption.
      + assumption.
      + constructor.
    - apply obind_ok in Hl. destruct Hl as (q' & Hq' & Hl). apply qc_step_inv in Hq'. destruct Hq' as (L & B & _ & P).
      assert (next : em_loop header children ctx hi q' id (if l_empty l then body else body ++ [l]) elems lines = Ok (id', body', elems') ->
        exists es init hl' tl' r',
        elems' = elems ++ es /\ hl :: tl ++ l :: lines = init ++ hl' :: tl' /\ heads label hl' id' r' /\
        body' = r' :: nonempty tl' /\ balanced (hl' :: tl') /\ balanced init /\
        (forall e given ls, lay_elem label lay_children e given ls -> lay_list label lay_children (es ++ [e]) given (init ++ ls)) /\
        chain (fun y x => id_next y x = true) (map s_id es ++ [id']) /\ List.hd id (map s_id es ++ [id']) = id /\
        Forall fresh es /\ Forall (fun e => body_cok (s_id e) (s_body e)) es /\ Forall iok (map s_id es ++ [id'])).
      { intros Hn. eapply (IH _ _ _ _ _ _ _ hl (tl ++ [l]) r) in Hn; [|exact Hh|exact Ho| | |exact P].
        - rewrite <- app_assoc in Hn. exact Hn.
        - subst body. rewrite nonempty_app, nonempty_one. destruct (l_empty l).
          + now rewrite app_nil_r.
          + reflexivity.
        - change (hl :: tl ++ [l]) with ((hl :: tl) ++ [l]). rewrite depth_text_app, text_one. lia. }
      destruct (q_begin q') eqn:Eb; [cbn [obind] in Hl; now apply next|].
      apply obind_ok in Hl. destruct Hl as (h & Hc & Hl). destruct h as [[id2 r2]|]; [|now apply next].
      clear next. symmetry in B. apply Z.ltb_ge in B. assert (Q0 : q_level q = 0%Z) by lia.
      apply obind_ok in Hl. destruct Hl as ([e g] & He & Hl).
      unfold check_header in Hc. destruct (negb _); [discriminate|].
      apply obind_ok in Hc. destruct Hc as (h & Hd & Hc). destruct h as [[id3 r3]|]; [|discriminate].
      destruct (id_next id3 id) eqn:En; [|discriminate]. apply Ok_inj, Some_inj in Hc. injection Hc as -> ->.
      apply header_heads in Hd. destruct Hd as [Hd Ho2].
      subst body. destruct (finished _ _ _ _ _ _ _ Hh He) as (Ei & Ef & Ek & El).
      eapply (IH _ _ _ _ _ _ _ l [] r2) in Hl; [|exact Hd|exact Ho2|reflexivity| |exact P].
      2:{ rewrite text_one. lia. }
      destruct Hl as (es & init & hl' & tl' & r' & -> & Hlines & Hh' & Hbody & Hbal & Hbi & Hlay & Hch & Hhd & Hfr & Hck & Hik).
      exists (e :: es), ((hl :: tl) ++ init), hl', tl', r'.
      assert (Bs : balanced (hl :: tl)) by (unfold balanced; lia).
      split; [now rewrite <- app_assoc|]. split.
      { cbn [app] in Hlines. rewrite Hlines. cbn. now rewrite <- app_assoc. }
      split; [exact Hh'|]. split; [exact Hbody|]. split; [exact Hbal|]. split; [now apply balanced_app|].
      split.
      { intros e0 given ls He0. rewrite <- app_assoc. cbn [app].
        change (hl :: tl ++ init ++ ls) with ((hl :: tl) ++ (init ++ ls)). constructor; [exact El|exact Bs|auto]. }
      cbn [map app List.hd]. rewrite Ei. split.
      { destruct (map s_id es ++ [id']) as [|y ys] eqn:Ey; [now destruct (map s_id es)|].
        cbn in Hhd. subst y. constructor; assumption. }
      split; [reflexivity|]. split; [now constructor|]. split; [now constructor|]. constructor; assumption.
  Qed.
  Lemma em_finish_inv ctx w hi id body elems r hl tl rl : 
    em_finish children ctx w hi id body elems = Ok r ->
    heads label hl id rl -> body = rl :: nonempty tl ->
    exists e wl, em_elems r = elems ++ [e] /\ s_id e = id /\ fresh e /\ body_cok (s_id e) (s_body e) /\
      wrap_of (em_wrap r) wl /\ lay_elem label lay_children e (wl ++ em_rest r) (hl :: tl) /\
      (w = false -> em_wrap r = None /\ em_rest r = []) /\ (ctx = FullAct -> em_rest r = []).
  Proof.
    intros Hf Hh ->. unfold em_finish in Hf.
    assert (F : forall e g, sae_parse children ctx KeepIt id (rl :: nonempty tl) = Ok (e, g) ->
      mkEm (elems ++ [e]) None [] = r ->
      exists e wl, em_elems r = elems ++ [e] /\ s_id e = id /\ fresh e /\ body_cok (s_id e) (s_body e) /\
      wrap_of (em_wrap r) wl /\ lay_elem label lay_children e (wl ++ em_rest r) (hl :: tl) /\
      (w = false -> em_wrap r = None /\ em_rest r = []) /\ (ctx = FullAct -> em_rest r = [])).
    { intros e g He <-. destruct (finished _ _ _ _ _ _ _ Hh He) as (Ei & Ef & Ek & El).
      exists e, []. cbn. repeat split; try apply Ef; try assumption. left. auto. }
    destruct w; [destruct ctx|].
    - destruct (position _ _) as [k|] eqn:Ek.
      + apply obind_ok in Hf. destruct Hf as ([e g] & He & Hf). apply Ok_inj in Hf. subst r.
        apply sae_parse_inv in He. destruct He as (Hi & Hfr & Hk & Hl & Hg). rewrite (Hg eq_refl) in Hl.
        exists e, (skipn k (rl :: nonempty tl)). cbn [em_elems em_wrap em_rest].
        split; [reflexivity|]. split; [exact Hi|]. split; [exact Hfr|]. split; [now rewrite Hi|].
        split; [|split; [|split; [discriminate|reflexivity]]].
        * right. split; [reflexivity|]. intros E. apply (f_equal (@List.length _)) in E. rewrite skipn_length in E.
          apply position_some in Ek. destruct Ek as [(x & Hx & _) _]. assert (k < List.length (rl :: nonempty tl))%nat by (apply nth_error_Some; congruence). cbn [List.length] in *. lia.
        * exists hl, tl, rl, (firstn k (rl :: nonempty tl)), [], (skipn k (rl :: nonempty tl)).
          rewrite Hi, app_nil_r, firstn_skipn. auto.
      + apply obind_ok in Hf. destruct Hf as ([e g] & He & Hf). apply Ok_inj in Hf. eapply F; [exact He|exact Hf].
    - apply obind_ok in Hf. destruct Hf as ([e g] & He & Hf).
      apply sae_parse_inv in He. destruct He as (Hi & Hfr & Hk & Hl & _).
      set (wr := match position (fun l => negb (l_just l)) g with Some k => (firstn (k + 1) g, skipn (k + 1) g) | None => (g, []) end) in *.
      assert (W : fst wr ++ snd wr = g).
      { subst wr. destruct (position _ g); cbn; [apply firstn_skipn|apply app_nil_r]. }
      assert (W0 : fst wr = [] -> snd wr = []).
      { subst wr. destruct (position _ g) as [k|] eqn:Ek; cbn; [|reflexivity]. destruct g as [|x g]; [discriminate|].
        rewrite Nat.add_1_r. discriminate. }
      destruct wr as [wl rest]. cbn [fst snd] in *. apply Ok_inj in Hf. subst r. cbn [em_elems em_wrap em_rest].
      exists e, wl. split; [reflexivity|]. split; [exact Hi|]. split; [exact Hfr|]. split; [now rewrite Hi|].
      split; [|split; [|split; [discriminate|discriminate]]].
      + destruct wl; cbn [is_empty]; [left; auto|right; split; [reflexivity|discriminate]].
      + exists hl, tl, rl, (rl :: nonempty tl), g, []. rewrite Hi, !app_nil_r, W. auto.
    - apply obind_ok in Hf. destruct Hf as ([e g] & He & Hf). apply Ok_inj in Hf. eapply F; [exact He|exact Hf].
  Qed.
  Lemma extract_multiple_inv ctx w c exp lines r :
    extract_multiple header children ctx w c exp lines = Ok r ->
    lay_siblings label lay_children (em_elems r) (em_wrap r) (em_rest r) lines /\
    balanced lines /\
    chain (fun y x => id_next y x = true) (map s_id (em_elems r)) /\
    (exists i is, map s_id (em_elems r) = i :: is /\ match exp with Some e => id_eqb i e = true | None => id_first i = true end) /\
    (c = true -> (2 <= List.length (em_elems r))%nat) /\
    Forall fresh (em_elems r) /\ Forall (fun e => body_cok (s_id e) (s_body e)) (em_elems r) /\
    Forall iok (map s_id (em_elems r)) /\
    (w = false -> em_wrap r = None /\ em_rest r = []) /\ (ctx = FullAct -> em_rest r = []).
  Proof.
    unfold extract_multiple. destruct lines as [|first rest]; [discriminate|].
    intros Hx. apply obind_ok in Hx. destruct Hx as (h & Hd & Hx). destruct h as [[id fr]|]; [|discriminate].
    apply obind_ok in Hx. destruct Hx as (u & Hexp & Hx). apply ensure_ok in Hexp.
    apply obind_ok in Hx. destruct Hx as (q & Hq & Hx). apply qc_step_inv in Hq. destruct Hq as (L & _ & _ & P).
    apply obind_ok in Hx. destruct Hx as ([[id' body'] elems'] & Hl & Hx).
    apply obind_ok in Hx. destruct Hx as (r0 & Hf & Hx). cbn [fst snd] in Hf.
    apply obind_ok in Hx. destruct Hx as (u2 & Hc & Hx). apply ensure_ok in Hc. apply Ok_inj in Hx. subst r0.
    apply header_heads in Hd. destruct Hd as [Hd Ho].
    eapply (em_loop_inv _ _ _ _ _ _ _ _ _ _ first [] fr) in Hl; [|exact Hd|exact Ho|reflexivity| |exact P].
    2:{ rewrite text_one, (heads_depth _ _ _ Hd), L. cbn. lia. }
    destruct Hl as (es & init & hl & tl & rl & -> & Hlines & Hh & Hb & Hbal & Hbi & Hlay & Hch & Hhd & Hfr & Hck & Hik).
    destruct (em_finish_inv _ _ _ _ _ _ _ _ _ _ Hf Hh Hb) as (e & wl & He & Hi & Hef & Hek & Hw & Hle & Hwf & Hfa).
    cbn [app] in He, Hlines. rewrite Hlines, He in *.
    assert (Em : map s_id (es ++ [e]) = map s_id es ++ [id']) by (rewrite map_app; cbn; now rewrite Hi).
    rewrite Em. split.
    { exists wl. split; [exact Hw|]. apply Hlay. exact Hle. }
    split; [now apply balanced_app|]. split; [exact Hch|]. split.
    { destruct (map s_id es ++ [id']) as [|y ys] eqn:Ey; [now destruct (map s_id es)|].
      cbn in Hhd. subst y. exists id, ys. split; [reflexivity|]. now destruct exp. }
    split.
    { intros ->. cbn [negb orb] in Hc. apply Nat.ltb_lt in Hc. lia. }
    split; [apply Forall_app; split; [assumption|constructor; [assumption|constructor]]|].
    split; [apply Forall_app; split; [assumption|now constructor]|].
    split; [exact Hik|]. split; assumption.
  Qed.
End Generic.
