(** The act parser: children one after the other (C30). *)
From Verif Require Import ProofBase ProofIdent ProofIdent2 ProofIdent3 ProofIdent4 ProofText ProofText2.
From Verif Require Export ProofStruct5.

Lemma match_se_inv ty s i : match_se ty s = Some i -> exists suf, s = i ++ suf /\ se_suffix ty suf.
Proof.
  unfold match_se.
  assert (P : forall suf, match strip_suffix suf s with
    | Some r => let g := firstn (List.length r) s in if no_newline g then Some g else None | None => None end = Some i -> s = i ++ suf).
  { intros suf. destruct (strip_suffix suf s) as [r|] eqn:E; [|discriminate]. apply strip_suffix_some in E. subst s. cbn zeta.
    rewrite firstn_app, Nat.sub_diag, firstn_all, firstn_O, app_nil_r. destruct (no_newline r); [|discriminate].
    intros H. now injection H as <-. }
  destruct ty; cbn zeta; cbn [se_suffix].
  - intros H. apply P in H. eauto.
  - intros H. apply P in H. eauto.
  - intros H. apply P in H. eauto.
  - destruct (strip_suffix (lit ". fejezet") (map ascii_lower s)) as [r|] eqn:E; [|discriminate]. apply strip_suffix_some in E.
    destruct (no_newline _); [|discriminate]. intros H. injection H as <-. exists (skipn (List.length r) s).
    rewrite firstn_skipn. split; [reflexivity|]. unfold lower_str. rewrite <- skipn_map, E.
    now rewrite skipn_app, Nat.sub_diag, skipn_all, skipn_O.
Qed.
Lemma try_se_inv rf ty l p : try_se rf ty l = Ok (Some p) -> sp_ty p = ty /\ sp_title p = [] /\
  exists i suf, content l = i ++ suf /\ se_suffix ty suf /\ se_parse_identifier rf ty i = Ok (sp_id p).
Proof.
  unfold try_se. destruct (match_se ty (content l)) as [i|] eqn:E; [|discriminate]. apply match_se_inv in E.
  destruct E as (suf & E & Hs). destruct (se_parse_identifier rf ty i) eqn:Ei; try discriminate.
  intros H. apply Ok_inj in H. injection H as <-. cbn. eauto 8.
Qed.
Lemma first_se_inv rf tys l p : first_se rf tys l = Ok (Some p) -> sp_title p = [] /\
  exists i suf, content l = i ++ suf /\ se_suffix (sp_ty p) suf /\ se_parse_identifier rf (sp_ty p) i = Ok (sp_id p).
Proof.
  induction tys as [|ty tys IH]; cbn [first_se]; [discriminate|]. intros H. apply obind_ok in H. destruct H as ([p'|] & Ht & H).
  - apply Ok_inj in H. injection H as <-. apply try_se_inv in Ht. destruct Ht as (<- & ? & ?). auto.
  - auto.
Qed.
Lemma match_subtitle_inv s i t : match_subtitle s = Some (i, t) -> s = i ++ lit ". " ++ t.
Proof.
  unfold match_subtitle. destruct (eat_number_slash s) as [[n r]|] eqn:E; [|discriminate]. apply eat_number_slash_inv in E.
  destruct E as (-> & _). destruct (eat 46 r) as [r2|] eqn:E2; [|discriminate]. apply eat_inv in E2. subst r.
  destruct (eat 32 r2) as [[|c r3]|] eqn:E3; try discriminate. apply eat_inv in E3. subst r2.
  destruct (_ && _); [|discriminate]. intros H. injection H as <- <-. reflexivity.
Qed.
Lemma try_subtitle_inv up ctx pe l p : try_subtitle up ctx pe l = Ok (Some p) -> l_bold l = true /\
  match tp_id p with
  | Some i => exists d, numeric_spelling d i /\ content l = d ++ lit ". " ++ tp_title p
  | None => content l = tp_title p
  end.
Proof.
  unfold try_subtitle. destruct (l_bold l); [|discriminate]. cbn [negb]. destruct (match_subtitle (content l)) as [[i t]|] eqn:E.
  - apply match_subtitle_inv in E. destruct (numeric_parse i) as [n| |] eqn:En; try discriminate.
    intros H. apply Ok_inj in H. injection H as <-. cbn. apply numeric_parse_spelling in En. eauto.
  - destruct (pe || negb (is_full ctx)); [|discriminate]. destruct (content l) as [|c t]; [discriminate|].
    destruct (up c); [|discriminate]. intros H. apply Ok_inj in H. injection H as <-. now cbn.
Qed.
Lemma article_first_one x : article_first x = true -> article_one x.
Proof.
  destruct x as [[b|] n]; unfold article_first, article_one; cbn [a_book a_ident]; intros H.
  - apply andb_prop in H as [H1 H2]. apply N.eqb_eq in H1. apply num_first_one in H2. subst b. auto.
  - apply num_first_one in H. auto.
Qed.
Lemma article_ids_app a b : article_ids (a ++ b) = article_ids a ++ article_ids b.
Proof. apply flat_map_app. Qed.
Definition last_ok (f : article_factory) : Prop := match af_last f with Some i => article_ok i = true | None => True end.
(** The article identifiers [ids] may come next. *)
Definition from (ctx : pctx) (f : article_factory) (ids : list article_id) : Prop :=
  match af_last f with
  | Some i => chain article_succ (i :: ids)
  | None => chain article_succ ids /\ (ctx = FullAct -> match ids with i :: _ => article_one i | [] => True end)
  end.
Lemma try_article_inv ctx f e l f' p : last_ok f -> try_article ctx f e l = Ok (f', p) ->
  exists r, heads article_label l (ap_id p) r /\ ap_lines p = [r] /\ af_last f' = Some (ap_id p) /\ last_ok f' /\
    match e with
    | Some i => article_eqb i (ap_id p) = true
    | None => forall ids, chain article_succ (ap_id p :: ids) -> from ctx f (ap_id p :: ids)
    end.
Proof.
  unfold try_article. intros L H. apply obind_ok in H. destruct H as (_ & _ & H). apply obind_ok in H. destruct H as ([[i r]|] & Hh & H); [|discriminate].
  apply obind_ok in H. destruct H as (u & He & H). apply ensure_ok in He. apply Ok_inj in H. injection H as <- <-. cbn [ap_id ap_lines af_last].
  exists r. split; [now apply article_header_heads|]. split; [reflexivity|]. split; [reflexivity|].
  assert (K : article_ok i = true).
  { unfold parse_header in Hh. destruct (match_article (content l)) as [[s rest]|]; [|discriminate].
    destruct (article_parse s) as [j| |] eqn:Hp; try discriminate. apply obind_ok in Hh. destruct Hh as (x & _ & Hh). cbn in Hh.
    apply Ok_inj in Hh. injection Hh as <- _. now apply article_parse_ok in Hp. }
  split; [exact K|]. destruct e as [e|]; [exact He|]. intros ids C. unfold from, last_ok in *. destruct (af_last f) as [last|].
  - constructor; [|exact C]. apply article_next_general in He; [|assumption..]. exact He.
  - split; [exact C|]. intros ->. now apply article_first_one.
Qed.

(** The state after the lines [seg], the first of which is the header *)
Definition seg_ok (rf : str -> option Z) (st : act_state) (seg : list line) : Prop :=
  match st with
  | AsPreamble => False
  | AsArticle p => exists hl tl r, seg = hl :: tl /\ heads article_label hl (ap_id p) r /\ ap_lines p = r :: tl
  | AsStruct p => exists hl tl i suf, seg = hl :: tl /\ content hl = i ++ suf /\ se_suffix (sp_ty p) suf /\
      se_parse_identifier rf (sp_ty p) i = Ok (sp_id p) /\ sp_title p = join tl
  | AsSubtitle p => exists hl tl t, seg = hl :: tl /\ l_bold hl = true /\
      tp_title p = fold_left (fun s l => append_to l s) tl t /\
      match tp_id p with
      | Some i => exists d, numeric_spelling d i /\ content hl = d ++ lit ". " ++ t
      | None => content hl = t
      end
  end.
Definition st_ids (st : act_state) : list article_id := match st with AsArticle p => [ap_id p] | _ => [] end.
Definition feed (st : act_state) (l : line) : act_state :=
  match st with
  | AsPreamble => AsPreamble
  | AsArticle p => AsArticle (ap_feed p l)
  | AsStruct p => AsStruct (sp_feed p l)
  | AsSubtitle p => AsSubtitle (tp_feed p l)
  end.
Lemma feed_ids st l : st_ids (feed st l) = st_ids st.
Proof. now destruct st. Qed.
Lemma feed_ok rf st seg l : seg_ok rf st seg -> seg_ok rf (feed st l) (seg ++ [l]).
Proof.
  destruct st; cbn [seg_ok feed]; [tauto| | |].
  - intros (hl & tl & r & -> & H & E). exists hl, (tl ++ [l]), r. cbn. now rewrite E.
  - intros (hl & tl & t & -> & H & E & K). exists hl, (tl ++ [l]), t. cbn. rewrite E, fold_left_app. auto.
  - intros (hl & tl & i & suf & -> & H & E & K & T). exists hl, (tl ++ [l]), i, suf. cbn. unfold join. rewrite T, fold_left_app. auto.
Qed.
Lemma finish_ok rf ctx st seg cs : seg_ok rf st seg -> act_finish ctx st = Ok cs ->
  exists c, cs = [c] /\ lay_act_child rf c seg /\ article_ids [c] = st_ids st /\
    match c with ChArticle a => ordered_article a /\ ar_change a = None | _ => True end.
Proof.
  destruct st as [|p|p|p]; cbn [seg_ok act_finish]; [tauto| | |].
  - intros (hl & tl & r & -> & H & E) F. apply obind_ok in F. destruct F as (a & Fa & F). apply Ok_inj in F. subst cs.
    apply ap_finish_inv in Fa. destruct Fa as (Hi & Hc & L & O & _). exists (ChArticle a). cbn. rewrite Hi. split; [reflexivity|].
    split; [|auto]. exists hl, tl, r. rewrite E in L. auto.
  - intros H F. apply Ok_inj in F. subst cs. exists (ChSubtitle (tp_finish p)). split; [reflexivity|]. split; [exact H|]. auto.
  - intros H F. apply Ok_inj in F. subst cs. exists (ChStruct (sp_finish p)). split; [reflexivity|]. split; [exact H|]. auto.
Qed.
Lemma header_ok rf up ctx f pe l st f' : last_ok f -> act_header_line rf up ctx f pe l = Ok (Some (st, f')) ->
  seg_ok rf st [l] /\ last_ok f' /\ (forall ids, from ctx f' ids -> from ctx f (st_ids st ++ ids)).
Proof.
  unfold act_header_line. intros L H. apply obind_ok in H. destruct H as ([p|] & Hs & H).
  { apply Ok_inj in H. injection H as <- <-. apply first_se_inv in Hs. destruct Hs as (T & i & suf & Hs).
    split; [|auto]. exists l, [], i, suf. rewrite T. tauto. }
  apply obind_ok in H. destruct H as ([p|] & Ht & H).
  { apply Ok_inj in H. injection H as <- <-. apply try_subtitle_inv in Ht. split; [|auto]. exists l, [], (tp_title p). tauto. }
  destruct (try_article ctx f None l) as [[f1 p]| |] eqn:E; try discriminate. apply Ok_inj in H. injection H as <- <-.
  apply try_article_inv in E; [|exact L]. destruct E as (r & Hh & El & Ef & Lf & Hc). split; [|split; [exact Lf|]].
  - exists l, [], r. auto.
  - intros ids Hf. cbn. apply Hc. unfold from in Hf. now rewrite Ef in Hf.
Qed.
Definition child_ok (c : act_child) : Prop := match c with ChArticle a => ordered_article a /\ ar_change a = None | _ => True end.
Lemma act_loop_inv rf up ctx : forall lines q f pe st seg pre done st' pre' done',
  seg_ok rf st seg -> q_level q = depth (text seg) -> (0 <= q_level q)%Z -> last_ok f ->
  act_loop rf up ctx q f pe st pre done lines = Ok (st', pre', done') ->
  pre' = pre /\ exists new body seg' more, done' = done ++ new /\ seg ++ lines = body ++ seg' /\ seg_ok rf st' seg' /\ balanced seg' /\
    (new = [] /\ body = [] \/ lay_act rf new body) /\ article_ids new ++ st_ids st' = st_ids st ++ more /\ from ctx f more /\ Forall child_ok new.
Proof.
  induction lines as [|l lines IH]; intros q f pe st seg pre done st' pre' done' Hs Hq Hn Hf; cbn [act_loop]; intros H.
  - apply obind_ok in H. destruct H as (u & Hc & H). apply check_end_ok in Hc. apply Ok_inj in H. injection H as <- <- <-.
    split; [reflexivity|]. exists [], [], seg, []. rewrite !app_nil_r. cbn. unfold balanced. rewrite <- Hq. repeat split; auto.
    unfold from. destruct (af_last f); repeat constructor.
  - apply obind_ok in H. destruct H as (q' & Hq' & H). apply qc_step_inv in Hq'. destruct Hq' as (L & B & _ & P).
    apply obind_ok in H. destruct H as (h & Hh & H).
    assert (next : act_loop rf up ctx q' f (l_empty l) (feed st l) pre done lines = Ok (st', pre', done') -> 
      pre' = pre /\ exists new body seg' more, done' = done ++ new /\ seg ++ l :: lines = body ++ seg' /\ seg_ok rf st' seg' /\ balanced seg' /\
      (new = [] /\ body = [] \/ lay_act rf new body) /\ article_ids new ++ st_ids st' = st_ids st ++ more /\ from ctx f more /\ Forall child_ok new).
    { intros G. apply (IH _ _ _ _ (seg ++ [l])) in G; [|now apply feed_ok| |exact P|exact Hf].
      - rewrite feed_ids, <- app_assoc in G. exact G.
      - rewrite depth_text_app, text_one. lia. }
    destruct h as [[st1 f1]|].
    + clear next. destruct (q_begin q') eqn:Eb; [discriminate|]. symmetry in B. apply Z.ltb_ge in B.
      apply obind_ok in H. destruct H as (cs & Hc & H).
      apply (finish_ok rf ctx st seg) in Hc; [|exact Hs]. destruct Hc as (c & -> & Lc & Ic & Oc).
      apply header_ok in Hh; [|exact Hf]. destruct Hh as (S1 & L1 & F1).
      apply (IH _ _ _ _ [l]) in H; [|exact S1|rewrite text_one; lia|exact P|exact L1].
      destruct H as (-> & new & body & seg' & more & -> & E & S' & B' & Ln & Ei & Fm & Ok').
      split; [reflexivity|]. exists (c :: new), (seg ++ body), seg', (st_ids st1 ++ more).
      assert (Bs : balanced seg) by (unfold balanced; lia).
      split; [now rewrite <- app_assoc|]. split; [now rewrite <- app_assoc, <- E|]. split; [exact S'|]. split; [exact B'|]. split.
      { right. destruct Ln as [[-> ->]|Ln]; [rewrite app_nil_r; now apply lay_act_last|now apply lay_act_cons]. }
      split; [|split; [now apply F1|now constructor]]. change (c :: new) with ([c] ++ new). rewrite article_ids_app. now rewrite Ic, <- app_assoc, Ei.
    + apply next. destruct st; [contradiction|exact H..].
Qed.
Lemma act_loop_pre_inv rf up ctx : forall lines q pe pl st' pre' done',
  q_level q = depth (text pl) -> (0 <= q_level q)%Z ->
  act_loop rf up ctx q af_new pe AsPreamble (join pl) [] lines = Ok (st', pre', done') ->
  st' = AsPreamble \/ exists pl' body seg' , pl ++ lines = pl' ++ body ++ seg' /\ pre' = join pl' /\ balanced pl' /\ seg_ok rf st' seg' /\
    balanced seg' /\ (done' = [] /\ body = [] \/ lay_act rf done' body) /\ from ctx af_new (article_ids done' ++ st_ids st') /\ Forall child_ok done'.
Proof.
  induction lines as [|l lines IH]; intros q pe pl st' pre' done' Hq Hn; cbn [act_loop]; intros H.
  - apply obind_ok in H. destruct H as (u & Hc & H). apply Ok_inj in H. injection H as <- <- <-. now left.
  - apply obind_ok in H. destruct H as (q' & Hq' & H). apply qc_step_inv in Hq'. destruct Hq' as (L & B & _ & P).
    apply obind_ok in H. destruct H as (h & Hh & H). destruct h as [[st1 f1]|].
    + destruct (q_begin q') eqn:Eb; [discriminate|]. symmetry in B. apply Z.ltb_ge in B. cbn [act_finish obind app] in H.
      apply header_ok in Hh; [|exact I]. destruct Hh as (S1 & L1 & F1).
      apply (act_loop_inv _ _ _ _ _ _ _ _ [l]) in H; [|exact S1|rewrite text_one; lia|exact P|exact L1].
      destruct H as (-> & new & body & seg' & more & -> & E & S' & B' & Ln & Ei & Fm & Ok').
      right. exists pl, body, seg'. rewrite <- E. cbn [app]. rewrite Ei. split; [reflexivity|]. split; [reflexivity|].
      split; [unfold balanced; lia|]. split; [exact S'|]. split; [exact B'|]. split; [exact Ln|]. split; [now apply F1|exact Ok'].
    + assert (J : append_to l (join pl) = join (pl ++ [l])) by (unfold join; now rewrite fold_left_app).
      rewrite J in H. apply IH in H; [|rewrite depth_text_app, text_one; lia|exact P].
      rewrite <- app_assoc in H. exact H.
Qed.
Lemma lay_act_snoc rf cs c body seg : cs = [] /\ body = [] \/ lay_act rf cs body -> lay_act_child rf c seg -> balanced seg ->
  lay_act rf (cs ++ [c]) (body ++ seg).
Proof.
  intros H Hc Hb. destruct H as [[-> ->]|H]; [now apply lay_act_last|]. induction H as [c0 ls H B|c0 cs s ls H B _ IH].
  - apply lay_act_cons; [assumption..|]. now apply lay_act_last.
  - cbn [app]. rewrite <- app_assoc. now apply lay_act_cons.
Qed.
Lemma parse_complex_body_inv rf up ctx lines pre cs : parse_complex_body rf up ctx lines = Ok (pre, cs) ->
  exists pl body, lines = pl ++ body /\ pre = join pl /\ balanced pl /\ lay_act rf cs body /\
    from ctx af_new (article_ids cs) /\ Forall child_ok cs /\ (ctx = BlockAm -> pre = []).
Proof.
  unfold parse_complex_body. intros H. apply obind_ok in H. destruct H as ([[st p] done] & Hl & H).
  apply (act_loop_pre_inv _ _ _ _ _ _ []) in Hl; [|reflexivity|cbn; lia].
  destruct Hl as [->|(pl & body & seg & E & -> & Bp & So & Bs & L & F & O)]; [discriminate|].
  apply obind_ok in H. destruct H as (c & Hc & H). assert (Hc' : act_finish ctx st = Ok c) by (destruct st; [contradiction|exact Hc..]).
  apply (finish_ok rf ctx st seg) in Hc'; [|exact So]. destruct Hc' as (c' & -> & Lc & Ic & Oc).
  apply obind_ok in H. destruct H as (u & He & H). apply ensure_ok in He.
  apply obind_ok in H. destruct H as (u' & _ & H). apply Ok_inj in H. injection H as <- <-.
  exists pl, (body ++ seg). split; [exact E|]. split; [reflexivity|]. split; [exact Bp|]. split; [now apply lay_act_snoc|]. split.
  { rewrite article_ids_app. now rewrite Ic. }
  split; [apply Forall_app; split; [exact O|now repeat constructor]|]. intros ->. destruct (join pl); [reflexivity|discriminate].
Qed.
