(** What the text output writes, and when it can be written (C53, C54). *)
From Verif Require Export ProofOut.
Local Open Scope N_scope.

Section ParInd.
  Variable P : par_children -> Prop.
  Definition below_body (b : sae_body par_children) : Prop := match b with BText _ => True | BChildren _ c _ => P c end.
  Definition below_par (p : paragraph) : Prop := below_body (s_body p).
  Definition below_child (c : act_child) : Prop := match c with ChArticle a => Forall below_par (ar_children a) | _ => True end.
  Hypothesis HAlpha : forall l, P (PcAlpha l).
  Hypothesis HNum : forall l, P (PcNum l).
  Hypothesis HQuoted : forall l, P (PcQuoted l).
  Hypothesis HBlock : forall b, (forall l, bk_children b = BcParagraph l -> Forall below_par l) -> P (PcBlock b).
  Hypothesis HStruct : forall b, Forall below_child (sb_children b) -> P (PcStruct b).
  Fixpoint pc_induction (c : par_children) : P c :=
    let par := fun p : paragraph =>
      match s_body p as b return below_body b with
      | BText _ => I
      | BChildren _ c _ => pc_induction c
      end in
    let pars := fix pars (l : list paragraph) : Forall below_par l :=
      match l with [] => Forall_nil _ | p :: l' => @Forall_cons _ below_par p l' (par p) (pars l') end in
    match c with
    | PcAlpha l => HAlpha l
    | PcNum l => HNum l
    | PcQuoted l => HQuoted l
    | PcBlock b =>
        HBlock b (match bk_children b as ch return (forall l, ch = BcParagraph l -> Forall below_par l) with
                  | BcParagraph l0 => fun l E => match E in _ = ch return (match ch return Prop with BcParagraph l => Forall below_par l | _ => True end) with eq_refl => pars l0 end
                  | _ => fun l E => match E in _ = ch return (match ch return Prop with BcParagraph l => Forall below_par l | _ => True end) with eq_refl => I end
                  end)
    | PcStruct b =>
        HStruct b ((fix go (l : list act_child) : Forall below_child l :=
          match l with
          | [] => Forall_nil _
          | c :: l' => @Forall_cons _ below_child c l' (match c as c return below_child c with ChArticle a => pars (ar_children a) | _ => I end) (go l')
          end) (sb_children b))
    end.
End ParInd.

Lemma solid_app a b : solid (a ++ b) = solid a ++ solid b.
Proof. apply filter_app. Qed.
Lemma solid_spaces n : solid (repeat 32 n) = [].
Proof. induction n; [reflexivity|exact IHn]. Qed.
Lemma solid_indent p : solid (write_indent p) = [].
Proof. unfold write_indent. destruct (op_next p); [|reflexivity]. induction (N.to_nat (op_level p)); [reflexivity|]. cbn [repeat List.concat]. now rewrite solid_app, IHn. Qed.
Lemma solid_pad n s : solid (pad_right n s) = solid s.
Proof. unfold pad_right. now rewrite solid_app, solid_spaces, app_nil_r. Qed.
Lemma solid_flat {T} (f g : T -> str) l : Forall (fun x => solid (f x) = solid (g x)) l -> solid (flat_map f l) = solid (flat_map g l).
Proof. induction 1 as [|x l H _ IH]; [reflexivity|]. cbn. now rewrite !solid_app, H, IH. Qed.
Lemma solid_newline : solid newline = [].
Proof. reflexivity. Qed.

Section Keep.
  Variable wrap : str -> N -> list str.
  Hypothesis K : forall s w, solid (List.concat (wrap s w)) = solid s.

  Definition wrote (o : outcome str) (t : str) : Prop := forall s, o = Ok s -> solid s = solid t.
  Lemma wrapped_solid p ls : solid (wrapped_lines p ls) = solid (List.concat ls).
  Proof.
    destruct ls as [|l ls]; [reflexivity|]. cbn [wrapped_lines List.concat]. rewrite !solid_app, solid_indent, solid_newline. cbn [app].
    f_equal. induction ls as [|m ls IH]; [reflexivity|]. cbn [flat_map List.concat].
    now rewrite !solid_app, solid_indent, solid_newline, IH, app_nil_r.
  Qed.
  Lemma wrapped_ok p t a : write_wrapped wrap p t = Ok a -> solid (fst a) = solid t /\ op_colored (snd a) = op_colored p.
  Proof.
    unfold write_wrapped. destruct (_ <? _); [discriminate|]. intros [= <-]. cbn. rewrite wrapped_solid, K. split; [reflexivity|].
    now destruct (is_empty _).
  Qed.
  Lemma opt_ok_ p f o a : write_opt wrap p f o = Ok a -> solid (fst a) = solid (match o with Some t => f t | None => [] end) /\ op_colored (snd a) = op_colored p.
  Proof. destruct o as [t|]; cbn; [apply wrapped_ok|]. now intros [= <-]. Qed.
  Lemma wrote_list {T} (f : T -> oparams -> outcome str) g l :
    Forall (fun x => forall p, op_colored p = false -> wrote (f x p) (g x)) l ->
    forall p, op_colored p = false -> wrote (write_list f l p) (flat_map g l).
  Proof.
    induction 1 as [|x l H _ IH]; intros p C s; cbn; [now intros [= <-]|].
    destruct (f x p) as [a| |] eqn:A; try discriminate. cbn.
    destruct (write_list f l (op_set_next true p)) as [b| |] eqn:B; try discriminate. intros [= <-].
    rewrite !solid_app, (H p C _ A). f_equal. exact (IH (op_set_next true p) C _ B).
  Qed.
  Lemma sae_text_ok t p i x : op_colored p = false -> colorize_sae t p i = Ok x -> x = t.
  Proof.
    unfold colorize_sae. intros C. destruct (split_string_at_references t (si_outgoing i)) as [l| |] eqn:E; try discriminate. cbn [obind].
    intros [= <-]. apply c38_pieces in E as (<- & _). unfold colorize. rewrite C. clear. induction l as [|[s b] l IH]; [reflexivity|]. cbn. now rewrite IH.
  Qed.
  Lemma wrote_sae {I C} (h : I -> str) (wc : C -> oparams -> outcome str) below (e : sae I C) :
    (forall i c w, s_body e = BChildren i c w -> forall p, op_colored p = false -> wrote (wc c p) (below c)) ->
    forall p, op_colored p = false -> wrote (write_sae wrap h wc e p) (elem_texts h below e).
  Proof.
    intros H p Cp s. unfold write_sae, elem_texts. set (p' := op_indented (op_set_next false p)). assert (Cp' : op_colored p' = false) by exact Cp.
    destruct (s_body e) as [t|i c w].
    - destruct (colorize_sae t p' (s_si e)) as [x| |] eqn:X; try discriminate. cbn. apply sae_text_ok in X; [subst x|exact Cp'].
      destruct (write_wrapped wrap p' t) as [a| |] eqn:A; try discriminate. intros [= <-]. apply wrapped_ok in A as [A _].
      unfold write_header. now rewrite !solid_app, solid_indent, solid_pad, A.
    - destruct (colorize_sae i p' (s_si e)) as [x| |] eqn:X; try discriminate. cbn. apply sae_text_ok in X; [subst x|exact Cp'].
      destruct (write_wrapped wrap p' i) as [a| |] eqn:A; try discriminate. cbn.
      destruct (wc c (snd a)) as [b| |] eqn:B; try discriminate. cbn.
      destruct (write_opt wrap (snd a) (fun t => t) w) as [d| |] eqn:D; try discriminate. intros [= <-].
      apply wrapped_ok in A as [A Ca]. apply opt_ok_ in D as [D _]. apply (H _ _ _ eq_refl) in B; [|congruence].
      unfold write_header. rewrite !solid_app, solid_indent, solid_pad, A, B, D. now destruct w.
  Qed.
  Lemma wrote_sub {I} (h : I -> str) (e : sae I Empty_set) p : op_colored p = false -> wrote (write_sub wrap h e p) (sub_texts h e).
  Proof. revert p. apply wrote_sae. intros i []. Qed.
  Lemma wrote_subs {I} (h : I -> str) l p : op_colored p = false -> wrote (write_list (write_sub wrap h) l p) (flat_map (sub_texts h) l).
  Proof. revert p. apply wrote_list. apply Forall_forall. intros x _ p. apply wrote_sub. Qed.
  Lemma wrote_alpha e p : op_colored p = false -> wrote (write_alpha wrap e p) (alpha_texts e).
  Proof. revert p. apply wrote_sae. intros i [l|l] w _ p; apply wrote_subs. Qed.
  Lemma wrote_num e p : op_colored p = false -> wrote (write_num wrap e p) (num_texts e).
  Proof. revert p. apply wrote_sae. intros i [l] w _ p; apply wrote_subs. Qed.
  Lemma wrote_quoted q p : op_colored p = false -> wrote (write_quoted wrap q p) (quoted_texts q).
  Proof.
    intros C s. unfold write_quoted, quoted_texts.
    destruct (write_opt wrap p (fun t => t) (qb_intro q)) as [a| |] eqn:A; try discriminate. cbn.
    destruct (write_wrapped wrap (snd a) (lit "„")) as [b| |] eqn:B; try discriminate. cbn.
    destruct (write_list _ (qb_lines q) (snd b)) as [ls| |] eqn:L; try discriminate. cbn.
    destruct (write_wrapped wrap _ (lit "”")) as [c| |] eqn:D; try discriminate. cbn.
    destruct (write_opt wrap (snd c) (fun t => t) (qb_wrap q)) as [d| |] eqn:E; try discriminate. intros [= <-].
    apply opt_ok_ in A as [A Ca], E as [E _]. apply wrapped_ok in B as [B Cb], D as [D _].
    assert (L' : solid ls = solid (flat_map content (qb_lines q))).
    { refine (wrote_list _ content (qb_lines q) _ (snd b) _ _ L); [|congruence]. apply Forall_forall. intros x _ p' _ s' [= <-].
      unfold write_quoted_line, write_header. rewrite !solid_app, solid_indent, solid_newline, app_nil_r, solid_spaces. reflexivity. }
    rewrite !solid_app, A, B, L', D, E. unfold opt_text. now destruct (qb_intro q), (qb_wrap q).
  Qed.
  Lemma wrote_amendment i w wc t p : op_colored p = false -> (forall p', op_colored p' = false -> wrote (wc p') t) ->
    wrote (write_amendment wrap i w wc p) (note i ++ lit "„" ++ t ++ lit "”" ++ note w).
  Proof.
    intros C H s. unfold write_amendment.
    destruct (write_opt wrap p _ i) as [a| |] eqn:A; try discriminate. cbn.
    destruct (write_wrapped wrap (snd a) (lit "„")) as [b| |] eqn:B; try discriminate. cbn.
    destruct (wc (op_indented (snd b))) as [c| |] eqn:D; try discriminate. cbn.
    destruct (write_wrapped wrap (snd b) (lit "”")) as [d| |] eqn:E; try discriminate. cbn.
    destruct (write_opt wrap (snd d) _ w) as [f| |] eqn:F; try discriminate. intros [= <-].
    apply opt_ok_ in A as [A Ca], F as [F _]. apply wrapped_ok in B as [B Cb], E as [E _]. apply H in D; [|cbn; congruence].
    rewrite !solid_app, A, B, D, E, F. unfold note, colorize. rewrite C. now destruct i, w.
  Qed.
  Lemma wrote_child {P} (wp : P -> oparams -> outcome str) below c :
    (forall a, c = ChArticle a -> Forall (fun x => forall p, op_colored p = false -> wrote (wp x p) (below x)) (ar_children a)) ->
    forall p, op_colored p = false -> wrote (write_child wrap wp c p) (child_texts below c).
  Proof.
    intros H p C s. destruct c as [e|t|a]; cbn [write_child child_texts].
    - unfold write_structural, structural_texts. destruct (se_header (se_ty e) (se_id e)) as [h| |]; try discriminate. cbn.
      destruct (write_wrapped wrap p _) as [a| |] eqn:A; try discriminate. cbn. apply wrapped_ok in A as [A _].
      unfold colorize in *. rewrite C in *. destruct (is_empty (se_title e)) eqn:Z.
      + intros [= <-]. destruct (se_title e); [|discriminate]. now rewrite app_nil_r.
      + destruct (write_wrapped wrap (snd a) (se_title e)) as [b| |] eqn:B; try discriminate. intros [= <-]. apply wrapped_ok in B as [B _].
        now rewrite !solid_app, A, B.
    - unfold write_subtitle, subtitle_texts. destruct (write_wrapped wrap p _) as [a| |] eqn:A; try discriminate. intros [= <-].
      apply wrapped_ok in A as [A _]. rewrite A. unfold colorize. rewrite C. destruct (st_id t); [|reflexivity].
      rewrite !solid_app, <- app_assoc. reflexivity.
    - unfold write_article. set (p' := op_indented (op_indented (op_set_next false p))).
      destruct (write_opt wrap p' _ (ar_title a)) as [t| |] eqn:T; try discriminate. cbn.
      destruct (write_list wp (ar_children a) (snd t)) as [c| |] eqn:D; try discriminate. intros [= <-].
      apply opt_ok_ in T as [T Ct]. apply (wrote_list wp below _ (H _ eq_refl)) in D; [|rewrite Ct; exact C].
      unfold write_header, colorize. rewrite C, !solid_app, solid_indent, solid_pad, T, D.
      assert (N0 : forall x : bool, solid (if x then newline else []) = []) by now intros [].
      rewrite N0, app_nil_r. cbn [app]. f_equal. destruct (ar_title a); [|reflexivity]. now rewrite !solid_app.
  Qed.
  Lemma wrote_pc c : forall p, op_colored p = false -> wrote (write_pc wrap c p) (pc_texts c).
  Proof.
    induction c as [l|l|l|b IH|b IH] using pc_induction; intros p C; cbn [write_pc pc_texts].
    - revert p C. apply wrote_list, Forall_forall. intros x _ p. apply wrote_alpha.
    - revert p C. apply wrote_list, Forall_forall. intros x _ p. apply wrote_num.
    - revert p C. apply wrote_list, Forall_forall. intros x _ p. apply wrote_quoted.
    - apply wrote_amendment; [exact C|]. intros p' C'. unfold paragraph in *. destruct (bk_children b) as [l|l|l|l|l]; try (now apply wrote_subs).
      + revert p' C'. apply wrote_list. eapply Forall_impl; [|exact (IH _ eq_refl)]. intros x H. apply wrote_sae. intros i c w E.
        unfold below_par in H. rewrite E in H. exact H.
      + revert p' C'. apply wrote_list, Forall_forall. intros x _ p'. apply wrote_alpha.
      + revert p' C'. apply wrote_list, Forall_forall. intros x _ p'. apply wrote_num.
    - apply wrote_amendment; [exact C|]. apply wrote_list. eapply Forall_impl; [|exact IH]. intros x H. apply wrote_child. intros a ->.
      eapply Forall_impl; [|exact H]. intros y Hy. apply wrote_sae. intros i c w E. unfold below_par in Hy. rewrite E in Hy. exact Hy.
  Qed.
  Lemma wrote_children l : forall la p, op_colored p = false ->
    wrote (write_children wrap la l p) (flat_map (child_texts (elem_texts par_header pc_texts)) l).
  Proof.
    induction l as [|c l IH]; intros la p C s; cbn [write_children flat_map]; [now intros [= <-]|].
    set (nl := negb la || negb (is_article c)). set (p' := if nl then op_set_next true p else p). assert (C' : op_colored p' = false) by (unfold p'; now destruct nl).
    destruct (write_child wrap (write_par wrap) c p') as [a| |] eqn:A; try discriminate. cbn.
    destruct (write_children wrap (is_article c) l p') as [b| |] eqn:B; try discriminate. intros [= <-].
    apply (wrote_child _ (elem_texts par_header pc_texts)) in A; [|intros x _; apply Forall_forall; intros y _; apply wrote_sae; intros; now apply wrote_pc|exact C'].
    apply IH in B; [|exact C']. rewrite !solid_app, A, B. now destruct nl.
  Qed.
  Lemma c53_all_text w a s : act_output wrap w false a = Ok s -> solid s = solid (act_texts a).
  Proof.
    unfold act_output, write_act, act_texts. destruct (act_show (ac_id a)) as [i| |]; try discriminate. cbn [obind].
    set (p := op_indented (op_new w false)).
    destruct (write_wrapped wrap (op_set_next true p) (ac_preamble a)) as [b| |] eqn:B; try discriminate. cbn [obind].
    destruct (write_children wrap true (ac_children a) _) as [c| |] eqn:D; try discriminate. cbn [obind]. intros H.
    assert (H' := f_equal (fun o => match o with Ok x => x | _ => [] end) H). cbv beta iota in H'. rewrite <- H'. clear H H'.
    apply wrapped_ok in B as [B Cb]. apply wrote_children in D; [|cbn; rewrite Cb; reflexivity].
    assert (Hp : colorize p i code_bold = i) by reflexivity. rewrite Hp. unfold write_header.
    rewrite !solid_app, solid_indent, solid_newline, B, D. change (solid (lit " ")) with (@nil char). rewrite <- !app_assoc. reflexivity.
  Qed.
End Keep.
