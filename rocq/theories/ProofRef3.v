(** Proofs about references: containment and compact strings (C10, C14, C16). *)
From Verif Require Export ProofRef2.

Lemma all_none_cons {A} (o : option A) l : all_none (o :: l) <-> o = None /\ all_none l.
Proof. split; [inversion 1; auto|intros []; now constructor]. Qed.
Lemma all_none_nil {A} : all_none (@nil (option A)) <-> True.
Proof. split; auto; constructor. Qed.
Lemma option_map_none {A B} (f : A -> B) o : option_map f o = None <-> o = None.
Proof. destruct o; cbn; split; congruence. Qed.
Lemma not_present_iff r : (~ present r LArticle <-> f_article r = None) /\ (~ present r LParagraph <-> f_paragraph r = None)
  /\ (~ present r LPoint <-> f_point r = None) /\ (~ present r LSubpoint <-> f_subpoint r = None).
Proof.
  rewrite present_article, present_paragraph, present_point, present_subpoint.
  destruct r as [? [] [] [] []]; cbn; intuition congruence.
Qed.
Lemma keys_wf r : well_formed r -> kwf (keys r).
Proof.
  intros [_ _ C]. destruct (not_present_iff r) as (N1 & N2 & N3 & N4).
  assert (RA : forall l x, part r l = x -> real_range x -> forall l', finer l' l -> ~ present r l') by (intros; subst; eauto).
  unfold keys. cbn [kwf].
  assert (T1 : forall a, f_article r = Some a -> r_start a <> r_end a -> f_paragraph r = None /\ f_point r = None /\ f_subpoint r = None).
  { intros a E H. pose proof (RA LArticle (PartArticle a)) as R. cbn [part] in R. rewrite E in R. specialize (R eq_refl H).
    rewrite <- N2, <- N3, <- N4. repeat split; apply R; unfold finer; cbn; lia. }
  assert (T2 : forall a, f_paragraph r = Some a -> r_start a <> r_end a -> f_point r = None /\ f_subpoint r = None).
  { intros a E H. pose proof (RA LParagraph (PartParagraph a)) as R. cbn [part] in R. rewrite E in R. specialize (R eq_refl H).
    rewrite <- N3, <- N4. repeat split; apply R; unfold finer; cbn; lia. }
  assert (T3 : forall a, f_point r = Some a -> real_range (PartPoint a) -> f_subpoint r = None).
  { intros a E H. pose proof (RA LPoint (PartPoint a)) as R. cbn [part] in R. rewrite E in R. specialize (R eq_refl H).
    rewrite <- N4. apply R; unfold finer; cbn; lia. }
  clear - T1 T2 T3. destruct r as [r1 r2 r3 r4 r5]. cbn [f_article f_paragraph f_point f_subpoint] in *.
  destruct r2 as [a|], r3 as [b|], r4 as [[c|c]|], r5 as [[d|d]|]; cbn [option_map pair_map kwf]; repeat split; auto; intros H;
  rewrite ?all_none_cons, ?all_none_nil; repeat split; try reflexivity; exfalso;
  first [ assert (Q : r_start a <> r_end a) by congruence; destruct (T1 a eq_refl Q) as (? & ? & ?); discriminate
        | assert (Q : r_start b <> r_end b) by congruence; destruct (T2 b eq_refl Q) as (? & ?); discriminate
        | assert (Q : r_start c <> r_end c) by congruence; pose proof (T3 _ eq_refl Q); discriminate ].
Qed.
Lemma keys_ord r : ordered r <-> kord key_cmp (keys r).
Proof.
  unfold ordered, keys. destruct r as [? [] [] [[]|] [[]|]]; cbn; tauto.
Qed.
Lemma keys_skip r o : skips_agree r o <-> kskip (keys r) (keys o).
Proof.
  unfold skips_agree. destruct (not_present_iff r) as (N1 & N2 & N3 & N4). destruct (not_present_iff o) as (M1 & M2 & M3 & M4).
  assert (Q : (forall l l', l <> LAct -> ~ present r l -> finer l' l -> present r l' -> ~ present o l) <->
    ((~ present r LArticle -> present r LParagraph \/ present r LPoint \/ present r LSubpoint -> ~ present o LArticle) /\
     (~ present r LParagraph -> present r LPoint \/ present r LSubpoint -> ~ present o LParagraph) /\
     (~ present r LPoint -> present r LSubpoint -> ~ present o LPoint))).
  { split.
    - intros H. repeat split.
      + intros A [B|[B|B]]; eapply H; try exact B; try exact A; try discriminate; unfold finer; cbn; lia.
      + intros A [B|B]; eapply H; try exact B; try exact A; try discriminate; unfold finer; cbn; lia.
      + intros A B; eapply H; try exact B; try exact A; try discriminate; unfold finer; cbn; lia.
    - intros (H1 & H2 & H3) [] [] A B C D; unfold finer in C; cbn in C; try lia; try congruence; intuition. }
  rewrite Q, N1, N2, N3, M1, M2, M3, !present_paragraph, !present_point, !present_subpoint. clear.
  unfold keys. cbn [kskip].
  destruct r as [? r2 r3 r4 r5], o as [? o2 o3 o4 o5]. cbn [f_article f_paragraph f_point f_subpoint] in *.
  destruct r2; destruct r3; destruct r4; destruct r5; cbn [option_map kskip is_some];
  rewrite ?all_none_cons, ?all_none_nil, ?option_map_none; cbn; intuition congruence.
Qed.
Lemma denotes_keys r p : denotes r p <-> f_act r = p_act p /\ kden key_cmp (keys r) (pos_keys p).
Proof.
  unfold denotes, keys, pos_keys, within.
  match goal with |- ?A <-> ?B => assert (D : A <->
    f_act r = p_act p /\
    match f_article r with
    | Some a => exists x, p_article p = Some x /\ article_cmp (r_start a) x <> Gt /\ article_cmp x (r_end a) <> Gt
    | None => (is_some (f_paragraph r) = true \/ is_some (f_point r) = true \/ is_some (f_subpoint r) = true) -> p_article p = None
    end /\
    match f_paragraph r with
    | Some a => exists x, p_paragraph p = Some x /\ numeric_cmp (r_start a) x <> Gt /\ numeric_cmp x (r_end a) <> Gt
    | None => (is_some (f_point r) = true \/ is_some (f_subpoint r) = true) -> p_paragraph p = None
    end /\
    match f_point r with
    | Some (PtNum a) => exists x, p_point p = Some (KNum x) /\ numeric_cmp (r_start a) x <> Gt /\ numeric_cmp x (r_end a) <> Gt
    | Some (PtAlpha a) => exists x, p_point p = Some (KAlpha x) /\ hic_cmp (r_start a) x <> Gt /\ hic_cmp x (r_end a) <> Gt
    | None => is_some (f_subpoint r) = true -> p_point p = None
    end /\
    match f_subpoint r with
    | Some (SpNum a) => exists x, p_subpoint p = Some (KSNum x) /\ numeric_cmp (r_start a) x <> Gt /\ numeric_cmp x (r_end a) <> Gt
    | Some (SpAlpha a) => exists x, p_subpoint p = Some (KSAlpha x) /\ prefixed_cmp (r_start a) x <> Gt /\ prefixed_cmp x (r_end a) <> Gt
    | None => True
    end) end.
  { pose proof (present_paragraph r) as P1. pose proof (present_point r) as P2. pose proof (present_subpoint r) as P3.
    repeat match goal with |- (_ /\ _) <-> (_ /\ _) => apply Morphisms_Prop.and_iff_morphism end;
    [tauto|destruct (f_article r)|destruct (f_paragraph r)|destruct (f_point r) as [[]|]|tauto]; try tauto. }
  rewrite D. clear D.
  destruct r as [r1 r2 r3 r4 r5], p as [p1 p2 p3 p4 p5].
  cbn [f_act f_article f_paragraph f_point f_subpoint p_act p_article p_paragraph p_point p_subpoint].
  apply and_iff_compat_l.
  assert (L5 : match r5 with
     | Some (SpNum a) => exists x, p5 = Some (KSNum x) /\ numeric_cmp (r_start a) x <> Gt /\ numeric_cmp x (r_end a) <> Gt
     | Some (SpAlpha a) => exists x, p5 = Some (KSAlpha x) /\ prefixed_cmp (r_start a) x <> Gt /\ prefixed_cmp x (r_end a) <> Gt
     | None => True end <->
     kden key_cmp [option_map (fun p => match p with SpNum n => pair_map KSpN n | SpAlpha a => pair_map KSpA a end) r5]
       [option_map (fun k => match k with KSNum n => KSpN n | KSAlpha a => KSpA a end) p5]).
  { destruct r5 as [[a|a]|], p5 as [[x|x]|]; cbn; rewrite ?all_none_nil; try tauto;
    (split; [intros (y & E & F & G); injection E; intros; subst; auto || discriminate
            | intros (F & G & _); try (now exists x); try congruence]) ||
    (split; [intros (y & E & _); discriminate | try tauto; intros; exfalso; intuition congruence ]). }
  assert (L4 : match r4 with
     | Some (PtNum a) => exists x, p4 = Some (KNum x) /\ numeric_cmp (r_start a) x <> Gt /\ numeric_cmp x (r_end a) <> Gt
     | Some (PtAlpha a) => exists x, p4 = Some (KAlpha x) /\ hic_cmp (r_start a) x <> Gt /\ hic_cmp x (r_end a) <> Gt
     | None => is_some r5 = true -> p4 = None end /\
     kden key_cmp [option_map (fun p => match p with SpNum n => pair_map KSpN n | SpAlpha a => pair_map KSpA a end) r5]
       [option_map (fun k => match k with KSNum n => KSpN n | KSAlpha a => KSpA a end) p5] <->
     kden key_cmp [option_map (fun p => match p with PtNum n => pair_map KPtN n | PtAlpha a => pair_map KPtA a end) r4;
       option_map (fun p => match p with SpNum n => pair_map KSpN n | SpAlpha a => pair_map KSpA a end) r5]
       [option_map (fun k => match k with KNum n => KPtN n | KAlpha a => KPtA a end) p4;
        option_map (fun k => match k with KSNum n => KSpN n | KSAlpha a => KSpA a end) p5]).
  { clear L5. set (t5 := kden key_cmp [_] [_]). set (t := kden key_cmp (_ :: _ :: _) _). 
    assert (E : t = match option_map (fun p => match p with PtNum n => pair_map KPtN n | PtAlpha a => pair_map KPtA a end) r4,
      option_map (fun k => match k with KNum n => KPtN n | KAlpha a => KPtA a end) p4 with
      | Some (a, b), Some k => key_cmp a k <> Gt /\ key_cmp k b <> Gt /\ t5
      | Some _, None => False
      | None, x => all_none [option_map (fun p => match p with SpNum n => pair_map KSpN n | SpAlpha a => pair_map KSpA a end) r5] \/ x = None /\ t5
      end) by reflexivity.
    rewrite E. clearbody t. clear E.
    assert (Z : r5 = None -> t5) by (intros ->; subst t5; cbn; destruct p5; left; constructor).
    assert (AN : all_none [option_map (fun p => match p with SpNum n => pair_map KSpN n | SpAlpha a => pair_map KSpA a end) r5] <-> r5 = None) by (rewrite all_none_cons, all_none_nil, option_map_none; tauto).
    set (an := all_none _) in *. clearbody an. clearbody t5.
    destruct r4 as [[a|a]|], p4 as [[x|x]|]; cbn;
    try (split; [intros [(y & E & F & G) D]; injection E; intros; subst; auto || discriminate
            | intros (F & G & D); split; [try (now exists x); try congruence|exact D]]);
    try (split; [intros [(y & E & _) _]; discriminate | try tauto; intros; exfalso; intuition congruence ]);
    destruct r5; cbn; intuition congruence. }
  assert (L3 : match r3 with
     | Some a => exists x, p3 = Some x /\ numeric_cmp (r_start a) x <> Gt /\ numeric_cmp x (r_end a) <> Gt
     | None => is_some r4 = true \/ is_some r5 = true -> p3 = None end /\
     kden key_cmp [option_map (fun p => match p with PtNum n => pair_map KPtN n | PtAlpha a => pair_map KPtA a end) r4;
       option_map (fun p => match p with SpNum n => pair_map KSpN n | SpAlpha a => pair_map KSpA a end) r5]
       [option_map (fun k => match k with KNum n => KPtN n | KAlpha a => KPtA a end) p4;
        option_map (fun k => match k with KSNum n => KSpN n | KSAlpha a => KSpA a end) p5] <->
     kden key_cmp [option_map (pair_map KPar) r3; option_map (fun p => match p with PtNum n => pair_map KPtN n | PtAlpha a => pair_map KPtA a end) r4;
       option_map (fun p => match p with SpNum n => pair_map KSpN n | SpAlpha a => pair_map KSpA a end) r5]
       [option_map KPar p3; option_map (fun k => match k with KNum n => KPtN n | KAlpha a => KPtA a end) p4;
        option_map (fun k => match k with KSNum n => KSpN n | KSAlpha a => KSpA a end) p5]).
  { clear L4 L5. set (t5 := kden key_cmp [_; _] [_; _]). set (t := kden key_cmp (_ :: _ :: _) _). 
    assert (E : t = match option_map (pair_map KPar) r3, option_map KPar p3 with
      | Some (a, b), Some k => key_cmp a k <> Gt /\ key_cmp k b <> Gt /\ t5
      | Some _, None => False
      | None, x => all_none [option_map (fun p => match p with PtNum n => pair_map KPtN n | PtAlpha a => pair_map KPtA a end) r4;
         option_map (fun p => match p with SpNum n => pair_map KSpN n | SpAlpha a => pair_map KSpA a end) r5] \/ x = None /\ t5
      end) by reflexivity.
    rewrite E. clearbody t. clear E.
    assert (Z : r4 = None -> r5 = None -> t5) by (intros -> ->; subst t5; apply kden_none; repeat constructor).
    assert (AN : all_none [option_map (fun p => match p with PtNum n => pair_map KPtN n | PtAlpha a => pair_map KPtA a end) r4; option_map (fun p => match p with SpNum n => pair_map KSpN n | SpAlpha a => pair_map KSpA a end) r5] <-> r4 = None /\ r5 = None) by (rewrite !all_none_cons, all_none_nil, !option_map_none; tauto).
    set (an := all_none _) in *. clearbody an. clearbody t5.
    destruct r3 as [a|], p3 as [x|]; cbn.
    - split; [intros [(y & E & F & G) D]; injection E; intros; subst; auto | intros (F & G & D); eauto 6].
    - split; [intros [(y & E & _) _]; discriminate | tauto].
    - destruct r4, r5; cbn; intuition congruence.
    - destruct r4, r5; cbn; intuition congruence. }
  rewrite L5, L4, L3. clear L3 L4 L5.
  set (ks := [option_map (pair_map KPar) r3; _; _]). set (ps := [option_map KPar p3; _; _]).
  set (t := kden key_cmp (_ :: ks) _). set (t5 := kden key_cmp ks ps).
  assert (E : t = match option_map (pair_map KArt) r2, option_map KArt p2 with
      | Some (a, b), Some k => key_cmp a k <> Gt /\ key_cmp k b <> Gt /\ t5
      | Some _, None => False
      | None, x => all_none ks \/ x = None /\ t5
      end) by reflexivity.
  rewrite E. clearbody t. clear E.
  assert (Z : r3 = None -> r4 = None -> r5 = None -> t5) by (intros -> -> ->; subst t5 ks; apply kden_none; repeat constructor).
  assert (AN : all_none ks <-> r3 = None /\ r4 = None /\ r5 = None) by (unfold ks; rewrite !all_none_cons, all_none_nil, !option_map_none; tauto).
    set (an := all_none _) in *. clearbody an. clearbody t5. clear ks.
    destruct r2 as [a|], p2 as [x|]; cbn.
    - split; [intros [(y & E & F & G) D]; injection E; intros; subst; auto | intros (F & G & D); eauto 6].
    - split; [intros [(y & E & _) _]; discriminate | tauto].
    - destruct r3, r4, r5; cbn; intuition congruence.
    - destruct r3, r4, r5; cbn; intuition congruence.
Qed.
Lemma c14_contains r o : well_formed r -> ordered o -> skips_agree r o ->
  (contains r o = true <-> forall p, denotes o p -> denotes r p).
Proof.
  intros W O S. rewrite contains_keys, andb_true_iff, act_part_eqb_eq.
  rewrite (contains_k key_cmp key_total_ord (keys r) (keys o) kinds eq_refl (good_first o) (good_last o)
    (keys_wf r W) (proj1 (keys_ord o) O) (proj1 (keys_skip r o) S)).
  split.
  - intros [E H] p D. apply denotes_keys in D as [D1 D2]. apply denotes_keys. split; [congruence|].
    apply H; auto. apply (good_pos None). exists (mkPos None (p_article p) (p_paragraph p) (p_point p) (p_subpoint p)). auto.
  - intros H. split.
    + pose proof (good_first o) as G. apply (good_pos (f_act o)) in G as (q & Q1 & Q2).
      assert (D : denotes o q).
      { apply denotes_keys. rewrite Q2. split; auto. apply kden_firsts; [apply key_total_ord|]. now apply keys_ord. }
      apply H in D. destruct D as [D _]. congruence.
    + intros p G D. apply (good_pos (f_act o)) in G as (q & Q1 & Q2). subst p.
      assert (X : denotes o q) by (apply denotes_keys; auto).
      apply H, denotes_keys in X. tauto.
Qed.
Lemma no_skip_agree r o : no_skip r -> skips_agree r o.
Proof. intros H l l' A B C D. destruct B. apply (H l' l); auto. Qed.
Lemma c14_trans a b c : well_formed a -> well_formed b -> ordered b -> ordered c ->
  no_skip a -> no_skip b -> contains a b = true -> contains b c = true -> contains a c = true.
Proof.
  intros WA WB OB OC NA NB. rewrite !c14_contains; auto using no_skip_agree.
Qed.
Lemma c14_refl a : contains a a = true.
Proof.
  unfold contains.
  assert (R : forall x, ref_cmp x x = Eq).
  { intros x. unfold ref_cmp.
    rewrite (to_refl (opt_total _ act_total)). cbn [lex].
    destruct x as [? [x2|] [x3|] [[x4|x4]|] [[x5|x5]|]]; cbn; unfold range_cmp; cbn;
    rewrite ?(to_refl article_total), ?(to_refl numeric_total), ?(to_refl hic_total), ?(to_refl prefixed_total); cbn;
    rewrite ?(to_refl article_total), ?(to_refl numeric_total), ?(to_refl hic_total), ?(to_refl prefixed_total); reflexivity. }
  now rewrite !R.
Qed.
