(** Proofs for C67: parts and their nouns. *)
From Verif Require Export ProofShow2.
From Coq Require Import Lia.
Local Open Scope peg_scope.
Local Open Scope N_scope.

Section Run.
  Variable known : list str.
  Local Notation yields := (yields known).
  Local Notation fails := (fails known).

  Definition lead (l : str) : Prop := l = [] \/ l = lit " ".
  Lemma lead_none : lead []. Proof. now left. Qed.
  Lemma lead_space : lead (lit " "). Proof. now right. Qed.
  Lemma y_sk_lead {A} (p : parser A) l o t a o' t' : lead l -> quiet is_ascii_ws t -> yields p (o + utf8_len l) t a o' t' -> yields (sk p) o (l ++ t) a o' t'.
  Proof. intros [->| ->] Q H; [apply y_sk|apply y_sk_sp]; try exact Q; [|exact H]. change (utf8_len []) with 0 in H. now rewrite N.add_0_r in H. Qed.
  Lemma f_sk_lead {A} (p : parser A) l o t : lead l -> quiet is_ascii_ws t -> (forall o, fails p o t) -> fails (sk p) o (l ++ t).
  Proof. intros [->| ->] Q H; [apply f_sk|apply f_sk_sp]; auto. Qed.
  Lemma f_T_lead s x w l o t : lead l -> quiet is_ascii_ws t -> lit s = x :: w -> quiet (N.eqb x) t -> fails (T s) o (l ++ t).
  Proof. intros L Q E H. apply f_sk_lead; auto. intros o'. eapply f_tok_first; [exact E|apply N.eqb_refl|exact H]. Qed.
  Lemma quiet_sub f g t : (forall c, f c = true -> g c = true) -> quiet g t -> quiet f t.
  Proof. destruct t as [|c t]; [trivial|]. cbn. intros H Q. destruct (f c) eqn:E; [|reflexivity]. apply H in E. congruence. Qed.

  (** Separators *)
  Definition sep_heads : str := [44; 59; 233; 118; 105].
  Lemma f_separator l o t : lead l -> quiet is_ascii_ws t -> quiet (fun c => existsb (N.eqb c) sep_heads) t -> fails list_separator o (l ++ t).
  Proof.
    intros L Q S. unfold list_separator. assert (H : forall x, In x sep_heads -> quiet (N.eqb x) t).
    { intros x I. eapply quiet_sub; [|exact S]. cbn beta. intros c E. apply N.eqb_eq in E as <-. apply existsb_exists. exists x. split; [exact I|apply N.eqb_refl]. }
    apply f_bind1. repeat apply f_alt.
    - eapply f_bind2; [apply y_none, f_alt; eapply f_T_lead; eauto; try reflexivity; apply H; cbn; auto|]. cbn [one_of_sk].
      repeat (apply f_alt; [eapply f_T_lead; eauto; try reflexivity; apply H; cbn; auto 10|]). intros g _. reflexivity.
    - eapply f_T_lead; eauto; try reflexivity; apply H; cbn; auto.
    - eapply f_T_lead; eauto; try reflexivity; apply H; cbn; auto.
  Qed.
  Lemma y_sep_one {A} (p : parser A) l o t a o' l' t' : lead l -> quiet is_ascii_ws t -> yields p (o + utf8_len l) t a o' (l' ++ t') ->
    lead l' -> quiet is_ascii_ws t' -> quiet (fun c => existsb (N.eqb c) sep_heads) t' -> yields (sep_list p) o (l ++ t) [a] o' (l' ++ t').
  Proof.
    intros L Q H L' Q' S. unfold sep_list. eapply y_bind; [eapply y_sk_lead; eauto|]. eapply y_bind; [|apply y_ret]. apply y_many_nil, f_bind1.
    apply f_sk_lead; auto. intros o1. apply (f_separator [] o1 t'); auto. apply lead_none.
  Qed.
  Lemma f_sep {A} (p : parser A) l o t : lead l -> quiet is_ascii_ws t -> (forall o, fails p o t) -> fails (sep_list p) o (l ++ t).
  Proof. intros L Q H. unfold sep_list. apply f_bind1, f_sk_lead; auto. Qed.

  (** Nouns *)
  Lemma y_suffixed s w o t : forallb is_hun_lower w = true -> quiet is_hun_lower t -> yields (suffixed s) o (lit s ++ w ++ t) tt (o + utf8_len (lit s ++ w)) t.
  Proof.
    intros F Q. unfold suffixed. eapply y_bind; [apply y_tok|]. destruct (y_many_chars known is_hun_lower w (o + utf8_len (lit s)) t F Q) as [l H].
    eapply y_eq; [eapply y_void; exact H|]. rewrite utf8_len_app. lia.
  Qed.

  (** Parts *)
  Lemma y_range start id sep last o t s o1 t1 u o2 t2 e o3 t3 u' o4 t4 :
    yields start o t s o1 t1 -> yields sep o1 t1 u o2 t2 -> yields id o2 t2 e o3 t3 -> yields last o3 t3 u' o4 t4 ->
    yields (range_part start id sep last) o t (mkGPart (Some s) (Some e) None (ModelSem.mkPos o o4)) o4 t4.
  Proof.
    intros A B C D. unfold range_part. eapply (y_located known _ _ _ (mkGPart (Some s) (Some e) None)). apply y_alt1. eapply y_bind; [exact A|]. eapply y_bind; [exact B|].
    eapply y_bind; [exact C|]. eapply y_bind; [exact D|]. apply y_ret.
  Qed.
  Lemma y_single start id sep last o t s o1 t1 i o2 t2 u o3 t3 :
    yields start o t s o1 t1 -> fails sep o1 t1 -> yields id o t i o2 t2 -> yields last o2 t2 u o3 t3 ->
    yields (range_part start id sep last) o t (mkGPart None None (Some i) (ModelSem.mkPos o o3)) o3 t3.
  Proof.
    intros A B C D. unfold range_part. eapply (y_located known _ _ _ (mkGPart None None (Some i))). apply y_alt2; [eapply f_bind2; [exact A|]; apply f_bind1; exact B|].
    eapply y_bind; [exact C|]. eapply y_bind; [exact D|]. apply y_ret.
  Qed.
  Lemma f_range start id sep last o t : fails start o t -> fails id o t -> fails (range_part start id sep last) o t.
  Proof. intros A B. apply f_located, f_alt; now apply f_bind1. Qed.

  Definition no_dash (t : str) : Prop := forall o, fails (sk dash) o t.
  Lemma no_dash_lead l t : lead l -> quiet is_ascii_ws t -> quiet (fun c => existsb (N.eqb c) dash_chars) t -> no_dash (l ++ t).
  Proof. intros L Q H o. apply f_sk_lead; auto. intros o'. now apply f_chr. Qed.
  Lemma y_dash o t : yields (sk dash) o (lit "–" ++ t) tt (o + utf8_len (lit "–")) t.
  Proof. apply y_sk; [reflexivity|]. change (lit "–" ++ t) with (8211 :: t). apply (y_chr known _ o 8211 t). reflexivity. Qed.
  Lemma f_dash_dot o t : fails (sk dash) o (lit "." ++ t).
  Proof. apply f_sk; [reflexivity|]. now apply f_chr. Qed.
  Lemma f_dash_paren o t : fails (sk dash) o (lit ")" ++ t).
  Proof. apply f_sk; [reflexivity|]. now apply f_chr. Qed.

  (** A part in which each identifier is closed by a parenthesis; a part closed by a full stop *)
  Section Part.
    Context {T : Type} (show : T -> str) (parse : str -> outcome T) (good : T -> Prop).
    Hypothesis parses : forall x, good x -> parse (show x) = Ok x.
    Section Paren.
      Variables (opening : str) (id : parser str).
      Hypothesis read : forall x o t, good x -> yields id o ((opening ++ show x) ++ lit ")" ++ t) (show x) (o + utf8_len (opening ++ show x)) (lit ")" ++ t).
      Lemma y_paren_part sep r i o t : range_of good r -> closed_by_paren opening show r i -> no_dash t ->
        (forall o t, yields sep o (lit ")" ++ lit "–" ++ t) tt (o + utf8_len (lit ")–")) t) -> (forall o t, no_dash t -> fails sep o (lit ")" ++ t)) ->
        exists p, yields (range_part id id sep (ModelGrammar.T ")")) o (i ++ t) p (o + utf8_len i) t /\ gp_pos p = ModelSem.mkPos o (o + utf8_len i) /\ part_range parse p = Ok r.
      Proof.
        intros [G1 G2] C D S1 S2. destruct C as [[E ->]|[NE ->]].
        - exists (mkGPart None None (Some (show (r_start r))) (ModelSem.mkPos o (o + utf8_len (opening ++ show (r_start r) ++ lit ")")))). split; [|split]; cycle 1.
          + cbn [gp_pos]. reflexivity.
          + unfold part_range. cbn. rewrite (parses _ G1). cbn. unfold single. destruct r as [a b]; cbn in *. now subst.
          + replace (opening ++ show (r_start r) ++ lit ")") with ((opening ++ show (r_start r)) ++ lit ")") by (now rewrite <- app_assoc).
            rewrite <- (app_assoc (opening ++ show (r_start r)) (lit ")") t). rewrite (utf8_len_app (opening ++ show (r_start r))), N.add_assoc.
            eapply y_single; [now apply read|now apply S2|now apply read|apply y_T; reflexivity].
        - exists (mkGPart (Some (show (r_start r))) (Some (show (r_end r))) None (ModelSem.mkPos o (o + utf8_len (from_to (opening ++ show (r_start r) ++ lit ")") (opening ++ show (r_end r) ++ lit ")"))))). split; [|split]; cycle 1.
          + cbn [gp_pos]. reflexivity.
          + unfold part_range. cbn. rewrite (parses _ G1), (parses _ G2). cbn. now destruct r.
          + unfold from_to. set (a := r_start r) in *. set (b := r_end r) in *.
            replace (((opening ++ show a ++ lit ")") ++ lit "–" ++ opening ++ show b ++ lit ")") ++ t)
              with ((opening ++ show a) ++ lit ")" ++ lit "–" ++ (opening ++ show b) ++ lit ")" ++ t) by (now rewrite <- !app_assoc).
            replace (o + utf8_len ((opening ++ show a ++ lit ")") ++ lit "–" ++ opening ++ show b ++ lit ")"))
              with (o + utf8_len (opening ++ show a) + utf8_len (lit ")–") + utf8_len (opening ++ show b) + utf8_len (lit ")")).
            2: { change (lit ")–") with (lit ")" ++ lit "–"). rewrite !utf8_len_app. lia. }
            eapply y_range; [now apply read|apply S1|now apply read|apply y_T; reflexivity].
      Qed.
    End Paren.
    Section Dot.
      Variable id : parser str.
      Hypothesis read : forall x o t, good x -> stop t -> yields id o (show x ++ t) (show x) (o + utf8_len (show x)) t.
      Lemma y_dot_part r i o t : range_of good r -> dotted show r i -> no_dash t ->
        exists p, yields (range_part id id (sk dash) (ModelGrammar.T ".")) o (i ++ t) p (o + utf8_len i) t /\ gp_pos p = ModelSem.mkPos o (o + utf8_len i) /\ part_range parse p = Ok r.
      Proof.
        intros [G1 G2] C D. destruct C as [[E ->]|[NE ->]].
        - exists (mkGPart None None (Some (show (r_start r))) (ModelSem.mkPos o (o + utf8_len (show (r_start r) ++ lit ".")))). split; [|split]; cycle 1.
          + cbn [gp_pos]. reflexivity.
          + unfold part_range. cbn. rewrite (parses _ G1). cbn. unfold single. destruct r as [a b]; cbn in *. now subst.
          + rewrite <- app_assoc, utf8_len_app, N.add_assoc. eapply y_single; [apply read; auto using stop_dot|apply f_dash_dot|apply read; auto using stop_dot|apply y_T; reflexivity].
        - exists (mkGPart (Some (show (r_start r))) (Some (show (r_end r))) None (ModelSem.mkPos o (o + utf8_len (from_to (show (r_start r)) (show (r_end r)) ++ lit ".")))). split; [|split]; cycle 1.
          + cbn [gp_pos]. reflexivity.
          + unfold part_range. cbn. rewrite (parses _ G1), (parses _ G2). cbn. now destruct r.
          + unfold from_to. rewrite <- !app_assoc, !utf8_len_app, !N.add_assoc.
            eapply y_range; [apply read; auto using stop_dash|apply y_dash|apply read; auto using stop_dot|apply y_T; reflexivity].
      Qed.
    End Dot.
  End Part.
End Run.
