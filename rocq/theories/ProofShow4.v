(** Proofs for C67: the levels of a reference. *)
From Verif Require Export ProofShow3.
From Coq Require Import Lia.
Local Open Scope peg_scope.
Local Open Scope N_scope.

Section Run.
  Variable known : list str.
  Local Notation yields := (yields known).
  Local Notation fails := (fails known).
  Local Notation no_dash := (no_dash known).

  (** ** Levels below the article *)
  Definition g_level (part : parser g_part) (noun : string) : parser (list g_part) := l <- sep_list part ;; sk (suffixed noun) ;; ret l.
  (** The part ends before a space and the noun. *)
  Definition part_read {T} (parse : str -> outcome T) (part : parser g_part) (i : str) (r : range T) : Prop :=
    forall o t, no_dash t -> exists p, yields part o (i ++ t) p (o + utf8_len i) t /\ gp_pos p = ModelSem.mkPos o (o + utf8_len i) /\ part_range parse p = Ok r.
  (** A noun: not mistaken for a separator or a dash *)
  Definition noun_like (s : str) : Prop :=
    match s with c :: _ => is_ascii_ws c = false /\ existsb (N.eqb c) dash_chars = false /\ existsb (N.eqb c) sep_heads = false | [] => False end.
  Lemma noun_facts s t : noun_like s -> quiet is_ascii_ws (s ++ t) /\ quiet (fun c => existsb (N.eqb c) dash_chars) (s ++ t) /\ quiet (fun c => existsb (N.eqb c) sep_heads) (s ++ t).
  Proof. destruct s as [|c s]; [contradiction|]. intros H. exact H. Qed.
  Lemma y_level {T} (parse : str -> outcome T) part noun i r l o w t :
    part_read parse part i r -> lead l -> quiet is_ascii_ws i -> i <> [] -> noun_like (lit noun) -> forallb is_hun_lower w = true -> quiet is_hun_lower t ->
    exists p, yields (sk (g_level part noun)) o (l ++ i ++ lit " " ++ lit noun ++ w ++ t) [p] (o + utf8_len (l ++ i ++ lit " " ++ lit noun ++ w)) t /\
      ps_start (gp_pos p) = o + utf8_len l /\ part_range parse p = Ok r.
  Proof.
    intros P L Q NE N F E. destruct (noun_facts _ (w ++ t) N) as (N1 & N2 & N3).
    destruct (P (o + utf8_len l) (lit " " ++ lit noun ++ w ++ t)) as (p & Y & Y1 & Y2); [apply no_dash_lead; auto using lead_space|].
    exists p. split; [|split; [now rewrite Y1|exact Y2]].
    assert (Q' : quiet is_ascii_ws (i ++ lit " " ++ lit noun ++ w ++ t)) by (destruct i; [congruence|exact Q]).
    apply y_sk_lead; [exact L|exact Q'|]. unfold g_level. eapply y_bind.
    - apply (y_sep_one known part [] (o + utf8_len l) _ p (o + utf8_len l + utf8_len i) (lit " ") (lit noun ++ w ++ t)); auto using lead_none, lead_space.
      change (utf8_len []) with 0. now rewrite N.add_0_r.
    - eapply y_bind; [apply y_sk_sp; [exact N1|now apply y_suffixed]|]. eapply y_eq; [apply y_ret|]. rewrite !utf8_len_app. change (utf8_len (lit " ")) with 1. lia.
  Qed.
  (** Another noun follows. *)
  Lemma f_level_noun {T} (parse : str -> outcome T) part noun i r l o s : part_read parse part i r -> lead l -> quiet is_ascii_ws i -> i <> [] -> noun_like s ->
    strip_prefix (lit noun) s = None -> fails (sk (g_level part noun)) o (l ++ i ++ lit " " ++ s).
  Proof.
    intros P L Q NE N F. destruct (noun_facts _ [] N) as (N1 & N2 & N3). rewrite app_nil_r in *.
    assert (Q' : quiet is_ascii_ws (i ++ lit " " ++ s)) by (destruct i; [congruence|exact Q]).
    apply f_sk_lead; [exact L|exact Q'|]. intros o'. destruct (P o' (lit " " ++ s)) as (p & Y & _); [apply no_dash_lead; auto using lead_space|].
    unfold g_level. eapply f_bind2.
    - apply (y_sep_one known part [] o' _ p (o' + utf8_len i) (lit " ") s); auto using lead_none, lead_space. change (utf8_len []) with 0. now rewrite N.add_0_r.
    - apply f_bind1, f_sk_sp; [exact N1|]. apply f_bind1. now apply f_tok.
  Qed.
  Lemma f_level part noun l o t : lead l -> quiet is_ascii_ws t -> (forall o, fails part o t) -> fails (sk (g_level part noun)) o (l ++ t).
  Proof. intros L Q H. apply f_sk_lead; auto. intros o'. unfold g_level. apply f_bind1. apply (f_sep known part [] o' t); auto using lead_none. Qed.

  (** The five kinds of parts *)
  Lemma read_paragraph r i : range_of (fun x => numeric_ok x = true) r -> closed_by_paren (lit "(") numeric_show r i -> part_read numeric_parse paragraph_reference_part i r.
  Proof.
    intros G C o t D. unfold paragraph_reference_part. eapply (y_paren_part known numeric_show numeric_parse (fun x => numeric_ok x = true) numeric_parse_show (lit "(") (ModelGrammar.T "(" ;; sk paragraph_id_rule)); eauto.
    - intros x o1 t1 H. rewrite <- app_assoc. eapply y_bind; [apply y_T; reflexivity|]. eapply y_eq; [apply y_sk; [apply quiet_ws_numeric|apply y_paragraph_id; auto using stop_paren]|]. rewrite utf8_len_app. lia.
    - intros o1 t1. eapply y_bind; [apply y_T; reflexivity|]. eapply y_eq; [apply y_dash|]. change (lit ")–") with (lit ")" ++ lit "–"). rewrite utf8_len_app. lia.
    - intros o1 t1 D1. eapply f_bind2; [apply y_T; reflexivity|]. apply D1.
  Qed.
  Lemma read_alpha_point r i : range_of (fun x => hic_ok x = true) r -> closed_by_paren [] hic_show r i -> part_read hic_parse alpha_point_part i r.
  Proof.
    intros G C o t D. unfold alpha_point_part. eapply (y_paren_part known hic_show hic_parse (fun x => hic_ok x = true) hic_parse_show [] (sk alpha_point_id)); eauto.
    - intros x o1 t1 H. cbn [app]. apply y_sk; [now apply quiet_ws_hic|]. apply y_alpha_point_id; auto using stop_paren.
    - intros o1 t1. eapply y_bind; [apply y_some, y_T; reflexivity|]. eapply y_eq; [apply y_dash|]. change (lit ")–") with (lit ")" ++ lit "–"). rewrite utf8_len_app. lia.
    - intros o1 t1 D1. eapply f_bind2; [apply y_some, y_T; reflexivity|]. apply D1.
  Qed.
  Lemma read_num_point r i : range_of (fun x => numeric_ok x = true) r -> dotted numeric_show r i -> part_read numeric_parse num_point_part i r.
  Proof.
    intros G C o t D. unfold num_point_part. eapply (y_dot_part known numeric_show numeric_parse (fun x => numeric_ok x = true) numeric_parse_show (sk num_point_id)); eauto.
    intros x o1 t1 H S. apply y_sk; [apply quiet_ws_numeric|]. now apply y_num_point_id.
  Qed.
  Lemma read_num_sub r i : range_of (fun x => numeric_ok x = true) r -> n_suffix (r_start r) = None -> n_suffix (r_end r) = None -> dotted numeric_show r i ->
    part_read numeric_parse num_subpoint_part i r.
  Proof.
    intros [G1 G2] S1 S2 C o t D. unfold num_subpoint_part.
    eapply (y_dot_part known numeric_show numeric_parse (fun x => numeric_ok x = true /\ n_suffix x = None)); eauto.
    - intros x [H _]. now apply numeric_parse_show.
    - intros x o1 t1 [H N] S. apply y_sk; [apply quiet_ws_numeric|]. now apply y_num_sub_id.
    - split; split; assumption.
  Qed.
  Lemma read_alpha_sub r i : range_of (fun x => prefixed_ok x = true /\ prefixed_latin x = true) r -> closed_by_paren [] prefixed_show r i -> part_read prefixed_parse alpha_subpoint_part i r.
  Proof.
    intros G C o t D. unfold alpha_subpoint_part.
    eapply (y_paren_part known prefixed_show prefixed_parse (fun x => prefixed_ok x = true /\ prefixed_latin x = true) ltac:(intros x [A B]; now apply prefixed_parse_show) [] (sk alpha_subpoint_id)); eauto.
    - intros x o1 t1 [H1 H2]. cbn [app]. apply y_sk; [now apply quiet_ws_prefixed|]. apply y_alpha_sub_id; auto using stop_paren.
    - intros o1 t1. eapply y_bind; [apply y_T; reflexivity|]. eapply y_eq; [apply y_dash|]. change (lit ")–") with (lit ")" ++ lit "–"). rewrite utf8_len_app. lia.
    - intros o1 t1 D1. eapply f_bind2; [apply y_T; reflexivity|]. apply D1.
  Qed.
End Run.
