(** Proofs for C71-: the grammar on sentences; the state, white space, titles of acts. *)
From Verif Require Export SpecSay ProofShow9.
From Coq Require Import Lia.
Local Open Scope peg_scope.
Local Open Scope N_scope.

Lemma white_is c : is_ascii_ws c = true <-> white c.
Proof. unfold is_ascii_ws, white. rewrite existsb_exists. split; [intros (x & I & E); apply N.eqb_eq in E as ->; exact I|intros I; exists c; split; [exact I|apply N.eqb_refl]]. Qed.
Lemma not_white c : ~ white c -> is_ascii_ws c = false.
Proof. intros H. apply not_true_iff_false. now rewrite white_is. Qed.
Lemma not_digit c : ~ digit c -> is_digit c = false.
Proof. unfold digit, is_digit. intros H. apply andb_false_iff. rewrite !N.leb_gt. lia. Qed.
Lemma split_at (f : char -> bool) t : exists w u, t = w ++ u /\ forallb f w = true /\ quiet f u.
Proof.
  induction t as [|c t (w & u & -> & F & Q)]; [exists [], []; repeat split|]. destruct (f c) eqn:E.
  - exists (c :: w), u. cbn [forallb app]. rewrite E. auto.
  - exists [], (c :: w ++ u). repeat split. exact E.
Qed.

Section Run.
  Variable known : list str.
  Local Notation yields := (yields known).
  Local Notation fails := (fails known).

  Lemma y_not {A} (p : parser A) o t : fails p o t -> yields (not_ahead p) o t tt o t.
  Proof. intros H g E. unfold not_ahead. now rewrite (H g E). Qed.
  Lemma f_not {A} (p : parser A) o t a o' t' : yields p o t a o' t' -> fails (not_ahead p) o t.
  Proof. intros H g E. unfold not_ahead. now rewrite (H g E). Qed.
  Lemma y_span w o t : forallb is_ascii_ws w = true -> quiet is_ascii_ws t -> yields ws o (w ++ t) tt (o + utf8_len w) t.
  Proof.
    intros F Q g E. unfold ws. cbn [cu_rest]. replace (span is_ascii_ws (w ++ t)) with (w, t); [reflexivity|].
    induction w as [|c w IH]; cbn [app forallb span] in F |- *; [destruct t as [|c t]; cbn [quiet span] in *; [reflexivity|now rewrite Q]|]. apply andb_true_iff in F as [F1 F2]. rewrite F1, <- IH by exact F2. reflexivity.
  Qed.
  Lemma y_sk_ws {A} (p : parser A) w o t a o' t' : forallb is_ascii_ws w = true -> quiet is_ascii_ws t -> yields p (o + utf8_len w) t a o' t' -> yields (sk p) o (w ++ t) a o' t'.
  Proof. intros F Q H. eapply y_bind; [now apply y_span|exact H]. Qed.
  Lemma f_sk_ws {A} (p : parser A) w o t : forallb is_ascii_ws w = true -> quiet is_ascii_ws t -> fails p (o + utf8_len w) t -> fails (sk p) o (w ++ t).
  Proof. intros F Q H. eapply f_bind2; [now apply y_span|exact H]. Qed.
  Lemma f_one_of l o t : forallb (fun s => match strip_prefix (lit s) t with None => true | _ => false end) l = true -> fails (one_of l) o t.
  Proof.
    induction l as [|s l IH]; cbn [forallb one_of]; intros H; [intros g _; reflexivity|]. apply andb_true_iff in H as [H1 H2]. apply f_alt; [|now apply IH].
    apply f_tok. now destruct (strip_prefix (lit s) t).
  Qed.
  Lemma f_one_of_sk l o t : quiet is_ascii_ws t -> forallb (fun s => match strip_prefix (lit s) t with None => true | _ => false end) l = true -> fails (one_of_sk l) o t.
  Proof.
    intros Q. induction l as [|s l IH]; cbn [forallb one_of_sk]; intros H; [intros g _; reflexivity|]. apply andb_true_iff in H as [H1 H2]. apply f_alt; [|now apply IH].
    apply f_T; [exact Q|]. now destruct (strip_prefix (lit s) t).
  Qed.

  (** ** Titles of acts *)
  Definition stop_words : list string := ["hatálybalépés"; "módosítás"; "összefüggő"]%string.
  Definition title_step : parser unit := not_ahead (sk act_reference ;; not_ahead (one_of_sk stop_words)) ;; sk any_token.
  Lemma act_title_is : act_title = memo_title (void (many title_step)).
  Proof. reflexivity. Qed.
  Record titled (R t : str) : Prop := {
    td_digit : Forall (fun c => is_digit c = false) t; td_end : forall u c, t = u ++ [c] -> c = 32; td_known : forall v x u k, t = v ++ x :: u -> In k known -> ~ begins_with k (x :: u ++ R) }.
  Lemma titled_tail R v t : titled R (v ++ t) -> titled R t.
  Proof.
    intros [D E K]. constructor; [now apply Forall_app in D|intros u c ->; apply (E (v ++ u) c), app_assoc|].
    intros v' x u k -> I. apply (K (v ++ v') x u k); [apply app_assoc|exact I].
  Qed.
  Lemma no_known l s : (forall k, In k l -> ~ begins_with k s) -> parse_abbreviation l s = None.
  Proof.
    induction l as [|k l IH]; intros H; cbn [parse_abbreviation]; [reflexivity|]. destruct (starts_with k s) eqn:E; [|apply IH; intros k' I; apply H; now right].
    exfalso. apply starts_with_spec in E as [b ->]. apply (H k (or_introl eq_refl)). now exists b.
  Qed.
  Lemma f_act_ref o t : quiet is_ascii_ws t -> quiet is_digit t -> (forall k, In k known -> ~ begins_with k t) -> fails act_reference o t.
  Proof.
    intros W D K. unfold act_reference. apply f_alt; [apply f_bind1, f_sk; [exact W|]; apply f_act_id_now; [exact W|]; intros o1; now apply f_act_other|].
    apply f_sk; [exact W|]. unfold g_abbreviation. apply f_located, f_bind1, f_sk; [exact W|]. intros g E. unfold abbreviation_content. cbn [cu_rest]. rewrite E, no_known by exact K. reflexivity.
  Qed.
  Lemma y_any_word v o t : v <> [] -> forallb (fun c => is_hun_any c || (c =? 45)) v = true -> quiet (fun c => is_hun_any c || (c =? 45)) t -> quiet is_ascii_ws (v ++ t) ->
    yields any_token o (v ++ t) tt (o + utf8_len v) t.
  Proof.
    intros NE F Q W. unfold any_token. apply y_alt1. apply y_sk; [exact W|]. unfold g_word, word_char. destruct (y_many1_chars known _ v o t NE F Q) as [l Y]. eapply y_void. exact Y.
  Qed.
  Lemma y_any_char c o t : is_ascii_ws c = false -> is_hun_any c || (c =? 45) = false -> is_digit c = false -> yields any_token o (c :: t) tt (o + utf8_len [c]) t.
  Proof.
    intros W H D. unfold any_token. apply y_alt2; [apply f_sk; [exact W|]; apply f_void, f_many1, f_chr; exact H|].
    apply y_alt2; [apply f_void, f_sk; [exact W|]; apply f_number; exact D|]. apply y_sk; [exact W|]. now apply y_chr.
  Qed.
  Section Title.
    Variable R : str.
    Hypothesis stops : forall w o, forallb is_ascii_ws w = true -> fails title_step o (w ++ R).
    Lemma title_loop n : forall t o, (List.length t < n)%nat -> titled R t ->
      exists l w v, t = v ++ w /\ forallb is_ascii_ws w = true /\ yields (many_n n title_step) o (t ++ R) l (o + utf8_len v) (w ++ R).
    Proof.
      induction n as [|n IH]; intros t o L TD; [lia|]. destruct (split_at is_ascii_ws t) as (w & u & -> & FW & QW). destruct u as [|c u].
      - exists [], w, []. rewrite app_nil_r in *. split; [reflexivity|]. split; [exact FW|]. intros g E. cbn [many_n]. rewrite (stops w o FW g E). cbn. now rewrite N.add_0_r.
      - pose proof (titled_tail _ _ _ TD) as [D E K]. cbn in QW. pose proof D as D0. inversion D0 as [|? ? DC DU]; subst.
        assert (A : fails (sk act_reference ;; not_ahead (one_of_sk stop_words)) o (w ++ c :: u ++ R)).
        { apply f_bind1, f_sk_ws; [exact FW|exact QW|]. apply f_act_ref; [exact QW|exact DC|]. intros k I. exact (K [] c u k eq_refl I). }
        assert (S : exists v u2, c :: u = v ++ u2 /\ v <> [] /\ forall o, yields any_token o (c :: u ++ R) tt (o + utf8_len v) (u2 ++ R)).
        { destruct (is_hun_any c || (c =? 45)) eqn:HC; [|exists [c], u; split; [reflexivity|]; split; [discriminate|]; intros o1; now apply y_any_char].
          destruct (split_at (fun c => is_hun_any c || (c =? 45)) (c :: u)) as (v & u2 & EQ & FV & QV). destruct v as [|c' v]; [cbn in EQ; subst u2; cbn in QV; congruence|]. exists (c' :: v), u2. split; [exact EQ|]. split; [discriminate|].
          intros o1. change (c :: u ++ R) with ((c :: u) ++ R). rewrite EQ, <- app_assoc. apply y_any_word; [discriminate|exact FV| |injection EQ as <- _; exact QW].
          destruct u2 as [|d u2]; [|exact QV]. exfalso. rewrite app_nil_r in EQ. destruct (@exists_last _ (c' :: v)) as (x & y & EL); [discriminate|]. rewrite EL in EQ. apply E in EQ. subst y.
          rewrite EL, forallb_app in FV. apply andb_true_iff in FV as [_ FV]. discriminate FV. }
        destruct S as (v & u2 & EQ & NE & S). assert (TD2 : titled R u2) by (rewrite EQ, app_assoc in TD; exact (titled_tail _ _ _ TD)).
        assert (L2 : (List.length u2 < n)%nat). { rewrite app_length, EQ, app_length in L. destruct v; [congruence|]. cbn in L. lia. }
        destruct (IH u2 (o + utf8_len w + utf8_len v) L2 TD2) as (l & w' & v' & -> & FW' & Y). exists (tt :: l), w', (w ++ v ++ v'). rewrite EQ, <- !app_assoc. split; [reflexivity|]. split; [exact FW'|].
        intros g EG. cbn [many_n].
        assert (ST : yields title_step o (w ++ c :: u ++ R) tt (o + utf8_len w + utf8_len v) ((v' ++ w') ++ R)).
        { unfold title_step. eapply y_bind; [now apply y_not|]. apply y_sk_ws; [exact FW|exact QW|]. apply S. }
        change (c :: u ++ R) with ((c :: u) ++ R) in ST. rewrite EQ, <- !app_assoc in ST. rewrite <- !app_assoc in Y. rewrite (ST g EG), (Y g EG). rewrite !utf8_len_app, !N.add_assoc. reflexivity.
    Qed.
    Lemma y_title t o : titled R t -> exists w v, t = v ++ w /\ forallb is_ascii_ws w = true /\ yields (void (many title_step)) o (t ++ R) tt (o + utf8_len v) (w ++ R).
    Proof.
      intros TD. destruct (title_loop (S (List.length (t ++ R))) t o) as (l & w & v & E & F & Y); [rewrite app_length; lia|exact TD|]. exists w, v. split; [exact E|]. split; [exact F|].
      eapply y_void. intros g EG. exact (Y g EG).
    Qed.
  End Title.
End Run.
