(** Proofs for C74-: quotations. *)
From Verif Require Export ProofSay13.
From Coq Require Import Lia.
Local Open Scope peg_scope.
Local Open Scope N_scope.

Definition mark_first (t : str) : Prop := exists c u, t = c :: u /\ (c = 8222 \/ c = 8221).
Definition closes (t : str) : Prop := exists u, t = lit "”" ++ u.
Inductive nested_quotes : str -> Prop :=
| nested_nil : nested_quotes []
| nested_cons y p r : quote_text y -> no_marks p -> nested_quotes r -> nested_quotes (lit "„" ++ y ++ lit "”" ++ p ++ r).
Lemma quoted_nested x : quote_text x -> exists p r, x = p ++ r /\ no_marks p /\ nested_quotes r.
Proof.
  induction 1 as [x U|x y z U Q _ _ (p & r & -> & P & R)].
  - exists x, []. rewrite app_nil_r. repeat split; [exact U|constructor].
  - exists x. eexists. split; [reflexivity|]. split; [exact U|]. now constructor.
Qed.
Lemma nested_quoted r : nested_quotes r -> forall p, no_marks p -> quote_text (p ++ r).
Proof.
  induction 1 as [|y q r Q U N IH]; intros p P; [rewrite app_nil_r; now constructor|]. now apply quote_in; [| |apply IH].
Qed.
Lemma unmarked_app x y : no_marks (x ++ y) -> no_marks x /\ no_marks y.
Proof. apply Forall_app. Qed.
Lemma nested_marked r t : nested_quotes r -> closes t -> mark_first (r ++ t).
Proof. intros [|y p r' _ _ _] (u & ->); [exists 8221, u; auto|]. exists 8222. eexists. split; [reflexivity|auto]. Qed.
Lemma marked_ws t : mark_first t -> quiet is_ascii_ws t.
Proof. intros (c & u & -> & [->| ->]); reflexivity. Qed.

Section Run.
  Variable known : list str.
  Local Notation yields := (yields known).
  Local Notation fails := (fails known).
  Lemma y_many_cons {A} (p : parser A) o t a o1 t1 l o2 t2 : (List.length t1 < List.length t)%nat -> yields p o t a o1 t1 -> yields (many p) o1 t1 l o2 t2 -> yields (many p) o t (a :: l) o2 t2.
  Proof.
    intros L H K g E. specialize (H g E). specialize (K g E). unfold many in *. cbn [cu_rest] in *. cbn [many_n]. rewrite H. rewrite (many_n_grows p (S (List.length t1)) (List.length t) _ _ _ _ _ L K). reflexivity.
  Qed.
  Lemma y_T_ws s w o t : forallb is_ascii_ws w = true -> quiet is_ascii_ws (lit s ++ t) -> yields (T s) o (w ++ lit s ++ t) tt (o + utf8_len w + utf8_len (lit s)) t.
  Proof. intros F Q. apply y_sk_ws; [exact F|exact Q|apply y_tok]. Qed.
  Lemma y_mark w o t : forallb is_ascii_ws w = true -> mark_first t -> exists o' t', yields quote_mark o (w ++ t) tt o' t'.
  Proof.
    intros F (c & u & -> & [->| ->]); do 2 eexists.
    - apply y_alt1. exact (y_T_ws "„" w o u F eq_refl).
    - apply y_alt2; [apply f_sk_ws; [exact F|reflexivity|apply f_tok; reflexivity]|]. exact (y_T_ws "”" w o u F eq_refl).
  Qed.
  Lemma f_mark w o c t : forallb is_ascii_ws w = true -> is_ascii_ws c = false -> c <> 8222 /\ c <> 8221 -> fails quote_mark o (w ++ c :: t).
  Proof.
    intros F Q [N1 N2]. apply f_alt; (apply f_sk_ws; [exact F|exact Q|apply f_tok]); change (strip_prefix [8222] (c :: t) = None) || change (strip_prefix [8221] (c :: t) = None); cbn [strip_prefix].
    - destruct (N.eqb_spec 8222 c); [congruence|reflexivity].
    - destruct (N.eqb_spec 8221 c); [congruence|reflexivity].
  Qed.
  Lemma y_unquoted n : forall p o t, (List.length p <= n)%nat -> no_marks p -> mark_first t -> exists p' w l, p = p' ++ w /\ forallb is_ascii_ws w = true /\ yields (many (not_ahead quote_mark ;; sk any)) o (p ++ t) l (o + utf8_len p') (w ++ t).
  Proof.
    induction n as [|n IH]; intros p o t L U M.
    - destruct p; [|cbn in L; lia]. exists [], [], []. repeat split. change (utf8_len []) with 0. rewrite N.add_0_r. apply y_many_nil, f_bind1. destruct (y_mark [] o t eq_refl M) as (o' & t' & Y). eapply f_not. exact Y.
    - destruct (split_at is_ascii_ws p) as (w & p1 & -> & F & Q). destruct p1 as [|c p2].
      + exists [], w, []. rewrite app_nil_r in *. repeat split; [exact F|]. change (utf8_len []) with 0. rewrite N.add_0_r. apply y_many_nil, f_bind1. destruct (y_mark w o t F M) as (o' & t' & Y). eapply f_not. exact Y.
      + apply unmarked_app in U as [U1 U2]. inversion U2 as [|? ? UC U3]; subst. rewrite app_length in L. cbn [List.length] in L.
        destruct (IH p2 (o + utf8_len w + utf8_len [c]) t ltac:(lia) U3 M) as (p' & w' & l & E & F' & Y). exists (w ++ c :: p'), w', (tt :: l). rewrite E in *. split; [now rewrite <- app_assoc|]. split; [exact F'|].
        rewrite <- app_assoc. cbn [app]. apply (y_many_cons _ o _ tt (o + utf8_len w + utf8_len [c]) ((p' ++ w') ++ t)).
        * rewrite (app_length w). cbn [List.length]. lia.
        * eapply y_bind; [apply y_not, f_mark; auto|]. apply y_sk_ws; [exact F|exact Q|]. now apply y_chr.
        * eapply y_eq; [exact Y|]. rewrite utf8_len_app. change (c :: p') with ([c] ++ p'). rewrite utf8_len_app. lia.
  Qed.
  Lemma y_unq p o t : no_marks p -> mark_first t -> exists p' w, p = p' ++ w /\ forallb is_ascii_ws w = true /\ yields unquoted o (p ++ t) tt (o + utf8_len p') (w ++ t).
  Proof. intros U M. destruct (y_unquoted (List.length p) p o t (le_n _) U M) as (p' & w & l & E & F & Y). exists p', w. repeat split; auto. eapply y_void. exact Y. Qed.
  Definition inner_quote (n : nat) : parser unit := T "„" ;; sk (quote_inner_n n) ;; T "”" ;; unquoted.
  Definition inner_ok (n : nat) : Prop := forall p r o t, no_marks p -> nested_quotes r -> (List.length (p ++ r) < n)%nat -> closes t ->
    exists x' w, p ++ r = x' ++ w /\ forallb is_ascii_ws w = true /\ yields (quote_inner_n n) o (p ++ r ++ t) tt (o + utf8_len x') (w ++ t).
  Lemma y_within n r : inner_ok n -> nested_quotes r -> (List.length r <= n)%nat -> forall w o t, forallb is_ascii_ws w = true -> closes t ->
    exists r' w' l, w ++ r = r' ++ w' /\ forallb is_ascii_ws w' = true /\ yields (many (inner_quote n)) o (w ++ r ++ t) l (o + utf8_len r') (w' ++ t).
  Proof.
    intros IH N. induction N as [|y p r Q U N IHN]; intros L w o t F C.
    - exists [], w, []. rewrite app_nil_r. split; [reflexivity|]. split; [exact F|]. change (utf8_len []) with 0. rewrite N.add_0_r. apply y_many_nil, f_bind1. destruct C as (u & ->). apply f_sk_ws; [exact F|reflexivity|]. apply f_tok. reflexivity.
    - rewrite !app_length in L. cbn [List.length lit] in L. change (List.length (lit "„")) with 1%nat in L. change (List.length (lit "”")) with 1%nat in L.
      destruct (split_at is_ascii_ws y) as (w0 & y1 & E0 & F0 & Q0). destruct (quoted_nested y Q) as (p0 & r0 & EY & P0 & R0).
      assert (D : exists p1, p0 = w0 ++ p1 /\ y1 = p1 ++ r0 /\ no_marks p1).
      { clear - E0 F0 EY P0 R0. rewrite EY in E0. clear EY. revert p0 P0 E0. induction w0 as [|c w0 IH]; intros p0 P0 E0; cbn [app] in *.
        - exists p0. auto.
        - cbn [forallb] in F0. apply andb_true_iff in F0 as [F1 F2]. destruct p0 as [|d p0]; cbn [app] in E0.
          + exfalso. destruct R0; [discriminate E0|]. injection E0 as <- _. discriminate F1.
          + injection E0 as -> E0. inversion P0; subst. destruct (IH F2 p0) as (p1 & -> & -> & U); auto. exists p1. auto. }
      destruct D as (p1 & -> & EY1 & P1). assert (C1 : closes (lit "”" ++ p ++ r ++ t)) by (eexists; reflexivity).
      assert (LY : (List.length (p1 ++ r0) < n)%nat) by (rewrite EY, !app_length in L; rewrite app_length; lia).
      destruct (IH p1 r0 (o + utf8_len w + utf8_len (lit "„") + utf8_len w0) _ P1 R0 LY C1) as (x' & w1 & EX & F1 & Y1).
      destruct (y_unq p (o + utf8_len w + utf8_len (lit "„") + utf8_len w0 + utf8_len x' + utf8_len w1 + utf8_len (lit "”")) (r ++ t) U (nested_marked r t N C)) as (p' & w2 & EP & F2 & Y2).
      destruct (IHN ltac:(lia) w2 (o + utf8_len w + utf8_len (lit "„") + utf8_len w0 + utf8_len x' + utf8_len w1 + utf8_len (lit "”") + utf8_len p') t F2 C) as (r' & w' & l & ER & F' & Y3).
      exists (w ++ lit "„" ++ w0 ++ x' ++ w1 ++ lit "”" ++ p' ++ r'), w', (tt :: l).
      split; [|split; [exact F'|]].
      { rewrite EP, E0, EY1, EX. rewrite <- !app_assoc. rewrite ER. now rewrite <- ?app_assoc. }
      rewrite <- !app_assoc. eapply y_many_cons; [| |eapply y_eq; [exact Y3|]].
      + rewrite EP, !app_length. change (List.length (lit "„")) with 1%nat. lia.
      + unfold inner_quote. eapply y_bind; [apply y_T_ws; [exact F|reflexivity]|]. eapply y_bind.
        { rewrite E0, <- app_assoc. apply y_sk_ws; [exact F0| |rewrite EY1, <- app_assoc; exact Y1]. destruct y1 as [|c y1]; [reflexivity|exact Q0]. }
        eapply y_bind; [apply y_T_ws; [exact F1|reflexivity]|]. exact Y2.
      + rewrite !utf8_len_app. lia.
  Qed.
  Lemma y_inner n : inner_ok n.
  Proof.
    induction n as [|n IH]; intros p r o t U N L C; [lia|]. cbn [quote_inner_n].
    destruct (y_unq p o (r ++ t) U (nested_marked r t N C)) as (p' & w & EP & F & Y). rewrite app_length in L.
    destruct (y_within n r IH N ltac:(lia) w (o + utf8_len p') t F C) as (r' & w' & l & ER & F' & Y').
    exists (p' ++ r'), w'. split; [rewrite EP, <- !app_assoc; now rewrite ER|]. split; [exact F'|]. eapply y_bind; [exact Y|]. eapply y_eq; [eapply y_void; exact Y'|]. rewrite utf8_len_app. lia.
  Qed.
  Lemma y_quote x q o t : quotation x q -> yields g_quote o (q ++ t) x (o + utf8_len q) t.
  Proof.
    intros (Q & [S1 S2] & ->). destruct (quoted_nested x Q) as (p & r & -> & P & R). rewrite <- !app_assoc. unfold g_quote.
    eapply y_bind; [apply y_T; reflexivity|].
    destruct (y_inner (S (List.length ((p ++ r) ++ lit "”" ++ t))) p r (o + utf8_len (lit "„")) (lit "”" ++ t) P R ltac:(rewrite !app_length; lia) (ex_intro _ t eq_refl)) as (x' & w & E & F & Y).
    assert (EW : w = []).
    { destruct w as [|c w] using rev_ind; [reflexivity|]. exfalso. apply (S2 c (x' ++ w)); [now rewrite E, <- app_assoc|]. apply white_is. rewrite forallb_app in F. apply andb_true_iff in F as [_ F]. cbn [forallb] in F. now rewrite andb_true_r in F. }
    subst w. rewrite app_nil_r in E. cbn [app] in Y. subst x'.
    eapply y_bind; [apply y_sk|].
    - destruct p as [|c p]; [destruct R; reflexivity|]. cbn [app quiet]. destruct (is_ascii_ws c) eqn:W; [|reflexivity]. exfalso. apply (S1 c (p ++ r) eq_refl). now apply white_is.
    - intros g E. unfold quote_inner. cbn [cu_rest]. pose proof (y_sliced known (quote_inner_n (S (List.length (p ++ r ++ lit "”" ++ t)))) (o + utf8_len (lit "„")) (p ++ r) (lit "”" ++ t) tt (o + utf8_len (lit "„") + utf8_len (p ++ r))) as K.
      rewrite <- app_assoc in K, Y. exact (K Y g E).
    - eapply y_bind; [apply y_T; reflexivity|]. eapply y_eq; [apply y_ret|]. rewrite !utf8_len_app. lia.
  Qed.
End Run.
