(** Proofs for C76: no act is named in the sentence. *)
From Verif Require Export SpecSay5 ProofSay20.
From Coq Require Import Lia.
Local Open Scope peg_scope.
Local Open Scope N_scope.

Section Run.
  Variable known : list str.
  Local Notation yields := (yields known).
  Local Notation fails := (fails known).

  (** ** Parsers which read or refuse any text, and what they leave is the end of it *)
  Definition ready {A} (p : parser A) : Prop := forall o t, (exists a o' w t', t = w ++ t' /\ yields p o t a o' t') \/ fails p o t.
  Definition eats {A} (p : parser A) : Prop := forall o t, (exists a o' w t', w <> [] /\ t = w ++ t' /\ yields p o t a o' t') \/ fails p o t.
  Lemma f_then {A B} (p : parser A) (f : A -> parser B) o t : ready p -> (forall a o' w t', t = w ++ t' -> fails (f a) o' t') -> fails (pbind p f) o t.
  Proof. intros R F. destruct (R o t) as [(a & o' & w & t' & E & Y)|X]; [eapply f_bind2; [exact Y|]; eapply F; exact E|now apply f_bind1]. Qed.
  Lemma ready_ws : ready ws.
  Proof. intros o t. left. destruct (split_at is_ascii_ws t) as (w & u & -> & F & Q). exists tt. eexists. exists w, u. split; [reflexivity|]. now apply y_span. Qed.
  Lemma ready_sk {A} (p : parser A) : ready p -> ready (sk p).
  Proof.
    intros R o t. destruct (ready_ws o t) as [(a & o' & w & t' & -> & Y)|X]; [|right; now apply f_bind1].
    destruct (R o' t') as [(b & o2 & w2 & t2 & -> & Y2)|X]; [left; exists b, o2, (w ++ w2), t2; split; [apply app_assoc|]; eapply y_bind; eauto|right; eapply f_bind2; eauto].
  Qed.
  Lemma eats_ready {A} (p : parser A) : eats p -> ready p.
  Proof. intros H o t. destruct (H o t) as [(a & o' & w & t' & _ & E & Y)|X]; [left; eauto 6|now right]. Qed.
  Lemma eats_sk {A} (p : parser A) : eats p -> eats (sk p).
  Proof.
    intros R o t. destruct (ready_ws o t) as [(a & o' & w & t' & -> & Y)|X]; [|right; now apply f_bind1].
    destruct (R o' t') as [(b & o2 & w2 & t2 & NE & -> & Y2)|X]; [left; exists b, o2, (w ++ w2), t2; split; [|split; [apply app_assoc|]; eapply y_bind; eauto]|right; eapply f_bind2; eauto].
    intros E. now apply app_eq_nil in E.
  Qed.
  Lemma eats_alt {A} (p q : parser A) : eats p -> eats q -> eats (alt p q).
  Proof.
    intros P Q o t. destruct (P o t) as [(a & o' & w & t' & NE & E & Y)|X]; [left; exists a, o', w, t'; repeat split; auto; now apply y_alt1|].
    destruct (Q o t) as [(a & o' & w & t' & NE & E & Y)|X']; [left; exists a, o', w, t'; repeat split; auto; now apply y_alt2|right; now apply f_alt].
  Qed.
  Lemma eats_void {A} (p : parser A) : eats p -> eats (void p).
  Proof. intros P o t. destruct (P o t) as [(a & o' & w & t' & NE & E & Y)|X]; [left; exists tt, o', w, t'; repeat split; auto; eapply y_void; exact Y|right; now apply f_void]. Qed.
  Lemma eats_chars f : eats (many1 (chr_if f)).
  Proof.
    intros o t. destruct (split_at f t) as (w & u & -> & F & Q). destruct w as [|c w]; [right; now apply f_many1, f_chr|]. left.
    destruct (y_many1_chars known f (c :: w) o u ltac:(discriminate) F Q) as (l & Y). exists l. eexists. exists (c :: w), u. split; [discriminate|]. split; [reflexivity|exact Y].
  Qed.
  Lemma eats_number : eats g_number.
  Proof.
    intros o t. destruct (eats_chars (in_range 48 57) o t) as [(a & o' & w & t' & NE & -> & Y)|X]; [left; exists w, o', w, t'; repeat split; auto; eapply y_sliced; exact Y|right; now apply f_sliced].
  Qed.
  Lemma eats_any : eats any.
  Proof. intros o [|c t]; [right; now apply f_chr|]. left. exists tt. eexists. exists [c], t. split; [discriminate|]. split; [reflexivity|]. now apply y_chr. Qed.
  Lemma eats_token : eats any_token.
  Proof. unfold any_token. apply eats_alt; [apply eats_sk, eats_void, eats_chars|]. apply eats_alt; [apply eats_void, eats_sk, eats_number|apply eats_sk, eats_any]. Qed.
  Lemma ready_tok s : ready (tok s).
  Proof.
    intros o t. destruct (strip_prefix (lit s) t) as [r|] eqn:E; [|right; now apply f_tok]. left. apply strip_prefix_some in E. subst t. exists tt. eexists. exists (lit s), r. split; [reflexivity|apply y_tok].
  Qed.

  (** ** Texts with no act *)
  Record plain (t : str) : Prop := { pl_number : ~ in_text (lit "évi") t; pl_known : forall k, In k known -> ~ in_text k t }.
  Lemma in_text_end k w t : in_text k t -> in_text k (w ++ t).
  Proof. intros (a & b & ->). exists (w ++ a), b. apply app_assoc. Qed.
  Lemma plain_end w t : plain (w ++ t) -> plain t.
  Proof. intros [A B]. constructor; [intros H; now apply A, in_text_end|]. intros k I H. now apply (B k I), in_text_end. Qed.
  Lemma f_word_out s o t : ~ in_text (lit s) t -> fails (T s) o t.
  Proof.
    intros N. apply f_then; [apply ready_ws|]. intros _ o' w t' ->. apply f_tok. destruct (strip_prefix (lit s) t') as [r|] eqn:E; [|reflexivity]. exfalso. apply strip_prefix_some in E. subst t'. apply N. now exists w, r.
  Qed.
  Lemma f_number_plain o t : plain t -> fails g_act_id_rule o t.
  Proof.
    intros P. apply f_located. apply f_then; [apply ready_sk, eats_ready, eats_number|]. intros y o1 w1 t1 ->. apply plain_end in P. apply f_then; [apply ready_sk, ready_tok|]. intros _ o2 w2 t2 ->. apply plain_end in P.
    apply f_bind1, f_word_out, P.
  Qed.
  Lemma f_act_plain o t : plain t -> fails (sk act_reference) o t.
  Proof.
    intros P. apply f_then; [apply ready_ws|]. intros _ o1 w1 t1 ->. apply plain_end in P. unfold act_reference. apply f_alt.
    - apply f_bind1, f_then; [apply ready_ws|]. intros _ o2 w2 t2 ->. apply plain_end in P.
      assert (K : fails (sk g_act_id_rule) o2 t2) by (apply f_then; [apply ready_ws|]; intros _ o3 w3 t3 ->; apply plain_end in P; now apply f_number_plain).
      intros g E. unfold act_id_with_from_now_on, checked. unfold pbind at 1. now rewrite (K g E).
    - apply f_then; [apply ready_ws|]. intros _ o2 w2 t2 ->. apply plain_end in P. apply f_located, f_bind1, f_then; [apply ready_ws|]. intros _ o3 w3 t3 ->. apply plain_end in P.
      intros g E. unfold abbreviation_content. cbn [cu_rest]. rewrite E, no_known; [reflexivity|]. intros k I (b & ->). apply (pl_known _ P k I). now exists [], b.
  Qed.
  Lemma y_title_plain n : forall o t, (List.length t <= n)%nat -> plain t -> exists o' w t', t = w ++ t' /\ yields (void (many title_step)) o t tt o' t'.
  Proof.
    assert (H : forall n o t, (List.length t <= n)%nat -> plain t -> exists l o' w t', t = w ++ t' /\ yields (many title_step) o t l o' t').
    { clear n. induction n as [|n IH]; intros o t L P.
      - destruct t; [|cbn in L; lia]. exists [], o, [], []. split; [reflexivity|]. apply y_many_nil. eapply f_bind2; [apply y_not, f_bind1, f_act_plain, P|]. here.
      - assert (N : yields (not_ahead (sk act_reference ;; not_ahead (one_of_sk stop_words))) o t tt o t) by (apply y_not, f_bind1, f_act_plain, P).
        destruct (eats_sk any_token eats_token o t) as [(a & o1 & w & t1 & NE & -> & Y)|X].
        + destruct (IH o1 t1) as (l & o2 & w2 & t2 & -> & Y2); [rewrite app_length in L; destruct w; [congruence|cbn in L; lia]|now apply plain_end in P|].
          exists (a :: l), o2, (w ++ w2), t2. split; [apply app_assoc|]. eapply y_many_cons; [|eapply y_bind; [exact N|exact Y]|exact Y2]. rewrite (app_length w). destruct w; [congruence|cbn; lia].
        + exists [], o, [], t. split; [reflexivity|]. apply y_many_nil. eapply f_bind2; [exact N|exact X]. }
    intros o t L P. destruct (H n o t L P) as (l & o' & w & t' & E & Y). exists o', w, t'. split; [exact E|]. eapply y_void. exact Y.
  Qed.
  (** The four rules which amend *)
  Lemma amends_nothing whole az t : In az the_capital -> whole = az ++ t -> plain t -> quiet is_ascii_ws t ->
    quiet is_ascii_ws whole /\ forall A (k : g_act_ref -> parser A), refuses known whole (sk g_az_any ;; sk act_title ;; a <- sk act_reference ;; k a) 0 whole.
  Proof.
    intros I -> P W.
    assert (Y : quiet is_ascii_ws (az ++ t) /\ yields (sk g_az_any) 0 (az ++ t) tt (utf8_len az) t).
    { unfold the_capital in I. cbn [map In] in I. destruct I as [<-|[<-|[]]]; (split; [reflexivity|here]). }
    destruct Y as [WW Y]. split; [exact WW|]. intros A k. eapply x_bind2; [apply r_y; exact Y|].
    destruct (y_title_plain (List.length t) (utf8_len az) t (le_n _) P) as (o' & w & t' & -> & YT).
    eapply x_bind2; [apply r_sk; [exact W|]; apply r_title; [exists az; split; reflexivity|exact YT]|].
    apply x_bind1, x_f, f_act_plain. now apply plain_end in P.
  Qed.
End Run.
