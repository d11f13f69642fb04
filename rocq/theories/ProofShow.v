(** Proofs for C67: what the grammar does on the phrase of a reference. *)
From Verif Require Export ProofGrammar SpecShow ProofRef ProofIdent2.
From Coq Require Import Lia.
Local Open Scope peg_scope.
Local Open Scope N_scope.

(** The text does not begin with a character of a kind. *)
Definition quiet (f : char -> bool) (t : str) : Prop := match t with c :: _ => f c = false | [] => True end.
Lemma quiet_digits f n t : (forall c, is_digit c = true -> f c = false) -> quiet f (show_N n ++ t).
Proof.
  intros H. pose proof (show_N_digits n) as D. pose proof (show_N_nonempty n) as E. destruct (show_N n) as [|c s]; [congruence|]. cbn in *.
  apply andb_true_iff in D. apply H. tauto.
Qed.

Section Run.
  Variable known : list str.
  Definition yields {A} (p : parser A) (o : N) (t : str) (a : A) (o' : N) (t' : str) : Prop :=
    forall g, gl_known g = known -> p (mkCur o t) g = (Ok (a, mkCur o' t'), g).
  Definition fails {A} (p : parser A) (o : N) (t : str) : Prop := forall g, gl_known g = known -> p (mkCur o t) g = (Err, g).

  Lemma y_ret {A} (a : A) o t : yields (ret a) o t a o t.
  Proof. intros g _. reflexivity. Qed.
  Lemma y_bind {A B} (p : parser A) (f : A -> parser B) o t a o1 t1 b o2 t2 :
    yields p o t a o1 t1 -> yields (f a) o1 t1 b o2 t2 -> yields (pbind p f) o t b o2 t2.
  Proof. intros H K g E. unfold pbind. rewrite (H g E). exact (K g E). Qed.
  Lemma f_bind1 {A B} (p : parser A) (f : A -> parser B) o t : fails p o t -> fails (pbind p f) o t.
  Proof. intros H g E. unfold pbind. now rewrite (H g E). Qed.
  Lemma f_bind2 {A B} (p : parser A) (f : A -> parser B) o t a o1 t1 : yields p o t a o1 t1 -> fails (f a) o1 t1 -> fails (pbind p f) o t.
  Proof. intros H K g E. unfold pbind. rewrite (H g E). exact (K g E). Qed.
  Lemma y_alt1 {A} (p q : parser A) o t a o' t' : yields p o t a o' t' -> yields (alt p q) o t a o' t'.
  Proof. intros H g E. unfold alt. now rewrite (H g E). Qed.
  Lemma y_alt2 {A} (p q : parser A) o t a o' t' : fails p o t -> yields q o t a o' t' -> yields (alt p q) o t a o' t'.
  Proof. intros H K g E. unfold alt. rewrite (H g E). exact (K g E). Qed.
  Lemma f_alt {A} (p q : parser A) o t : fails p o t -> fails q o t -> fails (alt p q) o t.
  Proof. intros H K g E. unfold alt. rewrite (H g E). exact (K g E). Qed.
  Lemma y_some {A} (p : parser A) o t a o' t' : yields p o t a o' t' -> yields (opt p) o t (Some a) o' t'.
  Proof. intros H g E. unfold opt. now rewrite (H g E). Qed.
  Lemma y_none {A} (p : parser A) o t : fails p o t -> yields (opt p) o t None o t.
  Proof. intros H g E. unfold opt. now rewrite (H g E). Qed.
  Lemma y_many_nil {A} (p : parser A) o t : fails p o t -> yields (many p) o t [] o t.
  Proof. intros H g E. unfold many. cbn [many_n]. now rewrite (H g E). Qed.
  Lemma y_many1_one {A} (p : parser A) o t a o' t' : yields p o t a o' t' -> fails p o' t' -> yields (many1 p) o t [a] o' t'.
  Proof. intros H K. unfold many1. eapply y_bind; [exact H|]. eapply y_bind; [now apply y_many_nil|]. apply y_ret. Qed.
  Lemma y_void {A} (p : parser A) o t a o' t' : yields p o t a o' t' -> yields (void p) o t tt o' t'.
  Proof. intros H. eapply y_bind; [exact H|]. apply y_ret. Qed.
  Lemma f_void {A} (p : parser A) o t : fails p o t -> fails (void p) o t.
  Proof. apply f_bind1. Qed.
  Lemma y_eq {A} (p : parser A) o t a o1 t1 o2 : yields p o t a o1 t1 -> o1 = o2 -> yields p o t a o2 t1.
  Proof. now intros H <-. Qed.
  Lemma y_located {A} (p : parser (pos -> A)) o t f o' t' : yields p o t f o' t' -> yields (located p) o t (f (ModelSem.mkPos o o')) o' t'.
  Proof. intros H g E. unfold located. now rewrite (H g E). Qed.
  Lemma f_located {A} (p : parser (pos -> A)) o t : fails p o t -> fails (located p) o t.
  Proof. intros H g E. unfold located. now rewrite (H g E). Qed.
  Lemma y_sliced {A} (p : parser A) o w t a o' : yields p o (w ++ t) a o' t -> yields (sliced p) o (w ++ t) w o' t.
  Proof.
    intros H g E. unfold sliced. rewrite (H g E). cbn [cu_rest]. rewrite app_length, Nat.add_sub, firstn_app, Nat.sub_diag, firstn_all. cbn. now rewrite app_nil_r.
  Qed.
  Lemma f_sliced {A} (p : parser A) o t : fails p o t -> fails (sliced p) o t.
  Proof. intros H g E. unfold sliced. now rewrite (H g E). Qed.

  (** White space *)
  Lemma y_ws o t : quiet is_ascii_ws t -> yields ws o t tt o t.
  Proof. intros Q g _. unfold ws. cbn [cu_rest]. assert (S : span is_ascii_ws t = ([], t)) by (destruct t as [|c t]; cbn in *; [|rewrite Q]; reflexivity).
    rewrite S. unfold advance. cbn [cu_off]. change (utf8_len []) with 0. now rewrite N.add_0_r.
  Qed.
  Lemma y_ws_sp o t : quiet is_ascii_ws t -> yields ws o (lit " " ++ t) tt (o + 1) t.
  Proof. intros Q g _. unfold ws. cbn [cu_rest]. change (lit " " ++ t) with (32 :: t). 
    assert (S : span is_ascii_ws (32 :: t) = ([32], t)) by (destruct t as [|c t]; cbn in *; [|rewrite Q]; reflexivity).
    rewrite S. reflexivity.
  Qed.
  Lemma y_sk {A} (p : parser A) o t a o' t' : quiet is_ascii_ws t -> yields p o t a o' t' -> yields (sk p) o t a o' t'.
  Proof. intros Q H. eapply y_bind; [now apply y_ws|exact H]. Qed.
  Lemma y_sk_sp {A} (p : parser A) o t a o' t' : quiet is_ascii_ws t -> yields p (o + 1) t a o' t' -> yields (sk p) o (lit " " ++ t) a o' t'.
  Proof. intros Q H. eapply y_bind; [now apply y_ws_sp|exact H]. Qed.
  Lemma f_sk {A} (p : parser A) o t : quiet is_ascii_ws t -> fails p o t -> fails (sk p) o t.
  Proof. intros Q H. eapply f_bind2; [now apply y_ws|exact H]. Qed.
  Lemma f_sk_sp {A} (p : parser A) o t : quiet is_ascii_ws t -> fails p (o + 1) t -> fails (sk p) o (lit " " ++ t).
  Proof. intros Q H. eapply f_bind2; [now apply y_ws_sp|exact H]. Qed.

  (** Tokens *)
  Lemma y_tok s o t : yields (tok s) o (lit s ++ t) tt (o + utf8_len (lit s)) t.
  Proof. intros g _. unfold tok, tok_str. cbn [cu_rest]. now rewrite strip_prefix_app. Qed.
  Lemma f_tok s o t : strip_prefix (lit s) t = None -> fails (tok s) o t.
  Proof. intros H g _. unfold tok, tok_str. cbn [cu_rest]. now rewrite H. Qed.
  (** a token which begins otherwise *)
  Definition heads (c : char) (s : str) : bool := match s with x :: _ => (x =? c)%N | [] => true end.
  Lemma f_tok_head s o t : lit s <> [] -> quiet (fun c => heads c (lit s)) t -> fails (tok s) o t.
  Proof.
    intros NE Q. apply f_tok. destruct (lit s) as [|x l]; [congruence|]. destruct t as [|c t]; [reflexivity|]. cbn in *. rewrite Q. reflexivity.
  Qed.
  Lemma y_T s o t : quiet is_ascii_ws (lit s ++ t) -> yields (T s) o (lit s ++ t) tt (o + utf8_len (lit s)) t.
  Proof. intros Q. apply y_sk; [exact Q|]. apply y_tok. Qed.
  Lemma y_T_sp s o t : quiet is_ascii_ws (lit s ++ t) -> yields (T s) o (lit " " ++ lit s ++ t) tt (o + 1 + utf8_len (lit s)) t.
  Proof. intros Q. apply y_sk_sp; [exact Q|]. apply y_tok. Qed.
  Lemma f_T s o t : quiet is_ascii_ws t -> strip_prefix (lit s) t = None -> fails (T s) o t.
  Proof. intros Q H. apply f_sk; [exact Q|]. now apply f_tok. Qed.
  Lemma f_T_sp s o t : quiet is_ascii_ws t -> strip_prefix (lit s) t = None -> fails (T s) o (lit " " ++ t).
  Proof. intros Q H. apply f_sk_sp; [exact Q|]. now apply f_tok. Qed.

  (** Characters *)
  Lemma y_chr f o c t : f c = true -> yields (chr_if f) o (c :: t) tt (o + utf8_len [c]) t.
  Proof. intros H g _. unfold chr_if. cbn [cu_rest]. now rewrite H. Qed.
  Lemma f_chr f o t : quiet f t -> fails (chr_if f) o t.
  Proof. intros Q g _. unfold chr_if. cbn [cu_rest]. destruct t as [|c t]; [reflexivity|]. cbn in Q. now rewrite Q. Qed.
  Lemma many_n_chars f w : forall n o t, (List.length w < n)%nat -> forallb f w = true -> quiet f t ->
    exists l, yields (many_n n (chr_if f)) o (w ++ t) l (o + utf8_len w) t.
  Proof.
    induction w as [|c w IH]; intros [|n] o t L F Q; cbn in L; try lia.
    - exists []. intros g E. cbn [many_n app]. rewrite (f_chr f o t Q g E). cbn. now rewrite N.add_0_r.
    - cbn in F. apply andb_true_iff in F as [Fc Fw]. destruct (IH n (o + utf8_len [c]) t ltac:(lia) Fw Q) as [l H]. exists (tt :: l). intros g E. cbn [many_n app].
      rewrite (y_chr f o c _ Fc g E), (H g E). rewrite <- N.add_assoc, <- utf8_len_app. reflexivity.
  Qed.
  Lemma y_many_chars f w o t : forallb f w = true -> quiet f t -> exists l, yields (many (chr_if f)) o (w ++ t) l (o + utf8_len w) t.
  Proof.
    intros F Q. destruct (many_n_chars f w (S (List.length (w ++ t))) o t ltac:(rewrite app_length; lia) F Q) as [l H]. exists l. intros g E. unfold many. exact (H g E).
  Qed.
  Lemma y_many1_chars f w o t : w <> [] -> forallb f w = true -> quiet f t -> exists l, yields (many1 (chr_if f)) o (w ++ t) l (o + utf8_len w) t.
  Proof.
    intros NE F Q. destruct w as [|c w]; [congruence|]. cbn in F. apply andb_true_iff in F as [Fc Fw].
    destruct (y_many_chars f w (o + utf8_len [c]) t Fw Q) as [l H]. exists (tt :: l). unfold many1. eapply y_bind; [cbn [app]; apply y_chr; exact Fc|].
    eapply y_bind; [exact H|]. eapply y_eq; [apply y_ret|]. rewrite <- N.add_assoc, <- utf8_len_app. reflexivity.
  Qed.
  Lemma f_many1 {A} (p : parser A) o t : fails p o t -> fails (many1 p) o t.
  Proof. apply f_bind1. Qed.

  (** Numbers *)
  Lemma digit_range c : in_range 48 57 c = is_digit c.
  Proof. reflexivity. Qed.
  Lemma y_number n o t : quiet is_digit t -> yields g_number o (show_N n ++ t) (show_N n) (o + utf8_len (show_N n)) t.
  Proof.
    intros Q. unfold g_number. destruct (y_many1_chars (in_range 48 57) (show_N n) o t (show_N_nonempty n) (show_N_digits n) Q) as [l H]. eapply y_sliced. exact H.
  Qed.
  Lemma f_number o t : quiet is_digit t -> fails g_number o t.
  Proof. intros Q. apply f_sliced, f_many1, f_chr. exact Q. Qed.
  Lemma no_ws_digit c : is_digit c = true -> is_ascii_ws c = false.
  Proof. unfold is_digit, is_ascii_ws. intros H. apply andb_true_iff in H as [A B]. apply N.leb_le in A, B. cbn [existsb]. rewrite !orb_false_iff, !N.eqb_neq. lia. Qed.
  Lemma quiet_ws_number n t : quiet is_ascii_ws (show_N n ++ t).
  Proof. apply quiet_digits, no_ws_digit. Qed.
End Run.
