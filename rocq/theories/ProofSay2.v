(** Proofs for C71-: parsers which remember results. *)
From Verif Require Export ProofSay.
From Coq Require Import Lia.
Local Open Scope peg_scope.
Local Open Scope N_scope.

Lemma char_takes c : 0 < utf8_len [c].
Proof. unfold utf8_len, char_len. cbn. destruct (c <? 128), (c <? 2048), (c <? 65536); lia. Qed.
Lemma same_place (p q t u : str) : p ++ t = q ++ u -> utf8_len p = utf8_len q -> p = q /\ t = u.
Proof.
  revert q. induction p as [|c p IH]; intros [|d q] E L; cbn [app] in E; auto.
  - exfalso. change (utf8_len []) with 0 in L. change (d :: q) with ([d] ++ q) in L. rewrite utf8_len_app in L. pose proof (char_takes d). lia.
  - exfalso. change (utf8_len []) with 0 in L. change (c :: p) with ([c] ++ p) in L. rewrite utf8_len_app in L. pose proof (char_takes c). lia.
  - injection E as <- E. change (c :: p) with ([c] ++ p) in L. change (c :: q) with ([c] ++ q) in L. rewrite !utf8_len_app in L. destruct (IH q E) as [<- <-]; [lia|]. auto.
Qed.

Definition struct_inner : parser g_any_struct :=
  b <- opt (sk book_reference) ;;
  k <- ((i <- sk chapter_reference ;; ret (GChapter i))
        <|> (i <- sk part_reference ;; ret (GPart i))
        <|> (i <- sk title_reference ;; ret (GTitle i))
        <|> (p <- sk subtitle_reference_part ;; sk subtitle_suffix ;; ret (GSubtitlePart p))
        <|> (t <- sk subtitle_title ;; ret (GSubtitleTitle t))) ;;
  t <- opt (sk title_only_token) ;;
  ret (mkGAny b k (is_some t)).
Lemma any_structural_is : any_structural_reference = memo_struct struct_inner.
Proof. reflexivity. Qed.

Section State.
  Variables (known : list str) (whole : str).
  Local Notation yields := (yields known).
  Local Notation fails := (fails known).
  Definition settled {A} (p : parser A) (o : N) (t : str) (r : outcome (A * cur)) : Prop := forall g, gl_known g = known -> p (mkCur o t) g = (r, g).
  Definition place (o : N) (t : str) : Prop := exists p, whole = p ++ t /\ o = utf8_len p.
  Lemma one_place o t t' : place o t -> place o t' -> t = t'.
  Proof. intros (p & E & ->) (q & E' & L). rewrite E in E'. now apply (same_place p q). Qed.
  Record fine (g : glob) : Prop := {
    fn_known : gl_known g = known;
    fn_titles : forall o t r, place o t -> memo_get o (gl_titles g) = Some r -> settled (void (many title_step)) o t r;
    fn_structs : forall o t r, place o t -> memo_get o (gl_structs g) = Some r -> settled struct_inner o t r }.
  Lemma fine_new : fine (mkGlob known [] []).
  Proof. constructor; [reflexivity|discriminate|discriminate]. Qed.
  Definition reads {A} (p : parser A) (o : N) (t : str) (a : A) (o' : N) (t' : str) : Prop :=
    forall g, fine g -> exists g', p (mkCur o t) g = (Ok (a, mkCur o' t'), g') /\ fine g'.
  Definition refuses {A} (p : parser A) (o : N) (t : str) : Prop := forall g, fine g -> exists g', p (mkCur o t) g = (Err, g') /\ fine g'.

  Lemma r_y {A} (p : parser A) o t a o' t' : yields p o t a o' t' -> reads p o t a o' t'.
  Proof. intros H g F. exists g. split; [apply H, fn_known, F|exact F]. Qed.
  Lemma x_f {A} (p : parser A) o t : fails p o t -> refuses p o t.
  Proof. intros H g F. exists g. split; [apply H, fn_known, F|exact F]. Qed.
  Lemma r_bind {A B} (p : parser A) (f : A -> parser B) o t a o1 t1 b o2 t2 : reads p o t a o1 t1 -> reads (f a) o1 t1 b o2 t2 -> reads (pbind p f) o t b o2 t2.
  Proof. intros H K g F. destruct (H g F) as (g1 & E1 & F1). destruct (K g1 F1) as (g2 & E2 & F2). exists g2. unfold pbind. rewrite E1. auto. Qed.
  Lemma x_bind1 {A B} (p : parser A) (f : A -> parser B) o t : refuses p o t -> refuses (pbind p f) o t.
  Proof. intros H g F. destruct (H g F) as (g1 & E1 & F1). exists g1. unfold pbind. rewrite E1. auto. Qed.
  Lemma x_bind2 {A B} (p : parser A) (f : A -> parser B) o t a o1 t1 : reads p o t a o1 t1 -> refuses (f a) o1 t1 -> refuses (pbind p f) o t.
  Proof. intros H K g F. destruct (H g F) as (g1 & E1 & F1). destruct (K g1 F1) as (g2 & E2 & F2). exists g2. unfold pbind. rewrite E1. auto. Qed.
  Lemma r_alt1 {A} (p q : parser A) o t a o' t' : reads p o t a o' t' -> reads (alt p q) o t a o' t'.
  Proof. intros H g F. destruct (H g F) as (g1 & E1 & F1). exists g1. unfold alt. rewrite E1. auto. Qed.
  Lemma r_alt2 {A} (p q : parser A) o t a o' t' : refuses p o t -> reads q o t a o' t' -> reads (alt p q) o t a o' t'.
  Proof. intros H K g F. destruct (H g F) as (g1 & E1 & F1). destruct (K g1 F1) as (g2 & E2 & F2). exists g2. unfold alt. rewrite E1. auto. Qed.
  Lemma x_alt {A} (p q : parser A) o t : refuses p o t -> refuses q o t -> refuses (alt p q) o t.
  Proof. intros H K g F. destruct (H g F) as (g1 & E1 & F1). destruct (K g1 F1) as (g2 & E2 & F2). exists g2. unfold alt. rewrite E1. auto. Qed.
  Lemma r_some {A} (p : parser A) o t a o' t' : reads p o t a o' t' -> reads (opt p) o t (Some a) o' t'.
  Proof. intros H g F. destruct (H g F) as (g1 & E1 & F1). exists g1. unfold opt. rewrite E1. auto. Qed.
  Lemma r_none {A} (p : parser A) o t : refuses p o t -> reads (opt p) o t None o t.
  Proof. intros H g F. destruct (H g F) as (g1 & E1 & F1). exists g1. unfold opt. rewrite E1. auto. Qed.
  Lemma r_many_nil {A} (p : parser A) o t : refuses p o t -> reads (many p) o t [] o t.
  Proof. intros H g F. destruct (H g F) as (g1 & E1 & F1). exists g1. unfold many. cbn [many_n]. rewrite E1. auto. Qed.
  Lemma many_n_grows {A} (p : parser A) n : forall n' c g a c' g', (n <= n')%nat -> many_n n p c g = (Ok (a, c'), g') -> many_n n' p c g = (Ok (a, c'), g').
  Proof.
    induction n as [|n IH]; intros [|n'] c g a c' g' L; cbn [many_n]; try discriminate; [lia|]. destruct (p c g) as [[[x c1]| |] g1]; auto.
    destruct (many_n n p c1 g1) as [[[l c2]| |] g2] eqn:E; intros H; try discriminate. rewrite (IH n' c1 g1 l c2 g2) by (lia || exact E). exact H.
  Qed.
  Lemma r_many_cons {A} (p : parser A) o t a o1 t1 l o2 t2 : (List.length t1 < List.length t)%nat -> reads p o t a o1 t1 -> reads (many p) o1 t1 l o2 t2 -> reads (many p) o t (a :: l) o2 t2.
  Proof.
    intros L H K g F. destruct (H g F) as (g1 & E1 & F1). destruct (K g1 F1) as (g2 & E2 & F2). exists g2. split; [|exact F2].
    unfold many in *. cbn [cu_rest] in *. cbn [many_n]. rewrite E1. rewrite (many_n_grows p (S (List.length t1)) (List.length t) _ _ _ _ _ L E2). reflexivity.
  Qed.
  Lemma r_many1_one {A} (p : parser A) o t a o' t' : reads p o t a o' t' -> refuses p o' t' -> reads (many1 p) o t [a] o' t'.
  Proof. intros H K. eapply r_bind; [exact H|]. eapply r_bind; [now apply r_many_nil|]. apply r_y, y_ret. Qed.
  Lemma r_located {A} (p : parser (pos -> A)) o t f o' t' : reads p o t f o' t' -> reads (located p) o t (f (ModelSem.mkPos o o')) o' t'.
  Proof. intros H g F. destruct (H g F) as (g1 & E1 & F1). exists g1. unfold located. rewrite E1. auto. Qed.
  Lemma r_sk {A} (p : parser A) o t a o' t' : quiet is_ascii_ws t -> reads p o t a o' t' -> reads (sk p) o t a o' t'.
  Proof. intros Q H. eapply r_bind; [apply r_y, y_ws, Q|exact H]. Qed.
  Lemma r_sk_sp {A} (p : parser A) o t a o' t' : quiet is_ascii_ws t -> reads p (o + 1) t a o' t' -> reads (sk p) o (lit " " ++ t) a o' t'.
  Proof. intros Q H. eapply r_bind; [apply r_y, y_ws_sp, Q|exact H]. Qed.
  Lemma r_sk_ws {A} (p : parser A) w o t a o' t' : forallb is_ascii_ws w = true -> quiet is_ascii_ws t -> reads p (o + utf8_len w) t a o' t' -> reads (sk p) o (w ++ t) a o' t'.
  Proof. intros W Q H. eapply r_bind; [apply r_y, y_span; eassumption|exact H]. Qed.
  Lemma x_sk {A} (p : parser A) o t : quiet is_ascii_ws t -> refuses p o t -> refuses (sk p) o t.
  Proof. intros Q H. eapply x_bind2; [apply r_y, y_ws, Q|exact H]. Qed.
  Lemma x_sk_sp {A} (p : parser A) o t : quiet is_ascii_ws t -> refuses p (o + 1) t -> refuses (sk p) o (lit " " ++ t).
  Proof. intros Q H. eapply x_bind2; [apply r_y, y_ws_sp, Q|exact H]. Qed.
  Lemma r_eq {A} (p : parser A) o t a o1 t1 o2 : reads p o t a o1 t1 -> o1 = o2 -> reads p o t a o2 t1.
  Proof. now intros H <-. Qed.
  Lemma r_ret {A} (a : A) o t : reads (ret a) o t a o t.
  Proof. apply r_y, y_ret. Qed.

  Lemma r_title o t a o' t' : place o t -> yields (void (many title_step)) o t a o' t' -> reads act_title o t a o' t'.
  Proof.
    intros P Y g F. rewrite act_title_is. unfold memo_title. cbn [cu_off]. destruct (memo_get o (gl_titles g)) as [r|] eqn:M.
    - exists g. split; [|exact F]. pose proof (fn_titles g F o t r P M g (fn_known g F)) as S. rewrite (Y g (fn_known g F)) in S. congruence.
    - rewrite (Y g (fn_known g F)). eexists. split; [reflexivity|]. destruct F as [K FT FS]. constructor; [exact K| |exact FS]. cbn [gl_titles memo_get]. intros o1 t1 r P1.
      destruct (N.eqb_spec o1 o) as [->|NE]; [|now apply FT]. intros E. injection E as <-. rewrite <- (one_place _ _ _ P P1). exact Y.
  Qed.
  Lemma struct_memo o t r : place o t -> settled struct_inner o t r -> forall g, fine g -> exists g', any_structural_reference (mkCur o t) g = (r, g') /\ fine g'.
  Proof.
    intros P Y g F. rewrite any_structural_is. unfold memo_struct. cbn [cu_off]. destruct (memo_get o (gl_structs g)) as [r1|] eqn:M.
    - exists g. split; [|exact F]. pose proof (fn_structs g F o t r1 P M g (fn_known g F)) as S. rewrite (Y g (fn_known g F)) in S. congruence.
    - rewrite (Y g (fn_known g F)). eexists. split; [reflexivity|]. destruct F as [K FT FS]. constructor; [exact K|exact FT|]. cbn [gl_structs memo_get]. intros o1 t1 r1 P1.
      destruct (N.eqb_spec o1 o) as [->|NE]; [|now apply FS]. intros E. injection E as <-. rewrite <- (one_place _ _ _ P P1). exact Y.
  Qed.
  Lemma r_struct o t a o' t' : place o t -> yields struct_inner o t a o' t' -> reads any_structural_reference o t a o' t'.
  Proof. intros P Y. exact (struct_memo _ _ _ P Y). Qed.
  Lemma x_struct o t : place o t -> fails struct_inner o t -> refuses any_structural_reference o t.
  Proof. intros P Y. exact (struct_memo _ _ _ P Y). Qed.
End State.
