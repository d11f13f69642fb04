(** Proofs about the grammar: a logic for its parsers. *)
From Verif Require Export ProofSem SpecGrammar.
From Coq Require Import Lia.
Local Open Scope peg_scope.
Local Open Scope N_scope.

(** [c'] is after [c] in the same text. *)
Definition adv (c c' : cur) : Prop := exists w, cu_rest c = w ++ cu_rest c' /\ cu_off c' = cu_off c + utf8_len w.
Lemma adv_refl c : adv c c.
Proof. exists []. split; [reflexivity|]. cbn. lia. Qed.
Lemma adv_trans a b c : adv a b -> adv b c -> adv a c.
Proof. intros (w & E & F) (v & G & H). exists (w ++ v). rewrite E, G, H, F, utf8_len_app, app_assoc. split; [reflexivity|lia]. Qed.
Lemma adv_le a b : adv a b -> cu_off a <= cu_off b.
Proof. intros (w & _ & ->). lia. Qed.
Lemma adv_length a b : adv a b -> (List.length (cu_rest b) <= List.length (cu_rest a))%nat.
Proof. intros (w & -> & _). rewrite app_length. lia. Qed.
Lemma adv_lt_length a b : adv a b -> cu_off a < cu_off b -> (List.length (cu_rest b) < List.length (cu_rest a))%nat.
Proof. intros (w & -> & E) H. rewrite app_length. destruct w; [cbn in E; lia|]. cbn. lia. Qed.
Lemma adv_advance s r c : cu_rest c = s ++ r -> adv c (advance s r c).
Proof. intros E. exists s. split; [exact E|reflexivity]. Qed.
Lemma utf8_len_pos (s : str) : s <> [] -> 0 < utf8_len s.
Proof. destruct s as [|c s]; [congruence|]. intros _. rewrite utf8_len_cons. pose proof (char_len_pos c). lia. Qed.
Lemma adv_same a b b' : adv a b -> adv a b' -> cu_off b = cu_off b' -> b = b'.
Proof.
  intros (w & E & F) (v & G & H) I. rewrite E in G. clear E.
  assert (K : w = v /\ cu_rest b = cu_rest b').
  { assert (L : utf8_len w = utf8_len v) by lia. clear F H I.
    revert v G L. induction w as [|x w IH]; intros [|y v] G L.
    - now split.
    - rewrite utf8_len_cons in L. pose proof (char_len_pos y). cbn in L. lia.
    - rewrite utf8_len_cons in L. pose proof (char_len_pos x). cbn in L. lia.
    - cbn in G. injection G as -> G. rewrite !utf8_len_cons in L. destruct (IH v G ltac:(lia)) as [-> K]. now split. }
  destruct b, b'; cbn in *. destruct K as [-> ->]. now rewrite I.
Qed.

(** Results one after another *)
Inductive chain {A} (Q : cur -> A -> cur -> Prop) : cur -> list A -> cur -> Prop :=
| chain_nil c : chain Q c [] c
| chain_cons c a m l c' : Q c a m -> adv c m -> chain Q m l c' -> chain Q c (a :: l) c'.
Lemma chain_le {A} Q c (l : list A) c' : chain Q c l c' -> cu_off c <= cu_off c'.
Proof. induction 1 as [|c a m l c' _ Ad _ IH]; [lia|]. apply adv_le in Ad. lia. Qed.

Section Logic.
  Variables (txt : str) (KP : str -> Prop) (K0 : list str) (NW : Prop) (SP : g_any_struct -> Prop).
  (** A place of the text *)
  Definition placed (c : cur) : Prop := adv (mkCur 0 txt) c.
  Definition title_ok (x : N * outcome (unit * cur)) : Prop :=
    match snd x with
    | Ok (_, c') => forall c, placed c -> cu_off c = fst x -> adv c c'
    | Err => True
    | Panic => False
    end.
  Definition struct_ok (x : N * outcome (g_any_struct * cur)) : Prop :=
    match snd x with
    | Ok (s, c') => SP s /\ (forall c, placed c -> cu_off c = fst x -> adv c c' /\ cu_off c < cu_off c')
    | Err => True
    | Panic => False
    end.
  Definition ginv (g : glob) : Prop :=
    (Forall KP (gl_known g) /\ (gl_known g = K0 \/ NW) /\ incl K0 (gl_known g)) /\ Forall title_ok (gl_titles g) /\ Forall struct_ok (gl_structs g).

  (** A parser at places with at most [k] characters left: it ends, goes forward and its results have the property [Q]. *)
  Definition post {A} (Q : cur -> A -> cur -> Prop) (c : cur) (r : outcome (A * cur) * glob) : Prop :=
    match r with
    | (Ok (a, c'), g') => ginv g' /\ adv c c' /\ Q c a c'
    | (Err, g') => ginv g'
    | (Panic, _) => False
    end.
  Definition good {A} (k : nat) (p : parser A) (Q : cur -> A -> cur -> Prop) : Prop :=
    forall c g, placed c -> (List.length (cu_rest c) <= k)%nat -> ginv g -> post Q c (p c g).

  Lemma placed_adv c c' : placed c -> adv c c' -> placed c'.
  Proof. apply adv_trans. Qed.

  Section Rules.
    Context {A B : Type} (k : nat).
    Implicit Types (Q : cur -> A -> cur -> Prop) (p q : parser A).
    Lemma good_weaken p Q (Q' : cur -> A -> cur -> Prop) :
      good k p Q -> (forall c a c', placed c -> adv c c' -> Q c a c' -> Q' c a c') -> good k p Q'.
    Proof.
      intros H W c g P L G. specialize (H c g P L G). unfold post in *. destruct (p c g) as [[[a c']| |] g']; try exact H.
      destruct H as (G' & Ad & HQ). split; [exact G'|]. split; [exact Ad|]. now apply W.
    Qed.
    Lemma good_ret (a : A) : good k (ret a) (fun c x c' => x = a /\ c' = c).
    Proof. intros c g P L G. cbn. split; [exact G|]. split; [apply adv_refl|now split]. Qed.
    Lemma good_fail : good k (fun _ g => (Err, g) : outcome (A * cur) * glob) (fun _ _ _ => False).
    Proof. intros c g P L G. exact G. Qed.
    Lemma good_bind p Q (f : A -> parser B) (R : A -> cur -> B -> cur -> Prop) :
      good k p Q -> (forall a, good k (f a) (R a)) ->
      good k (pbind p f) (fun c b c' => exists a m, Q c a m /\ adv c m /\ R a m b c' /\ adv m c').
    Proof.
      intros H F c g P L G. specialize (H c g P L G). unfold pbind, post in *. destruct (p c g) as [[[a m]| |] g']; try exact H.
      destruct H as (G' & Ad & HQ).
      specialize (F a m g' (placed_adv _ _ P Ad) ltac:(pose proof (adv_length _ _ Ad); lia) G'). unfold post in F.
      destruct (f a m g') as [[[b c']| |] g'']; try exact F. destruct F as (G'' & Ad' & HR).
      split; [exact G''|]. split; [exact (adv_trans _ _ _ Ad Ad')|]. now exists a, m.
    Qed.
    Lemma good_alt p q Q Q' : good k p Q -> good k q Q' -> good k (alt p q) (fun c a c' => Q c a c' \/ Q' c a c').
    Proof.
      intros H1 H2 c g P L G. specialize (H1 c g P L G). unfold alt, post in *. destruct (p c g) as [[[a c']| |] g']; try exact H1.
      - destruct H1 as (G' & Ad & HQ). split; [exact G'|]. split; [exact Ad|]. now left.
      - specialize (H2 c g' P L H1). unfold post in H2. destruct (q c g') as [[[a c']| |] g'']; try exact H2.
        destruct H2 as (G'' & Ad & HQ). split; [exact G''|]. split; [exact Ad|]. now right.
    Qed.
    Lemma good_opt p Q : good k p Q ->
      good k (opt p) (fun c o c' => match o with Some a => Q c a c' | None => c' = c end).
    Proof.
      intros H c g P L G. specialize (H c g P L G). unfold opt, post in *. destruct (p c g) as [[[a c']| |] g']; try exact H.
      split; [exact H|]. split; [apply adv_refl|reflexivity].
    Qed.
    Lemma good_not_ahead p Q : good k p Q -> good k (not_ahead p) (fun c _ c' => c' = c).
    Proof.
      intros H c g P L G. specialize (H c g P L G). unfold not_ahead, post in *. destruct (p c g) as [[[a c']| |] g']; try exact H.
      - apply H.
      - split; [exact H|]. split; [apply adv_refl|reflexivity].
    Qed.
    Lemma good_ahead p Q : good k p Q -> good k (ahead p) (fun c _ c' => c' = c).
    Proof.
      intros H c g P L G. specialize (H c g P L G). unfold ahead, post in *. destruct (p c g) as [[[a c']| |] g']; try exact H.
      split; [apply H|]. split; [apply adv_refl|reflexivity].
    Qed.
    Lemma good_void p Q : good k p Q -> good k (void p) (fun c _ c' => exists a, Q c a c').
    Proof.
      intros H c g P L G. specialize (H c g P L G). unfold void, pbind, ret, post in *.
      destruct (p c g) as [[[a c']| |] g']; try exact H. destruct H as (G' & Ad & HQ). split; [exact G'|]. split; [exact Ad|]. now exists a.
    Qed.
    Lemma good_sliced p Q : good k p Q -> good k (sliced p) (fun c s c' => cu_rest c = s ++ cu_rest c' /\ exists a, Q c a c').
    Proof.
      intros H c g P L G. specialize (H c g P L G). unfold sliced, post in *.
      destruct (p c g) as [[[a c']| |] g']; try exact H. destruct H as (G' & Ad & HQ). split; [exact G'|]. split; [exact Ad|].
      split; [|now exists a]. destruct Ad as (w & -> & _). rewrite app_length.
      replace (List.length w + List.length (cu_rest c') - List.length (cu_rest c'))%nat with (List.length w) by lia.
      now rewrite firstn_app, Nat.sub_diag, firstn_all, firstn_O, app_nil_r.
    Qed.
  End Rules.
  Lemma good_located {A} k (p : parser (pos -> A)) Q : good k p Q ->
    good k (located p) (fun c a c' => exists f, Q c f c' /\ a = f (ModelSem.mkPos (cu_off c) (cu_off c'))).
  Proof.
    intros H c g P L G. specialize (H c g P L G). unfold located, post in *.
    destruct (p c g) as [[[f c']| |] g']; try exact H. destruct H as (G' & Ad & HQ). split; [exact G'|]. split; [exact Ad|]. now exists f.
  Qed.
  Lemma good_many {A} k (p : parser A) Q : good k p Q -> (forall c a c', placed c -> adv c c' -> Q c a c' -> cu_off c < cu_off c') ->
    good k (many p) (chain Q).
  Proof.
    intros H S. unfold many. assert (M : forall n c g, placed c -> (List.length (cu_rest c) <= k)%nat -> ginv g ->
      (List.length (cu_rest c) < n)%nat -> post (chain Q) c (many_n n p c g)).
    { induction n as [|n IH]; intros c g P L G F; [lia|]. cbn [many_n]. pose proof (H c g P L G) as Hp. unfold post in Hp.
      destruct (p c g) as [[[a m]| |] g']; try exact Hp.
      - destruct Hp as (G' & Ad & HQ). pose proof (S _ _ _ P Ad HQ) as Lt. pose proof (adv_lt_length _ _ Ad Lt) as LL.
        specialize (IH m g' (placed_adv _ _ P Ad) ltac:(lia) G' ltac:(lia)). unfold post in IH.
        destruct (many_n n p m g') as [[[l c']| |] g'']; try exact IH. destruct IH as (G'' & Ad' & C). cbn.
        split; [exact G''|]. split; [exact (adv_trans _ _ _ Ad Ad')|]. econstructor; eassumption.
      - cbn. split; [exact Hp|]. split; [apply adv_refl|constructor]. }
    intros c g P L G. apply M; try assumption. lia.
  Qed.
  Lemma good_many1 {A} k (p : parser A) Q : good k p Q -> (forall c a c', placed c -> adv c c' -> Q c a c' -> cu_off c < cu_off c') ->
    good k (many1 p) (fun c l c' => l <> [] /\ chain Q c l c').
  Proof.
    intros H S. unfold many1. eapply good_weaken.
    { eapply good_bind; [exact H|]. intros a. eapply good_bind; [apply good_many; eassumption|]. intros l. apply good_ret. }
    cbn beta. intros c r c' P Ad (a & m & HQ & Ad1 & (l & m' & C & _ & (-> & ->) & _) & _). split; [discriminate|]. econstructor; eassumption.
  Qed.
  (** Elementary parsers *)
  Lemma good_tok_str k s : good k (tok_str s) (fun c _ c' => cu_rest c = s ++ cu_rest c').
  Proof.
    intros c g P L G. unfold tok_str, post. destruct (strip_prefix s (cu_rest c)) as [r|] eqn:E; [|exact G].
    apply strip_prefix_some in E. split; [exact G|]. split; [now apply adv_advance|exact E].
  Qed.
  Lemma good_one k f : good k (chr_if f) (fun c _ c' => exists x, f x = true /\ cu_rest c = x :: cu_rest c').
  Proof.
    intros c g P L G. unfold chr_if, post. destruct (cu_rest c) as [|x r] eqn:E; [exact G|]. destruct (f x) eqn:F; [|exact G].
    split; [exact G|]. split; [apply adv_advance; now rewrite E|now exists x].
  Qed.
  Lemma good_eoi k : good k eoi (fun c _ c' => c' = c /\ cu_rest c = []).
  Proof.
    intros c g P L G. unfold eoi, post. destruct (cu_rest c) eqn:E; [|exact G]. split; [exact G|]. split; [apply adv_refl|now split].
  Qed.
  Lemma good_ws k : good k ws (fun c _ c' => exists w, forallb is_ascii_ws w = true /\ cu_rest c = w ++ cu_rest c').
  Proof.
    intros c g P L G. unfold ws, post. destruct (span is_ascii_ws (cu_rest c)) as [w r] eqn:E.
    pose proof (span_app is_ascii_ws (cu_rest c)) as S. pose proof (span_fst is_ascii_ws (cu_rest c)) as F. rewrite E in S, F. cbn in S, F.
    split; [exact G|]. split; [now apply adv_advance|]. now exists w.
  Qed.
  Lemma memo_get_in {R} n (l : list (N * R)) r : memo_get n l = Some r -> In (n, r) l.
  Proof. induction l as [|[k x] l IH]; [discriminate|]. cbn. destruct (N.eqb_spec n k) as [->|]; [intros [= ->]; now left|auto]. Qed.
  Lemma good_memo_title k p : good k p (fun _ _ _ => True) -> good k (memo_title p) (fun _ _ _ => True).
  Proof.
    intros H c g P L G. unfold memo_title. destruct (memo_get (cu_off c) (gl_titles g)) as [r|] eqn:E.
    - apply memo_get_in in E. destruct G as (G1 & G2 & G3). pose proof (proj1 (Forall_forall _ _) G2 _ E) as T. unfold title_ok in T. cbn in T.
      unfold post. destruct r as [[a c']| |]; [|exact (conj G1 (conj G2 G3))|exact T]. split; [exact (conj G1 (conj G2 G3))|]. split; [now apply T|exact I].
    - specialize (H c g P L G). unfold post in *. destruct (p c g) as [[[a c']| |] g']; [| |exact H].
      + destruct H as ((G1 & G2 & G3) & Ad & _). split; [|split; [exact Ad|exact I]]. split; [exact G1|]. split; [|exact G3]. cbn [gl_titles]. constructor; [|exact G2]. unfold title_ok. cbn [fst snd].
        intros c2 P2 O2. now rewrite (adv_same _ _ _ P2 P O2).
      + destruct H as (G1 & G2 & G3). split; [exact G1|]. split; [|exact G3]. cbn [gl_titles]. constructor; [exact I|exact G2].
  Qed.
  Lemma good_memo_struct k p : good k p (fun c s c' => SP s /\ cu_off c < cu_off c') ->
    good k (memo_struct p) (fun c s c' => SP s /\ cu_off c < cu_off c').
  Proof.
    intros H c g P L G. unfold memo_struct. destruct (memo_get (cu_off c) (gl_structs g)) as [r|] eqn:E.
    - apply memo_get_in in E. destruct G as (G1 & G2 & G3). pose proof (proj1 (Forall_forall _ _) G3 _ E) as T. unfold struct_ok in T. cbn in T.
      unfold post. destruct r as [[a c']| |]; [|exact (conj G1 (conj G2 G3))|exact T]. destruct T as [T T']. destruct (T' c P eq_refl) as [T1 T2].
      exact (conj (conj G1 (conj G2 G3)) (conj T1 (conj T T2))).
    - specialize (H c g P L G). unfold post in *. destruct (p c g) as [[[a c']| |] g']; [| |exact H].
      + destruct H as ((G1 & G2 & G3) & Ad & Q & Lt). split; [|exact (conj Ad (conj Q Lt))]. split; [exact G1|]. split; [exact G2|]. cbn [gl_structs]. constructor; [|exact G3].
        unfold struct_ok. cbn [fst snd]. split; [exact Q|]. intros c2 P2 O2. now rewrite (adv_same _ _ _ P2 P O2).
      + destruct H as (G1 & G2 & G3). split; [exact G1|]. split; [exact G2|]. cbn [gl_structs]. constructor; [exact I|exact G3].
  Qed.
  Lemma good_and {A} k (p : parser A) Q R : good k p Q -> good k p R -> good k p (fun c a c' => Q c a c' /\ R c a c').
  Proof.
    intros H1 H2 c g P L G. specialize (H1 c g P L G). specialize (H2 c g P L G). unfold post in *. destruct (p c g) as [[[a c']| |] g']; try exact H1. tauto.
  Qed.
  (** What follows from the result alone *)
  Lemma good_fact {A} k (p : parser A) Q (R : cur -> A -> cur -> Prop) : good k p Q -> (forall c g a c' g', p c g = (Ok (a, c'), g') -> R c a c') -> good k p (fun c a c' => Q c a c' /\ R c a c').
  Proof.
    intros H F c g P L G. specialize (H c g P L G). specialize (F c g). unfold post in *. destruct (p c g) as [[[a c']| |] g']; try exact H. specialize (F a c' g' eq_refl). tauto.
  Qed.
  Lemma store_known n l : (forall s, gn_abbrev n = Some s -> KP s /\ NW) -> Forall KP l /\ (l = K0 \/ NW) /\ incl K0 l ->
    Forall KP (store_abbreviation n l) /\ (store_abbreviation n l = K0 \/ NW) /\ incl K0 (store_abbreviation n l).
  Proof.
    intros H F. unfold store_abbreviation. destruct (gn_abbrev n) as [s|]; [|exact F]. destruct (H s eq_refl) as [HS W]. split; [|split; [now right|apply incl_appl, F]].
    apply Forall_app. split; [apply F|]. constructor; [exact HS|constructor].
  Qed.
  Lemma good_checked k p Q : good k p Q -> (forall c n c', placed c -> adv c c' -> Q c n c' -> forall s, gn_abbrev n = Some s -> KP s /\ NW) ->
    good k (checked p) Q.
  Proof.
    intros H S c g P L G. specialize (H c g P L G). unfold checked, post in *. destruct (p c g) as [[[n c']| |] g']; try exact H.
    destruct H as ((G1 & G2 & G3) & Ad & HQ). split; [|split; assumption]. split; [|split; assumption]. cbn. apply store_known; [|exact G1]. now apply (S c n c').
  Qed.
  Lemma good_abbreviation_content k : good k abbreviation_content (fun c s c' => KP s /\ cu_rest c = s ++ cu_rest c').
  Proof.
    intros c g P L G. unfold abbreviation_content, post. destruct (parse_abbreviation (gl_known g) (cu_rest c)) as [s|] eqn:E; [|exact G].
    apply parse_abbreviation_spec in E as (a & b & E & (r & F) & _).
    assert (X : cu_rest c = s ++ skipn (List.length s) (cu_rest c)).
    { rewrite F. f_equal. now rewrite skipn_app, Nat.sub_diag, skipn_all. }
    split; [exact G|]. split; [now apply adv_advance|]. split; [|exact X].
    destruct G as ((G & _) & _). rewrite E in G. apply Forall_app in G as [_ G]. now apply Forall_inv in G.
  Qed.
End Logic.
