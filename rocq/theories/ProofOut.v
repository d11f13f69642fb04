(** Cutting texts at references (C38). *)
From Verif Require Export SpecOut ProofSem6.
Local Open Scope N_scope.

Lemma char_len_pos c : 0 < char_len c.
Proof. unfold char_len. repeat destruct (_ <? _); lia. Qed.
Lemma split_at_byte_ok s : forall n a b, split_at_byte s n = Some (a, b) <-> s = a ++ b /\ utf8_len a = n.
Proof.
  induction s as [|c s IH]; intros n a b; cbn [split_at_byte].
  - destruct (N.eqb_spec n 0) as [->|E].
    + split; [intros [= <- <-]; now split|]. intros [H K]. symmetry in H. apply app_eq_nil in H as [-> ->]. reflexivity.
    + split; [discriminate|]. intros [H K]. symmetry in H. apply app_eq_nil in H as [-> ->]. cbn in K. congruence.
  - destruct (N.eqb_spec n 0) as [->|E].
    + split; [intros [= <- <-]; now split|]. intros [H K]. destruct a as [|x a]; [cbn in H; now subst|].
      rewrite utf8_len_cons in K. pose proof (char_len_pos x). lia.
    + destruct (N.ltb_spec n (char_len c)) as [L|L].
      * split; [discriminate|]. intros [H K]. destruct a as [|x a]; [cbn in K; congruence|].
        injection H as <- ->. rewrite utf8_len_cons in K. lia.
      * destruct (split_at_byte s (n - char_len c)) as [[a' b']|] eqn:S.
        -- apply IH in S as [-> K]. split.
           ++ intros [= <- <-]. rewrite utf8_len_cons. split; [reflexivity|lia].
           ++ intros [H K']. destruct a as [|x a]; [cbn in K'; congruence|]. injection H as <- H.
              rewrite utf8_len_cons in K'.
              assert (S : split_at_byte (a' ++ b') (n - char_len c) = Some (a, b)) by (apply IH; split; [exact H|lia]).
              assert (S' : split_at_byte (a' ++ b') (n - char_len c) = Some (a', b')) by (apply IH; split; [reflexivity|exact K]).
              rewrite S in S'. injection S' as -> ->. reflexivity.
        -- split; [discriminate|]. intros [H K']. destruct a as [|x a]; [cbn in K'; congruence|]. injection H as <- H.
           rewrite utf8_len_cons in K'. assert (S' : split_at_byte s (n - char_len c) = Some (a, b)) by (apply IH; split; [exact H|lia]).
           congruence.
Qed.
Lemma byte_range_ok s a b x : byte_range s a b = Ok x <-> piece s a b x.
Proof.
  unfold byte_range, piece. split.
  - destruct (split_at_byte s b) as [[s' r]|] eqn:E; [|discriminate]. destruct (split_at_byte s' a) as [[y z]|] eqn:F; [|discriminate].
    intros [= ->]. apply split_at_byte_ok in E as [-> E]. apply split_at_byte_ok in F as [-> F].
    exists y, r. now rewrite <- app_assoc.
  - intros (pre & post & -> & <- & <-).
    assert (E : split_at_byte (pre ++ x ++ post) (utf8_len (pre ++ x)) = Some (pre ++ x, post)) by (apply split_at_byte_ok; now rewrite app_assoc).
    rewrite E. assert (F : split_at_byte (pre ++ x) (utf8_len pre) = Some (pre, x)) by now apply split_at_byte_ok. now rewrite F.
Qed.
Lemma byte_range_total s a b : byte_range s a b = Panic \/ exists x, byte_range s a b = Ok x.
Proof.
  unfold byte_range. destruct (split_at_byte s b) as [[s' r]|]; [|now left].
  destruct (split_at_byte s' a) as [[y z]|]; [right; eauto|now left].
Qed.
Lemma piece_exists s a b : (exists x, piece s a b x) <-> a <= b /\ boundary s a /\ boundary s b.
Proof.
  split.
  - intros (x & pre & post & -> & <- & <-). rewrite utf8_len_app. split; [lia|]. split.
    + now exists pre, (x ++ post).
    + exists (pre ++ x), post. rewrite utf8_len_app. now rewrite app_assoc.
  - intros (L & (p & q & E & <-) & (p' & q' & E' & <-)). subst s.
    destruct (app_eq_split p q p' q' E' L) as (r & -> & ->). exists r, p, q'. repeat split.
Qed.
Lemma piece_unique s a b x y : piece s a b x -> piece s a b y -> x = y.
Proof. intros H K. apply byte_range_ok in H, K. congruence. Qed.
Lemma boundary_end s : boundary s (utf8_len s).
Proof. exists s, []. now rewrite app_nil_r. Qed.
Lemma boundary_le s n : boundary s n -> n <= utf8_len s.
Proof. intros (a & b & -> & <-). rewrite utf8_len_app. lia. Qed.

Lemma split_total t refs : forall lo, boundary t lo ->
  (split_refs t lo refs = Panic \/ exists l, split_refs t lo refs = Ok l) /\
  (cuttable t lo refs <-> exists l, split_refs t lo refs = Ok l).
Proof.
  induction refs as [|o refs IH]; intros lo B; cbn [split_refs cuttable].
  - destruct (proj2 (piece_exists t lo (utf8_len t))) as [x X].
    { split; [now apply boundary_le|]. split; [exact B|apply boundary_end]. }
    apply byte_range_ok in X. rewrite X. cbn. split; [right; eauto|split; eauto].
  - destruct (byte_range_total t lo (o_start o)) as [E|[x E]]; rewrite E; cbn.
    { split; [now left|]. split; [|intros [l X]; discriminate]. intros (L & _ & S & _).
      destruct (proj2 (piece_exists t lo (o_start o)) (conj L (conj B S))) as [x X]. apply byte_range_ok in X. congruence. }
    destruct (byte_range_total t (o_start o) (o_end o)) as [F|[y F]]; rewrite F; cbn.
    { split; [now left|]. split; [|intros [l X]; discriminate]. intros (_ & L & S & S' & _).
      destruct (proj2 (piece_exists t (o_start o) (o_end o)) (conj L (conj S S'))) as [z X]. apply byte_range_ok in X. congruence. }
    apply byte_range_ok in E, F. pose proof (proj1 (piece_exists t _ _) (ex_intro _ _ E)) as (L1 & _ & B1).
    pose proof (proj1 (piece_exists t _ _) (ex_intro _ _ F)) as (L2 & _ & B2).
    destruct (IH (o_end o) B2) as [T C]. split.
    + destruct T as [->|[l ->]]; cbn; [now left|right; eauto].
    + rewrite C. split.
      * intros (_ & _ & _ & _ & l & ->). cbn. eauto.
      * intros [l H]. destruct (split_refs t (o_end o) refs) as [l'| |]; try discriminate. repeat split; try assumption; eauto.
Qed.
Lemma boundary_0 s : boundary s 0.
Proof. now exists [], s. Qed.
Lemma c38_cut t refs : (cuttable t 0 refs -> exists l, split_string_at_references t refs = Ok l) /\
  (~ cuttable t 0 refs -> split_string_at_references t refs = Panic).
Proof.
  unfold split_string_at_references. destruct (split_total t refs 0 (boundary_0 t)) as [T C]. split.
  - apply C.
  - intros N. destruct T as [T|[l T]]; [exact T|]. exfalso. apply N, C. eauto.
Qed.
Lemma split_spec t refs : forall lo l, split_refs t lo refs = Ok l ->
  (exists p, utf8_len p = lo /\ t = p ++ List.concat (map fst l)) /\ alternating l /\
  Forall2 (fun o x => piece t (o_start o) (o_end o) x) refs (marked l).
Proof.
  induction refs as [|o refs IH]; intros lo l H; cbn [split_refs] in H.
  - destruct (byte_range t lo (utf8_len t)) as [x| |] eqn:E; try discriminate. injection H as <-. cbn.
    apply byte_range_ok in E. destruct E as (p & q & -> & <- & E). split; [|split; [exact I|constructor]].
    exists p. split; [reflexivity|]. rewrite !utf8_len_app in E. assert (Q : q = []).
    { destruct q as [|c q]; [reflexivity|]. rewrite utf8_len_cons in E. pose proof (char_len_pos c). lia. }
    now rewrite Q.
  - destruct (byte_range t lo (o_start o)) as [x| |] eqn:E; try discriminate. cbn in H.
    destruct (byte_range t (o_start o) (o_end o)) as [y| |] eqn:F; try discriminate. cbn in H.
    destruct (split_refs t (o_end o) refs) as [l'| |] eqn:G; try discriminate. injection H as <-.
    destruct (IH _ _ G) as ((p & Hp & T) & A & M). apply byte_range_ok in E, F. split; [|split].
    + cbn [map fst List.concat]. destruct E as (p1 & q1 & E & <- & E2). exists p1. split; [reflexivity|].
      destruct F as (p2 & q2 & F & F1 & F2). rewrite app_assoc. 
      assert (X : p1 ++ x = p2).
      { rewrite E, app_assoc in F. rewrite <- E2 in F1.
        destruct (app_eq_split _ _ _ _ F ltac:(lia)) as (r & R & _). assert (r = []) as ->.
        { destruct r as [|c r]; [reflexivity|]. rewrite R, !utf8_len_app, utf8_len_cons in F1. pose proof (char_len_pos c). lia. }
        now rewrite app_nil_r in R. }
      rewrite app_assoc, <- app_assoc, X. 
      assert (Y : p2 ++ y = p).
      { rewrite F, app_assoc in T. rewrite <- Hp in F2.
        destruct (app_eq_split _ _ _ _ T ltac:(lia)) as (r & R & _). assert (r = []) as ->.
        { destruct r as [|c r]; [reflexivity|]. rewrite R, !utf8_len_app, utf8_len_cons in F2. pose proof (char_len_pos c). lia. }
        now rewrite app_nil_r in R. }
      rewrite app_assoc, Y. exact T.
    + cbn. exact A.
    + unfold marked. cbn. constructor; [exact F|exact M].
Qed.
Lemma c38_pieces t refs l : split_string_at_references t refs = Ok l ->
  List.concat (map fst l) = t /\ alternating l /\ Forall2 (fun o x => piece t (o_start o) (o_end o) x) refs (marked l).
Proof.
  intros H. destruct (split_spec _ _ _ _ H) as ((p & P & T) & A & M). split; [|now split].
  destruct p as [|c p]; [cbn in T; now symmetry|]. rewrite utf8_len_cons in P. pose proof (char_len_pos c). lia.
Qed.
Lemma c38_plain t p i : op_colored p = false -> cuttable t 0 (si_outgoing i) -> colorize_sae t p i = Ok t.
Proof.
  intros E C. unfold colorize_sae. destruct (proj1 (c38_cut _ _) C) as [l L]. rewrite L. cbn.
  apply c38_pieces in L as (<- & _). f_equal. unfold colorize. rewrite E.
  clear C. induction l as [|[s b] l IH]; [reflexivity|]. cbn. now rewrite IH.
Qed.
Lemma c38_colored t p i s : op_colored p = true -> colorize_sae t p i = Ok s -> exists l,
  split_string_at_references t (si_outgoing i) = Ok l /\
  s = flat_map (fun x : str * bool => [27] ++ lit "[" ++ (if snd x then lit "36" else if is_some (si_phrase i) then lit "33" else lit "0") ++ lit "m" ++ fst x ++ [27] ++ lit "[0m") l.
Proof.
  intros E. unfold colorize_sae. destruct (split_string_at_references t (si_outgoing i)) as [l| |]; try discriminate. cbn [obind].
  intros [= <-]. exists l. split; [reflexivity|]. unfold colorize. rewrite E.
  induction l as [|[x b] l IH]; [reflexivity|]. cbn [flat_map fst snd]. now rewrite IH.
Qed.
(** Ordered references whose ends are characters of the text can be cut. *)
Lemma spans_cuttable t l : forall lo, spans_ordered lo l -> Forall (fun o => exists x, piece t (o_start o) (o_end o) x) l -> cuttable t lo l.
Proof.
  induction l as [|o l IH]; intros lo S F; cbn in *; [exact I|]. inversion F as [|? ? P F']; subst. destruct S as [S T].
  apply piece_exists in P as (L & B & B'). repeat split; try assumption; [lia|]. now apply IH.
Qed.
