(** Proofs for C81: reading which changes the known abbreviations. *)
From Verif Require Export SpecSay10 ProofSay36.
From Coq Require Import Lia.
Local Open Scope peg_scope.
Local Open Scope N_scope.

Definition shifts {A} (L : list str) (p : parser A) (o : N) (t : str) (a : A) (o' : N) (t' : str) (L' : list str) : Prop :=
  forall g, gl_known g = L -> exists g', p (mkCur o t) g = (Ok (a, mkCur o' t'), g') /\ gl_known g' = L'.
Definition falls {A} (L : list str) (p : parser A) (o : N) (t : str) (L' : list str) : Prop :=
  forall g, gl_known g = L -> exists g', p (mkCur o t) g = (Err, g') /\ gl_known g' = L'.
Lemma s_y {A} L (p : parser A) o t a o' t' : yields L p o t a o' t' -> shifts L p o t a o' t' L.
Proof. intros H g E. exists g. split; [exact (H g E)|exact E]. Qed.
Lemma s_f {A} L (p : parser A) o t : fails L p o t -> falls L p o t L.
Proof. intros H g E. exists g. split; [exact (H g E)|exact E]. Qed.
Lemma s_eq {A} L (p : parser A) o t a o1 o2 t' L' : shifts L p o t a o1 t' L' -> o1 = o2 -> shifts L p o t a o2 t' L'.
Proof. intros H <-. exact H. Qed.
Lemma s_bind {A B} L (p : parser A) (f : A -> parser B) o t a o1 t1 L1 b o2 t2 L2 : shifts L p o t a o1 t1 L1 -> shifts L1 (f a) o1 t1 b o2 t2 L2 -> shifts L (pbind p f) o t b o2 t2 L2.
Proof. intros H K g E. destruct (H g E) as (g1 & E1 & K1). destruct (K g1 K1) as (g2 & E2 & K2). exists g2. split; [|exact K2]. unfold pbind. now rewrite E1. Qed.
Lemma s_bind_falls {A B} L (p : parser A) (f : A -> parser B) o t a o1 t1 L1 L2 : shifts L p o t a o1 t1 L1 -> falls L1 (f a) o1 t1 L2 -> falls L (pbind p f) o t L2.
Proof. intros H K g E. destruct (H g E) as (g1 & E1 & K1). destruct (K g1 K1) as (g2 & E2 & K2). exists g2. split; [|exact K2]. unfold pbind. now rewrite E1. Qed.
Lemma s_alt1 {A} L (p q : parser A) o t a o' t' L' : shifts L p o t a o' t' L' -> shifts L (alt p q) o t a o' t' L'.
Proof. intros H g E. destruct (H g E) as (g1 & E1 & K1). exists g1. split; [|exact K1]. unfold alt. now rewrite E1. Qed.
Lemma s_alt2 {A} L (p q : parser A) o t a o' t' L1 L' : falls L p o t L1 -> shifts L1 q o t a o' t' L' -> shifts L (alt p q) o t a o' t' L'.
Proof. intros H K g E. destruct (H g E) as (g1 & E1 & K1). destruct (K g1 K1) as (g2 & E2 & K2). exists g2. split; [|exact K2]. unfold alt. now rewrite E1. Qed.
Lemma s_some {A} L (p : parser A) o t a o' t' L' : shifts L p o t a o' t' L' -> shifts L (opt p) o t (Some a) o' t' L'.
Proof. intros H g E. destruct (H g E) as (g1 & E1 & K1). exists g1. split; [|exact K1]. unfold opt. now rewrite E1. Qed.
Lemma s_sk {A} L (p : parser A) o t a o' t' L' : quiet is_ascii_ws t -> shifts L p o t a o' t' L' -> shifts L (sk p) o t a o' t' L'.
Proof. intros Q H. eapply s_bind; [apply s_y; now apply y_ws|exact H]. Qed.
Lemma s_sk_lead {A} L (p : parser A) l o t a o' t' L' : lead l -> quiet is_ascii_ws t -> shifts L p (o + utf8_len l) t a o' t' L' -> shifts L (sk p) o (l ++ t) a o' t' L'.
Proof.
  intros [->| ->] Q H; cbn [app].
  - change (utf8_len []) with 0 in H. rewrite N.add_0_r in H. now apply s_sk.
  - eapply s_bind; [apply s_y; now apply y_ws_sp|exact H].
Qed.
Lemma s_many_cons {A} L (p : parser A) o t a o1 t1 L1 l o2 t2 L2 : (List.length t1 < List.length t)%nat -> shifts L p o t a o1 t1 L1 -> shifts L1 (many p) o1 t1 l o2 t2 L2 -> shifts L (many p) o t (a :: l) o2 t2 L2.
Proof.
  intros LT H K g E. destruct (H g E) as (g1 & E1 & K1). destruct (K g1 K1) as (g2 & E2 & K2). exists g2. split; [|exact K2]. unfold many in *. cbn [cu_rest] in *. cbn [many_n]. rewrite E1.
  rewrite (many_n_grows p (S (List.length t1)) (List.length t) _ _ _ _ _ LT E2). reflexivity.
Qed.
Lemma s_checked L p o t n o' t' : yields L p o t n o' t' -> shifts L (checked p) o t n o' t' (store_abbreviation n L).
Proof. intros H g E. eexists. split; [unfold checked; rewrite (H g E); reflexivity|]. cbn [gl_known]. now rewrite E. Qed.

(** ** The act and the abbreviation after it *)
Section Id.
  Variable L : list str.
  Local Notation yields := (yields L).
  Local Notation fails := (fails L).
  Lemma y_act_id a sa e o t : (0 <= act_year a)%Z -> act_show a = Ok sa -> forallb is_hun_lower e = true -> quiet is_hun_lower t ->
    exists y n, yields (sk g_act_id_rule) o ((sa ++ e) ++ t) (mkGAct y n (ModelSem.mkPos o (o + utf8_len (sa ++ e)))) (o + utf8_len (sa ++ e)) t /\
      y = show_Z (act_year a) /\ roman_to (act_number a) = Some n /\ quiet is_ascii_ws ((sa ++ e) ++ t) /\ sa <> [] /\ quiet (N.eqb 8222) ((sa ++ e) ++ t).
  Proof.
    intros Y E FE Q. unfold act_show in E. destruct (roman_to (act_number a)) as [rn|] eqn:R; [|discriminate].
    assert (E' : sa = show_Z (act_year a) ++ lit ". évi " ++ rn ++ lit ". törvény") by congruence. subst sa. clear E. exists (show_Z (act_year a)), rn.
    assert (RN : forallb is_roman_digit rn = true /\ rn <> []).
    { rewrite roman_to_spec in R. destruct ((1 <=? act_number a) && (act_number a <=? 3999))%Z eqn:Z; [|discriminate]. injection R as <-. apply andb_true_iff in Z. apply roman_standard_digits. lia. }
    destruct RN as [RN1 RN2]. rewrite show_Z_pos by exact Y. set (yy := show_N (Z.to_N (act_year a))) in *.
    assert (W : forall u, quiet is_ascii_ws (yy ++ u)) by (intros u; apply quiet_ws_number).
    split; [|split; [reflexivity|split; [reflexivity|split; [rewrite <- !app_assoc; apply W|split]]]].
    2:{ intros K. apply app_eq_nil in K as [K _]. revert K. apply show_N_nonempty. }
    2:{ rewrite <- !app_assoc. apply quiet_digits. intros ch H. apply ProofSay4.digit_cases in H. cbn [In] in H. repeat (destruct H as [<-|H]; [reflexivity|]). contradiction. }
    rewrite <- !app_assoc. set (sa := yy ++ lit ". évi " ++ rn ++ lit ". törvény" ++ e).
    apply y_sk; [apply W|]. unfold g_act_id_rule. eapply (y_located L _ _ _ (mkGAct yy rn)).
    eapply y_bind; [apply y_sk; [apply W|apply y_number; reflexivity]|].
    change (lit ". évi " ++ rn ++ lit ". törvény" ++ e ++ t) with (lit "." ++ lit " " ++ lit "évi" ++ lit " " ++ rn ++ lit "." ++ lit " " ++ lit "törvény" ++ e ++ t).
    eapply y_bind; [apply y_T; reflexivity|]. eapply y_bind; [apply y_T_sp; reflexivity|].
    assert (QR : quiet is_ascii_ws (rn ++ lit "." ++ lit " " ++ lit "törvény" ++ e ++ t)).
    { destruct rn as [|c1 rn']; [congruence|]. cbn in *. apply andb_true_iff in RN1 as [RN1 _]. unfold is_roman_digit in RN1. apply existsb_exists in RN1 as (x & I & E). apply N.eqb_eq in E as ->.
      change (lit "IVXLCDM") with [73; 86; 88; 76; 67; 68; 77] in I. cbn [In] in I. repeat (destruct I as [<-|I]; [reflexivity|]). contradiction. }
    destruct (y_many1_chars L (fun c => existsb (N.eqb c) roman_chars) rn (o + utf8_len yy + utf8_len (lit ".") + 1 + utf8_len (lit "évi") + 1) (lit "." ++ lit " " ++ lit "törvény" ++ e ++ t) RN2 RN1 eq_refl) as [l YR].
    eapply y_bind; [apply y_sk_sp; [exact QR|unfold g_roman; eapply y_sliced; exact YR]|].
    eapply y_bind; [apply y_T; reflexivity|]. eapply y_bind.
    - apply y_sk_sp; [reflexivity|]. unfold act_suffix. apply y_alt1. change (lit "törvény" ++ e ++ t) with (lit "törvén" ++ (lit "y" ++ e) ++ t). eapply y_bind; [apply y_tok|].
      destruct (y_many1_chars L is_hun_lower (lit "y" ++ e) (o + utf8_len yy + utf8_len (lit ".") + 1 + utf8_len (lit "évi") + 1 + utf8_len rn + utf8_len (lit ".") + 1 + utf8_len (lit "törvén")) t ltac:(discriminate)) as [l' YS];
        [rewrite forallb_app, FE; reflexivity|exact Q|].
      eapply y_void. exact YS.
    - eapply y_eq; [apply y_ret|]. unfold sa. rewrite !utf8_len_app. change (utf8_len (lit ". évi ")) with 7. change (utf8_len (lit ". törvény")) with 11.
      change (utf8_len (lit ".")) with 1. change (utf8_len (lit "évi")) with 4. change (utf8_len (lit "törvén")) with 8. change (utf8_len (lit "y")) with 1. lia.
  Qed.
  Lemma y_plain_char c o t : c <> chr ")" -> yields (not_ahead (tok ")") ;; any) o (c :: t) tt (o + utf8_len [c]) t.
  Proof.
    intros NC. eapply y_bind; [apply y_not, f_tok|].
    - destruct (strip_prefix (lit ")") (c :: t)) as [b|] eqn:E; [|reflexivity]. apply strip_prefix_some in E. injection E as -> _. now elim NC.
    - intros g _. reflexivity.
  Qed.
  Lemma y_until k : forall o t, ~ In (chr ")") k -> exists l, yields (many (not_ahead (tok ")") ;; any)) o (k ++ lit ")" ++ t) l (o + utf8_len k) (lit ")" ++ t).
  Proof.
    induction k as [|c k IH]; intros o t N.
    - exists []. cbn [app]. eapply y_eq; [apply y_many_nil, f_bind1; eapply f_not, y_tok|]. change (utf8_len []) with 0. lia.
    - destruct (IH (o + utf8_len [c]) t) as (l & Y); [intros I; apply N; now right|]. exists (tt :: l). eapply y_eq; [eapply y_many_cons; [|apply y_plain_char|exact Y]|].
      + cbn [app List.length]. apply Nat.lt_succ_diag_r.
      + intros ->. apply N. now left.
      + change (c :: k) with ([c] ++ k). rewrite utf8_len_app. lia.
  Qed.
  Lemma y_potential k o t : abbreviation k -> yields potential_abbreviation o (k ++ lit ")" ++ t) k (o + utf8_len k) (lit ")" ++ t).
  Proof.
    intros [(c & u & -> & _) N]. unfold potential_abbreviation. destruct (y_until u (o + utf8_len [c]) t) as (l & Y); [intros I; apply N; now right|]. eapply y_sliced. unfold many1. eapply y_bind.
    - apply y_plain_char. intros ->. apply N. now left.
    - eapply y_bind; [exact Y|]. eapply y_eq; [apply y_ret|]. change (c :: u) with ([c] ++ u). rewrite utf8_len_app. lia.
  Qed.
  Lemma abbreviation_starts k t : abbreviation k -> quiet is_ascii_ws (k ++ t) /\ quiet is_digit (k ++ t) /\ quiet (N.eqb 58) (k ++ t).
  Proof.
    intros [(c & u & -> & NW & ND & NC) N]. cbn [app quiet]. split; [now apply not_white|]. split; [now apply not_digit|]. apply N.eqb_neq. intros <-. now apply NC.
  Qed.
  Definition now_on : parser (option str) := T "(" ;; T "a" ;; T "továbbiakban" ;; opt (T ":") ;;
    x <- ((sk g_act_id_rule ;; ret None) <|> (s <- sk potential_abbreviation ;; ret (Some s))) ;; T ")" ;; ret x.
  Lemma y_now_on colon k o t : In colon (map lit [": "; " "]%string) -> abbreviation k ->
    yields now_on o (lit " (a továbbiakban" ++ colon ++ k ++ lit ")" ++ t) (Some k) (o + utf8_len (lit " (a továbbiakban" ++ colon ++ k ++ lit ")")) t.
  Proof.
    intros I AB. destruct (abbreviation_starts k (lit ")" ++ t) AB) as (W & D & C). unfold now_on.
    change (lit " (a továbbiakban" ++ colon ++ k ++ lit ")" ++ t) with (lit " " ++ lit "(" ++ lit "a" ++ lit " " ++ lit "továbbiakban" ++ colon ++ k ++ lit ")" ++ t).
    eapply y_bind; [apply y_T_sp; reflexivity|]. eapply y_bind; [apply y_T; reflexivity|]. eapply y_bind; [apply y_T_sp; reflexivity|].
    set (o1 := o + 1 + utf8_len (lit "(") + utf8_len (lit "a") + 1 + utf8_len (lit "továbbiakban")).
    assert (OC : exists x, yields (opt (T ":")) o1 (colon ++ k ++ lit ")" ++ t) x (o1 + utf8_len colon - 1) (lit " " ++ k ++ lit ")" ++ t)).
    { cbn [map In] in I. destruct I as [<-|[<-|[]]].
      - exists (Some tt). change (lit ": " ++ k ++ lit ")" ++ t) with (lit ":" ++ lit " " ++ k ++ lit ")" ++ t). eapply y_eq; [apply y_some, y_T; reflexivity|]. change (utf8_len (lit ": ")) with 2. change (utf8_len (lit ":")) with 1. lia.
      - exists None. eapply y_eq; [apply y_none; exact (f_T_lead L ":" 58 [] (lit " ") o1 _ lead_space W eq_refl C)|]. change (utf8_len (lit " ")) with 1. lia. }
    destruct OC as (x & OC). eapply y_bind; [exact OC|]. eapply y_bind.
    { apply y_alt2.
      - apply f_bind1. apply f_sk_lead; [apply lead_space|exact W|]. intros o2. now apply f_act_other.
      - eapply y_bind; [apply y_sk_lead; [apply lead_space|exact W|now apply y_potential]|apply y_ret]. }
    eapply y_bind; [apply y_T; reflexivity|]. eapply y_eq; [apply y_ret|].
    assert (U : 1 <= utf8_len colon) by (cbn [map In] in I; destruct I as [<-|[<-|[]]]; vm_compute; discriminate).
    rewrite !utf8_len_app. unfold o1. change (utf8_len (lit " (a továbbiakban")) with 17. change (utf8_len (lit " ")) with 1. change (utf8_len (lit "(")) with 1. change (utf8_len (lit "a")) with 1. change (utf8_len (lit "továbbiakban")) with 13. change (utf8_len (lit ")")) with 1. lia.
  Qed.
End Id.
