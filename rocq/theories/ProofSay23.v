(** Proofs for C77: chapters, parts and titles in a sentence. *)
From Verif Require Export SpecSay6 ProofSay22 ProofStruct9.
From Coq Require Import Lia.
Local Open Scope peg_scope.
Local Open Scope N_scope.

(** ** The first letter *)
Definition caps : str := lit "IVXLCDMEHNÖTK".
Definition cap_first (t : str) : Prop := exists c u, t = c :: u /\ In c caps.
Lemma cap_not f t : forallb (fun c => negb (f c)) caps = true -> cap_first t -> quiet f t.
Proof. intros H (c & u & -> & I). cbn [quiet]. rewrite forallb_forall in H. specialize (H c I). now destruct (f c). Qed.
Lemma cap_ws t : cap_first t -> quiet is_ascii_ws t.
Proof. apply cap_not. vm_compute. reflexivity. Qed.
Lemma cap_app s t : cap_first s -> cap_first (s ++ t).
Proof. intros (c & u & -> & I). exists c, (u ++ t). auto. Qed.
Ltac each_cap H := let c := fresh "c" in let u := fresh "u" in let I := fresh "I" in
  destruct H as (c & u & -> & I); unfold caps in I; change (lit "IVXLCDMEHNÖTK") with [73; 86; 88; 76; 67; 68; 77; 69; 72; 78; 214; 84; 75] in I; cbn [In] in I.

(** ** Roman numbers *)
Lemma roman_char c : is_roman_digit c = true -> In c [73; 86; 88; 76; 67; 68; 77].
Proof.
  intros H. unfold is_roman_digit in H. apply existsb_exists in H as (x & I & E). apply N.eqb_eq in E as ->. exact I.
Qed.
(** A roman number as it is followed *)
Definition roman_text (i : str) : Prop := exists r v, i = r ++ v /\ r <> [] /\ forallb is_roman_digit r = true /\ (v = [] \/ exists c, v = lit "/" ++ [c] /\ 65 <= c <= 90).
Lemma roman_is n i : roman_said n i -> roman_text i.
Proof.
  destruct 1 as [n H|n c H C]; destruct (roman_standard_digits n H) as [D NE].
  - exists (roman_standard n), []. rewrite app_nil_r. auto.
  - exists (roman_standard n), (lit "/" ++ [c]). split; [reflexivity|]. split; [exact NE|]. split; [exact D|]. right. exists c. auto.
Qed.
Lemma roman_cap i t : roman_text i -> cap_first (i ++ t).
Proof.
  intros (r & v & -> & NE & D & _). destruct r as [|x r]; [congruence|]. cbn [forallb] in D. apply andb_true_iff in D as [D _]. exists x, ((r ++ v) ++ t). split; [reflexivity|].
  apply roman_char in D. cbn [In] in D. unfold caps. repeat (destruct D as [<-|D]; [vm_compute; auto 20|]). contradiction.
Qed.
Lemma roman_value rf n i : roman_from_reads rf -> roman_said n i -> numeric_from_roman rf i = Ok n.
Proof.
  intros R. assert (K : forall n, 1 <= n <= 3999 -> roman_to (Z.of_N n) = Some (roman_standard n)).
  { intros n' H. rewrite roman_to_spec. replace ((1 <=? Z.of_N n') && (Z.of_N n' <=? 3999))%Z with true by (symmetry; apply andb_true_iff; split; apply Z.leb_le; lia). now rewrite N2Z.id. }
  intros [n' H|n' c H C].
  - apply (roman_round_trip rf); [exact R|unfold numeric_ok, u16_max; cbn [n_num n_suffix]; apply andb_true_iff; split; [apply N.leb_le; lia|reflexivity]|]. unfold numeric_to_roman. cbn [n_num n_suffix]. now rewrite K.
  - unfold numeric_from_roman. destruct (roman_standard_digits n' H) as [D _].
    assert (S : spelling [c] (Latin (c + 32))) by (replace c with (c + 32 - 32) at 1 by lia; constructor; lia).
    change (lit "/" ++ [c]) with (47 :: [c]). rewrite (split_suffix_slash _ _ _ _ D S eq_refl). cbn [obind]. rewrite (R n' H). cbn [ok_or obind]. f_equal. f_equal. lia.
Qed.
Section Run.
  Variable known : list str.
  Local Notation yields := (yields known).
  Local Notation fails := (fails known).
  Lemma y_roman r o t : r <> [] -> forallb is_roman_digit r = true -> quiet is_roman_digit t -> yields (sk g_roman) o (r ++ t) r (o + utf8_len r) t.
  Proof.
    intros NE D Q. destruct (y_many1_chars known (fun c => existsb (N.eqb c) roman_chars) r o t NE D Q) as [l Y]. apply y_sk; [|unfold g_roman; eapply y_sliced; exact Y].
    apply cap_ws. rewrite <- (app_nil_r r). rewrite <- app_assoc. rewrite app_assoc. apply roman_cap. exists r, []. auto.
  Qed.
  Lemma y_chapter_id i o t : roman_text i -> yields (sk chapter_id) o (i ++ lit "." ++ t) i (o + utf8_len i) (lit "." ++ t).
  Proof.
    intros R. pose proof (cap_ws _ (roman_cap i (lit "." ++ t) R)) as W. apply y_sk; [exact W|]. destruct R as (r & v & -> & NE & D & V). unfold chapter_id. eapply y_sliced. rewrite <- app_assoc.
    destruct V as [->|(c & -> & C)].
    - cbn [app]. rewrite app_nil_r. eapply y_bind; [apply (y_roman r o (lit "." ++ t) NE D); reflexivity|]. unfold letter_suffix. eapply y_void, y_none. here.
    - eapply y_bind; [apply (y_roman r o ((lit "/" ++ [c]) ++ lit "." ++ t) NE D); reflexivity|]. rewrite <- app_assoc. unfold letter_suffix. eapply y_eq; [eapply y_void, y_some|].
      + assert (B : in_range 65 90 c = true) by (unfold in_range; rewrite andb_true_iff, !N.leb_le; lia).
        eapply y_bind; [apply y_some; exact (y_T known "/" _ _ eq_refl)|]. apply y_sk; [|cbn [app]; now apply y_chr]. cbn [app quiet].
        unfold is_ascii_ws. cbn [existsb]. rewrite !orb_false_iff, !N.eqb_neq. repeat split; lia.
      + rewrite !utf8_len_app. lia.
  Qed.

  (** ** Ordinals *)
  Fixpoint pick (l : list string) (x : str) : option (str * str) :=
    match l with [] => None | s :: l' => match strip_prefix (lit s) x with Some r => Some (lit s, r) | None => pick l' x end end.
  Lemma y_pick l x w r o : pick l x = Some (w, r) -> yields (one_of l) o x tt (o + utf8_len w) r.
  Proof.
    induction l as [|s l IH]; cbn [pick one_of]; [discriminate|]. destruct (strip_prefix (lit s) x) as [r'|] eqn:E.
    - intros H. injection H as <- <-. apply y_alt1. intros g _. unfold tok, tok_str. cbn [cu_rest cu_off]. rewrite E. reflexivity.
    - intros H. apply y_alt2; [now apply f_tok|now apply IH].
  Qed.
End Run.
Definition all_ordinals : list str := ordinals_begun ++ ordinals_in_capitals.
Lemma ordinal_in n w : capital_ordinal n w -> In w all_ordinals.
Proof. unfold all_ordinals. intros [k w' H|k w' H]; apply in_or_app; [left|right]; exact (nth_error_In _ _ H). Qed.
Lemma ordinal_table : map num_from_hungarian ordinals_begun = map (fun k => Ok (N.of_nat (S k))) (seq 0 19) /\ map num_from_hungarian ordinals_in_capitals = map (fun k => Ok (N.of_nat (S k))) (seq 0 19).
Proof. split; vm_compute; reflexivity. Qed.
Lemma ordinal_value n w : capital_ordinal n w -> num_from_hungarian w = Ok n.
Proof.
  assert (K : forall l k w, map num_from_hungarian l = map (fun k => Ok (N.of_nat (S k))) (seq 0 19) -> nth_error l k = Some w -> num_from_hungarian w = Ok (N.of_nat (S k))).
  { intros l k w' E H. assert (X : nth_error (map num_from_hungarian l) k = Some (num_from_hungarian w')) by now apply map_nth_error.
    assert (L : (k < 19)%nat). { apply (f_equal (@List.length _)) in E. rewrite !map_length, seq_length in E. rewrite <- E. apply nth_error_Some. congruence. }
    rewrite E in X. rewrite (map_nth_error _ _ (seq 0 19) (d := k)) in X; [congruence|]. rewrite (nth_error_nth' _ 0%nat) by (now rewrite seq_length). now rewrite seq_nth. }
  destruct ordinal_table as [T1 T2]. intros [k w' H|k w' H]; [exact (K _ k w' T1 H)|exact (K _ k w' T2 H)].
Qed.
Definition ordinal_starts : list (char * char) := map (fun w => match w with c :: d :: _ => (c, d) | _ => (0, 0) end) (map lit ["El"; "Má"; "Ha"; "Ne"; "Öt"; "He"; "Ny"; "Ki"; "Ti"; "EL"; "MÁ"; "HA"; "NE"; "ÖT"; "HE"; "NY"; "KI"; "TI"]%string).
Lemma ordinal_start n i : capital_ordinal n i -> exists c d u, i = c :: d :: u /\ In (c, d) ordinal_starts.
Proof.
  intros I. apply ordinal_in in I.
  assert (K : forallb (fun i => match i with c :: d :: _ => existsb (fun p => (fst p =? c) && (snd p =? d)) ordinal_starts | _ => false end) all_ordinals = true) by (vm_compute; reflexivity).
  rewrite forallb_forall in K. specialize (K i I). destruct i as [|c [|d u]]; [discriminate..|]. exists c, d, u. split; [reflexivity|]. apply existsb_exists in K as ([c' d'] & J & E). apply andb_true_iff in E as [E1 E2].
  apply N.eqb_eq in E1, E2. cbn in E1, E2. now subst.
Qed.
Lemma ordinal_cap n i t : capital_ordinal n i -> cap_first (i ++ t).
Proof.
  intros I. destruct (ordinal_start n i I) as (c & d & u & -> & J). exists c, (d :: u ++ t). split; [reflexivity|].
  assert (K : forallb (fun p => existsb (N.eqb (fst p)) caps) ordinal_starts = true) by (vm_compute; reflexivity). rewrite forallb_forall in K. specialize (K _ J). apply existsb_exists in K as (x & I' & E). apply N.eqb_eq in E. cbn in E. now subst.
Qed.
Lemma strip_spaced w : forall i t, ~ In 32 w -> strip_prefix w i = None -> strip_prefix w (i ++ 32 :: t) = None.
Proof.
  induction w as [|x w IH]; intros [|y i] t NI; cbn [strip_prefix app]; try discriminate.
  - intros _. destruct (N.eqb_spec x 32) as [->|]; [|reflexivity]. exfalso. apply NI. now left.
  - destruct (x =? y); [|auto]. apply IH. intros J. apply NI. now right.
Qed.
Lemma strip_all w i : strip_prefix w i = Some [] -> w = i.
Proof.
  revert i. induction w as [|x w IH]; intros i; cbn [strip_prefix]; [congruence|]. destruct i as [|y i]; [discriminate|]. destruct (N.eqb_spec x y) as [->|]; [|discriminate]. intros H. f_equal. now apply IH.
Qed.
Lemma pick_spaced l i t : forallb (fun s => negb (existsb (N.eqb 32) (lit s))) l = true -> pick l i = Some (i, []) -> pick l (i ++ lit " " ++ t) = Some (i, lit " " ++ t).
Proof.
  induction l as [|s l IH]; cbn [forallb pick]; [discriminate|]. intros H. apply andb_true_iff in H as [H1 H2]. destruct (strip_prefix (lit s) i) as [r|] eqn:E.
  - intros K. injection K as K1 ->. apply strip_all in E. rewrite E, strip_prefix_app. reflexivity.
  - intros K. change (lit " " ++ t) with (32 :: t). rewrite (strip_spaced (lit s) i t); [exact (IH H2 K)| |exact E]. intros J. apply negb_true_iff in H1. assert (existsb (N.eqb 32) (lit s) = true) by (apply existsb_exists; exists 32; auto). congruence.
Qed.
Definition ordinal_strings : list string :=
  ["Első"; "Második"; "Harmadik"; "Negyedik"; "Ötödik"; "Hatodik"; "Hetedik"; "Nyolcadik"; "Kilencedik"; "Tizedik";
   "Tizenegyedik"; "Tizenkettedik"; "Tizenharmadik"; "Tizennegyedik"; "Tizenötödik"; "Tizenhatodik"; "Tizenhetedik";
   "Tizennyolcadik"; "Tizenkilencedik";
   "ELSŐ"; "MÁSODIK"; "HARMADIK"; "NEGYEDIK"; "ÖTÖDIK"; "HATODIK"; "HETEDIK"; "NYOLCADIK"; "KILENCEDIK"; "TIZEDIK";
   "TIZENEGYEDIK"; "TIZENKETTEDIK"; "TIZENHARMADIK"; "TIZENNEGYEDIK"; "TIZENÖTÖDIK"; "TIZENHATODIK"; "TIZENHETEDIK";
   "TIZENNYOLCADIK"; "TIZENKILENCEDIK"]%string.
Lemma ordinal_pick n i t : capital_ordinal n i -> pick ordinal_strings (i ++ lit " " ++ t) = Some (i, lit " " ++ t).
Proof.
  intros I. apply ordinal_in in I. apply pick_spaced; [vm_compute; reflexivity|].
  assert (K : forallb (fun i => match pick ordinal_strings i with Some (w, []) => true | _ => false end) all_ordinals = true) by (vm_compute; reflexivity).
  rewrite forallb_forall in K. specialize (K i I). destruct (pick ordinal_strings i) as [[w [|]]|] eqn:E; try discriminate. f_equal. f_equal. clear - E.
  induction ordinal_strings as [|s l IH]; cbn [pick] in E; [discriminate|]. destruct (strip_prefix (lit s) i) as [r|] eqn:E'; [|now apply IH]. injection E as <- ->. now apply strip_all.
Qed.
Section Ordinals.
  Variable known : list str.
  Local Notation yields := (yields known).
  Local Notation fails := (fails known).
  Lemma y_ordinal n i o t : capital_ordinal n i -> yields (sk hungarian_ordinal_capital) o (i ++ lit " " ++ t) i (o + utf8_len i) (lit " " ++ t).
  Proof. intros I. apply y_sk; [apply cap_ws; now apply (ordinal_cap n)|]. eapply y_sliced. apply (y_pick known ordinal_strings). now apply (ordinal_pick n). Qed.
  Lemma f_ordinal_roman i o t : roman_text i -> fails (sk hungarian_ordinal_capital) o (i ++ lit "." ++ t).
  Proof.
    intros R. apply f_sk; [apply cap_ws; now apply roman_cap|]. apply f_sliced, f_one_of. destruct R as (r & v & -> & NE & D & V).
    destruct r as [|x r]; [congruence|]. cbn [forallb] in D. apply andb_true_iff in D as [D1 D2]. apply roman_char in D1.
    assert (K : exists d u, (r ++ v) ++ lit "." ++ t = d :: u /\ In d [73; 86; 88; 76; 67; 68; 77; 47; 46]).
    { destruct r as [|y r].
      - destruct V as [->|(c & -> & _)]; cbn [app]; [exists 46, t|exists 47, ([c] ++ lit "." ++ t)]; (split; [reflexivity|cbn; tauto]).
      - exists y, ((r ++ v) ++ lit "." ++ t). split; [reflexivity|]. cbn [forallb] in D2. apply andb_true_iff in D2 as [D2 _]. apply roman_char in D2. cbn [In] in *. tauto. }
    destruct K as (d & u & E & ID). cbn [app]. rewrite E. clear E. cbn [In] in D1. destruct D1 as [<-|[<-|[<-|[<-|[<-|[<-|[<-|[]]]]]]]]; try (vm_compute; reflexivity).
    cbn [In] in ID. repeat (destruct ID as [<-|ID]; [vm_compute; reflexivity|]). contradiction.
  Qed.
  Lemma f_chapter_ordinal n i o t : capital_ordinal n i -> fails (i <- sk chapter_id ;; T "." ;; sk (one_of ["fejezet"; "Fejezet"; "FEJEZET"]%string ;; many hun_any) ;; ret i) o (i ++ t).
  Proof.
    intros I. destruct (ordinal_start n i I) as (c & d & u & -> & J). cbn [app]. clear I. unfold ordinal_starts in J. cbn [map] in J.
    change (lit "El") with [69; 108] in J. cbn [In] in J.
    repeat (destruct J as [E|J]; [injection E as <- <-; here|]). contradiction.
  Qed.
End Ordinals.
