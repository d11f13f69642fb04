(** Proofs about the grammar: every rule ends, its places are in order and its captured words have their form. *)
From Verif Require Export ProofGrammar.
From Coq Require Import Lia.
Local Open Scope peg_scope.
Local Open Scope N_scope.

Lemma adv_text_lt c c' s : adv c c' -> cu_rest c = s ++ cu_rest c' -> s <> [] -> cu_off c < cu_off c'.
Proof.
  intros (w & E & ->) F N. rewrite E in F. apply app_inv_tail in F as ->. pose proof (utf8_len_pos s N). lia.
Qed.
Lemma adv_text c c' s : adv c c' -> cu_rest c = s ++ cu_rest c' -> cu_off c' = cu_off c + utf8_len s.
Proof. intros (w & E & ->) F. rewrite E in F. now apply app_inv_tail in F as ->. Qed.

Definition lt_post {A} (c : cur) (_ : A) (c' : cur) : Prop := cu_off c < cu_off c'.
Definition le_post {A} (c : cur) (_ : A) (c' : cur) : Prop := True.
Definition text_post (P : str -> Prop) (c : cur) (s : str) (c' : cur) : Prop := cu_rest c = s ++ cu_rest c' /\ P s.
Definition char_post {A} (f : char -> bool) (c : cur) (_ : A) (c' : cur) : Prop := exists x, f x = true /\ cu_rest c = x :: cu_rest c'.

Lemma chain_chars {A} f c (l : list A) c' : chain (char_post f) c l c' ->
  exists w, forallb f w = true /\ cu_rest c = w ++ cu_rest c' /\ (l <> [] -> w <> []).
Proof.
  induction 1 as [c|c a m l c' (x & Fx & E) _ _ (w & Fw & E' & _)]; [exists []; repeat split; congruence|].
  exists (x :: w). cbn. rewrite Fx, E, E'. repeat split; [exact Fw|discriminate].
Qed.

Section Rules.
  Variables (txt : str) (known0 : list str).
  Local Notation known_word := (known_word txt known0).
  Local Notation piece_of := (piece_of txt).
  Local Notation captured := (captured txt).
  Local Notation quoted := (quoted txt).
  Local Notation book_word := (book_word txt).
  Local Notation article_words := (article_words txt).
  Local Notation part_words := (part_words txt).
  Local Notation lower_words := (lower_words txt).
  Local Notation ref_words := (ref_words txt).
  Local Notation ins_words := (ins_words txt).
  Local Notation act_words := (act_words txt).
  Local Notation subtitle_words := (subtitle_words txt).
  Local Notation struct_words := (struct_words txt).
  Local Notation relative_words := (relative_words txt).
  Local Notation date_words := (date_words txt).
  Local Notation ordinal_words := (ordinal_words txt).
  Local Notation ed_date_words := (ed_date_words txt).
  Local Notation ed_words := (ed_words txt).
  Local Notation ta_words := (ta_words txt).
  Local Notation simple_words := (simple_words txt).
  Local Notation root_words := (root_words txt).
  Local Notation good := (good txt known_word known0 (exists s, introduces txt s) struct_words).
  Local Notation placed := (placed txt).

  Lemma placed_boundary c : placed c -> boundary txt (cu_off c).
  Proof. intros (w & E & F). exists w, (cu_rest c). split; [exact E|]. cbn in F. now rewrite F. Qed.

  (** *** Tactics *)
  Ltac advs := repeat match goal with H : adv _ _ |- _ => apply adv_le in H end.
  Ltac crack := repeat match goal with
    | H : exists _, _ |- _ => destruct H
    | H : _ /\ _ |- _ => destruct H
    | H : _ \/ _ |- _ => destruct H
    | H : lt_post _ _ _ |- _ => unfold lt_post in H
    | H : le_post _ _ _ |- _ => clear H
    | H : False |- _ => destruct H
    | H : True |- _ => clear H
    | H : match ?o with Some _ => _ | None => _ end |- _ => is_var o; destruct o
    | H : ?x = ?y |- _ => first [is_var x; subst x | is_var y; subst y]
    | u : unit |- _ => destruct u
    end.
  Ltac off := unfold lt_post, le_post; crack; try exact I; advs; try lia.

  Lemma good_sk {A} k (p : parser A) Q : good k p Q ->
    good k (sk p) (fun c a c' => exists m w, spaces w /\ cu_rest c = w ++ cu_rest m /\ adv c m /\ placed m /\ Q m a c' /\ adv m c').
  Proof.
    intros H. unfold sk. eapply good_weaken.
    { eapply good_bind; [apply good_ws|]. intros a. exact H. }
    cbn beta. intros c a c' P Ad (u & m & (w & B & E) & Ad1 & HQ & Ad2). exists m, w. split.
    { unfold spaces. apply Forall_forall. intros x I. rewrite forallb_forall in B. specialize (B x I). unfold is_ascii_ws in B.
      apply existsb_exists in B as (y & I' & Ey). apply N.eqb_eq in Ey as ->. exact I'. }
    repeat split; try assumption. exact (placed_adv _ _ _ P Ad1).
  Qed.
  Lemma good_tok k s : good k (tok s) (fun c _ c' => cu_rest c = lit s ++ cu_rest c').
  Proof. apply good_tok_str. Qed.
  Lemma good_tok_lt k s : lit s <> [] -> good k (tok s) (fun c _ c' => cu_rest c = lit s ++ cu_rest c' /\ cu_off c < cu_off c').
  Proof.
    intros N. eapply good_weaken; [apply good_tok|]. cbn beta. intros c a c' P Ad E. split; [exact E|].
    exact (adv_text_lt _ _ _ Ad E N).
  Qed.
  Lemma good_T k s : lit s <> [] -> good k (T s) (fun c _ c' => exists m w, spaces w /\ cu_rest c = w ++ cu_rest m /\ adv c m /\
    cu_rest m = lit s ++ cu_rest c' /\ cu_off m < cu_off c').
  Proof.
    intros N. unfold T. eapply good_weaken; [apply good_sk, good_tok_lt, N|]. cbn beta.
    intros c a c' P Ad (m & w & B & E & Ad1 & _ & (F & L) & _). exists m, w. repeat split; assumption.
  Qed.
  Lemma good_chr_if k f : good k (chr_if f) (fun c u c' => char_post f c u c' /\ cu_off c < cu_off c').
  Proof.
    eapply good_weaken; [apply good_one|]. cbn beta. intros c a c' P Ad (x & F & E). split; [now exists x|].
    apply (adv_text_lt _ _ [x] Ad); [exact E|discriminate].
  Qed.
  Lemma good_any k : good k any (fun c u c' => cu_off c < cu_off c').
  Proof. eapply good_weaken; [apply good_chr_if|]. cbn beta. tauto. Qed.
  Lemma one_of_post k l : Forall (fun s => lit s <> []) l ->
    good k (one_of l) (fun c _ c' => exists s, In s l /\ cu_rest c = lit s ++ cu_rest c' /\ cu_off c < cu_off c').
  Proof.
    induction l as [|s l IH]; intros F; cbn [one_of].
    - eapply good_weaken; [apply good_fail|]. cbn beta. tauto.
    - inversion F as [|? ? F1 F2]; subst. eapply good_weaken; [eapply good_alt; [apply good_tok_lt, F1|apply IH, F2]|].
      cbn beta. intros c a c' P Ad [(E & L)|(s' & I & E & L)]; [exists s|exists s']; repeat split; try assumption; [now left|now right].
  Qed.
  Lemma one_of_sk_post k l : Forall (fun s => lit s <> []) l -> good k (one_of_sk l) lt_post.
  Proof.
    induction l as [|s l IH]; intros F; cbn [one_of_sk].
    - eapply good_weaken; [apply good_fail|]. cbn beta. tauto.
    - inversion F as [|? ? F1 F2]; subst. eapply good_weaken; [eapply good_alt; [apply good_T, F1|apply IH, F2]|].
      cbn beta. intros c a c' P Ad H. off.
  Qed.
  Ltac nonempty := first [discriminate | (vm_compute; discriminate) | (repeat (constructor; [vm_compute; discriminate|]); constructor)].

  (** Finding the property that a parser has by its form; named rules have lemmas. *)
  Create HintDb peg discriminated.
  Hint Constants Opaque : peg.
  Ltac peg :=
    lazymatch goal with
    | |- good _ (pbind _ _) _ => eapply good_bind; [peg|intros; cbv beta; peg]
    | |- good _ (alt _ _) _ => eapply good_alt; [peg|peg]
    | |- good _ (opt _) _ => eapply good_opt; peg
    | |- good _ (not_ahead _) _ => eapply good_not_ahead; peg
    | |- good _ (ahead _) _ => eapply good_ahead; peg
    | |- good _ (void _) _ => eapply good_void; peg
    | |- good _ (sliced _) _ => eapply good_sliced; peg
    | |- good _ (located _) _ => eapply good_located; peg
    | |- good _ (ret _) _ => apply good_ret
    | |- good _ (sk _) _ => eapply good_sk; peg
    | |- good _ (T _) _ => apply good_T; nonempty
    | |- good _ (tok _) _ => apply good_tok_lt; nonempty
    | |- good _ (chr_if _) _ => apply good_chr_if
    | |- good _ any _ => apply good_any
    | |- good _ eoi _ => apply good_eoi
    | |- good _ (one_of _) _ => apply one_of_post; nonempty
    | |- good _ (one_of_sk _) _ => apply one_of_sk_post; nonempty
    | |- good _ (many _) _ => eapply good_many; [peg|cbv beta; intros; off]
    | |- good _ (many1 _) _ => eapply good_many1; [peg|cbv beta; intros; off]
    | |- good ?k ?p _ => let H := fresh in eassert (H : good k p _) by (solve [eauto 2 with peg]); exact H
    end.
  (** A rule of which only the length matters *)
  Ltac rule := intros; eapply good_weaken; [peg|cbv beta; intros; off].

  Lemma r_hun_lower k : good k hun_lower lt_post. Proof. unfold hun_lower. rule. Qed.
  Lemma r_hun_any k : good k hun_any lt_post. Proof. unfold hun_any. rule. Qed.
  Lemma r_dash k : good k dash lt_post. Proof. unfold dash. rule. Qed.
  Lemma r_upper_az k : good k upper_az (fun c u c' => char_post (in_range 65 90) c u c' /\ cu_off c < cu_off c').
  Proof. apply good_chr_if. Qed.
  Lemma r_lower_az k : good k lower_az (fun c u c' => char_post (in_range 97 122) c u c' /\ cu_off c < cu_off c').
  Proof. apply good_chr_if. Qed.
  Hint Resolve r_hun_lower r_hun_any r_dash r_upper_az r_lower_az : peg.
  Lemma r_az k : good k g_az lt_post. Proof. unfold g_az. rule. Qed.
  Lemma r_az_upper k : good k g_az_upper lt_post. Proof. unfold g_az_upper. rule. Qed.
  Hint Resolve r_az r_az_upper : peg.
  Lemma r_az_any k : good k g_az_any lt_post. Proof. unfold g_az_any. rule. Qed.
  Hint Resolve r_az_any : peg.

  Definition word_post (W : str -> Prop) (c : cur) (s : str) (c' : cur) : Prop :=
    W s /\ cu_rest c = s ++ cu_rest c' /\ cu_off c < cu_off c'.
  Lemma rest_piece m s m' : placed m -> cu_rest m = s ++ cu_rest m' -> piece_of s.
  Proof. intros (w & E & _) F. exists w, (cu_rest m'). now rewrite <- F. Qed.
  Lemma word_captured W m s m' : placed m -> word_post W m s m' -> captured W s /\ cu_off m < cu_off m'.
  Proof. intros P (H & E & L). split; [split; [exact H|exact (rest_piece _ _ _ P E)]|exact L]. Qed.
  Ltac cap := repeat match goal with P : placed ?m, H : word_post ?W ?m ?s ?m' |- _ => apply (word_captured _ _ _ _ P) in H end.
  Lemma many_chars k f (W : str -> Prop) : (forall w, w <> [] -> forallb f w = true -> W w) ->
    good k (sliced (many1 (chr_if f))) (word_post W).
  Proof.
    intros H. eapply good_weaken; [peg|]. cbv beta. intros c s c' P Ad (E & l & N & C).
    assert (X : chain (char_post f) c l c').
    { clear - C. induction C as [|c a m l c' [Q _] A _ IH]; [constructor|]. econstructor; eassumption. }
    apply chain_chars in X as (w & F & E' & N'). rewrite E' in E. apply app_inv_tail in E as ->.
    split; [now apply H; [apply N'|]|]. split; [exact E'|]. apply (adv_text_lt _ _ s Ad E'). now apply N'.
  Qed.
  Lemma in_range_spec a b c : in_range a b c = true <-> a <= c <= b.
  Proof. unfold in_range. rewrite Bool.andb_true_iff, !N.leb_le. reflexivity. Qed.
  Lemma existsb_in (l : str) c : existsb (N.eqb c) l = true <-> In c l.
  Proof.
    rewrite existsb_exists. split.
    - intros (y & I & E). now apply N.eqb_eq in E as ->.
    - intros I. exists c. split; [exact I|apply N.eqb_refl].
  Qed.
  Lemma forallb_Forall {X} (f : X -> bool) (Q : X -> Prop) l : (forall x, f x = true -> Q x) -> forallb f l = true -> Forall Q l.
  Proof. intros H F. rewrite forallb_forall in F. apply Forall_forall. auto. Qed.
  Lemma r_number k : good k g_number (word_post number_word).
  Proof.
    apply many_chars. intros w N F. split; [exact N|]. refine (forallb_Forall _ _ _ _ F). intros x. apply in_range_spec.
  Qed.
  Lemma r_roman k : good k g_roman (word_post roman_word).
  Proof.
    apply many_chars. intros w N F. split; [exact N|]. refine (forallb_Forall _ _ _ _ F). intros x. apply existsb_in.
  Qed.
  Lemma word_lt W c s c' : word_post W c s c' -> cu_off c < cu_off c'.
  Proof. intros (_ & _ & H). exact H. Qed.
  Hint Resolve r_number r_roman : peg.
  Ltac words := repeat match goal with H : word_post _ _ _ _ |- _ => apply word_lt in H end.
  Ltac off ::= unfold lt_post, le_post; crack; words; try exact I; advs; try lia.
  Lemma r_word_char k : good k word_char lt_post. Proof. unfold word_char. rule. Qed.
  Hint Resolve r_word_char : peg.
  Lemma chain_some_lt {A} (Q : cur -> A -> cur -> Prop) c (l : list A) c' : (forall c a c', Q c a c' -> adv c c' -> cu_off c < cu_off c') -> l <> [] -> chain Q c l c' -> cu_off c < cu_off c'.
  Proof using. intros H N C. destruct C as [|c a m l c' HQ Ad C]; [congruence|]. pose proof (H _ _ _ HQ Ad). pose proof (chain_le _ _ _ _ C). lia. Qed.
  Lemma r_many1_lt {A} k (p : parser A) : good k p lt_post -> good k (many1 p) (fun c l c' => l <> [] /\ chain lt_post c l c' /\ cu_off c < cu_off c').
  Proof.
    intros H. eapply good_weaken; [eapply good_many1; [exact H|]|].
    - intros. assumption.
    - cbv beta. intros c l c' P Ad (N & C). split; [exact N|]. split; [exact C|]. apply (chain_some_lt _ _ _ _ (fun _ _ _ h _ => h) N C).
  Qed.
  Lemma r_word k : good k g_word lt_post.
  Proof. unfold g_word. eapply good_weaken; [eapply good_void, r_many1_lt; peg|]. cbv beta. intros. off. Qed.
  Lemma r_capitalized_word k : good k capitalized_word lt_post. Proof. unfold capitalized_word. rule. Qed.
  Hint Resolve r_word r_capitalized_word : peg.
  Lemma r_any_token k : good k any_token lt_post. Proof. unfold any_token. rule. Qed.
  Hint Resolve r_any_token : peg.
  Lemma r_number_with_dot k : good k number_with_dot (fun c s c' => captured number_word s /\ cu_off c < cu_off c').
  Proof. unfold number_with_dot. eapply good_weaken; [peg|]. cbv beta. intros c s c' P Ad H. crack. cap. crack. split; [assumption|]. advs. lia. Qed.
  Hint Resolve r_number_with_dot : peg.
  Lemma sliced_one_of k l : Forall (fun s => lit s <> []) l -> good k (sliced (one_of l)) (word_post (fun s => In s (map lit l))).
  Proof.
    intros F. eapply good_weaken; [eapply good_sliced, one_of_post, F|]. cbv beta. intros c s c' P Ad (E & u & x & I & E' & L).
    rewrite E' in E. apply app_inv_tail in E as <-. split; [now apply in_map|]. now split.
  Qed.
  Lemma r_month k : good k g_month (word_post (fun s => In s months)). Proof. apply sliced_one_of. nonempty. Qed.
  Lemma r_hungarian_ordinal k : good k hungarian_ordinal (word_post (fun s => In s ordinals)). Proof. apply sliced_one_of. nonempty. Qed.
  Lemma r_hungarian_ordinal_capital k : good k hungarian_ordinal_capital (word_post (fun s => In s capital_ordinals)).
  Proof. apply sliced_one_of. nonempty. Qed.
  Hint Resolve r_month r_hungarian_ordinal r_hungarian_ordinal_capital : peg.
  Lemma r_date k : good k g_date_rule (fun c d c' => date_words d /\ cu_off c < cu_off c').
  Proof.
    unfold g_date_rule. eapply good_weaken; [peg|]. cbv beta. intros c d c' P Ad H. crack; cap; crack;
    (split; [refine (conj _ (conj _ _)); assumption|]; unfold lt_post in *; advs; lia).
  Qed.
  Hint Resolve r_date : peg.

  (** *** Quotes and lists *)
  Lemma r_quote_mark k : good k quote_mark lt_post. Proof. unfold quote_mark. rule. Qed.
  Hint Resolve r_quote_mark : peg.
  Lemma r_unquoted k : good k unquoted le_post. Proof. unfold unquoted. rule. Qed.
  Hint Resolve r_unquoted : peg.
  Lemma good_less {A} k k' (p : parser A) Q : good k p Q -> (k' <= k)%nat -> good k' p Q.
  Proof. intros H L c g P L' G. apply H; [exact P|lia|exact G]. Qed.
  (** After a strict step there is less left. *)
  Lemma good_bind_lt {A B} k (p : parser A) (f : A -> parser B) R :
    good (S k) p lt_post -> (forall a, good k (f a) R) -> good (S k) (pbind p f) (fun c b c' => cu_off c < cu_off c').
  Proof.
    intros H F c g P L G. specialize (H c g P L G). unfold pbind, post in *. destruct (p c g) as [[[a m]| |] g']; try exact H.
    destruct H as (G' & Ad & HQ). unfold lt_post in HQ.
    specialize (F a m g' (placed_adv _ _ _ P Ad) ltac:(pose proof (adv_lt_length _ _ Ad HQ); lia) G'). unfold post in F.
    destruct (f a m g') as [[[b c']| |] g'']; try exact F. destruct F as (G'' & Ad' & HR).
    split; [exact G''|]. split; [exact (adv_trans _ _ _ Ad Ad')|]. apply adv_le in Ad'. lia.
  Qed.
  Lemma r_quote_inner_n k : good k (quote_inner_n (S k)) le_post.
  Proof.
    induction k as [|k IH].
    - cbn [quote_inner_n]. eapply good_weaken; [|intros; exact I]. eapply good_bind; [peg|]. intros ?. eapply good_void.
      apply (good_many _ _ _ _ _ _ _ (fun c _ c' => cu_off c < cu_off c')); [|intros; assumption].
      intros c g P L G. destruct (cu_rest c) as [|x r] eqn:E; [|cbn in L; lia].
      unfold T, sk, ws, tok, tok_str, pbind. rewrite E. cbn [span]. cbn [advance cu_rest].
      replace (strip_prefix (lit "„") []) with (@None str) by (vm_compute; reflexivity). exact G.
    - cbn [quote_inner_n]. eapply good_weaken; [|intros; exact I]. eapply good_bind; [peg|]. intros ?. eapply good_void.
      apply (good_many _ _ _ _ _ _ _ (fun c _ c' => cu_off c < cu_off c')); [|intros; assumption].
      eapply good_bind_lt; [rule|]. intros ?. eapply good_bind; [eapply good_sk; exact IH|]. intros ?. cbv beta. peg.
  Qed.
  Lemma r_quote_inner k : good k quote_inner (fun c s c' => cu_rest c = s ++ cu_rest c').
  Proof.
    intros c g P L G. unfold quote_inner.
    assert (H : good (List.length (cu_rest c)) (sliced (quote_inner_n (S (List.length (cu_rest c))))) (fun c s c' => cu_rest c = s ++ cu_rest c')).
    { eapply good_weaken; [eapply good_sliced, r_quote_inner_n|]. cbv beta. intros. crack. assumption. }
    apply H; [exact P|lia|exact G].
  Qed.
  Hint Resolve r_quote_inner : peg.
  Lemma r_quote k : good k g_quote (fun c s c' => quoted s /\ cu_off c < cu_off c').
  Proof.
    unfold g_quote. eapply good_weaken; [peg|]. cbv beta.
    intros c s c' P Ad (u & m & (m0 & w0 & _ & _ & A0 & E0 & L0) & A1 & (q & m1 & (m2 & w2 & B2 & E2 & A2 & P2 & E3 & A3) & A4 & (u2 & m3 & (m4 & w4 & B4 & E4 & A5 & F4 & L4) & A6 & (-> & ->) & _) & _) & _).
    split; [|advs; lia]. destruct (placed_adv _ _ _ P A0) as (pre & E & _). exists pre, w2, w4, (cu_rest m3). cbn in E.
    split; [|now split]. rewrite E, E0, E2, E3, E4, F4. reflexivity.
  Qed.
  Lemma quoted_piece s : quoted s -> piece_of s.
  Proof. intros (pre & w & x & post & E & _). exists (pre ++ lit "„" ++ w), (x ++ lit "”" ++ post). now rewrite E, <- !app_assoc. Qed.
  Hint Resolve r_quote : peg.
  Lemma r_list_separator k : good k list_separator lt_post. Proof. unfold list_separator. rule. Qed.
  Hint Resolve r_list_separator : peg.
  Lemma r_suffixed k s : lit s <> [] -> good k (suffixed s) lt_post. Proof. intros N. unfold suffixed. eapply good_weaken; [eapply good_bind; [apply good_tok_lt, N|intros; peg]|cbv beta; intros; off]. Qed.
  Hint Extern 1 (ProofGrammar.good _ _ _ _ _ _ (suffixed _) _) => apply r_suffixed; vm_compute; discriminate : peg.
  Definition sep_post {A} (Q : cur -> A -> cur -> Prop) (c : cur) (l : list A) (c' : cur) : Prop :=
    l <> [] /\ chain (fun c a c' => exists m, adv c m /\ placed m /\ Q m a c' /\ adv m c') c l c'.
  Lemma r_sep_list {A} k (p : parser A) Q : good k p Q -> (forall c a c', Q c a c' -> cu_off c < cu_off c') -> good k (sep_list p) (sep_post Q).
  Proof.
    intros H S. unfold sep_list. eapply good_weaken.
    { eapply good_bind; [eapply good_sk, H|]. intros x. eapply good_bind.
      { eapply good_many; [eapply good_bind; [peg|intros ?; eapply good_sk, H]|]. cbv beta. intros. crack.
        match goal with HQ : Q _ _ _ |- _ => apply S in HQ end. advs. lia. }
      intros l. apply good_ret. }
    cbv beta. intros c l c' P Ad (x & m & (m0 & w & _ & _ & A1 & P1 & Q1 & A2) & A3 & (l' & m' & C & A4 & (-> & ->) & _) & _).
    split; [discriminate|]. econstructor; [exists m0; repeat split; try eassumption|exact A3|].
    clear - C. induction C as [|c a m l c' HQ Ac _ IH]; [constructor|]. econstructor; [|exact Ac|exact IH].
    destruct HQ as (u & m1 & _ & A1 & (m0 & w & _ & _ & A2 & P2 & Q2 & A3) & A4). exists m0.
    split; [exact (adv_trans _ _ _ A1 A2)|]. split; [exact P2|]. now split.
  Qed.
  Lemma sep_lt {A} (Q : cur -> A -> cur -> Prop) c (l : list A) c' : (forall c a c', Q c a c' -> cu_off c < cu_off c') -> sep_post Q c l c' -> cu_off c < cu_off c'.
  Proof.
    intros H (N & C). refine (chain_some_lt _ _ _ _ _ N C). intros c0 a c1 (m & A1 & _ & h & _) _. apply H in h. apply adv_le in A1. lia.
  Qed.

  (** *** Places of events *)
  Definition ev_in (lo hi : N) (evs : list ref_event) : Prop :=
    in_order lo evs /\ after evs lo <= hi /\ Forall (event_boundary txt) evs.
  Lemma in_order_le evs : forall lo lo', lo' <= lo -> in_order lo evs -> in_order lo' evs.
  Proof. induction evs as [|[p a|e|] evs IH]; cbn; intros lo lo' L H; [exact I| | |]; try (destruct H as [H H']; split; [lia|exact H']). exact (IH _ _ L H). Qed.
  Lemma after_le evs : forall lo lo', lo' <= lo -> after evs lo' <= after evs lo.
  Proof. unfold after. induction evs as [|[p a|e|] evs IH]; cbn; intros lo lo' L; [exact L| | |]; try lia. now apply IH. Qed.
  Lemma in_order_after evs : forall lo, in_order lo evs -> lo <= after evs lo.
  Proof. unfold after. induction evs as [|[p a|e|] evs IH]; cbn; intros lo H; [lia| | |now apply IH]; destruct H as [H H']; apply IH in H'; lia. Qed.
  Lemma in_order_app a : forall lo b, in_order lo (a ++ b) <-> in_order lo a /\ in_order (after a lo) b.
  Proof. unfold after. induction a as [|[p x|e|] a IH]; intros lo b; cbn [app in_order fold_left]; [tauto| | |apply IH]; rewrite IH; tauto. Qed.
  Lemma after_app a b lo : after (a ++ b) lo = after b (after a lo).
  Proof. apply fold_left_app. Qed.
  Lemma ev_nil lo hi : lo <= hi -> ev_in lo hi [].
  Proof. intros L. split; [exact I|]. split; [exact L|constructor]. Qed.
  Lemma ev_app lo m hi a b : ev_in lo m a -> ev_in m hi b -> ev_in lo hi (a ++ b).
  Proof.
    intros (A1 & A2 & A3) (B1 & B2 & B3). split; [apply in_order_app; split; [exact A1|exact (in_order_le _ _ _ A2 B1)]|].
    split; [rewrite after_app; pose proof (after_le b _ _ A2); lia|]. now apply Forall_app.
  Qed.
  Lemma ev_weaken lo hi lo' hi' a : lo' <= lo -> hi <= hi' -> ev_in lo hi a -> ev_in lo' hi' a.
  Proof.
    intros L1 L2 (A1 & A2 & A3). split; [exact (in_order_le _ _ _ L1 A1)|]. split; [pose proof (after_le a _ _ L1); lia|exact A3].
  Qed.
  Lemma ev_rec lo hi a : ev_in lo hi a -> ev_in lo hi (EvRecord :: a).
  Proof. intros (A1 & A2 & A3). split; [exact A1|]. split; [exact A2|]. constructor; [exact I|exact A3]. Qed.
  Lemma ev_part c c' x : placed c -> placed c' -> cu_off c < cu_off c' ->
    ev_in (cu_off c) (cu_off c') [EvPart (ModelSem.mkPos (cu_off c) (cu_off c')) x].
  Proof.
    intros P P' L. split; [cbn; split; [lia|exact I]|]. split; [cbn; lia|]. constructor; [|constructor].
    split; now apply placed_boundary.
  Qed.
  Lemma ev_end lo c : placed c -> lo <= cu_off c -> ev_in lo (cu_off c) [EvEnd (cu_off c); EvRecord].
  Proof. intros P L. split; [cbn; split; [lia|exact I]|]. split; [cbn; lia|]. repeat constructor. now apply placed_boundary. Qed.
  Lemma sep_events {A} (f : A -> list ref_event) (Q : cur -> A -> cur -> Prop) c l c' :
    (forall c a c', placed c -> adv c c' -> Q c a c' -> ev_in (cu_off c) (cu_off c') (f a)) ->
    chain (fun c a c' => exists m, adv c m /\ placed m /\ Q m a c' /\ adv m c') c l c' -> ev_in (cu_off c) (cu_off c') (separated f l).
  Proof.
    intros H C. induction C as [c|c a m l c' (m0 & A1 & P1 & HQ & A2) A3 C IH]; [apply ev_nil; lia|].
    specialize (H _ _ _ P1 A2 HQ). apply (ev_weaken _ _ (cu_off c) (cu_off m)) in H; [|now apply adv_le|lia].
    destruct l as [|b l].
    - apply chain_le in C. exact (ev_weaken _ _ _ _ _ (N.le_refl _) C H).
    - apply (ev_app _ _ _ _ _ H). apply ev_rec. exact IH.
  Qed.
  Lemma flat_events {A} (f : A -> list ref_event) (Q : cur -> A -> cur -> Prop) c l c' :
    (forall c a c', Q c a c' -> ev_in (cu_off c) (cu_off c') (f a)) -> chain Q c l c' -> ev_in (cu_off c) (cu_off c') (flat_map f l).
  Proof.
    intros H C. induction C as [c|c a m l c' HQ A3 C IH]; [apply ev_nil; lia|]. cbn [flat_map].
    exact (ev_app _ _ _ _ _ (H _ _ _ HQ) IH).
  Qed.
  Lemma chain_forall {A} (P : A -> Prop) (Q : cur -> A -> cur -> Prop) c l c' : (forall c a c', Q c a c' -> P a) -> chain Q c l c' -> Forall P l.
  Proof. intros H C. induction C as [c|c a m l c' HQ A3 C IH]; constructor; [exact (H _ _ _ HQ)|exact IH]. Qed.

  (** *** Acts *)
  Lemma r_act_suffix k : good k act_suffix lt_post.
  Proof. unfold act_suffix. rule. Qed.
  Hint Resolve r_act_suffix : peg.
  Definition act_id_post (c : cur) (a : g_act_id) (c' : cur) : Prop :=
    captured number_word (gai_year a) /\ captured roman_word (gai_number a) /\ gai_pos a = ModelSem.mkPos (cu_off c) (cu_off c') /\ cu_off c < cu_off c'.
  Lemma r_act_id k : good k g_act_id_rule act_id_post.
  Proof.
    unfold g_act_id_rule. eapply good_weaken; [peg|]. cbv beta. intros c a c' P Ad H. crack. cap. crack.
    refine (conj _ (conj _ (conj _ _))); [assumption|assumption|reflexivity|]. unfold lt_post in *. advs. lia.
  Qed.
  Hint Resolve r_act_id : peg.
  Lemma r_potential_abbreviation k : good k potential_abbreviation
    (fun c s c' => s <> [] /\ ~ In (chr ")") s /\ cu_rest c = s ++ cu_rest c' /\ cu_off c < cu_off c').
  Proof.
    unfold potential_abbreviation. eapply good_weaken.
    { eapply good_sliced. apply (good_many1 _ _ _ _ _ _ _ (fun c (_ : unit) c' => exists x, x <> chr ")" /\ cu_rest c = x :: cu_rest c' /\ cu_off c < cu_off c')).
      - intros c g P L G. unfold not_ahead, pbind, tok, tok_str, any, chr_if. destruct (cu_rest c) as [|x r] eqn:E.
        + replace (strip_prefix (lit ")") []) with (@None str) by (vm_compute; reflexivity). cbn. rewrite E. exact G.
        + destruct (strip_prefix (lit ")") (x :: r)) as [y|] eqn:F; [exact G|]. cbn. rewrite E. split; [exact G|].
          assert (Ad : adv c (advance [x] r c)) by (apply adv_advance; now rewrite E).
          split; [exact Ad|]. exists x. split; [|split; [exact E|]].
          * intros ->. assert (X : strip_prefix (lit ")") (chr ")" :: r) = Some r) by (apply strip_prefix_some; reflexivity). congruence.
          * apply (adv_text_lt _ _ [x] Ad); [now rewrite E|discriminate].
      - intros c a c' _ _ (x & _ & _ & L). exact L. }
    cbv beta. intros c s c' P Ad (E & l & N & C).
    assert (X : exists w, ~ In (chr ")") w /\ cu_rest c = w ++ cu_rest c' /\ (l <> [] -> w <> [])).
    { clear - C. induction C as [c|c a m l c' (x & Nx & E & _) _ _ (w & Fw & E' & _)]; [exists []; repeat split; [easy|congruence]|].
      exists (x :: w). rewrite E, E'. repeat split; [|discriminate]. intros [F|F]; [now subst|easy]. }
    destruct X as (w & Nw & E' & N'). rewrite E' in E. apply app_inv_tail in E as <-. specialize (N' N).
    refine (conj N' (conj Nw (conj E' _))). exact (adv_text_lt _ _ _ Ad E' N').
  Qed.
  Hint Resolve r_potential_abbreviation : peg.
  Definition act_ref_post (c : cur) (a : g_act_ref) (c' : cur) : Prop :=
    act_words known_word a /\ cu_off c < cu_off c' /\ forall rf m, ev_in (cu_off c) (cu_off c') (act_events_of rf m a).
  Lemma r_act_word k : good k act_suffix (fun c _ c' => exists s, act_word s /\ cu_rest c = s ++ cu_rest c').
  Proof.
    unfold act_suffix. eapply good_weaken.
    { eapply good_alt; [eapply good_bind; [peg|intros ?; eapply good_void; unfold hun_lower; apply (good_many1 _ _ _ _ _ _ _ _ (good_chr_if _ _)); cbv beta; intros; off]|peg]. }
    cbv beta. intros c u c' P Ad [(u1 & m & (E & _) & _ & (l & N & C) & _)|(E & _)]; [|exists (lit "tv."); split; [constructor|exact E]].
    assert (X : chain (char_post is_hun_lower) m l c').
    { clear - C. induction C as [|c a m l c' [Q _] A _ IH]; [constructor|]. econstructor; eassumption. }
    apply chain_chars in X as (w & F & E' & N'). exists (lit "törvén" ++ w). rewrite E, E', <- app_assoc. split; [constructor; [now apply N'|]|reflexivity].
    refine (forallb_Forall _ _ _ _ F). intros x H. unfold is_hun_lower in H. apply orb_true_iff in H as [H|H]; [left; now apply in_range_spec|right; now apply existsb_in].
  Qed.
  Lemma adv_piece c c' : adv c c' -> exists w, cu_rest c = w ++ cu_rest c'.
  Proof. intros (w & E & _). now exists w. Qed.
  Lemma r_act_id_word k : good k g_act_id_rule (fun c _ c' => exists pre s, act_word s /\ cu_rest c = pre ++ s ++ cu_rest c').
  Proof.
    unfold g_act_id_rule. eapply good_weaken.
    { eapply good_located. do 5 (eapply good_bind; [peg|intros ?]). eapply good_bind; [eapply good_sk, r_act_word|intros ?; peg]. }
    cbv beta. intros c a c' P Ad (f & (a1 & m1 & _ & A1 & (a2 & m2 & _ & A2 & (a3 & m3 & _ & A3 & (a4 & m4 & _ & A4 & (a5 & m5 & _ & A5 & (a6 & m6 & (m7 & w & _ & E7 & A7 & _ & (s & S & E) & _) & _ & (-> & ->) & _) & _) & _) & _) & _) & _) & ->).
    destruct (adv_piece _ _ (adv_trans _ _ _ A1 (adv_trans _ _ _ A2 (adv_trans _ _ _ A3 (adv_trans _ _ _ A4 (adv_trans _ _ _ A5 A7)))))) as (pre & EP). exists pre, s. split; [exact S|]. rewrite EP, E. reflexivity.
  Qed.
  Definition not_white_first (s : str) : Prop := ~ (exists c k', s = c :: k' /\ spaces [c]).
  Lemma skipped c g x c' g' : ws c g = (Ok (x, c'), g') -> not_white_first (cu_rest c').
  Proof.
    unfold ws. destruct (span is_ascii_ws (cu_rest c)) as [w r] eqn:E. intros H. injection H as _ <- _. cbn [advance cu_rest]. intros (y & k & EK & S). subst r.
    assert (X : is_ascii_ws y = false).
    { clear - E. revert w E. induction (cu_rest c) as [|z l IH]; cbn [span]; intros w E; [discriminate|]. destruct (is_ascii_ws z) eqn:Z; [destruct (span is_ascii_ws l) as [a b]; injection E as <- ->; now apply (IH a)|]. injection E as _ -> _. exact Z. }
    apply Forall_inv in S. unfold is_ascii_ws in X. assert (Y := proj2 (existsb_in [32; 9; 10; 12; 13] y) S). congruence.
  Qed.
  Lemma good_sk_first {A} k (p : parser A) Q : good k p Q ->
    good k (sk p) (fun c a c' => exists m w, spaces w /\ cu_rest c = w ++ cu_rest m /\ not_white_first (cu_rest m) /\ Q m a c').
  Proof.
    intros H. unfold sk. eapply good_weaken.
    { eapply good_bind; [eapply good_fact; [apply good_ws|exact skipped]|]. intros a. exact H. }
    cbv beta. intros c a c' P Ad (u & m & ((w & B & E) & F) & Ad1 & HQ & Ad2). exists m, w. split; [|auto].
    refine (forallb_Forall _ _ _ _ B). intros x X. now apply existsb_in.
  Qed.
  Lemma span_white v x u : spaces v -> is_ascii_ws x = false -> span is_ascii_ws (v ++ x :: u) = (v, x :: u).
  Proof.
    intros V X. induction V as [|y v Y V IH]; cbn [app span]; [now rewrite X|]. rewrite IH. assert (E : is_ascii_ws y = true) by now apply existsb_in. now rewrite E.
  Qed.
  Lemma colon_fact c g o c' g' : opt (T ":") c g = (Ok (o, c'), g') -> o = None -> forall v u, cu_rest c = v ++ lit ":" ++ u -> ~ spaces v.
  Proof.
    intros H -> v u E S. revert H. unfold opt, T, sk, pbind, ws. rewrite E. change (lit ":" ++ u) with (58 :: u). rewrite (span_white v 58 u S eq_refl). unfold tok, tok_str. cbn [advance cu_rest].
    change (strip_prefix (lit ":") (58 :: u)) with (Some u). discriminate.
  Qed.
  Lemma many_n_stops {A} (p : parser A) n : forall c g l c' g', many_n n p c g = (Ok (l, c'), g') -> exists g1 g2, p c' g1 = (Err, g2).
  Proof.
    induction n as [|n IH]; intros c g l c' g' H; cbn [many_n] in H; [discriminate|]. destruct (p c g) as [[[a m]| |] g1] eqn:E; [|injection H as _ <- _; eauto|discriminate].
    destruct (many_n n p m g1) as [[[l' m']| |] g2] eqn:M; try discriminate. injection H as _ <- _. now apply (IH m g1 l' m' g2).
  Qed.
  Lemma abbreviation_stops c g s c' g' : potential_abbreviation c g = (Ok (s, c'), g') -> forall u x, cu_rest c' = u ++ lit ")" ++ x -> spaces u -> u = [].
  Proof.
    intros H u x E S. unfold potential_abbreviation, sliced, many1, pbind at 1 in H. destruct ((not_ahead (tok ")") ;; any) c g) as [[[a m]| |] g1]; try discriminate.
    unfold pbind, many in H. destruct (many_n _ _ m g1) as [[[l m']| |] g2] eqn:M; try discriminate. injection H as _ <- _.
    apply many_n_stops in M as (g3 & g4 & M). destruct u as [|y u]; [reflexivity|]. exfalso. revert M. unfold pbind, not_ahead, tok, tok_str, any, chr_if. rewrite E. cbn [app].
    assert (X : strip_prefix (lit ")") (y :: u ++ lit ")" ++ x) = None).
    { destruct (strip_prefix (lit ")") (y :: u ++ lit ")" ++ x)) as [b|] eqn:X; [|reflexivity]. apply strip_prefix_some in X. injection X as -> _. apply Forall_inv in S. cbn in S. intuition discriminate. }
    rewrite X, E. discriminate.
  Qed.
  Definition intro_tail : parser (option str) :=
    opt (T ":") ;; x <- ((sk g_act_id_rule ;; ret None) <|> (s <- sk potential_abbreviation ;; ret (Some s))) ;; T ")" ;; ret x.
  Lemma r_intro_tail k : good k intro_tail (fun c x c' => forall s, x = Some s -> exists v colon w, cu_rest c = v ++ colon ++ w ++ s ++ lit ")" ++ cu_rest c' /\ spaces v /\ spaces w /\
    (colon = lit ":" \/ colon = [] /\ w = [] /\ ~ (exists k', s = lit ":" ++ k')) /\ s <> [] /\ ~ In (chr ")") s /\ not_white_first s).
  Proof.
    unfold intro_tail. eapply good_weaken.
    { eapply good_bind; [eapply good_fact; [peg|exact colon_fact]|intros ?]. eapply good_bind; [eapply good_alt; [peg|eapply good_bind; [eapply good_sk_first, good_fact; [apply r_potential_abbreviation|exact abbreviation_stops]|intros ?; peg]]|intros ?]. 
      eapply good_bind; [eapply good_sk_first; peg|intros ?; peg]. }
    cbv beta. intros c x c' P Ad (o & m & (HO & FO) & A1 & (y & m1 & HY & A2 & (u & m2 & (m3 & w3 & W3 & E3 & F3 & (E4 & _)) & _ & (-> & ->) & _) & _) & _) s ->.
    destruct HY as [(u5 & b7 & _ & _ & (X & _) & _)|(s' & b7 & (m5 & w5 & W5 & E5 & F5 & ((N1 & N2 & N3 & L5) & ST)) & _ & (X & ->) & _)]; [discriminate|]. injection X as <-.
    assert (E6 : w3 = []).
    { apply (ST w3 (cu_rest m2)); [now rewrite E3, E4|exact W3]. }
    subst w3. cbn [app] in E3.
    assert (NW : not_white_first s).
    { intros (z & k' & -> & Z). apply F5. rewrite N3. exists z. eexists. split; [reflexivity|exact Z]. }
    destruct o as [o|].
    - destruct HO as (y & v & V & E7 & _ & F7 & _). exists v, (lit ":"), w5. split; [now rewrite E7, F7, E5, N3, E3, E4|]. auto 10.
    - subst m. exists w5, [], []. split; [now rewrite E5, N3, E3, E4|]. split; [exact W5|]. split; [constructor|]. split; [|auto]. right. split; [reflexivity|]. split; [reflexivity|].
      intros (k' & ->). apply (FO eq_refl w5 (k' ++ cu_rest b7)); [|exact W5]. rewrite E5, N3, <- app_assoc. reflexivity.
  Qed.
  Lemma r_act_id_now k : good k act_id_with_from_now_on (fun c n c' => act_ref_post c (GActId n) c').
  Proof.
    unfold act_id_with_from_now_on. apply good_checked.
    2:{ intros c [a o] c' P Ad H s E. cbn in E. subst o. pose proof (proj2 (proj2 (proj1 H))) as K. cbn in K. split; [split; [|now right]|now exists s].
      destruct K as (? & ? & ? & ? & ? & ? & ? & ? & ? & _ & _ & _ & _ & K & _). exact K. }
    eapply good_weaken.
    { eapply good_bind; [eapply good_sk, good_and; [peg|apply r_act_id_word]|intros ?]. eapply good_bind; [|intros ?; peg].
      eapply good_opt. do 3 (eapply good_bind; [peg|intros ?]). apply r_intro_tail. }
    cbv beta.
    intros c n c' P Ad (a & m & (m0 & w0 & _ & _ & A1 & P1 & ((Y & R & Q1 & L1) & (pre & sx & AW & ES)) & A2) & A3 & (o & m1 & HO & A4 & (-> & ->) & _) & _).
    assert (L : cu_off c < cu_off m1) by (advs; lia).
    assert (EV : forall rf mm, ev_in (cu_off c) (cu_off m1) (act_events_of rf mm (GActId (mkGNow a (match o with Some x => x | None => None end))))).
    { intros rf mm. unfold act_events_of, act_position. rewrite Q1.
      apply (ev_weaken (cu_off m0) (cu_off m)); [now apply adv_le|now apply adv_le|].
      change [?a; ?b] with ([a] ++ [b]). eapply ev_app; [apply ev_part; [exact P1|exact (placed_adv _ _ _ P1 A2)|exact L1]|].
      apply ev_rec, ev_nil. lia. }
    split; [|now split]. split; [exact Y|]. split; [exact R|]. destruct o as [[s|]|]; [|exact I|exact I].
    cbn. destruct HO as (u1 & b1 & (x1 & w1 & W1 & E1 & B0 & F1 & _) & B1 & (u2 & b2 & (x2 & w2 & W2 & E2 & B2 & F2 & _) & B3 & (u3 & b3 & (x3 & w3 & W3 & E3 & B4 & F3 & _) & B5 & H4 & _) & _) & _).
    destruct (H4 s eq_refl) as (v & colon & w & E4 & V & W & C & N1 & N2 & N3).
    destruct P1 as (p0 & E & _). cbn in E. exists (p0 ++ pre), sx, w1, w2, w3, v, colon, w, (cu_rest m1).
    split; [rewrite E, ES, E1, F1, E2, F2, E3, F3, E4, <- !app_assoc; reflexivity|]. split; [exact AW|]. split; [repeat (constructor; [assumption|]); constructor|]. auto.
  Qed.
  Hint Resolve r_act_id_now : peg.
  Lemma r_abbreviation k : good k g_abbreviation act_ref_post.
  Proof.
    unfold g_abbreviation. eapply good_weaken; [eapply good_located, good_bind; [eapply good_sk, good_abbreviation_content|intros ?; apply good_ret]|].
    cbv beta. intros c a c' P Ad (f & (s & m & (m0 & w & _ & _ & A1 & P1 & (K & E) & A2) & A3 & (-> & ->) & _) & ->).
    assert (L : cu_off c < cu_off m) by (pose proof (adv_text_lt _ _ _ A2 E (proj1 K)); advs; lia).
    split; [exact K|]. split; [exact L|]. intros rf mm. unfold act_events_of. cbn [act_position].
    change [?a; ?b] with ([a] ++ [b]). eapply ev_app; [apply ev_part; [exact P|exact (placed_adv _ _ _ P A3)|exact L]|].
    apply ev_rec, ev_nil. lia.
  Qed.
  Hint Resolve r_abbreviation : peg.
  Lemma act_ref_later c c' a m : adv c m -> act_ref_post m a c' -> act_ref_post c a c'.
  Proof.
    intros A (W & L & E). split; [exact W|]. split; [advs; lia|]. intros rf mm. exact (ev_weaken _ _ _ _ _ (adv_le _ _ A) (N.le_refl _) (E rf mm)).
  Qed.
  Lemma r_act_reference k : good k act_reference act_ref_post.
  Proof.
    unfold act_reference. eapply good_weaken; [peg|]. cbv beta. intros c a c' P Ad H. crack; match goal with X : act_ref_post ?m _ _ |- _ => apply (act_ref_later _ _ _ m); [assumption|exact X] end.
  Qed.
  Hint Resolve r_act_reference : peg.

  (** *** References *)
  Lemma r_article_suffix k : good k article_suffix lt_post. Proof. unfold article_suffix. rule. Qed.
  Hint Resolve r_article_suffix : peg.
  Lemma char_in_range a b c u c' : char_post (A := unit) (in_range a b) c u c' -> exists x, a <= x <= b /\ cu_rest c = x :: cu_rest c'.
  Proof. intros (x & R & E). apply in_range_spec in R. now exists x. Qed.
  Lemma r_article_id k : good k g_article_id (word_post article_word).
  Proof.
    unfold g_article_id. eapply good_weaken; [peg|]. cbv beta.
    intros c s c' P Ad (E & o & n & m & (W & E1 & L1) & A1 & HO & A2).
    split; [|split; [exact E|advs; lia]]. destruct o as [u|].
    - destruct HO as (u1 & m1 & (E2 & _) & _ & (H2 & _) & _). apply char_in_range in H2 as (x & R & E3).
      exists n, (lit "/" ++ [x]). split; [|split; [exact W|right; now exists x]].
      rewrite E1, E2, E3 in E. apply (app_inv_tail (cu_rest c')). rewrite <- E, <- !app_assoc. reflexivity.
    - subst c'. rewrite E1 in E. apply app_inv_tail in E as <-. exists n, []. rewrite app_nil_r. repeat split; try apply W. now left.
  Qed.
  Hint Resolve r_article_id : peg.
  Lemma r_suffix_char k : good k suffix_char (fun c _ c' => exists s, letter_word s /\ cu_rest c = s ++ cu_rest c' /\ cu_off c < cu_off c').
  Proof.
    unfold suffix_char. eapply good_weaken; [peg|]. cbv beta. intros c u c' P Ad [(s & I & E & L)|(H & L)].
    - exists (lit s). split; [right; now apply in_map|now split].
    - apply char_in_range in H as (x & R & E). exists [x]. split; [left; now exists x|now split].
  Qed.
  Hint Resolve r_suffix_char : peg.
  Lemma r_paragraph_id k : good k paragraph_id_rule (word_post paragraph_word).
  Proof.
    unfold paragraph_id_rule. eapply good_weaken; [peg|]. cbv beta.
    intros c s c' P Ad (E & o & n & m & (W & E1 & L1) & A1 & HO & A2).
    split; [|split; [exact E|advs; lia]]. destruct o as [u|].
    - destruct HO as (l & Wl & E2 & _). exists n, l. split; [|split; [exact W|now right]].
      rewrite E1, E2 in E. apply (app_inv_tail (cu_rest c')). rewrite <- E, <- !app_assoc. reflexivity.
    - subst c'. rewrite E1 in E. apply app_inv_tail in E as <-. exists n, []. rewrite app_nil_r. repeat split; try apply W. now left.
  Qed.
  Lemma r_alpha_point_id k : good k alpha_point_id (word_post letter_word).
  Proof.
    unfold alpha_point_id. eapply good_weaken; [peg|]. cbv beta. intros c s c' P Ad (E & u & l & Wl & E2 & L).
    rewrite E2 in E. apply app_inv_tail in E as <-. now repeat split.
  Qed.
  Lemma r_num_point_id k : good k num_point_id (word_post num_point_word).
  Proof.
    unfold num_point_id. eapply good_weaken; [peg|]. cbv beta.
    intros c s c' P Ad (E & o & n & m & (W & E1 & L1) & A1 & HO & A2).
    split; [|split; [exact E|advs; lia]]. destruct o as [u|].
    - destruct HO as (os & m1 & H1 & _ & (l & Wl & E2 & _) & _). destruct os as [os|].
      + destruct H1 as (E3 & _). exists n, (lit "/" ++ l). split; [|split; [exact W|right; right; now exists l]].
        rewrite E1, E3, E2 in E. apply (app_inv_tail (cu_rest c')). rewrite <- E, <- !app_assoc. reflexivity.
      + subst m1. exists n, l. split; [|split; [exact W|right; now left]].
        rewrite E1, E2 in E. apply (app_inv_tail (cu_rest c')). rewrite <- E, <- !app_assoc. reflexivity.
    - subst c'. rewrite E1 in E. apply app_inv_tail in E as <-. exists n, []. rewrite app_nil_r. repeat split; try apply W. now left.
  Qed.
  Lemma r_alpha_subpoint_id k : good k alpha_subpoint_id (word_post alpha_subpoint_word).
  Proof.
    unfold alpha_subpoint_id. eapply good_weaken; [peg|]. cbv beta.
    intros c s c' P Ad (E & o & u & m & (H1 & L1) & A1 & HO & A2). apply char_in_range in H1 as (x & R & E1).
    split; [|split; [exact E|advs; lia]]. destruct o as [u2|].
    - destruct HO as (H2 & _). apply char_in_range in H2 as (y & R2 & E2). rewrite E1, E2 in E.
      change (x :: y :: cu_rest c') with ([x; y] ++ cu_rest c') in E. apply app_inv_tail in E as <-. split; [|now right]. constructor; [exact R|constructor; [exact R2|constructor]].
    - subst c'. rewrite E1 in E. change (x :: cu_rest m) with ([x] ++ cu_rest m) in E. apply app_inv_tail in E as <-. split; [|now left]. constructor; [exact R|constructor].
  Qed.
  Lemma r_num_subpoint_id k : good k (sliced g_number) (word_post number_word).
  Proof.
    eapply good_weaken; [peg|]. cbv beta. intros c s c' P Ad (E & n & W & E1 & L). rewrite E1 in E. apply app_inv_tail in E as <-. now repeat split; try apply W.
  Qed.
  Hint Resolve r_paragraph_id r_alpha_point_id r_num_point_id r_alpha_subpoint_id : peg.

  Definition id_post (W : str -> Prop) (c : cur) (s : str) (c' : cur) : Prop := W s /\ cu_off c < cu_off c'.
  Definition part_post (W : str -> Prop) (c : cur) (p : g_part) (c' : cur) : Prop :=
    part_words W p /\ gp_pos p = ModelSem.mkPos (cu_off c) (cu_off c') /\ cu_off c < cu_off c'.
  Lemma r_range_part k W start id sep last : good k start (id_post (captured W)) -> good k id (id_post (captured W)) -> good k sep le_post -> good k last le_post ->
    good k (range_part start id sep last) (part_post W).
  Proof.
    intros H1 H2 H3 H4. unfold range_part. eapply good_weaken.
    { eapply good_located, good_alt.
      - eapply good_bind; [exact H1|intros ?]. eapply good_bind; [exact H3|intros ?]. eapply good_bind; [exact H2|intros ?].
        eapply good_bind; [exact H4|intros ?]. apply good_ret.
      - eapply good_bind; [exact H2|intros ?]. eapply good_bind; [exact H4|intros ?]. apply good_ret. }
    cbv beta. intros c p c' P Ad H. unfold id_post in H. crack; (split; [|split; [reflexivity|advs; lia]]); [split; assumption|assumption].
  Qed.
  Lemma id_sk k W p : good k p (word_post W) -> good k (sk p) (id_post (captured W)).
  Proof.
    intros H. eapply good_weaken; [eapply good_sk, H|]. cbv beta. intros c s c' P Ad (m & w & _ & _ & A1 & P1 & W1 & _).
    apply (word_captured _ _ _ _ P1) in W1 as (W1 & L). split; [exact W1|]. advs. lia.
  Qed.
  Lemma id_paren k W p : good k p (word_post W) -> good k (T "(" ;; sk p) (id_post (captured W)).
  Proof.
    intros H. eapply good_weaken; [eapply good_bind; [peg|intros ?; apply id_sk, H]|]. cbv beta. intros c s c' P Ad (u & m & _ & A1 & (W1 & L) & _).
    split; [exact W1|]. advs. lia.
  Qed.
  Lemma r_paragraph_part k : good k paragraph_reference_part (part_post paragraph_word).
  Proof. unfold paragraph_reference_part. apply r_range_part; [apply id_paren; peg|apply id_paren; peg|rule|rule]. Qed.
  Lemma r_alpha_point_part k : good k alpha_point_part (part_post letter_word).
  Proof. unfold alpha_point_part. apply r_range_part; [apply id_sk; peg|apply id_sk; peg|rule|rule]. Qed.
  Lemma r_num_point_part k : good k num_point_part (part_post num_point_word).
  Proof. unfold num_point_part. apply r_range_part; [apply id_sk; peg|apply id_sk; peg|rule|rule]. Qed.
  Lemma r_alpha_subpoint_part k : good k alpha_subpoint_part (part_post alpha_subpoint_word).
  Proof. unfold alpha_subpoint_part. apply r_range_part; [apply id_sk; peg|apply id_sk; peg|rule|rule]. Qed.
  Lemma r_num_subpoint_part k : good k num_subpoint_part (part_post number_word).
  Proof. unfold num_subpoint_part. apply r_range_part; [apply id_sk, r_num_subpoint_id|apply id_sk, r_num_subpoint_id|rule|rule]. Qed.
  (** A list of parts *)
  Definition list_post (W : str -> Prop) (c : cur) (l : list g_part) (c' : cur) : Prop :=
    some_parts (part_words W) l /\ cu_off c < cu_off c' /\
    forall X (parse : str -> outcome X) mk, ev_in (cu_off c) (cu_off c') (separated (part_event parse mk) l).
  Lemma r_part_list k W p (suffix : parser unit) : good k p (part_post W) -> good k suffix lt_post ->
    good k (l <- sep_list p ;; sk suffix ;; ret l) (list_post W).
  Proof.
    intros H S. eapply good_weaken.
    { eapply good_bind; [eapply r_sep_list; [exact H|intros c a c' (_ & _ & L); exact L]|intros ?].
      eapply good_bind; [eapply good_sk, S|intros ?]. apply good_ret. }
    cbv beta. intros c l c' P Ad (l' & m & (N & C) & A1 & (u & m1 & _ & A2 & (-> & ->) & _) & _).
    split; [split; [exact N|]|split].
    - refine (chain_forall _ _ _ _ _ _ C). intros c0 a c1 (m0 & _ & _ & (W1 & _) & _). exact W1.
    - assert (X : cu_off c < cu_off m).
      { refine (sep_lt (part_post W) _ _ _ _ (conj N C)). intros c0 a c1 (_ & _ & L). exact L. }
      advs. lia.
    - intros X parse mk. apply (ev_weaken (cu_off c) (cu_off m)); [lia|now apply adv_le|].
      refine (sep_events _ (part_post W) _ _ _ _ C). intros c0 a c1 P0 A0 (_ & E & L). unfold part_event. rewrite E.
      apply ev_part; [exact P0|exact (placed_adv _ _ _ P0 A0)|exact L].
  Qed.
  Lemma r_paragraph_reference k : good k paragraph_reference (list_post paragraph_word).
  Proof. apply r_part_list; [apply r_paragraph_part|peg]. Qed.
  Lemma r_alpha_point_reference k : good k alpha_point_reference (list_post letter_word).
  Proof. apply r_part_list; [apply r_alpha_point_part|peg]. Qed.
  Lemma r_num_point_reference k : good k num_point_reference (list_post num_point_word).
  Proof. apply r_part_list; [apply r_num_point_part|peg]. Qed.
  Lemma r_alpha_subpoint_reference k : good k alpha_subpoint_reference (list_post alpha_subpoint_word).
  Proof. apply r_part_list; [apply r_alpha_subpoint_part|peg]. Qed.
  Lemma r_num_subpoint_reference k : good k num_subpoint_reference (list_post number_word).
  Proof. apply r_part_list; [apply r_num_subpoint_part|peg]. Qed.
  Hint Resolve r_paragraph_reference r_alpha_point_reference r_num_point_reference r_alpha_subpoint_reference r_num_subpoint_reference : peg.

  Ltac unword := cap; crack.
  Definition art_post (c : cur) (p : g_art_part) (c' : cur) : Prop :=
    article_words p /\ ga_pos p = ModelSem.mkPos (cu_off c) (cu_off c') /\ cu_off c < cu_off c'.
  Lemma r_article_part k : good k article_reference_part art_post.
  Proof.
    unfold article_reference_part. eapply good_weaken; [peg|]. cbv beta. intros c p c' P Ad H.
    destruct H as (f & (b & m & Hb & A1 & Hf & A2) & ->).
    assert (B : if_some book_word b).
    { destruct b as [b|]; [|exact I].
      destruct Hb as (n & m1 & (m2 & w & _ & _ & _ & P2 & (W & E & _) & _) & _ & (u & m3 & (m4 & w4 & B4 & E4 & _ & F4 & _) & _ & (-> & _) & _) & _).
      split; [exact W|]. destruct P2 as (pre & E2 & _). exists pre, w4, (cu_rest m3). split; [|exact B4].
      cbn in E2. rewrite E2, E, E4, F4. reflexivity. }
    clear Hb. crack; unword; (split; [split; [exact B|]|split; [reflexivity|unfold lt_post in *; advs; lia]]); first [split; assumption|assumption].
  Qed.
  Hint Resolve r_article_part : peg.
  Definition arts_post (c : cur) (l : list g_art_part) (c' : cur) : Prop :=
    some_parts article_words l /\ cu_off c < cu_off c' /\ ev_in (cu_off c) (cu_off c') (separated article_event l).
  Lemma r_article_reference k : good k article_reference arts_post.
  Proof.
    unfold article_reference. eapply good_weaken.
    { eapply good_bind; [eapply r_sep_list; [apply r_article_part|intros c a c' (_ & _ & L); exact L]|intros ?]. peg. }
    cbv beta. intros c l c' P Ad (l' & m & (N & C) & A1 & (u & m1 & _ & A2 & (-> & ->) & _) & _).
    split; [split; [exact N|]|split].
    - refine (chain_forall _ _ _ _ _ _ C). intros c0 a c1 (m0 & _ & _ & (W1 & _) & _). exact W1.
    - assert (X : cu_off c < cu_off m).
      { refine (sep_lt art_post _ _ _ _ (conj N C)). intros c0 a c1 (_ & _ & L). exact L. }
      advs. lia.
    - apply (ev_weaken (cu_off c) (cu_off m)); [lia|now apply adv_le|].
      refine (sep_events _ art_post _ _ _ _ C). intros c0 a c1 P0 A0 (_ & E & L). unfold article_event. rewrite E.
      apply ev_part; [exact P0|exact (placed_adv _ _ _ P0 A0)|exact L].
  Qed.
  Hint Resolve r_article_reference : peg.
  Definition single_post (c : cur) (s : g_single) (c' : cur) : Prop :=
    article_words (gs_part s) /\ cu_off c < cu_off c' /\ ev_in (cu_off c) (cu_off c') (single_events s).
  Lemma r_single k : good k single_article_reference single_post.
  Proof.
    unfold single_article_reference. eapply good_weaken; [peg|]. cbv beta.
    intros c s c' P Ad (f & (p & m & (m0 & w & _ & _ & A1 & P1 & (W & E & L) & A2) & A3 & (u & m1 & _ & A4 & (-> & ->) & _) & _) & ->).
    assert (L' : cu_off c < cu_off m1) by (advs; lia).
    split; [exact W|]. split; [exact L'|]. unfold single_events. cbn [gs_pos gs_part].
    change [?a; ?b] with ([a] ++ [b]). eapply ev_app; [apply ev_part; [exact P|exact (placed_adv _ _ _ P (adv_trans _ _ _ A3 A4))|exact L']|].
    apply ev_rec, ev_nil. lia.
  Qed.
  Hint Resolve r_single : peg.

  Definition low_post (par : option (list g_part)) (x : two_kinds * two_kinds) (c c' : cur) : Prop :=
    lower_words par (fst (fst x)) (snd (fst x)) (fst (snd x)) (snd (snd x)) /\
    ev_in (cu_off c) (cu_off c') (lower_events par (fst (fst x)) (snd (fst x)) (fst (snd x)) (snd (snd x))).
  Lemma low_none c c' : adv c c' -> low_post None (no_kind, no_kind) c c'.
  Proof. intros A. split; [unfold SpecGrammar.lower_words; cbn; intuition congruence|]. apply ev_nil. now apply adv_le. Qed.
  Lemma low_join par p s a b c d : low_post par (no_kind, no_kind) a b -> low_post None (p, no_kind) b c -> low_post None (no_kind, s) c d ->
    low_post par (p, s) a d.
  Proof.
    intros (W1 & E1) (W2 & E2) (W3 & E3). split.
    - unfold SpecGrammar.lower_words in *. cbn in *. tauto.
    - unfold lower_events in *. cbn [fst snd no_kind opt_events] in *. rewrite !app_nil_r in *. cbn [app] in *.
      eapply ev_app; [exact E1|]. rewrite (app_assoc (opt_events _ (fst p))). eapply ev_app; [exact E2|exact E3].
  Qed.
  Lemma low_before par x c m c' : adv m c -> low_post par x c c' -> low_post par x m c'.
  Proof. intros A (W & E). split; [exact W|]. exact (ev_weaken _ _ _ _ _ (adv_le _ _ A) (N.le_refl _) E). Qed.
  Lemma low_after par x c m c' : adv c' m -> low_post par x c c' -> low_post par x c m.
  Proof. intros A (W & E). split; [exact W|]. exact (ev_weaken _ _ _ _ _ (N.le_refl _) (adv_le _ _ A) E). Qed.
  Lemma r_points_of k : good k points_of (fun c x c' => low_post None (x, no_kind) c c' /\ cu_off c < cu_off c').
  Proof.
    unfold points_of. eapply good_weaken; [peg|]. cbv beta.
    intros c x c' P Ad [H|H]; destruct H as (l & m & (m0 & w & _ & _ & A1 & P1 & (W & L & E) & A2) & A3 & (-> & ->) & A4);
      (split; [|advs; lia]); apply (low_before _ _ m0); try exact A1; split.
    - unfold SpecGrammar.lower_words. cbn. intuition congruence.
    - unfold lower_events. cbn [fst snd no_kind opt_events app]. rewrite !app_nil_r. apply E.
    - unfold SpecGrammar.lower_words. cbn. intuition congruence.
    - unfold lower_events. cbn [fst snd no_kind opt_events app]. rewrite !app_nil_r. apply E.
  Qed.
  Lemma r_subpoints_of k : good k subpoints_of (fun c x c' => low_post None (no_kind, x) c c' /\ cu_off c < cu_off c').
  Proof.
    unfold subpoints_of. eapply good_weaken; [peg|]. cbv beta.
    intros c x c' P Ad [H|H]; destruct H as (l & m & (m0 & w & _ & _ & A1 & P1 & (W & L & E) & A2) & A3 & (-> & ->) & A4);
      (split; [|advs; lia]); apply (low_before _ _ m0); try exact A1; split.
    - unfold SpecGrammar.lower_words. cbn. intuition congruence.
    - unfold lower_events. cbn [fst snd no_kind opt_events app]. rewrite ?app_nil_r. apply E.
    - unfold SpecGrammar.lower_words. cbn. intuition congruence.
    - unfold lower_events. cbn [fst snd no_kind opt_events app]. rewrite ?app_nil_r. apply E.
  Qed.
  Hint Resolve r_points_of r_subpoints_of : peg.
  Lemma r_reference_with_point k : good k reference_with_point (fun c x c' => low_post None x c c' /\ cu_off c < cu_off c').
  Proof.
    unfold reference_with_point. eapply good_weaken; [peg|]. cbv beta.
    intros c x c' P Ad (p & m & (L1 & L) & A1 & (o & m1 & HO & A2 & (-> & ->) & _) & _). split; [|advs; lia].
    destruct o as [s|].
    - destruct HO as [HO _]. apply (low_join _ _ _ c c m); [apply low_none, adv_refl|exact L1|exact HO].
    - subst m1. exact L1.
  Qed.
  Hint Resolve r_reference_with_point : peg.
  Lemma low_of_list c l c' : list_post paragraph_word c l c' -> low_post (Some l) (no_kind, no_kind) c c'.
  Proof.
    intros (W & L & E). split; [unfold SpecGrammar.lower_words; cbn; intuition congruence|].
    unfold lower_events. cbn [fst snd no_kind opt_events app]. rewrite ?app_nil_r. apply E.
  Qed.
  Lemma low_join2 par x a b c : low_post par (no_kind, no_kind) a b -> low_post None x b c -> low_post par x a c.
  Proof.
    destruct x as [p s]. intros (W1 & E1) (W2 & E2). split; [unfold SpecGrammar.lower_words in *; cbn in *; tauto|].
    unfold lower_events in *. cbn [fst snd no_kind opt_events] in *. rewrite !app_nil_r in E1. cbn [app] in *. eapply ev_app; [exact E1|exact E2].
  Qed.
  Lemma low_opt c o c' : adv c c' -> (match o with Some x => low_post None x c c' /\ cu_off c < cu_off c' | None => c' = c end) -> low_post None (or_no_point o) c c'.
  Proof. destruct o as [x|]; [intros _ [H _]; exact H|]. intros A ->. now apply low_none. Qed.
  Lemma r_reference_with_paragraph k : good k reference_with_paragraph (fun c x c' => low_post (Some (fst x)) (snd x) c c' /\ cu_off c < cu_off c').
  Proof.
    unfold reference_with_paragraph. eapply good_weaken; [peg|]. cbv beta.
    intros c x c' P Ad (l & m & (m0 & w & _ & _ & A1 & P1 & HL & A2) & A3 & (o & m1 & HO & A4 & (-> & ->) & _) & _). cbn [fst snd].
    split; [|destruct HL as (_ & HL & _); advs; lia].
    apply (low_join2 _ _ _ m); [exact (low_before _ _ _ _ _ A1 (low_of_list _ _ _ HL))|exact (low_opt _ _ _ A4 HO)].
  Qed.
  Hint Resolve r_reference_with_paragraph : peg.

  Definition ref_post (c : cur) (r : g_ref) (c' : cur) : Prop :=
    ref_words r /\ cu_off c < cu_off c' /\ ev_in (cu_off c) (cu_off c') (ref_events r).
  Lemma ref_join c m c' (a : option (list g_art_part)) par x : placed c' -> adv c m -> adv m c' ->
    match a with Some a => arts_post c a m | None => True end -> low_post par x m c' -> cu_off c < cu_off c' ->
    ref_post c (mk_ref a par x (ModelSem.mkPos (cu_off c) (cu_off c'))) c'.
  Proof.
    intros P A1 A2 HA (W & E) L. split; [|split; [exact L|]].
    - split; [|exact W]. cbn. destruct a as [a|]; [exact (proj1 HA)|exact I].
    - unfold ref_events, mk_ref. cbn [gr_article gr_paragraph gr_num_point gr_alpha_point gr_num_sub gr_alpha_sub gr_pos ps_end].
      apply (ev_app _ (cu_off m)); [destruct a as [a|]; [exact (proj2 (proj2 HA))|apply ev_nil; now apply adv_le]|].
      eapply ev_app; [exact E|]. apply ev_end; [exact P|lia].
  Qed.
  Lemma r_reference k : good k g_reference ref_post.
  Proof.
    unfold g_reference. eapply good_weaken; [peg|]. cbv beta. intros c r c' P Ad (f & H & ->).
    assert (P' : placed c') by exact (placed_adv _ _ _ P Ad).
    assert (AR : forall a m, (exists m0 w, spaces w /\ cu_rest c = w ++ cu_rest m0 /\ adv c m0 /\ placed m0 /\ arts_post m0 a m /\ adv m0 m) -> arts_post c a m).
    { intros a m (m0 & w & _ & _ & A1 & _ & (W & L & E) & A2). split; [exact W|]. split; [advs; lia|].
      exact (ev_weaken _ _ _ _ _ (adv_le _ _ A1) (N.le_refl _) E). }
    destruct H as [H|[H|[H|[H|H]]]].
    - destruct H as (a & m & HA & A1 & (x & m1 & (HL & L) & A2 & (-> & ->) & _) & _). apply AR in HA.
      apply (ref_join _ m); try assumption. advs. lia.
    - destruct H as (a & m & HA & A1 & (o & m1 & HO & A2 & (-> & ->) & _) & _). apply AR in HA.
      apply (ref_join _ m); try assumption; [now apply low_opt|]. destruct HA as (_ & HA & _). advs. lia.
    - destruct H as (x & m1 & (HL & L) & A2 & (-> & ->) & _). apply (ref_join _ c); try assumption; [apply adv_refl|exact I].
    - destruct H as (x & m1 & (HL & L) & A2 & (-> & ->) & _). apply (ref_join _ c); try assumption; [apply adv_refl|exact I].
    - destruct H as (x & m1 & (HL & L) & A2 & (-> & ->) & _). apply (ref_join _ c); try assumption; [apply adv_refl|exact I].
  Qed.
  Hint Resolve r_reference : peg.
  Lemma ref_later c c' a m : adv c m -> ref_post m a c' -> ref_post c a c'.
  Proof. intros A (W & L & E). split; [exact W|]. split; [advs; lia|]. exact (ev_weaken _ _ _ _ _ (adv_le _ _ A) (N.le_refl _) E). Qed.
  Definition compound_post (c : cur) (x : g_compound) (c' : cur) : Prop :=
    simple_words known_word (GCompound x) /\ cu_off c < cu_off c' /\ forall rf m, ev_in (cu_off c) (cu_off c') (compound_events rf m x).
  Lemma r_compound_reference k : good k compound_reference compound_post.
  Proof.
    unfold compound_reference. eapply good_weaken.
    { eapply good_alt; [|peg]. eapply good_bind; [peg|intros ?]. eapply good_bind; [peg|intros ?]. eapply good_bind; [|intros ?; peg].
      eapply (good_many _ _ _ _ _ _ _ ref_post); [|intros ? ? ? _ _ (_ & L & _); exact L].
      eapply good_weaken; [peg|]. cbv beta. intros c x c' P Ad (u & m & _ & A1 & (m0 & w & _ & _ & A2 & _ & R & _) & _).
      exact (ref_later _ _ _ _ (adv_trans _ _ _ A1 A2) R). }
    cbv beta. intros c x c' P Ad [H|H].
    - destruct H as (o & m & HO & A1 & (r & m1 & (m0 & w & _ & _ & A2 & _ & R & _) & A3 & (l & m2 & C & A4 & (-> & ->) & _) & _) & _).
      apply (ref_later _ _ _ _ A2) in R.
      assert (AC : match o with Some a => act_ref_post c a m | None => True end).
      { destruct o as [a|]; [|exact I]. destruct HO as (m4 & w4 & _ & _ & A5 & _ & HO & _). exact (act_ref_later _ _ _ _ A5 HO). }
      split; [|split].
      + split; [cbn; destruct o; [exact (proj1 AC)|exact I]|]. split; [|discriminate]. constructor; [exact (proj1 R)|].
        refine (chain_forall _ _ _ _ _ _ C). intros c0 a0 c1 X. exact (proj1 X).
      + destruct R as (_ & R & _). advs. lia.
      + intros rf mm. unfold compound_events. cbn [gc_act gc_refs]. apply (ev_app _ (cu_off m)).
        * destruct o as [a|]; [apply AC|apply ev_nil; now apply adv_le].
        * cbn [flat_map]. eapply ev_app; [exact (proj2 (proj2 R))|]. refine (flat_events _ _ _ _ _ _ C). intros c0 a0 c1 X. exact (proj2 (proj2 X)).
    - destruct H as (a & m & (m4 & w4 & _ & _ & A5 & _ & HO & _) & A1 & (-> & ->) & _). apply (act_ref_later _ _ _ _ A5) in HO.
      destruct HO as (W & L & E). split; [|split; [exact L|]].
      + split; [exact W|]. split; [constructor|discriminate].
      + intros rf mm. unfold compound_events. cbn [gc_act gc_refs opt_events flat_map]. rewrite app_nil_r. apply E.
  Qed.
  Hint Resolve r_compound_reference : peg.

  (** *** Structural references *)
  Ltac ev := match goal with
    | H : ev_in ?a ?b ?x |- ev_in ?lo ?hi ?x => apply (ev_weaken a b); [lia|lia|exact H]
    | H : ev_in ?a ?b ?x |- ev_in ?lo ?hi (?x ++ ?y) => apply (ev_app _ b); [ev|ev]
    | H : forall rf m, ev_in _ _ (?f rf m ?x) |- ev_in _ _ (?f ?rf ?m ?x) => specialize (H rf m); ev
    | H : forall rf m, ev_in _ _ (?f rf m ?x) |- ev_in _ _ (?f ?rf ?m ?x ++ _) => specialize (H rf m); ev
    | |- ev_in _ _ (_ ++ []) => rewrite app_nil_r; ev
    | |- ev_in _ _ [] => apply ev_nil; lia
    | |- ev_in _ _ ([] ++ _) => cbn [app]; ev
    end.
  Ltac opened := crack; cap; unfold single_post, ref_post, compound_post, act_ref_post in *; crack; unfold lt_post in *; advs.
  Lemma r_after_article k : good k after_article single_post.
  Proof.
    unfold after_article. eapply good_weaken; [peg|]. cbv beta. intros c s c' P Ad H. opened;
      (split; [assumption|split; [lia|ev]]).
  Qed.
  Lemma r_before_article k : good k before_article single_post.
  Proof.
    unfold before_article. eapply good_weaken; [peg|]. cbv beta. intros c s c' P Ad H. opened;
      (split; [assumption|split; [lia|ev]]).
  Qed.
  Hint Resolve r_after_article r_before_article : peg.
  Definition rel_post (c : cur) (r : g_relative) (c' : cur) : Prop :=
    relative_words r /\ cu_off c < cu_off c' /\ ev_in (cu_off c) (cu_off c') (relative_events r).
  Lemma r_article_relative_position k : good k article_relative_position rel_post.
  Proof.
    unfold article_relative_position. eapply good_weaken; [peg|]. cbv beta. intros c s c' P Ad H. opened;
      (split; [assumption|split; [lia|cbn [relative_events]; ev]]).
  Qed.
  Hint Resolve r_article_relative_position : peg.
  Lemma r_subtitle_suffix k : good k subtitle_suffix lt_post. Proof. unfold subtitle_suffix. rule. Qed.
  Lemma r_subtitle_suffix_possessive k : good k subtitle_suffix_possessive lt_post. Proof. unfold subtitle_suffix_possessive. rule. Qed.
  Hint Resolve r_subtitle_suffix r_subtitle_suffix_possessive : peg.
  Lemma chain_adv {A} (Q : cur -> A -> cur -> Prop) c l c' : chain Q c l c' -> cu_off c <= cu_off c'.
  Proof. apply chain_le. Qed.
  Lemma r_raw_title k : good k raw_title (fun c s c' => piece_of s /\ cu_off c < cu_off c').
  Proof.
    unfold raw_title. eapply good_weaken; [peg|]. cbv beta. intros c s c' P Ad (E & H). split; [exact (rest_piece _ _ _ P E)|]. off.
  Qed.
  Hint Resolve r_raw_title : peg.
  Lemma r_subtitle_title k : good k subtitle_title (fun c s c' => piece_of s /\ cu_off c < cu_off c').
  Proof.
    unfold subtitle_title. eapply good_weaken; [peg|]. cbv beta. intros c s c' P Ad (x & m & H & A1 & (o & m1 & _ & A2 & (u & m2 & _ & A3 & (-> & ->) & _) & _) & _).
    assert (X : piece_of x /\ cu_off c < cu_off m).
    { destruct H as [H|H]; destruct H as (m0 & w & _ & _ & A & _ & (Q & L) & _); (split; [|advs; lia]); [exact (quoted_piece _ Q)|exact Q]. }
    destruct X as [X L]. split; [exact X|]. advs. lia.
  Qed.
  Hint Resolve r_subtitle_title : peg.
  Lemma good_ext {A} k (p p' : parser A) Q : (forall c g, p c g = p' c g) -> good k p' Q -> good k p Q.
  Proof. intros E H c g P L G. rewrite E. now apply H. Qed.
  Lemma span_again f (s : str) : span f (snd (span f s)) = ([], snd (span f s)).
  Proof.
    induction s as [|x s IH]; [reflexivity|]. cbn [span]. destruct (f x) eqn:F; [destruct (span f s) as [a b]; exact IH|].
    cbn [snd span]. now rewrite F.
  Qed.
  Lemma ws_again c g c' g' : ws c g = (Ok (tt, c'), g') -> ws c' g' = (Ok (tt, c'), g').
  Proof.
    unfold ws. destruct (span is_ascii_ws (cu_rest c)) as [w r] eqn:E. intros [= <- <-]. cbn [cu_rest advance].
    pose proof (span_again is_ascii_ws (cu_rest c)) as S. rewrite E in S. cbn [snd] in S. rewrite S. unfold advance at 1. cbn [cu_off advance utf8_len].
    unfold advance. cbn. now rewrite N.add_0_r.
  Qed.
  Lemma sk_sliced_sk {A B} (p : parser A) (q : A -> parser B) c g :
    sk (sliced (a <- sk p ;; q a)) c g = sk (sliced (a <- p ;; q a)) c g.
  Proof.
    unfold sk, pbind, sliced. destruct (ws c g) as [[[[] c']| |] g'] eqn:E; try reflexivity. rewrite (ws_again _ _ _ _ E). reflexivity.
  Qed.
  Lemma blank_ws w : forallb is_ascii_ws w = true -> spaces w.
  Proof. apply forallb_Forall. intros x. apply existsb_in. Qed.
  Lemma r_letter_suffix k : good k letter_suffix (fun c _ c' => exists l, cu_rest c = l ++ cu_rest c' /\
    (l = [] \/ exists v slash w x, l = v ++ slash ++ w ++ [x] /\ spaces v /\ (slash = [] \/ slash = lit "/") /\ spaces w /\ upper_letter x)).
  Proof.
    unfold letter_suffix. eapply good_weaken; [peg|]. cbv beta. intros c u c' P Ad (o & HO). destruct o as [o|]; [|subst c'; exists []; split; [reflexivity|now left]].
    destruct HO as (sl & m & HS & _ & (m0 & w & B & E & _ & _ & ((x & Fx & Ex) & _) & _) & _).
    apply in_range_spec in Fx. destruct sl as [sl|].
    - destruct HS as (m1 & v & B1 & E1 & _ & E2 & _). exists (v ++ lit "/" ++ w ++ [x]). split; [rewrite E1, E2, E, Ex, <- !app_assoc; reflexivity|].
      right. exists v, (lit "/"), w, x. split; [reflexivity|]. split; [exact B1|]. split; [now right|]. now split.
    - subst m. exists (w ++ [x]). split; [rewrite E, Ex, <- !app_assoc; reflexivity|].
      right. exists [], [], w, x. split; [reflexivity|]. split; [constructor|]. split; [now left|]. now split.
  Qed.
  Hint Resolve r_letter_suffix : peg.
  Definition sid_post (W : str -> Prop) (c : cur) (s : str) (c' : cur) : Prop := captured (suffixed_word W) s /\ cu_off c < cu_off c'.
  Lemma r_sub_id k p W : good k p (word_post W) -> good k (sk (sliced (sk p ;; letter_suffix))) (sid_post W).
  Proof.
    intros H. eapply good_ext; [intros; apply sk_sliced_sk|]. eapply good_weaken.
    { eapply good_sk, good_sliced, good_bind; [exact H|intros ?; peg]. }
    cbv beta. intros c s c' P Ad (m & w & _ & _ & A1 & P1 & (E & u & n & m1 & (Wn & En & Ln) & _ & (l & El & Hl) & A2) & _).
    split; [|advs; lia]. split; [|exact (rest_piece _ _ _ P1 E)]. exists n, l. split; [|now split]. rewrite En, El, app_assoc in E. now apply app_inv_tail in E.
  Qed.
  Lemma r_subtitle_id k : good k (sk subtitle_id) (sid_post number_word). Proof. apply r_sub_id. peg. Qed.
  Lemma r_chapter_id k : good k (sk chapter_id) (sid_post roman_word). Proof. apply r_sub_id. peg. Qed.
  Ltac peg ::=
    lazymatch goal with
    | |- good _ (sk subtitle_id) _ => apply r_subtitle_id
    | |- good _ (sk chapter_id) _ => apply r_chapter_id
    | |- good _ (pbind _ _) _ => eapply good_bind; [peg|intros; cbv beta; peg]
    | |- good _ (alt _ _) _ => eapply good_alt; [peg|peg]
    | |- good _ (opt _) _ => eapply good_opt; peg
    | |- good _ (not_ahead _) _ => eapply good_not_ahead; peg
    | |- good _ (ahead _) _ => eapply good_ahead; peg
    | |- good _ (void _) _ => eapply good_void; peg
    | |- good _ (sliced _) _ => eapply good_sliced; peg
    | |- good _ (located _) _ => eapply good_located; peg
    | |- good _ (ret _) _ => apply good_ret
    | |- good _ (sk _) _ => eapply good_sk; peg
    | |- good _ (T _) _ => apply good_T; nonempty
    | |- good _ (tok _) _ => apply good_tok_lt; nonempty
    | |- good _ (chr_if _) _ => apply good_chr_if
    | |- good _ any _ => apply good_any
    | |- good _ eoi _ => apply good_eoi
    | |- good _ (one_of _) _ => apply one_of_post; nonempty
    | |- good _ (one_of_sk _) _ => apply one_of_sk_post; nonempty
    | |- good _ (many _) _ => eapply good_many; [peg|cbv beta; intros; off]
    | |- good _ (many1 _) _ => eapply good_many1; [peg|cbv beta; intros; off]
    | |- good ?k ?p _ => let H := fresh in eassert (H : good k p _) by (solve [eauto 2 with peg]); exact H
    end.
  Ltac opened ::= crack; cap; unfold single_post, ref_post, compound_post, act_ref_post, rel_post, sid_post, word_post in *; crack; unfold lt_post in *; advs.
  Definition word_lt_post {A} (W : A -> Prop) (c : cur) (s : A) (c' : cur) : Prop := W s /\ cu_off c < cu_off c'.
  Lemma r_subtitle_reference_part k : good k subtitle_reference_part (word_lt_post subtitle_words).
  Proof.
    unfold subtitle_reference_part. eapply good_weaken; [peg|]. cbv beta. intros c s c' P Ad H. opened;
      (split; [first [assumption|split; assumption]|lia]).
  Qed.
  Hint Resolve r_subtitle_reference_part : peg.
  Lemma r_subtitles_reference k : good k subtitles_reference (word_lt_post (some_parts subtitle_words)).
  Proof.
    unfold subtitles_reference. eapply good_weaken.
    { eapply good_bind; [eapply r_sep_list; [apply r_subtitle_reference_part|intros c a c' (_ & L); exact L]|intros ?]. peg. }
    cbv beta. intros c l c' P Ad (l' & m & (N & C) & A1 & (u & m1 & _ & A2 & (-> & ->) & _) & _).
    split; [split; [exact N|]|].
    - refine (chain_forall _ _ _ _ _ _ C). intros c0 a c1 (m0 & _ & _ & (W1 & _) & _). exact W1.
    - assert (X : cu_off c < cu_off m).
      { refine (sep_lt (word_lt_post subtitle_words) _ _ _ _ (conj N C)). intros c0 a c1 (_ & L). exact L. }
      advs. lia.
  Qed.
  Lemma r_book_reference k : good k book_reference (word_lt_post (captured (fun b => In b capital_ordinals))).
  Proof. unfold book_reference. eapply good_weaken; [peg|]. cbv beta. intros c s c' P Ad H. opened; (split; [assumption|lia]). Qed.
  Lemma r_chapter_reference k : good k chapter_reference (word_lt_post (captured (suffixed_word roman_word))).
  Proof. unfold chapter_reference. eapply good_weaken; [peg|]. cbv beta. intros c s c' P Ad H. opened; (split; [assumption|lia]). Qed.
  Lemma r_part_reference k : good k part_reference (word_lt_post (captured (fun b => In b capital_ordinals))).
  Proof. unfold part_reference. eapply good_weaken; [peg|]. cbv beta. intros c s c' P Ad H. opened; (split; [assumption|lia]). Qed.
  Lemma r_title_reference k : good k title_reference (word_lt_post (captured (suffixed_word roman_word))).
  Proof. unfold title_reference. eapply good_weaken; [peg|]. cbv beta. intros c s c' P Ad H. opened; (split; [assumption|lia]). Qed.
  Lemma r_title_only_token k : good k title_only_token lt_post. Proof. unfold title_only_token. rule. Qed.
  Hint Resolve r_subtitles_reference r_book_reference r_chapter_reference r_part_reference r_title_reference r_title_only_token : peg.
  Ltac opened ::= crack; cap; unfold single_post, ref_post, compound_post, act_ref_post, rel_post, sid_post, word_post, word_lt_post in *; crack; unfold lt_post in *; advs.
  Lemma r_any_structural_reference k : good k any_structural_reference (word_lt_post struct_words).
  Proof.
    unfold any_structural_reference. apply good_memo_struct. eapply good_weaken; [peg|]. cbv beta.
    intros c s c' P Ad (b & m & HB & A1 & (kk & m1 & HK & A2 & (t & m2 & HT & A3 & (-> & ->) & _) & _) & _).
    assert (B : if_some (captured (fun b => In b capital_ordinals)) b) by (destruct b; [opened; assumption|exact I]). clear HB HT.
    assert (X : match kk with GChapter i | GTitle i => captured (suffixed_word roman_word) i | GPart i => captured (fun s => In s capital_ordinals) i
                | GSubtitlePart p => subtitle_words p | GSubtitleTitle s => piece_of s end /\ cu_off m < cu_off m1).
    { clear B. opened; (split; [first [assumption|exact I]|lia]). }
    destruct X as [X L]. split; [split; [exact B|exact X]|]. advs. lia.
  Qed.
  Hint Resolve r_any_structural_reference : peg.

  (** *** Attachments *)
  Lemma r_attachment_reference_part k : good k attachment_reference_part lt_post. Proof. unfold attachment_reference_part. rule. Qed.
  Lemma r_attachment_suffix k : good k attachment_suffix lt_post. Proof. unfold attachment_suffix. rule. Qed.
  Lemma r_attachment_junk_id k : good k attachment_junk_id lt_post.
  Proof.
    unfold attachment_junk_id. eapply good_weaken.
    { eapply good_alt; [peg|]. eapply good_void, r_many1_lt. rule. }
    cbv beta. intros. off.
  Qed.
  Hint Resolve r_attachment_reference_part r_attachment_suffix r_attachment_junk_id : peg.
  Lemma good_ws_le k : good k ws le_post. Proof. eapply good_weaken; [apply good_ws|]. intros. exact I. Qed.
  Hint Resolve good_ws_le : peg.
  Lemma r_attachment_junk k : good k attachment_junk lt_post.
  Proof. unfold attachment_junk. rule. Qed.
  Hint Resolve r_attachment_junk : peg.
  Lemma r_attachment_reference k : good k attachment_reference lt_post.
  Proof.
    unfold attachment_reference. eapply good_weaken.
    { eapply good_bind; [eapply r_sep_list; [apply r_attachment_reference_part|intros c a c' L; exact L]|intros ?]. peg. }
    cbv beta. intros. crack. match goal with X : sep_post _ _ _ _ |- _ => clear X end. off.
  Qed.
  Hint Resolve r_attachment_reference : peg.

  (** *** Lists of simple expressions *)
  Definition simple_post (c : cur) (s : g_simple) (c' : cur) : Prop :=
    simple_words known_word s /\ cu_off c < cu_off c' /\ forall rf m, ev_in (cu_off c) (cu_off c') (simple_events rf m s).
  Lemma r_any_simple_expression k : good k any_simple_expression simple_post.
  Proof.
    unfold any_simple_expression. eapply good_weaken; [peg|]. cbv beta. intros c s c' P Ad [H|[H|[H|H]]].
    - opened. split; [exact I|]. split; [lia|]. intros. cbn [simple_events]. ev.
    - opened. split; [assumption|]. split; [lia|]. intros. cbn [simple_events]. ev.
    - opened. split; [exact I|]. split; [lia|]. intros. cbn [simple_events]. ev.
    - opened. split; [exact I|]. split; [lia|]. intros. cbn [simple_events]. ev.
  Qed.
  Hint Resolve r_any_simple_expression : peg.

  (** *** Block amendments *)
  Lemma r_combinator_junk k : good k combinator_junk le_post. Proof. unfold combinator_junk. rule. Qed.
  Lemma r_the_following k : good k the_following lt_post. Proof. unfold the_following. rule. Qed.
  Hint Resolve r_combinator_junk r_the_following : peg.
  Lemma r_insertion_token k : good k insertion_token lt_post. Proof. unfold insertion_token. rule. Qed.
  Hint Resolve r_insertion_token : peg.
  Definition ins_post (c : cur) (r : g_ins) (c' : cur) : Prop :=
    ins_words r /\ cu_off c < cu_off c' /\ ev_in (cu_off c) (cu_off c') (ins_events r).
  Definition arts_in (c : cur) (a : list (list g_art_part)) (c' : cur) : Prop :=
    Forall (some_parts article_words) a /\ ev_in (cu_off c) (cu_off c') (separated (separated article_event) a).
  Lemma arts_nil c c' : adv c c' -> arts_in c [] c'.
  Proof. intros A. split; [constructor|]. apply ev_nil. now apply adv_le. Qed.
  Lemma arts_one c m a c' : adv c m -> arts_post m a c' -> arts_in c [a] c'.
  Proof. intros A (W & L & E). split; [now constructor|]. exact (ev_weaken _ _ _ _ _ (adv_le _ _ A) (N.le_refl _) E). Qed.
  Lemma arts_two c m a m' m'' b c' : adv c m -> arts_post m a m' -> adv m' m'' -> arts_post m'' b c' -> arts_in c [a; b] c'.
  Proof.
    intros A (W & L & E) A' (W' & L' & E'). split; [now constructor; [|constructor]|].
    change (separated (separated article_event) [a; b]) with (separated article_event a ++ EvRecord :: separated article_event b).
    apply (ev_app _ (cu_off m'')); [exact (ev_weaken _ _ _ _ _ (adv_le _ _ A) (adv_le _ _ A') E)|apply ev_rec, E'].
  Qed.
  Lemma arts_after c a m c' : arts_in c a m -> adv m c' -> arts_in c a c'.
  Proof. intros (W & E) A. split; [exact W|]. exact (ev_weaken _ _ _ _ _ (N.le_refl _) (adv_le _ _ A) E). Qed.
  Lemma ins_join c m c' a par x : placed c' -> arts_in c a m -> low_post par x m c' -> cu_off c < cu_off c' ->
    ins_post c (mk_ins a par x (ModelSem.mkPos (cu_off c) (cu_off c'))) c'.
  Proof.
    intros P (WA & EA) (W & E) L. split; [|split; [exact L|]].
    - split; [exact WA|exact W].
    - unfold ins_events, mk_ins. cbn [gi_article gi_paragraph gi_num_point gi_alpha_point gi_num_sub gi_alpha_sub gi_pos ps_end].
      eapply ev_app; [exact EA|]. eapply ev_app; [exact E|]. apply ev_end; [exact P|lia].
  Qed.
  Lemma low_par c m l c' : adv c m -> list_post paragraph_word m l c' -> low_post (Some l) (no_kind, no_kind) c c'.
  Proof. intros A H. exact (low_before _ _ _ _ _ A (low_of_list _ _ _ H)). Qed.
  Lemma r_insertion_reference k : good k insertion_reference ins_post.
  Proof.
    unfold insertion_reference. eapply good_weaken; [peg|]. cbv beta. intros c r c' P Ad (f & H & ->).
    assert (P' : placed c') by exact (placed_adv _ _ _ P Ad). destruct H as [H|[H|[H|[H|H]]]].
    - destruct H as (u & m & _ & A1 & (a & m1 & (m2 & w & _ & _ & A2 & _ & HA & A3) & A4 & (p & m3 & (m4 & w2 & _ & _ & A5 & _ & HP & A6) & A7 & (-> & ->) & _) & _) & _).
      apply (ins_join _ m1); [exact P'|exact (arts_one _ _ _ _ (adv_trans _ _ _ A1 A2) HA)|exact (low_par _ _ _ _ A5 HP)|].
      destruct HA as (_ & L & _). advs. lia.
    - destruct H as (u & m & _ & A1 & (a & m1 & (m2 & w & _ & _ & A2 & _ & HA & A3) & A4 & (o & m3 & HO & A5 & (-> & ->) & _) & _) & _).
      assert (L : cu_off c < cu_off m3) by (destruct HA as (_ & L & _); advs; lia).
      apply (ins_join _ m3); [exact P'| |apply low_none, adv_refl|exact L].
      destruct o as [b|].
      + destruct HO as (u2 & m4 & _ & B1 & (m5 & w3 & _ & _ & B2 & _ & HB & B3) & _).
        exact (arts_two _ _ _ _ _ _ _ (adv_trans _ _ _ A1 A2) HA (adv_trans _ _ _ B1 B2) HB).
      + subst m3. exact (arts_one _ _ _ _ (adv_trans _ _ _ A1 A2) HA).
    - destruct H as (o & m & HO & A1 & (u & m1 & _ & A2 & (p & m3 & (m4 & w2 & _ & _ & A5 & _ & HP & A6) & A7 & (-> & ->) & _) & _) & _).
      apply (ins_join _ m); [exact P'| |exact (low_par _ _ _ _ (adv_trans _ _ _ A2 A5) HP)|destruct HP as (_ & L & _); advs; lia].
      destruct o as [a|]; [|subst m; apply arts_nil, adv_refl]. destruct HO as [HO|HO].
      + destruct HO as (u1 & m2 & _ & B1 & (a1 & m5 & (m6 & w & _ & _ & B2 & _ & HA & _) & B3 & (-> & ->) & _) & _).
        exact (arts_one _ _ _ _ (adv_trans _ _ _ B1 B2) HA).
      + destruct HO as (u1 & m2 & _ & _ & (-> & _) & _). now apply arts_nil.
    - destruct H as (o & m & HO & A1 & (u & m1 & _ & A2 & (x & m3 & (HX & L) & A7 & (-> & ->) & _) & _) & _).
      assert (L' : cu_off c < cu_off m3) by (advs; lia).
      apply (low_before _ _ _ _ _ A2) in HX.
      destruct o as [a|]; cbn [or_nothing].
      + destruct HO as [HO|[HO|HO]].
        * destruct HO as (u1 & m2 & _ & B1 & (a1 & m5 & (m6 & w & _ & _ & B2 & _ & HA & _) & B3 & (p & m7 & HP & B4 & (-> & ->) & _) & _) & _).
          apply (ins_join _ m5); [exact P'|exact (arts_one _ _ _ _ (adv_trans _ _ _ B1 B2) HA)| |exact L'].
          apply (low_join2 _ _ _ m7); [|exact HX]. destruct p as [p|]; [|subst m7; apply low_none, adv_refl].
          destruct HP as (m8 & w8 & _ & _ & C1 & _ & HP & _). exact (low_par _ _ _ _ C1 HP).
        * destruct HO as (u1 & m2 & _ & _ & (-> & _) & _). apply (ins_join _ m); [exact P'|now apply arts_nil|exact HX|exact L'].
        * destruct HO as (u1 & m2 & _ & _ & (-> & _) & _). apply (ins_join _ m); [exact P'|now apply arts_nil|exact HX|exact L'].
      + subst m. apply (ins_join _ c); [exact P'|apply arts_nil, adv_refl|exact HX|exact L'].
    - destruct H as (u1 & m2 & _ & B1 & (a1 & m5 & (m6 & w & _ & _ & B2 & _ & HA & _) & B3 & (p & m7 & HP & B4 & (x & m8 & (HX & L8) & B5 & (u & m9 & _ & B6 & (y & m10 & (HY & L10) & B7 & (-> & ->) & _) & _) & _) & _) & _) & _).
      apply (ins_join _ m5); [exact P'|exact (arts_one _ _ _ _ (adv_trans _ _ _ B1 B2) HA)| |advs; lia].
      apply (low_join _ _ _ _ m7 m8); [|exact HX|exact (low_before _ _ _ _ _ B6 HY)].
      destruct p as [p|]; [|subst m7; apply low_none, adv_refl]. destruct HP as (q & w8 & _ & _ & C1 & _ & HP & _). exact (low_par _ _ _ _ C1 HP).
  Qed.
  Lemma r_subtitle_token k : good k subtitle_token lt_post. Proof. unfold subtitle_token. rule. Qed.
  Hint Resolve r_insertion_reference r_subtitle_token : peg.
  Definition ws_post (c : cur) (x : g_with_subtitle) (c' : cur) : Prop :=
    if_some (fun s => article_words (gs_part s)) (gws_article x) /\ (if_some (captured (suffixed_word number_word)) (gws_id x) /\
    if_some quoted (gws_title x)) /\ cu_off c < cu_off c' /\ ev_in (cu_off c) (cu_off c') (opt_events single_events (gws_article x)).
  Lemma r_reference_with_subtitle k : good k reference_with_subtitle ws_post.
  Proof.
    unfold reference_with_subtitle. eapply good_weaken; [peg|]. cbv beta. intros c x c' P Ad [H|H].
    - destruct H as (a & m & (m0 & w & _ & _ & A1 & _ & (W & L & E) & A2) & A3 & H & A4).
      assert (X : x = mkGWs (Some a) None None) by (clear - H; crack; reflexivity). subst x. clear H.
      split; [exact W|]. split; [exact (conj I I)|]. split; [advs; lia|]. cbn [gws_article opt_events]. advs. ev.
    - destruct H as (y & m & HY & A1 & (o & m1 & HO & A2 & (-> & ->) & _) & _).
      assert (Y : (if_some (captured (suffixed_word number_word)) (fst y) /\ if_some quoted (snd y)) /\ cu_off c < cu_off m)
        by (clear HO; opened; cbn; (split; [split; first [assumption|exact I]|lia])).
      destruct Y as [Y L]. clear HY. unfold ws_post. cbn [gws_article gws_id gws_title]. destruct o as [s|].
      + destruct HO as (u & m2 & _ & A3 & (m3 & w & _ & _ & A4 & _ & (W & L' & E) & A5) & A6).
        split; [exact W|]. split; [exact Y|]. split; [advs; lia|]. cbn [opt_events]. advs. ev.
      + subst m1. split; [exact I|]. split; [exact Y|]. split; [lia|]. cbn [opt_events]. ev.
  Qed.
  Lemma r_amendment_suffix k : good k amendment_suffix lt_post. Proof. unfold amendment_suffix. rule. Qed.
  Lemma r_amendment_suffix_with_subtitle k : good k amendment_suffix_with_subtitle lt_post. Proof. unfold amendment_suffix_with_subtitle. rule. Qed.
  Lemma r_amendment_suffix_with_structural k : good k amendment_suffix_with_structural lt_post. Proof. unfold amendment_suffix_with_structural. rule. Qed.
  Lemma r_insertion_suffix k : good k insertion_suffix lt_post. Proof. unfold insertion_suffix. rule. Qed.
  Lemma r_act_title k : good k act_title le_post.
  Proof. unfold act_title. apply good_memo_title. eapply good_weaken; [peg|]. intros. exact I. Qed.
  Hint Resolve r_reference_with_subtitle r_amendment_suffix r_amendment_suffix_with_subtitle r_amendment_suffix_with_structural
    r_insertion_suffix r_act_title : peg.
  Definition root_post (c : cur) (r : g_root) (c' : cur) : Prop :=
    root_words known_word r /\ forall rf m, ev_in (cu_off c) (cu_off c') (root_events rf m r).
  Ltac opened ::= crack; cap; unfold single_post, ref_post, compound_post, act_ref_post, rel_post, sid_post, word_post, word_lt_post, ins_post, ws_post in *;
    crack; unfold lt_post in *; advs.
  Ltac wordy := first [assumption | exact I | (intros [? ?]; discriminate)].
  Lemma r_block_amendment k : good k block_amendment (fun c b c' => root_post c (RBlock b) c').
  Proof.
    unfold block_amendment. eapply good_weaken; [peg|]. cbv beta.
    intros c b c' P Ad (u1 & m1 & _ & A1 & (u2 & m2 & _ & A2 & (a & m3 & (m4 & w4 & _ & _ & A4 & _ & HA & A5) & A3 & (o & m6 & HO & A6 & H & A7) & _) & _) & _).
    assert (S : if_some struct_words o) by (destruct o; [opened; assumption|exact I]). clear HO.
    destruct H as [H|[H|H]].
    - opened. split; [cbn; refine (conj _ (conj _ (conj _ (conj _ _)))); wordy|].
      intros rf mm. cbn [root_events gb_act gb_amended gb_inserted opt_events]. ev.
    - opened. split; [cbn; refine (conj _ (conj _ (conj _ (conj _ _)))); wordy|].
      intros rf mm. cbn [root_events gb_act gb_amended gb_inserted opt_events]. ev.
    - destruct H as (r & n1 & (n2 & w2 & _ & _ & B1 & _ & HR & B2) & B3 & (u3 & n3 & _ & B4 & (u4 & n4 & _ & B5 & (u5 & n5 & _ & B6 & (u6 & n6 & _ & B7 & (u7 & n7 & _ & B8 &
        (i & n8 & (n9 & w9 & _ & _ & B9 & _ & HI & B10) & B11 & H & B12) & _) & _) & _) & _) & _) & _).
      opened. split; [cbn; refine (conj _ (conj _ (conj _ (conj _ _)))); wordy|].
      intros rf mm. cbn [root_events gb_act gb_amended gb_inserted opt_events]. ev.
  Qed.
  Lemma r_block_amendment_with_subtitle k : good k block_amendment_with_subtitle (fun c b c' => root_post c (RBlockSubtitle b) c').
  Proof.
    unfold block_amendment_with_subtitle. eapply good_weaken; [peg|]. cbv beta.
    intros c b c' P Ad (u1 & m1 & _ & A1 & (u2 & m2 & _ & A2 & (a & m3 & (m4 & w4 & _ & _ & A4 & _ & HA & A5) & A3 & (o & m6 & HO & A6 & (q & m7 & HQ & A7 & H & A8) & _) & _) & _) & _).
    assert (S : if_some struct_words o) by (destruct o; [opened; assumption|exact I]). clear HO.
    assert (R : if_some relative_words q /\ ev_in (cu_off m6) (cu_off m7) (opt_events relative_events q)).
    { clear H. destruct q as [q|]; opened; (split; [first [assumption|exact I]|cbn [opt_events]; ev]). }
    clear HQ. destruct R as [R ER].
    assert (X : exists x i, b = mkGBlockSub a o q x i /\ if_some (fun s => article_words (gs_part s)) (gws_article x) /\
      (if_some (captured (suffixed_word number_word)) (gws_id x) /\ if_some quoted (gws_title x)) /\ ev_in (cu_off m7) (cu_off c') (opt_events single_events (gws_article x))).
    { destruct H as [H|[H|H]]; opened; eexists; eexists; (split; [reflexivity|split; [assumption|split; [split; assumption|ev]]]). }
    clear H. destruct X as (x & i & -> & X1 & (X2 & X4) & X3). opened. split; [refine (conj _ (conj _ (conj _ (conj _ (conj _ _))))); assumption|].
    intros rf mm. cbn [root_events gbs_act gbs_relative gbs_ref]. ev.
  Qed.
  Lemma r_structural_suffix k : good k structural_suffix lt_post. Proof. unfold structural_suffix. rule. Qed.
  Hint Resolve r_structural_suffix : peg.
  Lemma r_block_amendment_structural k : good k block_amendment_structural (fun c b c' => root_post c (RBlockStruct b) c').
  Proof.
    unfold block_amendment_structural. eapply good_weaken; [peg|]. cbv beta.
    intros c b c' P Ad (u1 & m1 & _ & A1 & (u2 & m2 & _ & A2 & (a & m3 & (m4 & w4 & _ & _ & A4 & _ & HA & A5) & A3 & (o & m6 & _ & A6 & H & A7) & _) & _) & _).
    assert (X : exists p r i bk, b = mkGBlockStruct a p r i bk /\ if_some struct_words p /\ struct_words r /\ if_some (captured (fun s => In s capital_ordinals)) bk).
    { clear HA. destruct H as [H|[H|[H|H]]]; opened; do 4 eexists; (split; [reflexivity|]); cbn; refine (conj _ (conj _ _)); wordy. }
    clear H. destruct X as (p & r & i & bk & -> & X1 & X2 & X3). opened. split; [refine (conj _ (conj _ (conj _ _))); assumption|].
    intros rf mm. cbn [root_events gbt_act]. ev.
  Qed.
  Hint Resolve r_block_amendment r_block_amendment_with_subtitle r_block_amendment_structural : peg.

  (** *** Enforcement dates *)
  Lemma r_publication k : good k publication lt_post. Proof. unfold publication. rule. Qed.
  Lemma r_ordinal k : good k g_ordinal_rule (word_lt_post ordinal_words).
  Proof. unfold g_ordinal_rule. eapply good_weaken; [peg|]. cbv beta. intros c o c' P Ad H. opened; (split; [assumption|lia]). Qed.
  Hint Resolve r_publication r_ordinal : peg.
  Lemma r_after_publication k : good k after_publication (word_lt_post ed_date_words).
  Proof. unfold after_publication. eapply good_weaken; [peg|]. cbv beta. intros c o c' P Ad H. opened; (split; [cbn; wordy|lia]). Qed.
  Lemma r_day_in_month k : good k day_in_month (word_lt_post ed_date_words).
  Proof. unfold day_in_month. eapply good_weaken; [peg|]. cbv beta. intros c o c' P Ad H. opened; (split; [refine (conj _ _); cbn; wordy|lia]). Qed.
  Lemma r_inline_repeal k : good k inline_repeal (word_lt_post date_words).
  Proof.
    unfold inline_repeal. eapply good_weaken; [peg|]. cbv beta.
    intros c o c' P Ad H. assert (X : date_words o) by (crack; assumption). split; [exact X|]. clear X. opened; lia.
  Qed.
  Hint Resolve r_after_publication r_day_in_month r_inline_repeal : peg.
  Definition ed_post (c : cur) (r : g_ed_ref) (c' : cur) : Prop :=
    ed_words r /\ cu_off c < cu_off c' /\ ev_in (cu_off c) (cu_off c') (ed_events r).
  Lemma r_enforcement_date_reference k : good k enforcement_date_reference ed_post.
  Proof.
    unfold enforcement_date_reference. eapply good_weaken; [peg|]. cbv beta. intros c r c' P Ad [H|[H|[H|H]]]; opened;
      (split; [cbn; wordy|split; [lia|cbn [ed_events]; ev]]).
  Qed.
  Hint Resolve r_enforcement_date_reference : peg.
  Lemma r_exception_junk k : good k exception_junk lt_post. Proof. unfold exception_junk. rule. Qed.
  Hint Resolve r_exception_junk : peg.
  Lemma ed_later c c' a m : adv c m -> ed_post m a c' -> ed_post c a c'.
  Proof. intros A (W & L & E). split; [exact W|]. split; [advs; lia|]. exact (ev_weaken _ _ _ _ _ (adv_le _ _ A) (N.le_refl _) E). Qed.
  Definition eds_post (c : cur) (l : list g_ed_ref) (c' : cur) : Prop :=
    Forall ed_words l /\ ev_in (cu_off c) (cu_off c') (flat_map ed_events l).
  Lemma r_ed_list k : good k (x <- sk enforcement_date_reference ;; l <- many (sk list_separator ;; sk enforcement_date_reference) ;; ret (x :: l)) eds_post.
  Proof.
    eapply good_weaken.
    { eapply good_bind; [peg|intros ?]. eapply good_bind; [|intros ?; peg].
      eapply (good_many _ _ _ _ _ _ _ ed_post); [|intros ? ? ? _ _ (_ & L & _); exact L].
      eapply good_weaken; [peg|]. cbv beta. intros c x c' P Ad (u & m & _ & A1 & (m0 & w & _ & _ & A2 & _ & R & _) & _).
      exact (ed_later _ _ _ _ (adv_trans _ _ _ A1 A2) R). }
    cbv beta. intros c l c' P Ad (x & m & (m0 & w & _ & _ & A1 & _ & R & A2) & A3 & (l' & m1 & C & A4 & (-> & ->) & _) & _).
    apply (ed_later _ _ _ _ A1) in R. split.
    - constructor; [exact (proj1 R)|]. refine (chain_forall _ _ _ _ _ _ C). intros ? ? ? X. exact (proj1 X).
    - cbn [flat_map]. eapply ev_app; [exact (proj2 (proj2 R))|]. refine (flat_events _ _ _ _ _ _ C). intros ? ? ? X. exact (proj2 (proj2 X)).
  Qed.
  Lemma r_enforcement_date k : good k enforcement_date (fun c e c' => root_post c (REnforcement e) c').
  Proof.
    unfold enforcement_date. eapply good_weaken.
    { eapply good_bind; [peg|intros ?]. eapply good_bind; [peg|intros ?]. eapply good_bind; [eapply good_opt, r_ed_list|intros ?]. peg. }
    cbv beta. intros c e c' P Ad (u1 & m1 & _ & A1 & (o & m2 & HO & A2 & (rs & m3 & HR & A3 & (u4 & m4 & _ & A4 & (d & m5 & HD & A5 & (u6 & m6 & _ & A6 & (i & m7 & HI & A7 & (u8 & m8 & _ & A8 & (-> & ->) & _) & _) & _) & _) & _) & _) & _) & _).
    assert (O : if_some ref_words o) by (clear - HO; destruct o; [opened; assumption|exact I]).
    assert (D : ed_date_words d) by (clear - HD; opened; assumption).
    assert (J : if_some date_words i) by (clear - HI; destruct i; [opened; assumption|exact I]).
    clear HO HD HI.
    assert (R : Forall ed_words match rs with Some l => l | None => [] end /\
      ev_in (cu_off m2) (cu_off m3) (flat_map ed_events match rs with Some l => l | None => [] end)).
    { destruct rs as [l|]; [exact HR|]. split; [constructor|]. subst m3. apply ev_nil. lia. }
    destruct R as [R1 R2]. split; [refine (conj _ (conj _ (conj _ _))); assumption|].
    intros rf mm. cbn [root_events ge_refs]. advs. ev.
  Qed.
  Hint Resolve r_enforcement_date : peg.

  (** *** Text amendments and repeals *)
  Lemma r_text_amendment_token k : good k text_amendment_token lt_post. Proof. unfold text_amendment_token. rule. Qed.
  Hint Resolve r_text_amendment_token : peg.
  Lemma r_article_title_reference k : good k article_title_reference single_post.
  Proof.
    unfold article_title_reference. eapply good_weaken; [peg|]. cbv beta. intros c s c' P Ad (a & m & (m0 & w & _ & _ & A1 & _ & (W & L & E) & A2) & A3 & (u & m1 & _ & A4 & (-> & ->) & _) & _).
    split; [exact W|]. split; [advs; lia|]. advs. ev.
  Qed.
  Definition ta_post (c : cur) (r : g_ta_ref) (c' : cur) : Prop :=
    ta_words r /\ cu_off c < cu_off c' /\ ev_in (cu_off c) (cu_off c') (ta_events r).
  Lemma r_reference_with_intro_wrapup k : good k reference_with_intro_wrapup ta_post.
  Proof.
    unfold reference_with_intro_wrapup. eapply good_weaken; [peg|]. cbv beta.
    intros c s c' P Ad (r & m & (m0 & w & _ & _ & A1 & _ & (W & L & E) & A2) & A3 & (t & m1 & _ & A4 & (-> & ->) & _) & _).
    split; [exact W|]. split; [advs; lia|]. cbn [ta_events]. advs. ev.
  Qed.
  Lemma r_text_amendment_subtitle_junk k : good k text_amendment_subtitle_junk lt_post. Proof. unfold text_amendment_subtitle_junk. rule. Qed.
  Hint Resolve r_article_title_reference r_reference_with_intro_wrapup r_text_amendment_subtitle_junk : peg.
  Lemma r_text_amendment_structural k : good k text_amendment_structural ta_post.
  Proof.
    unfold text_amendment_structural. eapply good_weaken; [peg|]. cbv beta. intros c r c' P Ad [H|[H|[H|H]]]; opened;
      (split; [refine (conj _ _); wordy|split; [lia|cbn [ta_events]; ev]]).
  Qed.
  Hint Resolve r_text_amendment_structural : peg.
  Lemma r_text_amendment_reference k : good k text_amendment_reference ta_post.
  Proof.
    unfold text_amendment_reference. eapply good_weaken; [peg|]. cbv beta. intros c r c' P Ad [H|[H|[H|[H|H]]]]; unfold ta_post in *; opened;
      (split; [cbn; wordy|split; [lia|cbn [ta_events]; ev]]).
  Qed.
  Hint Resolve r_text_amendment_reference : peg.
  Lemma r_ta_item k : good k (r <- sk text_amendment_reference ;; opt (sk list_separator) ;; ret r) ta_post.
  Proof.
    eapply good_weaken; [peg|]. cbv beta.
    intros c s c' P Ad (r & m & (m0 & w & _ & _ & A1 & _ & (W & L & E) & A2) & A3 & (t & m1 & _ & A4 & (-> & ->) & _) & _).
    split; [exact W|]. split; [advs; lia|]. advs. ev.
  Qed.
  Lemma r_text_amendment_part k : good k text_amendment_part (word_lt_post (fun p => quoted (fst p) /\ quoted (snd p))).
  Proof.
    unfold text_amendment_part. eapply good_weaken; [peg|]. cbv beta.
    intros c p c' P Ad (u & m & _ & A1 & (a & m1 & (m2 & w & _ & _ & A2 & _ & (QA & LA) & A3) & A4 & (u2 & m3 & _ & A5 & (u3 & m4 & _ & A6 & (u4 & m5 & _ & A7 & (b & m6 & (m7 & w7 & _ & _ & A8 & _ & (QB & LB) & A9) & A10 & (u5 & m8 & _ & A11 & (-> & ->) & _) & _) & _) & _) & _) & _) & _).
    split; [now split|]. advs. lia.
  Qed.
  Lemma ta_strict : forall c a c', placed c -> adv c c' -> ta_post c a c' -> cu_off c < cu_off c'.
  Proof. intros c a c' _ _ (_ & L & _). exact L. Qed.
  Lemma ta_chain c l c' : chain ta_post c l c' -> Forall ta_words l /\ ev_in (cu_off c) (cu_off c') (flat_map ta_events l).
  Proof.
    intros C. split.
    - refine (chain_forall _ _ _ _ _ _ C). intros ? ? ? X. exact (proj1 X).
    - refine (flat_events _ _ _ _ _ _ C). intros ? ? ? X. exact (proj2 (proj2 X)).
  Qed.
  Lemma r_text_amendment k : good k g_text_amendment_rule (fun c e c' => root_post c (RText e) c').
  Proof.
    unfold g_text_amendment_rule. eapply good_weaken.
    { eapply good_bind; [peg|intros ?]. eapply good_bind; [peg|intros ?]. eapply good_bind; [peg|intros ?].
      eapply good_bind; [exact (good_many1 _ _ _ _ _ _ _ _ (r_ta_item k) ta_strict)|intros ?].
      eapply good_bind; [exact (r_sep_list _ _ _ (r_text_amendment_part k) (fun _ _ _ h => proj2 h))|intros ?]. peg. }
    cbv beta. intros c e c' P Ad (u1 & m1 & _ & A1 & (u2 & m2 & _ & A2 & (a & m3 & (m4 & w4 & _ & _ & A4 & _ & HA & A5) & A3 & (rs & m6 & (N & C) & A6 & (ps & m7 & (N' & C') & A7 & H & A8) & _) & _) & _) & _).
    assert (X : e = mkGTa a rs ps) by (clear - H; crack; reflexivity). subst e. clear H. apply ta_chain in C as [C1 C2].
    split; [refine (conj (proj1 HA) (conj (conj N C1) (conj N' _))); refine (chain_forall _ _ _ _ _ _ C'); intros ? ? ? (? & _ & _ & X & _); exact (proj1 X)|]. intros rf mm. cbn [root_events gta_act gta_refs].
    destruct HA as (_ & _ & HA). advs. ev.
  Qed.
  Lemma r_repeal k : good k g_repeal_rule (fun c e c' => root_post c (RRepeal e) c').
  Proof.
    unfold g_repeal_rule. eapply good_weaken.
    { eapply good_bind; [peg|intros ?]. eapply good_bind; [peg|intros ?]. eapply good_bind; [peg|intros ?]. eapply good_bind; [peg|intros ?].
      eapply good_bind; [exact (good_many _ _ _ _ _ _ _ _ (r_ta_item k) ta_strict)|intros ?]. peg. }
    cbv beta. intros c e c' P Ad (u0 & m0 & _ & A0 & (u1 & m1 & _ & A1 & (u2 & m2 & _ & A2 & (a & m3 & (m4 & w4 & _ & _ & A4 & _ & HA & A5) & A3 & (rs & m6 & C & A6 & H & A7) & _) & _) & _) & _).
    assert (X : exists ts, e = mkGRep a rs ts /\ Forall quoted ts).
    { clear - H. destruct H as (ts & m & C & _ & (u & m' & _ & _ & (-> & _) & _) & _). exists ts. split; [reflexivity|].
      refine (chain_forall _ _ _ _ _ _ C). intros c0 a0 c1 X. cbv beta in X.
      destruct X as (u1 & n1 & _ & _ & (q & n2 & (n3 & w & _ & _ & _ & _ & (Q & _) & _) & _ & (u2 & n4 & _ & _ & (u3 & n5 & _ & _ & (-> & _) & _) & _) & _) & _). exact Q. }
    destruct X as (ts & -> & HT). clear H. apply ta_chain in C as [C1 C2].
    split; [refine (conj (proj1 HA) (conj C1 HT))|]. intros rf mm. cbn [root_events gre_act gre_refs].
    destruct HA as (_ & _ & HA). advs. ev.
  Qed.
  Hint Resolve r_text_amendment r_repeal : peg.

  (** *** Root *)
  Lemma r_list_of_simple_expressions k : good k list_of_simple_expressions (fun c l c' => root_post c (RList l) c' /\ cu_off c < cu_off c').
  Proof.
    unfold list_of_simple_expressions. eapply good_weaken.
    { apply (good_many1 _ _ _ _ _ _ _ simple_post); [|intros c a c' _ _ (_ & L & _); exact L].
      eapply good_weaken; [peg|]. cbv beta. intros c s c' P Ad (m & w & _ & _ & A1 & _ & (W & L & E) & A2).
      split; [exact W|]. split; [advs; lia|]. intros rf mm. advs. ev. }
    cbv beta. intros c l c' P Ad (N & C). split; [split|].
    - split; [exact N|]. refine (chain_forall _ _ _ _ _ _ C). intros ? ? ? X. exact (proj1 X).
    - intros rf mm. refine (flat_events _ _ _ _ _ _ C). intros ? ? ? X. exact (proj2 (proj2 X) rf mm).
    - refine (chain_some_lt _ _ _ _ _ N C). intros c0 a c1 (_ & L & _) _. exact L.
  Qed.
  Hint Resolve r_list_of_simple_expressions : peg.
  Lemma r_root k : good k g_root_rule root_post.
  Proof.
    unfold g_root_rule. eapply good_weaken; [peg|]. cbv beta.
    intros c r c' P Ad H.
    assert (X : exists m m', adv c m /\ adv m' c' /\ root_post m r m').
    { destruct H as [H|[H|[H|[H|[H|[H|H]]]]]];
        destruct H as (x & m & (m0 & w & _ & _ & A1 & _ & H & A2) & A3 & (u & m1 & _ & A4 & (-> & ->) & _) & _);
        exists m0, m; [..|destruct H as [H _]]; now split; [|split]. }
    destruct X as (m & m' & A1 & A2 & (W & E)). split; [exact W|]. intros rf mm. specialize (E rf mm). advs. ev.
  Qed.
  (** *** Texts that are not one of the special sentences *)
  Definition occurs (w : str) : Prop := exists m m', placed m /\ cu_rest m = w ++ cu_rest m'.
  Definition last_read (w : str) (c' : cur) : Prop := exists m, placed m /\ cu_rest m = w ++ cu_rest c'.
  Ltac reach := match goal with
    | P : placed ?m |- placed ?m => exact P
    | H : adv ?x ?x |- _ => clear H; reach
    | A : adv ?x ?m |- placed ?m => refine (placed_adv _ x m _ A); clear A; reach
    end.
  Ltac ended := crack; match goal with E : cu_rest ?m = ?s ++ cu_rest ?c |- last_read ?s ?c => exists m; split; [reach|exact E] end.
  Ltac met := crack; match goal with E : cu_rest ?m = ?s ++ cu_rest ?c |- occurs ?s => exists m, c; split; [reach|exact E] end.
  (** Amendments end in one of these and a colon. *)
  Definition amending : list str := map lit ["rendelkezés lép"; "rendelkezések lépnek"; "szöveggel lép hatályba"; "szerint módosul"; "lép"; "lépnek"; "egészül ki"; "kiegészülve lép hatályba"]%string.
  Definition amending_read (c' : cur) : Prop := exists k, In k amending /\ last_read k c'.
  Definition amend_end (c' : cur) : Prop := exists m k w, In k amending /\ placed m /\ spaces w /\ cu_rest m = k ++ w ++ lit ":" ++ cu_rest c'.
  Ltac listed := unfold amending; cbn [map In]; repeat match goal with |- ?x = ?x \/ _ => left; exact eq_refl | |- _ \/ _ => right | |- False => fail 1 end.
  Ltac amends := crack; match goal with E : cu_rest ?m = ?s ++ cu_rest ?c |- amending_read ?c => exists s; split; [listed|]; exists m; split; [reach|exact E] end.
  Lemma z_one_of k s s' : lit s <> [] -> lit s' <> [] -> In (lit s) amending -> In (lit s') amending -> good k (one_of_sk [s; s']) (fun c _ c' => amending_read c' /\ cu_off c < cu_off c').
  Proof.
    intros N N' I I'. cbn [one_of_sk]. eapply good_weaken; [eapply good_alt; [apply good_T, N|eapply good_alt; [apply good_T, N'|apply good_fail]]|]. cbv beta. intros c u c' P Ad H. split.
    - crack; match goal with E : cu_rest ?m = lit ?s ++ cu_rest ?c |- _ => exists (lit s); split; [assumption|]; exists m; split; [reach|exact E] end.
    - off.
  Qed.
  Ltac ending := lazymatch goal with |- In _ _ => listed | |- _ => vm_compute; discriminate end.
  Lemma z_amendment_suffix k : good k amendment_suffix (fun c _ c' => amending_read c').
  Proof.
    unfold amendment_suffix. eapply good_weaken.
    { eapply good_alt; [eapply good_bind; [peg|intros ?]; eapply good_bind; [peg|intros ?]; apply z_one_of; ending|peg]. }
    cbv beta. intros c u c' P Ad [(u1 & m1 & _ & _ & (u2 & m2 & _ & _ & (H & _) & _) & _)|H]; [exact H|]. amends.
  Qed.
  Lemma z_amendment_suffix_with_subtitle k : good k amendment_suffix_with_subtitle (fun c _ c' => amending_read c').
  Proof.
    unfold amendment_suffix_with_subtitle. eapply good_weaken.
    { do 6 (eapply good_bind; [peg|intros ?]). apply z_one_of; ending. }
    cbv beta. intros c u c' P Ad (u1 & m1 & _ & _ & (u2 & m2 & _ & _ & (u3 & m3 & _ & _ & (u4 & m4 & _ & _ & (u5 & m5 & _ & _ & (u6 & m6 & _ & _ & (H & _) & _) & _) & _) & _) & _) & _). exact H.
  Qed.
  Lemma z_amendment_suffix_with_structural k : good k amendment_suffix_with_structural (fun c _ c' => amending_read c').
  Proof.
    unfold amendment_suffix_with_structural. eapply good_weaken; [peg|]. cbv beta.
    intros c u c' P Ad (u1 & m1 & _ & A1 & (u2 & m2 & _ & A2 & (u3 & m3 & _ & A3 & H & _) & _) & _). amends.
  Qed.
  Lemma z_insertion_suffix k : good k insertion_suffix (fun c _ c' => amending_read c').
  Proof. unfold insertion_suffix. eapply good_weaken; [apply z_one_of; ending|]. cbv beta. tauto. Qed.
  (** The end of an amendment *)
  Lemma z_ended {A} k (p : parser unit) (x : A) : (forall k, good k p (fun c _ c' => amending_read c')) -> good k (sk p ;; T ":" ;; ret x) (fun c _ c' => amend_end c').
  Proof.
    intros H. eapply good_weaken; [eapply good_bind; [eapply good_sk, H|intros ?; peg]|]. cbv beta.
    intros c u c' P Ad (u1 & m1 & (m2 & w2 & _ & _ & _ & _ & (s & I & m3 & P3 & E3) & _) & _ & (u4 & m4 & (m5 & w5 & W5 & E5 & _ & F5 & _) & _ & (-> & ->) & _) & _).
    exists m3, s, w5. split; [exact I|]. split; [exact P3|]. split; [exact W5|]. now rewrite E3, E5, F5.
  Qed.
  Ltac zlast := match goal with H : amend_end ?c |- amend_end ?c => exact H end.
  Lemma z_block k : good k block_amendment (fun c _ c' => amend_end c').
  Proof.
    unfold block_amendment. eapply good_weaken.
    { do 4 (eapply good_bind; [peg|intros ?]). eapply good_alt; [eapply good_bind; [peg|intros ?]; eapply z_ended, z_amendment_suffix|].
      eapply good_alt; [eapply good_bind; [peg|intros ?]; eapply z_ended, z_insertion_suffix|].
      do 7 (eapply good_bind; [peg|intros ?]). eapply z_ended, z_insertion_suffix. }
    cbv beta. intros c b c' P Ad H. crack; zlast.
  Qed.
  Lemma z_block_sub k : good k block_amendment_with_subtitle (fun c _ c' => amend_end c').
  Proof.
    unfold block_amendment_with_subtitle. eapply good_weaken.
    { do 5 (eapply good_bind; [peg|intros ?]). eapply good_alt; [eapply good_bind; [peg|intros ?]; eapply z_ended, z_amendment_suffix|].
      eapply good_alt; [eapply good_bind; [peg|intros ?]; eapply z_ended, z_amendment_suffix_with_subtitle|].
      do 2 (eapply good_bind; [peg|intros ?]). eapply z_ended, z_insertion_suffix. }
    cbv beta. intros c b c' P Ad H. crack; zlast.
  Qed.
  Lemma z_structural_suffix {A} k (x : A) : good k (structural_suffix ;; T ":" ;; ret x) (fun c _ c' => amend_end c').
  Proof.
    unfold structural_suffix. eapply good_weaken; [eapply good_bind; [eapply good_alt; [eapply good_sk, z_amendment_suffix|eapply good_sk, z_amendment_suffix_with_structural]|intros ?; peg]|]. cbv beta.
    intros c u c' P Ad (u1 & m1 & H & _ & (u4 & m4 & (m5 & w5 & W5 & E5 & _ & F5 & _) & _ & (-> & ->) & _) & _).
    destruct H as [H|H]; destruct H as (m2 & w2 & _ & _ & _ & _ & (s & I & m3 & P3 & E3) & _);
      (exists m3, s, w5; split; [exact I|]; split; [exact P3|]; split; [exact W5|]; now rewrite E3, E5, F5).
  Qed.
  Lemma z_block_struct k : good k block_amendment_structural (fun c _ c' => amend_end c').
  Proof.
    unfold block_amendment_structural. eapply good_weaken.
    { do 4 (eapply good_bind; [peg|intros ?]). eapply good_alt; [do 2 (eapply good_bind; [peg|intros ?]); apply z_structural_suffix|].
      eapply good_alt; [eapply good_bind; [peg|intros ?]; apply z_structural_suffix|].
      eapply good_alt; [do 3 (eapply good_bind; [peg|intros ?]); eapply z_ended, z_insertion_suffix|].
      do 3 (eapply good_bind; [peg|intros ?]). eapply z_ended, z_insertion_suffix. }
    cbv beta. intros c b c' P Ad H. crack; zlast.
  Qed.
  Lemma z_token k : good k text_amendment_token (fun c _ c' => last_read (lit "szöveg") c' \/ occurs (lit "szöveg")).
  Proof.
    unfold text_amendment_token, suffixed. eapply good_weaken; [peg|]. cbv beta. intros c b c' P Ad H. right. met.
  Qed.
  Lemma z_quote k : good k g_quote (fun c _ c' => occurs (lit "„")).
  Proof. unfold g_quote. eapply good_weaken; [peg|]. cbv beta. intros c b c' P Ad H. met. Qed.
  Lemma z_enforcement k : good k enforcement_date (fun c _ c' => occurs (lit "lép hatályba")).
  Proof.
    unfold enforcement_date. eapply good_weaken.
    { eapply good_bind; [peg|intros ?]. eapply good_bind; [peg|intros ?]. eapply good_bind; [eapply good_opt, r_ed_list|intros ?]. peg. }
    cbv beta. intros c e c' P Ad (u1 & m1 & _ & A1 & (o & m2 & _ & A2 & (rs & m3 & _ & A3 & (u4 & m4 & _ & A4 & (d & m5 & _ & A5 & (u6 & m6 & H & A6 & _) & _) & _) & _) & _) & _).
    met.
  Qed.

  Lemma z_text k : good k g_text_amendment_rule (fun c _ c' => occurs (lit "„") /\ occurs (lit "szöveg")).
  Proof.
    assert (PT : good k text_amendment_part (fun c _ c' => (occurs (lit "„") /\ occurs (lit "szöveg")) /\ cu_off c < cu_off c')).
    { unfold text_amendment_part. eapply good_weaken.
      { eapply good_bind; [peg|intros ?]. eapply good_bind; [eapply good_sk, z_quote|intros ?]. eapply good_bind; [eapply good_sk, z_token|intros ?]. peg. }
      cbv beta. intros c p c' P Ad (u & m & _ & A1 & (a & m1 & (m2 & w & _ & _ & A2 & _ & QA & A3) & A4 & (u2 & m3 & (m4 & w2 & _ & _ & A5 & _ & QT & A6) & A7 & H & A8) & _) & _).
      split; [split; [exact QA|]|].
      - destruct QT as [(n & PN & E)|QT]; [exists n, m3; now split|exact QT].
      - clear QA QT. opened; lia. }
    unfold g_text_amendment_rule. eapply good_weaken.
    { eapply good_bind; [peg|intros ?]. eapply good_bind; [peg|intros ?]. eapply good_bind; [peg|intros ?].
      eapply good_bind; [exact (good_many1 _ _ _ _ _ _ _ _ (r_ta_item k) ta_strict)|intros ?].
      eapply good_bind; [exact (r_sep_list _ _ _ PT (fun _ _ _ h => proj2 h))|intros ?]. peg. }
    cbv beta. intros c e c' P Ad (u1 & m1 & _ & A1 & (u2 & m2 & _ & A2 & (a & m3 & _ & A3 & (rs & m6 & _ & A6 & (ps & m7 & (N' & C') & A7 & _) & _) & _) & _) & _).
    destruct C' as [|? ? ? ? ? Q]; [congruence|]. destruct Q as (? & _ & _ & X & _). exact (proj1 X).
  Qed.
  Lemma refused {A} (p : parser A) : (forall k, good k p (fun _ _ _ => False)) -> forall g, ginv txt known_word known0 (exists s, introduces txt s) struct_words g ->
    exists g', p (mkCur 0 txt) g = (Err, g') /\ ginv txt known_word known0 (exists s, introduces txt s) struct_words g'.
  Proof.
    intros H g G. specialize (H (List.length txt) (mkCur 0 txt) g (adv_refl _) (Nat.le_refl _) G). unfold post in H.
    destruct (p (mkCur 0 txt) g) as [[[a c']| |] g']; [destruct H as (_ & _ & [])|now exists g'|contradiction].
  Qed.
  Lemma z_end {A} (p : parser A) (f : A -> g_root) : (forall k, good k p (fun c _ c' => amend_end c')) ->
    (forall u k v w, In k amending -> txt = u ++ k ++ v ++ lit ":" ++ w -> spaces v -> spaces w -> False) ->
    forall k, good k (x <- sk p ;; sk eoi ;; ret (f x)) (fun _ _ _ => False).
  Proof.
    intros H N k. eapply good_weaken; [eapply good_bind; [eapply good_sk, H|intros ?; peg]|]. cbv beta.
    intros c r c' P Ad (x & m & (m0 & w & _ & _ & A1 & _ & (n & s & v & I & (u & EN & _) & V & E) & A2) & A3 & (u1 & m1 & (m2 & w2 & W2 & E2 & _ & _ & (EM & E3) & _) & _ & _) & _). cbn in EN.
    apply (N u s v w2 I); [|exact V|exact W2]. rewrite EN, E, E2, E3, app_nil_r. reflexivity.
  Qed.
  Lemma z_met {A} (p : parser A) (f : A -> g_root) (Q : Prop) : (forall k, good k p (fun c _ c' => Q)) -> ~ Q ->
    forall k, good k (x <- sk p ;; sk eoi ;; ret (f x)) (fun _ _ _ => False).
  Proof.
    intros H N k. eapply good_weaken; [eapply good_bind; [eapply good_sk, H|intros ?; peg]|]. cbv beta.
    intros c r c' P Ad (x & m & (m0 & w & _ & _ & A1 & _ & HQ & _) & _). exact (N HQ).
  Qed.
  Lemma occurs_in w : occurs w -> exists a b, txt = a ++ w ++ b.
  Proof. intros (m & m' & (a & E & _) & F). exists a, (cu_rest m'). cbn in E. now rewrite E, F. Qed.

  Theorem grammar_good (E : Forall (fun k => k <> []) known0) :
    match grammar_parse txt known0 with
    | Ok r => root_words known_word r /\
        forall rf m, in_order 0 (root_events rf m r) /\ after (root_events rf m r) 0 <= utf8_len txt /\
                     Forall (event_boundary txt) (root_events rf m r)
    | Err => True
    | Panic => False
    end.
  Proof.
    unfold grammar_parse. pose proof (r_root (List.length txt) (mkCur 0 txt) (mkGlob known0 [] [])) as H. unfold post in H. cbn [cu_rest] in H.
    assert (G : ginv txt known_word known0 (exists s, introduces txt s) struct_words (mkGlob known0 [] [])).
    { split; [split; [|split; [now left|apply incl_refl]]|split; constructor]. cbn. apply Forall_forall. intros k I. split; [exact (proj1 (Forall_forall _ _) E k I)|now left]. }
    specialize (H (adv_refl _) (Nat.le_refl _) G). destruct (g_root_rule _ _) as [[[r c']| |] g']; cbn; [|exact I|exact H].
    destruct H as (_ & A & (W & EV)). split; [exact W|]. intros rf m. destruct (EV rf m) as (E1 & E2 & E3). cbn [cu_off] in *.
    split; [exact E1|]. split; [|exact E3].
    destruct A as (w & Ew & Fw). cbn in Ew, Fw. rewrite Ew, utf8_len_app. lia.
  Qed.
End Rules.
