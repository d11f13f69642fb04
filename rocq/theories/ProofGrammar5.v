(** Proofs about the grammar: the captured words can be read. *)
From Verif Require Export ProofGrammar4.
From Coq Require Import Lia.
Local Open Scope N_scope.

Lemma number_denotes s : number_word s -> exists n, denotes_dec s n.
Proof.
  intros [N F]. exists (digits_value s). apply denotes_dec_iff. split; [exact N|]. split; [|reflexivity].
  apply forallb_forall. intros c I. pose proof (proj1 (Forall_forall _ _) F c I) as H. cbn in H. unfold is_digit. lia.
Qed.
Lemma letter_spelling s : letter_word s -> exists c, spelling s c.
Proof.
  intros [(c & -> & H)|I].
  - exists (Latin c). constructor. exact H.
  - assert (D : forall a b d, In (a, b, d) [(99, 115, Cs); (100, 122, Dz); (103, 121, Gy); (108, 121, Ly); (110, 121, Ny); (115, 122, Sz); (116, 121, Ty); (122, 115, Zs)] ->
      spelling [a; b] d) by (intros a b d H; apply (sp_digraph a b d _ H); now left).
    cbn [map] in I. destruct I as [<-|[<-|[<-|[<-|[<-|[<-|[<-|[<-|[]]]]]]]]]; [exists Cs|exists Dz|exists Gy|exists Ly|exists Ny|exists Sz|exists Ty|exists Zs]; apply D; cbn; tauto.
Qed.
Lemma piece_front t s l : piece_of t (s ++ l) -> piece_of t s.
Proof. intros (a & b & ->). exists a, (l ++ b). now rewrite !app_assoc. Qed.
Section Read.
  Variable t : str.
  Hypothesis B : short_numbers t.
  Local Notation piece_of := (piece_of t).
  Local Notation captured := (captured t).
  Lemma read_number n : number_word n -> piece_of n -> exists x, denotes_dec n x /\ x <= 65535.
  Proof. intros W P. destruct (number_denotes n W) as (x & D). exists x. split; [exact D|]. exact (proj1 B _ _ P D). Qed.
  Lemma num_ok s x : numeric_spelling s x -> is_ok (numeric_parse s) = true.
  Proof. intros H. apply numeric_parse_spelling in H. now rewrite H. Qed.
  Lemma rd_number s : captured number_word s -> is_ok (numeric_parse s) = true.
  Proof. intros [W P]. destruct (read_number s W P) as (x & D & L). eapply num_ok. constructor; eassumption. Qed.
  Lemma rd_article s : captured article_word s -> is_ok (numeric_parse s) = true.
  Proof.
    intros [(n & l & -> & W & L) P]. destruct (read_number n W (piece_front _ _ _ P)) as (x & D & X).
    destruct L as [->|(c & -> & U)]; [rewrite app_nil_r; eapply num_ok; constructor; eassumption|].
    unfold upper_letter in U. apply (num_ok _ (mkNum x (Some (Latin (c + 32))))). apply ns_slash; [exact D|exact X|].
    replace [c] with [(c + 32) - 32] by (f_equal; lia). apply sp_upper. lia.
  Qed.
  Lemma rd_paragraph s : captured paragraph_word s -> is_ok (numeric_parse s) = true.
  Proof.
    intros [(n & l & -> & W & L) P]. destruct (read_number n W (piece_front _ _ _ P)) as (x & D & X).
    destruct L as [->|L]; [rewrite app_nil_r; eapply num_ok; constructor; eassumption|].
    destruct (letter_spelling _ L) as (c & S). eapply num_ok. now apply ns_suffix; eauto.
  Qed.
  Lemma rd_num_point s : captured num_point_word s -> is_ok (numeric_parse s) = true.
  Proof.
    intros [(n & l & -> & W & L) P]. destruct (read_number n W (piece_front _ _ _ P)) as (x & D & X).
    destruct L as [->|[L|(y & -> & L)]]; [rewrite app_nil_r; eapply num_ok; constructor; eassumption|..];
      destruct (letter_spelling _ L) as (c & S); eapply num_ok; [now apply ns_suffix; eauto|now apply ns_slash; eauto].
  Qed.
  Lemma rd_letter s : captured letter_word s -> is_ok (hic_parse s) = true.
  Proof. intros [L _]. destruct (letter_spelling _ L) as (c & S). apply hic_parse_spelling in S. now rewrite S. Qed.
  Lemma rd_alpha_sub s : captured alpha_subpoint_word s -> is_ok (prefixed_parse s) = true.
  Proof.
    intros [[F L] _]. assert (H : forall c, lower_letter c -> exists x, hic_of_char c = Ok x).
    { intros c H. exists (Latin c). assert (S : spelling [c] (Latin c)) by (constructor; exact H). apply hic_parse_spelling in S.
      unfold hic_parse in S. unfold lower_letter in H. replace (utf8_len [c] =? 1) with true in S; [exact S|].
      unfold utf8_len, char_len. cbn. destruct (N.ltb_spec c 128); [reflexivity|lia]. }
    destruct s as [|a [|b [|d s]]]; cbn in L; try lia; cbn [prefixed_parse].
    - inversion F; subst. destruct (H a H2) as (x & ->). reflexivity.
    - inversion F as [|? ? H1 F']; subst. inversion F' as [|? ? H2 _]; subst. destruct (H a H1) as (x & ->), (H b H2) as (y & ->). reflexivity.
  Qed.
  Lemma rd_range {T} (parse : str -> outcome T) word s e i : (forall s, captured word s -> is_ok (parse s) = true) ->
    range_words (captured word) s e i -> is_ok (read_range parse s e i) = true.
  Proof.
    intros H. assert (K : forall s, captured word s -> exists x, parse s = Ok x).
    { intros u C. specialize (H u C). destruct (parse u); try discriminate. eauto. }
    unfold range_words, read_range. destruct s, e, i; try contradiction.
    - intros [C1 C2]. destruct (K _ C1) as (x & ->), (K _ C2) as (y & ->). reflexivity.
    - intros C1. destruct (K _ C1) as (x & ->). reflexivity.
  Qed.
  Lemma ok_omap {A C} (f : A -> C) o : is_ok o = true -> is_ok (omap f o) = true.
  Proof. now destruct o. Qed.
  Lemma rd_parts {T} (parse : str -> outcome T) mk word l : (forall s, captured word s -> is_ok (parse s) = true) ->
    some_parts (part_words t word) l -> Forall readable_event (separated (part_event parse mk) l).
  Proof.
    intros H [_ F]. assert (K : Forall (fun p => Forall readable_event (part_event parse mk p)) l).
    { eapply Forall_impl; [|exact F]. intros p C. constructor; [|constructor]. cbn. apply ok_omap. exact (rd_range _ _ _ _ _ H C). }
    clear F. induction K as [|p l P K IH]; [constructor|]. destruct l as [|q l]; [exact P|]. cbn [separated]. apply Forall_app. split; [exact P|].
    constructor; [exact I|]. exact IH.
  Qed.
  Lemma rd_opt_parts {T} (parse : str -> outcome T) mk word o : (forall s, captured word s -> is_ok (parse s) = true) ->
    if_some (some_parts (part_words t word)) o -> Forall readable_event (opt_events (separated (part_event parse mk)) o).
  Proof. intros H. destruct o; [|constructor]. now apply rd_parts. Qed.
  Lemma rd_read_article p : article_words t p -> is_ok (read_article p) = true.
  Proof.
    intros [Bk R]. unfold read_article. assert (K : exists o, match ga_book p with Some b => omap Some (parse_u8 b) | None => Ok None end = Ok o).
    { destruct (ga_book p) as [b|]; [|eauto]. cbn in Bk. destruct (number_denotes b (proj1 Bk)) as (x & D). pose proof (proj2 B _ _ Bk D) as L.
      apply denotes_dec_iff in D as (N & F & V). unfold parse_u8, parse_unsigned. rewrite strip_plus_digits by exact F. rewrite F.
      destruct b; [congruence|]. cbn [is_empty]. rewrite V. unfold u8_max. destruct (N.leb_spec x 255); [cbn; eauto|lia]. }
    destruct K as (o & ->). cbn [obind]. apply ok_omap. apply (rd_range _ article_word); [|exact R].
    intros s C. apply ok_omap. now apply rd_article.
  Qed.
  Lemma rd_articles l : some_parts (article_words t) l -> Forall readable_event (separated article_event l).
  Proof.
    intros [_ F]. induction F as [|p l P F IH]; [constructor|].
    assert (K : Forall readable_event (article_event p)) by (constructor; [cbn; now apply rd_read_article|constructor]).
    destruct l as [|q l]; [exact K|]. cbn [separated]. apply Forall_app. split; [exact K|]. constructor; [exact I|]. exact IH.
  Qed.
  Lemma rd_lower par np ap ns als : lower_words t par np ap ns als -> Forall readable_event (lower_events par np ap ns als).
  Proof.
    intros (H1 & H2 & H3 & H4 & H5 & _). unfold lower_events. rewrite !Forall_app.
    refine (conj _ (conj _ (conj _ (conj _ _)))).
    - exact (rd_opt_parts _ _ _ _ rd_paragraph H1).
    - exact (rd_opt_parts _ _ _ _ rd_num_point H2).
    - exact (rd_opt_parts _ _ _ _ rd_letter H3).
    - exact (rd_opt_parts _ _ _ _ rd_number H4).
    - exact (rd_opt_parts _ _ _ _ rd_alpha_sub H5).
  Qed.
  Lemma rd_end n : Forall readable_event [EvEnd n; EvRecord].
  Proof. repeat constructor. Qed.
  Lemma rd_ref r : ref_words t r -> Forall readable_event (ref_events r).
  Proof.
    intros [H L]. unfold ref_events. rewrite !Forall_app. refine (conj _ (conj (rd_lower _ _ _ _ _ L) (rd_end _))).
    destruct (gr_article r); [now apply rd_articles|constructor].
  Qed.
  Lemma rd_ins r : ins_words t r -> Forall readable_event (ins_events r).
  Proof.
    intros [H L]. unfold ins_events. rewrite !Forall_app. refine (conj _ (conj (rd_lower _ _ _ _ _ L) (rd_end _))).
    induction H as [|x l X H IH]; [constructor|]. destruct l as [|y l]; [now apply rd_articles|]. cbn [separated]. apply Forall_app.
    split; [now apply rd_articles|]. constructor; [exact I|exact IH].
  Qed.
  Lemma rd_single s : article_words t (gs_part s) -> Forall readable_event (single_events s).
  Proof. intros H. constructor; [cbn; now apply rd_read_article|repeat constructor]. Qed.
  Lemma rd_relative r : relative_words t r -> Forall readable_event (relative_events r).
  Proof. destruct r; apply rd_single. Qed.
  Lemma rd_ta x : ta_words t x -> Forall readable_event (ta_events x).
  Proof.
    destruct x as [s|p [s|r]|l|r o|]; cbn [ta_words ta_events]; intros H; try apply Forall_nil; [now apply rd_single|now apply rd_relative|now apply rd_ref].
  Qed.
  Lemma rd_flat {A} (P : A -> Prop) (f : A -> list ref_event) l : (forall x, P x -> Forall readable_event (f x)) -> Forall P l ->
    Forall readable_event (flat_map f l).
  Proof. intros H. induction 1; [constructor|]. cbn. apply Forall_app. auto. Qed.
  Lemma rd_opt {A} (P : A -> Prop) (f : A -> list ref_event) o : (forall x, P x -> Forall readable_event (f x)) -> if_some P o ->
    Forall readable_event (opt_events f o).
  Proof. intros H. destruct o; [apply H|constructor]. Qed.
  Lemma rd_root P rf m r : root_words t P r -> Forall (fun a => is_ok (denoted_act rf m a) = true) (root_act_refs r) ->
    Forall readable_event (root_events rf m r).
  Proof.
    assert (A : forall a, is_ok (denoted_act rf m a) = true -> Forall readable_event (act_events_of rf m a)).
    { intros a H. constructor; [cbn; now apply ok_omap|repeat constructor]. }
    destruct r as [x|x|x|x|x|x|l]; cbn [root_words root_act_refs root_events]; intros W D;
      try (rewrite !Forall_app; split; [apply A; now inversion D|]); try (apply A; now inversion D).
    - destruct W as (_ & _ & W1 & W2 & _). split; [exact (rd_opt _ _ _ rd_ref W1)|exact (rd_opt _ _ _ rd_ins W2)].
    - destruct W as (_ & _ & W1 & W2 & _). split; [exact (rd_opt _ _ _ rd_relative W1)|exact (rd_opt _ _ _ rd_single W2)].
    - destruct W as (_ & [_ W] & _). exact (rd_flat _ _ _ rd_ta W).
    - destruct W as (_ & W & _). apply (rd_flat (ed_words t)); [|exact W]. intros [s|ls|y|] H; cbn; try constructor. now apply rd_ref.
    - destruct W as (_ & W & _). exact (rd_flat _ _ _ rd_ta W).
    - destruct W as [_ W]. induction W as [|s l S W IH]; [constructor|]. cbn [flat_map] in *. apply Forall_app in D as [D1 D2].
      apply Forall_app. split; [|now apply IH]. destruct s as [[[a|] rs]|]; cbn in *; [..|constructor].
      + destruct S as (_ & S & _). apply Forall_app with (l1 := act_events_of rf m a). split; [apply A; now inversion D1|].
        exact (rd_flat _ _ _ rd_ref S).
      + destruct S as (_ & S & _). exact (rd_flat _ _ _ rd_ref S).
  Qed.
End Read.
Theorem grammar_readable t known r rf m : Forall (fun k => k <> []) known -> grammar_parse t known = Ok r -> short_numbers t ->
  Forall (fun a => is_ok (denoted_act rf m a) = true) (root_act_refs r) -> Forall readable_event (root_events rf m r).
Proof.
  intros N P B D. pose proof (grammar_good t known N) as G. rewrite P in G. exact (rd_root t B _ rf m r (proj1 G) D).
Qed.

(** ** Words of structural references, ordinals and months *)
Definition one_to_19 : list N := [1; 2; 3; 4; 5; 6; 7; 8; 9; 10; 11; 12; 13; 14; 15; 16; 17; 18; 19].
Lemma ordinals_read : map num_from_hungarian (ordinals ++ capital_ordinals) =
  map Ok (one_to_19 ++ [20; 30; 40; 50; 60; 70; 80; 90] ++ one_to_19 ++ one_to_19).
Proof. vm_compute. reflexivity. Qed.
Lemma months_read : map month_from_hungarian months = map Ok [1; 2; 3; 4; 5; 6; 7; 8; 9; 10; 11; 12].
Proof. vm_compute. reflexivity. Qed.
Lemma spelling_solid s x : spelling s x -> Forall (fun c => ~ In c [32; 9; 10; 12; 13]) s.
Proof.
  intros H. destruct H as [c Hc|c Hc|a b d s Hin Hs].
  - constructor; [cbn; lia|constructor].
  - constructor; [cbn; lia|constructor].
  - cbn [In] in Hin. repeat destruct Hin as [Hin|Hin]; try contradiction; injection Hin as <- <- <-;
    cbn [In] in Hs; repeat destruct Hs as [Hs|Hs]; try contradiction; subst s; repeat constructor; cbn; lia.
Qed.
Lemma digits_solid s n : denotes_dec s n -> Forall (fun c => ~ In c [32; 9; 10; 12; 13]) s.
Proof. induction 1; [|apply Forall_app; split; [assumption|]]; repeat constructor; cbn; lia. Qed.
Lemma numeric_solid s x : numeric_spelling s x -> Forall (fun c => ~ In c [32; 9; 10; 12; 13]) s.
Proof.
  destruct 1 as [ds n D|ds n ls c D L S|ds n ls c D L S]; rewrite ?Forall_app; repeat split; eauto using digits_solid, spelling_solid.
  repeat constructor; cbn; lia.
Qed.
Lemma spaces_solid v : spaces v -> Forall (fun c => ~ In c [32; 9; 10; 12; 13]) v -> v = [].
Proof. intros B F. destruct v; [reflexivity|]. inversion B; inversion F; subst. contradiction. Qed.
Theorem subtitle_number_read t s : short_numbers t -> captured t (suffixed_word number_word) s ->
  (is_ok (numeric_parse s) = true <-> Forall (fun c => ~ In c [32; 9; 10; 12; 13]) s).
Proof.
  intros B [(n & l & -> & W & L) P]. split.
  - destruct (numeric_parse (n ++ l)) as [x| |] eqn:E; try discriminate. intros _. apply numeric_parse_spelling in E. exact (numeric_solid _ _ E).
  - intros F. apply Forall_app in F as [_ F]. destruct (read_number t B n W (piece_front t n l P)) as (x & D & X).
    destruct L as [->|(v & sl & w & c & -> & Bv & S & Bw & U)]; [rewrite app_nil_r; eapply num_ok; constructor; eassumption|].
    rewrite !Forall_app in F. destruct F as (F1 & _ & F2 & _). apply spaces_solid in F1; [|exact Bv]. apply spaces_solid in F2; [|exact Bw]. subst v w. cbn [app].
    unfold upper_letter in U. assert (Sp : spelling [c] (Latin (c + 32))) by (replace [c] with [(c + 32) - 32] by (f_equal; lia); apply sp_upper; lia).
    apply (num_ok _ (mkNum x (Some (Latin (c + 32))))). destruct S as [->| ->]; [now apply ns_suffix|now apply ns_slash].
Qed.

(** ** Checking that numbers are short *)
Fixpoint tails (s : str) : list str := match s with [] => [[]] | _ :: s' => s :: tails s' end.
Definition short_run (s : str) : bool :=
  let '(d, r) := span is_digit s in
  (List.length d <=? 4)%nat && (negb (starts_with (lit ":") (snd (span is_ascii_ws r))) || (List.length d <=? 2)%nat).
Lemma tails_In pre s : In s (tails (pre ++ s)).
Proof. induction pre as [|c pre IH]; [destruct s; now left|now right]. Qed.
Lemma denotes_small s n : denotes_dec s n -> n < 10 ^ N.of_nat (List.length s).
Proof.
  induction 1 as [d H|s n d D IH H]; [cbn; lia|]. rewrite app_length. cbn [List.length]. replace (N.of_nat (List.length s + 1)) with (N.succ (N.of_nat (List.length s))) by lia.
  rewrite N.pow_succ_r'. lia.
Qed.
Lemma denotes_digits s n : denotes_dec s n -> forallb is_digit s = true.
Proof. intros H. now apply denotes_dec_iff in H. Qed.
Lemma small_number s n k : denotes_dec s n -> (List.length s <= k)%nat -> n < 10 ^ N.of_nat k.
Proof.
  intros D L. pose proof (denotes_small _ _ D). enough (10 ^ N.of_nat (List.length s) <= 10 ^ N.of_nat k) by lia. apply N.pow_le_mono_r; lia.
Qed.
Lemma short_check t : forallb short_run (tails t) = true -> short_numbers t.
Proof.
  intros H. rewrite forallb_forall in H. split.
  - intros s n (pre & post & ->) D. specialize (H _ (tails_In pre (s ++ post))). unfold short_run in H.
    pose proof (denotes_digits _ _ D) as F.
    assert (L : (List.length s <= List.length (fst (span is_digit (s ++ post))))%nat).
    { clear - F. induction s as [|c s IH]; cbn; [lia|]. cbn in F. apply andb_prop in F as [F1 F2]. rewrite F1. specialize (IH F2).
      destruct (span is_digit (s ++ post)). cbn in *. lia. }
    destruct (span is_digit (s ++ post)) as [d r]. cbn in L. apply andb_prop in H as [H _]. apply Nat.leb_le in H.
    pose proof (small_number _ _ 4 D ltac:(lia)) as X. cbn in X. lia.
  - intros s n (_ & pre & w & post & -> & W) D. specialize (H _ (tails_In pre _)). unfold short_run in H.
    pose proof (denotes_digits _ _ D) as F.
    assert (S : span is_digit (s ++ w ++ lit ":" ++ post) = (s, w ++ lit ":" ++ post)).
    { apply span_split; [exact F|]. destruct w as [|c w]; [reflexivity|]. cbn. inversion W as [|? ? I _]; subst. cbn in I. unfold is_digit. lia. }
    rewrite S in H. apply andb_prop in H as [_ H].
    assert (X : span is_ascii_ws (w ++ lit ":" ++ post) = (w, lit ":" ++ post)).
    { apply span_split; [|reflexivity]. apply forallb_forall. intros c I. pose proof (proj1 (Forall_forall _ _) W c I) as J.
      unfold is_ascii_ws. apply existsb_exists. exists c. split; [exact J|apply N.eqb_refl]. }
    rewrite X in H. cbn [snd] in H. replace (starts_with (lit ":") (lit ":" ++ post)) with true in H.
    2:{ symmetry. reflexivity. }
    cbn [negb orb] in H. apply Nat.leb_le in H. pose proof (small_number _ _ 2 D H) as Y. cbn in Y. lia.
Qed.

(** ** Sentences are not white space *)
Lemma closed_solid s : closed s -> ~ spaces s.
Proof.
  intros (u & c & -> & I) B. apply Forall_app in B as [_ B]. inversion B as [|? ? J _]; subst. vm_compute in I, J. intuition congruence.
Qed.
Theorem sentence_parsed t text known : Forall (fun k => k <> []) known -> sentence t text -> t_after t = [] \/ ~ spaces (t_after t) ->
  exists r, grammar_parse text known = Ok r.
Proof.
  intros N S A. destruct (grammar_total text known N) as [P E]. destruct (grammar_parse text known) as [r| |]; [eauto| |congruence].
  exfalso. destruct E as [E _]. specialize (E eq_refl). destruct S as [own T Af|own T Af C|own T Af C].
  - apply Forall_app in E as [_ E]. apply Forall_app in E as [_ E]. destruct A as [A|A]; [congruence|exact (A E)].
  - apply Forall_app in E as [_ E]. exact (closed_solid _ C E).
  - apply Forall_app in E as [_ E]. apply Forall_app in E as [_ E]. apply (closed_solid (lit ".")); [|exact E].
    exists [], 46. split; [reflexivity|]. vm_compute. auto.
Qed.
(** ** Printing *)
Theorem grammar_printing rf wrap w colored a : Forall (fun k => k <> []) (map fst (ac_abbrevs a)) -> Forall (fun x => snd x = []) (act_refs a) ->
  let '(a', o) := add_semantic_info rf grammar_parse a in
  is_ok o = true -> 5 * act_levels a' <= w -> act_show (ac_id a') <> Panic ->
  Forall (fun x => closed (fst x) \/ Forall (fun o => o_end o <= utf8_len (fst x)) (snd x)) (act_refs a') ->
  act_output wrap w colored a' <> Panic.
Proof.
  intros N E. pose proof (recorded_printable rf a N E) as P. destruct (add_semantic_info rf grammar_parse a) as [a' o].
  intros O L S C. apply c54_no_panic; [exact L|exact S|]. specialize (P O). cbn [fst] in P.
  rewrite Forall_forall in *. intros x I. now apply (P x I), C.
Qed.
Theorem grammar_cuttable rf a : Forall (fun k => k <> []) (map fst (ac_abbrevs a)) -> Forall (fun x => snd x = []) (act_refs a) ->
  let '(a', o) := add_semantic_info rf grammar_parse a in
  is_ok o = true -> Forall (fun x => cuttable (fst x ++ lit ".") 0 (snd x)) (act_refs a').
Proof.
  intros N E. pose proof (recorded_printable rf a N E) as P. destruct (add_semantic_info rf grammar_parse a) as [a' o].
  intros O. specialize (P O). eapply Forall_impl; [|exact P]. now intros x [H _].
Qed.

Theorem grammar_places t known r : Forall (fun k => k <> []) known -> grammar_parse t known = Ok r -> forall rf m,
  in_order 0 (root_events rf m r) /\ after (root_events rf m r) 0 <= utf8_len t /\ Forall (event_boundary t) (root_events rf m r).
Proof. intros N P. pose proof (grammar_good t known N) as G. rewrite P in G. exact (proj2 G). Qed.
Theorem grammar_words t known r : Forall (fun k => k <> []) known -> grammar_parse t known = Ok r -> root_words t (known_word t known) r.
Proof. intros N P. pose proof (grammar_good t known N) as G. rewrite P in G. exact (proj1 G). Qed.
Theorem grammar_acts t known r : Forall (fun k => k <> []) known -> grammar_parse t known = Ok r ->
  (forall s p, In (GAbbrev s p) (root_act_refs r) -> In s known \/ introduces t s) /\
  (forall rf new k a, get_new_abbreviations rf r = Ok new -> In (k, a) new -> introduces t k).
Proof.
  intros N P. pose proof (grammar_words t known r N P) as W. split.
  - intros s p I. pose proof (proj1 (Forall_forall _ _) (root_acts _ _ _ W) _ I) as [_ H]. exact H.
  - intros rf new k a E I. exact (new_names _ _ _ _ _ _ _ W E I).
Qed.
