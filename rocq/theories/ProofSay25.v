(** Proofs for C77: sentences which replace or add chapters, parts and titles. *)
From Verif Require Export ProofSay24.
From Coq Require Import Lia.
Local Open Scope peg_scope.
Local Open Scope N_scope.

Definition structural_rest (a : g_act_ref) : parser g_block_struct :=
  opt (sk article_relative_position) ;;
  ((p <- sk any_structural_reference ;; r <- sk any_structural_reference ;; structural_suffix ;; T ":" ;;
    ret (mkGBlockStruct a (Some p) r false None))
   <|> (r <- sk any_structural_reference ;; structural_suffix ;; T ":" ;; ret (mkGBlockStruct a None r false None))
   <|> (p <- sk any_structural_reference ;; sk insertion_token ;; r <- sk any_structural_reference ;; sk insertion_suffix ;;
        T ":" ;; ret (mkGBlockStruct a (Some p) r true None))
   <|> (b <- opt (sk book_reference) ;; sk insertion_token ;; r <- sk any_structural_reference ;; sk insertion_suffix ;;
        T ":" ;; ret (mkGBlockStruct a None r true b))).
Lemma structural_is : block_amendment_structural = (sk g_az_any ;; sk act_title ;; a <- sk act_reference ;; structural_rest a).
Proof. reflexivity. Qed.
Definition structural_ends : list str := flat_map (fun f => map (fun w => lit " helyébe " ++ f ++ lit " " ++ w ++ lit ":") structural_words) following.
Ltac each_ending I := unfold structural_endings, replacement_endings in I; cbn [map flat_map following structural_words app In] in I; repeat match type of I with _ \/ _ => destruct I as [<-|I] | False => destruct I end.

Lemma split_space s : match s with x :: _ => x =? 32 | [] => false end = true -> s = lit " " ++ tl s.
Proof. destruct s as [|x s]; [discriminate|]. intros H. apply N.eqb_eq in H as ->. reflexivity. Qed.
Section Run.
  Variables (rf : str -> option Z) (c : cache).
  Hypothesis roman : roman_from_reads rf.
  Local Notation known := (all_abbreviations c).
  Local Notation yields := (yields known).
  Local Notation fails := (fails known).
  Record no_block (t : str) : Prop := {
    nb_ref : forall o, fails (sk g_reference) o t; nb_ins : forall o, fails (sk insertion_reference) o t; nb_rel : forall o, fails (sk article_relative_position) o t;
    nb_sub : forall o, fails (sk reference_with_subtitle) o t;
    nb_new : forall A (k : g_with_subtitle -> parser A) o, fails (sk insertion_token ;; r <- sk reference_with_subtitle ;; k r) o t }.
  Ltac closed_text := constructor; [failing|failing|failing|failing|intros ? ? ?; here].
  Lemma block_ending e : In e structural_endings -> no_block e.
  Proof.
    intros I. unfold structural_endings in I. apply in_app_or in I as [I|I].
    - unfold replacement_endings in I. cbn [map In] in I. repeat (destruct I as [<-|I]; [closed_text|]). contradiction.
    - apply in_flat_map in I as (f & I & J). apply in_map_iff in J as (w & <- & J). generalize (f ++ lit " " ++ w ++ lit ":"). intros t. closed_text.
  Qed.
  Lemma block_cap t : cap_first t -> no_block (lit " " ++ t).
  Proof. intros H. each_cap H. repeat (destruct I as [<-|I]; [closed_text|]). contradiction. Qed.
  Lemma block_mid f t : In f following -> cap_first t -> no_block (lit " " ++ f ++ lit " " ++ t).
  Proof.
    intros F H. unfold following in F. cbn [map In] in F. each_cap H. destruct F as [<-|[<-|[]]]; (repeat (destruct I as [<-|I]; [closed_text|]); contradiction).
  Qed.
  Lemma suffix_mid f t o : In f following -> cap_first t -> fails structural_suffix o (lit " " ++ f ++ lit " " ++ t).
  Proof.
    intros F H. unfold following in F. cbn [map In] in F. each_cap H. destruct F as [<-|[<-|[]]]; (repeat (destruct I as [<-|I]; [here|]); contradiction).
  Qed.
  Lemma book_mid f t o : In f following -> fails (sk book_reference) o (lit " " ++ f ++ lit " " ++ t).
  Proof. intros F. unfold following in F. cbn [map In] in F. destruct F as [<-|[<-|[]]]; here. Qed.
  Lemma kind_mid f t o : In f following -> fails kind_rule o (lit " " ++ f ++ lit " " ++ t).
  Proof. intros F. unfold following in F. cbn [map In] in F. destruct F as [<-|[<-|[]]]; here. Qed.
  Lemma restructures e A (x : A) o : In e structural_endings -> exists o', yields (structural_suffix ;; T ":" ;; ret x) o e x o' [].
  Proof.
    intros I. each_ending I; computed.
  Qed.
  Lemma struct_ending e : In e structural_endings -> exists e', e = lit " " ++ e' /\ quiet is_ascii_ws e' /\ forall o, fails struct_inner o e'.
  Proof.
    intros I. unfold structural_endings in I. apply in_app_or in I as [I|I].
    - unfold replacement_endings in I. cbn [map In] in I. exists (tl e). repeat (destruct I as [<-|I]; [split; [apply split_space; reflexivity|split; [reflexivity|failing]]|]). contradiction.
    - apply in_flat_map in I as (f & I & J). apply in_map_iff in J as (w & <- & J). exists (lit "helyébe " ++ f ++ lit " " ++ w ++ lit ":"). split; [reflexivity|]. split; [reflexivity|]. generalize (f ++ lit " " ++ w ++ lit ":"). intros t. failing.
  Qed.
  Lemma f_struct_book b sb f t o : book_said b sb -> In f following -> fails struct_inner o (sb ++ lit " " ++ f ++ lit " " ++ t).
  Proof.
    intros [n i w e R I E] F. rewrite inner_is. pose proof (y_book_ref known n i w e [] o (lit " " ++ f ++ lit " " ++ t) R I E eq_refl lead_none) as YB. cbn [app] in YB.
    eapply f_bind2; [apply y_some; exact YB|]. apply f_bind1. now apply kind_mid.
  Qed.
  Section Place.
    Variable whole : str.
    Local Notation reads := (reads known whole).
    Local Notation refuses := (refuses known whole).
    Local Notation place := (place whole).
    Lemma place_on o s t : place o (s ++ t) -> place (o + utf8_len s) t.
    Proof. intros (p & -> & ->). exists (p ++ s). rewrite utf8_len_app, <- app_assoc. auto. Qed.
    Lemma place_sp o t : place o (lit " " ++ t) -> place (o + 1) t.
    Proof. apply place_on. Qed.
    Lemma r_element b k s t s' u o : place o (lit " " ++ s ++ s' ++ u) -> element_in_book b k s -> title_only_said t s' -> word_over known u ->
      exists x, reads (sk any_structural_reference) o (lit " " ++ s ++ s' ++ u) x (o + 1 + utf8_len (s ++ s')) u /\ tree_is rf b k t x.
    Proof.
      intros P H T U. destruct (y_element rf known roman b k s t s' u (o + 1) H T U) as (x & Y & E). exists x. split; [|exact E]. apply r_sk_sp; [apply cap_ws; now apply (in_book_cap b k)|]. apply r_struct; [now apply place_sp|exact Y].
    Qed.
    Lemma r_parent p k s u o : place o (lit " " ++ s ++ u) -> element_said p k s -> word_over known u ->
      exists x, reads (sk any_structural_reference) o (lit " " ++ s ++ u) x (o + 1 + utf8_len s) u /\ struct_parent_of rf x = Ok p.
    Proof.
      intros P H U. destruct (y_parent rf known roman p k s u (o + 1) H U) as (x & Y & E). exists x. split; [|exact E]. apply r_sk_sp; [apply cap_ws; now apply (element_cap p k)|]. apply r_struct; [now apply place_sp|exact Y].
    Qed.
    Lemma x_mid f t o : place o (lit " " ++ f ++ lit " " ++ t) -> In f following -> refuses (sk any_structural_reference) o (lit " " ++ f ++ lit " " ++ t).
    Proof. intros P F. apply x_sk_sp; [now apply following_ws|]. apply x_struct; [now apply place_sp|]. now apply mid_not_struct. Qed.
    Lemma x_ending e o : place o e -> In e structural_endings -> refuses (sk any_structural_reference) o e.
    Proof. intros P I. destruct (struct_ending e I) as (e' & -> & W & F). apply x_sk_sp; [exact W|]. apply x_struct; [now apply place_sp|apply F]. Qed.
    (** The tree of a change *)
    Definition change_tree (a : act_id) (r : struct_ref) (i : bool) (f : g_act_ref -> g_block_struct) : Prop :=
      forall g, gbt_act (f g) = g /\ (convert_act_reference rf c g = Ok a -> convert_structural_amendment rf c (f g) = Ok (mkSbaPhrase r i)).
    Lemma change_reads a r i s o : structural_change a r i s -> place o s ->
      (exists x o1 t1, reads (opt (sk any_structural_reference)) o s x o1 t1 /\ no_block t1) /\ after_act c s /\
      exists f, change_tree a r i f /\ forall g, exists o', reads (structural_rest g) o s (f g) o' [].
    Proof.
      assert (AC : forall t, cap_first t -> after_act c (lit " " ++ t)).
      { intros t H. each_cap H. repeat (destruct I as [<-|I]; [constructor; [reflexivity|failing|failing]|]). contradiction. }
      assert (AM : forall f t, In f following -> after_act c (lit " " ++ f ++ lit " " ++ t)).
      { intros f t F. unfold following in F. cbn [map In] in F. destruct F as [<-|[<-|[]]]; (constructor; [reflexivity|failing|failing]). }
      intros H P. destruct H as [b k t s s' e E T I|p k' b k t sp s s' e EP E T I|b k f s e F E I|b p k sb f s e B F E I|p k' b k sp f s e EP F E I].
      - pose proof (in_book_cap b k s (s' ++ e) E) as C. destruct (r_element b k s t s' e o P E T (over_replaced known e I)) as (x & R & TI).
        assert (PE : place (o + 1 + utf8_len (s ++ s')) e). { apply place_sp in P. rewrite app_assoc in P. now apply place_on in P. }
        split; [eexists; eexists; eexists; split; [apply r_some; exact R|now apply block_ending]|]. split; [now apply AC|]. exists (fun g => mkGBlockStruct g None x false None). split.
        + intros g. split; [reflexivity|]. intros CA. unfold convert_structural_amendment. cbn [gbt_act gbt_parent gbt_ref gbt_book gbt_insertion]. rewrite CA. cbn [obind]. rewrite TI. reflexivity.
        + intros g. destruct (restructures e _ (mkGBlockStruct g None x false None) (o + 1 + utf8_len (s ++ s')) I) as (o' & Y). exists o'. unfold structural_rest.
          eapply r_bind; [apply r_none, x_f, nb_rel, block_cap, C|]. apply r_alt2; [eapply x_bind2; [exact R|]; apply x_bind1; now apply x_ending|]. apply r_alt1. eapply r_bind; [exact R|]. apply r_y. exact Y.
      - pose proof (element_cap p k' sp (lit " " ++ s ++ s' ++ e) EP) as C. pose proof (in_book_cap b k s (s' ++ e) E) as C'. destruct (r_parent p k' sp _ o P EP (over_cap known _ C')) as (y & R1 & TP).
        assert (P' : place (o + 1 + utf8_len sp) (lit " " ++ s ++ s' ++ e)) by (apply place_sp in P; now apply place_on in P).
        destruct (r_element b k s t s' e _ P' E T (over_replaced known e I)) as (x & R & TI).
        split; [eexists; eexists; eexists; split; [apply r_some; exact R1|now apply block_cap]|]. split; [now apply AC|]. exists (fun g => mkGBlockStruct g (Some y) x false None). split.
        + intros g. split; [reflexivity|]. intros CA. unfold convert_structural_amendment. cbn [gbt_act gbt_parent gbt_ref gbt_book gbt_insertion]. rewrite CA. cbn [obind]. rewrite TP. cbn [obind]. rewrite TI. reflexivity.
        + intros g. destruct (restructures e _ (mkGBlockStruct g (Some y) x false None) (o + 1 + utf8_len sp + 1 + utf8_len (s ++ s')) I) as (o' & Y). exists o'. unfold structural_rest.
          eapply r_bind; [apply r_none, x_f, nb_rel, block_cap, C|]. apply r_alt1. eapply r_bind; [exact R1|]. eapply r_bind; [exact R|]. apply r_y. exact Y.
      - pose proof (in_book_cap b k s e E) as C.
        assert (P' : place (o + utf8_len (lit " " ++ f)) (lit " " ++ s ++ e)) by (rewrite app_assoc in P; now apply place_on in P).
        destruct (r_element b k s false [] e _ P' E the_whole (over_inserted known e I)) as (x & R & TI). cbn [app] in R.
        split; [eexists; eexists; eexists; split; [apply r_none; now apply x_mid|now apply block_mid]|]. split; [now apply AM|]. exists (fun g => mkGBlockStruct g None x true None). split.
        + intros g. split; [reflexivity|]. intros CA. unfold convert_structural_amendment. cbn [gbt_act gbt_parent gbt_ref gbt_book gbt_insertion]. rewrite CA. cbn [obind]. rewrite TI. reflexivity.
        + intros g. rewrite app_nil_r in R. destruct (inserts known e _ (mkGBlockStruct g None x true None) (o + utf8_len (lit " " ++ f) + 1 + utf8_len s) I) as (o' & Y). exists o'. unfold structural_rest.
          eapply r_bind; [apply r_none, x_f, nb_rel; now apply block_mid|]. repeat (apply r_alt2; [apply x_bind1; now apply x_mid|]). eapply r_bind; [apply r_none, x_f; now apply book_mid|].
          eapply r_bind; [apply r_y, (y_token known f (lit " ") o _ F lead_space)|]. eapply r_bind; [exact R|]. apply r_y. exact Y.
      - pose proof (book_cap b sb (lit " " ++ f ++ lit " " ++ s ++ e) B) as C. pose proof (element_cap p k s e E) as C'.
        assert (PB : place (o + 1 + utf8_len sb) (lit " " ++ f ++ lit " " ++ s ++ e)) by (apply place_sp in P; now apply place_on in P).
        assert (P' : place (o + 1 + utf8_len sb + utf8_len (lit " " ++ f)) (lit " " ++ s ++ e)) by (rewrite app_assoc in PB; now apply place_on in PB).
        destruct (r_element None k s false [] e _ P' (not_in_book p k s E) the_whole (over_inserted known e I)) as (x & R & TI). cbn [app] in R. rewrite app_nil_r in R.
        assert (X : refuses (sk any_structural_reference) o (lit " " ++ sb ++ lit " " ++ f ++ lit " " ++ s ++ e)).
        { apply x_sk_sp; [now apply cap_ws|]. apply x_struct; [now apply place_sp|]. now apply (f_struct_book b). }
        split; [eexists; eexists; eexists; split; [apply r_none; exact X|now apply block_cap]|]. split; [now apply AC|]. destruct B as [n i w e' RB IB EB].
        exists (fun g => mkGBlockStruct g None x true (Some i)). split.
        + intros g. split; [reflexivity|]. intros CA. unfold convert_structural_amendment. cbn [gbt_act gbt_parent gbt_ref gbt_book gbt_insertion]. rewrite CA. cbn [obind]. rewrite TI. cbn [obind].
          unfold book_of_grammar, se_parse_identifier. rewrite (ordinal_value n i RB). reflexivity.
        + intros g. destruct (inserts known e _ (mkGBlockStruct g None x true (Some i)) (o + 1 + utf8_len (i ++ lit " " ++ w ++ e') + utf8_len (lit " " ++ f) + 1 + utf8_len s) I) as (o' & Y). exists o'. unfold structural_rest.
          eapply r_bind; [apply r_none, x_f, nb_rel; now apply block_cap|]. repeat (apply r_alt2; [apply x_bind1; exact X|]).
          eapply r_bind; [apply r_some, r_y; exact (y_book_ref known n i w e' (lit " ") o (lit " " ++ f ++ lit " " ++ s ++ e) RB IB EB eq_refl lead_space)|].
          replace (o + utf8_len (lit " " ++ i ++ lit " " ++ w ++ e')) with (o + 1 + utf8_len (i ++ lit " " ++ w ++ e')) by (rewrite (utf8_len_app (lit " ")); change (utf8_len (lit " ")) with 1; lia).
          eapply r_bind; [apply r_y, (y_token known f (lit " ") _ _ F lead_space)|]. eapply r_bind; [exact R|]. apply r_y. exact Y.
      - pose proof (element_cap p k' sp (lit " " ++ f ++ lit " " ++ s ++ e) EP) as C. pose proof (in_book_cap b k s e E) as C'. destruct (r_parent p k' sp _ o P EP (over_mid known f (s ++ e) F)) as (y & R1 & TP).
        assert (PB : place (o + 1 + utf8_len sp) (lit " " ++ f ++ lit " " ++ s ++ e)) by (apply place_sp in P; now apply place_on in P).
        assert (P' : place (o + 1 + utf8_len sp + utf8_len (lit " " ++ f)) (lit " " ++ s ++ e)) by (rewrite app_assoc in PB; now apply place_on in PB).
        destruct (r_element b k s false [] e _ P' E the_whole (over_inserted known e I)) as (x & R & TI). cbn [app] in R. rewrite app_nil_r in R.
        split; [eexists; eexists; eexists; split; [apply r_some; exact R1|now apply block_mid]|]. split; [now apply AC|]. exists (fun g => mkGBlockStruct g (Some y) x true None). split.
        + intros g. split; [reflexivity|]. intros CA. unfold convert_structural_amendment. cbn [gbt_act gbt_parent gbt_ref gbt_book gbt_insertion]. rewrite CA. cbn [obind]. rewrite TP. cbn [obind]. rewrite TI. reflexivity.
        + intros g. destruct (inserts known e _ (mkGBlockStruct g (Some y) x true None) (o + 1 + utf8_len sp + utf8_len (lit " " ++ f) + 1 + utf8_len s) I) as (o' & Y). exists o'. unfold structural_rest.
          eapply r_bind; [apply r_none, x_f, nb_rel, block_cap, C|]. apply r_alt2; [eapply x_bind2; [exact R1|]; apply x_bind1; now apply x_mid|]. apply r_alt2; [eapply x_bind2; [exact R1|]; apply x_bind1, x_f; now apply suffix_mid|]. apply r_alt1.
          eapply r_bind; [exact R1|]. eapply r_bind; [apply r_y, (y_token known f (lit " ") _ _ F lead_space)|]. eapply r_bind; [exact R|]. apply r_y. exact Y.
    Qed.
  End Place.
  Lemma change_last a r i s : structural_change a r i s -> exists s', s = s' ++ [58].
  Proof.
    assert (K : forall p e, (exists e', e = e' ++ [58]) -> exists s', p ++ e = s' ++ [58]) by (intros p e (e' & ->); exists (p ++ e'); now rewrite app_assoc).
    assert (KR : forall e, In e structural_endings -> exists e', e = e' ++ [58]).
    { intros e I. unfold structural_endings in I. apply in_app_or in I as [I|I]; [now apply last_of_replacement|]. apply in_flat_map in I as (f & I & J). apply in_map_iff in J as (w & <- & J).
      exists (lit " helyébe " ++ f ++ lit " " ++ w). now rewrite <- !app_assoc. }
    intros H. destruct H; repeat apply K; auto using last_of_insertion.
  Qed.
  Lemma structural_root a r i az title name s : In az the -> act_named (ca_map c) a s title name -> structural_change a r i s ->
    exists G f, name_tree rf c a name G /\ change_tree a r i f /\ grammar_parse (az ++ title ++ name ++ s) known = Ok (RBlockStruct (f (G (utf8_len (az ++ title))))).
  Proof.
    intros IZ NM H. set (whole := az ++ title ++ name ++ s).
    assert (P : place whole (utf8_len (az ++ title ++ name)) s) by (exists (az ++ title ++ name); unfold whole; rewrite <- !app_assoc; auto).
    destruct (change_reads whole a r i s _ H P) as ((x & o1 & t1 & RX & NB) & AA & f & CT & RS). destruct (y_name rf c roman a s title name NM AA) as (WN & G & NT & YG).
    exists G, f. split; [exact NT|]. split; [exact CT|]. destruct (RS (G (utf8_len (az ++ title)))) as (o' & RR).
    assert (PL : place whole (utf8_len az) (title ++ name ++ s)) by (exists az; auto).
    assert (EO : utf8_len az + utf8_len title + utf8_len name = utf8_len (az ++ title ++ name)) by (rewrite !utf8_len_app; lia).
    assert (W0 : quiet is_ascii_ws whole). { unfold the in IZ. cbn [map In] in IZ. unfold whole. clear - IZ. repeat (destruct IZ as [<-|IZ]; [reflexivity|]). contradiction. }
    assert (R : reads known whole g_root_rule 0 whole (RBlockStruct (f (G (utf8_len (az ++ title))))) o' []).
    { unfold g_root_rule. apply r_alt2; [|apply r_alt2; [|apply r_alt1]].
      - apply x_bind1, x_sk; [exact W0|]. unfold block_amendment. eapply x_bind2; [apply r_y, y_az, IZ|]. eapply (start_refuses rf c roman whole (utf8_len az) a s title name G); auto. rewrite EO.
        eapply x_bind2; [exact RX|]. repeat apply x_alt; apply x_bind1, x_f, NB.
      - apply x_bind1, x_sk; [exact W0|]. unfold block_amendment_with_subtitle. eapply x_bind2; [apply r_y, y_az, IZ|]. eapply (start_refuses rf c roman whole (utf8_len az) a s title name G); auto. rewrite EO.
        eapply x_bind2; [exact RX|]. eapply x_bind2; [apply r_none, x_f, NB|]. repeat apply x_alt; [apply x_bind1, x_f, NB|apply x_bind1, x_f, NB|apply x_f, (nb_new _ NB)].
      - assert (EOI : yields (sk eoi) o' [] tt o' []) by (apply y_sk; [exact I|intros g' _; reflexivity]). eapply r_bind; [|eapply r_bind; [apply r_y, EOI|apply r_ret]]. apply r_sk; [exact W0|]. rewrite structural_is. eapply r_bind; [apply r_y, y_az, IZ|].
        eapply (start_reads rf c roman whole (utf8_len az) a s title name G); auto. rewrite EO, <- utf8_len_app. exact RR. }
    destruct (R _ (fine_new known whole)) as (g' & E & _). unfold grammar_parse. now rewrite E.
  Qed.
  Lemma structural_read pre post a r i s info : top pre = [] -> top post = [] -> structural_sentence (ca_map c) a r i s info ->
    extract_semantic_info rf grammar_parse s (mkAdder pre post c) = (mkAdder pre post c, Ok info).
  Proof.
    intros P1 P2 [az title name r' i' s' IZ NM H]. destruct (structural_root a r' i' az title name s' IZ NM H) as (G & f & NT & CT & E). destruct (change_last a r' i' s' H) as (u & ->).
    destruct (CT (G (utf8_len (az ++ title)))) as [CA CV]. specialize (CV (nt_act _ _ _ _ _ NT _)).
    replace (az ++ title ++ name ++ u ++ [58]) with ((az ++ title ++ name ++ u) ++ [58]) in * by (now rewrite <- !app_assoc).
    unfold restructured. apply (sentence_read rf pre post c _ 58 _ _ _ (or_intror eq_refl) P1 P2 E).
    - unfold get_new_abbreviations. cbn [root_act_refs flat_map]. rewrite CA, (nt_new _ _ _ _ _ NT). reflexivity.
    - cbn [get_outgoing_references]. rewrite CA, (name_feed rf c a name G _ NT). cbn [obind ob_result]. rewrite <- utf8_len_app. reflexivity.
    - assert (0 < utf8_len name).
      { pose proof (name_some _ _ _ _ _ NM). destruct name as [|x n]; [congruence|]. change (x :: n) with ([x] ++ n). rewrite utf8_len_app. pose proof (char_takes x). lia. }
      repeat constructor; cbn [o_end]; rewrite !utf8_len_app; lia.
    - cbn [extract_special_phrase]. rewrite CV. reflexivity.
  Qed.
End Run.
