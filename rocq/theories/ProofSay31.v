(** Proofs for C79: sentences which replace and add, in an element of an act. *)
From Verif Require Export SpecSay8 ProofSay30 ProofSay22.
From Coq Require Import Lia.
Local Open Scope peg_scope.
Local Open Scope N_scope.

(** The endings without the colon *)
Definition replacement_words : list str := map lit
  [" helyébe a következő rendelkezés lép"; " helyébe a következő rendelkezések lépnek";
   " helyébe az alábbi rendelkezés lép"; " helyébe az alábbi rendelkezések lépnek";
   " a következő szöveggel lép hatályba"; " az alábbi szöveggel lép hatályba";
   " az alábbiak szerint módosul"]%string.
Lemma ending_words e : In (e ++ lit ":") replacement_endings -> In e replacement_words.
Proof.
  assert (E : replacement_endings = map (fun e => e ++ lit ":") replacement_words) by (vm_compute; reflexivity). rewrite E. intros I. apply in_map_iff in I as (e' & H & I).
  apply app_inv_tail in H as ->. exact I.
Qed.

Section Run.
  Variables (rf : str -> option Z) (c : cache).
  Hypothesis roman : roman_from_reads rf.
  Local Notation known := (all_abbreviations c).
  Local Notation yields := (yields known).
  Local Notation fails := (fails known).

  (** ** What is after the element of the act *)
  Record opens (u : str) : Prop := { op_text : exists v, u = lit " " ++ v /\ quiet is_ascii_ws v /\ forall o, fails struct_inner o v; op_over : word_over known u; op_act : after_act c u }.
  Lemma r_inside whole p sp u o : place whole o (sp ++ u) -> within_element p sp -> opens u ->
    (exists st, reads known whole (opt (sk any_structural_reference)) o (sp ++ u) st (o + utf8_len sp) u /\ opt_ok (struct_parent_of rf) st = Ok p) /\ after_act c (sp ++ u).
  Proof.
    intros P W [(v & EV & WS & NS) OV SA]. destruct W as [|p k s E].
    - cbn [app] in *. split; [|exact SA]. exists None. split; [|reflexivity]. change (utf8_len []) with 0. rewrite N.add_0_r. subst u. apply r_none, x_sk_sp; [exact WS|]. apply x_struct; [now apply place_sp|apply NS].
    - rewrite <- !app_assoc in *. split.
      + destruct (r_parent rf c roman whole p k s u o P E OV) as (x & R & SP). exists (Some x). split; [|cbn [opt_ok]; now rewrite SP]. apply r_some. eapply r_eq; [exact R|lens].
      + pose proof (element_cap p k s u E) as C. clear - C. each_cap C. repeat (destruct I as [<-|I]; [constructor; [reflexivity|failing|failing]|]). contradiction.
  Qed.
  Lemma opens_digits x i v : y_art_facts x i -> opens (lit " " ++ i ++ lit " " ++ lit "§" ++ v).
  Proof.
    intros F. assert (D : digit_first (i ++ lit " " ++ lit "§" ++ v)) by (eapply digit_first_article; apply F). constructor.
    - eexists. split; [reflexivity|]. split; [now apply digit_first_ws|]. intros o. now apply (f_struct known x).
    - split; [reflexivity|]. intros o. apply f_sk_sp; [now apply digit_first_ws|]. apply f_alt; apply f_bind1, f_tok, no_word; auto; left; exact D.
    - now apply digits_after_act.
  Qed.
  Lemma opens_said r a ps s u : readable_ref r -> f_act r = Some a -> ps <> [] -> (exists qs, lower_parts r = ps ++ qs) -> said_ended ps s -> opens (lit " " ++ s ++ u).
  Proof.
    intros RD EA NE Q H. assert (NL : lower_parts r <> []) by (destruct Q as (qs & ->); destruct ps; [congruence|discriminate]).
    destruct (article_text r a ps s u RD EA NL NE Q H) as (x & i & v & F & ->). now apply (opens_digits x).
  Qed.
  Lemma opens_gap r a gap s u : readable_ref r -> f_act r = Some a -> inserted_phrase (lower_parts r) gap s -> opens (gap ++ s ++ u).
  Proof.
    intros RD EA H. remember (lower_parts r) as L eqn:EL. destruct H as [x' f s IF H|ps p s f s' NP H IF H'].
    - rewrite <- !app_assoc. constructor.
      + eexists. split; [reflexivity|]. split; [now apply following_ws|]. intros o. now apply mid_not_struct.
      + now apply over_mid.
      + clear - IF. unfold following in IF. cbn [map In] in IF. destruct IF as [<-|[<-|[]]]; (constructor; [reflexivity|failing|failing]).
    - rewrite <- !app_assoc. apply (opens_said r a ps); auto. exists [p]. now symmetry.
  Qed.
  Lemma gap_word r a gap s u w : readable_ref r -> f_act r = Some a -> inserted_phrase (lower_parts r) gap s -> In w ["és"; "valamint"; "ezzel"; "egyidejűleg"]%string -> forall o, fails (T w) o (gap ++ s ++ u).
  Proof.
    intros RD EA H I o. remember (lower_parts r) as L eqn:EL. destruct H as [x' f s IF H|ps p s f s' NP H IF H']; rewrite <- !app_assoc.
    - clear - IF I. unfold following in IF. cbn [map In] in IF. cbn [In] in I. destruct IF as [<-|[<-|[]]]; repeat (destruct I as [<-|I]; [here|]); contradiction.
    - assert (NL : lower_parts r <> []) by (rewrite <- EL; destruct ps; [congruence|discriminate]).
      destruct (article_text r a ps s (lit " " ++ f ++ lit " " ++ s' ++ u) RD EA NL NP (ex_intro _ [p] (eq_sym EL)) H) as (x & i & v & F & ->).
      apply (f_word known w (lit " ")); [apply lead_space|left; eapply digit_first_article; apply F|]. cbn [In] in I. repeat (destruct I as [<-|I]; [vm_compute; reflexivity|]). contradiction.
  Qed.

  (** ** Joining words *)
  Lemma y_words w s : In w joining_words -> forall o, exists x, yields (one_of_sk ["és"; "valamint"; "ezzel"; "egyidejűleg"]%string) o (lit " " ++ w ++ s) x (o + utf8_len (lit " " ++ w)) s.
  Proof.
    intros I o. exists tt. rewrite utf8_len_app, N.add_assoc. change (utf8_len (lit " ")) with 1. unfold joining_words in I. cbn [map In] in I. cbn [one_of_sk]. destruct I as [<-|[<-|[<-|[<-|[]]]]].
    - apply y_alt1, y_T_sp. reflexivity.
    - apply y_alt2; [here|]. apply y_alt1, y_T_sp. reflexivity.
    - apply y_alt2; [here|]. apply y_alt2; [here|]. apply y_alt1, y_T_sp. reflexivity.
    - apply y_alt2; [here|]. apply y_alt2; [here|]. apply y_alt2; [here|]. apply y_alt1, y_T_sp. reflexivity.
  Qed.
  Lemma y_joined s u : words_joined s -> (forall o, fails (one_of_sk ["és"; "valamint"; "ezzel"; "egyidejűleg"]%string) o u) -> forall o, exists l, yields (many (one_of_sk ["és"; "valamint"; "ezzel"; "egyidejűleg"]%string)) o (s ++ u) l (o + utf8_len s) u.
  Proof.
    intros H F. induction H as [|w s I H IH]; intros o.
    - exists []. eapply y_eq; [apply y_many_nil, F|]. change (utf8_len []) with 0. lia.
    - destruct (y_words w (s ++ u) I o) as (x & Y). destruct (IH (o + utf8_len (lit " " ++ w))) as (l & YL). exists (x :: l). rewrite <- !app_assoc in *.
      eapply y_eq; [eapply y_many_cons; [|exact Y|exact YL]|rewrite !utf8_len_app; lia]. rewrite !app_length. change (List.length (lit " ")) with 1%nat. lia.
  Qed.
  Lemma y_junk s u : words_joined s -> s <> [] -> (forall o, fails (one_of_sk ["és"; "valamint"; "ezzel"; "egyidejűleg"]%string) o u) -> forall o, yields (sk combinator_junk) o (s ++ u) tt (o + utf8_len s) u.
  Proof.
    intros H NE F o. destruct H as [|w s I H]; [congruence|]. destruct (y_joined s u H F (o + 1 + utf8_len w)) as (l & YL).
    assert (W : forall t, quiet is_ascii_ws (w ++ t)) by (intros t; clear - I; unfold joining_words in I; cbn [map In] in I; repeat (destruct I as [<-|I]; [reflexivity|]); contradiction).
    rewrite <- !app_assoc. eapply y_eq; [apply y_sk_sp; [apply W|]|].
    - unfold combinator_junk. eapply y_void, y_many_cons; [|unfold joining_words in I; cbn [map In] in I; cbn [one_of_sk]; destruct I as [<-|[<-|[<-|[<-|[]]]]]|exact YL].
      + rewrite !app_length. assert (0 < List.length w)%nat; [|lia]. clear - I. unfold joining_words in I. cbn [map In] in I. repeat (destruct I as [<-|I]; [vm_compute; lia|]). contradiction.
      + apply y_alt1, y_T. reflexivity.
      + apply y_alt2; [here|]. apply y_alt1, y_T. reflexivity.
      + apply y_alt2; [here|]. apply y_alt2; [here|]. apply y_alt1, y_T. reflexivity.
      + apply y_alt2; [here|]. apply y_alt2; [here|]. apply y_alt2; [here|]. apply y_alt1, y_T. reflexivity.
    - rewrite !utf8_len_app. change (utf8_len (lit " ")) with 1. lia.
  Qed.

  (** ** Replaced *)
  Lemma y_replacing e v o : In e replacement_words -> yields (sk amendment_suffix) o (e ++ v) tt (o + utf8_len e) v.
  Proof.
    assert (K1 : forall f w, In f following -> In w [lit "rendelkezés lép"; lit "rendelkezések lépnek"] ->
      yields (sk amendment_suffix) o (lit " " ++ lit "helyébe" ++ lit " " ++ f ++ lit " " ++ w ++ v) tt (o + utf8_len (lit " " ++ lit "helyébe" ++ lit " " ++ f ++ lit " " ++ w)) v).
    { intros f w F IW. apply y_sk_sp; [reflexivity|]. unfold amendment_suffix. apply y_alt1. eapply y_bind; [apply y_T; reflexivity|].
      eapply y_bind; [apply y_sk_sp; [now apply following_ws|now apply y_the_following]|]. cbn [In] in IW. destruct IW as [<-|[<-|[]]]; cbn [one_of_sk].
      - apply y_alt1. eapply y_eq; [apply y_T_sp; reflexivity|lens].
      - apply y_alt2; [here|]. apply y_alt1. eapply y_eq; [apply y_T_sp; reflexivity|lens]. }
    assert (K2 : forall f, In f following -> yields (sk amendment_suffix) o (lit " " ++ f ++ lit " " ++ lit "szöveggel lép hatályba" ++ v) tt (o + utf8_len (lit " " ++ f ++ lit " " ++ lit "szöveggel lép hatályba")) v).
    { intros f F. apply y_sk_sp; [now apply following_ws|]. unfold amendment_suffix. apply y_alt2; [apply f_bind1; clear - F; unfold following in F; cbn [map In] in F; destruct F as [<-|[<-|[]]]; here|]. apply y_alt1.
      eapply y_bind; [apply y_sk; [now apply following_ws|now apply y_the_following]|]. eapply y_eq; [apply y_T_sp; reflexivity|lens]. }
    assert (K3 : yields (sk amendment_suffix) o (lit " " ++ lit "az alábbiak szerint módosul" ++ v) tt (o + utf8_len (lit " " ++ lit "az alábbiak szerint módosul")) v).
    { apply y_sk_sp; [reflexivity|]. unfold amendment_suffix. apply y_alt2; [here|]. apply y_alt2; [here|].
      assert (E : lit "az alábbiak szerint módosul" = lit "az " ++ lit "alábbi" ++ lit "ak" ++ lit " " ++ lit "szerint módosul") by (vm_compute; reflexivity). rewrite E, <- !app_assoc.
      eapply y_bind; [apply y_sk; [reflexivity|]; unfold the_following|eapply y_eq; [apply y_T_sp; reflexivity|]].
      - eapply y_bind; [apply y_some; cbn [one_of]; apply y_alt2; [here|]; apply y_alt1, y_tok|]. apply y_alt2; [here|]. apply (y_suffixed known "alábbi" (lit "ak")); reflexivity.
      - lens. }
    assert (E : replacement_words = flat_map (fun f => map (fun w => lit " " ++ lit "helyébe" ++ lit " " ++ f ++ lit " " ++ w) [lit "rendelkezés lép"; lit "rendelkezések lépnek"]) following ++
      map (fun f => lit " " ++ f ++ lit " " ++ lit "szöveggel lép hatályba") following ++ [lit " " ++ lit "az alábbiak szerint módosul"]) by (vm_compute; reflexivity).
    rewrite E. intros I. apply in_app_or in I as [I|I]; [|apply in_app_or in I as [I|I]].
    - apply in_flat_map in I as (f & F & I). apply in_map_iff in I as (w & <- & I). rewrite <- !app_assoc. now apply K1.
    - apply in_map_iff in I as (f & <- & F). rewrite <- !app_assoc. now apply K2.
    - destruct I as [<-|[]]. rewrite <- app_assoc. exact K3.
  Qed.
  Record goes_on (t : str) : Prop := {
    go_ref : after_ref known t; go_par : forall o, fails (sk paragraph_reference) o t;
    go_tpar : forall A (k : list g_part -> parser A) o, fails (sk insertion_token ;; q <- sk paragraph_reference ;; k q) o t;
    go_tpoint : forall A (k : two_kinds -> parser A) o, fails (sk insertion_token ;; q <- points_of ;; k q) o t;
    go_tsub : forall A (k : two_kinds -> parser A) o, fails (sk insertion_token ;; q <- subpoints_of ;; k q) o t }.
  Lemma replacing_on e v : In e replacement_words -> goes_on (e ++ v).
  Proof.
    intros I. unfold replacement_words in I. cbn [map In] in I.
    repeat (destruct I as [<-|I]; [constructor; [constructor; [reflexivity|reflexivity|failing..]|failing|intros A k o; intros g _; vm_compute; reflexivity..]|]). contradiction.
  Qed.
  Lemma head_ends x yo s t : ins_head x yo s -> before_point known t -> (forall A (k : two_kinds -> parser A) o, fails (sk insertion_token ;; q <- points_of ;; k q) o t) ->
    (forall o A (k : two_kinds -> two_kinds -> parser A), fails (p <- points_of ;; sk insertion_token ;; q <- subpoints_of ;; k p q) o t) ->
    forall o, fails insertion_reference o (s ++ t).
  Proof.
    intros H B FT FP o. destruct (y_ins_head known x yo s t o H B) as (p & po & o1 & t1 & NT & _ & _ & _ & YZ & YA & YP & NK).
    unfold insertion_reference. apply f_located. apply f_alt; [apply f_bind1, NT|]. apply f_alt; [apply f_bind1, NT|]. apply f_alt; [|apply f_alt].
    - eapply f_bind2; [apply y_some, y_alt1; eapply y_bind; [exact YZ|]; eapply y_bind; [exact YA|apply y_ret]|]. apply NK.
    - eapply f_bind2; [apply y_some, y_alt1; eapply y_bind; [exact YZ|]; eapply y_bind; [exact YA|]; eapply y_bind; [exact YP|apply y_ret]|]. apply FT.
    - eapply f_bind2; [exact YZ|]. eapply f_bind2; [exact YA|]. eapply f_bind2; [exact YP|]. apply FP.
  Qed.
  Lemma not_inserted r x s u : readable_ref r -> f_article r = Some x -> said_ended (lower_parts r) s -> goes_on u -> forall o, fails insertion_reference o (s ++ u).
  Proof.
    intros RD EX H [AF NP TP TQ TS] o. destruct (points_split r x s RD EX H) as [HH|(q & s1 & i & e & s2 & G & C & HH & FE & -> & K)].
    - apply (head_ends x (f_paragraph r)); [exact HH| |exact TQ|].
      + constructor; [apply (ar_lower _ _ AF)|apply (ar_dash _ _ AF)|apply (ar_no_dash _ _ AF)|exact NP|]. intros o' A k. apply TP.
      + intros o' A k. apply f_bind1, (ar_point _ _ AF).
    - rewrite <- !app_assoc. destruct (pt_said q i C) as (n' & SP).
      assert (W : quiet is_hun_lower (s2 ++ u)) by (destruct K as [->|(s3 & -> & _)]; [apply (ar_lower _ _ AF)|reflexivity]).
      assert (NT : forall A (k : two_kinds -> parser A) o, fails (sk insertion_token ;; q <- subpoints_of ;; k q) o (s2 ++ u)).
      { intros A k o'. destruct K as [->|(s3 & -> & K)]; [apply TS|]. rewrite <- app_assoc. apply f_bind1, (f_token known (lit " ")); [apply lead_space|apply K]. }
      apply (head_ends x (f_paragraph r)); [exact HH| | |].
      + destruct (before_part known (lit "a következő") [] (PartPoint q) i (lit "pont") n' (lit " " ++ lit "pont" ++ e ++ s2 ++ u) lead_none (or_introl eq_refl) G SP) as [_ B]; [discriminate|discriminate|exact B].
      + intros A k o'. apply f_bind1, (f_token known (lit " ")); [apply lead_space|]. eapply first_of_part; [|exact SP]; exact G.
      + intros o' A k. destruct (y_points known q i (lit " ") o' e (s2 ++ u) G C lead_space FE W) as (z & Y & _). eapply f_bind2; [exact Y|]. apply NT.
  Qed.
End Run.
