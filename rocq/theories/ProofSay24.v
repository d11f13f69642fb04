(** Proofs for C77: references to chapters, parts and titles are read. *)
From Verif Require Export ProofSay23.
From Coq Require Import Lia.
Local Open Scope peg_scope.
Local Open Scope N_scope.

Lemma capital_is c : capital_letter c -> is_hun_upper c = true.
Proof.
  intros [H|H]; unfold is_hun_upper.
  - apply orb_true_iff. left. unfold in_range. rewrite andb_true_iff, !N.leb_le. lia.
  - apply orb_true_iff. right. apply existsb_exists. exists c. split; [exact H|apply N.eqb_refl].
Qed.
Lemma word_ending_is e : word_ending e -> forallb is_hun_any e = true.
Proof.
  intros H. apply forallb_forall. intros c I. unfold word_ending in H. rewrite Forall_forall in H. unfold is_hun_any. destruct (H c I) as [S|S]; [rewrite (small_is c S)|rewrite (capital_is c S)]; auto using orb_true_r.
Qed.
Definition kind_rule : parser g_struct_kind :=
  (i <- sk chapter_reference ;; ret (GChapter i))
  <|> (i <- sk part_reference ;; ret (GPart i))
  <|> (i <- sk title_reference ;; ret (GTitle i))
  <|> (p <- sk subtitle_reference_part ;; sk subtitle_suffix ;; ret (GSubtitlePart p))
  <|> (t <- sk subtitle_title ;; ret (GSubtitleTitle t)).
Lemma inner_is : struct_inner = (b <- opt (sk book_reference) ;; k <- kind_rule ;; t <- opt (sk title_only_token) ;; ret (mkGAny b k (is_some t))).
Proof. reflexivity. Qed.

Lemma element_cap p k s t : element_said p k s -> cap_first (s ++ t).
Proof.
  intros [n i w e R _ _|n i w e R _ _|n i w e R _ _]; rewrite <- app_assoc; [apply roman_cap; now apply (roman_is n)..|now apply (ordinal_cap n)].
Qed.
Lemma book_cap b s t : book_said b s -> cap_first (s ++ t).
Proof. intros [n i w e R _ _]. rewrite <- app_assoc. now apply (ordinal_cap n). Qed.
Lemma in_book_cap b k s t : element_in_book b k s -> cap_first (s ++ t).
Proof. intros [p k' s' H|b' sb p k' s' B H]; [now apply (element_cap p k')|]. rewrite <- app_assoc. now apply (book_cap b'). Qed.

Section Run.
  Variables (rf : str -> option Z) (known : list str).
  Hypothesis roman : roman_from_reads rf.
  Local Notation yields := (yields known).
  Local Notation fails := (fails known).
  Lemma y_noun words w e o u : (forall v, pick words (w ++ v) = Some (w, v)) -> quiet is_ascii_ws w -> w <> [] -> word_ending e -> quiet is_hun_any u ->
    exists l, yields (sk (one_of words ;; many hun_any)) o (lit " " ++ w ++ e ++ u) l (o + 1 + utf8_len w + utf8_len e) u.
  Proof.
    intros P W NE E Q. apply word_ending_is in E. destruct (y_many_chars known is_hun_any e (o + 1 + utf8_len w) u E Q) as [l Y]. exists l. apply y_sk_sp; [destruct w; [congruence|exact W]|].
    eapply y_bind; [apply (y_pick known words _ w (e ++ u)), P|exact Y].
  Qed.
  Lemma y_chapter i w e l o u : roman_text i -> In w words_for_chapter -> word_ending e -> quiet is_hun_any u -> lead l ->
    yields (sk chapter_reference) o (l ++ (i ++ lit "." ++ lit " " ++ w ++ e) ++ u) i (o + utf8_len (l ++ i ++ lit "." ++ lit " " ++ w ++ e)) u.
  Proof.
    intros R I E Q L. rewrite <- !app_assoc. pose proof (cap_ws _ (roman_cap i (lit "." ++ lit " " ++ w ++ e ++ u) R)) as W. eapply y_eq; [apply y_sk_lead; [exact L|exact W|]|].
    - unfold chapter_reference. eapply y_bind; [apply y_chapter_id, R|]. eapply y_bind; [apply y_T; reflexivity|].
      assert (K : exists x, yields (sk (one_of ["fejezet"; "Fejezet"; "FEJEZET"]%string ;; many hun_any)) (o + utf8_len l + utf8_len i + utf8_len (lit ".")) (lit " " ++ w ++ e ++ u) x (o + utf8_len l + utf8_len i + utf8_len (lit ".") + 1 + utf8_len w + utf8_len e) u).
      { unfold words_for_chapter in I. cbn [map In] in I. destruct I as [<-|[<-|[<-|[]]]]; (apply y_noun; [intros v; vm_compute; reflexivity|reflexivity|discriminate|exact E|exact Q]). }
      destruct K as [x Y]. eapply y_bind; [exact Y|apply y_ret].
    - rewrite !utf8_len_app. change (utf8_len (lit " ")) with 1. lia.
  Qed.
  Lemma y_title_ref i w e l o u : roman_text i -> In w words_for_title -> word_ending e -> quiet is_hun_any u -> lead l ->
    yields (sk title_reference) o (l ++ (i ++ lit "." ++ lit " " ++ w ++ e) ++ u) i (o + utf8_len (l ++ i ++ lit "." ++ lit " " ++ w ++ e)) u.
  Proof.
    intros R I E Q L. rewrite <- !app_assoc. pose proof (cap_ws _ (roman_cap i (lit "." ++ lit " " ++ w ++ e ++ u) R)) as W. eapply y_eq; [apply y_sk_lead; [exact L|exact W|]|].
    - unfold title_reference. eapply y_bind; [apply y_chapter_id, R|]. eapply y_bind; [apply y_T; reflexivity|].
      assert (K : exists x, yields (sk (one_of ["cím"; "Cím"; "CÍM"]%string ;; many hun_any)) (o + utf8_len l + utf8_len i + utf8_len (lit ".")) (lit " " ++ w ++ e ++ u) x (o + utf8_len l + utf8_len i + utf8_len (lit ".") + 1 + utf8_len w + utf8_len e) u).
      { unfold words_for_title in I. cbn [map In] in I. destruct I as [<-|[<-|[<-|[]]]]; (apply y_noun; [intros v; vm_compute; reflexivity|reflexivity|discriminate|exact E|exact Q]). }
      destruct K as [x Y]. eapply y_bind; [exact Y|apply y_ret].
    - rewrite !utf8_len_app. change (utf8_len (lit " ")) with 1. lia.
  Qed.
  Lemma y_part_ref n i w e l o u : capital_ordinal n i -> In w words_for_part -> word_ending e -> quiet is_hun_any u -> lead l ->
    yields (sk part_reference) o (l ++ (i ++ lit " " ++ w ++ e) ++ u) i (o + utf8_len (l ++ i ++ lit " " ++ w ++ e)) u.
  Proof.
    intros R I E Q L. rewrite <- !app_assoc. pose proof (cap_ws _ (ordinal_cap n i (lit " " ++ w ++ e ++ u) R)) as W. eapply y_eq; [apply y_sk_lead; [exact L|exact W|]|].
    - unfold part_reference. eapply y_bind; [apply (y_ordinal known n), R|].
      assert (K : exists x, yields (sk (one_of ["rész"; "Rész"; "RÉSZ"]%string ;; many hun_any)) (o + utf8_len l + utf8_len i) (lit " " ++ w ++ e ++ u) x (o + utf8_len l + utf8_len i + 1 + utf8_len w + utf8_len e) u).
      { unfold words_for_part in I. cbn [map In] in I. destruct I as [<-|[<-|[<-|[]]]]; (apply y_noun; [intros v; vm_compute; reflexivity|reflexivity|discriminate|exact E|exact Q]). }
      destruct K as [x Y]. eapply y_bind; [exact Y|apply y_ret].
    - rewrite !utf8_len_app. change (utf8_len (lit " ")) with 1. lia.
  Qed.
  Lemma y_book_ref n i w e l o u : capital_ordinal n i -> In w words_for_book -> word_ending e -> quiet is_hun_any u -> lead l ->
    yields (sk book_reference) o (l ++ (i ++ lit " " ++ w ++ e) ++ u) i (o + utf8_len (l ++ i ++ lit " " ++ w ++ e)) u.
  Proof.
    intros R I E Q L. rewrite <- !app_assoc. pose proof (cap_ws _ (ordinal_cap n i (lit " " ++ w ++ e ++ u) R)) as W. eapply y_eq; [apply y_sk_lead; [exact L|exact W|]|].
    - unfold book_reference. eapply y_bind; [apply (y_ordinal known n), R|].
      assert (K : exists x, yields (sk (one_of ["könyv"; "Könyv"; "KÖNYV"]%string ;; many hun_any)) (o + utf8_len l + utf8_len i) (lit " " ++ w ++ e ++ u) x (o + utf8_len l + utf8_len i + 1 + utf8_len w + utf8_len e) u).
      { unfold words_for_book in I. cbn [map In] in I. destruct I as [<-|[<-|[<-|[]]]]; (apply y_noun; [intros v; vm_compute; reflexivity|reflexivity|discriminate|exact E|exact Q]). }
      destruct K as [x Y]. eapply y_bind; [exact Y|apply y_ret].
    - rewrite !utf8_len_app. change (utf8_len (lit " ")) with 1. lia.
  Qed.
  Lemma f_book p k s l o u : element_said p k s -> lead l -> fails (sk book_reference) o (l ++ s ++ u).
  Proof.
    intros H L. pose proof (cap_ws _ (element_cap p k s u H)) as W. apply f_sk_lead; [exact L|exact W|]. intros o'. unfold book_reference. destruct H as [n i w e R I E|n i w e R I E|n i w e R I E]; rewrite <- !app_assoc.
    - apply f_bind1, f_ordinal_roman. now apply (roman_is n).
    - apply f_bind1, f_ordinal_roman. now apply (roman_is n).
    - eapply f_bind2; [apply (y_ordinal known n), R|]. apply f_bind1. unfold words_for_part in I. cbn [map In] in I. destruct I as [<-|[<-|[<-|[]]]]; here.
  Qed.
  Lemma y_kind p k s l o u : element_said p k s -> quiet is_hun_any u -> lead l ->
    exists kd, yields kind_rule o (l ++ s ++ u) kd (o + utf8_len (l ++ s)) u /\ struct_kind rf kd = Ok p /\ sr_element_of_parent p = k.
  Proof.
    intros H Q L. pose proof (cap_ws _ (element_cap p k s u H)) as W. unfold kind_rule. destruct H as [n i w e R I E|n i w e R I E|n i w e R I E].
    - exists (GChapter i). split; [|split; [unfold struct_kind, se_parse_identifier; now rewrite (roman_value rf n i roman R)|reflexivity]]. apply y_alt1. eapply y_bind; [apply y_chapter; auto; now apply (roman_is n)|apply y_ret].
    - exists (GTitle i). split; [|split; [unfold struct_kind, se_parse_identifier; now rewrite (roman_value rf n i roman R)|reflexivity]]. apply y_alt2; [|apply y_alt2; [|apply y_alt1]].
      + apply f_bind1, f_sk_lead; [exact L|exact W|]. intros o'. rewrite <- !app_assoc. unfold chapter_reference. eapply f_bind2; [apply y_chapter_id; now apply (roman_is n)|]. eapply f_bind2; [apply y_T; reflexivity|].
        apply f_bind1. unfold words_for_title in I. cbn [map In] in I. destruct I as [<-|[<-|[<-|[]]]]; here.
      + apply f_bind1, f_sk_lead; [exact L|exact W|]. intros o'. rewrite <- !app_assoc. apply f_bind1, f_ordinal_roman. now apply (roman_is n).
      + eapply y_bind; [apply y_title_ref; auto; now apply (roman_is n)|apply y_ret].
    - exists (GPart i). split; [|split; [unfold struct_kind, se_parse_identifier; now rewrite (ordinal_value n i R)|reflexivity]]. apply y_alt2; [|apply y_alt1].
      + apply f_bind1, f_sk_lead; [exact L|exact W|]. intros o'. rewrite <- !app_assoc. now apply (f_chapter_ordinal known n).
      + eapply y_bind; [apply (y_part_ref n); auto|apply y_ret].
  Qed.
  Definition tree_is (b : option numeric) (k : sr_element) (t : bool) (a : g_any_struct) : Prop :=
    struct_ref_of rf a = Ok (mkSRef None b None k t).
  Definition word_over (u : str) : Prop := quiet is_hun_any u /\ forall o, fails (sk title_only_token) o u.
  Lemma title_only_over t s u : title_only_said t s -> word_over u -> quiet is_hun_any (s ++ u) /\
    forall o, exists x, yields (opt (sk title_only_token)) o (s ++ u) x (o + utf8_len s) u /\ is_some x = t.
  Proof.
    intros S [Q NT]. assert (QL : quiet is_hun_lower u) by (revert Q; apply quiet_sub; intros c H; unfold is_hun_any; now rewrite H). destruct S as [| | |e F].
    - cbn [app]. split; [exact Q|]. intros o. exists None. split; [|reflexivity]. change (utf8_len []) with 0. rewrite N.add_0_r. now apply y_none.
    - split; [reflexivity|]. intros o. exists (Some tt). split; [|reflexivity]. apply y_some. rewrite <- app_assoc, utf8_len_app, N.add_assoc. apply y_sk_sp; [reflexivity|]. apply y_alt1. eapply y_bind; [apply y_tok|]. eapply y_void, y_none.
      apply f_tok. change (lit "i") with [105]. clear - QL. destruct u as [|x u]; [reflexivity|]. cbn [strip_prefix]. destruct (N.eqb_spec 105 x) as [<-|]; [discriminate QL|reflexivity].
    - split; [reflexivity|]. intros o. exists (Some tt). split; [|reflexivity]. apply y_some. change (lit "címei") with (lit "címe" ++ lit "i"). rewrite <- !app_assoc, !utf8_len_app, !N.add_assoc. apply y_sk_sp; [reflexivity|]. apply y_alt1.
      eapply y_bind; [apply y_tok|]. eapply y_void, y_some, y_tok.
    - split; [reflexivity|]. intros o. exists (Some tt). split; [|reflexivity]. apply y_some. rewrite <- !app_assoc, !utf8_len_app, !N.add_assoc. apply y_sk_sp; [reflexivity|]. apply y_alt2; [apply f_bind1, f_tok; reflexivity|].
      unfold suffixed. eapply y_bind; [apply y_tok|]. destruct (y_many_chars known is_hun_lower e (o + 1 + utf8_len (lit "címé")) u (smalls e F) QL) as [x Y]. eapply y_void. exact Y.
  Qed.
  Lemma y_element b k s t s' u o : element_in_book b k s -> title_only_said t s' -> word_over u ->
    exists a, yields struct_inner o (s ++ s' ++ u) a (o + utf8_len (s ++ s')) u /\ tree_is b k t a.
  Proof.
    intros H T U. destruct (title_only_over t s' u T U) as [Q YT]. rewrite inner_is. unfold tree_is, struct_ref_of. destruct H as [p k s H|b sb p k s B H].
    - destruct (y_kind p k s [] o (s' ++ u) H Q lead_none) as (kd & Y & SK & EK). cbn [app] in Y. destruct (YT (o + utf8_len s)) as (x & YX & EX). exists (mkGAny None kd t). split.
      + eapply y_bind; [apply y_none; exact (f_book p k s [] o (s' ++ u) H lead_none)|]. eapply y_bind; [exact Y|]. eapply y_bind; [exact YX|]. rewrite EX. eapply y_eq; [apply y_ret|]. rewrite utf8_len_app. lia.
      + cbn [gas_book gas_ref gas_title_only opt_ok obind]. rewrite SK. cbn [obind]. now rewrite EK.
    - destruct B as [n i w e R I E]. destruct (y_kind p k s (lit " ") (o + utf8_len (i ++ lit " " ++ w ++ e)) (s' ++ u) H Q lead_space) as (kd & Y & SK & EK).
      destruct (YT (o + utf8_len (i ++ lit " " ++ w ++ e) + utf8_len (lit " " ++ s))) as (x & YX & EX). exists (mkGAny (Some i) kd t). split.
      + pose proof (y_book_ref n i w e [] o (lit " " ++ s ++ s' ++ u) R I E eq_refl lead_none) as YB. cbn [app] in YB.
        replace (((i ++ lit " " ++ w ++ e) ++ lit " " ++ s) ++ s' ++ u) with ((i ++ lit " " ++ w ++ e) ++ lit " " ++ s ++ s' ++ u) by (now rewrite <- !app_assoc).
        eapply y_bind; [apply y_some; exact YB|]. eapply y_bind; [exact Y|]. eapply y_bind; [exact YX|]. rewrite EX. eapply y_eq; [apply y_ret|]. rewrite !utf8_len_app. lia.
      + cbn [gas_book gas_ref gas_title_only opt_ok]. unfold book_of_grammar, se_parse_identifier. rewrite (ordinal_value n i R). cbn [obind]. rewrite SK. cbn [obind]. now rewrite EK.
  Qed.
  Lemma y_parent p k s u o : element_said p k s -> word_over u ->
    exists a, yields struct_inner o (s ++ u) a (o + utf8_len s) u /\ struct_parent_of rf a = Ok p.
  Proof.
    intros H [Q NT]. rewrite inner_is. destruct (y_kind p k s [] o u H Q lead_none) as (kd & Y & SK & EK). cbn [app] in Y. exists (mkGAny None kd false). split.
    - eapply y_bind; [apply y_none; exact (f_book p k s [] o u H lead_none)|]. eapply y_bind; [exact Y|]. eapply y_bind; [apply y_none, NT|]. apply y_ret.
    - unfold struct_parent_of. cbn [gas_title_only negb ensure obind gas_ref]. exact SK.
  Qed.
  Lemma f_title_cap o t : cap_first t -> fails (sk title_only_token) o (lit " " ++ t).
  Proof.
    intros H. each_cap H. repeat (destruct I as [<-|I]; [here|]). contradiction.
  Qed.
  Lemma over_cap t : cap_first t -> word_over (lit " " ++ t).
  Proof. intros H. split; [reflexivity|]. intros o. now apply f_title_cap. Qed.
  Lemma over_mid f t : In f following -> word_over (lit " " ++ f ++ lit " " ++ t).
  Proof. intros I. split; [reflexivity|]. unfold following in I. cbn [map In] in I. destruct I as [<-|[<-|[]]]; failing. Qed.
  Lemma over_replaced e : In e structural_endings -> word_over e.
  Proof.
    intros I. unfold structural_endings in I. apply in_app_or in I as [I|I].
    - unfold replacement_endings in I. cbn [map In] in I. repeat (destruct I as [<-|I]; [split; [reflexivity|failing]|]). contradiction.
    - apply in_flat_map in I as (f & I & J). apply in_map_iff in J as (w & <- & J). split; [reflexivity|failing].
  Qed.
  Lemma over_inserted e : In e insertion_endings -> word_over e.
  Proof. intros I. unfold insertion_endings in I. cbn [map In] in I. repeat (destruct I as [<-|I]; [split; [reflexivity|failing]|]). contradiction. Qed.
End Run.
