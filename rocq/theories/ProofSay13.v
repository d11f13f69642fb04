(** Proofs for C74-: one reference of a list, and the list. *)
From Verif Require Export ProofSay12.
From Coq Require Import Lia.
Local Open Scope peg_scope.
Local Open Scope N_scope.

Definition low (c : char) : bool := is_digit c || (c =? 40) || in_range 97 122 c.
Definition low_first (t : str) : Prop := exists c u, t = c :: u /\ low c = true.
Lemma part_low t : part_first t -> low_first t.
Proof.
  intros [(d & u & -> & D)|[(u & ->)|(v & u & -> & NE & F & _)]].
  - exists d, u. split; [reflexivity|]. unfold low. now rewrite D.
  - exists 40, u. split; reflexivity.
  - destruct v as [|x v]; [congruence|]. cbn [forallb] in F. apply andb_true_iff in F as [F _]. exists x, (v ++ 41 :: u). split; [reflexivity|]. unfold low. rewrite F. apply orb_true_r.
Qed.
Lemma low_cases c : low c = true -> 40 = c \/ 48 <= c <= 57 \/ 97 <= c <= 122.
Proof. unfold low, is_digit, in_range. rewrite !orb_true_iff, !andb_true_iff, !N.leb_le, N.eqb_eq. lia. Qed.
Definition lows : list N := 40 :: map N.of_nat (seq 48 10 ++ seq 97 26).
Lemma low_in c : low c = true -> In c lows.
Proof.
  intros H. apply low_cases in H. destruct H as [<-|H]; [now left|]. right. apply in_map_iff. exists (N.to_nat c). split; [now apply N2Nat.id|]. apply in_or_app. rewrite !in_seq. lia.
Qed.
Lemma low_not f t : forallb (fun c => negb (f c)) lows = true -> low_first t -> quiet f t.
Proof. intros H (c & u & -> & L). cbn [quiet]. rewrite forallb_forall in H. specialize (H c (low_in c L)). now destruct (f c). Qed.
Lemma low_ws t : low_first t -> quiet is_ascii_ws t.
Proof. apply low_not. vm_compute. reflexivity. Qed.

Section Run.
  Variable known : list str.
  Local Notation yields := (yields known).
  Local Notation fails := (fails known).
  Lemma f_one_low l o t : forallb (fun s => match lit s with x :: _ => negb (low x) | [] => false end) l = true -> low_first t -> fails (one_of l) o t.
  Proof.
    intros H (c & u & -> & L). apply f_one_of. rewrite forallb_forall in *. intros s I. specialize (H s I). destruct (lit s) as [|x w]; [discriminate|].
    cbn [strip_prefix]. destruct (N.eqb_spec x c) as [->|]; [rewrite L in H; discriminate|reflexivity].
  Qed.
  Lemma f_capital_low o t : low_first t -> fails (sk hungarian_ordinal_capital) o t.
  Proof. intros L. apply f_sk; [now apply low_ws|]. apply f_sliced, f_one_low; [vm_compute; reflexivity|exact L]. Qed.
  Lemma f_chapter_low o t : low_first t -> fails (sk chapter_id) o t.
  Proof.
    intros L. pose proof (low_ws t L) as W. apply f_sk; [exact W|]. apply f_sliced, f_bind1, f_sk; [exact W|]. apply f_sliced, f_many1, f_chr. apply low_not; [vm_compute; reflexivity|exact L].
  Qed.
  Lemma f_subtitle_title_low o t : low_first t -> fails (sk subtitle_title) o t.
  Proof.
    intros L. pose proof (low_ws t L) as W. apply f_sk; [exact W|]. apply f_bind1. apply f_alt; (apply f_sk; [exact W|]).
    - apply f_bind1. apply (f_T_lead known "„" 8222 [] [] o t); auto using lead_none. apply low_not; [vm_compute; reflexivity|exact L].
    - apply f_sliced, f_bind1, f_sk; [exact W|]. apply f_bind1, f_chr. apply low_not; [vm_compute; reflexivity|exact L].
  Qed.
  (** No subtitle *)
  Definition no_subtitle (t : str) : Prop := forall o A (k : g_subtitle_part -> parser A), fails (p <- sk subtitle_reference_part ;; sk subtitle_suffix ;; k p) o t.
  Lemma f_struct_low o t : low_first t -> no_subtitle t -> fails struct_inner o t.
  Proof.
    intros L S. pose proof (low_ws t L) as W. unfold struct_inner. eapply f_bind2; [apply y_none, f_sk; [exact W|]; apply f_bind1; now apply f_capital_low|]. apply f_bind1. repeat apply f_alt.
    - apply f_bind1, f_sk; [exact W|]. apply f_bind1. now apply f_chapter_low.
    - apply f_bind1, f_sk; [exact W|]. apply f_bind1. now apply f_capital_low.
    - apply f_bind1, f_sk; [exact W|]. apply f_bind1. now apply f_chapter_low.
    - apply S.
    - apply f_bind1. now apply f_subtitle_title_low.
  Qed.
  Definition sub_part_or_none (t v : str) : Prop := (forall o, fails subtitle_reference_part o t) \/ (forall o, exists p o', yields subtitle_reference_part o t p o' (lit " " ++ v)).
  Lemma sub_article r i v : y_art_facts r i -> sub_part_or_none (i ++ lit " " ++ lit "§" ++ v) (lit "§" ++ v).
  Proof.
    intros ((G1 & G2) & B & L1 & L2 & C).
    assert (N1 : numeric_ok (a_ident (r_start r)) = true) by (unfold article_ok in G1; apply andb_true_iff in G1; tauto).
    assert (N2 : numeric_ok (a_ident (r_end r)) = true) by (unfold article_ok in G2; apply andb_true_iff in G2; tauto).
    destruct (a_book (r_start r)) as [b|] eqn:EB.
    - left. intros o. destruct C as [[_ ->]|[_ ->]]; unfold from_to, article_show; rewrite EB, <- !app_assoc; apply f_subtitle_part_book.
    - right. intros o. assert (ES : article_show (r_start r) = numeric_show_slash (a_ident (r_start r))) by (unfold article_show; now rewrite EB).
      assert (EE : article_show (r_end r) = numeric_show_slash (a_ident (r_end r))) by (unfold article_show; now rewrite <- B).
      destruct C as [[_ ->]|[_ ->]]; unfold from_to in *; rewrite ES, ?EE, <- ?app_assoc in *.
      + eexists _, _. apply y_alt2.
        * eapply f_bind2; [apply y_sk; [apply quiet_ws_slash|apply y_subtitle_id; auto using stop_dot]|]. eapply f_bind2; [apply y_some; apply y_T; reflexivity|].
          apply f_bind1, f_sk_sp; [reflexivity|]. now apply f_chr.
        * eapply y_bind; [apply y_sk; [apply quiet_ws_slash|apply y_subtitle_id; auto using stop_dot]|]. eapply y_bind; [apply y_T; reflexivity|]. apply y_ret.
      + eexists _, _. apply y_alt1.
        eapply y_bind; [apply y_sk; [apply quiet_ws_slash|apply y_subtitle_id; auto using stop_dash]|]. eapply y_bind; [apply y_none, f_T; reflexivity|].
        eapply y_bind; [apply y_dash|]. eapply y_bind; [apply y_sk; [apply quiet_ws_slash|apply y_subtitle_id; auto using stop_dot]|]. eapply y_bind; [apply y_T; reflexivity|]. apply y_ret.
  Qed.
  Lemma no_sub t v : quiet is_ascii_ws t -> noun_like v -> strip_prefix (lit "alcím") v = None -> sub_part_or_none t v -> no_subtitle t /\ forall o, fails subtitles_reference o t.
  Proof.
    intros W N S H. destruct (noun_facts _ [] N) as (N1 & N2 & N3). rewrite app_nil_r in *.
    assert (FS : forall o, fails (sk subtitle_suffix) o (lit " " ++ v)) by (intros o; apply f_sk_sp; [exact N1|]; apply f_bind1; now apply f_tok).
    destruct H as [H|H]; split.
    - intros o A k. apply f_bind1, f_sk; [exact W|apply H].
    - intros o. apply f_bind1. apply (f_sep known _ [] o t lead_none W H).
    - intros o A k. destruct (H o) as (p & o' & Y). eapply f_bind2; [apply y_sk; [exact W|exact Y]|]. apply f_bind1, FS.
    - intros o. destruct (H (o + utf8_len [])) as (p & o' & Y). eapply f_bind2; [apply (y_sep_one known _ [] o t p o' (lit " ") v lead_none W Y lead_space); auto|]. apply f_bind1, FS.
  Qed.
  Lemma sub_none t : quiet is_ascii_ws t -> quiet is_digit t -> forall o, fails subtitle_reference_part o t.
  Proof. intros W D o. apply f_alt; apply f_bind1, f_sk; try exact W; apply f_sliced, f_bind1, f_sk; try exact W; now apply f_number. Qed.

  (** ** After a reference *)
  Record follows (u : str) : Prop := {
    fo_ref : after_ref known u;
    fo_before : forall o, fails (one_of_sk ["megelőzően"; "megelőző"; "előtti"]%string) o u;
    fo_after : forall o, fails (one_of_sk ["követően"; "követő"]%string) o u;
    fo_title : forall o, fails (sk (opt (tok "szakasz") ;; tok "cím" ;; many1 hun_lower)) o u;
    fo_intro : forall o, fails ((T "nyitó" ;; ret GIntro) <|> (T "záró" ;; ret GWrapUp)) o u }.
  (** What is after the noun of the article *)
  Record beyond (u : str) : Prop := {
    be_dash : forall o, fails (sk dash) o u; 
    be_before : forall o, fails (one_of_sk ["megelőzően"; "megelőző"; "előtti"]%string) o u;
    be_after : forall o, fails (one_of_sk ["követően"; "követő"]%string) o u;
    be_title : forall o, fails (sk (opt (tok "szakasz") ;; tok "cím" ;; many1 hun_lower)) o u }.
  Lemma beyond_follows u : follows u -> beyond u.
  Proof. intros [A B C D E]. constructor; auto. apply A. Qed.
  Lemma beyond_part t : part_first t -> beyond (lit " " ++ t).
  Proof.
    intros P. constructor.
    - intros o. exact (no_dash_part known (lit " ") t lead_space P o).
    - intros o. apply (f_words known _ (lit " ") o t lead_space P). vm_compute. reflexivity.
    - intros o. apply (f_words known _ (lit " ") o t lead_space P). vm_compute. reflexivity.
    - intros o. apply f_sk_sp; [now apply first_ws|]. eapply f_bind2; [apply y_none, f_tok, no_word; [exact P|vm_compute; reflexivity]|]. apply f_bind1, f_tok, no_word; [exact P|vm_compute; reflexivity].
  Qed.
  (** The first part of a phrase *)
  Inductive first_part (t : str) : Prop :=
  | first_article x i n r : y_art_facts x i -> article_noun n r -> beyond r -> t = i ++ lit " " ++ n ++ r -> (exists v, n ++ r = lit "§" ++ v) -> first_part t
  | first_num x i s : range_of (fun x => numeric_ok x = true) x -> dotted numeric_show x i -> (exists v, s = lit "pont" ++ v \/ s = lit "alpont" ++ v) -> t = i ++ lit " " ++ s -> first_part t
  | first_other : quiet is_digit t -> first_part t.
  Lemma phrase_first r s u : readable_ref r -> lower_parts r <> [] -> said_ended (lower_parts r) s -> follows u -> part_first (s ++ u) /\ begins (s ++ u) /\ first_part (s ++ u).
  Proof.
    intros R NE S F. pose proof (parts_good r R) as PG. pose proof (proj1 (ended_begins known _ _ u 0 PG S)) as BG.
    destruct (lower_parts r) as [|p ps] eqn:EP; [congruence|]. inversion PG as [|p' ps' G PG']; subst p' ps'. apply ended_split in S as (i & n & n' & P & H).
    assert (E : exists v, s ++ u = i ++ lit " " ++ n ++ v) by (destruct H as [(_ & e & _ & ->)|(s' & _ & ->)]; rewrite <- !app_assoc; eexists; reflexivity).
    assert (PF : part_first (s ++ u)) by (destruct E as (v & ->); now apply (first_of_part p i n n')).
    split; [exact PF|]. split; [exact BG|].
    destruct p as [|a|x|x|[x|x]|[x|x]]; inversion P as [r0 i0 C|r0 i0 C|r0 i0 C|r0 i0 C|r0 i0 C|r0 i0 C]; subst; cbn in G.
    - assert (EX : f_article r = Some x).
      { unfold lower_parts in EP. destruct (f_article r); [now injection EP as -> _|]. destruct (f_paragraph r), (f_point r), (f_subpoint r); discriminate EP. }
      destruct (article_facts r x i _ _ R EX P) as [A _]. destruct H as [(_ & e & EN & ->)|(s' & S' & ->)]; rewrite <- !app_assoc.
      + apply (first_article _ x i (lit "§" ++ e) u A); [apply (noun_ended known x); [exact EN|apply F]|now apply beyond_follows|now rewrite <- app_assoc|eexists; now rewrite <- app_assoc].
      + apply (first_article _ x i (lit "§") (lit " " ++ s' ++ u) A); [apply noun_plain| |reflexivity|eexists; reflexivity]. apply beyond_part.
        destruct ps as [|p ps]; [now apply ended_nil in S'|]. inversion PG' as [|p' ps' G' _]; subst p' ps'. apply ended_split in S' as (i' & n1 & n2 & P' & H').
        destruct H' as [(_ & e & _ & ->)|(s1 & _ & ->)]; rewrite <- !app_assoc; now apply (first_of_part p i' n1 n2).
    - apply first_other. destruct E as (v & ->). destruct C as [[_ ->]|[_ ->]]; reflexivity.
    - destruct E as (v & ->). apply (first_num _ x i (lit "pont" ++ v) G C); [exists v; now left|reflexivity].
    - apply first_other. destruct PF as [D|[(w & ->)|(w & y & -> & NW & FW & _)]]; [exfalso|reflexivity|].
      + destruct E as (v & E). rewrite E in D. destruct C as [[_ ->]|[_ ->]]; unfold from_to in D; cbn [app] in D; rewrite <- ?app_assoc in D; destruct (hic_letters _ (proj1 G)) as (A1 & A2 & _); destruct (hic_show (r_start x)) as [|z zs]; [congruence| |congruence|];
          destruct D as (d & y & D & DD); injection D as -> _; cbn [forallb] in A2; apply andb_true_iff in A2 as [A2 _]; pose proof (digit_not_az d DD); congruence.
      + destruct w as [|z zs]; [congruence|]. cbn [forallb] in FW. apply andb_true_iff in FW as [FW _]. cbn. destruct (is_digit z) eqn:DD; [|reflexivity]. pose proof (digit_not_az z DD). congruence.
    - destruct E as (v & ->). apply (first_num _ x i (lit "alpont" ++ v) (proj1 G) C); [exists v; now right|reflexivity].
    - apply first_other. destruct PF as [D|[(w & ->)|(w & y & -> & NW & FW & _)]]; [exfalso|reflexivity|].
      + destruct E as (v & E). rewrite E in D. destruct C as [[_ ->]|[_ ->]]; unfold from_to in D; cbn [app] in D; rewrite <- ?app_assoc in D; destruct (prefixed_letters _ (proj1 (proj1 G)) (proj2 (proj1 G))) as (A1 & A2 & _); destruct (prefixed_show (r_start x)) as [|z zs]; [congruence| |congruence|];
          destruct D as (d & y & D & DD); injection D as -> _; cbn [forallb] in A2; apply andb_true_iff in A2 as [A2 _]; pose proof (digit_not_az d DD); congruence.
      + destruct w as [|z zs]; [congruence|]. cbn [forallb] in FW. apply andb_true_iff in FW as [FW _]. cbn. destruct (is_digit z) eqn:DD; [|reflexivity]. pose proof (digit_not_az z DD). congruence.
  Qed.
  Lemma noun_facts2 s v : s = lit "pont" ++ v \/ s = lit "alpont" ++ v -> noun_like s /\ quiet (N.eqb 167) s /\ strip_prefix (lit "alcím") s = None.
  Proof. intros [->| ->]; (split; [repeat split; reflexivity|split; reflexivity]). Qed.
  Lemma first_refused t : low_first t -> begins t -> first_part t ->
    (forall o, fails article_title_reference o t) /\ (forall o, fails article_relative_position o t) /\ (forall o, fails struct_inner o t) /\ (forall o, fails subtitles_reference o t).
  Proof.
    intros L B F. pose proof (low_ws t L) as W. assert (AZ : forall o, yields (opt (sk g_az)) o t None o t) by (intros o; apply y_none, f_sk; [exact W|now apply f_az]).
    assert (X : (forall o, fails article_title_reference o t) /\ (forall o, fails article_relative_position o t)).
    { assert (K : (forall o, fails single_article_reference o t) -> (forall o, fails article_title_reference o t) /\ (forall o, fails article_relative_position o t)).
      { intros K. split; intros o; [apply f_bind1, f_sk; [exact W|apply K]|]. apply f_alt; apply f_bind1, f_sk; try exact W; (eapply f_bind2; [apply AZ|]); apply f_bind1, f_sk; try exact W; apply K. }
      destruct F as [x i n r A N BE E _|x i s G C (v & V) E|D]; [clear K|apply K|apply K].
      - assert (Y : forall o, exists g o', yields (sk single_article_reference) o t g o' r).
        { intros o. destruct (y_single known x i o n r A N (be_dash _ BE)) as (g & Y). rewrite E in W |- *. exists g. eexists. apply y_sk; [exact W|exact Y]. }
        split; intros o; destruct (Y o) as (g & o' & Y').
        + eapply f_bind2; [exact Y'|]. apply f_bind1, (be_title _ BE).
        + apply f_alt; apply f_bind1, f_sk; try exact W; (eapply f_bind2; [apply AZ|]); (eapply f_bind2; [exact Y'|]); apply f_bind1; [apply (be_before _ BE)|apply (be_after _ BE)].
      - intros o. destruct (noun_facts2 s v V) as (N1 & N2 & _). rewrite E. now apply (f_single_num known x).
      - intros o. now apply f_single_other. }
    destruct X as [X1 X2]. split; [exact X1|]. split; [exact X2|].
    assert (S : no_subtitle t /\ forall o, fails subtitles_reference o t).
    { destruct F as [x i n r A N BE E (v & V)|x i s G C (v & V) E|D].
      - apply (no_sub t (lit "§" ++ v)); [exact W|repeat split; reflexivity|reflexivity|]. rewrite E, V. now apply (sub_article x).
      - destruct (noun_facts2 s v V) as (N1 & _ & N3). apply (no_sub t s); auto. rewrite E. now apply (sub_part_num known x).
      - apply (no_sub t (lit "§")); [exact W|repeat split; reflexivity|reflexivity|]. left. now apply sub_none. }
    destruct S as [S1 S2]. split; [|exact S2]. intros o. now apply f_struct_low.
  Qed.
  Lemma mention_reads whole o r s u : place whole o (s ++ u) -> readable_ref r -> lower_parts r <> [] -> said_ended (lower_parts r) s -> follows u ->
    exists g, reads known whole text_amendment_reference o (s ++ u) (GTaRef g None) (o + utf8_len s) u /\ gref_read r g o (o + utf8_len s).
  Proof.
    intros PL R NE S F. destruct (phrase_first r s u R NE S F) as (PF & B & FP). pose proof (part_low _ PF) as L. pose proof (low_ws _ L) as W.
    destruct (first_refused _ L B FP) as (X1 & X2 & X3 & X4). destruct (y_reference_then known r s o u R S (fo_ref _ F)) as (g & Y & GR). exists g. split; [|exact GR].
    unfold text_amendment_reference. apply r_alt2; [apply x_f, f_bind1, f_sk; auto|]. apply r_alt2.
    { apply x_sk; [exact W|]. assert (XS : refuses known whole (sk any_structural_reference) o (s ++ u)) by (apply x_sk; [exact W|]; apply x_struct; auto).
      unfold text_amendment_structural. apply x_alt; [apply x_bind1, XS|]. apply x_alt; [apply x_bind1, XS|]. apply x_alt; [apply x_f, f_bind1, f_sk; auto|apply x_bind1, XS]. }
    apply r_alt2; [apply x_f, f_bind1, f_sk; auto|]. apply r_alt1, r_y, y_sk; [exact W|]. unfold reference_with_intro_wrapup. eapply y_bind; [apply y_sk; [exact W|exact Y]|].
    eapply y_bind; [apply y_none, f_bind1, (fo_intro _ F)|]. apply y_ret.
  Qed.

  (** ** Separators *)
  Lemma sep_follows sep t : In sep separators -> follows (sep ++ t).
  Proof.
    assert (H : forall p z, In p (lit ", " :: lit "; " :: list_words) -> follows (p ++ z)).
    { unfold list_words. cbn [map flat_map app In]. intros p z I.
      repeat (destruct I as [<-|I]; [constructor; [constructor; [vm_compute; reflexivity|vm_compute; reflexivity|failing|failing|failing|failing]|failing..]|]). contradiction. }
    unfold separators. rewrite in_flat_map. intros (x & I & J). apply in_map_iff in J as (z & <- & _). rewrite <- app_assoc. now apply H.
  Qed.
  Definition conjunction : parser unit := one_of_sk ["és"; "valamint"; "illetve"; "vagy"]%string.
  Definition sep_core : parser unit := (opt (T "," <|> T ";") ;; conjunction) <|> T "," <|> T ";".
  Lemma y_sep_core x o v : In x (lit ", " :: lit "; " :: list_words) -> (forall o, fails conjunction o (lit " " ++ v)) ->
    exists o', yields sep_core o (x ++ v) tt o' (lit " " ++ v) /\ o' + 1 = o + utf8_len x.
  Proof.
    intros I F. cbn [In] in I. destruct I as [<-|[<-|I]].
    - exists (o + utf8_len (lit ",")). split; [|change (utf8_len (lit ",")) with 1; change (utf8_len (lit ", ")) with 2; lia]. change (lit ", " ++ v) with (lit "," ++ lit " " ++ v). apply y_alt2; [|apply y_alt1, y_T; reflexivity].
      eapply f_bind2; [apply y_some, y_alt1, y_T; reflexivity|apply F].
    - exists (o + utf8_len (lit ";")). split; [|change (utf8_len (lit ";")) with 1; change (utf8_len (lit "; ")) with 2; lia]. change (lit "; " ++ v) with (lit ";" ++ lit " " ++ v). apply y_alt2; [|apply y_alt2; [here|apply y_T; reflexivity]].
      eapply f_bind2; [apply y_some, y_alt2; [here|apply y_T; reflexivity]|apply F].
    - unfold list_words in I. rewrite in_flat_map in I. destruct I as (p & IP & I). apply in_map_iff in I as (k & <- & IK).
      exists (o + utf8_len p + 1 + utf8_len k). split; [|rewrite !utf8_len_app; change (utf8_len (lit " ")) with 1; lia]. rewrite <- !app_assoc. unfold sep_core. apply y_alt1.
      assert (Y : exists a, yields (opt (T "," <|> T ";")) o (p ++ lit " " ++ k ++ lit " " ++ v) a (o + utf8_len p) (lit " " ++ k ++ lit " " ++ v)).
      { cbn [map In] in IP, IK. destruct IP as [<-|[<-|[<-|[]]]].
        - exists None. cbn [app]. rewrite N.add_0_r. apply y_none. repeat (destruct IK as [<-|IK]; [here|]). contradiction.
        - exists (Some tt). apply y_some, y_alt1, y_T. reflexivity.
        - exists (Some tt). apply y_some, y_alt2; [here|apply y_T; reflexivity]. }
      destruct Y as (a & Y). eapply y_bind; [exact Y|]. clear IP Y. cbn [map In] in IK. unfold conjunction. cbn [one_of_sk].
      destruct IK as [<-|[<-|[<-|[<-|[]]]]].
      + apply y_alt1. exact (y_T_sp known "és" _ _ eq_refl).
      + apply y_alt2; [here|]. apply y_alt1. exact (y_T_sp known "valamint" _ _ eq_refl).
      + do 2 (apply y_alt2; [here|]). apply y_alt1. exact (y_T_sp known "illetve" _ _ eq_refl).
      + do 3 (apply y_alt2; [here|]). apply y_alt1. exact (y_T_sp known "vagy" _ _ eq_refl).
  Qed.
  Lemma y_sep_any sep o t : In sep separators -> quiet is_ascii_ws t -> (forall o, fails conjunction o (lit " " ++ t)) -> (forall o, fails g_az o t) ->
    exists o' l, yields (sk list_separator) o (sep ++ t) tt o' (l ++ t) /\ lead l /\ o' + utf8_len l = o + utf8_len sep.
  Proof.
    intros I W FC FA. unfold separators in I. rewrite in_flat_map in I. destruct I as (x & I & J). apply in_map_iff in J as (z & <- & J). rewrite <- app_assoc.
    assert (F : forall o, fails conjunction o (lit " " ++ z ++ t)).
    { intros o1. unfold articles in J. cbn [In] in J. destruct J as [<-|[<-|[<-|[]]]]; [apply FC|here|here]. }
    assert (AZ : forall o, exists a o' l, yields (opt (sk g_az)) o (lit " " ++ z ++ t) a o' (l ++ t) /\ lead l /\ o' + utf8_len l = o + 1 + utf8_len z).
    { intros o1. unfold articles in J. cbn [In] in J. destruct J as [<-|[<-|[<-|[]]]].
      - exists None, o1, (lit " "). split; [|split; [apply lead_space|change (utf8_len []) with 0; change (utf8_len (lit " ")) with 1; lia]]. cbn [app]. apply y_none, f_sk_sp; [exact W|apply FA].
      - exists (Some tt), (o1 + 1 + utf8_len (lit "a ")), []. split; [|split; [apply lead_none|change (utf8_len []) with 0; lia]]. apply y_some, y_sk_sp; [reflexivity|]. change (lit "a " ++ t) with (lit "a" ++ lit " " ++ t). unfold g_az.
        eapply y_bind; [apply y_tok|]. eapply y_bind; [apply y_none, f_tok; reflexivity|]. eapply y_eq; [apply y_tok|]. vm_compute utf8_len. lia.
      - exists (Some tt), (o1 + 1 + utf8_len (lit "az ")), []. split; [|split; [apply lead_none|change (utf8_len []) with 0; lia]]. apply y_some, y_sk_sp; [reflexivity|]. change (lit "az " ++ t) with (lit "a" ++ lit "z" ++ lit " " ++ t). unfold g_az.
        eapply y_bind; [apply y_tok|]. eapply y_bind; [apply y_some, y_tok|]. eapply y_eq; [apply y_tok|]. vm_compute utf8_len. lia. }
    assert (X : (forall v, quiet is_ascii_ws (x ++ v)) \/ exists k, x = lit " " ++ k ++ lit " " /\ In k (map lit ["és"; "valamint"; "illetve"; "vagy"]%string)).
    { cbn [In] in I. destruct I as [<-|[<-|I]]; [left; intros v; reflexivity..|]. unfold list_words in I. rewrite in_flat_map in I. destruct I as (p & IP & I). apply in_map_iff in I as (k & <- & IK). cbn [In] in IP.
      destruct IP as [<-|[<-|[<-|[]]]]; [right; exists k; auto|left; intros v; reflexivity..]. }
    destruct X as [X|(k & -> & IK)].
    - destruct (y_sep_core x o (z ++ t) I F) as (o1 & Y & E). destruct (AZ o1) as (a & o2 & l & Y2 & L & E2). exists o2, l. split; [|split; [exact L|rewrite utf8_len_app; lia]]. apply y_sk; [apply X|].
      unfold list_separator. eapply y_bind; [exact Y|]. eapply y_void. exact Y2.
    - destruct (AZ (o + 1 + utf8_len k)) as (a & o2 & l & Y2 & L & E2). exists o2, l. split; [|split; [exact L|rewrite !utf8_len_app; change (utf8_len (lit " ")) with 1; lia]]. rewrite <- !app_assoc.
      assert (WK : quiet is_ascii_ws (k ++ lit " " ++ z ++ t)) by (cbn [map In] in IK; repeat (destruct IK as [<-|IK]; [reflexivity|]); contradiction).
      apply y_sk_sp; [exact WK|]. unfold list_separator. eapply y_bind; [|eapply y_void; exact Y2]. apply y_alt1. eapply y_bind; [apply y_none|].
      + clear - IK. cbn [map In] in IK. repeat (destruct IK as [<-|IK]; [here|]). contradiction.
      + clear Y2 AZ F. cbn [map In] in IK. cbn [one_of_sk]. destruct IK as [<-|[<-|[<-|[<-|[]]]]].
        * apply y_alt1. exact (y_T known "és" _ _ eq_refl).
        * apply y_alt2; [here|]. apply y_alt1. exact (y_T known "valamint" _ _ eq_refl).
        * do 2 (apply y_alt2; [here|]). apply y_alt1. exact (y_T known "illetve" _ _ eq_refl).
        * do 3 (apply y_alt2; [here|]). apply y_alt1. exact (y_T known "vagy" _ _ eq_refl).
  Qed.
  Lemma y_sep sep o t : In sep separators -> begins t -> part_first t -> exists o' l, yields (sk list_separator) o (sep ++ t) tt o' (l ++ t) /\ lead l /\ o' + utf8_len l = o + utf8_len sep.
  Proof.
    intros I B P. apply y_sep_any; [exact I|now apply begins_ws| |intros; now apply f_az]. intros o1. apply (f_words known _ (lit " ") o1 t lead_space P). vm_compute. reflexivity.
  Qed.
End Run.
