(** Proofs for C78: the rule of block amendments refuses sentences about subtitles. *)
From Verif Require Export ProofSay26.
From Coq Require Import Lia.
Local Open Scope peg_scope.
Local Open Scope N_scope.

Definition block_rest (a : g_act_ref) (s : option g_any_struct) : parser g_block :=
  (r <- sk g_reference ;; sk amendment_suffix ;; T ":" ;; ret (mkGBlock a s (Some r) None))
   <|> (i <- sk insertion_reference ;; sk insertion_suffix ;; T ":" ;; ret (mkGBlock a s None (Some i)))
   <|> (r <- sk g_reference ;; sk amendment_suffix ;; opt (T ",") ;; sk combinator_junk ;;
        opt (opt (sk g_az) ;; sk act_reference) ;; opt (sk any_structural_reference) ;;
        i <- sk insertion_reference ;; sk insertion_suffix ;; T ":" ;; ret (mkGBlock a s (Some r) (Some i))).
Lemma block_rest_is : block_amendment = (sk g_az_any ;; sk act_title ;; a <- sk act_reference ;; s <- opt (sk any_structural_reference) ;; block_rest a s).
Proof. reflexivity. Qed.
Section Run.
  Variables (c : cache).
  Local Notation known := (all_abbreviations c).
  Local Notation yields := (yields known).
  Local Notation fails := (fails known).
  Lemma block_refused a s o t : (forall o, fails (r <- sk g_reference ;; sk amendment_suffix) o t) -> (forall o, fails (i <- sk insertion_reference ;; sk insertion_suffix) o t) -> fails (block_rest a s) o t.
  Proof.
    intros H1 H2.
    assert (K : forall A B C (p : parser A) (q : parser B) (k : A -> parser C), fails (x <- p ;; q) o t -> fails (x <- p ;; q ;; k x) o t).
    { intros A B C p q k H g G. specialize (H g G). unfold pbind in *. destruct (p (mkCur o t) g) as [[[x c1]| |] g1]; [destruct (q c1 g1) as [[[y c2]| |] g2]; [discriminate|injection H as ->; reflexivity|discriminate]|injection H as ->; reflexivity|discriminate]. }
    unfold block_rest. repeat apply f_alt; apply K; auto.
  Qed.
  Record stands (t : str) : Prop := {
    st_text : exists v, t = lit " " ++ v /\ quiet is_ascii_ws v /\ forall o, fails struct_inner o v; st_over : word_over known t; st_act : after_act c t; st_block : forall a s o, fails (block_rest a s) o t }.

  (** ** Beside an article *)
  Lemma side_after f w v : on_side f w -> after_ref known (lit " " ++ w ++ v) /\ (forall o, fails (sk amendment_suffix) o (lit " " ++ w ++ v)) /\ (forall o, fails (sk insertion_token) o (lit " " ++ w ++ v)) /\ spaced (lit " " ++ w ++ v).
  Proof.
    intros [w' I|w' I]; cbn [map In] in I; repeat (destruct I as [<-|I]; [split; [constructor; [reflexivity|reflexivity|failing..]|split; [failing|split; [failing|eexists; split; [reflexivity|split; reflexivity]]]]|]); contradiction.
  Qed.
  Lemma f_ref_word z t : In z [lit "a "; lit "az "] -> digit_first t -> forall o, fails g_reference o (z ++ t).
  Proof.
    intros IZ (d & u & -> & D) o. apply ProofSay4.digit_cases in D. cbn [In] in IZ. 
    destruct IZ as [<-|[<-|[]]]; cbn [In] in D; repeat (destruct D as [<-|D]; [here|]); contradiction.
  Qed.
  (** After an article: not a part of it, not an amendment *)
  Record no_part (t : str) : Prop := { np_ref : after_ref known t; np_suffix : forall o, fails (sk amendment_suffix) o t; np_token : forall o, fails (sk insertion_token) o t; np_spaced : spaced t; np_par : forall o, fails (sk paragraph_reference) o t }.
  Lemma article_refused x s t a st o : one_article x s -> no_part t -> fails (block_rest a st) o (lit " " ++ s ++ t).
  Proof.
    intros H [AF NS NT SP NP]. pose proof H as (OK & L & SE). pose proof (alone_readable x OK L) as RD. pose proof (digit_first_ws _ (one_digits x s t H)) as W. apply block_refused; intros o'.
    - destruct (y_reference_then known (alone x) s (o' + 1) t RD SE AF) as (g & Y & _). eapply f_bind2; [apply y_sk_sp; [exact W|exact Y]|apply NS].
    - apply f_bind1, f_sk_sp; [exact W|]. apply (head_refused known (mkRange x x) None).
      + exact (head_said (alone x) (mkRange x x) s RD eq_refl SE).
      + constructor; [apply (ar_lower _ _ AF)|apply (ar_dash _ _ AF)|apply (ar_no_dash _ _ AF)|exact NP|]. intros o1 A k. apply f_bind1, NT.
      + exact NT.
      + intros o1 A k. apply f_bind1, (ar_point _ _ AF).
  Qed.
  Lemma article_refused_z z x s t a st o : In z [lit "a "; lit "az "] -> one_article x s -> no_part t -> fails (block_rest a st) o (lit " " ++ z ++ s ++ t).
  Proof.
    intros IZ H [AF NS NT SP NP]. pose proof (one_digits x s t H) as D. pose proof (digit_first_ws _ D) as W0.
    assert (W : quiet is_ascii_ws (z ++ s ++ t)) by (cbn [In] in IZ; destruct IZ as [<-|[<-|[]]]; reflexivity). assert (IA : In z articles) by (right; exact IZ).
    apply block_refused; intros o'; apply f_bind1, f_sk_sp; try exact W; [now apply f_ref_word|].
    assert (FT : forall o, fails (sk insertion_token) o (z ++ s ++ t)).
    { intros o1. apply f_sk; [exact W|]. eapply f_bind2; [apply y_sk; [exact W|]; unfold combinator_junk; eapply y_void, y_many_nil|].
      - pose proof (or_introl D : part_first (s ++ t)) as PF. clear - IZ. cbn [In] in IZ. destruct IZ as [<-|[<-|[]]]; here.
      - pose proof (or_introl D : part_first (s ++ t)) as PF. clear - IZ PF. cbn [In] in IZ. destruct IZ as [<-|[<-|[]]]; (apply f_sk; [reflexivity|]; unfold the_following).
        + eapply f_bind2; [apply y_some; cbn [one_of]; apply y_alt1, y_tok|]. apply f_alt; [|apply f_bind1]; apply f_tok; apply no_word; auto; vm_compute; reflexivity.
        + eapply f_bind2; [apply y_some; cbn [one_of]; apply y_alt2; [apply f_tok; reflexivity|apply y_alt1, y_tok]|]. apply f_alt; [|apply f_bind1]; apply f_tok; apply no_word; auto; vm_compute; reflexivity. }
    destruct (one_article_text x s H) as (i & e & A & E & ->). destruct (spaced_noun known _ e t E SP) as [N ND].
    destruct (y_article_word known z ((i ++ lit " " ++ lit "§" ++ e) ++ t) (o' + 1) IA D) as (y & YZ).
    destruct (y_art known _ i [] (o' + 1 + utf8_len z) (lit "§" ++ e) t A lead_none N ND) as (p & YA & _). cbn [app] in YA. rewrite <- !app_assoc in *.
    unfold insertion_reference. apply f_located. apply f_alt; [apply f_bind1, FT|]. apply f_alt; [apply f_bind1, FT|]. apply f_alt; [|apply f_alt].
    - eapply f_bind2; [apply y_some, y_alt1; eapply y_bind; [exact YZ|]; eapply y_bind; [exact YA|apply y_ret]|]. apply f_bind1, NT.
    - eapply f_bind2; [apply y_some, y_alt1; eapply y_bind; [exact YZ|]; eapply y_bind; [exact YA|]; eapply y_bind; [apply y_none, NP|apply y_ret]|]. apply f_bind1, NT.
    - eapply f_bind2; [exact YZ|]. eapply f_bind2; [exact YA|]. eapply f_bind2; [apply y_none, NP|]. apply f_bind1, (ar_point _ _ AF).
  Qed.
  Lemma article_stands z x s t : In z articles -> one_article x s -> no_part t -> stands (lit " " ++ z ++ s ++ t).
  Proof.
    intros IZ H NP. unfold articles in IZ. cbn [In] in IZ.
    assert (K : z = [] \/ In z [lit "a "; lit "az "]) by (cbn [In]; destruct IZ as [<-|[<-|[<-|[]]]]; auto). destruct K as [->|K].
    - pose proof (one_digits x s t H) as D. cbn [app]. constructor.
      + exists (s ++ t). split; [reflexivity|]. split; [now apply digit_first_ws|]. intros o. destruct (one_article_text x s H) as (i & e & A & E & ->). rewrite <- !app_assoc. exact (f_struct known _ i o _ A).
      + split; [reflexivity|]. intros o. apply f_sk_sp; [now apply digit_first_ws|]. apply f_alt; apply f_bind1, f_tok, no_word; auto; left; exact D.
      + now apply digits_after_act.
      + intros a st o. now apply (article_refused x).
    - constructor.
      + exists (z ++ s ++ t). split; [reflexivity|]. generalize (s ++ t). intros v. cbn [In] in K. destruct K as [<-|[<-|[]]]; (split; [reflexivity|failing]).
      + split; [reflexivity|]. generalize (s ++ t). intros v. cbn [In] in K. destruct K as [<-|[<-|[]]]; failing.
      + generalize (s ++ t). intros v. cbn [In] in K. destruct K as [<-|[<-|[]]]; (constructor; [reflexivity|failing|failing]).
      + intros a st o. now apply (article_refused_z z x).
  Qed.
  Lemma near_stands a b near l s v : near_said a b near l s -> near <> None -> stands (s ++ v).
  Proof.
    intros [|z x s' f w IZ H F] NN; [congruence|]. rewrite <- !app_assoc. apply (article_stands z x); auto. destruct (side_after f w v F) as (A & B & C & D). constructor; auto.
    intros o. destruct F as [w I|w I]; cbn [map In] in I; repeat (destruct I as [<-|I]; [here|]); contradiction.
  Qed.
  Lemma with_stands x s z v : one_article x s -> In z and_before_it -> stands (lit " " ++ s ++ lit " " ++ z ++ v).
  Proof.
    intros H IZ. apply (article_stands [] x); [now left|exact H|]. unfold and_before_it in IZ. cbn [map In] in IZ.
    repeat (destruct IZ as [<-|IZ]; [constructor; [constructor; [reflexivity|reflexivity|failing..]|failing|failing|eexists; split; [reflexivity|split; reflexivity]|failing]|]). contradiction.
  Qed.

  (** ** Nothing before "a következő" *)
  Record no_target (t : str) : Prop := { nt_art : forall o, fails (sk article_reference) o t; nt_par : forall o, fails (sk paragraph_reference) o t; nt_points : forall o, fails points_of o t }.
  Lemma f_art_number n s v o : number_said n s -> fails (sk article_reference) o (lit " " ++ s ++ lit "." ++ lit " " ++ lit "alcím" ++ v).
  Proof.
    intros H. pose proof (digit_first_ws _ (number_digits n s (lit "." ++ lit " " ++ lit "alcím" ++ v) H)) as W. destruct (number_article n s H) as (G & B & L1 & L2 & C).
    apply f_sk_sp; [exact W|]. destruct (y_article_part known _ _ (o + 1 + utf8_len []) _ G B L1 L2 C (number_dot known n s v H)) as (p & Y & _). rewrite <- app_assoc in Y.
    unfold article_reference. eapply f_bind2; [apply (y_sep_one known article_reference_part [] (o + 1) _ p _ (lit " ") (lit "alcím" ++ v) lead_none W Y lead_space); reflexivity|]. apply f_bind1. here.
  Qed.
  Lemma f_points_number n s v o : number_said n s -> fails points_of o (lit " " ++ s ++ lit "." ++ lit " " ++ lit "alcím" ++ v).
  Proof.
    intros H. pose proof (number_digits n s (lit "." ++ lit " " ++ lit "alcím" ++ v) H) as D. pose proof (digit_first_ws _ D) as W. unfold points_of. apply f_alt; apply f_bind1.
    - apply (f_level known alpha_point_part "pont" (lit " ") o); [apply lead_space|exact W|]. intros o1. apply f_alpha_point; [exact W|]. destruct D as (d & u & -> & D). now apply digit_not_az.
    - destruct H as [k H|k c' H C].
      + assert (P : part_read known numeric_parse num_point_part (show_N k ++ lit ".") (mkRange (mkNum k None) (mkNum k None))).
        { apply read_num_point; [split; cbn [r_start r_end]; unfold numeric_ok, u16_max; cbn [n_num n_suffix]; rewrite andb_true_r; now apply N.leb_le|]. left. auto. }
        replace (show_N k ++ lit "." ++ lit " " ++ lit "alcím" ++ v) with ((show_N k ++ lit ".") ++ lit " " ++ lit "alcím" ++ v) by (now rewrite <- app_assoc).
        eapply (f_level_noun known numeric_parse num_point_part "pont" _ _ (lit " ")); [exact P|apply lead_space| | | |reflexivity].
        * apply quiet_ws_number.
        * pose proof (show_N_nonempty k). destruct (show_N k); [congruence|discriminate].
        * repeat split; reflexivity.
      + apply (f_level known num_point_part "pont" (lit " ") o); [apply lead_space|exact W|]. intros o1. rewrite <- !app_assoc in *.
        assert (NU : in_range 97 122 c' = false). { unfold in_range. apply andb_false_iff. rewrite N.leb_gt. lia. }
        assert (Y : forall o2, yields (sk num_point_id) o2 (show_N k ++ lit "/" ++ [c'] ++ lit "." ++ lit " " ++ lit "alcím" ++ v) (show_N k) (o2 + utf8_len (show_N k)) (lit "/" ++ [c'] ++ lit "." ++ lit " " ++ lit "alcím" ++ v)).
        { intros o2. apply y_sk; [exact W|]. eapply y_sliced. eapply y_bind; [apply y_number; reflexivity|]. apply y_none. eapply f_bind2; [apply y_some, y_tok|]. apply f_letter. exact NU. }
        unfold num_point_part, range_part. apply f_located, f_alt; [eapply f_bind2; [apply Y|]; apply f_bind1; here|]. eapply f_bind2; [apply Y|]. apply f_bind1. here.
  Qed.
  Lemma named_target e s w t : maybe_named e s -> subtitle_word w -> no_target (lit " " ++ s ++ w ++ t).
  Proof.
    intros M W. destruct (word_head w t W) as (v & ->). destruct M as [|e s [n s' H|x q H]]; rewrite <- ?app_assoc.
    - cbn [app]. constructor; failing.
    - constructor; intros o; [now apply (f_art_number n)| |now apply (f_points_number n)].
      pose proof (number_digits n s' (lit "." ++ lit " " ++ lit "alcím" ++ v) H) as D. apply (f_level known paragraph_reference_part "bekezdés" (lit " ") o); [apply lead_space|now apply digit_first_ws|]. intros o1. apply f_paragraph_part; [now apply digit_first_ws|]. destruct D as (d & u & -> & D). now apply no_paren_digit.
    - destruct H as (_ & _ & ->). rewrite <- app_assoc. generalize (x ++ lit "”" ++ lit " " ++ lit "alcím" ++ v). intros u. constructor; failing.
  Qed.
  Lemma mid_refused_new f t a st o : In f following -> no_target (lit " " ++ t) -> fails (block_rest a st) o (lit " " ++ f ++ lit " " ++ t).
  Proof.
    intros F [NA NP NX]. pose proof (following_ws f (lit " " ++ t) F) as W. apply block_refused; intros o'; apply f_bind1; [now apply mid_not_reference|]. apply f_sk_sp; [exact W|].
    pose proof (fun o => y_token known f [] o t F lead_none) as YT. cbn [app] in YT.
    unfold insertion_reference. apply f_located. apply f_alt; [eapply f_bind2; [apply YT|apply f_bind1, NA]|]. apply f_alt; [eapply f_bind2; [apply YT|apply f_bind1, NA]|]. apply f_alt; [|apply f_alt].
    - eapply f_bind2; [apply y_none; clear - F; unfold following in F; cbn [map In] in F; destruct F as [<-|[<-|[]]]; here|]. eapply f_bind2; [apply YT|apply f_bind1, NP].
    - eapply f_bind2; [apply y_none; clear - F; unfold following in F; cbn [map In] in F; destruct F as [<-|[<-|[]]]; here|]. eapply f_bind2; [apply YT|apply f_bind1, NX].
    - clear - F. unfold following in F. cbn [map In] in F. destruct F as [<-|[<-|[]]]; here.
  Qed.
  Lemma mid_refused_article f x s z v a st o : In f following -> one_article x s -> In z and_before_it -> fails (block_rest a st) o (lit " " ++ f ++ lit " " ++ s ++ lit " " ++ z ++ v).
  Proof.
    intros F H IZ. set (t := lit " " ++ z ++ v). pose proof (following_ws f (lit " " ++ s ++ t) F) as W. apply block_refused; intros o'; [now apply f_bind1, mid_not_reference|].
    pose proof (fun o => y_token known f [] o (s ++ t) F lead_none) as YT. cbn [app] in YT.
    assert (K : spaced t /\ (forall o, fails (sk paragraph_reference) o t) /\ (forall o, fails (sk list_separator ;; sk article_reference) o t) /\ forall o, fails (sk insertion_suffix) o t).
    { unfold t. clear - IZ. unfold and_before_it in IZ. cbn [map In] in IZ. repeat (destruct IZ as [<-|IZ]; [split; [eexists; split; [reflexivity|split; reflexivity]|split; [failing|split; failing]]|]). contradiction. }
    destruct K as (SP & NP & NL & NS). destruct (one_article_text x s H) as (i & e & A & E & EQ). destruct (spaced_noun known _ e t E SP) as [N ND].
    assert (YA : forall o, exists p, yields (sk article_reference) o (lit " " ++ s ++ t) p (o + utf8_len (lit " " ++ s)) t).
    { intros o1. rewrite EQ, <- !app_assoc. destruct (y_art known _ i (lit " ") o1 (lit "§" ++ e) t A lead_space N ND) as (p & Y & _). eexists. rewrite <- !app_assoc in Y. eapply y_eq; [exact Y|lens]. }
    destruct (YA (o' + 1 + utf8_len f)) as (p & Y).
    eapply f_bind2; [apply y_sk_sp; [exact W|]; unfold insertion_reference; eapply y_located; apply y_alt2; [eapply f_bind2; [apply YT|]; eapply f_bind2; [exact Y|apply f_bind1, NP]|apply y_alt1]|apply NS].
    eapply y_bind; [apply YT|]. eapply y_bind; [exact Y|]. eapply y_bind; [apply y_none, NL|]. apply y_ret.
  Qed.
  Lemma mid_stands f a b x own l s e : In f following -> subtitle_said a b x own l s -> stands (lit " " ++ f ++ s ++ e).
  Proof.
    intros F H. assert (E : exists t, s ++ e = lit " " ++ t /\ forall g st o, fails (block_rest g st) o (lit " " ++ f ++ lit " " ++ t)).
    { destruct H as [x s z w H IZ W|e' s w M W|e' s w x s' M W H]; rewrite <- ?app_assoc; eexists; (split; [reflexivity|]); intros g st o.
      - now apply (mid_refused_article f x).
      - apply mid_refused_new; [exact F|]. now apply (named_target e').
      - apply mid_refused_new; [exact F|]. now apply (named_target e'). }
    destruct E as (t & -> & K). constructor.
    - eexists. split; [reflexivity|]. split; [now apply following_ws|]. intros o. now apply mid_not_struct.
    - now apply over_mid.
    - clear - F. unfold following in F. cbn [map In] in F. destruct F as [<-|[<-|[]]]; (constructor; [reflexivity|failing|failing]).
    - exact K.
  Qed.
End Run.
