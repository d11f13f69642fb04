(** Proofs for C80: references, acts and other pieces of a sentence. *)
From Verif Require Export ProofSay33.
From Coq Require Import Lia.
Local Open Scope peg_scope.
Local Open Scope N_scope.

Inductive fed : reference -> list g_ref -> list out_ref -> Prop :=
| fed_nil p : fed p [] []
| fed_cons p w g o e ts out : gref_read w g o e -> lower_parts w <> [] -> well_formed (resume p w) -> fed (resume p w) ts out -> fed p (g :: ts) (mkOut o e (resume p w) :: out).
Lemma fed_out p ts out : fed p ts out -> forall b, ob_start b = None -> ob_ref b = p -> exists b', feed_all feed_ref ts b = Ok b' /\ ob_result b' = ob_result b ++ out.
Proof.
  induction 1 as [p|p w g o e ts out G NE WF _ IH]; intros b S R; [exists b; rewrite app_nil_r; auto|]. cbn [feed_all]. rewrite (feed_resumed p w g o e b G NE WF S R). cbn [obind].
  destruct (IH (mkOb (resume p w) (ob_result b ++ [mkOut o e (resume p w)]) None e) eq_refl eq_refl) as (b' & E1 & E2). exists b'. split; [exact E1|]. rewrite E2. cbn [ob_result]. now rewrite <- app_assoc.
Qed.

Section Run.
  Variable known : list str.
  Local Notation yields := (yields known).
  Local Notation fails := (fails known).

  (** ** Lists of references *)
  Definition more_refs : parser g_ref := sk list_separator ;; sk g_reference.
  Lemma f_connecting l r o : lead l -> ~ starts_by white r -> (forall k, In k connecting -> ~ begins_with k r) -> fails conjunction o (l ++ r).
  Proof.
    intros L W N. assert (Q : quiet is_ascii_ws r) by (apply (no_start is_ascii_ws white); [apply white_is|exact W]). unfold conjunction. cbn [one_of_sk].
    assert (K : forall s, In (lit s) connecting -> fails (T s) o (l ++ r)).
    { intros s I. apply f_sk_lead; [exact L|exact Q|]. intros o1. apply f_tok. destruct (strip_prefix (lit s) r) as [b|] eqn:E; [|reflexivity]. exfalso. apply strip_prefix_some in E. apply (N _ I). now exists b. }
    repeat (apply f_alt; [apply K; cbn [connecting map In]; auto 10|]). intros g _. reflexivity.
  Qed.
  Lemma f_sep_lead l r o : lead l -> ~ starts_by white r -> ~ starts_by (fun c => In c (lit ",;")) r -> (forall k, In k connecting -> ~ begins_with k r) -> fails (sk list_separator) o (l ++ r).
  Proof.
    intros L W C N. assert (Q : quiet is_ascii_ws r) by (apply (no_start is_ascii_ws white); [apply white_is|exact W]). apply f_sk_lead; [exact L|exact Q|]. intros o1.
    assert (K : forall s x, lit s = [x] -> In x (lit ",;") -> forall o, fails (T s) o r).
    { intros s x E I o2. apply (f_T_lead known s x [] [] o2 r lead_none Q E). apply (no_start (N.eqb x) (fun c => In c (lit ",;"))); [|exact C]. intros c EC. apply N.eqb_eq in EC. now subst c. }
    assert (K1 : forall o, fails (T ",") o r) by (apply (K "," 44 eq_refl)%string; vm_compute; auto). assert (K2 : forall o, fails (T ";") o r) by (apply (K ";" 59 eq_refl)%string; vm_compute; auto).
    unfold list_separator. apply f_bind1. apply f_alt; [|now apply f_alt]. eapply f_bind2; [apply y_none, f_alt; auto|]. exact (f_connecting [] r o1 lead_none W N).
  Qed.
  Lemma f_az_not r o : (forall k, In k (map lit ["a "; "az "]%string) -> ~ begins_with k r) -> fails g_az o r.
  Proof.
    intros N. unfold g_az. destruct (strip_prefix (lit "a") r) as [b|] eqn:E; [|now apply f_bind1, f_tok]. apply strip_prefix_some in E. subst r. eapply f_bind2; [apply y_tok|].
    assert (N1 : strip_prefix (lit " ") b = None).
    { destruct (strip_prefix (lit " ") b) as [b'|] eqn:E; [|reflexivity]. exfalso. apply strip_prefix_some in E. subst b. apply (N (lit "a ")); [cbn; auto|]. exists b'. reflexivity. }
    destruct (strip_prefix (lit "z") b) as [b'|] eqn:E; [|eapply f_bind2; [apply y_none, f_tok; exact E|now apply f_tok]]. apply strip_prefix_some in E. subst b. eapply f_bind2; [apply y_some, y_tok|]. apply f_tok.
    destruct (strip_prefix (lit " ") b') as [b2|] eqn:E; [|reflexivity]. exfalso. apply strip_prefix_some in E. subst b'. apply (N (lit "az ")); [cbn; auto|]. exists b2. reflexivity.
  Qed.
  Lemma over_after u : list_over u -> after_ref known u /\ forall o, fails more_refs o u.
  Proof.
    intros [|c r W L D DM P|r W N DM C|sep r I W N C].
    - split; [apply after_nil|]. intros o. apply f_bind1, f_separator_nil.
    - assert (NR : no_ref (c :: r)) by (apply nr_mark; auto; intros ->; apply P; vm_compute; auto).
      assert (X : is_hun_any c = false) by now apply not_letter. split.
      + constructor; intros.
        * cbn. unfold is_hun_any in X. now apply orb_false_iff in X as [X _].
        * cbn. apply N.eqb_neq. intros <-. apply DM. vm_compute. auto.
        * apply f_sk; [now apply not_white|]. apply f_chr. cbn [quiet]. destruct (existsb (N.eqb c) dash_chars) eqn:E; [|reflexivity]. now apply dash_is in E.
        * apply (no_ref_kinds known [] _ o lead_none NR).
        * apply (no_ref_kinds known [] _ o lead_none NR).
        * apply (no_ref_kinds known [] _ o lead_none NR).
      + intros o. apply f_bind1. apply (f_sep_lead [] (c :: r) o lead_none).
        * intros (x & v & E & H). injection E as <- _. contradiction.
        * intros (x & v & E & H). injection E as <- _. apply P. vm_compute in *. tauto.
        * intros k I (b & E). apply L. apply letter_is. cbn [connecting map In] in I. repeat (destruct I as [<-|I]; [injection E as -> _; reflexivity|]). contradiction.
    - assert (Q : quiet is_ascii_ws r) by (apply (no_start is_ascii_ws white); [apply white_is|exact W]). split.
      + constructor; intros; try reflexivity.
        * apply f_sk_sp; [exact Q|]. apply f_chr. apply (no_start _ (fun c => dash_mark c \/ In c (lit ",;"))); [|exact DM]. intros c H. left. now apply dash_is.
        * apply (no_ref_kinds known (lit " ") _ o lead_space N).
        * apply (no_ref_kinds known (lit " ") _ o lead_space N).
        * apply (no_ref_kinds known (lit " ") _ o lead_space N).
      + intros o. apply f_bind1. apply (f_sep_lead (lit " ") r o lead_space W); [|exact C]. intros (x & v & E & H). apply DM. exists x, v. auto.
    - assert (Q : quiet is_ascii_ws r) by (apply (no_start is_ascii_ws white); [apply white_is|exact W]). split; [exact (fo_ref _ _ (sep_follows known sep r I))|].
      intros o. destruct (y_sep_any known sep o r I Q) as (o' & l & Y & L & _).
      + intros o1. apply f_connecting; [apply lead_space|exact W|]. intros k J. apply C, in_or_app. now left.
      + intros o1. apply f_az_not. intros k J. apply C, in_or_app. now right.
      + eapply f_bind2; [exact Y|]. apply (no_ref_kinds known l r o' L N).
  Qed.
  Lemma y_list p o s out : said_list p o s out -> forall o0 l u, lead l -> o0 + utf8_len l = o -> after_ref known u -> (forall o, fails more_refs o u) ->
    exists t ts o1 u1, yields (sk g_reference) o0 (l ++ s ++ u) t o1 u1 /\ yields (many more_refs) o1 u1 ts (o + utf8_len s) u /\
      (List.length u1 < List.length (s ++ u))%nat /\ fed p (t :: ts) out.
  Proof.
    induction 1 as [p o w s M|p o w s sep rest out M I SL IH]; intros o0 l u L EO F FS; destruct M as [A B C D]; (assert (NE : lower_parts w <> []) by (intros E; rewrite E in C; now apply ended_nil in C));
      (assert (LS : (1 <= List.length s)%nat) by exact (ended_long _ _ C)).
    - destruct (list_begins known p o s _ (said_one p o w s (Build_mentioned _ _ _ A B C D)) u) as [BG PF]. pose proof (begins_ws _ BG) as W.
      destruct (y_reference_then known w s o u A C F) as (g & Y & G). exists g, [], (o + utf8_len s), u. split; [|split; [apply y_many_nil, FS|split; [rewrite app_length; lia|]]].
      + subst o. now apply y_sk_lead.
      + econstructor; eauto. constructor.
    - rewrite <- !app_assoc. pose proof (said_many p o w s sep rest out (Build_mentioned _ _ _ A B C D) I SL) as SM. destruct (list_begins known _ _ _ _ SM u) as [BG PF]. rewrite <- !app_assoc in BG. pose proof (begins_ws _ BG) as W.
      destruct (list_begins known _ _ _ _ SL u) as [BG2 PF2].
      destruct (y_reference_then known w s o (sep ++ rest ++ u) A C (fo_ref _ _ (sep_follows known sep (rest ++ u) I))) as (g & Y & G).
      destruct (y_sep known sep (o + utf8_len s) (rest ++ u) I BG2 PF2) as (o2 & l2 & YS & L2 & E2).
      destruct (IH o2 l2 u L2 ltac:(rewrite utf8_len_app; lia) F FS) as (t & ts & o3 & u3 & Y3 & YM & LT & FD).
      exists g, (t :: ts), (o + utf8_len s), (sep ++ rest ++ u). split; [subst o; now apply y_sk_lead|]. split; [|split; [rewrite (app_length s); lia|econstructor; eauto]].
      eapply y_many_cons; [|eapply y_bind; [exact YS|exact Y3]|].
      + rewrite (app_length sep). lia.
      + rewrite !utf8_len_app in *. replace (o + (utf8_len s + (utf8_len sep + utf8_len rest))) with (o + (utf8_len s + utf8_len sep) + utf8_len rest) by lia. exact YM.
  Qed.

  (** ** Other pieces *)
  Lemma f_act_none o t : quiet is_ascii_ws t -> (forall o, fails g_act_id_rule o t) -> (forall k, In k known -> ~ begins_with k t) -> fails act_reference o t.
  Proof.
    intros W D K. unfold act_reference. apply f_alt; [apply f_bind1, f_sk; [exact W|]; now apply f_act_id_now|].
    apply f_sk; [exact W|]. unfold g_abbreviation. apply f_located, f_bind1, f_sk; [exact W|]. intros g E. unfold abbreviation_content. cbn [cu_rest]. rewrite E, no_known by exact K. reflexivity.
  Qed.
  Lemma f_compound o t : quiet is_ascii_ws t -> (forall o, fails g_act_id_rule o t) -> (forall k, In k known -> ~ begins_with k t) -> no_ref t -> fails compound_reference o t.
  Proof.
    intros W D K N. assert (F : fails (sk act_reference) o t) by (apply f_sk; [exact W|now apply f_act_none]). unfold compound_reference. apply f_alt; [|now apply f_bind1].
    eapply f_bind2; [apply y_none; exact F|]. apply f_bind1. apply (no_ref_kinds known [] t o lead_none N).
  Qed.
  Lemma y_number_token d o t : numeral d -> quiet is_digit t -> yields any_token o (d ++ t) tt (o + utf8_len d) t.
  Proof.
    intros N Q. unfold any_token. pose proof (numeral_ws d t N) as W. apply y_alt2.
    - apply f_sk; [exact W|]. apply f_void, f_many1, f_chr. apply numeral_quiet; [|exact N]. intros c H. apply ProofSay4.digit_cases in H. cbn [In] in H. repeat (destruct H as [<-|H]; [reflexivity|]). contradiction.
    - apply y_alt1. eapply y_void. now apply y_sk_digits.
  Qed.
  Lemma word_token w r o : plain_word w r -> yields any_token o (w ++ r) tt (o + utf8_len w) r.
  Proof.
    intros P. destruct (word_letter w r P) as (c & u & E & C). assert (W : quiet is_ascii_ws (w ++ r)) by (rewrite E; now apply hun_cases in C as (? & _)).
    assert (NE : w <> []) by (rewrite E; discriminate). clear c u E C.
    assert (H : forallb (fun c => is_hun_any c || (c =? 45)) w = true /\ quiet (fun c => is_hun_any c || (c =? 45)) r); [|now apply y_any_word].
    assert (K : forall (P : char -> Prop) b, (forall c, P c -> is_hun_any c || (c =? 45) = true) -> Forall P b -> forallb (fun c => is_hun_any c || (c =? 45)) b = true).
    { intros Q b H F. apply forallb_forall. intros c I. rewrite Forall_forall in F. now apply H, F. }
    assert (K1 : forall c, letter c -> is_hun_any c || (c =? 45) = true) by (intros c H; apply letter_is in H; now rewrite H).
    assert (K2 : forall c, letter c \/ c = hyphen -> is_hun_any c || (c =? 45) = true) by (intros c [H|H]; [now apply K1|subst c; reflexivity]).
    assert (K3 : forall c, is_hun_any c || (c =? 45) = true -> letter c \/ c = hyphen) by (intros c H; apply orb_true_iff in H as [H|H]; [left; now apply letter_is|right; now apply N.eqb_eq in H]).
    destruct P as [a b r' L FA FB NS|c b r' B FB NS|a r' NE' FA NS AH].
    - split; [rewrite forallb_app; apply andb_true_iff; split; [now apply (K letter)|now apply (K _ _ K2)]|]. now apply (no_start _ _ _ K3).
    - split; [cbn [forallb]; apply andb_true_iff; split; [apply K1; now right|now apply (K _ _ K2)]|]. now apply (no_start _ _ _ K3).
    - split; [now apply (K letter)|]. apply (no_start _ _ _ K3). intros (c & v & -> & [H|H]); [apply NS; exists c, v; auto|]. subst c.
      destruct (AH [] hyphen v eq_refl) as [X _]; [constructor|intros X; vm_compute in X; repeat (destruct X as [X|X]; [discriminate X|]); exact X|]. apply X. vm_compute. auto.
  Qed.
  Lemma year_no_act d r o : year_like d r -> not_act_number r -> fails g_act_id_rule o (d ++ lit "." ++ r).
  Proof.
    intros Y N. apply f_located. eapply f_bind2; [apply yl_number; exact Y|]. eapply f_bind2; [apply y_T; reflexivity|].
    destruct (split_at is_ascii_ws r) as (w & u & E & F & Q). destruct (strip_prefix (lit "évi") u) as [b|] eqn:S; [|apply f_bind1; rewrite E; apply f_sk_ws; auto; now apply f_tok].
    apply strip_prefix_some in S. subst u. rewrite E. eapply f_bind2; [apply y_sk_ws; [exact F|exact Q|apply y_tok]|]. apply f_bind1. apply (f_ahead known _ _ b _ (N w b E (proj2 (whites w) F))).
    intros o1 u _ K. unfold g_roman. apply f_sliced, f_many1, f_chr. destruct u as [|c v]; [exact I|]. cbn [quiet]. destruct (existsb (N.eqb c) roman_chars) eqn:X; [|reflexivity]. exfalso.
    apply existsb_exists in X as (x & I & X). apply N.eqb_eq in X. subst x. now apply (K c v eq_refl).
  Qed.
  Lemma y_other x u : other_piece x u -> (forall k, In k known -> ~ begins_with k (x ++ u)) -> quiet is_ascii_ws (x ++ u) /\ x <> [] /\ forall o, yields any_simple_expression o (x ++ u) GOther (o + utf8_len x) u.
  Proof.
    intros P K.
    assert (H : quiet is_ascii_ws (x ++ u) -> quiet (N.eqb 8222) (x ++ u) -> (forall o, fails g_act_id_rule o (x ++ u)) -> no_ref (x ++ u) -> (forall o, yields any_token o (x ++ u) tt (o + utf8_len x) u) ->
      x <> [] -> quiet is_ascii_ws (x ++ u) /\ x <> [] /\ forall o, yields any_simple_expression o (x ++ u) GOther (o + utf8_len x) u).
    { intros W Q A N T NE. split; [exact W|]. split; [exact NE|]. intros o. unfold any_simple_expression.
      apply y_alt2; [apply f_bind1, f_sk; [exact W|]; apply f_bind1; exact (f_T_lead known "„" 8222 [] [] o (x ++ u) lead_none W eq_refl Q)|].
      apply y_alt2; [apply f_bind1, f_sk; [exact W|]; now apply f_compound|]. apply y_alt2; [apply f_bind1; apply (no_ref_kinds known [] _ o lead_none N)|].
      eapply y_bind; [apply y_sk; [exact W|apply T]|apply y_ret]. }
    destruct P as [c r W L D HY P Q|r AH|w r P|d r P|d r P NA|y q r QQ].
    - assert (X : is_hun_any c = false) by now apply not_letter. assert (W' : is_ascii_ws c = false) by now apply not_white. assert (D' : is_digit c = false) by now apply not_digit.
      apply H; [exact W'|cbn; apply N.eqb_neq; intros E; now apply Q|intros o; now apply f_act_other|cbn; now apply nr_mark| |discriminate].
      intros o. apply y_any_char; auto. rewrite X. cbn. now apply N.eqb_neq.
    - apply H; [reflexivity|reflexivity|intros o; now apply f_act_other|now apply nr_paren| |discriminate]. intros o. now apply y_any_char.
    - destruct (word_letter w r P) as (c & v & E & C). apply hun_cases in C as (C1 & C2 & C3 & C4 & C5 & C6). apply H; try (rewrite E; assumption); [|now apply nr_word| |rewrite E; discriminate].
      + intros o. rewrite E. now apply f_act_other.
      + intros o. now apply word_token.
    - pose proof (pl_figures d r P) as NU. apply H; [now apply numeral_ws| | |now apply nr_number| |apply NU].
      + apply numeral_quiet; [|exact NU]. intros c HC. apply ProofSay4.digit_cases in HC. cbn [In] in HC. repeat (destruct HC as [<-|HC]; [reflexivity|]). contradiction.
      + intros o. apply f_located. eapply f_bind2; [apply pl_number; exact P|]. apply f_bind1. now apply (pl_dot known d r).
      + intros o. apply y_number_token; [exact NU|now apply (pl_quiet d)].
    - pose proof (yl_figures d r P) as NU. apply H; [now apply numeral_ws| | |now apply nr_dated| |apply NU].
      + apply numeral_quiet; [|exact NU]. intros c HC. apply ProofSay4.digit_cases in HC. cbn [In] in HC. repeat (destruct HC as [<-|HC]; [reflexivity|]). contradiction.
      + intros o. now apply year_no_act.
      + intros o. now apply y_number_token.
    - assert (W : quiet is_ascii_ws (q ++ r)) by (destruct QQ as (_ & _ & ->); reflexivity). split; [exact W|]. split; [destruct QQ as (_ & _ & ->); discriminate|]. intros o. apply y_alt1.
      eapply y_bind; [apply y_sk; [exact W|now apply (y_quote known y)]|apply y_ret].
  Qed.
End Run.
