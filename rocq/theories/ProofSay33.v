(** Proofs for C80: what is not a reference. *)
From Verif Require Export SpecSay9 ProofSay32.
From Coq Require Import Lia.
Local Open Scope peg_scope.
Local Open Scope N_scope.

(** ** Characters *)
Lemma letter_is c : letter c <-> is_hun_any c = true.
Proof.
  unfold letter, small_letter, big_letter, lower_letter, upper_letter, is_hun_any, is_hun_lower, is_hun_upper, in_range, hun_lower_extra, hun_upper_extra.
  rewrite !orb_true_iff, !andb_true_iff, !N.leb_le, !existsb_exists. split.
  - intros [[H|H]|[H|H]]; [left; left; exact H|left; right|right; left; exact H|right; right]; exists c; (split; [exact H|apply N.eqb_refl]).
  - intros [[H|(x & H & E)]|[H|(x & H & E)]]; [left; left; exact H|left; right|right; left; exact H|right; right]; apply N.eqb_eq in E as ->; exact H.
Qed.
Lemma not_letter c : ~ letter c -> is_hun_any c = false.
Proof. intros H. destruct (is_hun_any c) eqn:E; [|reflexivity]. exfalso. now apply H, letter_is. Qed.
Lemma digit_is c : digit c <-> is_digit c = true.
Proof. unfold digit, is_digit. rewrite andb_true_iff, !N.leb_le. reflexivity. Qed.
Lemma figures_numeral d : figures d -> numeral d.
Proof. intros [NE F]. split; [exact NE|]. apply forallb_forall. intros c I. rewrite Forall_forall in F. now apply digit_is, F. Qed.
Lemma whites w : Forall white w <-> forallb is_ascii_ws w = true.
Proof. rewrite forallb_forall, Forall_forall. split; intros H c I; apply white_is, H, I. Qed.
Lemma dash_is c : dash_mark c <-> existsb (N.eqb c) dash_chars = true.
Proof. unfold dash_mark, dash_chars. rewrite existsb_exists. split; [intros I; exists c; split; [exact I|apply N.eqb_refl]|]. intros (x & I & E). apply N.eqb_eq in E as ->. exact I. Qed.
Lemma no_start f (P : char -> Prop) t : (forall c, f c = true -> P c) -> ~ starts_by P t -> quiet f t.
Proof. intros H N. destruct t as [|c t]; [exact I|]. cbn. destruct (f c) eqn:E; [|reflexivity]. exfalso. apply N. exists c, t. auto. Qed.
(** What is after the white space *)
Lemma ahead_split P t : ahead_is P t -> exists w u, t = w ++ u /\ forallb is_ascii_ws w = true /\ quiet is_ascii_ws u /\ forall c v, u = c :: v -> P c.
Proof.
  intros H. destruct (split_at is_ascii_ws t) as (w & u & -> & F & Q). exists w, u. repeat (split; [assumption || reflexivity|]). intros c v ->. apply (H w c v eq_refl); [now apply whites|].
  intros K. apply white_is in K. cbn [quiet] in Q. congruence.
Qed.
Lemma hun_cases c : is_hun_any c = true -> is_ascii_ws c = false /\ is_digit c = false /\ (40 =? c) = false /\ (41 =? c) = false /\ existsb (N.eqb c) dash_chars = false /\ (8222 =? c) = false.
Proof.
  intros H. assert (E : forall l, forallb (fun x => negb (is_hun_any x)) l = true -> existsb (N.eqb c) l = false).
  { intros l F. destruct (existsb (N.eqb c) l) eqn:E; [|reflexivity]. apply existsb_exists in E as (x & I & E). apply N.eqb_eq in E as <-. rewrite forallb_forall in F. apply F in I. rewrite H in I. discriminate I. }
  repeat split.
  - apply E. reflexivity.
  - destruct (is_digit c) eqn:D; [|reflexivity]. apply ProofSay4.digit_cases in D. cbn [In] in D. repeat (destruct D as [<-|D]; [discriminate H|]). contradiction.
  - rewrite N.eqb_sym. generalize (E [40] eq_refl). cbn. now rewrite orb_false_r.
  - rewrite N.eqb_sym. generalize (E [41] eq_refl). cbn. now rewrite orb_false_r.
  - apply E. reflexivity.
  - rewrite N.eqb_sym. generalize (E [8222] eq_refl). cbn. now rewrite orb_false_r.
Qed.
Lemma az_hun c : in_range 97 122 c = true -> is_hun_any c = true.
Proof. intros H. unfold is_hun_any, is_hun_lower. now rewrite H. Qed.

Section Run.
  Variable known : list str.
  Local Notation yields := (yields known).
  Local Notation fails := (fails known).

  Lemma f_ahead {A} (p : parser A) P t o : ahead_is P t -> (forall o u, quiet is_ascii_ws u -> (forall c v, u = c :: v -> P c) -> fails p o u) -> fails (sk p) o t.
  Proof. intros H F. destruct (ahead_split P t H) as (w & u & -> & FW & Q & K). apply f_sk_ws; auto. Qed.
  Lemma f_T_ahead s x w P t o : ahead_is P t -> lit s = x :: w -> ~ P x -> fails (T s) o t.
  Proof.
    intros H E N. apply (f_ahead _ P); [exact H|]. intros o1 u _ K. apply (f_tok_first known (N.eqb x) s x w); [exact E|apply N.eqb_refl|]. destruct u as [|c v]; [exact I|]. cbn. apply N.eqb_neq. intros ->. now apply N, (K c v).
  Qed.
  Lemma f_dash_ahead P t o : ahead_is P t -> (forall c, dash_mark c -> ~ P c) -> fails (sk dash) o t.
  Proof.
    intros H N. apply (f_ahead _ P); [exact H|]. intros o1 u _ K. apply f_chr. destruct u as [|c v]; [exact I|]. cbn [quiet]. destruct (existsb (N.eqb c) dash_chars) eqn:E; [|reflexivity]. exfalso. apply dash_is in E. now apply (N c E), (K c v).
  Qed.

  (** ** Words *)
  (** Points and sub-points have one or two letters. *)
  Definition tiny {A} (p : parser A) : Prop := forall o t, (exists a o' w t', (1 <= List.length w <= 2)%nat /\ forallb (in_range 97 122) w = true /\ t = w ++ t' /\ yields p o t a o' t') \/ fails p o t.
  Lemma tiny_chr : tiny lower_az.
  Proof.
    intros o [|c t]; [right; now apply f_chr|]. destruct (in_range 97 122 c) eqn:E; [|right; apply f_chr; exact E]. left. exists tt. eexists. exists [c], t. cbn [List.length forallb app]. rewrite E. split; [lia|]. split; [reflexivity|]. split; [reflexivity|]. now apply y_chr.
  Qed.
  Lemma tiny_suffix : tiny suffix_char.
  Proof.
    intros o t. unfold suffix_char.
    assert (H : forall l, forallb (fun s => (List.length (lit s) =? 2)%nat && forallb (in_range 97 122) (lit s)) l = true ->
      (exists a o' w t', (1 <= List.length w <= 2)%nat /\ forallb (in_range 97 122) w = true /\ t = w ++ t' /\ yields (one_of l) o t a o' t') \/ fails (one_of l) o t).
    { induction l as [|s l IH]; cbn [forallb one_of]; intros E; [right; intros g _; reflexivity|]. rewrite !andb_true_iff, Nat.eqb_eq in E. destruct E as [[E1 E2] E].
      destruct (strip_prefix (lit s) t) as [r|] eqn:S; [left; apply strip_prefix_some in S; subst t; exists tt; eexists; exists (lit s), r; split; [lia|]; split; [exact E2|]; split; [reflexivity|]; apply y_alt1, y_tok|].
      assert (F : fails (tok s) o t) by now apply f_tok. destruct (IH E) as [(a & o' & w & t' & A & B & C & D)|X]; [left; exists a, o', w, t'; repeat split; auto; try lia; now apply y_alt2|right; now apply f_alt]. }
    destruct (H ["cs"; "dz"; "gy"; "ly"; "ny"; "sz"; "ty"; "zs"]%string eq_refl) as [(a & o' & w & t' & A & B & C & D)|X]; [left; exists a, o', w, t'; repeat split; auto; try lia; now apply y_alt1|].
    destruct (tiny_chr o t) as [(a & o' & w & t' & A & B & C & D)|X']; [left; exists a, o', w, t'; repeat split; auto; try lia; now apply y_alt2|right; now apply f_alt].
  Qed.
  Lemma tiny_sliced {A} (p : parser A) : tiny p -> tiny (sliced p).
  Proof. intros H o t. destruct (H o t) as [(a & o' & w & t' & A1 & B & C & D)|X]; [left|right; now apply f_sliced]. exists w, o', w, t'. repeat split; auto; try lia. subst t. eapply y_sliced. exact D. Qed.
  Lemma tiny_sub : tiny (lower_az ;; opt lower_az).
  Proof.
    intros o t. destruct t as [|c t]; [right; now apply f_bind1, f_chr|]. destruct (in_range 97 122 c) eqn:E; [|right; apply f_bind1, f_chr; exact E]. left.
    destruct t as [|d t]; [|destruct (in_range 97 122 d) eqn:E2].
    - eexists. eexists. exists [c], []. cbn [List.length forallb app]. rewrite E. split; [lia|]. split; [reflexivity|]. split; [reflexivity|]. eapply y_bind; [now apply y_chr|]. apply y_none, f_chr. exact I.
    - eexists. eexists. exists [c; d], t. cbn [List.length forallb app]. rewrite E, E2. split; [lia|]. split; [reflexivity|]. split; [reflexivity|]. eapply y_bind; [now apply y_chr|]. now apply y_some, y_chr.
    - eexists. eexists. exists [c], (d :: t). cbn [List.length forallb app]. rewrite E. split; [lia|]. split; [reflexivity|]. split; [reflexivity|]. eapply y_bind; [now apply y_chr|]. apply y_none, f_chr. exact E2.
  Qed.
  Definition no_mark_in (t : str) : Prop := forall w t', t = w ++ t' -> (1 <= List.length w <= 2)%nat -> forallb (in_range 97 122) w = true -> ahead_is (fun c => ~ dash_mark c /\ c <> chr ")") t'.
  Lemma f_tiny {A B} (p : parser A) (f : A -> parser B) o t : quiet is_ascii_ws t -> tiny p -> no_mark_in t -> (forall a o' t', ahead_is (fun c => ~ dash_mark c /\ c <> chr ")") t' -> fails (f a) o' t') -> fails (pbind (sk p) f) o t.
  Proof.
    intros W P N F. destruct (P o t) as [(a & o' & w & t' & L & Z & E & Y)|X]; [|now apply f_bind1, f_sk]. eapply f_bind2; [apply y_sk; [exact W|exact Y]|]. apply F. now apply (N w t').
  Qed.
  Lemma paren_ahead t o : ahead_is (fun c => ~ dash_mark c /\ c <> chr ")") t -> fails (T ")") o t.
  Proof. intros H. apply (f_T_ahead ")" 41 [] _ t o H eq_refl). intros [_ K]. now apply K. Qed.
  Lemma dash_ahead t o : ahead_is (fun c => ~ dash_mark c /\ c <> chr ")") t -> fails (sk dash) o t.
  Proof. intros H. apply (f_dash_ahead _ t o H). intros c D [K _]. contradiction. Qed.
  Lemma word_points o t : quiet is_ascii_ws t -> no_mark_in t -> fails alpha_point_part o t /\ fails alpha_subpoint_part o t.
  Proof.
    intros W N. split; apply f_located, f_alt.
    - apply f_tiny; [exact W|apply tiny_sliced, tiny_suffix|exact N|]. intros a o' t' H. apply f_bind1. eapply f_bind2; [apply y_none, paren_ahead; exact H|now apply dash_ahead].
    - apply f_tiny; [exact W|apply tiny_sliced, tiny_suffix|exact N|]. intros a o' t' H. now apply f_bind1, paren_ahead.
    - apply f_tiny; [exact W|apply tiny_sliced, tiny_sub|exact N|]. intros a o' t' H. now apply f_bind1, f_bind1, paren_ahead.
    - apply f_tiny; [exact W|apply tiny_sliced, tiny_sub|exact N|]. intros a o' t' H. now apply f_bind1, paren_ahead.
  Qed.
  Lemma letter_ahead c t : letter c -> ahead_is (fun c => ~ dash_mark c /\ c <> chr ")") (c :: t).
  Proof.
    intros L s x u E F NW. destruct s as [|y s].
    - injection E as <- _. apply letter_is, hun_cases in L as (_ & _ & _ & A & B & _). split; [intros D; apply dash_is in D; congruence|]. intros ->. discriminate A.
    - exfalso. injection E as <- _. inversion F; subst. apply letter_is, hun_cases in L as (A & _). apply white_is in H1. congruence.
  Qed.
  Lemma az_big c : big_letter c -> in_range 97 122 c = false.
  Proof.
    intros [H|H]; [unfold upper_letter in H; unfold in_range; apply andb_false_iff; left; apply N.leb_gt; lia|].
    vm_compute in H. repeat (destruct H as [<-|H]; [reflexivity|]). contradiction.
  Qed.
  Lemma word_marks w r : plain_word w r -> no_mark_in (w ++ r).
  Proof.
    intros [a b r' L FA FB NS|c b r' B FB NS|a r' NE FA NS AH] x t E LX FX.
    - destruct a as [|a1 [|a2 [|a3 a]]]; cbn [List.length] in L; try lia. inversion FA as [|? ? A1 FA1]; subst. inversion FA1 as [|? ? A2 FA2]; subst. inversion FA2 as [|? ? A3 FA3]; subst.
      destruct x as [|x1 [|x2 [|x3 x]]]; cbn [List.length] in LX; try lia; cbn [app] in E; [injection E as _ <-|injection E as _ _ <-]; now apply letter_ahead.
    - exfalso. destruct x as [|x1 x]; cbn [List.length] in LX; try lia. cbn [app] in E. injection E as <- _. cbn [forallb] in FX. rewrite (az_big c B) in FX. discriminate FX.
    - revert x E LX FX. induction FA as [|c a C FA IH]; [congruence|]. intros x E LX FX. destruct x as [|x1 x]; cbn [List.length] in LX; try lia. cbn [app] in E. injection E as <- E. cbn [forallb] in FX. apply andb_true_iff in FX as [_ FX].
      destruct a as [|c2 a].
      + cbn [app] in E. destruct x as [|x2 x]; [cbn in E; now subst t|]. exfalso. apply NS. exists x2, (x ++ t). split; [exact E|]. cbn [forallb] in FX. apply andb_true_iff in FX as [FX _]. now apply letter_is, az_hun.
      + destruct x as [|x2 x].
        * cbn [app] in E. subst t. apply letter_ahead. now inversion FA.
        * apply (IH ltac:(discriminate) (x2 :: x) E); [cbn [List.length] in *; lia|exact FX].
  Qed.
  Lemma word_letter w r : plain_word w r -> exists c u, w = c :: u /\ is_hun_any c = true.
  Proof.
    intros [a b r' L FA FB NS|c b r' B FB NS|a r' NE FA NS AH].
    - destruct a as [|c a]; [cbn in L; lia|]. exists c, (a ++ b). split; [reflexivity|]. apply letter_is. now inversion FA.
    - exists c, b. split; [reflexivity|]. apply letter_is. now right.
    - destruct a as [|c a]; [congruence|]. exists c, a. split; [reflexivity|]. apply letter_is. now inversion FA.
  Qed.
  (** ** The kinds of references *)
  Record no_reference_at (v : str) : Prop := {
    na_ws : quiet is_ascii_ws v; na_article : forall o, fails article_reference o v;
    na_par : forall o, fails paragraph_reference_part o v; na_alpha : forall o, fails alpha_point_part o v /\ fails alpha_subpoint_part o v;
    na_point : forall o, fails num_point_reference o v; na_sub : forall o, fails num_subpoint_reference o v; na_att : forall o, fails attachment_reference o v }.
  Lemma f_list {A} (p : parser A) o v : quiet is_ascii_ws v -> (forall o, fails p o v) -> fails (sep_list p) o v.
  Proof. intros W F. now apply (f_sep known p [] o v lead_none W). Qed.
  Lemma f_unsk {A} (p : parser A) o v : quiet is_ascii_ws v -> fails (sk p) o v -> fails p o v.
  Proof. intros W F g E. specialize (F g E). unfold sk, pbind in F. rewrite (y_ws known o v W g E) in F. exact F. Qed.
  Lemma not_first v : quiet is_ascii_ws v -> quiet is_digit v -> (forall o, fails article_reference o v) /\ (forall o, fails num_point_reference o v) /\ (forall o, fails num_subpoint_reference o v) /\ (forall o, fails attachment_reference o v).
  Proof.
    intros W D. repeat split; intros o.
    - apply f_unsk; [exact W|]. exact (f_article_other known [] o v lead_none W D).
    - apply f_bind1, f_list; [exact W|]. intros o1. now apply f_num_point.
    - apply f_bind1, f_list; [exact W|]. intros o1. now apply f_num_sub.
    - apply f_bind1, f_list; [exact W|]. intros o1. apply f_bind1, f_alt; apply f_bind1, f_sk; auto; now apply f_number.
  Qed.
  Lemma quiet_az v : (forall c u, v = c :: u -> ~ letter c) -> quiet (in_range 97 122) v.
  Proof. intros H. destruct v as [|c u]; [exact I|]. cbn [quiet]. destruct (in_range 97 122 c) eqn:E; [|reflexivity]. exfalso. apply (H c u eq_refl), letter_is, az_hun, E. Qed.
  Lemma f_alphas v : quiet is_ascii_ws v -> quiet (in_range 97 122) v -> forall o, fails alpha_point_part o v /\ fails alpha_subpoint_part o v.
  Proof. intros W Q o. split; [now apply f_alpha_point|now apply f_alpha_sub]. Qed.
  (** "15 napon" *)
  Section Number.
    Variables (d r : str).
    Hypothesis num : plain_number d r.
    Local Notation txt := (d ++ r).
    Lemma pl_figures : numeral d. Proof. apply figures_numeral, num. Qed.
    Lemma pl_quiet : quiet is_digit r.
    Proof. apply (no_start is_digit (fun c => digit c \/ lower_letter c \/ c = chr "/")); [|apply num]. intros c H. left. now apply digit_is. Qed.
    Lemma pl_slash : quiet (N.eqb 47) r.
    Proof. apply (no_start (N.eqb 47) (fun c => digit c \/ lower_letter c \/ c = chr "/")); [|apply num]. intros c H. right. right. apply N.eqb_eq in H. now subst c. Qed.
    Lemma pl_az : quiet (in_range 97 122) r.
    Proof. apply (no_start (in_range 97 122) (fun c => digit c \/ lower_letter c \/ c = chr "/")); [|apply num]. intros c H. right. left. unfold in_range in H. rewrite andb_true_iff, !N.leb_le in H. exact H. Qed.
    Lemma pl_dot o : fails (T ".") o r.
    Proof. apply (f_T_ahead "." 46 [] _ r o (pn_ahead _ _ num) eq_refl). intros (_ & K & _). now apply K. Qed.
    Lemma pl_colon o : fails (T ":") o r.
    Proof. apply (f_T_ahead ":" 58 [] _ r o (pn_ahead _ _ num) eq_refl). intros (_ & _ & K). now apply K. Qed.
    Lemma pl_dash o : fails (sk dash) o r.
    Proof. apply (f_dash_ahead _ r o (pn_ahead _ _ num)). intros c D (K & _). contradiction. Qed.
    Lemma pl_number o : yields (sk g_number) o txt d (o + utf8_len d) r.
    Proof. apply y_sk_digits; [exact pl_figures|exact pl_quiet]. Qed.
    Lemma pl_ws : quiet is_ascii_ws txt. Proof. apply numeral_ws, pl_figures. Qed.
    Lemma pl_id o : yields (sk g_article_id) o txt d (o + utf8_len d) r.
    Proof.
      apply y_sk; [exact pl_ws|]. eapply y_sliced. eapply y_bind; [apply y_digits; [exact pl_figures|exact pl_quiet]|]. apply y_none, f_bind1. apply (f_tok_first known (N.eqb 47) "/" 47 []); [reflexivity|reflexivity|exact pl_slash].
    Qed.
    Lemma f_tok_az s x w o : lit s = x :: w -> in_range 97 122 x = true -> fails (tok s) o r.
    Proof. intros E H. apply (f_tok_first known (in_range 97 122) s x w); [exact E|exact H|exact pl_az]. Qed.
    Lemma pl_suffix o : fails suffix_char o r.
    Proof. apply f_alt; [|now apply f_chr, pl_az]. cbn [one_of]. repeat (apply f_alt; [eapply f_tok_az; reflexivity|]). intros g _. reflexivity. Qed.
    Lemma pl_point o : yields (sk num_point_id) o txt d (o + utf8_len d) r.
    Proof.
      apply y_sk; [exact pl_ws|]. eapply y_sliced. eapply y_bind; [apply y_digits; [exact pl_figures|exact pl_quiet]|]. apply y_none.
      eapply f_bind2; [apply y_none, (f_tok_first known (N.eqb 47) "/" 47 []); [reflexivity|reflexivity|exact pl_slash]|apply pl_suffix].
    Qed.
    Lemma pl_part p o : yields (sk p) o txt d (o + utf8_len d) r -> fails (range_part (sk p) (sk p) (sk dash) (T ".")) o txt.
    Proof. intros Y. apply f_located, f_alt; (eapply f_bind2; [exact Y|]); apply f_bind1; [apply pl_dash|apply pl_dot]. Qed.
    Lemma plain_number_at : no_reference_at txt.
    Proof.
      pose proof pl_ws as W. constructor; [exact W|..]; intros o.
      - apply f_bind1, f_list; [exact W|]. intros o1. apply f_located. eapply f_bind2; [apply y_none; eapply f_bind2; [apply pl_number|apply f_bind1, pl_colon]|]. apply f_alt; (eapply f_bind2; [apply pl_id|]).
        + eapply f_bind2; [apply y_none, f_bind1, pl_dot|]. apply f_bind1, pl_dash.
        + apply f_bind1, pl_dot.
      - apply f_paragraph_part; [exact W|]. apply numeral_quiet; [exact no_paren_digit|exact pl_figures].
      - apply f_alphas; [exact W|]. apply numeral_quiet; [|exact pl_figures]. intros c H. apply ProofSay4.digit_cases in H. cbn [In] in H. repeat (destruct H as [<-|H]; [reflexivity|]). contradiction.
      - apply f_bind1, f_list; [exact W|]. intros o1. apply pl_part, pl_point.
      - apply f_bind1, f_list; [exact W|]. intros o1. apply pl_part. apply y_sk; [exact W|]. eapply y_sliced, y_digits; [exact pl_figures|exact pl_quiet].
      - apply f_bind1, f_list; [exact W|]. intros o1. unfold attachment_reference_part. eapply f_bind2; [apply y_alt2|apply pl_dot]; [eapply f_bind2; [apply pl_number|apply f_bind1, pl_dash]|eapply y_void, pl_number].
    Qed.
  End Number.
  (** "2013. január" *)
  Section Year.
    Variables (d r : str).
    Hypothesis yr : year_like d r.
    Local Notation txt := (d ++ lit "." ++ r).
    Lemma yl_figures : numeral d. Proof. apply figures_numeral, yr. Qed.
    Lemma yl_ws : quiet is_ascii_ws txt. Proof. apply numeral_ws, yl_figures. Qed.
    Lemma yl_word k o : In (lit k) (counted ++ connecting) -> fails (T k) o r.
    Proof.
      intros I. destruct (split_at is_ascii_ws r) as (w & u & E & F & Q). rewrite E. apply f_sk_ws; [exact F|exact Q|]. apply f_tok. destruct (strip_prefix (lit k) u) as [b|] eqn:S; [|reflexivity].
      exfalso. apply strip_prefix_some in S. apply whites in F. apply (da_word _ _ yr w u E F (lit k) I). now exists b.
    Qed.
    Lemma yl_sep o : fails (sk list_separator) o r.
    Proof.
      destruct (split_at is_ascii_ws r) as (w & u & E & F & Q). assert (K : forall s o, In (lit s) (counted ++ connecting) -> fails (T s) o u).
      { intros s o1 I. apply f_T; [exact Q|]. destruct (strip_prefix (lit s) u) as [b|] eqn:S; [|reflexivity]. exfalso. apply strip_prefix_some in S. apply whites in F. apply (da_word _ _ yr w u E F (lit s) I). now exists b. }
      rewrite E. apply f_sk_ws; [exact F|exact Q|]. clear - K. unfold list_separator. apply f_bind1. repeat apply f_alt.
      - eapply f_bind2; [apply y_none, f_alt; apply K; apply in_or_app; left; cbn [counted map In]; auto 10|]. cbn [one_of_sk]. repeat (apply f_alt; [apply K; apply in_or_app; right; cbn [connecting map In]; auto 10|]). intros g _. reflexivity.
      - apply K, in_or_app. left. cbn [counted map In]. auto 10.
      - apply K, in_or_app. left. cbn [counted map In]. auto 10.
    Qed.
    Lemma yl_noun s o : In (lit s) counted -> fails (sk (suffixed s)) o r.
    Proof.
      intros I. assert (K : fails (T s) o r) by (apply yl_word, in_or_app; now left). intros g E. specialize (K g E). unfold T, suffixed, sk, pbind in *. destruct (ws (mkCur o r) g) as [[[a c1]| |] g1]; try exact K.
      destruct (tok s c1 g1) as [[[b c2]| |] g2]; try discriminate K; exact K.
    Qed.
    Lemma yl_article_suffix o : fails (sk article_suffix) o r.
    Proof.
      destruct (split_at is_ascii_ws r) as (w & u & E & F & Q). rewrite E. apply f_sk_ws; [exact F|exact Q|]. assert (N : ~ begins_with (lit "§") u) by (apply whites in F; apply (da_word _ _ yr w u E F), in_or_app; left; cbn [counted map In]; auto).
      apply f_alt; [apply f_bind1|]; apply f_tok.
      - destruct (strip_prefix (lit "§-") u) as [b|] eqn:S; [|reflexivity]. exfalso. apply strip_prefix_some in S. apply N. exists (lit "-" ++ b). exact S.
      - destruct (strip_prefix (lit "§") u) as [b|] eqn:S; [|reflexivity]. exfalso. apply strip_prefix_some in S. apply N. now exists b.
    Qed.
    Lemma yl_id o : yields (sk g_article_id) o txt d (o + utf8_len d) (lit "." ++ r).
    Proof. apply y_sk; [exact yl_ws|]. eapply y_sliced. eapply y_bind; [apply y_digits; [exact yl_figures|reflexivity]|]. apply y_none, f_bind1, f_tok. reflexivity. Qed.
    Lemma yl_number o : yields (sk g_number) o txt d (o + utf8_len d) (lit "." ++ r).
    Proof. apply y_sk_digits; [exact yl_figures|reflexivity]. Qed.
    Lemma yl_dash o : fails (sk dash) o (lit "." ++ r).
    Proof. apply f_sk; [reflexivity|]. now apply f_chr. Qed.
    Lemma yl_one {A} (p : parser A) a o o' : yields p o txt a o' r -> yields (sep_list p) o txt [a] o' r.
    Proof. intros Y. unfold sep_list. eapply y_bind; [apply y_sk; [exact yl_ws|exact Y]|]. eapply y_bind; [apply y_many_nil, f_bind1, yl_sep|apply y_ret]. Qed.
    Lemma yl_part p o : yields (sk p) o txt d (o + utf8_len d) (lit "." ++ r) -> exists a o', yields (range_part (sk p) (sk p) (sk dash) (T ".")) o txt a o' r.
    Proof.
      intros Y. eexists. eexists. unfold range_part. eapply y_located. apply y_alt2; [eapply f_bind2; [exact Y|apply f_bind1, yl_dash]|]. eapply y_bind; [exact Y|]. eapply y_bind; [apply y_T; reflexivity|apply y_ret].
    Qed.
    Lemma year_like_at : no_reference_at txt.
    Proof.
      pose proof yl_ws as W. constructor; [exact W|..]; intros o.
      - assert (Y : exists a o', yields article_reference_part o txt a o' r).
        { eexists. eexists. unfold article_reference_part. eapply y_located. eapply y_bind; [apply y_none; eapply f_bind2; [apply yl_number|apply f_bind1, f_T; reflexivity]|]. apply y_alt2.
          - eapply f_bind2; [apply yl_id|]. eapply f_bind2; [apply y_none; eapply f_bind2; [apply y_T; reflexivity|apply yl_article_suffix]|]. apply f_bind1, yl_dash.
          - eapply y_bind; [apply yl_id|]. eapply y_bind; [apply y_T; reflexivity|apply y_ret]. }
        destruct Y as (a & o' & Y). eapply f_bind2; [apply yl_one; exact Y|]. apply f_bind1, yl_article_suffix.
      - apply f_paragraph_part; [exact W|]. apply numeral_quiet; [exact no_paren_digit|exact yl_figures].
      - apply f_alphas; [exact W|]. apply numeral_quiet; [|exact yl_figures]. intros c H. apply ProofSay4.digit_cases in H. cbn [In] in H. repeat (destruct H as [<-|H]; [reflexivity|]). contradiction.
      - destruct (yl_part num_point_id o) as (a & o' & Y); [|eapply f_bind2; [apply yl_one; exact Y|]; apply f_bind1, yl_noun; cbn [counted map In]; auto 10].
        apply y_sk; [exact W|]. apply (y_num_point_digits known d yl_figures). apply stop_dot.
      - destruct (yl_part (sliced g_number) o) as (a & o' & Y); [|eapply f_bind2; [apply yl_one; exact Y|]; apply f_bind1, yl_noun; cbn [counted map In]; auto 10].
        apply y_sk; [exact W|]. eapply y_sliced, y_digits; [exact yl_figures|reflexivity].
      - assert (Y : exists a o', yields attachment_reference_part o txt a o' r).
        { eexists. eexists. unfold attachment_reference_part. eapply y_bind; [apply y_alt2; [eapply f_bind2; [apply yl_number|apply f_bind1, yl_dash]|eapply y_void, yl_number]|]. apply y_T. reflexivity. }
        destruct Y as (a & o' & Y). eapply f_bind2; [apply yl_one; exact Y|]. apply f_bind1.
        destruct (split_at is_ascii_ws r) as (w & u & E & F & Q). rewrite E. apply f_sk_ws; [exact F|exact Q|]. unfold attachment_suffix.
        eapply f_bind2; [apply y_none, f_tok|].
        + destruct (strip_prefix (lit "számú ") u) as [b|] eqn:S; [|reflexivity]. exfalso. apply strip_prefix_some in S. apply whites in F. apply (da_word _ _ yr w u E F (lit "számú ")); [apply in_or_app; left; cbn [counted map In]; auto 10|]. now exists b.
        + apply f_bind1, f_tok. destruct (strip_prefix (lit "melléklet") u) as [b|] eqn:S; [|reflexivity]. exfalso. apply strip_prefix_some in S. apply whites in F. apply (da_word _ _ yr w u E F (lit "melléklet")); [apply in_or_app; left; cbn [counted map In]; auto 10|]. now exists b.
    Qed.
  End Year.
  Lemma no_ref_at v : no_ref v -> no_reference_at v.
  Proof.
    assert (Q : forall v, quiet is_ascii_ws v -> quiet is_digit v -> quiet (N.eqb 40) v -> (forall o, fails alpha_point_part o v /\ fails alpha_subpoint_part o v) -> no_reference_at v).
    { intros u W D P A. destruct (not_first u W D) as (X1 & X2 & X3 & X4). constructor; auto. intros o. now apply f_paragraph_part. }
    intros [|c r W L D P|r H|w r H|d r H|d r H].
    - apply Q; try exact I. apply f_alphas; exact I.
    - apply Q; [now apply not_white|now apply not_digit|cbn; apply N.eqb_neq; intros E; now apply P|]. apply f_alphas; [now apply not_white|]. apply quiet_az. now intros x u [= <- _].
    - destruct (not_first (chr "(" :: r) eq_refl eq_refl) as (X1 & X2 & X3 & X4). constructor; auto; [reflexivity| |apply f_alphas; reflexivity].
      intros o. assert (F : forall o, fails (sk paragraph_id_rule) o r).
      { intros o1. apply (f_ahead _ _ r o1 H). intros o2 u _ K. apply f_sliced, f_bind1, f_number. destruct u as [|c v']; [exact I|]. apply not_digit. now apply (K c v'). }
      change (chr "(" :: r) with (lit "(" ++ r). apply f_located, f_alt; apply f_bind1; (eapply f_bind2; [apply y_T; reflexivity|apply F]).
    - destruct (word_letter w r H) as (c & u & E & C). apply hun_cases in C as C'. destruct C' as (C1 & C2 & C3 & _). assert (W : quiet is_ascii_ws (w ++ r)) by (rewrite E; exact C1). apply Q; [exact W|rewrite E; exact C2|rewrite E; exact C3|].
      intros o. apply word_points; [exact W|now apply word_marks].
    - now apply plain_number_at.
    - now apply year_like_at.
  Qed.
  Lemma no_ref_kinds l v o : lead l -> no_ref v -> fails (sk article_reference) o (l ++ v) /\ fails reference_with_paragraph o (l ++ v) /\ fails points_of o (l ++ v) /\ fails subpoints_of o (l ++ v) /\ fails (sk g_reference) o (l ++ v) /\ fails (sk attachment_reference) o (l ++ v).
  Proof.
    intros L N. apply no_ref_at in N as [W A P AL NP NS AT].
    assert (H : forall l o, lead l -> fails (sk article_reference) o (l ++ v) /\ fails reference_with_paragraph o (l ++ v) /\ fails points_of o (l ++ v) /\ fails subpoints_of o (l ++ v)).
    { clear l o L. intros l o L. split; [now apply f_sk_lead|]. split; [apply f_bind1, f_sk_lead; [exact L|exact W|]; intros o1; apply f_bind1, f_list; auto|]. split; apply f_alt; apply f_bind1, f_sk_lead; auto; intros o1; apply f_bind1, f_list; auto; intros o2; apply AL. }
    destruct (H l o L) as (X1 & X2 & X3 & X4). do 4 (split; [assumption|]). split; [|now apply f_sk_lead].
    apply f_sk_lead; [exact L|exact W|]. intros o1. destruct (H [] o1 lead_none) as (Y1 & Y2 & Y3 & Y4). cbn [app] in *. unfold g_reference. apply f_located. apply f_alt; [now apply f_bind1|]. apply f_alt; [now apply f_bind1|]. apply f_alt; [now apply f_bind1|]. apply f_alt; [now apply f_bind1, f_bind1|now apply f_bind1].
  Qed.
End Run.
