(** Proofs for C73: a date is not taken for a reference. *)
From Verif Require Export SpecSay2 ProofMk ProofSay6.
From Coq Require Import Lia.
Local Open Scope peg_scope.
Local Open Scope N_scope.

Ltac here := intros ? ?; vm_compute; reflexivity.
Definition numeral (ds : str) : Prop := ds <> [] /\ forallb is_digit ds = true.
Lemma numeral_of s n : denotes_dec s n -> numeral s /\ digits_value s = n.
Proof. intros H. apply denotes_dec_iff in H as (A & B & C). repeat split; assumption. Qed.
Lemma numeral_quiet f ds t : (forall c, is_digit c = true -> f c = false) -> numeral ds -> quiet f (ds ++ t).
Proof. intros H [N D]. destruct ds as [|c ds]; [congruence|]. cbn [forallb] in D. apply andb_true_iff in D as [D _]. cbn. now apply H. Qed.
Lemma numeral_first ds t : numeral ds -> digit_first (ds ++ t).
Proof. intros [N D]. destruct ds as [|c ds]; [congruence|]. cbn [forallb] in D. apply andb_true_iff in D as [D _]. exists c, (ds ++ t). auto. Qed.
Lemma numeral_ws ds t : numeral ds -> quiet is_ascii_ws (ds ++ t).
Proof. apply numeral_quiet, no_ws_digit. Qed.
(** The words which could make a number a reference *)
Definition nouns : list string := ["§-"; "§"; "pont"; "alpont"; "alcím"; "számú "; "melléklet"]%string.
Record other (w : str) : Prop := {
  ow_ws : quiet is_ascii_ws w; ow_sep : quiet (fun c => existsb (N.eqb c) sep_heads) w; ow_dash : quiet (fun c => existsb (N.eqb c) dash_chars) w;
  ow_nouns : forallb (fun s => match strip_prefix (lit s) w with None => true | _ => false end) nouns = true }.
Lemma other_noun w s : other w -> In s nouns -> strip_prefix (lit s) w = None.
Proof. intros [_ _ _ H] I. rewrite forallb_forall in H. specialize (H s I). now destruct (strip_prefix (lit s) w). Qed.

Section Run.
  Variable known : list str.
  Local Notation yields := (yields known).
  Local Notation fails := (fails known).
  Lemma y_digits ds o t : numeral ds -> quiet is_digit t -> yields g_number o (ds ++ t) ds (o + utf8_len ds) t.
  Proof. intros [N D] Q. unfold g_number. destruct (y_many1_chars known (in_range 48 57) ds o t N D Q) as [l H]. eapply y_sliced. exact H. Qed.
  Lemma y_sk_digits ds o t : numeral ds -> quiet is_digit t -> yields (sk g_number) o (ds ++ t) ds (o + utf8_len ds) t.
  Proof. intros N Q. apply y_sk; [now apply numeral_ws|now apply y_digits]. Qed.

  Section Number.
    Variables (ds w : str).
    Hypothesis num : numeral ds.
    Hypothesis oth : other w.
    Local Notation txt := (ds ++ lit "." ++ lit " " ++ w).
    Lemma txt_ws : quiet is_ascii_ws txt. Proof. now apply numeral_ws. Qed.
    Lemma f_sk_noun s o : In s nouns -> fails (sk (tok s)) o (lit " " ++ w).
    Proof. intros I. apply f_sk_sp; [apply oth|]. now apply f_tok, other_noun. Qed.
    Lemma f_sk_suffixed s o : In s nouns -> fails (sk (suffixed s)) o (lit " " ++ w).
    Proof. intros I. apply f_sk_sp; [apply oth|]. apply f_bind1. now apply f_tok, other_noun. Qed.
    Lemma f_sk_art_suffix o : fails (sk article_suffix) o (lit " " ++ w).
    Proof. apply f_sk_sp; [apply oth|]. apply f_alt; [apply f_bind1|]; apply f_tok, other_noun; auto; cbn; auto. Qed.
    Lemma y_art_id o : yields (sk g_article_id) o txt ds (o + utf8_len ds) (lit "." ++ lit " " ++ w).
    Proof.
      apply y_sk; [exact txt_ws|]. eapply y_sliced. eapply y_bind; [apply y_digits; [exact num|reflexivity]|]. apply y_none, f_bind1, f_tok. reflexivity.
    Qed.
    Lemma y_art_part o : exists a, yields article_reference_part o txt a (o + utf8_len ds + 1) (lit " " ++ w).
    Proof.
      eexists. unfold article_reference_part. eapply y_located. eapply y_bind; [apply y_none|].
      - eapply f_bind2; [apply y_sk_digits; [exact num|reflexivity]|]. apply f_bind1, f_T; reflexivity.
      - apply y_alt2.
        + eapply f_bind2; [apply y_art_id|]. eapply f_bind2; [apply y_none|].
          * eapply f_bind2; [apply y_T; reflexivity|]. apply f_sk_art_suffix.
          * apply f_bind1, f_sk; [reflexivity|]. now apply f_chr.
        + eapply y_bind; [apply y_art_id|]. eapply y_bind; [apply y_T; reflexivity|]. apply y_ret.
    Qed.
    Lemma f_art_date o : fails (sk article_reference) o txt.
    Proof.
      apply f_sk; [exact txt_ws|]. destruct (y_art_part (o + utf8_len [])) as [a Y]. eapply f_bind2; [apply (y_sep_one known article_reference_part [] o txt a _ (lit " ") w lead_none txt_ws Y lead_space); apply oth|].
      apply f_bind1, f_sk_art_suffix.
    Qed.
    Lemma f_par_date o : fails (sk paragraph_reference) o txt.
    Proof.
      apply f_sk; [exact txt_ws|]. apply f_bind1. apply (f_sep known _ [] o txt lead_none txt_ws). intros o1. apply f_paragraph_part; [exact txt_ws|]. apply numeral_quiet; [apply no_paren_digit|exact num].
    Qed.
    Lemma az_quiet : quiet (in_range 97 122) txt.
    Proof. apply numeral_quiet; [apply digit_not_az|exact num]. Qed.
    Lemma y_num_id o p : (forall o t, stop t -> yields p o (ds ++ t) ds (o + utf8_len ds) t) -> exists a, yields (range_part (sk p) (sk p) (sk dash) (T ".")) o txt a (o + utf8_len ds + 1) (lit " " ++ w).
    Proof.
      intros Y. eexists. unfold range_part. eapply y_located. apply y_alt2.
      - eapply f_bind2; [apply y_sk; [exact txt_ws|apply Y, stop_dot]|]. apply f_bind1, f_dash_dot.
      - eapply y_bind; [apply y_sk; [exact txt_ws|apply Y, stop_dot]|]. eapply y_bind; [apply y_T; reflexivity|]. apply y_ret.
    Qed.
    Lemma f_num_list o p noun : In noun nouns -> (forall o t, stop t -> yields p o (ds ++ t) ds (o + utf8_len ds) t) ->
      fails (sk (l <- sep_list (range_part (sk p) (sk p) (sk dash) (T ".")) ;; sk (suffixed noun) ;; ret l)) o txt.
    Proof.
      intros I Y. apply f_sk; [exact txt_ws|]. destruct (y_num_id (o + utf8_len []) p Y) as [a YA].
      eapply f_bind2; [apply (y_sep_one known _ [] o txt a _ (lit " ") w lead_none txt_ws YA lead_space); apply oth|]. apply f_bind1. now apply f_sk_suffixed.
    Qed.
    Lemma y_num_point_digits o t : stop t -> yields num_point_id o (ds ++ t) ds (o + utf8_len ds) t.
    Proof.
      intros S. eapply y_sliced. eapply y_bind; [apply y_digits; [exact num|now apply stop_quiet]|]. apply y_none. eapply f_bind2; [apply y_none|].
      - eapply f_tok_first; [reflexivity|apply N.eqb_refl|now apply stop_quiet].
      - apply f_letter. now apply stop_quiet.
    Qed.
    Lemma f_points_date o : fails points_of o txt.
    Proof.
      apply f_alt; apply f_bind1.
      - apply f_sk; [exact txt_ws|]. apply f_bind1. apply (f_sep known _ [] o txt lead_none txt_ws). intros o1. apply f_alpha_point; [exact txt_ws|exact az_quiet].
      - apply f_num_list; [cbn; auto|]. intros. now apply y_num_point_digits.
    Qed.
    Lemma f_subpoints_date o : fails subpoints_of o txt.
    Proof.
      apply f_alt; apply f_bind1.
      - apply f_sk; [exact txt_ws|]. apply f_bind1. apply (f_sep known _ [] o txt lead_none txt_ws). intros o1. apply f_alpha_sub; [exact txt_ws|exact az_quiet].
      - apply f_num_list; [cbn; auto|]. intros o1 t S. eapply y_sliced, y_digits; [exact num|now apply stop_quiet].
    Qed.
    Lemma f_reference_date o : fails g_reference o txt.
    Proof.
      apply f_located. repeat apply f_alt.
      - apply f_bind1, f_art_date.
      - apply f_bind1, f_art_date.
      - apply f_bind1, f_bind1, f_par_date.
      - apply f_bind1, f_bind1, f_points_date.
      - apply f_bind1, f_subpoints_date.
    Qed.
    Lemma y_sub_id o t : stop t -> yields (sk subtitle_id) o (ds ++ t) ds (o + utf8_len ds) t.
    Proof.
      intros S. destruct (stop_facts t S) as (W & SL & UP & DI). apply y_sk; [now apply numeral_ws|]. eapply y_sliced. eapply y_bind; [apply y_sk_digits; [exact num|exact DI]|]. eapply y_void, y_none.
      eapply f_bind2; [apply y_none, (f_T_lead known "/" 47 [] [] _ t); auto using lead_none|]. apply f_sk; [exact W|]. now apply f_chr.
    Qed.
    Lemma y_sub_part o : exists a, yields subtitle_reference_part o txt a (o + utf8_len ds + 1) (lit " " ++ w).
    Proof.
      eexists. apply y_alt2.
      - eapply f_bind2; [apply y_sub_id, stop_dot|]. eapply f_bind2; [apply y_some, y_T; reflexivity|]. apply f_bind1, f_sk_sp; [apply oth|]. apply f_chr, oth.
      - eapply y_bind; [apply y_sub_id, stop_dot|]. eapply y_bind; [apply y_T; reflexivity|]. apply y_ret.
    Qed.
    Lemma f_struct_date o : fails struct_inner o txt.
    Proof.
      pose proof (numeral_first ds (lit "." ++ lit " " ++ w) num) as D. pose proof txt_ws as W. unfold struct_inner.
      eapply f_bind2; [apply y_none, f_sk; [exact W|]; apply f_bind1; now apply f_ordinal_capital|]. apply f_bind1. repeat apply f_alt.
      - apply f_bind1, f_sk; [exact W|]. apply f_bind1. now apply f_chapter_id.
      - apply f_bind1, f_sk; [exact W|]. apply f_bind1. now apply f_ordinal_capital.
      - apply f_bind1, f_sk; [exact W|]. apply f_bind1. now apply f_chapter_id.
      - destruct (y_sub_part o) as [a Y]. eapply f_bind2; [apply y_sk; [exact W|exact Y]|]. apply f_bind1, f_sk_suffixed. cbn; auto 10.
      - apply f_bind1. now apply f_subtitle_title.
    Qed.
    Lemma f_subtitles_date o : fails subtitles_reference o txt.
    Proof.
      destruct (y_sub_part (o + utf8_len [])) as [a Y]. eapply f_bind2; [apply (y_sep_one known _ [] o txt a _ (lit " ") w lead_none txt_ws Y lead_space); apply oth|].
      apply f_bind1, f_sk_suffixed. cbn; auto 10.
    Qed.
    Lemma f_attachment_date o : fails attachment_reference o txt.
    Proof.
      assert (Y : yields attachment_reference_part (o + utf8_len []) txt tt (o + utf8_len [] + utf8_len ds + 1) (lit " " ++ w)).
      { eapply y_bind; [apply y_alt2|apply y_T; reflexivity].
        - eapply f_bind2; [apply y_sk_digits; [exact num|reflexivity]|]. apply f_bind1, f_dash_dot.
        - eapply y_void, y_sk_digits; [exact num|reflexivity]. }
      eapply f_bind2; [apply (y_sep_one known _ [] o txt tt _ (lit " ") w lead_none txt_ws Y lead_space); apply oth|].
      apply f_bind1, f_sk_sp; [apply oth|]. eapply f_bind2; [apply y_none, f_tok, other_noun; [exact oth|cbn; auto 10]|]. apply f_bind1, f_tok, other_noun; [exact oth|cbn; auto 10].
    Qed.
  End Number.
End Run.
