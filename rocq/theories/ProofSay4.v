(** Proofs for C71-: the phrase of an article is not taken for a structural element. *)
From Verif Require Export ProofSay3.
From Coq Require Import Lia.
Local Open Scope peg_scope.
Local Open Scope N_scope.

Section Run.
  Variable known : list str.
  Local Notation yields := (yields known).
  Local Notation fails := (fails known).

  Definition digit_first (t : str) : Prop := exists d u, t = d :: u /\ is_digit d = true.
  Lemma digit_first_number n t : digit_first (show_N n ++ t).
  Proof.
    pose proof (show_N_digits n) as D. pose proof (show_N_nonempty n) as E. destruct (show_N n) as [|d u]; [congruence|]. exists d, (u ++ t). split; [reflexivity|].
    cbn [forallb] in D. apply andb_true_iff in D. tauto.
  Qed.
  Lemma digit_first_article r i t : dotted article_show r i -> digit_first (i ++ t).
  Proof. intros [[_ ->]|[_ ->]]; unfold from_to; rewrite <- !app_assoc; [set (v := lit "." ++ t)|set (v := lit "–" ++ _)]; destruct (article_digit (r_start r) v) as (n & u & ->); apply digit_first_number. Qed.
  Lemma digit_first_ws t : digit_first t -> quiet is_ascii_ws t.
  Proof. intros (d & u & -> & D). now apply no_ws_digit. Qed.
  Definition no_digit_start (l : list string) : bool := forallb (fun s => match lit s with x :: _ => negb (is_digit x) | [] => false end) l.
  Lemma f_one_digit l o t : no_digit_start l = true -> digit_first t -> fails (one_of l) o t.
  Proof.
    intros H (d & u & -> & D). apply f_one_of. unfold no_digit_start in H. rewrite forallb_forall in *. intros s I. specialize (H s I). destruct (lit s) as [|x w]; [discriminate|].
    cbn. destruct (N.eqb_spec x d) as [->|]; [rewrite D in H; discriminate|reflexivity].
  Qed.
  Lemma f_T_digit s o t : no_digit_start [s] = true -> digit_first t -> fails (T s) o t.
  Proof.
    intros H D. apply f_T; [now apply digit_first_ws|]. destruct D as (d & u & -> & D). unfold no_digit_start in H. cbn [forallb] in H. apply andb_true_iff in H as [H _].
    destruct (lit s) as [|x w]; [discriminate|]. cbn. destruct (N.eqb_spec x d) as [->|]; [rewrite D in H; discriminate|reflexivity].
  Qed.
  Lemma f_ordinal_capital o t : digit_first t -> fails (sk hungarian_ordinal_capital) o t.
  Proof. intros D. apply f_sk; [now apply digit_first_ws|]. apply f_sliced, f_one_digit; [vm_compute; reflexivity|exact D]. Qed.
  Lemma digit_not f t : (forall d, is_digit d = true -> f d = false) -> digit_first t -> quiet f t.
  Proof. intros H (d & u & -> & D). now apply H. Qed.
  Lemma digit_cases d : is_digit d = true -> In d [48; 49; 50; 51; 52; 53; 54; 55; 56; 57].
  Proof. unfold is_digit. rewrite andb_true_iff, !N.leb_le. intros [A B]. cbn. lia. Qed.
  Lemma f_roman o t : digit_first t -> fails (sk g_roman) o t.
  Proof.
    intros D. apply f_sk; [now apply digit_first_ws|]. apply f_sliced, f_many1, f_chr. apply (digit_not _ t); [|exact D].
    intros d I. apply digit_cases in I. cbn [In] in I. repeat (destruct I as [<-|I]; [reflexivity|]). contradiction.
  Qed.
  Lemma f_chapter_id o t : digit_first t -> fails (sk chapter_id) o t.
  Proof. intros D. apply f_sk; [now apply digit_first_ws|]. apply f_sliced, f_bind1. now apply f_roman. Qed.
  Lemma f_subtitle_title o t : digit_first t -> fails (sk subtitle_title) o t.
  Proof.
    intros D. pose proof (digit_first_ws t D) as W. apply f_sk; [exact W|]. apply f_bind1. apply f_alt; (apply f_sk; [exact W|]).
    - apply f_bind1. apply f_T_digit; [vm_compute; reflexivity|exact D].
    - apply f_sliced, f_bind1, f_sk; [exact W|]. apply f_bind1, f_chr. apply (digit_not _ t); [|exact D].
      intros d I. apply digit_cases in I. cbn [In] in I. repeat (destruct I as [<-|I]; [vm_compute; reflexivity|]). contradiction.
  Qed.
  Lemma stop_facts t : stop t -> quiet is_ascii_ws t /\ quiet (N.eqb 47) t /\ quiet (in_range 65 90) t /\ quiet is_digit t.
  Proof. intros (c & t' & -> & I). cbn [In] in I. destruct I as [<-|[<-|[<-|[]]]]; repeat split; reflexivity. Qed.
  Lemma y_subtitle_id n o t : numeric_ok n = true -> one_letter n -> stop t -> yields subtitle_id o (numeric_show_slash n ++ t) (numeric_show_slash n) (o + utf8_len (numeric_show_slash n)) t.
  Proof.
    intros H L S. destruct (stop_facts t S) as (W & SL & UP & DI). apply andb_true_iff in H as [_ H]. unfold subtitle_id, letter_suffix, numeric_show_slash, one_letter in *.
    destruct (n_suffix n) as [[b| | | | | | | |]|]; try contradiction; eapply y_sliced.
    - rewrite <- !app_assoc. eapply y_bind; [apply y_sk; [apply quiet_ws_number|apply y_number; reflexivity]|]. eapply y_eq; [eapply y_void, y_some|].
      + assert (B : in_range 65 90 (ascii_upper b) = true).
        { unfold hic_ok in H. unfold in_range, ascii_upper. rewrite H. apply andb_true_iff in H. rewrite !N.leb_le in H. apply andb_true_iff. rewrite !N.leb_le. lia. }
        eapply y_bind; [apply y_some; exact (y_T known "/" _ _ eq_refl)|]. apply y_sk; [|now apply y_chr]. cbn [hic_show_upper app quiet].
        unfold is_ascii_ws. unfold in_range in B. rewrite andb_true_iff, !N.leb_le in B. cbn [existsb]. rewrite !orb_false_iff, !N.eqb_neq. repeat split; lia.
      + rewrite !utf8_len_app. change (utf8_len (lit "/")) with (utf8_len [chr "/"]). cbn [hic_show_upper]. lia.
    - eapply y_bind; [apply y_sk; [apply quiet_ws_number|now apply y_number]|]. eapply y_void. apply y_none. eapply f_bind2; [apply y_none|].
      + apply (f_T_lead known "/" 47 [] [] _ t); auto using lead_none.
      + apply f_sk; [exact W|]. now apply f_chr.
  Qed.
  Lemma y_book_id b o t : yields subtitle_id o (show_N b ++ lit ":" ++ t) (show_N b) (o + utf8_len (show_N b)) (lit ":" ++ t).
  Proof.
    unfold subtitle_id, letter_suffix. eapply y_sliced. eapply y_bind; [apply y_sk; [apply quiet_ws_number|apply y_number; reflexivity]|]. eapply y_void, y_none. eapply f_bind2; [apply y_none|].
    - apply f_T; reflexivity.
    - apply f_sk; [reflexivity|]. now apply f_chr.
  Qed.
  Lemma f_subtitle_part_book b o t : fails subtitle_reference_part o (show_N b ++ lit ":" ++ t).
  Proof.
    unfold subtitle_reference_part. apply f_alt.
    - eapply f_bind2; [apply y_sk; [apply quiet_ws_number|apply y_book_id]|]. eapply f_bind2; [apply y_none, f_T; reflexivity|]. apply f_bind1, f_sk; [reflexivity|now apply f_chr].
    - eapply f_bind2; [apply y_sk; [apply quiet_ws_number|apply y_book_id]|]. apply f_bind1, f_T; reflexivity.
  Qed.
  Lemma f_subtitle_ref r i o v : y_art_facts r i -> fails (p <- sk subtitle_reference_part ;; sk subtitle_suffix ;; ret (GSubtitlePart p)) o (i ++ lit " " ++ lit "§" ++ v).
  Proof.
    intros ((G1 & G2) & B & L1 & L2 & C).
    assert (N1 : numeric_ok (a_ident (r_start r)) = true) by (unfold article_ok in G1; apply andb_true_iff in G1; tauto).
    assert (N2 : numeric_ok (a_ident (r_end r)) = true) by (unfold article_ok in G2; apply andb_true_iff in G2; tauto).
    assert (SFX : forall o, fails (sk subtitle_suffix ;; ret (GSubtitlePart (mkGSub None None None))) o (lit " " ++ lit "§" ++ v)).
    { intros o1. apply f_bind1, f_sk_sp; [reflexivity|]. apply f_bind1, f_tok. reflexivity. }
    assert (D : digit_first (i ++ lit " " ++ lit "§" ++ v)) by (eapply digit_first_article, C). 
    destruct (a_book (r_start r)) as [b|] eqn:EB.
    - apply f_bind1, f_sk; [now apply digit_first_ws|]. destruct C as [[_ ->]|[_ ->]]; unfold from_to, article_show; rewrite EB, <- !app_assoc; apply f_subtitle_part_book.
    - assert (ES : article_show (r_start r) = numeric_show_slash (a_ident (r_start r))) by (unfold article_show; now rewrite EB).
      assert (EE : article_show (r_end r) = numeric_show_slash (a_ident (r_end r))) by (unfold article_show; now rewrite <- B).
      assert (Y : exists p o', yields (sk subtitle_reference_part) o (i ++ lit " " ++ lit "§" ++ v) p o' (lit " " ++ lit "§" ++ v)).
      { destruct C as [[_ ->]|[_ ->]]; unfold from_to in *; rewrite ES, ?EE, <- ?app_assoc in *.
        - eexists _, _. apply y_sk; [now apply digit_first_ws|]. apply y_alt2.
          + eapply f_bind2; [apply y_sk; [apply quiet_ws_slash|apply y_subtitle_id; auto using stop_dot]|]. eapply f_bind2; [apply y_some; apply y_T; reflexivity|].
            apply f_bind1, f_sk_sp; [reflexivity|]. now apply f_chr.
          + eapply y_bind; [apply y_sk; [apply quiet_ws_slash|apply y_subtitle_id; auto using stop_dot]|]. eapply y_bind; [apply y_T; reflexivity|]. apply y_ret.
        - eexists _, _. apply y_sk; [now apply digit_first_ws|]. apply y_alt1.
          eapply y_bind; [apply y_sk; [apply quiet_ws_slash|apply y_subtitle_id; auto using stop_dash]|]. eapply y_bind; [apply y_none, f_T; reflexivity|].
          eapply y_bind; [apply y_dash|]. eapply y_bind; [apply y_sk; [apply quiet_ws_slash|apply y_subtitle_id; auto using stop_dot]|]. eapply y_bind; [apply y_T; reflexivity|]. apply y_ret. }
      destruct Y as (p & o' & Y). eapply f_bind2; [exact Y|]. apply f_bind1, f_sk_sp; [reflexivity|]. apply f_bind1, f_tok. reflexivity.
  Qed.
  Lemma f_struct r i o v : y_art_facts r i -> fails struct_inner o (i ++ lit " " ++ lit "§" ++ v).
  Proof.
    intros A. assert (D : digit_first (i ++ lit " " ++ lit "§" ++ v)) by (eapply digit_first_article; apply A). pose proof (digit_first_ws _ D) as W.
    assert (B : forall o, fails (sk book_reference) o (i ++ lit " " ++ lit "§" ++ v)) by (intros; apply f_sk; [exact W|]; apply f_bind1; now apply f_ordinal_capital).
    unfold struct_inner. eapply f_bind2; [apply y_none, B|]. apply f_bind1. repeat apply f_alt.
    - apply f_bind1, f_sk; [exact W|]. apply f_bind1. now apply f_chapter_id.
    - apply f_bind1, f_sk; [exact W|]. apply f_bind1. now apply f_ordinal_capital.
    - apply f_bind1, f_sk; [exact W|]. apply f_bind1. now apply f_chapter_id.
    - now apply (f_subtitle_ref r).
    - apply f_bind1. now apply f_subtitle_title.
  Qed.
End Run.
