(** Proofs for C67: identifiers and parts. *)
From Verif Require Export ProofShow.
From Coq Require Import Lia.
Local Open Scope peg_scope.
Local Open Scope N_scope.

Section Run.
  Variable known : list str.
  Local Notation yields := (yields known).
  Local Notation fails := (fails known).

  (** What stands after an identifier: a closing parenthesis, a full stop or a dash *)
  Definition stop (t : str) : Prop := exists c t', t = c :: t' /\ In c [41; 46; 8211].
  Lemma stop_quiet f t : stop t -> f 41 = false -> f 46 = false -> f 8211 = false -> quiet f t.
  Proof. intros (c & t' & -> & [<-|[<-|[<-|[]]]]); cbn; auto. Qed.
  Lemma stop_paren t : stop (lit ")" ++ t).
  Proof. exists 41, t. split; [reflexivity|]. cbn. auto. Qed.
  Lemma stop_dot t : stop (lit "." ++ t).
  Proof. exists 46, t. split; [reflexivity|]. cbn. auto. Qed.
  Lemma stop_dash t : stop (lit "–" ++ t).
  Proof. exists 8211, t. split; [reflexivity|]. cbn. auto. Qed.
  Ltac stopped := eapply stop_quiet; [eassumption|reflexivity..].

  (** Letters *)
  Lemma f_tok2 s x y b t o : lit s = [x; y] -> quiet (fun c => c =? y)%N t -> fails (tok s) o (b :: t).
  Proof.
    intros E Q. apply f_tok. rewrite E. cbn. destruct (x =? b)%N; [|reflexivity]. destruct t as [|c t]; [reflexivity|]. cbn in *. rewrite N.eqb_sym. now rewrite Q.
  Qed.
  Lemma y_letter h o t : hic_ok h = true -> stop t -> yields suffix_char o (hic_show h ++ t) tt (o + utf8_len (hic_show h)) t.
  Proof.
    intros H S. destruct h as [b| | | | | | | |]; [|intros g _; reflexivity..]. unfold suffix_char. cbn [hic_show app]. apply y_alt2.
    - cbn [one_of]. repeat (apply f_alt; [eapply f_tok2; [reflexivity|stopped]|]). intros g _. reflexivity.
    - apply y_chr. exact H.
  Qed.
  Lemma f_tok_first f s x l t o : lit s = x :: l -> f x = true -> quiet f t -> fails (tok s) o t.
  Proof.
    intros E Hx Q. apply f_tok_head; [rewrite E; discriminate|]. rewrite E. destruct t as [|c t]; [exact I|]. cbn in *. destruct (N.eqb_spec x c) as [<-|]; congruence.
  Qed.
  Lemma f_letter o t : quiet (in_range 97 122) t -> fails suffix_char o t.
  Proof.
    intros Q. unfold suffix_char. apply f_alt; [|now apply f_chr]. cbn [one_of].
    repeat (apply f_alt; [eapply (f_tok_first (in_range 97 122)); [reflexivity|reflexivity|exact Q]|]). intros g _. reflexivity.
  Qed.
  Lemma digit_not_az c : is_digit c = true -> in_range 97 122 c = false.
  Proof. unfold is_digit, in_range. rewrite andb_true_iff, andb_false_iff, !N.leb_le, !N.leb_gt. lia. Qed.

  (** Identifiers *)
  Lemma quiet_letter_digit h t : hic_ok h = true -> quiet is_digit (hic_show h ++ t).
  Proof.
    destruct h as [b| | | | | | | |]; try reflexivity. cbn. unfold is_digit. rewrite andb_true_iff, andb_false_iff, !N.leb_le, !N.leb_gt. lia.
  Qed.
  Lemma y_paragraph_id n o t : numeric_ok n = true -> stop t -> yields paragraph_id_rule o (numeric_show n ++ t) (numeric_show n) (o + utf8_len (numeric_show n)) t.
  Proof.
    intros H S. apply andb_true_iff in H as [_ H]. unfold paragraph_id_rule, numeric_show. destruct (n_suffix n) as [h|]; eapply y_sliced.
    - rewrite <- app_assoc. eapply y_bind; [apply y_number; now apply quiet_letter_digit|]. eapply y_eq; [eapply y_some; now apply y_letter|]. rewrite utf8_len_app. lia.
    - eapply y_bind; [apply y_number; stopped|]. eapply y_none, f_letter. stopped.
  Qed.
  Lemma y_num_point_id n o t : numeric_ok n = true -> stop t -> yields num_point_id o (numeric_show n ++ t) (numeric_show n) (o + utf8_len (numeric_show n)) t.
  Proof.
    intros H S. apply andb_true_iff in H as [_ H]. unfold num_point_id, numeric_show. destruct (n_suffix n) as [h|]; eapply y_sliced.
    - rewrite <- app_assoc. eapply y_bind; [apply y_number; now apply quiet_letter_digit|]. eapply y_eq; [eapply y_some|].
      + eapply y_bind; [apply y_none|now apply y_letter]. apply f_tok_head; [discriminate|]. destruct h as [b| | | | | | | |]; try reflexivity. cbn.
        unfold hic_ok in H. apply andb_true_iff in H. rewrite !N.leb_le in H. change (heads b (lit "/")) with (47 =? b). apply N.eqb_neq. lia.
      + rewrite utf8_len_app. lia.
    - eapply y_bind; [apply y_number; stopped|]. eapply y_none. eapply f_bind2; [apply y_none, f_tok_head; [discriminate|stopped]|]. apply f_letter. stopped.
  Qed.
  Lemma y_article_id n o t : numeric_ok n = true -> one_letter n -> stop t -> yields g_article_id o (numeric_show_slash n ++ t) (numeric_show_slash n) (o + utf8_len (numeric_show_slash n)) t.
  Proof.
    intros H L S. apply andb_true_iff in H as [_ H]. unfold g_article_id, numeric_show_slash, one_letter in *. destruct (n_suffix n) as [[b| | | | | | | |]|]; try contradiction; eapply y_sliced.
    - rewrite <- !app_assoc. eapply y_bind; [apply y_number; reflexivity|]. eapply y_eq; [eapply y_some|].
      + eapply y_bind; [exact (y_tok known "/" _ _)|]. apply y_chr. unfold hic_ok in H. unfold in_range, ascii_upper. rewrite H. apply andb_true_iff in H. rewrite !N.leb_le in H. apply andb_true_iff. rewrite !N.leb_le. lia.
      + rewrite !utf8_len_app. change (utf8_len (lit "/")) with (utf8_len [chr "/"]). cbn [hic_show_upper]. lia.
    - eapply y_bind; [apply y_number; stopped|]. apply y_none. apply f_bind1. apply f_tok_head; [discriminate|stopped].
  Qed.
  Lemma y_alpha_point_id h o t : hic_ok h = true -> stop t -> yields alpha_point_id o (hic_show h ++ t) (hic_show h) (o + utf8_len (hic_show h)) t.
  Proof. intros H S. eapply y_sliced. now apply y_letter. Qed.
  Lemma y_num_sub_id n o t : n_suffix n = None -> stop t -> yields (sliced g_number) o (numeric_show n ++ t) (numeric_show n) (o + utf8_len (numeric_show n)) t.
  Proof. intros E S. unfold numeric_show. rewrite E. eapply y_sliced. apply y_number. stopped. Qed.
  Lemma y_alpha_sub_id p o t : prefixed_ok p = true -> prefixed_latin p = true -> stop t ->
    yields alpha_subpoint_id o (prefixed_show p ++ t) (prefixed_show p) (o + utf8_len (prefixed_show p)) t.
  Proof.
    intros H L S. unfold alpha_subpoint_id. unfold prefixed_ok, prefixed_latin, prefixed_show in *. destruct p as [q c]. cbn [p_prefix p_chr] in *.
    apply andb_true_iff in H as [H1 H2], L as [L1 L2]. destruct c as [c| | | | | | | |]; try discriminate. destruct q as [[b| | | | | | | |]|]; try discriminate; eapply y_sliced; cbn [hic_show app].
    - eapply y_bind; [apply y_chr; exact H1|]. eapply y_eq; [apply y_some, y_chr; exact H2|]. rewrite <- N.add_assoc, <- utf8_len_app. reflexivity.
    - eapply y_bind; [apply y_chr; exact H2|]. apply y_none, f_chr. stopped.
  Qed.
  Lemma quiet_ws_numeric n t : quiet is_ascii_ws (numeric_show n ++ t).
  Proof. unfold numeric_show. destruct (n_suffix n); [rewrite <- app_assoc|]; apply quiet_ws_number. Qed.
  Lemma az_no_ws b : hic_ok (Latin b) = true -> is_ascii_ws b = false.
  Proof. cbn. rewrite andb_true_iff, !N.leb_le. intros H. unfold is_ascii_ws. cbn [existsb]. rewrite !orb_false_iff, !N.eqb_neq. lia. Qed.
  Lemma quiet_ws_hic h t : hic_ok h = true -> quiet is_ascii_ws (hic_show h ++ t).
  Proof. destruct h as [b| | | | | | | |]; try reflexivity. apply az_no_ws. Qed.
  Lemma quiet_ws_prefixed p t : prefixed_ok p = true -> quiet is_ascii_ws (prefixed_show p ++ t).
  Proof.
    unfold prefixed_ok, prefixed_show. rewrite andb_true_iff. intros [H1 H2]. rewrite <- app_assoc. destruct (p_prefix p) as [h|]; now apply quiet_ws_hic.
  Qed.
End Run.
