(** Proofs for C71-: the name of the act in a sentence. *)
From Verif Require Export ProofSay2.
From Coq Require Import Lia.
Local Open Scope peg_scope.
Local Open Scope N_scope.

Section Act.
  Variables (rf : str -> option Z) (c : cache).
  Hypothesis roman : roman_from_reads rf.
  Local Notation known := (all_abbreviations c).
  Local Notation yields := (yields known).
  Local Notation fails := (fails known).

  (** What may follow the name of an act *)
  Record after_act (rest : str) : Prop := {
    aa_lower : quiet is_hun_lower rest; aa_paren : forall o, fails (T "(") o rest; aa_stop : forall o, fails (one_of_sk stop_words) o rest }.
  (** The tree of the name *)
  Record name_tree (a : act_id) (name : str) (G : N -> g_act_ref) : Prop := {
    nt_act : forall o, convert_act_reference rf c (G o) = Ok a; nt_pos : forall o, act_ref_pos (G o) = ModelSem.mkPos o (o + utf8_len name);
    nt_new : forall o, new_abbreviation rf (G o) = [] }.
  Lemma map_get_in {V} k (v : V) m : In (k, v) m -> (forall w, In (k, w) m -> w = v) -> map_get k m = Some v.
  Proof.
    induction m as [|[k' v'] m IH]; intros I U; [contradiction|]. cbn [map_get]. destruct (str_eqb k k') eqn:E.
    - apply str_eqb_eq in E as <-. now rewrite (U v' (or_introl eq_refl)).
    - destruct I as [I|I]; [injection I as -> ->; rewrite (proj2 (str_eqb_eq _ _) eq_refl) in E; discriminate|]. apply IH; [exact I|]. intros w J. apply U. now right.
  Qed.
  Lemma known_first l k s : In k l -> begins_with k s -> (forall k', In k' l -> begins_with k' s -> k' = k) -> parse_abbreviation l s = Some k.
  Proof.
    intros I B U. induction l as [|k' l IH]; [contradiction|]. cbn [parse_abbreviation]. destruct (starts_with k' s) eqn:E.
    - f_equal. apply (U k' (or_introl eq_refl)). now apply starts_with_spec.
    - apply IH; [|intros k2 J; apply U; now right]. destruct I as [->|I]; [|exact I]. apply starts_with_spec in B. congruence.
  Qed.
  Lemma y_name a rest title name : act_named (ca_map c) a rest title name -> after_act rest -> quiet is_ascii_ws (name ++ rest) /\
    exists G, name_tree a name G /\ forall o, yields act_reference o (name ++ rest) (G o) (o + utf8_len name) rest.
  Proof.
    intros N AA. destruct N as [title name OK Y S D E K|ch k ND NW I U F].
    - assert (YA : forall o, exists y n, yields act_reference o (name ++ rest) (GActId (mkGNow (mkGAct y n (ModelSem.mkPos o (o + utf8_len name))) None)) (o + utf8_len name) rest /\
        y = show_Z (act_year a) /\ roman_to (act_number a) = Some n).
      { intros o. apply (y_act known a name o rest Y S (aa_lower _ AA)). apply (aa_paren _ AA). }
      destruct (YA 0) as (y & n & _ & EY & EN). split.
      + unfold act_show in S. rewrite EN in S. assert (S' : name = show_Z (act_year a) ++ lit ". évi " ++ n ++ lit ". törvény") by congruence. rewrite S', show_Z_pos, <- app_assoc by exact Y. apply quiet_ws_number.
      + exists (fun o => GActId (mkGNow (mkGAct y n (ModelSem.mkPos o (o + utf8_len name))) None)). split.
        * constructor; intros o; [apply (act_ref_back rf a y n (ModelSem.mkPos o (o + utf8_len name)) roman OK EY EN)|reflexivity|reflexivity].
        * intros o. destruct (YA o) as (y' & n' & YY & EY' & EN'). rewrite EN' in EN. injection EN as ->. rewrite EY' in YY. rewrite EY. exact YY.
    - assert (W : forall t, quiet is_ascii_ws ((ch :: k) ++ t)) by (intros t; now apply not_white). split; [apply W|].
      exists (fun o => GAbbrev (ch :: k) (ModelSem.mkPos o (o + utf8_len (ch :: k)))). split.
      + constructor; intros o; [|reflexivity|reflexivity]. cbn. unfold cache_resolve. now rewrite (map_get_in (ch :: k) a).
      + intros o. unfold act_reference. apply y_alt2.
        * apply f_bind1, f_sk; [apply W|]. apply f_act_id_now; [apply W|]. intros o1. apply f_act_other; [apply W|]. now apply not_digit.
        * apply y_sk; [apply W|]. unfold g_abbreviation. eapply (y_located known _ _ _ (GAbbrev (ch :: k))). eapply y_bind; [apply y_sk; [apply W|]|apply y_ret].
          intros g EG. unfold abbreviation_content. cbn [cu_rest]. rewrite EG. unfold all_abbreviations.
          rewrite (known_first _ (ch :: k)).
          -- unfold advance. cbn [cu_off]. rewrite skipn_app, skipn_all, Nat.sub_diag. reflexivity.
          -- apply in_map_iff. exists (ch :: k, a). auto.
          -- now exists rest.
          -- intros k' I' B'. apply in_map_iff in I' as ([k2 b] & <- & I'). now apply (F k2 b).
  Qed.
  Lemma named_titled a rest title name : act_named (ca_map c) a rest title name -> titled known (name ++ rest) title.
  Proof.
    intros [title' name' OK Y S D E K|ch k ND NW I U F].
    - constructor.
      + eapply Forall_impl; [|exact D]. intros x. apply not_digit.
      + intros u x ->. destruct E as [E|[t E]]; [now destruct u|]. apply app_inj_tail in E as [_ ->]. reflexivity.
      + intros v x u k -> I (b & EB). unfold all_abbreviations in I. apply in_map_iff in I as ([k' d] & <- & I). apply (K k' d I). exists v, b. cbn [fst] in EB. rewrite <- app_assoc. cbn [app]. now rewrite EB.
    - constructor; [constructor|intros u x E; now destruct u|intros v x u k' E; now destruct v].
  Qed.
  Section Sentence.
    Variables (whole : str) (o : N) (a : act_id) (rest title name : str) (G : N -> g_act_ref).
    Hypothesis here : place whole o (title ++ name ++ rest).
    Hypothesis named : act_named (ca_map c) a rest title name.
    Hypothesis after : after_act rest.
    Hypothesis tree : forall o, yields act_reference o (name ++ rest) (G o) (o + utf8_len name) rest.
    Local Notation reads := (reads known whole).
    Local Notation refuses := (refuses known whole).
    Local Notation oa := (o + utf8_len title).
    Lemma title_stops w o1 : forallb is_ascii_ws w = true -> fails title_step o1 (w ++ name ++ rest).
    Proof.
      intros F. destruct (y_name _ _ _ _ named after) as [W _]. unfold title_step. apply f_bind1. eapply f_not. eapply y_bind; [apply y_sk_ws; [exact F|exact W|apply tree]|].
      apply y_not, (aa_stop _ after).
    Qed.
    Lemma title_read : exists o1 w, reads (sk act_title) o (title ++ name ++ rest) tt o1 (w ++ name ++ rest) /\ forallb is_ascii_ws w = true /\ o1 + utf8_len w = oa.
    Proof.
      destruct (y_name _ _ _ _ named after) as [W _]. pose proof (named_titled _ _ _ _ named) as TD. destruct (split_at is_ascii_ws title) as (w0 & t0 & E & F0 & Q0). rewrite E in TD, here |- *. apply titled_tail in TD.
      destruct (y_title known (name ++ rest) title_stops t0 (o + utf8_len w0) TD) as (w & v & -> & F & Y). exists (o + utf8_len w0 + utf8_len v), w. split; [|split; [exact F|rewrite !utf8_len_app; lia]].
      rewrite <- !app_assoc. destruct v as [|x v]; [destruct w as [|x w]|].
      - cbn [app] in *. apply r_sk_ws; [exact F0|exact W|]. apply r_title; [|exact Y]. destruct here as (p & -> & ->). exists (p ++ w0). rewrite utf8_len_app, <- !app_assoc. auto.
      - exfalso. cbn in Q0, F. rewrite Q0 in F. discriminate F.
      - apply r_sk_ws; [exact F0|exact Q0|]. apply r_title; [|rewrite <- app_assoc in Y; exact Y]. destruct here as (p & -> & ->). exists (p ++ w0). rewrite utf8_len_app, <- !app_assoc. auto.
    Qed.
    Lemma start_reads {B} (k : g_act_ref -> parser B) b o' t' : reads (k (G oa)) (oa + utf8_len name) rest b o' t' -> reads (sk act_title ;; x <- sk act_reference ;; k x) o (title ++ name ++ rest) b o' t'.
    Proof.
      intros H. destruct title_read as (o1 & w & R1 & F & E). destruct (y_name _ _ _ _ named after) as [W _]. eapply r_bind; [exact R1|]. eapply r_bind; [apply r_sk_ws; [exact F|exact W|apply r_y, tree]|].
      rewrite E. exact H.
    Qed.
    Lemma start_refuses {B} (k : g_act_ref -> parser B) : refuses (k (G oa)) (oa + utf8_len name) rest -> refuses (sk act_title ;; x <- sk act_reference ;; k x) o (title ++ name ++ rest).
    Proof.
      intros H. destruct title_read as (o1 & w & R1 & F & E). destruct (y_name _ _ _ _ named after) as [W _]. eapply x_bind2; [exact R1|]. eapply x_bind2; [apply r_sk_ws; [exact F|exact W|apply r_y, tree]|].
      rewrite E. exact H.
    Qed.
  End Sentence.
  Lemma y_az az t : In az the -> yields (sk g_az_any) 0 (az ++ t) tt (utf8_len az) t.
  Proof. intros I. unfold the in I. cbn [map In] in I. repeat (destruct I as [<-|I]; [intros g _; reflexivity|]). contradiction. Qed.
End Act.
