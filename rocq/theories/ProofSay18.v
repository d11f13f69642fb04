(** Proofs for C75: the rules of block amendments refuse lists and quotations. *)
From Verif Require Export SpecSay4 ProofSay17.
From Coq Require Import Lia.
Local Open Scope peg_scope.
Local Open Scope N_scope.

Ltac failed := lazymatch goal with |- forall A (k : parser A) o, _ => intros ? ? ?; intros ? _; vm_compute; reflexivity | _ => failing end.
Section Run.
  Variable known : list str.
  Local Notation yields := (yields known).
  Local Notation fails := (fails known).
  Definition before_it {A} (k : parser A) : parser A := T "és" ;; sk g_az ;; opt (one_of_sk ["azt"; "azokat"; "§-t"]%string) ;; T "megelőző" ;; k.
  (** What is after the first reference is not the rest of a block amendment. *)
  Record stays (u : str) : Prop := {
    sy_token : forall o, fails (sk insertion_token) o u; sy_suffix : forall o, fails (sk amendment_suffix) o u;
    sy_before : forall A (k : parser A) o, fails (before_it k) o u; sy_par : forall o, fails (sk paragraph_reference) o u }.
  Lemma f_following t : part_first t -> forall o, fails the_following o t.
  Proof.
    intros P o. unfold the_following. eapply f_bind2.
    - apply y_none. apply f_one_of. cbn [forallb]. rewrite !no_word; auto; vm_compute; reflexivity.
    - apply f_alt; [|apply f_bind1]; apply f_tok; apply no_word; auto; vm_compute; reflexivity.
  Qed.
  Lemma stays_quote z x q t : In z articles -> quotation x q -> stays (lit " " ++ z ++ q ++ t).
  Proof.
    intros IZ (_ & _ & ->). rewrite <- !app_assoc. generalize (x ++ lit "”" ++ t). intros v. unfold articles in IZ. cbn [In] in IZ.
    destruct IZ as [<-|[<-|[<-|[]]]]; constructor; failed.
  Qed.
  Lemma f_following_z z t : In z articles -> part_first t -> forall o, fails (sk the_following) o (lit " " ++ z ++ t).
  Proof.
    intros IZ P o. unfold articles in IZ. cbn [In] in IZ. destruct IZ as [<-|[<-|[<-|[]]]].
    - cbn [app]. apply f_sk_sp; [now apply first_ws|]. now apply f_following.
    - apply f_sk_sp; [reflexivity|]. unfold the_following. eapply f_bind2; [apply y_some; cbn [one_of]; apply y_alt1, y_tok|]. apply f_alt; [|apply f_bind1]; apply f_tok; apply no_word; auto; vm_compute; reflexivity.
    - apply f_sk_sp; [reflexivity|]. unfold the_following. eapply f_bind2; [apply y_some; cbn [one_of]; apply y_alt2; [apply f_tok; reflexivity|apply y_alt1, y_tok]|].
      apply f_alt; [|apply f_bind1]; apply f_tok; apply no_word; auto; vm_compute; reflexivity.
  Qed.
  Lemma f_junk_z z t : In z articles -> part_first t -> forall o, fails (one_of_sk ["és"; "valamint"; "ezzel"; "egyidejűleg"]%string) o (lit " " ++ z ++ t).
  Proof.
    intros IZ P o. unfold articles in IZ. cbn [In] in IZ. destruct IZ as [<-|[<-|[<-|[]]]]; [|here..].
    cbn [app]. apply (f_words known _ (lit " ") o t lead_space P). vm_compute. reflexivity.
  Qed.
  Lemma f_token_after s z t : (forall o t, yields (one_of_sk ["és"; "valamint"; "ezzel"; "egyidejűleg"]%string) o (lit s ++ lit " " ++ t) tt (o + utf8_len (lit s)) (lit " " ++ t)) ->
    quiet is_ascii_ws (lit s) -> lit s <> [] ->
    In z articles -> part_first t -> forall o, fails (sk insertion_token) o (lit " " ++ lit s ++ lit " " ++ z ++ t).
  Proof.
    intros Y W NE IZ P o. assert (W' : quiet is_ascii_ws (lit s ++ lit " " ++ z ++ t)) by (revert W NE; destruct (lit s); [congruence|auto]).
    apply f_sk_sp; [exact W'|]. unfold insertion_token. eapply f_bind2; [apply y_sk; [exact W'|]; unfold combinator_junk; eapply y_void; eapply y_many_cons; [|apply Y|apply y_many_nil, f_junk_z; assumption]|now apply f_following_z].
    rewrite !app_length. destruct (lit s); [congruence|]. cbn [List.length]. lia.
  Qed.
  Lemma y_the z t : z = lit "a " \/ z = lit "az " -> forall o, exists o', yields (sk g_az) o (lit " " ++ z ++ t) tt o' t.
  Proof.
    intros Z o. destruct Z as [->| ->]; eexists; (apply y_sk_sp; [reflexivity|]; unfold g_az).
    - change (lit "a " ++ t) with (lit "a" ++ lit " " ++ t). eapply y_bind; [apply y_tok|]. eapply y_bind; [apply y_none, f_tok; reflexivity|]. apply y_tok.
    - change (lit "az " ++ t) with (lit "a" ++ lit "z" ++ lit " " ++ t). eapply y_bind; [apply y_tok|]. eapply y_bind; [apply y_some, y_tok|]. apply y_tok.
  Qed.
  Lemma stays_sep sep t : In sep separators -> begins t -> part_first t -> stays (sep ++ t).
  Proof.
    intros I B P. unfold separators in I. rewrite in_flat_map in I. destruct I as (x & I & J). apply in_map_iff in J as (z & <- & IZ). rewrite <- app_assoc.
    assert (K : x = lit " " ++ lit "és" ++ lit " " \/ x = lit " " ++ lit "valamint" ++ lit " " \/ forall v, stays (x ++ v)).
    { unfold list_words in I. cbn [map flat_map app In] in I. destruct I as [<-|[<-|I]]; [right; right; intros v; constructor; failed..|]. destruct I as [<-|[<-|I]]; [now left|right; now left|].
      right. right. intros v. repeat (destruct I as [<-|I]; [constructor; failed|]). contradiction. }
    destruct K as [->|[->|K]]; [| |apply K]; rewrite <- !app_assoc; constructor.
    - apply f_token_after; auto; [|reflexivity|discriminate]. intros o v. cbn [one_of_sk]. apply y_alt1. exact (y_T known "és" _ _ eq_refl).
    - failing.
    - intros A k o. unfold before_it. eapply f_bind2; [apply y_sk_sp; [reflexivity|apply y_tok]|].
      unfold articles in IZ. cbn [In] in IZ. 
      assert (F1 : forall o, fails (one_of_sk ["azt"; "azokat"; "§-t"]%string) o t) by (intros o1; apply (f_words known _ [] o1 t lead_none P); vm_compute; reflexivity).
      assert (F2 : forall o, fails (T "megelőző") o t) by (intros o1; apply (f_word known "megelőző" [] o1 t lead_none P); vm_compute; reflexivity).
      destruct IZ as [<-|[<-|[<-|[]]]].
      + apply f_bind1. cbn [app]. apply f_sk_sp; [now apply first_ws|now apply f_az].
      + destruct (y_the (lit "a ") t (or_introl eq_refl) (o + 1 + utf8_len (lit "és"))) as (o' & Y). eapply f_bind2; [exact Y|]. eapply f_bind2; [apply y_none, F1|apply f_bind1, F2].
      + destruct (y_the (lit "az ") t (or_intror eq_refl) (o + 1 + utf8_len (lit "és"))) as (o' & Y). eapply f_bind2; [exact Y|]. eapply f_bind2; [apply y_none, F1|apply f_bind1, F2].
    - failing.
    - apply f_token_after; auto; [|reflexivity|discriminate]. intros o v. cbn [one_of_sk]. apply y_alt2; [here|]. apply y_alt1. exact (y_T known "valamint" _ _ eq_refl).
    - failed.
    - failed.
    - failed.
  Qed.
  (** ** Insertions *)
  Lemma points_split r x s : readable_ref r -> f_article r = Some x -> said_ended (lower_parts r) s ->
    (ins_head x (f_paragraph r) s) \/
    exists q s1 i e s2, pt_good q /\ pt_text q i /\ ins_head x (f_paragraph r) s1 /\ forallb is_hun_lower e = true /\ s = s1 ++ lit " " ++ i ++ lit " " ++ lit "pont" ++ e ++ s2 /\
      (s2 = [] \/ exists s3, s2 = lit " " ++ s3 /\ forall u, part_first (s3 ++ u)).
  Proof.
    intros RD EX H. pose proof (parts_good r RD) as PG. unfold lower_parts in H, PG. rewrite EX in H, PG. destruct (f_point r) as [q|] eqn:E3.
    - right. assert (G : pt_good q) by (eapply good_point; eauto).
      assert (K : exists s1 s2, ins_head x (f_paragraph r) s1 /\ s = s1 ++ lit " " ++ s2 /\ said_ended (PartPoint q :: match f_subpoint r with Some z => [PartSubpoint z] | None => [] end) s2).
      { destruct (f_paragraph r) as [y|] eqn:E2; cbn [app] in H.
        - apply ended_split in H as (i & n & n' & P & [(E & _)|(s1 & H & ->)]); [discriminate|]. apply ended_split in H as (i2 & n2 & n2' & P2 & [(E & _)|(s2 & H & ->)]); [discriminate|].
          exists (i ++ lit " " ++ n ++ lit " " ++ i2 ++ lit " " ++ n2 ++ []), s2. split; [|split; [rewrite app_nil_r, <- !app_assoc; reflexivity|exact H]].
          rewrite <- E2. apply head_said; [exact RD|exact EX|]. rewrite E2. econstructor; [exact P|]. econstructor; [exact P2|constructor].
        - apply ended_split in H as (i & n & n' & P & [(E & _)|(s1 & H & ->)]); [discriminate|]. exists (i ++ lit " " ++ n ++ []), s1. split; [|split; [rewrite app_nil_r, <- !app_assoc; reflexivity|exact H]].
          rewrite <- E2. apply head_said; [exact RD|exact EX|]. rewrite E2. econstructor; [exact P|constructor]. }
      destruct K as (s1 & s2 & HH & -> & H2). apply ended_split in H2 as (i & n & n' & P & H2). assert (n = lit "pont" /\ pt_text q i) as [-> C] by (inversion P; subst; auto).
      destruct H2 as [(E & e & EN & ->)|(s3 & H3 & ->)].
      + exists q, s1, i, e, []. rewrite app_nil_r. split; [exact G|]. split; [exact C|]. split; [exact HH|]. split; [eapply ending_lower; [|exact EN]; discriminate|]. split; [reflexivity|now left].
      + exists q, s1, i, [], (lit " " ++ s3). split; [exact G|]. split; [exact C|]. split; [exact HH|]. split; [reflexivity|]. split; [reflexivity|]. right. exists s3. split; [reflexivity|]. intros u.
        destruct (f_subpoint r) as [z|] eqn:E4; [|now apply ended_nil in H3]. apply one_part in H3 as (i3 & n3 & n3' & e3 & P3 & _ & ->). rewrite <- app_assoc. eapply first_of_part; [|exact P3]. eapply good_sub; eauto.
    - left. assert (E4 : f_subpoint r = None) by (apply (wf_gap r (rd_form _ RD) E3); left; congruence). rewrite E4, !app_nil_r in H. now apply head_said.
  Qed.
  Lemma head_refused x yo s t : ins_head x yo s -> before_point known t -> (forall o, fails (sk insertion_token) o t) ->
    (forall o A (k : two_kinds -> two_kinds -> parser A), fails (p <- points_of ;; sk insertion_token ;; q <- subpoints_of ;; k p q) o t) ->
    forall o, fails insertion_reference o (s ++ t).
  Proof.
    intros H B FT FP o. destruct (y_ins_head known x yo s t o H B) as (p & po & o1 & t1 & NT & _ & _ & _ & YZ & YA & YP & NK).
    unfold insertion_reference. apply f_located. apply f_alt; [apply f_bind1, NT|]. apply f_alt; [apply f_bind1, NT|]. apply f_alt; [|apply f_alt].
    - eapply f_bind2; [apply y_some, y_alt1; eapply y_bind; [exact YZ|]; eapply y_bind; [exact YA|apply y_ret]|]. apply NK.
    - eapply f_bind2; [apply y_some, y_alt1; eapply y_bind; [exact YZ|]; eapply y_bind; [exact YA|]; eapply y_bind; [exact YP|apply y_ret]|]. apply f_bind1, FT.
    - eapply f_bind2; [exact YZ|]. eapply f_bind2; [exact YA|]. eapply f_bind2; [exact YP|]. apply FP.
  Qed.
  Lemma ins_refused r x s u : readable_ref r -> f_article r = Some x -> said_ended (lower_parts r) s -> follows known u -> stays u -> forall o, fails insertion_reference o (s ++ u).
  Proof.
    intros RD EX H F S o. pose proof (fo_ref _ _ F) as AF. destruct (points_split r x s RD EX H) as [HH|(q & s1 & i & e & s2 & G & C & HH & FE & -> & K)].
    - apply (head_refused x (f_paragraph r)); [exact HH| |apply (sy_token _ S)|].
      + constructor; [apply (ar_lower _ _ AF)|apply (ar_dash _ _ AF)|apply (ar_no_dash _ _ AF)|apply (sy_par _ S)|]. intros o' A k. apply f_bind1, (sy_token _ S).
      + intros o' A k. apply f_bind1, (ar_point _ _ AF).
    - rewrite <- !app_assoc. destruct (pt_said q i C) as (n' & SP).
      assert (W : quiet is_hun_lower (s2 ++ u)) by (destruct K as [->|(s3 & -> & _)]; [apply (ar_lower _ _ AF)|reflexivity]).
      assert (NT : forall o, fails (sk insertion_token) o (s2 ++ u)) by (intros o'; destruct K as [->|(s3 & -> & K)]; [apply (sy_token _ S)|rewrite <- app_assoc; apply (f_token known (lit " ")); [apply lead_space|apply K]]).
      apply (head_refused x (f_paragraph r)); [exact HH| | |].
      + destruct (before_part known (lit "a következő") [] (PartPoint q) i (lit "pont") n' (lit " " ++ lit "pont" ++ e ++ s2 ++ u) lead_none (or_introl eq_refl) G SP) as [_ B]; [discriminate|discriminate|exact B].
      + intros o'. apply (f_token known (lit " ")); [apply lead_space|]. eapply first_of_part; [|exact SP]; exact G.
      + intros o' A k. destruct (y_points known q i (lit " ") o' e (s2 ++ u) G C lead_space FE W) as (z & Y & _). eapply f_bind2; [exact Y|]. apply f_bind1, NT.
  Qed.
  Lemma f_dotted_id {A} r i o v (k : str -> parser A) : y_art_facts r i -> fails (x <- sk subtitle_id ;; T "." ;; sk subtitle_token ;; k x) o (i ++ lit " " ++ lit "§" ++ v).
  Proof.
    intros ((G1 & G2) & B & L1 & L2 & C).
    assert (N1 : numeric_ok (a_ident (r_start r)) = true) by (unfold article_ok in G1; apply andb_true_iff in G1; tauto).
    destruct (a_book (r_start r)) as [b|] eqn:EB.
    - assert (E : exists w, i ++ lit " " ++ lit "§" ++ v = show_N b ++ lit ":" ++ w) by (destruct C as [[_ ->]|[_ ->]]; unfold from_to, article_show; rewrite EB, <- !app_assoc; eexists; reflexivity).
      destruct E as (w & ->). eapply f_bind2; [apply y_sk; [apply quiet_ws_number|apply y_book_id]|]. apply f_bind1, f_T; reflexivity.
    - assert (ES : article_show (r_start r) = numeric_show_slash (a_ident (r_start r))) by (unfold article_show; now rewrite EB).
      destruct C as [[_ ->]|[_ ->]]; unfold from_to in *; rewrite ES, <- ?app_assoc in *.
      + eapply f_bind2; [apply y_sk; [apply quiet_ws_slash|apply y_subtitle_id; auto using stop_dot]|]. eapply f_bind2; [apply y_T; reflexivity|]. apply f_bind1, f_sk_sp; [reflexivity|]. apply f_bind1, f_tok. reflexivity.
      + eapply f_bind2; [apply y_sk; [apply quiet_ws_slash|apply y_subtitle_id; auto using stop_dash]|]. apply f_bind1, f_T; reflexivity.
  Qed.
  Lemma part_not_before t : part_first t -> forall A (k : parser A) o, fails (before_it k) o (lit " " ++ t).
  Proof. intros P A k o. apply f_bind1. apply (f_word known "és" (lit " ") o t lead_space P). vm_compute. reflexivity. Qed.
  Lemma subtitle_refused r x s u : readable_ref r -> f_article r = Some x -> said_ended (lower_parts r) s -> follows known u -> stays u -> forall o, fails reference_with_subtitle o (s ++ u).
  Proof.
    intros RD EX H F S o. pose proof (parts_good r RD) as PG.
    assert (K : exists i n t v, y_art_facts x i /\ article_noun n t /\ beyond known t /\ s ++ u = i ++ lit " " ++ n ++ t /\ n ++ t = lit "§" ++ v /\ forall A (k : parser A) o, fails (before_it k) o t).
    { assert (EP : exists ps, lower_parts r = PartArticle x :: ps) by (unfold lower_parts; rewrite EX; eexists; reflexivity). destruct EP as (ps & EP). rewrite EP in *.
      inversion PG as [|p' ps' G PG']; subst p' ps'. apply ended_split in H as (i & n & n' & P & H). destruct (article_facts r x i n n' RD EX P) as [A ->].
      destruct H as [(_ & e & EN & ->)|(s' & S' & ->)]; rewrite <- !app_assoc.
      - exists i, (lit "§" ++ e), u, (e ++ u). split; [exact A|]. split; [apply (noun_ended known x); [exact EN|apply F]|]. split; [now apply beyond_follows|]. split; [now rewrite <- app_assoc|]. split; [now rewrite <- app_assoc|apply (sy_before _ S)].
      - assert (PF : part_first (s' ++ u)).
        { destruct ps as [|p ps]; [now apply ended_nil in S'|]. inversion PG' as [|p' ps' G' _]; subst p' ps'. apply ended_split in S' as (i' & n1 & n2 & P' & H').
          destruct H' as [(_ & e & _ & ->)|(s1 & _ & ->)]; rewrite <- !app_assoc; now apply (first_of_part p i' n1 n2). }
        exists i, (lit "§"), (lit " " ++ s' ++ u), (lit " " ++ s' ++ u). split; [exact A|]. split; [apply noun_plain|]. split; [now apply beyond_part|]. split; [reflexivity|]. split; [reflexivity|now apply part_not_before]. }
    destruct K as (i & n & t & v & A & N & BE & E & V & FB). assert (D : digit_first (s ++ u)) by (rewrite E; now apply (article_part_first x)). pose proof (digit_first_ws _ D) as W.
    unfold reference_with_subtitle. apply f_alt.
    - destruct (y_single known x i o n t A N (be_dash _ _ BE)) as (g & Y). rewrite <- E in Y. eapply f_bind2; [apply y_sk; [exact W|exact Y]|]. apply FB.
    - apply f_bind1. apply f_alt; [|apply f_alt].
      + rewrite E, V. now apply (f_dotted_id x).
      + apply f_bind1, f_sk; [exact W|]. apply f_bind1. apply (f_T_lead known "„" 8222 [] [] o _); auto using lead_none. apply low_not; [vm_compute; reflexivity|]. apply part_low. now left.
      + apply f_bind1, f_sk; [exact W|]. apply f_bind1, f_tok, no_word; [now left|vm_compute; reflexivity].
  Qed.
End Run.
