(** Lemmas about act extraction (C27). *)
From Verif Require Export ProofMk.

Lemma l_empty_spec l : l_empty l = true <-> empty l.
Proof. unfold l_empty, empty. apply is_empty_true. Qed.
Lemma is_sign_spec l : is_sign l = true <-> In (content l) sign_lines.
Proof.
  unfold is_sign. rewrite existsb_exists. split.
  - intros (x & H & E). apply str_eqb_eq in E. now subst.
  - intros H. exists (content l). split; [exact H|apply str_eqb_refl].
Qed.
Lemma nth_end {A} (b : list A) x y d : nth (List.length (b ++ [x; y]) - 2) (b ++ [x; y]) d = x.
Proof. rewrite app_length. cbn. replace (_ + 2 - 2)%nat with (List.length b + 0)%nat by lia. rewrite app_nth2_plus. reflexivity. Qed.
Lemma nth_end1 {A} (b : list A) x d : nth (List.length (b ++ [x]) - 1) (b ++ [x]) d = x.
Proof. rewrite app_length. cbn. replace (_ + 1 - 1)%nat with (List.length b + 0)%nat by lia. rewrite app_nth2_plus. reflexivity. Qed.
Lemma last_split {A} (l : list A) : (1 <= List.length l)%nat -> exists b x, l = b ++ [x].
Proof.
  intros H. destruct l as [|a l]; cbn in H; [lia|]. destruct (exists_last (l := a :: l)) as (b & x & E); [discriminate|]. eauto.
Qed.
Lemma foot_iff body l :
  l_empty l && (2 <? List.length body)%nat && l_empty (nth (List.length body - 2) body empty_line)
     && starts_with (lit "*") (content (nth (List.length body - 1) body empty_line)) = true <-> ends_footer (body ++ [l]).
Proof.
  rewrite !andb_true_iff, !l_empty_spec, Nat.ltb_lt, starts_with_spec. split.
  - intros (((E & L) & E2) & S). destruct (last_split body) as (b & f & ->); [lia|].
    rewrite app_length in L. cbn in L. destruct (last_split b) as (b' & e & ->); [lia|].
    rewrite <- app_assoc in E2. cbn [app] in E2. rewrite nth_end in E2. rewrite nth_end1 in S.
    exists b', e, f, l. rewrite <- !app_assoc. cbn [app]. split; [reflexivity|]. rewrite app_length in L. cbn in L.
    split; [lia|]. auto.
  - intros (b & e & f & e' & H & L & E & E' & S).
    assert (H' : body ++ [l] = (b ++ [e; f]) ++ [e']) by (rewrite H, <- app_assoc; reflexivity).
    apply app_inj_tail in H'. destruct H' as [-> ->]. rewrite nth_end.
    split; [split; [split; [exact E'|rewrite app_length; cbn; lia]|exact E]|].
    change [e; f] with ([e] ++ [f]). rewrite app_assoc, nth_end1. exact S.
Qed.
Lemma nth_end3 {A} (b : list A) x y z d : nth (List.length (b ++ [x; y; z]) - 3) (b ++ [x; y; z]) d = x.
Proof. rewrite app_length. cbn. replace (_ + 3 - 3)%nat with (List.length b + 0)%nat by lia. rewrite app_nth2_plus. reflexivity. Qed.
Lemma firstn_end3 {A} (b : list A) x y z : firstn (List.length (b ++ [x; y; z]) - 3) (b ++ [x; y; z]) = b.
Proof. rewrite app_length. cbn. replace (_ + 3 - 3)%nat with (List.length b + 0)%nat by lia. rewrite firstn_app_2. cbn. apply app_nil_r. Qed.
Lemma sign_iff body : (4 <? List.length body)%nat && l_empty (nth (List.length body - 3) body empty_line) && is_sign (nth (List.length body - 1) body empty_line) = true
  <-> ends_signed body.
Proof.
  rewrite !andb_true_iff, l_empty_spec, is_sign_spec, Nat.ltb_lt. split.
  - intros ((L & E) & S). destruct (last_split body) as (b & s & ->); [lia|]. rewrite app_length in L. cbn in L.
    destruct (last_split b) as (b' & n & ->); [lia|]. rewrite app_length in L. cbn in L.
    destruct (last_split b') as (b'' & e & ->); [lia|]. rewrite app_length in L. cbn in L.
    rewrite nth_end1 in S. rewrite <- !app_assoc in E. cbn [app] in E. rewrite nth_end3 in E.
    exists b'', e, n, s. rewrite <- !app_assoc. cbn [app]. split; [reflexivity|]. split; [lia|]. auto.
  - intros (b & e & n & s & -> & L & E & S). rewrite nth_end3. split; [split; [rewrite app_length; cbn; lia|exact E]|].
    change [e; n; s] with ([e; n] ++ [s]). rewrite app_assoc, nth_end1. exact S.
Qed.
Lemma ends_signed_inv b e n s : ends_signed (b ++ [e; n; s]) -> empty e /\ In (content s) sign_lines.
Proof.
  intros (b' & e' & n' & s' & H & _ & E & S). assert (b = b' /\ [e; n; s] = [e'; n'; s']) as [_ K].
  { apply (f_equal (@rev _)) in H. rewrite !rev_app_distr in H. cbn in H. injection H as -> -> -> H.
    apply (f_equal (@rev _)) in H. rewrite !rev_involutive in H. auto. }
  injection K as -> -> ->. auto.
Qed.

Section run.
Context (rf : str -> option Z).

Lemma body_after_no e l : ~ ends_signed (ar_body (e_cur e) ++ [l]) ->
  body_after e l = with_cur e (set_body (e_cur e) (ar_body (e_cur e) ++ [l])) BodyAfter.
Proof.
  intros H. unfold body_after. rewrite <- sign_iff in H. rewrite nth_end1 in H.
  destruct (_ && _ && is_sign l); [congruence|reflexivity].
Qed.
Lemma body_after_yes e l b x n : ar_body (e_cur e) ++ [l] = b ++ [x; n; l] -> ends_signed (b ++ [x; n; l]) ->
  body_after e l = mkExt (e_date e) default_raw (e_result e ++ [mkRaw (ar_id (e_cur e)) (ar_subject (e_cur e)) (e_date e) b]) WaitNewline.
Proof.
  intros E H. unfold body_after. pose proof (proj2 (sign_iff _) H) as T.
  change (b ++ [x; n; l]) with (b ++ [x; n] ++ [l]) in T. rewrite app_assoc in T. rewrite nth_end1 in T. rewrite <- app_assoc in T. cbn [app] in T.
  rewrite E, T, firstn_end3. reflexivity.
Qed.
Lemma body_before_foot e l : ends_footer (ar_body (e_cur e) ++ [l]) ->
  body_before e l = with_cur e (set_body (e_cur e) (firstn (List.length (ar_body (e_cur e)) - 1) (ar_body (e_cur e)))) BodyAfter.
Proof. intros H. apply foot_iff in H. unfold body_before. now rewrite H. Qed.
Lemma body_before_no e l : ~ ends_footer (ar_body (e_cur e) ++ [l]) -> ~ ends_signed (ar_body (e_cur e) ++ [l]) ->
  body_before e l = with_cur e (set_body (e_cur e) (ar_body (e_cur e) ++ [l])) BodyBefore.
Proof.
  intros H1 H2. unfold body_before. destruct (_ && _ && _ && _) eqn:F; [apply foot_iff in F; contradiction|].
  rewrite body_after_no by assumption. reflexivity.
Qed.
Lemma body_before_yes e l b x n : ~ ends_footer (b ++ [x; n; l]) -> ar_body (e_cur e) ++ [l] = b ++ [x; n; l] ->
  ends_signed (b ++ [x; n; l]) ->
  body_before e l = mkExt (e_date e) default_raw (e_result e ++ [mkRaw (ar_id (e_cur e)) (ar_subject (e_cur e)) (e_date e) b]) WaitNewline.
Proof.
  intros H1 E H2. unfold body_before. destruct (_ && _ && _ && _) eqn:F; [apply foot_iff in F; rewrite E in F; contradiction|].
  rewrite (body_after_yes e l b x n) by assumption. reflexivity.
Qed.

Lemma feed_app e a b : feed_lines rf e (a ++ b) = feed_lines rf (feed_lines rf e a) b.
Proof. apply fold_left_app. Qed.
Lemma feed_one e l : feed_lines rf e [l] = feed_line rf e l.
Proof. reflexivity. Qed.

Definition at_state (d : date) (res : list act_raw) (id : act_id) (s : str) (dt : date) (b : list line) (st : ext_state) : extractor :=
  mkExt d (mkRaw id s dt b) res st.

Lemma run_before ls : forall d res id s dt,
  (forall p, p <> [] -> prefix_of p ls -> ~ ends_footer p /\ ~ ends_signed p) ->
  feed_lines rf (at_state d res id s dt [] BodyBefore) ls = at_state d res id s dt ls BodyBefore.
Proof.
  induction ls as [|l ls IH] using rev_ind; intros d res id s dt H; [reflexivity|].
  rewrite feed_app, IH; [|intros p N [r E]; apply H; [exact N|exists (r ++ [l]); rewrite app_assoc, <- E; reflexivity]].
  rewrite feed_one. cbn [feed_line at_state e_state].
  destruct (H (ls ++ [l])) as [H1 H2]; [destruct ls; discriminate|exists []; now rewrite app_nil_r|].
  rewrite body_before_no; [reflexivity|exact H1|exact H2].
Qed.
Lemma run_after ls : forall d res id s dt b,
  (forall p, p <> [] -> prefix_of p ls -> ~ ends_signed (b ++ p)) ->
  feed_lines rf (at_state d res id s dt b BodyAfter) ls = at_state d res id s dt (b ++ ls) BodyAfter.
Proof.
  induction ls as [|l ls IH] using rev_ind; intros d res id s dt b H; [cbn; now rewrite app_nil_r|].
  rewrite feed_app, IH; [|intros p N [r E]; apply H; [exact N|exists (r ++ [l]); rewrite app_assoc, <- E; reflexivity]].
  rewrite feed_one. cbn [feed_line at_state e_state].
  rewrite body_after_no; cbn [at_state e_cur ar_body]; rewrite <- app_assoc; [reflexivity|].
  apply H; [destruct ls; discriminate|exists []; now rewrite app_nil_r].
Qed.
Lemma prefix_snoc {A} (p l : list A) x : prefix_of p l -> strict_prefix_of p (l ++ [x]).
Proof. intros [r ->]. destruct r as [|y r]; [exists x, []; now rewrite app_nil_r|]. exists y, (r ++ [x]). now rewrite <- app_assoc. Qed.
Lemma prefix_snoc' {A} (p l : list A) x : prefix_of p l -> prefix_of p (l ++ [x]).
Proof. intros [r ->]. exists (r ++ [x]). now rewrite app_assoc. Qed.

Lemma run_body x b : body_lines x b -> forall d res id s dt,
  feed_lines rf (at_state d res id s dt [] BodyBefore) x = mkExt d default_raw (res ++ [mkRaw id s d b]) WaitNewline.
Proof.
  intros H d res id s dt. destruct H as [b e n t L E S F G|b1 e f e' rest b e2 n t L E E' S F G R Q L2 E2 S2 G2].
  - assert (Ht : b ++ [e; n; t] = (b ++ [e; n]) ++ [t]) by (rewrite <- app_assoc; reflexivity).
    rewrite Ht, feed_app, run_before.
    + rewrite feed_one. cbn [feed_line at_state e_state].
      rewrite (body_before_yes _ t b e n); [reflexivity| |symmetry; exact Ht|].
      * apply F. exists []. now rewrite app_nil_r.
      * exists b, e, n, t. auto.
    + intros p N P. rewrite Ht in F, G. split; [apply F, prefix_snoc', P|apply G, prefix_snoc, P].
  - assert (Ht : b1 ++ [e; f; e'] = (b1 ++ [e; f]) ++ [e']) by (rewrite <- app_assoc; reflexivity).
    rewrite app_assoc, feed_app, Ht, feed_app, run_before.
    + rewrite feed_one. cbn [feed_line at_state e_state].
      rewrite body_before_foot; cbn [at_state e_cur ar_body].
      2:{ rewrite <- Ht. exists b1, e, f, e'. auto. }
      replace (firstn _ _) with (b1 ++ [e]).
      2:{ rewrite app_length. cbn [List.length]. replace (_ + 2 - 1)%nat with (List.length b1 + 1)%nat by lia.
          rewrite firstn_app_2. reflexivity. }
      destruct (last_split rest) as (r & l & ->); [destruct rest; [congruence|cbn; lia]|].
      change (feed_lines rf (at_state d res id s dt (b1 ++ [e]) BodyAfter) (r ++ [l]) =
              mkExt d default_raw (res ++ [mkRaw id s d b]) WaitNewline).
      rewrite feed_app, run_after.
      * rewrite feed_one. cbn [feed_line at_state e_state].
        assert (Q' : ((b1 ++ [e]) ++ r) ++ [l] = (b ++ [e2; n]) ++ [t]) by (rewrite <- !app_assoc; cbn [app] in Q |- *; exact Q).
        pose proof Q' as Q2. apply app_inj_tail in Q2. destruct Q2 as [_ ->].
        rewrite (body_after_yes _ t b e2 n); cbn [at_state e_cur ar_body]; [reflexivity| |].
        -- rewrite Q', <- app_assoc. reflexivity.
        -- exists b, e2, n, t. auto.
      * intros p N P. rewrite <- app_assoc. apply G2; [exact N|apply prefix_snoc, P].
    + intros p N P. rewrite Ht in F, G. split; [apply F|apply G]; apply prefix_snoc, P.
Qed.

Lemma header_empty l : empty l -> act_header rf l = None.
Proof. intros E. unfold act_header, content. rewrite E. reflexivity. Qed.
Lemma run_wait ls : forall e st, st = WaitNewline \/ st = WaitHeader -> (forall l, In l ls -> act_header rf l = None) ->
  exists st', (st' = WaitNewline \/ st' = WaitHeader) /\ feed_lines rf (with_state e st) ls = with_state e st' /\
    (forall p l, ls = p ++ [l] -> ~ empty l -> st' = WaitNewline) /\ (ls = [] -> st' = st).
Proof.
  induction ls as [|l ls IH] using rev_ind; intros e st Hst H.
  - exists st. split; [exact Hst|]. split; [reflexivity|]. split; [intros p0 x E; destruct p0; discriminate|reflexivity].
  - destruct (IH e st Hst) as (st' & S1 & S2 & _); [intros x Hx; apply H, in_or_app; now left|].
    assert (Hl : act_header rf l = None) by (apply H, in_or_app; right; now left).
    rewrite feed_app, S2, feed_one.
    exists (match st' with WaitNewline => if l_empty l then WaitHeader else WaitNewline | _ => WaitNewline end).
    assert (K : forall p x, ls ++ [l] = p ++ [x] -> ~ empty x -> l_empty l = false).
    { intros p x E N. apply app_inj_tail in E. destruct E as [_ <-]. destruct (l_empty l) eqn:Q; [|reflexivity].
      apply l_empty_spec in Q. contradiction. }
    destruct S1 as [-> | ->]; cbn [feed_line with_state e_state].
    + split; [destruct (l_empty l); auto|]. split; [reflexivity|]. split; [|destruct ls; discriminate].
      intros p x E N. now rewrite (K p x E N).
    + rewrite Hl. split; [now left|]. split; [reflexivity|]. split; [reflexivity|destruct ls; discriminate].
Qed.
Lemma run_noise ls e : noise rf ls -> e_state e = WaitNewline -> feed_lines rf e ls = e.
Proof.
  intros [H1 H2] E. destruct (run_wait ls e WaitNewline (or_introl eq_refl) H1) as (st & S1 & S2 & S3 & S4).
  assert (W : with_state e WaitNewline = e) by (destruct e; cbn in *; subst; reflexivity).
  rewrite W in S2. rewrite S2.
  assert (st = WaitNewline) as ->; [|exact W].
  destruct ls as [|x ls] using rev_ind; [auto|]. apply (S3 ls x eq_refl). now apply (H2 ls).
Qed.
Lemma run_subject ls : forall d res id dt s, (forall p, p <> [] -> prefix_of p ls -> forall t, fold_left (fun s l => append_to l s) p s <> t ++ lit "*") ->
  feed_lines rf (at_state d res id s dt [] InSubject) ls =
  at_state d res id (fold_left (fun s l => append_to l s) ls s) dt [] InSubject.
Proof.
  induction ls as [|l ls IH]; intros d res id dt s H; [reflexivity|].
  cbn [feed_lines fold_left]. cbn [feed_line at_state e_state e_cur ar_subject ar_id ar_date ar_body].
  destruct (ends_with (lit "*") (append_to l s)) eqn:E.
  - apply ends_with_spec in E. destruct E as [r E]. exfalso. apply (H [l]) with r; [discriminate|exists ls; reflexivity|exact E].
  - apply (IH d res id dt (append_to l s)). intros p N [r ->] t. apply (H (l :: p)); [discriminate|exists r; reflexivity].
Qed.
Lemma run_block d x a : act_block rf d x a -> forall res,
  feed_lines rf (mkExt d default_raw res WaitNewline) x = mkExt d default_raw (res ++ [a]) WaitNewline.
Proof.
  intros [ns e h id subj subject y b Hn He Hh (S1 & S2 & S3) Hb] res.
  rewrite feed_app, (run_noise ns) by auto. rewrite feed_app.
  replace (feed_lines rf (mkExt d default_raw res WaitNewline) [e; h]) with (at_state d res id [] default_date [] InSubject).
  2:{ cbn [feed_lines fold_left]. unfold feed_line at 2. cbn [e_state]. rewrite (proj2 (l_empty_spec e) He).
      unfold feed_line. cbn [with_state e_state]. rewrite Hh. reflexivity. }
  rewrite feed_app. destruct (last_split subj) as (p & l & ->); [destruct subj; [congruence|cbn; lia]|].
  rewrite (feed_app _ p), run_subject.
  - rewrite feed_one. cbn [feed_line at_state e_state e_cur ar_subject ar_id ar_date ar_body].
    unfold join in S2. rewrite fold_left_app in S2. cbn [fold_left] in S2. rewrite S2.
    assert (E : ends_with (lit "*") (subject ++ lit "*") = true) by (apply ends_with_spec; eauto).
    rewrite E. change (lit "*") with [42%N]. rewrite removelast_last. apply run_body. exact Hb.
  - intros q N P. apply S3; [exact N|]. apply prefix_snoc, P.
Qed.
Lemma run_blocks d ls acts : act_blocks rf d ls acts -> forall res,
  e_result (feed_lines rf (mkExt d default_raw res WaitNewline) ls) = res ++ acts.
Proof.
  induction 1 as [ls H|x a ls acts H Hs IH]; intros res.
  - destruct (run_wait ls (mkExt d default_raw res WaitNewline) WaitNewline (or_introl eq_refl) H) as (st & _ & S2 & _).
    change (with_state (mkExt d default_raw res WaitNewline) WaitNewline) with (mkExt d default_raw res WaitNewline) in S2.
    rewrite S2. cbn. now rewrite app_nil_r.
  - rewrite feed_app, (run_block d x a H), IH, <- app_assoc. reflexivity.
Qed.

(** Sections of pages *)
Lemma start_spec l : is_section_start l = true <-> start_line l.
Proof. unfold is_section_start, start_line. now rewrite andb_true_iff, str_eqb_eq. Qed.
Lemma stop_spec l : is_section_end l = true <-> stop_line l.
Proof.
  unfold is_section_end, stop_line, begins. rewrite andb_true_iff, existsb_exists.
  split; intros [A (p & B & C)]; (split; [exact A|]); exists p; (split; [exact B|]); now apply starts_with_spec.
Qed.
Lemma not_true b P : (b = true <-> P) -> ~ P -> b = false.
Proof. intros H N. destruct b; [exfalso; apply N, H; reflexivity|reflexivity]. Qed.
Lemma page_end_line st : page_end rf st = page_line rf st empty_line.
Proof. destruct st as [[e x] s]. cbn. rewrite andb_false_r. cbn. rewrite orb_false_r. destruct x; reflexivity. Qed.
Lemma do_pages pages st : fold_left (do_page rf) pages st = fold_left (page_line rf) (page_stream pages) st.
Proof.
  revert st. induction pages as [|p pages IH]; intros st; [reflexivity|]. cbn [fold_left page_stream flat_map].
  rewrite IH, !fold_left_app. cbn [fold_left]. f_equal. unfold do_page. apply page_end_line.
Qed.
Lemma lines_before a e : (forall l, In l a -> ~ start_line l /\ ~ title_line l /\ ~ stop_line l) ->
  fold_left (page_line rf) a (e, false, false) = (e, false, false).
Proof.
  induction a as [|l a IH]; intros H; [reflexivity|]. cbn [fold_left page_line].
  destruct (H l (or_introl eq_refl)) as (H1 & H2 & H3).
  rewrite (not_true _ _ (start_spec l) H1), (not_true _ _ (stop_spec l) H3).
  assert (T : l_bold l && has_act_title (content l) = false).
  { apply (not_true _ (title_line l)); [|exact H2]. unfold title_line. apply andb_true_iff. }
  cbn [negb andb orb]. rewrite T. apply IH. intros x Hx. apply H. now right.
Qed.
Lemma lines_inside m : forall e, plain m -> fold_left (page_line rf) m (e, true, true) = (feed_lines rf e m, true, true).
Proof.
  induction m as [|l m IH]; intros e H; [reflexivity|]. cbn [fold_left page_line orb].
  destruct (H l (or_introl eq_refl)) as (H1 & H3).
  rewrite (not_true _ _ (start_spec l) H1), (not_true _ _ (stop_spec l) H3).
  apply IH. intros x Hx. apply H. now right.
Qed.
Lemma lines_after z : forall e, (forall l, In l z -> ~ start_line l) -> fold_left (page_line rf) z (e, false, true) = (e, false, true).
Proof.
  induction z as [|l z IH]; intros e H; [reflexivity|]. cbn [fold_left page_line orb negb andb].
  rewrite (not_true _ _ (start_spec l) (H l (or_introl eq_refl))).
  destruct (is_section_end l); apply IH; intros x Hx; apply H; now right.
Qed.
Lemma run_section s m e : section_lines s m -> fst (fst (fold_left (page_line rf) s (e, false, false))) = feed_lines rf e m.
Proof.
  assert (Sh : forall l st x, start_line l -> page_line rf (st, x, false) l = (st, true, true)).
  { intros l st x H. unfold page_line. rewrite (proj2 (start_spec l) H). reflexivity. }
  assert (Th : forall l st, stop_line l -> page_line rf (st, true, true) l = (st, false, true)).
  { intros l st H. unfold page_line. rewrite (proj2 (stop_spec l) H).
    assert (is_section_start l = false) as ->; [|reflexivity].
    apply (not_true _ _ (start_spec l)). intros [_ S]. destruct H as [_ (p & P & r & Q)].
    rewrite S in Q. unfold section_stops in P. cbn [map] in P.
    repeat (destruct P as [<-|P]; [vm_compute in Q; discriminate|]). exact P. }
  intros [a l m' t z A L M T Z|a l m' A L M].
  - rewrite !fold_left_app, lines_before by exact A. cbn [fold_left]. rewrite Sh, lines_inside by assumption.
    rewrite Th, lines_after by assumption. reflexivity.
  - rewrite !fold_left_app, lines_before by exact A. cbn [fold_left]. rewrite Sh, lines_inside by assumption. reflexivity.
Qed.
Lemma run_pages ud p0 p1 pages d m acts :
  cover_page ud p0 = Ok d -> section_lines (page_stream (p0 :: p1 :: pages)) m -> act_blocks rf d m acts ->
  parse_mk_pages ud rf (p0 :: p1 :: pages) = Ok (map (fun a => mkRaw (ar_id a) (ar_subject a) (ar_date a) (remove_double_empty (ar_body a))) acts).
Proof.
  intros C S B. unfold parse_mk_pages. rewrite C. cbn [obind]. rewrite do_pages.
  pose proof (run_section _ _ (ext_new d) S) as R.
  destruct (fold_left (page_line rf) (page_stream (p0 :: p1 :: pages)) (ext_new d, false, false)) as [[e x] y].
  cbn [fst] in R. subst e. unfold ext_new. rewrite (run_blocks d m acts B []). reflexivity.
Qed.

(** Every body is made of fed lines, in order *)
Lemma subseq_refl {A} (l : list A) : subseq l l.
Proof. induction l; constructor; assumption. Qed.
Lemma subseq_snoc {A} (a b : list A) x : subseq a b -> subseq (a ++ [x]) (b ++ [x]).
Proof.
  induction 1 as [l|y a b H IH|y a b H IH]; cbn.
  - induction l as [|y l IHl]; cbn; [apply subseq_refl|]. apply sub_skip, IHl.
  - apply sub_keep, IH.
  - apply sub_skip, IH.
Qed.
Lemma subseq_right {A} (a b : list A) x : subseq a b -> subseq a (b ++ [x]).
Proof. induction 1; cbn; constructor; assumption. Qed.
Lemma subseq_trans {A} (b c : list A) : subseq b c -> forall a, subseq a b -> subseq a c.
Proof.
  induction 1 as [l|y b c H IH|y b c H IH]; intros a Ha.
  - inversion Ha; subst. constructor.
  - inversion Ha; subst; [constructor|apply sub_keep; auto|apply sub_skip; auto].
  - apply sub_skip; auto.
Qed.
Lemma subseq_app {A} (c a b : list A) : subseq a b -> subseq (c ++ a) (c ++ b).
Proof. induction c; cbn; [auto|intros; constructor; auto]. Qed.
Lemma subseq_firstn {A} n (l : list A) : subseq (firstn n l) l.
Proof. revert n. induction l as [|x l IH]; intros [|n]; cbn; constructor. apply IH. Qed.
Definition bodies (e : extractor) : list line := flat_map ar_body (e_result e) ++ ar_body (e_cur e).
Lemma bodies_after e l seen : subseq (bodies e) seen -> subseq (bodies (body_after e l)) (seen ++ [l]).
Proof.
  intros H. apply (subseq_snoc _ _ l) in H. unfold bodies in *. rewrite <- app_assoc in H. unfold body_after.
  destruct (_ && _ && _); cbn [e_result e_cur ar_body with_cur set_body default_raw]; [|exact H].
  rewrite flat_map_app. cbn [flat_map ar_body]. rewrite !app_nil_r.
  eapply subseq_trans; [exact H|]. apply subseq_app, subseq_firstn.
Qed.
Lemma bodies_step e l seen : subseq (bodies e) seen -> subseq (bodies (feed_line rf e l)) (seen ++ [l]).
Proof.
  intros H. unfold feed_line. destruct (e_state e).
  - apply subseq_right. exact H.
  - destruct (act_header rf l); apply subseq_right; exact H.
  - destruct (ends_with _ _); apply subseq_right; exact H.
  - unfold body_before. destruct (_ && _ && _ && _).
    + apply subseq_right. eapply subseq_trans; [exact H|]. unfold bodies. cbn. apply subseq_app, subseq_firstn.
    + pose proof (bodies_after e l seen H) as K. destruct (e_state (body_after e l)); exact K.
  - now apply bodies_after.
Qed.
Lemma bodies_subseq ls : forall e seen, subseq (bodies e) seen -> subseq (bodies (feed_lines rf e ls)) (seen ++ ls).
Proof.
  induction ls as [|l ls IH]; intros e seen H; [now rewrite app_nil_r|].
  change (l :: ls) with ([l] ++ ls). rewrite app_assoc. cbn [app feed_lines fold_left]. apply IH, bodies_step, H.
Qed.
Lemma subseq_left {A} (a b l : list A) : subseq (a ++ b) l -> subseq a l.
Proof.
  intros H. eapply subseq_trans; [exact H|]. rewrite <- (app_nil_r a) at 1. apply subseq_app. constructor.
Qed.
Lemma c27_bodies d ls : subseq (flat_map ar_body (e_result (feed_lines rf (ext_new d) ls))) ls.
Proof. apply (subseq_left _ (ar_body (e_cur (feed_lines rf (ext_new d) ls)))). apply (bodies_subseq ls (ext_new d) []). constructor. Qed.
End run.

Lemma foot_iff' l : ends_footer l -> exists body x, l = body ++ [x] /\
  l_empty x && (2 <? List.length body)%nat && l_empty (nth (List.length body - 2) body empty_line)
     && starts_with (lit "*") (content (nth (List.length body - 1) body empty_line)) = true.
Proof.
  intros H. pose proof H as (b & e & f & e' & E & _). exists (b ++ [e; f]), e'.
  assert (E' : l = (b ++ [e; f]) ++ [e']) by (rewrite E, <- app_assoc; reflexivity).
  split; [exact E'|]. apply foot_iff. now rewrite <- E'.
Qed.
(** A computable form of [ends_footer] *)
Definition footer_b (l : list line) : bool :=
  let body := removelast l in let x := last l empty_line in
  l_empty x && (2 <? List.length body)%nat && l_empty (nth (List.length body - 2) body empty_line)
     && starts_with (lit "*") (content (nth (List.length body - 1) body empty_line)).
Lemma footer_b_true l : ends_footer l -> footer_b l = true.
Proof. intros H. apply foot_iff' in H. destruct H as (b & x & -> & H). unfold footer_b. rewrite removelast_last, last_last. exact H. Qed.
Lemma c27_issue ud rf p0 p1 pages d m acts :
  cover_page ud p0 = Ok d -> section_lines (page_stream (p0 :: p1 :: pages)) m -> act_blocks rf d m acts ->
  exists result, parse_mk_pages ud rf (p0 :: p1 :: pages) = Ok result /\
    Forall2 (fun r a => ar_id r = ar_id a /\ ar_subject r = ar_subject a /\ ar_date r = d /\
               no_double_empty (ar_body r) /\ collapsed (ar_body a) (ar_body r)) result acts.
Proof.
  intros C S B. eexists. split; [exact (run_pages rf ud p0 p1 pages d m acts C S B)|]. clear C S.
  induction B as [|x a ls acts H B IH]; cbn [map]; constructor; [|exact IH]. cbn.
  split; [reflexivity|]. split; [reflexivity|]. split; [destruct H; reflexivity|]. split; [apply c26_no_double|apply c26_collapsed].
Qed.
(** Checks over all prefixes, for the examples *)
Definition signed_b (l : list line) : bool :=
  (4 <? List.length l)%nat && l_empty (nth (List.length l - 3) l empty_line) && is_sign (nth (List.length l - 1) l empty_line).
Lemma prefix_check (bad : list line -> Prop) f (ls : list line) n : (forall l, bad l -> f l = true) ->
  forallb (fun k => negb (f (firstn k ls))) (seq 0 n) = true ->
  forall p, prefix_of p ls -> (List.length p < n)%nat -> ~ bad p.
Proof.
  intros F C p [r ->] L B. rewrite forallb_forall in C. specialize (C (List.length p)).
  rewrite in_seq in C. specialize (C ltac:(lia)). rewrite firstn_app, Nat.sub_diag, firstn_all, app_nil_r in C.
  rewrite (F _ B) in C. discriminate.
Qed.
Lemma footer_check ls : forallb (fun k => negb (footer_b (firstn k ls))) (seq 0 (S (List.length ls))) = true ->
  forall p, prefix_of p ls -> ~ ends_footer p.
Proof.
  intros H p P. apply (prefix_check _ _ _ _ footer_b_true H); [exact P|]. destruct P as [r ->]. rewrite app_length. lia.
Qed.
Lemma strict_length {A} (p l : list A) : strict_prefix_of p l -> prefix_of p l /\ (List.length p < List.length l)%nat.
Proof. intros (x & r & ->). split; [exists (x :: r); reflexivity|rewrite app_length; cbn; lia]. Qed.
Lemma footer_check' ls : forallb (fun k => negb (footer_b (firstn k ls))) (seq 0 (List.length ls)) = true ->
  forall p, strict_prefix_of p ls -> ~ ends_footer p.
Proof. intros H p P. apply strict_length in P. apply (prefix_check _ _ _ _ footer_b_true H); apply P. Qed.
Lemma signed_check' ls : forallb (fun k => negb (signed_b (firstn k ls))) (seq 0 (List.length ls)) = true ->
  forall p, strict_prefix_of p ls -> ~ ends_signed p.
Proof. intros H p P. apply strict_length in P. apply (prefix_check _ _ _ _ (fun l => proj2 (sign_iff l)) H); apply P. Qed.
