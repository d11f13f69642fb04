(** What the program makes of texts can be stored: the structure parser and the conversion of amendments. *)
From Verif Require Import SpecSave ProofIdent4 ProofRef4 ProofSem ProofMk ProofSave.

Definition gives {A} (P : A -> Prop) (x : outcome A) : Prop := forall a, x = Ok a -> P a.
Lemma gives_ok {A} (P : A -> Prop) a : P a -> gives P (Ok a).
Proof. intros H b E. apply Ok_inj in E. now subst. Qed.
Lemma gives_err {A} (P : A -> Prop) : gives P Err. Proof. intros a E. discriminate. Qed.
Lemma gives_panic {A} (P : A -> Prop) : gives P Panic. Proof. intros a E. discriminate. Qed.
Lemma gives_bind {A B} (P : A -> Prop) (Q : B -> Prop) (x : outcome A) (f : A -> outcome B) : gives P x -> (forall a, P a -> gives Q (f a)) -> gives Q (obind x f).
Proof. intros H K. destruct x as [a| |]; cbn; [apply K, H; reflexivity|apply gives_err|apply gives_panic]. Qed.
Lemma gives_any {A B} (Q : B -> Prop) (x : outcome A) (f : A -> outcome B) : (forall a, gives Q (f a)) -> gives Q (obind x f).
Proof. intros K. apply (gives_bind (fun _ => True)); [intros a _; exact I|auto]. Qed.
Lemma gives_map {A B} (P : A -> Prop) (Q : B -> Prop) (f : A -> B) (x : outcome A) : gives P x -> (forall a, P a -> Q (f a)) -> gives Q (omap f x).
Proof. intros H K. destruct x as [a| |]; cbn; [apply gives_ok, K, H; reflexivity|apply gives_err|apply gives_panic]. Qed.
Lemma gives_or {A} (P : A -> Prop) (x y : outcome A) : gives P x -> gives P y -> gives P (or_else x y).
Proof. intros H K. destruct x; cbn; auto. Qed.
#[global] Hint Resolve gives_ok gives_err gives_panic : core.

Section Keep.
Variable D : date -> Prop.
Definition header_gives {I} (P : I -> Prop) (h : line -> outcome (option (I * line))) : Prop := forall l, gives (if_some (fun p => P (fst p))) (h l).
Lemma parse_header_gives {T} (P : T -> Prop) m parse bl : (forall s x, parse s = Ok x -> P x) -> header_gives P (parse_header m parse bl).
Proof.
  intros H l. unfold parse_header. destruct (m (content l)) as [[i r]|]; [|apply gives_ok; discriminate]. destruct (parse i) eqn:E; auto; [|apply gives_ok; discriminate].
  apply gives_any. intros r'. destruct (existsb _ _); apply gives_ok; [discriminate|]. intros x X. injection X as <-. cbn. exact (H _ _ E).
Qed.
Lemma paragraph_parse_fits s x : paragraph_parse s = Ok x -> if_some numeric_fits x.
Proof. intros H y ->. exact (proj1 (proj2 (proj2 (proj2 (proj2 c03_parse_ok)))) s (Some y) H). Qed.
Lemma prefixed_parse_fits s x : prefixed_parse s = Ok x -> prefixed_fits x.
Proof. intros H. apply c03_parse_ok in H as (A & B & _). now split. Qed.
Lemma paragraph_header_gives : header_gives (if_some numeric_fits) paragraph_header.
Proof. apply parse_header_gives, paragraph_parse_fits. Qed.
Lemma numeric_header_gives : header_gives numeric_fits numeric_header.
Proof. apply parse_header_gives. apply numeric_parse_ok. Qed.
Lemma alpha_header_gives : header_gives hic_fits alpha_point_header.
Proof. apply parse_header_gives. apply hic_parse_ok. Qed.
Lemma alpha_sub_header_gives p : header_gives prefixed_fits (alpha_subpoint_header p).
Proof.
  intros l. unfold alpha_subpoint_header. apply (gives_bind (if_some (fun p => prefixed_fits (fst p)))).
  - apply parse_header_gives, prefixed_parse_fits.
  - intros [[i r]|] H; [|apply gives_ok; discriminate]. destruct (opt_eqb _ _ _); apply gives_ok; [exact H|discriminate].
Qed.

Section Elements.
  Context {I C : Type} `{IdentCommon I} (P : I -> Prop) (Q : C -> Prop).
  Variable header : line -> outcome (option (I * line)).
  Variable children : pctx -> I -> option line -> list line -> outcome (em_result C).
  Hypothesis HG : header_gives P header.
  Hypothesis CG : forall ctx i prev b, P i -> gives (fun r => Q (em_elems r)) (children ctx i prev b).
  Let S := sae_fits D P Q.
  Lemma scan_gives ctx i b : P i -> forall q prev intro, gives (fun p => if_some (fun r => Q (em_elems r)) (snd p)) (parse_scan children ctx i q prev intro b).
  Proof.
    intros PI. induction b as [|l b IH]; intros q prev intro; cbn [parse_scan]; apply gives_any; intros q'; [apply gives_ok; discriminate|]. destruct (q_begin q'); [apply IH|].
    pose proof (CG ctx i prev (l :: b) PI) as G. destruct (children ctx i prev (l :: b)) as [r| |]; auto. apply gives_ok. intros x X. injection X as <-. now apply G.
  Qed.
  Lemma new_gives i b : P i -> body_fits Q b -> S (new_sae i b).
  Proof. intros A B. unfold S, sae_fits, new_sae. cbn. split; [exact A|]. split; [exact B|]. split; [apply si_default_fits|discriminate]. Qed.
  Lemma sae_gives ctx mode i b : P i -> gives (fun p => S (fst p)) (sae_parse children ctx mode i b).
  Proof.
    intros PI. unfold sae_parse. eapply gives_bind; [apply scan_gives, PI|]. intros [intro [e|]] H1; cbn [snd] in H1.
    - specialize (H1 e eq_refl). destruct mode; apply gives_ok; now apply new_gives.
    - destruct ctx, mode; try (apply gives_ok; now apply new_gives). destruct (position _ _); apply gives_ok; now apply new_gives.
  Qed.
  Lemma check_gives last n : header_gives P (check_header header last n).
  Proof.
    intros l. unfold check_header. destruct (negb _); [apply gives_ok; discriminate|]. eapply gives_bind; [apply HG|]. intros [[i r]|] H1; [|apply gives_ok; discriminate].
    destruct (id_next i last); apply gives_ok; [exact H1|discriminate].
  Qed.
  Lemma loop_gives ctx hi ls : forall q i b es, P i -> Forall S es -> gives (fun p => P (fst (fst p)) /\ Forall S (snd p)) (em_loop header children ctx hi q i b es ls).
  Proof.
    induction ls as [|l ls IH]; intros q i b es PI F; cbn [em_loop]; apply gives_any; intros q'; [now apply gives_ok|].
    apply (gives_bind (if_some (fun p => P (fst p)))); [destruct (q_begin q'); [apply gives_ok; discriminate|apply check_gives]|].
    intros [[i' r]|] H1; [|now apply IH]. apply (gives_bind (fun p => S (fst p))); [now apply sae_gives|]. intros [e w] E. apply IH; [exact (H1 _ eq_refl)|].
    apply Forall_app. auto.
  Qed.
  Lemma finish_gives ctx w hi i b es : P i -> Forall S es -> gives (fun r => Forall S (em_elems r)) (em_finish children ctx w hi i b es).
  Proof.
    intros PI F. assert (G : forall e, S e -> Forall S (es ++ [e])) by (intros e E; apply Forall_app; auto).
    unfold em_finish. destruct w; [destruct ctx|].
    - destruct (position _ b); (apply (gives_bind (fun p => S (fst p))); [now apply sae_gives|]; intros [e x] E; apply gives_ok; now apply G).
    - apply (gives_bind (fun p => S (fst p))); [now apply sae_gives|]. intros [e x] E. destruct (position _ x); apply gives_ok; now apply G.
    - apply (gives_bind (fun p => S (fst p))); [now apply sae_gives|]. intros [e x] E. apply gives_ok. now apply G.
  Qed.
  Lemma multiple_gives ctx w c e ls : gives (fun r => Forall S (em_elems r)) (extract_multiple header children ctx w c e ls).
  Proof.
    unfold extract_multiple. destruct ls as [|l ls]; auto. eapply gives_bind; [apply HG|]. intros [[i r]|] H1; auto. apply gives_any; intros _. apply gives_any; intros q.
    eapply gives_bind; [apply loop_gives; [exact (H1 _ eq_refl)|constructor]|]. intros [[i' b] es] [A B]. cbn in A, B. eapply gives_bind; [apply finish_gives; [exact A|exact B]|].
    intros x X. apply gives_any. intros _. now apply gives_ok.
  Qed.
End Elements.
Lemma none_gives {I} (ctx : pctx) (i : I) prev b : gives (fun r => SpecSave.no_children (em_elems r)) (ModelStruct.no_children ctx i prev b).
Proof. apply gives_err. Qed.
Lemma num_subs_give ctx w c e ls : gives (fun r => Forall (num_sub_fits D) (em_elems r)) (extract_num_subpoints ctx w c e ls).
Proof. apply multiple_gives; [apply numeric_header_gives|]. intros. apply none_gives. Qed.
Lemma alpha_subs_give p ctx w c e ls : gives (fun r => Forall (alpha_sub_fits D) (em_elems r)) (extract_alpha_subpoints p ctx w c e ls).
Proof. apply multiple_gives; [apply alpha_sub_header_gives|]. intros. apply none_gives. Qed.
Lemma num_children_give ctx i prev b : gives (fun r => num_children_fit D (em_elems r)) (num_point_children ctx i prev b).
Proof. eapply gives_map; [apply alpha_subs_give|]. auto. Qed.
Lemma alpha_children_give ctx i prev b : gives (fun r => alpha_children_fit D (em_elems r)) (alpha_point_children ctx i prev b).
Proof. apply gives_or; (eapply gives_map; [first [apply num_subs_give|apply alpha_subs_give]|]); auto. Qed.
Lemma nums_give ctx w c e ls : gives (fun r => Forall (num_fits D) (em_elems r)) (extract_num_points ctx w c e ls).
Proof. apply multiple_gives; [apply numeric_header_gives|]. intros. apply num_children_give. Qed.
Lemma alphas_give ctx w c e ls : gives (fun r => Forall (alpha_fits D) (em_elems r)) (extract_alpha_points ctx w c e ls).
Proof. apply multiple_gives; [apply alpha_header_gives|]. intros. apply alpha_children_give. Qed.
Lemma par_children_give n ctx i prev b : gives (fun r => par_children_fit D (S n) (em_elems r)) (paragraph_children ctx i prev b).
Proof.
  apply gives_or; [|apply gives_or].
  - eapply (gives_map (fun _ => True)); [intros x _; exact I|]. intros x _. exact I.
  - eapply gives_map; [apply nums_give|]. auto.
  - eapply gives_map; [apply alphas_give|]. auto.
Qed.
Lemma paragraphs_give n ctx w c e ls : gives (fun r => Forall (paragraph_fits D (S n)) (em_elems r)) (extract_paragraphs ctx w c e ls).
Proof. apply multiple_gives; [apply paragraph_header_gives|]. intros. apply par_children_give. Qed.
Lemma paragraph_gives n ctx m i ls : if_some numeric_fits i -> gives (fun p => paragraph_fits D (S n) (fst p)) (parse_paragraph ctx m i ls).
Proof. intros H. apply sae_gives; [|exact H]. intros. apply par_children_give. Qed.

(** ** Articles and elements above them *)
Lemma try_article_gives ctx f e l : gives (fun p => article_id_fits (ap_id (snd p))) (try_article ctx f e l).
Proof.
  unfold try_article. apply gives_any. intros _. eapply gives_bind; [apply (parse_header_gives article_id_fits), article_parse_ok|]. intros [[i r]|] H; auto.
  apply gives_any. intros _. apply gives_ok. exact (H _ eq_refl).
Qed.
Lemma article_gives n ctx p : article_id_fits (ap_id p) -> gives (article_fits D (paragraph_fits D (S n))) (ap_finish ctx p).
Proof.
  intros A. unfold ap_finish. apply gives_any. intros [t [|l ls]]; auto. cbv zeta. set (b := if l_empty l then ls else l :: ls).
  pose proof (paragraphs_give n ctx false true None b) as G. destruct (extract_paragraphs ctx false true None b) as [e| |]; auto.
  - destruct (is_some _); auto. apply gives_ok. split; [exact A|]. split; [now apply G|discriminate].
  - eapply gives_bind; [apply (paragraph_gives n); discriminate|]. intros [e w] E. apply gives_ok. split; [exact A|]. split; [constructor; auto|discriminate].
Qed.
Lemma suffix_fits p s a x : split_suffix p s = Ok (a, Some x) -> hic_ok x = true.
Proof.
  unfold split_suffix. destruct (span p s) as [q r]. destruct r as [|c r]; [discriminate|]. destruct (if (c =? chr "/")%N then _ else _) as [t| |]; cbn [obind]; try discriminate.
  destruct (is_empty t); [discriminate|]. destruct (hic_parse t) as [h| |] eqn:E; cbn [obind]; try discriminate. intros X. apply Ok_inj in X. injection X as <- <-. exact (hic_parse_ok _ _ E).
Qed.
Lemma roman_fits rf s x : numeric_from_roman rf s = Ok x -> numeric_fits x.
Proof.
  unfold numeric_from_roman. destruct (split_suffix is_roman_digit s) as [[a o]| |] eqn:E; cbn [obind]; try discriminate. destruct (rf a) as [z|]; cbn; [|discriminate].
  intros X. apply Ok_inj in X. subst x. unfold numeric_fits, numeric_ok, u16_max. cbn [n_num n_suffix]. assert (L : (Z.to_N (z mod 65536) <=? 65535)%N = true).
  { apply N.leb_le. pose proof (Z.mod_pos_bound z 65536 eq_refl). lia. }
  rewrite L. destruct o as [h|]; [|reflexivity]. exact (suffix_fits _ _ _ _ E).
Qed.
Lemma small_fits n : (n <= 100)%N -> numeric_fits (mkNum n None).
Proof. intros H. unfold numeric_fits, numeric_ok, u16_max. cbn [n_num n_suffix]. rewrite andb_true_r. apply N.leb_le. lia. Qed.
Lemma hungarian_fits s x : (let* n := num_from_hungarian s in Ok (mkNum n None)) = Ok x -> numeric_fits x.
Proof.
  destruct (num_from_hungarian s) as [n| |] eqn:E; cbn [obind]; try discriminate. intros X. apply Ok_inj in X. subst x. apply c41_accepts in E as (w & E & _). apply small_fits, to_hungarian_range. eauto.
Qed.
Lemma special_fits s x : parse_special_part s = Ok x -> numeric_fits x.
Proof. unfold parse_special_part. repeat match goal with |- context [if ?b then _ else _] => destruct b end; intros X; try discriminate; apply Ok_inj in X; subst x; now apply small_fits. Qed.
Lemma se_identifier_fits rf ty s x : se_parse_identifier rf ty s = Ok x -> numeric_fits x.
Proof. destruct ty as [|[]| |]; cbn [se_parse_identifier]; [apply hungarian_fits|apply special_fits|apply hungarian_fits|apply roman_fits|apply roman_fits]. Qed.
Lemma try_se_gives rf ty l : gives (if_some (fun p => numeric_fits (sp_id p))) (try_se rf ty l).
Proof.
  unfold try_se. destruct (match_se ty (content l)) as [i|]; [|apply gives_ok; discriminate]. destruct (se_parse_identifier rf ty i) eqn:E; auto; [|apply gives_ok; discriminate].
  apply gives_ok. intros p X. injection X as <-. cbn. exact (se_identifier_fits _ _ _ _ E).
Qed.
Lemma first_se_gives rf tys l : gives (if_some (fun p => numeric_fits (sp_id p))) (first_se rf tys l).
Proof.
  induction tys as [|ty tys IH]; cbn [first_se]; [apply gives_ok; discriminate|]. eapply gives_bind; [apply try_se_gives|]. intros [p|] H; [now apply gives_ok|exact IH].
Qed.
Lemma try_subtitle_gives up ctx e l : gives (if_some (fun p => if_some numeric_fits (tp_id p))) (try_subtitle up ctx e l).
Proof.
  assert (N : gives (if_some (fun p => if_some numeric_fits (tp_id p))) (Ok None)) by (apply gives_ok; discriminate).
  unfold try_subtitle. destruct (negb _); [exact N|]. destruct (match_subtitle _) as [[i t]|].
  - destruct (numeric_parse i) as [x| |] eqn:E; auto. apply gives_ok. intros p X. injection X as <-. cbn. intros y Y. injection Y as <-. exact (numeric_parse_ok _ _ E).
  - destruct (_ || _); [|exact N]. destruct (content l) as [|c t]; [exact N|]. destruct (up c); [|exact N]. apply gives_ok. intros p X. injection X as <-. cbn. discriminate.
Qed.
Definition state_fits (s : act_state) : Prop :=
  match s with AsPreamble => True | AsArticle p => article_id_fits (ap_id p) | AsSubtitle p => if_some numeric_fits (tp_id p) | AsStruct p => numeric_fits (sp_id p) end.
Lemma header_line_gives rf up ctx f e l : gives (if_some (fun p => state_fits (fst p))) (act_header_line rf up ctx f e l).
Proof.
  unfold act_header_line. eapply gives_bind; [apply first_se_gives|]. intros [p|] H; [apply gives_ok; intros x X; injection X as <-; exact (H _ eq_refl)|].
  eapply gives_bind; [apply try_subtitle_gives|]. intros [p|] K; [apply gives_ok; intros x X; injection X as <-; exact (K _ eq_refl)|].
  pose proof (try_article_gives ctx f None l) as G. destruct (try_article ctx f None l) as [[f' p]| |]; auto; [|apply gives_ok; discriminate].
  apply gives_ok. intros x X. injection X as <-. exact (G _ eq_refl).
Qed.
Lemma act_finish_gives n ctx st : state_fits st -> gives (Forall (child_fits D (paragraph_fits D (S n)))) (act_finish ctx st).
Proof.
  intros H. destruct st as [|p|p|p]; cbn [act_finish].
  - now apply gives_ok.
  - eapply gives_bind; [apply (article_gives n), H|]. intros a A. apply gives_ok. constructor; [exact A|constructor].
  - apply gives_ok. constructor; [|constructor]. split; [exact H|discriminate].
  - apply gives_ok. constructor; [|constructor]. split; [exact H|discriminate].
Qed.
Lemma feed_fits st l : state_fits st -> state_fits match st with AsPreamble => AsPreamble | AsArticle p => AsArticle (ap_feed p l) | AsStruct p => AsStruct (sp_feed p l) | AsSubtitle p => AsSubtitle (tp_feed p l) end.
Proof. now destruct st. Qed.
Lemma act_loop_gives n rf up ctx ls : forall q f e st pre done, state_fits st -> Forall (child_fits D (paragraph_fits D (S n))) done ->
  gives (fun r => state_fits (fst (fst r)) /\ Forall (child_fits D (paragraph_fits D (S n))) (snd r)) (act_loop rf up ctx q f e st pre done ls).
Proof.
  induction ls as [|l ls IH]; intros q f e st pre done A B; cbn [act_loop]; apply gives_any; intros q'; [now apply gives_ok|].
  apply (gives_bind (if_some (fun p => state_fits (fst p)))); [destruct (q_begin q'); [apply gives_ok; discriminate|apply header_line_gives]|].
  intros [[st' f']|] H.
  - eapply gives_bind; [apply (act_finish_gives n), A|]. intros c C. apply IH; [exact (H _ eq_refl)|]. apply Forall_app. auto.
  - pose proof (feed_fits st l A) as F. destruct st; apply IH; auto.
Qed.
Lemma complex_gives n rf up ctx ls : gives (fun r => Forall (child_fits D (paragraph_fits D (S n))) (snd r)) (parse_complex_body rf up ctx ls).
Proof.
  unfold parse_complex_body. eapply gives_bind; [apply (act_loop_gives n); [exact I|constructor]|]. intros [[st pre] done] [A B]. cbn [fst snd] in A, B.
  apply (gives_bind (Forall (child_fits D (paragraph_fits D (S n))))); [destruct st; auto; now apply act_finish_gives|]. intros c C.
  apply gives_any. intros _. apply gives_any. intros _. apply gives_ok. apply Forall_app. auto.
Qed.
Lemma structure_fits n rf up raw a : parse_act_structure rf up raw = Ok a -> act_id_fits (ar_id raw) -> D (ar_date raw) -> act_fits D (S n) a.
Proof.
  intros H A B. revert a H. change (gives (act_fits D (S n)) (parse_act_structure rf up raw)). unfold parse_act_structure. eapply gives_bind; [apply (complex_gives n)|].
  intros [pre cs] C. apply gives_ok. split; [exact A|]. split; [exact B|]. split; [apply abbrevs_fit_nil|exact C].
Qed.

(** ** Conversion of amendments *)
Lemma ca_gives n ls : forall f p done, article_id_fits (ap_id p) -> Forall (child_fits D (paragraph_fits D (S n))) done -> gives (Forall (child_fits D (paragraph_fits D (S n)))) (ca_loop f p done ls).
Proof.
  induction ls as [|l ls IH]; intros f p done A B; cbn [ca_loop].
  - eapply gives_bind; [apply (article_gives n), A|]. intros a X. apply gives_ok. apply Forall_app. split; [exact B|]. constructor; [exact X|constructor].
  - pose proof (try_article_gives BlockAm f None l) as G. destruct (try_article BlockAm f None l) as [[f' p']| |]; auto.
    eapply gives_bind; [apply (article_gives n), A|]. intros a X. apply IH; [exact (G _ eq_refl)|]. apply Forall_app. split; [exact B|]. constructor; [exact X|constructor].
Qed.
Lemma fed_id ls : forall p, sp_id (fold_left sp_feed ls p) = sp_id p.
Proof. induction ls as [|l ls IH]; intros p; cbn [fold_left]; [reflexivity|]. now rewrite IH. Qed.
Lemma fed_tid ls : forall p, tp_id (fold_left tp_feed ls p) = tp_id p.
Proof. induction ls as [|l ls IH]; intros p; cbn [fold_left]; [reflexivity|]. now rewrite IH. Qed.
Lemma title_only_gives n rf i ty ls : numeric_fits i -> gives (child_fits D (paragraph_fits D (S n))) (convert_title_only_se rf i ty ls).
Proof.
  intros A. destruct ls as [|l ls]; cbn [convert_title_only_se]; auto. eapply gives_bind; [apply try_se_gives|]. intros h H. apply gives_ok. unfold child_fits, struct_elem_fits, sp_finish. cbn [se_id se_change].
  rewrite fed_id. split; [destruct h as [p|]; [exact (H _ eq_refl)|exact A]|discriminate].
Qed.
Lemma subtitle_only_gives n up ls : gives (child_fits D (paragraph_fits D (S n))) (convert_subtitle_only_se up ls).
Proof.
  destruct ls as [|l ls]; cbn [convert_subtitle_only_se]; auto. eapply gives_bind; [apply try_subtitle_gives|]. intros [p|] H; [|apply gives_err]. apply gives_ok.
  unfold child_fits, subtitle_fits, tp_finish. cbn [st_id st_change]. rewrite fed_tid. split; [exact (H _ eq_refl)|discriminate].
Qed.
Lemma structural_gives n rf up pos ls : struct_ref_fits pos -> gives (Forall (child_fits D (paragraph_fits D (S n)))) (convert_structural rf up pos ls).
Proof.
  intros (_ & _ & _ & E). assert (G : gives (Forall (child_fits D (paragraph_fits D (S n)))) (if sr_title_only pos then convert_title_only rf up pos ls else let* r := parse_complex_body rf up BlockAm ls in Ok (snd r))).
  { destruct (sr_title_only pos).
    - unfold convert_title_only. apply (gives_bind (child_fits D (paragraph_fits D (S n)))); [|intros c C; apply gives_ok; constructor; [exact C|constructor]].
      destruct (sr_elem pos); auto; try (apply title_only_gives; exact E); apply subtitle_only_gives.
    - eapply gives_bind; [apply (complex_gives n)|]. intros r R. now apply gives_ok. }
  unfold convert_structural. destruct (sr_elem pos); auto. destruct ls as [|l ls]; cbn [convert_articles]; auto. eapply gives_bind; [apply try_article_gives|]. intros [f p] P. apply ca_gives; [exact P|constructor].
Qed.
Lemma simple_gives n pos ls : gives (ba_children_fit D (paragraph_fits D (S n))) (convert_simple pos ls).
Proof.
  unfold convert_simple. apply gives_any. intros _. destruct (get_last_part pos) as [|x|x|p|[p|p]|[p|p]]; auto.
  - apply gives_any. intros a. apply gives_any. intros ls'. eapply gives_bind; [apply (paragraphs_give n)|]. intros r R. now apply gives_ok.
  - eapply gives_bind; [apply nums_give|]. intros r R. now apply gives_ok.
  - eapply gives_bind; [apply alphas_give|]. intros r R. now apply gives_ok.
  - eapply gives_bind; [apply num_subs_give|]. intros r R. now apply gives_ok.
  - eapply gives_bind; [apply alpha_subs_give|]. intros r R. now apply gives_ok.
Qed.
Lemma set_body_fits n p b : paragraph_fits D n p -> body_fits (par_children_fit D n) b -> paragraph_fits D n (ModelStruct.set_body p b).
Proof. intros (A & _ & B & C) H. refine (conj A (conj H (conj B C))). Qed.
Lemma convert_paragraph_fits n rf up p : paragraph_fits D (S (S n)) p -> paragraph_fits D (S (S n)) (fst (convert_paragraph rf up p)).
Proof.
  intros F. pose proof F as (A & B & (_ & _ & C) & E). unfold convert_paragraph. destruct (s_body p) as [t|intro c wrap] eqn:SB; [exact F|]. destruct c as [l|l|l|b|b]; try exact F.
  destruct l as [|qb [|qb' l]]; try exact F. assert (T : paragraph_fits D (S (S n)) (ModelStruct.set_body p (BChildren intro (PcQuoted [mkQb None (qb_lines qb) (qb_wrap qb)]) wrap))) by (apply set_body_fits; [exact F|exact I]).
  destruct (si_phrase (s_si p)) as [[ba|e|l|l|sba]|] eqn:PH; try exact F.
  - pose proof (simple_gives n (ba_position ba) (qb_lines qb)) as G. destruct (convert_simple _ _) as [c| |]; try exact T. apply set_body_fits; [exact F|]. exact (G _ eq_refl).
  - specialize (C _ PH). pose proof (structural_gives n rf up (sba_position sba) (qb_lines qb) C) as G. destruct (convert_structural _ _ _ _) as [c| |]; try exact T. apply set_body_fits; [exact F|]. exact (G _ eq_refl).
Qed.
Lemma try_each_fits {A} (P : A -> Prop) f l : (forall a, P a -> P (fst (f a))) -> Forall P l -> Forall P (fst (@try_each A f l)).
Proof.
  intros H. induction 1 as [|a l X F IH]; cbn [try_each]; [constructor|]. pose proof (H a X) as K. destruct (f a) as [a' r]. cbn [fst] in K. destruct r as [u| |]; [|constructor; auto..].
  destruct (try_each f l) as [l' r']. constructor; auto.
Qed.
Lemma convert_child_fits n rf up c : child_fits D (paragraph_fits D (S (S n))) c -> child_fits D (paragraph_fits D (S (S n))) (fst (convert_child rf up c)).
Proof.
  intros F. destruct c as [e|s|a]; cbn [convert_child]; try exact F. destruct F as (A & B & C). unfold convert_article.
  pose proof (try_each_fits _ (convert_paragraph rf up) (ar_children a) (convert_paragraph_fits n rf up) B) as T. destruct (try_each _ _) as [l r]. refine (conj A (conj T C)).
Qed.
Lemma convert_fits n rf up a : act_fits D (S (S n)) a -> act_fits D (S (S n)) (fst (convert_act rf up a)).
Proof.
  intros (A & B & C & E). unfold convert_act. pose proof (try_each_fits _ (convert_child rf up) (ac_children a) (convert_child_fits n rf up) E) as T. destruct (try_each _ _) as [l r].
  refine (conj A (conj B (conj C T))).
Qed.
End Keep.
