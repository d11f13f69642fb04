(** What the program makes of texts can be stored: semantic information. *)
From Verif Require Import SpecKeep ProofIdent2 ProofIdent3 ProofIdent4 ProofRef ProofRef4 ProofSem ProofMk ProofSave ProofKeep.
From Coq Require Import Lia.

Section Keep2.
Variable D : date -> Prop.
Variable rf : str -> option Z.
Hypothesis RF : roman_i32 rf.
Hypothesis DF : has_dates D.

Lemma gives_opt {A B} (P : B -> Prop) (f : A -> outcome B) o : (forall x, gives P (f x)) -> gives (if_some P) (opt_ok f o).
Proof. intros H. destruct o as [x|]; cbn; [|apply gives_ok; discriminate]. eapply gives_bind; [apply H|]. intros y Y. apply gives_ok. intros z Z. injection Z as <-. exact Y. Qed.
Lemma gives_map_ok {A B} (P : B -> Prop) (f : A -> outcome B) l : (forall x, gives P (f x)) -> gives (Forall P) (map_ok f l).
Proof. intros H. induction l as [|x l IH]; cbn; [now apply gives_ok|]. eapply gives_bind; [apply H|]. intros y Y. eapply gives_bind; [apply IH|]. intros ys Z. apply gives_ok. now constructor. Qed.
Lemma gives_num s : gives numeric_fits (numeric_parse s). Proof. intros x X. exact (numeric_parse_ok _ _ X). Qed.
Lemma gives_hic s : gives hic_fits (hic_parse s). Proof. intros x X. exact (hic_parse_ok _ _ X). Qed.
Lemma gives_prefixed s : gives prefixed_fits (prefixed_parse s). Proof. intros x X. exact (prefixed_parse_fits _ _ X). Qed.

(** ** References *)
Lemma act_grammar_gives a : gives act_id_fits (act_of_grammar rf a).
Proof.
  unfold act_of_grammar. destruct (parse_i16 (gai_year a)) as [y| |] eqn:Y; cbn [obind]; auto. destruct (rf (gai_number a)) as [n|] eqn:N; cbn; auto. apply gives_ok.
  unfold act_id_fits, act_ok. cbn [act_year act_number]. apply parse_signed_range in Y. apply RF in N. lia.
Qed.
Definition cache_fits (c : cache) : Prop := abbrevs_fit (ca_map c).
Lemma get_fits {V} (P : V -> Prop) k m v : Forall (fun p : str * V => P (snd p)) m -> map_get k m = Some v -> P v.
Proof. induction 1 as [|[k' v'] m X F IH]; cbn; [discriminate|]. destruct (str_eqb k k'); [intros E; injection E as <-; exact X|exact IH]. Qed.
Lemma convert_act_gives c a : cache_fits c -> gives act_id_fits (convert_act_reference rf c a).
Proof.
  intros [_ F]. destruct a as [n|s p]; cbn [convert_act_reference]; [apply act_grammar_gives|]. unfold cache_resolve. destruct (map_get s (ca_map c)) as [v|] eqn:E; cbn; auto. apply gives_ok. exact (get_fits _ _ _ _ F E).
Qed.
Lemma new_gives r : gives (Forall (fun p => act_id_fits (snd p))) (get_new_abbreviations rf r).
Proof.
  unfold get_new_abbreviations. induction (root_act_refs r) as [|a l IH]; cbn [flat_map]; [now apply gives_ok|]. destruct a as [[i [s|]]|s p]; cbn [new_abbreviation app]; try exact IH.
  cbn [transpose]. apply (gives_bind (fun p => act_id_fits (snd p))); [apply (gives_map act_id_fits); [apply act_grammar_gives|auto]|]. intros p P. eapply gives_bind; [apply IH|]. intros ps PS. apply gives_ok. now constructor.
Qed.
Lemma add_fits l : forall c, Forall (fun p => act_id_fits (snd p)) l -> cache_fits c -> cache_fits (cache_add_multiple l c).
Proof.
  intros c F [A B]. split; [now apply add_multiple_is_map|]. unfold cache_add_multiple. clear A. revert c B. induction F as [|[k a] l X F IH]; intros c B; cbn [fold_left fst snd]; [exact B|]. apply IH.
  unfold cache_add. assert (M : Forall (fun p => act_id_fits (snd p)) (map_set k a (ca_map c))) by (apply map_set_forall; auto). destruct (map_get k (ca_map c)) as [v|]; [destruct (act_eqb v a)|]; auto.
Qed.
Definition pf (r : reference) : Prop := parts_ok r.
Lemma pf_act v b : act_id_fits v -> pf (set_act v b).
Proof. intros H. apply parts_fit. cbn. refine (conj _ (conj _ (conj _ (conj _ _)))); try discriminate. intros x X. injection X as <-. exact H. Qed.
Lemma pf_article v b : range_of article_id_fits v -> pf b -> pf (set_article v b).
Proof. intros H K. apply parts_fit in K as (A & _). apply parts_fit. cbn. refine (conj A (conj _ (conj _ (conj _ _)))); try discriminate. intros x X. injection X as <-. exact H. Qed.
Lemma pf_paragraph v b : range_of numeric_fits v -> pf b -> pf (set_paragraph v b).
Proof. intros H K. apply parts_fit in K as (A & B & _). apply parts_fit. cbn. refine (conj A (conj B (conj _ (conj _ _)))); try discriminate. intros x X. injection X as <-. exact H. Qed.
Lemma pf_point v b : point_fits v -> pf b -> pf (set_point v b).
Proof. intros H K. apply parts_fit in K as (A & B & C & _). apply parts_fit. cbn. refine (conj A (conj B (conj C (conj _ _)))); try discriminate. intros x X. injection X as <-. exact H. Qed.
Lemma pf_subpoint v b : subpoint_fits v -> pf b -> pf (set_subpoint v b).
Proof. intros H K. apply parts_fit in K as (A & B & C & E & _). apply parts_fit. cbn. refine (conj A (conj B (conj C (conj E _)))). intros x X. injection X as <-. exact H. Qed.
Lemma pf_empty : pf empty_ref. Proof. apply parts_fit. cbn. refine (conj _ (conj _ (conj _ (conj _ _)))); discriminate. Qed.
Lemma build_gives b : pf b -> gives ref_fits (build b).
Proof. intros H r R. apply try_ref_ok in R as [-> W]. now split. Qed.
Definition ob_fits (b : obuilder) : Prop := pf (ob_ref b) /\ Forall (fun o => ref_fits (o_ref o)) (ob_result b).
Lemma ob_new_fits : ob_fits ob_new. Proof. split; [apply pf_empty|constructor]. Qed.
Lemma record_gives b : ob_fits b -> gives ob_fits (record_one b).
Proof.
  intros [A B]. unfold record_one. apply gives_any. intros s. eapply gives_bind; [apply build_gives, A|]. intros r R. apply gives_ok. split; [exact A|]. cbn. apply Forall_app. auto.
Qed.
Lemma ob_set_fits p f b : ob_fits b -> pf (f (ob_ref b)) -> ob_fits (ob_set p f b). Proof. intros [_ B] H. now split. Qed.
Lemma ob_end_fits e b : ob_fits b -> ob_fits (ob_set_end e b). Proof. intros H. exact H. Qed.
Definition feeds {A} (f : A -> obuilder -> outcome obuilder) : Prop := forall x b, ob_fits b -> gives ob_fits (f x b).
Lemma feeds_opt {A} (f : A -> obuilder -> outcome obuilder) : feeds f -> feeds (feed_opt f). Proof. intros H [x|] b B; cbn; auto. Qed.
Lemma feeds_all {A} (f : A -> obuilder -> outcome obuilder) : feeds f -> feeds (feed_all f).
Proof. intros H l. induction l as [|x l IH]; intros b B; cbn; auto. eapply gives_bind; [apply H, B|]. auto. Qed.
Lemma feeds_parts {A} (f : A -> obuilder -> outcome obuilder) : feeds f -> feeds (feed_parts f).
Proof.
  intros H l b B. destruct l as [|x l]; cbn; auto. eapply gives_bind; [apply H, B|]. clear b B. induction l as [|y l IH]; intros b B; cbn; auto.
  eapply gives_bind; [apply record_gives, B|]. intros b1 B1. eapply gives_bind; [apply H, B1|]. exact IH.
Qed.
Lemma part_gives {T} (P : T -> Prop) parse p : (forall s, gives P (parse s)) -> gives (range_of P) (part_range parse p).
Proof.
  intros H. unfold part_range. destruct (gp_id p) as [i|]; [eapply gives_bind; [apply H|]; intros x X; apply gives_ok; split; exact X|].
  destruct (gp_start p), (gp_end p); auto. eapply gives_bind; [apply H|]. intros x X. eapply gives_bind; [apply H|]. intros y Y. apply gives_ok. now split.
Qed.
Lemma feeds_part {T} (P : T -> Prop) parse set : (forall s, gives P (parse s)) -> (forall r b, range_of P r -> pf b -> pf (set r b)) -> feeds (feed_part parse set).
Proof. intros H K p b B. unfold feed_part. eapply gives_bind; [apply part_gives, H|]. intros r R. apply gives_ok. apply ob_set_fits; [exact B|]. apply K; [exact R|apply B]. Qed.
Lemma feeds_paragraph : feeds feed_paragraph. Proof. apply (feeds_part numeric_fits); [apply gives_num|apply pf_paragraph]. Qed.
Lemma feeds_num_point : feeds feed_num_point. Proof. apply (feeds_part numeric_fits); [apply gives_num|]. intros. now apply pf_point. Qed.
Lemma feeds_alpha_point : feeds feed_alpha_point. Proof. apply (feeds_part hic_fits); [apply gives_hic|]. intros. now apply pf_point. Qed.
Lemma feeds_num_sub : feeds feed_num_sub. Proof. apply (feeds_part numeric_fits); [apply gives_num|]. intros. now apply pf_subpoint. Qed.
Lemma feeds_alpha_sub : feeds feed_alpha_sub. Proof. apply (feeds_part prefixed_fits); [apply gives_prefixed|]. intros. now apply pf_subpoint. Qed.
Lemma made_article b x : if_some (fun n => n <= u8_max)%N b -> numeric_fits x -> article_id_fits (mkArt b x).
Proof. intros H K. unfold article_id_fits, article_ok. cbn [a_book a_ident]. rewrite K, andb_true_r. destruct b as [n|]; [|reflexivity]. apply N.leb_le. exact (H _ eq_refl). Qed.
Lemma article_part_gives p : gives (range_of article_id_fits) (article_part p).
Proof.
  unfold article_part. apply (gives_bind (if_some (fun n => n <= u8_max)%N)); [apply gives_opt; intros s n N; exact (parse_unsigned_le _ _ _ N)|]. intros b B.
  destruct (ga_id p) as [i|]; [eapply gives_bind; [apply gives_num|]; intros x X; apply gives_ok; split; now apply made_article|].
  destruct (ga_start p), (ga_end p); auto. eapply gives_bind; [apply gives_num|]. intros x X. eapply gives_bind; [apply gives_num|]. intros y Y. apply gives_ok. split; now apply made_article.
Qed.
Lemma feeds_article : feeds feed_article.
Proof. intros p b B. unfold feed_article. eapply gives_bind; [apply article_part_gives|]. intros r R. apply gives_ok. apply ob_set_fits; [exact B|]. apply pf_article; [exact R|apply B]. Qed.
Lemma feeds_single : feeds feed_single.
Proof. intros p b B. unfold feed_single. eapply gives_bind; [apply article_part_gives|]. intros r R. apply record_gives, ob_set_fits; [exact B|]. apply pf_article; [exact R|apply B]. Qed.
Lemma feeds_relative : feeds feed_relative. Proof. intros [s|s]; apply feeds_single. Qed.
Ltac step := eapply gives_bind; [first [apply feeds_opt|idtac]; first [apply feeds_parts|idtac]; first [apply feeds_parts|idtac]; first [apply feeds_article|apply feeds_paragraph|apply feeds_num_point|apply feeds_alpha_point|apply feeds_num_sub|apply feeds_alpha_sub]; assumption|]; intros ? ?.
Lemma feeds_ref : feeds feed_ref.
Proof.
  intros r b B. unfold feed_ref. do 6 (eapply gives_bind; [apply feeds_opt; [apply feeds_parts; first [apply feeds_article|apply feeds_paragraph|apply feeds_num_point|apply feeds_alpha_point|apply feeds_num_sub|apply feeds_alpha_sub]|eassumption]|]; intros ? ?).
  now apply record_gives, ob_end_fits.
Qed.
Lemma feeds_ins : feeds feed_ins.
Proof.
  intros r b B. unfold feed_ins. eapply gives_bind; [apply feeds_parts; [apply feeds_parts, feeds_article|exact B]|]. intros ? ?.
  do 5 (eapply gives_bind; [apply feeds_opt; [apply feeds_parts; first [apply feeds_article|apply feeds_paragraph|apply feeds_num_point|apply feeds_alpha_point|apply feeds_num_sub|apply feeds_alpha_sub]|eassumption]|]; intros ? ?).
  now apply record_gives, ob_end_fits.
Qed.
Lemma feeds_act c : cache_fits c -> feeds (feed_act rf c).
Proof. intros C a b B. unfold feed_act. eapply gives_bind; [apply convert_act_gives, C|]. intros i I. apply record_gives, ob_set_fits; [exact B|]. now apply pf_act. Qed.
Lemma feeds_ta : feeds feed_ta_ref.
Proof. intros t b B. destruct t as [s|p [s|r]|l|r t|]; cbn [feed_ta_ref]; auto; [now apply feeds_single|now apply feeds_relative|now apply feeds_ref]. Qed.
Lemma feeds_ed : feeds feed_ed_ref.
Proof. intros t b B. destruct t; cbn [feed_ed_ref]; auto. now apply feeds_ref. Qed.
Definition outs_fit (l : list out_ref) : Prop := Forall (fun o => ref_fits (o_ref o)) l.
Lemma result_gives (x : outcome obuilder) : gives ob_fits x -> gives outs_fit (let* b := x in Ok (ob_result b)).
Proof. intros H. eapply gives_bind; [apply H|]. intros b B. apply gives_ok. apply B. Qed.
Lemma block_references_give c x : cache_fits c -> gives outs_fit (block_references rf c x).
Proof.
  intros C. unfold block_references. eapply gives_bind; [apply (feeds_act c C), ob_new_fits|]. intros b B. eapply gives_bind; [apply (feeds_opt _ feeds_ref), B|]. intros b1 B1. apply result_gives. now apply (feeds_opt _ feeds_ins).
Qed.
Lemma outgoing_give c r : cache_fits c -> gives outs_fit (get_outgoing_references rf c r).
Proof.
  intros C. destruct r as [x|x|x|x|x|x|l]; cbn [get_outgoing_references].
  - now apply block_references_give.
  - eapply gives_bind; [apply (feeds_act c C), ob_new_fits|]. intros b B. eapply gives_bind; [apply (feeds_opt _ feeds_relative), B|]. intros b1 B1. apply result_gives. now apply (feeds_opt _ feeds_single).
  - apply result_gives. apply (feeds_act c C), ob_new_fits.
  - eapply gives_bind; [apply (feeds_act c C), ob_new_fits|]. intros b B. apply result_gives. now apply (feeds_all _ feeds_ta).
  - apply result_gives. apply (feeds_all _ feeds_ed), ob_new_fits.
  - eapply gives_bind; [apply (feeds_act c C), ob_new_fits|]. intros b B. apply result_gives. now apply (feeds_all _ feeds_ta).
  - apply (gives_map (Forall outs_fit)); [|intros ls; apply Forall_concat]. apply gives_map_ok. intros [x|]; cbn [simple_references]; [|apply gives_ok; constructor].
    assert (G : gives outs_fit (compound_references rf c x)).
    { unfold compound_references. eapply gives_bind; [apply (feeds_opt _ (feeds_act c C)), ob_new_fits|]. intros b B. apply result_gives. now apply (feeds_all _ feeds_ref). }
    destruct (compound_references rf c x); auto. apply gives_ok. constructor.
Qed.

(** ** Structural references *)
Lemma subtitle_part_gives s : gives sr_parent_fits (subtitle_part s).
Proof.
  unfold subtitle_part. destruct (gsp_id s) as [i|]; [eapply gives_bind; [apply gives_num|]; intros x X; now apply gives_ok|].
  destruct (gsp_start s), (gsp_end s); auto. eapply gives_bind; [apply gives_num|]. intros x X. eapply gives_bind; [apply gives_num|]. intros y Y. apply gives_ok. now split.
Qed.
Lemma se_gives ty s : gives numeric_fits (se_parse_identifier rf ty s). Proof. intros x X. exact (se_identifier_fits _ _ _ _ X). Qed.
Lemma struct_kind_gives k : gives sr_parent_fits (struct_kind rf k).
Proof.
  destruct k; cbn [struct_kind]; [| | |apply subtitle_part_gives|now apply gives_ok]; (eapply gives_map; [apply se_gives|]; auto).
Qed.
Lemma element_fits p : sr_parent_fits p -> sr_element_fits (sr_element_of_parent p). Proof. now destruct p. Qed.
Lemma struct_ref_gives a : gives struct_ref_fits (struct_ref_of rf a).
Proof.
  unfold struct_ref_of. eapply gives_bind; [apply gives_opt; intros s; apply se_gives|]. intros b B. eapply gives_bind; [apply struct_kind_gives|]. intros k K. apply gives_ok.
  unfold struct_ref_fits. cbn. refine (conj _ (conj B (conj _ _))); [discriminate|discriminate|now apply element_fits].
Qed.
Lemma struct_parent_gives a : gives sr_parent_fits (struct_parent_of rf a).
Proof. unfold struct_parent_of. apply gives_any. intros _. apply struct_kind_gives. Qed.
Lemma single_article_gives s : gives article_id_fits (single_article s).
Proof. unfold single_article. eapply gives_bind; [apply article_part_gives|]. intros r [R _]. now apply gives_ok. Qed.
Lemma relative_gives r : gives sr_element_fits (relative_element r).
Proof. destruct r; cbn; (eapply gives_map; [apply single_article_gives|]; auto). Qed.
Lemma with_act_fits a s : if_some act_id_fits a -> struct_ref_fits s -> struct_ref_fits (with_act a s).
Proof. intros A (_ & B & C & E). refine (conj A (conj B (conj C E))). Qed.
Lemma with_parent_fits p s : if_some sr_parent_fits p -> struct_ref_fits s -> struct_ref_fits (with_parent p s).
Proof. intros A (B & C & _ & E). refine (conj B (conj C (conj A E))). Qed.
Lemma with_book_fits p s : if_some numeric_fits p -> struct_ref_fits s -> struct_ref_fits (with_book p s).
Proof. intros A (B & _ & C & E). refine (conj B (conj A (conj C E))). Qed.
Lemma some_fits {A} (P : A -> Prop) x : P x -> if_some P (Some x). Proof. intros H y Y. injection Y as <-. exact H. Qed.
Lemma none_fits {A} (P : A -> Prop) : if_some P None. Proof. discriminate. Qed.
Hint Resolve some_fits none_fits : core.
Lemma subtitle_ref_gives a s : if_some act_id_fits a -> gives struct_ref_fits (subtitle_ref a s).
Proof. intros A. unfold subtitle_ref. eapply gives_bind; [apply subtitle_part_gives|]. intros p P. apply gives_ok. unfold struct_ref_fits. cbn. refine (conj A (conj _ (conj _ _))); auto. now apply element_fits. Qed.

(** ** Phrases *)
Lemma first_fits r : ref_fits r -> pf (first_in_range r).
Proof.
  intros [_ H]. apply parts_fit in H as (A & B & C & E & F). apply parts_fit. unfold first_in_range. cbn. refine (conj A (conj _ (conj _ (conj _ _)))).
  - destruct (f_article r) as [x|]; cbn; auto. apply some_fits. destruct (B _ eq_refl). now split.
  - destruct (f_paragraph r) as [x|]; cbn; auto. apply some_fits. destruct (C _ eq_refl). now split.
  - destruct (f_point r) as [[x|x]|]; cbn; auto; apply some_fits; destruct (E _ eq_refl); now split.
  - destruct (f_subpoint r) as [[x|x]|]; cbn; auto; apply some_fits; destruct (F _ eq_refl); now split.
Qed.
Lemma last_fits r : ref_fits r -> pf (last_in_range r).
Proof.
  intros [_ H]. apply parts_fit in H as (A & B & C & E & F). apply parts_fit. unfold last_in_range. cbn. refine (conj A (conj _ (conj _ (conj _ _)))).
  - destruct (f_article r) as [x|]; cbn; auto. apply some_fits. destruct (B _ eq_refl). now split.
  - destruct (f_paragraph r) as [x|]; cbn; auto. apply some_fits. destruct (C _ eq_refl). now split.
  - destruct (f_point r) as [[x|x]|]; cbn; auto; apply some_fits; destruct (E _ eq_refl); now split.
  - destruct (f_subpoint r) as [[x|x]|]; cbn; auto; apply some_fits; destruct (F _ eq_refl); now split.
Qed.
Lemma fold1_fits (P : reference -> Prop) f l x : (forall a b, P a -> P b -> P (f a b)) -> Forall P l -> fold1 f l = Some x -> P x.
Proof.
  intros H F. destruct F as [|y l Y F]; cbn; [discriminate|]. intros E. injection E as <-. revert y Y. induction F as [|z l Z F IH]; intros y Y; cbn; auto.
Qed.
Lemma when_fits {A} (P : A -> Prop) f o b : if_some P o -> (forall x, P x -> pf b -> pf (f x b)) -> pf b -> pf (when_some f o b).
Proof. intros H K B. destruct o as [x|]; cbn; auto. Qed.
Lemma make_range_gives s e : pf s -> pf e -> gives ref_fits (make_range s e).
Proof.
  intros S E. apply parts_fit in S as (S1 & S2 & S3 & S4 & S5). apply parts_fit in E as (E1 & E2 & E3 & E4 & E5). unfold make_range. apply gives_any. intros _.
  assert (B1 : pf (when_some set_act (f_act s) empty_ref)) by (eapply when_fits; [exact S1|intros; now apply pf_act|apply pf_empty]).
  assert (B2 : pf (when_some set_article (f_article s) (when_some set_act (f_act s) empty_ref))) by (eapply when_fits; [exact S2|intros; now apply pf_article|exact B1]).
  assert (B3 : pf (when_some set_paragraph (f_paragraph s) (when_some set_article (f_article s) (when_some set_act (f_act s) empty_ref)))) by (eapply when_fits; [exact S3|intros; now apply pf_paragraph|exact B2]).
  set (b1 := when_some set_act _ _) in *. set (b2 := when_some set_article _ _) in *. set (b3 := when_some set_paragraph _ _) in *. cbv zeta.
  assert (B4 : pf (when_some set_point (f_point s) b3)) by (eapply when_fits; [exact S4|intros; now apply pf_point|exact B3]).
  set (b4 := when_some set_point _ _) in *.
  assert (B5 : pf (when_some set_subpoint (f_subpoint s) b4)) by (eapply when_fits; [exact S5|intros; now apply pf_subpoint|exact B4]).
  clearbody b1 b2 b3 b4.
  destruct (negb _).
  { apply gives_any. intros _. destruct (f_article s) as [x|], (f_article e) as [y|]; auto. apply build_gives, pf_article; [|exact B1]. split; [apply (S2 _ eq_refl)|apply (E2 _ eq_refl)]. }
  destruct (negb _).
  { apply gives_any. intros _. destruct (f_paragraph s) as [x|], (f_paragraph e) as [y|]; auto. apply build_gives, pf_paragraph; [|exact B2]. split; [apply (S3 _ eq_refl)|apply (E3 _ eq_refl)]. }
  destruct (negb _).
  { apply gives_any. intros _. destruct (f_point s) as [[x|x]|], (f_point e) as [[y|y]|]; auto; (apply build_gives, pf_point; [|exact B3]; split; [apply (S4 _ eq_refl)|apply (E4 _ eq_refl)]). }
  destruct (negb _); [|now apply build_gives].
  destruct (f_subpoint s) as [[x|x]|], (f_subpoint e) as [[y|y]|]; auto; (apply build_gives, pf_subpoint; [|exact B4]; split; [apply (S5 _ eq_refl)|apply (E5 _ eq_refl)]).
Qed.
Lemma last_part_article r a : get_last_part r = PartArticle a -> f_article r = Some a.
Proof. unfold get_last_part. destruct (f_subpoint r), (f_point r), (f_paragraph r), (f_article r), (f_act r); intros H; try discriminate H; now injection H as <-. Qed.
Lemma refs_fit l : outs_fit l -> Forall ref_fits (filter (fun r => negb (is_act_only r)) (map o_ref l)).
Proof. intros H. apply Forall_forall. intros x X. apply filter_In in X as [X _]. apply in_map_iff in X as (o & <- & X). exact (proj1 (Forall_forall _ _) H _ X). Qed.
Lemma block_amendment_gives c x : cache_fits c -> gives (phrase_fits D) (convert_block_amendment rf c x).
Proof.
  intros C. unfold convert_block_amendment. eapply gives_bind; [apply block_references_give, C|]. intros refs R. apply refs_fit in R. set (all := filter _ _) in *.
  destruct (fold1 ref_min (map first_in_range all)) as [f|] eqn:F; cbn [ok_or obind]; auto. destruct (fold1 ref_max (map last_in_range all)) as [l|] eqn:L; cbn [ok_or obind]; auto.
  apply (fold1_fits pf) in F; [|intros a b A B; unfold ref_min; destruct (ref_cmp a b); auto|apply Forall_map; revert R; apply Forall_impl; apply first_fits].
  apply (fold1_fits pf) in L; [|intros a b A B; unfold ref_max; destruct (ref_cmp a b); auto|apply Forall_map; revert R; apply Forall_impl; apply last_fits].
  eapply gives_bind; [apply make_range_gives; [exact F|exact L]|]. intros p P. destruct (get_last_part p) as [|y|a|y|y|y] eqn:G; try (apply gives_ok; exact P).
  eapply gives_bind; [apply gives_opt; intros; apply struct_parent_gives|]. intros q Q. apply gives_ok. destruct P as [_ P]. apply parts_fit in P as (P1 & P2 & _).
  apply last_part_article in G. cbn. refine (conj P1 (conj _ (conj Q _))); [apply none_fits|exact (P2 _ G)].
Qed.
Lemma structural_amendment_gives c x : cache_fits c -> gives (fun p => struct_ref_fits (sba_position p)) (convert_structural_amendment rf c x).
Proof.
  intros C. unfold convert_structural_amendment. eapply gives_bind; [apply convert_act_gives, C|]. intros a A. apply (gives_bind struct_ref_fits).
  - destruct (gbt_parent x) as [p|].
    + eapply gives_bind; [apply struct_parent_gives|]. intros q Q. eapply gives_bind; [apply struct_ref_gives|]. intros s S. apply gives_ok. apply with_parent_fits; auto. apply with_act_fits; auto.
    + eapply gives_bind; [apply struct_ref_gives|]. intros s S. apply gives_ok. apply with_act_fits; auto.
  - intros s S. apply (gives_bind struct_ref_fits); [|intros t T; now apply gives_ok]. destruct (gbt_book x) as [b|]; [|now apply gives_ok].
    eapply gives_bind; [apply se_gives|]. intros n N. apply gives_ok. apply with_book_fits; auto.
Qed.
Lemma subtitle_amendment_gives c x : cache_fits c -> gives (fun p => struct_ref_fits (sba_position p)) (convert_subtitle_amendment rf c x).
Proof.
  intros C. unfold convert_subtitle_amendment. apply (gives_bind sr_element_fits).
  - destruct (gws_article (gbs_ref x)) as [a|]; [eapply gives_map; [apply single_article_gives|]; auto|]. destruct (gbs_relative x) as [r|]; [apply relative_gives|].
    destruct (gws_title (gbs_ref x)) as [t|]; [now apply gives_ok|]. destruct (gws_id (gbs_ref x)) as [i|]; [eapply gives_map; [apply gives_num|]; auto|]. destruct (gbs_insertion x); auto. now apply gives_ok.
  - intros e E. eapply gives_bind; [apply gives_opt; intros; apply struct_parent_gives|]. intros p P. eapply gives_bind; [apply convert_act_gives, C|]. intros a A. apply gives_ok. cbn.
    refine (conj _ (conj _ (conj P E))); [now apply some_fits|apply none_fits].
Qed.
Lemma ta_struct_gives p ch : gives struct_ref_fits (ta_struct_ref rf p ch).
Proof.
  unfold ta_struct_ref. eapply gives_bind; [apply gives_opt; intros; apply struct_parent_gives|]. intros q Q. destruct ch as [s|r].
  - eapply gives_bind; [apply struct_ref_gives|]. intros s' S. apply gives_ok. now apply with_parent_fits.
  - eapply gives_bind; [apply relative_gives|]. intros e E. apply gives_ok. refine (conj _ (conj _ (conj Q E))); apply none_fits.
Qed.
Lemma taken_fit f l : (forall r, ref_fits r -> ta_ref_fits (f r)) -> outs_fit l -> Forall ta_ref_fits (taken_refs f l).
Proof. intros H L. unfold taken_refs. apply Forall_map. apply refs_fit in L. revert L. apply Forall_impl. exact H. Qed.
Lemma ta_ref_gives a t b : act_id_fits a -> ob_fits b -> gives (fun r => Forall ta_ref_fits (fst r) /\ ob_fits (snd r)) (convert_ta_ref rf a t b).
Proof.
  intros A B. assert (A' : if_some act_id_fits (Some a)) by auto. destruct t as [s|p ch|l|r tok|]; cbn [convert_ta_ref].
  - eapply gives_bind; [apply feeds_single, B|]. intros b1 [B1 B2]. apply gives_ok. cbn. split; [now apply taken_fit|]. split; [exact B1|constructor].
  - eapply gives_bind; [apply ta_struct_gives|]. intros s S. apply gives_ok. split; [|exact B]. constructor; [|constructor]. now apply with_act_fits.
  - eapply gives_bind; [apply gives_map_ok; intros; now apply subtitle_ref_gives|]. intros rs R. apply gives_ok. split; [|exact B]. cbn. apply Forall_map. exact R.
  - eapply gives_bind; [apply feeds_ref, B|]. intros b1 [B1 B2]. apply gives_ok. cbn. split; [now apply taken_fit|]. split; [exact B1|constructor].
  - apply gives_ok. split; [constructor|exact B].
Qed.
Lemma ta_references_give c act l : cache_fits c -> gives (Forall ta_ref_fits) (convert_ta_references rf c act l).
Proof.
  intros C. unfold convert_ta_references. eapply gives_bind; [apply convert_act_gives, C|]. intros a A. eapply gives_bind; [apply (feeds_act c C), ob_new_fits|].
  induction l as [|t l IH]; intros b B; cbn [convert_ta_loop]; [now apply gives_ok|]. eapply gives_bind; [apply ta_ref_gives; [exact A|exact B]|]. intros r [R1 R2]. eapply gives_bind; [apply IH, R2|].
  intros rest R. apply gives_ok. apply Forall_app. auto.
Qed.
Lemma amendments_fit {T} (g : ta_ref -> T -> text_amendment) rs l : (forall r t, ta_reference (g r t) = r) -> Forall ta_ref_fits rs -> Forall ta_fits (flat_map (fun r => map (g r) l) rs).
Proof.
  intros H F. induction F as [|r rs R F IH]; cbn [flat_map]; [constructor|]. apply Forall_app. split; [|exact IH]. apply Forall_map. apply Forall_forall. intros t _. unfold ta_fits. rewrite H. exact R.
Qed.
Lemma text_amendment_gives c x : cache_fits c -> gives (Forall ta_fits) (convert_text_amendment rf c x).
Proof.
  intros C. unfold convert_text_amendment. apply gives_any. intros _. eapply gives_bind; [apply ta_references_give, C|]. intros rs R. apply gives_ok. now apply (amendments_fit (fun r p => mkTa r (fst p) (snd p))).
Qed.
Lemma Forall_map_ok {A B} (P : A -> Prop) (Q : B -> Prop) (f : A -> outcome B) l : (forall x, P x -> gives Q (f x)) -> Forall P l -> gives (Forall Q) (map_ok f l).
Proof. intros H. induction 1 as [|x l X F IH]; cbn; [now apply gives_ok|]. eapply gives_bind; [apply H, X|]. intros y Y. eapply gives_bind; [apply IH|]. intros ys Z. apply gives_ok. now constructor. Qed.
Lemma act_ref_fits a : act_id_fits a -> ref_fits (ref_of_act a).
Proof.
  intros A. split; [|apply (pf_act a empty_ref A)]. pose proof (try_ref_ok (ref_of_act a) (ref_of_act a)) as [H _]. apply H. reflexivity.
Qed.
Lemma repeal_gives c x : cache_fits c -> gives (phrase_fits D) (convert_repeal rf c x).
Proof.
  intros C. unfold convert_repeal. destruct (is_empty (gre_texts x)).
  - apply (gives_map (Forall repeal_fits)); [|auto]. unfold convert_element_repeal. eapply gives_bind; [apply ta_references_give, C|]. intros rs R.
    eapply gives_bind; [apply (Forall_map_ok ta_ref_fits repeal_fits); [|exact R]|].
    { intros [r [| |]|r|r] H; cbn; auto; now apply gives_ok. }
    intros l L. destruct (is_empty (gre_refs x)); [|now apply gives_ok]. eapply gives_bind; [apply convert_act_gives, C|]. intros a A. apply gives_ok. apply Forall_app. split; [exact L|]. constructor; [|constructor]. now apply act_ref_fits.
  - apply gives_any. intros _. eapply gives_bind; [apply ta_references_give, C|]. intros rs R. apply gives_ok. now apply (amendments_fit (fun r t => mkTa r t [])).
Qed.
Lemma date_gives d : gives D (convert_date d).
Proof.
  unfold convert_date. apply gives_any. intros y. apply gives_any. intros m. apply gives_any. intros n. destruct (from_ymd y m n) as [x|] eqn:E; cbn; auto. apply gives_ok. exact (DF _ _ _ _ E).
Qed.
Lemma hungarian_small s : gives (fun n => n <= 100)%N (num_from_hungarian s).
Proof. intros n N. apply c41_accepts in N as (w & E & _). apply to_hungarian_range. eauto. Qed.
Lemma ordinal_gives o : gives (fun n => n < 2 ^ 16)%N (convert_ordinal o).
Proof.
  destruct o as [s|s]; cbn [convert_ordinal]; intros n N; [apply hungarian_small in N; cbv beta in N; lia|]. apply parse_unsigned_le in N. unfold u16_max in N. cbv beta in *. lia.
Qed.
Lemma ed_date_gives d : gives (ed_type_fits D) (convert_ed_date d).
Proof.
  destruct d as [[o|]|d|m o]; cbn [convert_ed_date].
  - eapply gives_map; [apply ordinal_gives|]. auto.
  - apply gives_ok. cbn. reflexivity.
  - eapply gives_map; [apply date_gives|]. auto.
  - eapply gives_bind; [apply gives_opt; intros; apply hungarian_small|]. intros m' M. eapply gives_bind; [apply ordinal_gives|]. intros n N. apply gives_ok. split; [|exact N].
    intros x X. specialize (M x X). cbv beta in *. lia.
Qed.
Lemma ed_refs_give l : forall b acc, ob_fits b -> Forall struct_ref_fits acc -> gives (fun r => ob_fits (fst r) /\ Forall struct_ref_fits (snd r)) (convert_ed_refs rf l b acc).
Proof.
  induction l as [|t l IH]; intros b acc B A; cbn [convert_ed_refs]; [now apply gives_ok|]. destruct t as [s|ss|r|].
  - eapply gives_bind; [apply struct_ref_gives|]. intros r R. apply IH; [exact B|]. apply Forall_app. auto.
  - eapply gives_bind; [apply gives_map_ok; intros; apply subtitle_ref_gives; auto|]. intros rs R. apply IH; [exact B|]. apply Forall_app. auto.
  - eapply gives_bind; [apply feeds_ref, B|]. intros b1 B1. now apply IH.
  - now apply IH.
Qed.
Lemma enforcement_gives x : gives (enforcement_fits D) (convert_enforcement rf x).
Proof.
  unfold convert_enforcement. eapply gives_bind; [apply ed_refs_give; [apply ob_new_fits|constructor]|]. intros bs [[_ B] S]. eapply gives_bind; [apply ed_date_gives|]. intros d DD.
  eapply gives_bind; [apply gives_opt; intros; apply date_gives|]. intros ir IR. apply gives_ok. refine (conj _ (conj S (conj DD IR))). cbn. apply Forall_map. exact B.
Qed.
Lemma phrase_gives c r : cache_fits c -> gives (if_some (phrase_fits D)) (extract_special_phrase rf c r).
Proof.
  intros C. destruct r as [x|x|x|x|x|x|l]; cbn [extract_special_phrase].
  - eapply gives_map; [apply block_amendment_gives, C|]. auto.
  - eapply gives_map; [apply subtitle_amendment_gives, C|]. intros a A. apply some_fits. exact A.
  - eapply gives_map; [apply structural_amendment_gives, C|]. intros a A. apply some_fits. exact A.
  - eapply gives_map; [apply text_amendment_gives, C|]. intros a A. apply some_fits. exact A.
  - eapply gives_map; [apply enforcement_gives|]. intros a A. apply some_fits. exact A.
  - eapply gives_map; [apply repeal_gives, C|]. auto.
  - apply gives_ok. apply none_fits.
Qed.
End Keep2.
