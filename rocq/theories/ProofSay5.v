(** Proofs for C71-: what is made of the trees, and the sentences of replacements. *)
From Verif Require Export ProofSay4 ProofRef2.
From Coq Require Import Lia.
Local Open Scope peg_scope.
Local Open Scope N_scope.

(** ** References *)
Lemma range_or_one p : real_range p \/ (start_of p = p /\ end_of p = p).
Proof.
  destruct p as [|a|[x y]|[x y]|[[x y]|[x y]]|[[x y]|[x y]]]; cbn; auto.
  - destruct (article_eqb x y) eqn:E; [apply article_eqb_eq in E as <-; auto|left; intros <-; rewrite (proj2 (article_eqb_eq _ _) eq_refl) in E; discriminate].
  - destruct (numeric_eqb x y) eqn:E; [apply numeric_eqb_eq in E as <-; auto|left; intros <-; rewrite (proj2 (numeric_eqb_eq _ _) eq_refl) in E; discriminate].
  - destruct (numeric_eqb x y) eqn:E; [apply numeric_eqb_eq in E as <-; auto|left; intros <-; rewrite (proj2 (numeric_eqb_eq _ _) eq_refl) in E; discriminate].
  - destruct (hic_eqb x y) eqn:E; [apply hic_eqb_eq in E as <-; auto|left; intros <-; rewrite (proj2 (hic_eqb_eq _ _) eq_refl) in E; discriminate].
  - destruct (numeric_eqb x y) eqn:E; [apply numeric_eqb_eq in E as <-; auto|left; intros <-; rewrite (proj2 (numeric_eqb_eq _ _) eq_refl) in E; discriminate].
  - destruct (prefixed_eqb x y) eqn:E; [apply prefixed_eqb_eq in E as <-; auto|left; intros <-; rewrite (proj2 (prefixed_eqb_eq _ _) eq_refl) in E; discriminate].
Qed.
Lemma finest_exists r : lower_parts r <> [] -> exists l, finest r l /\ l <> LAct.
Proof.
  intros H. destruct r as [fa fb fc fd fe]. unfold finest, present, lower_parts in *. cbn [f_article f_paragraph f_point f_subpoint] in H.
  destruct fe as [e|]; [exists LSubpoint|destruct fd as [d|]; [exists LPoint|destruct fc as [c|]; [exists LParagraph|destruct fb as [b|]; [exists LArticle|exfalso; now apply H]]]];
    (split; [|discriminate]); (split; [cbn; congruence|]); intros [] F; unfold finer in F; cbn in *; (lia || auto).
Qed.
Lemma whole_range r : well_formed r -> lower_parts r <> [] -> make_range (first_in_range r) (last_in_range r) = Ok r.
Proof.
  intros W NE. destruct (finest_exists r NE) as (l0 & (P & F) & NA). apply c15_make_range; [now apply wf_first|now apply wf_last|]. right. exists l0.
  assert (SAME : forall l, l <> l0 -> start_of (part r l) = part r l /\ end_of (part r l) = part r l).
  { intros l N. destruct (range_or_one (part r l)) as [R|R]; [|exact R]. exfalso. destruct (Nat.lt_trichotomy (depth l) (depth l0)) as [L|[L|L]].
    - exact (wf_range _ W l l0 R L P).
    - apply N. destruct l, l0; cbn in L; congruence.
    - apply (F l L). intros E. rewrite E in R. contradiction. }
  split; [split; [now apply first_present|intros l' L X; exact (F l' L (proj1 (first_present r l') X))]|].
  split; [split; [now apply last_present|intros l' L X; exact (F l' L (proj1 (last_present r l') X))]|].
  split; [intros l N; rewrite first_part, last_part; destruct (SAME l N); congruence|]. split; [intros l N; rewrite first_part; destruct (SAME l N); congruence|].
  rewrite first_part, last_part. unfold present in P. destruct l0; [congruence|..]; cbn in *; destruct r as [fa fb fc fd fe]; cbn in *.
  - destruct fb as [[]|]; [reflexivity|congruence].
  - destruct fc as [[]|]; [reflexivity|congruence].
  - destruct fd as [[[]|[]]|]; [reflexivity|reflexivity|congruence].
  - destruct fe as [[[]|[]]|]; [reflexivity|reflexivity|congruence].
Qed.
Lemma under_act r a : well_formed r -> f_act r = Some a -> lower_parts r <> [] -> exists x ps, f_article r = Some x /\ lower_parts r = PartArticle x :: ps.
Proof.
  intros WF E H. destruct (f_article r) as [x|] eqn:EA; [exists x; eexists; split; [reflexivity|]; unfold lower_parts; rewrite EA; reflexivity|].
  exfalso. assert (A : present r LArticle).
  { apply (wf_act _ WF); [unfold present; cbn; rewrite E; discriminate|]. unfold lower_parts in H. rewrite EA in H. cbn [app] in H.
    destruct (f_paragraph r) eqn:E2; [|destruct (f_point r) eqn:E3; [|destruct (f_subpoint r) eqn:E4; [|now destruct H]]].
    - exists LParagraph. split; [unfold finer; cbn; lia|]. unfold present. cbn. rewrite E2. discriminate.
    - exists LPoint. split; [unfold finer; cbn; lia|]. unfold present. cbn. rewrite E3. discriminate.
    - exists LSubpoint. split; [unfold finer; cbn; lia|]. unfold present. cbn. rewrite E4. discriminate. }
  unfold present in A. cbn in A. rewrite EA in A. congruence.
Qed.
Lemma article_facts r x i n n' : readable_ref r -> f_article r = Some x -> said_part (PartArticle x) i n n' -> y_art_facts x i /\ n = lit "§".
Proof.
  intros R E P. inversion P; subst. destruct (rd_article _ R x E) as (B & L1 & L2). split; [|reflexivity]. split; [|split; [|split; [|split]]]; auto.
  destruct (rd_parts _ R) as [_ PO]. exact (proj1 PO x E).
Qed.

(** ** Sentences *)
Lemma junk_stays s x : x = 46 \/ x = 58 -> strip_junk (s ++ [x]) = s ++ [x] /\ ends_sentence (s ++ [x]) = true.
Proof.
  intros H. split; [|unfold ends_sentence; rewrite rev_app_distr; destruct H as [->| ->]; reflexivity].
  assert (K : forall j, In j junk_suffixes -> strip_once (s ++ [x]) j = s ++ [x]).
  { intros j I. unfold strip_once, strip_suffix. rewrite rev_app_distr. cbn [rev app]. unfold junk_suffixes in I. cbn [map In] in I.
    destruct H as [->| ->]; repeat (destruct I as [<-|I]; [reflexivity|]); contradiction. }
  unfold strip_junk. induction junk_suffixes as [|j l IH]; [reflexivity|]. cbn [fold_left]. rewrite (K j (or_introl eq_refl)). apply IH. intros j' I. apply K. now right.
Qed.
(** A sentence by itself, without new abbreviations *)
Lemma sentence_read rf pre post c s x g out p : x = 46 \/ x = 58 -> top pre = [] -> top post = [] -> grammar_parse (s ++ [x]) (all_abbreviations c) = Ok g ->
  get_new_abbreviations rf g = Ok [] -> get_outgoing_references rf c g = Ok out -> Forall (fun o => 0 < o_end o <= utf8_len (s ++ [x])) out -> extract_special_phrase rf c g = Ok p ->
  extract_semantic_info rf grammar_parse (s ++ [x]) (mkAdder pre post c) = (mkAdder pre post c, Ok (mkSi out [] p)).
Proof.
  intros X P1 P2 G N O F P. unfold extract_semantic_info. cbn [ad_prefix ad_postfix ad_cache]. rewrite P1, P2. unfold assemble. destruct (junk_stays s x X) as [-> ->]. cbn [is_empty app].
  rewrite G. cbn [obind]. rewrite N. cbn [obind cache_add_multiple fold_left]. rewrite O. cbn [obind]. rewrite P. cbn [obind].
  assert (K : keep_map (adjust (utf8_len []) (utf8_len (s ++ [x]) - utf8_len [])) out = out); [|rewrite K; reflexivity].
  change (utf8_len []) with 0. unfold keep_map. clear - F. induction F as [|o l H F IH]; [reflexivity|]. cbn [flat_map]. rewrite IH. unfold adjust. rewrite (proj2 (N.ltb_lt _ _)), (proj2 (N.leb_le _ _)) by lia. cbn [andb app].
  rewrite !N.sub_0_r. now destruct o.
Qed.

Section Replaced.
  Variables (rf : str -> option Z) (c : cache).
  Hypothesis roman : roman_from_reads rf.
  Local Notation known := (all_abbreviations c).
  Local Notation yields := (yields known).
  Local Notation fails := (fails known).
  Lemma name_feed a name G o : name_tree rf c a name G -> feed_act rf c (G o) ob_new = Ok (mkOb (only_act a) [mkOut o (o + utf8_len name) (only_act a)] None (o + utf8_len name)).
  Proof. intros [A P _]. unfold feed_act. rewrite A. cbn [obind]. rewrite P. reflexivity. Qed.
  Lemma amendment_is r a x ps i : f_act r = Some a -> f_article r = Some x -> lower_parts r = PartArticle x :: ps ->
    match get_last_part r with PartArticle a => Ok (PhStructural (mkSbaPhrase (mkSRef (f_act r) None None (SeArticle a) false) i)) | _ => Ok (PhBlock (mkBaPhrase r i)) end = Ok (amendment r i).
  Proof.
    intros EA EX EP. unfold amendment, get_last_part, lower_parts in *. rewrite EX in *. cbn [app] in *. destruct (f_paragraph r), (f_point r), (f_subpoint r); reflexivity.
  Qed.
  (** One place of an act is amended. *)
  Lemma one_amended r a l b : well_formed r -> f_act r = Some a -> lower_parts r <> [] -> map o_ref l = [only_act a; r] ->
    (let all := filter (fun r => negb (is_act_only r)) (map o_ref l) in
     let* first := ok_or (fold1 ref_min (map first_in_range all)) in
     let* last := ok_or (fold1 ref_max (map last_in_range all)) in
     let* position := make_range first last in
     match get_last_part position with
     | PartArticle a => let* p := opt_ok (struct_parent_of rf) None in Ok (PhStructural (mkSbaPhrase (mkSRef (f_act position) None p (SeArticle a) false) b))
     | _ => Ok (PhBlock (mkBaPhrase position b))
     end) = Ok (amendment r b).
  Proof.
    intros W EA NE M. destruct (under_act r a W EA NE) as (x & ps & EX & EP). rewrite M.
    assert (EF : filter (fun r => negb (is_act_only r)) [only_act a; r] = [r]) by (unfold is_act_only; cbn [filter only_act f_article is_none negb]; rewrite EX; reflexivity).
    rewrite EF. cbn zeta. cbn [map fold1 fold_left ok_or obind]. rewrite (whole_range r W NE). cbn [obind opt_ok]. exact (amendment_is r a x ps b EA EX EP).
  Qed.
  Lemma block_is r a b L i : well_formed r -> f_act r = Some a -> lower_parts r <> [] -> block_references rf c b = Ok L -> map o_ref L = [only_act a; r] -> gb_parent b = None -> is_none (gb_amended b) = i ->
    convert_block_amendment rf c b = Ok (amendment r i).
  Proof. intros W EA NE B M P I. unfold convert_block_amendment. rewrite B, P, I. exact (one_amended r a L i W EA NE M). Qed.
End Replaced.
