(** Proofs for C67: the text of a reference is the phrase. *)
From Verif Require Export ProofShow9 ProofIdent4.
From Coq Require Import Lia.

Lemma plain_dotted {T} `{IdentCommon T} (L : forall x y : T, id_eqb x y = true <-> x = y) (show : T -> str) r :
  dotted show r (show_plain_range show (lit ".") false [] r).
Proof.
  unfold dotted, show_plain_range, from_to. destruct (is_range r) eqn:E; cbn [negb app].
  - right. split; [now apply (is_range_iff L)|]. now rewrite <- !app_assoc.
  - left. split; [|reflexivity]. unfold is_range in E. apply negb_false_iff in E. now apply L.
Qed.
Lemma plain_paren {T} `{IdentCommon T} (L : forall x y : T, id_eqb x y = true <-> x = y) (show : T -> str) pre r :
  closed_by_paren pre show r (show_plain_range show (lit ")") true pre r).
Proof.
  unfold closed_by_paren, show_plain_range, from_to. destruct (is_range r) eqn:E; cbn [negb].
  - right. split; [now apply (is_range_iff L)|]. now rewrite <- !app_assoc.
  - left. split; [|reflexivity]. unfold is_range in E. apply negb_false_iff in E. now apply L.
Qed.

Definition shown_point (p : ref_point) : str :=
  match p with PtNum n => show_plain_range numeric_show (lit ".") false [] n | PtAlpha a => show_plain_range hic_show (lit ")") true [] a end.
Definition shown_sub (p : ref_subpoint) : str :=
  match p with SpNum n => show_plain_range numeric_show (lit ".") false [] n | SpAlpha a => show_plain_range prefixed_show (lit ")") true [] a end.
Lemma said_shown_point p : said_part (PartPoint p) (shown_point p) (lit "pont") (lit "pontja").
Proof. destruct p; (constructor 3 || constructor 4 || constructor 5 || constructor 6); [apply (plain_dotted (H:=numeric_common) numeric_eqb_eq)|apply (plain_paren (H:=hic_common) hic_eqb_eq)]. Qed.
Lemma said_shown_sub p : said_part (PartSubpoint p) (shown_sub p) (lit "alpont") (lit "alpontja").
Proof. destruct p; (constructor 3 || constructor 4 || constructor 5 || constructor 6); [apply (plain_dotted (H:=numeric_common) numeric_eqb_eq)|apply (plain_paren (H:=prefixed_common) prefixed_eqb_eq)]. Qed.
Lemma said_shown_article r : said_part (PartArticle r) (show_plain_range article_show (lit ".") false [] r) (lit "§") (lit "§-a").
Proof. constructor. apply (plain_dotted (H:=article_common) article_eqb_eq). Qed.
Lemma said_shown_paragraph r : said_part (PartParagraph r) (show_plain_range numeric_show (lit ")") true (lit "(") r) (lit "bekezdés") (lit "bekezdése").
Proof. constructor. apply (plain_paren (H:=numeric_common) numeric_eqb_eq). Qed.

(** The text after the name of the act *)
Definition shown_lower (r : reference) : str :=
  match f_article r with
     | Some a => show_plain_range article_show (lit ".") false [] a
                 ++ (if is_some (f_paragraph r) || is_some (f_point r) then lit " § " else lit " §-a")
     | None => []
     end
  ++ match f_paragraph r with
     | Some p => show_plain_range numeric_show (lit ")") true (lit "(") p
                 ++ (if is_some (f_point r) then lit " bekezdés " else lit " bekezdése")
     | None => []
     end
  ++ match f_point r with
     | Some p => shown_point p ++ (if is_some (f_subpoint r) then lit " pont " else lit " pontja")
     | None => []
     end
  ++ match f_subpoint r with
     | Some p => shown_sub p ++ lit " alpontja"
     | None => []
     end.
Lemma ref_show_lower r : ref_show r =
  match f_act r with
  | Some a => let* s := act_show a in Ok ((s ++ if is_some (f_article r) then lit " " else []) ++ shown_lower r)
  | None => Ok (shown_lower r)
  end.
Proof. unfold ref_show, shown_lower. destruct (f_act r) as [a|]; [|reflexivity]. destruct (act_show a); reflexivity. Qed.
Lemma shown_lower_said r : well_formed r -> lower_parts r <> [] -> said_parts (lower_parts r) (shown_lower r).
Proof.
  intros W NE. unfold lower_parts, shown_lower in *.
  assert (S1 : forall z, said_parts [PartSubpoint z] (shown_sub z ++ lit " alpontja")).
  { intros z. eapply said_last, said_shown_sub. }
  assert (S2 : forall q, said_parts (PartPoint q :: opt_sub (f_subpoint r))
    (shown_point q ++ (if is_some (f_subpoint r) then lit " pont " else lit " pontja") ++ match f_subpoint r with Some p => shown_sub p ++ lit " alpontja" | None => [] end)).
  { intros q. destruct (f_subpoint r) as [z|]; cbn [is_some opt_sub].
    - change (lit " pont ") with (lit " " ++ lit "pont" ++ lit " "). rewrite <- (app_assoc (lit " ")), <- (app_assoc (lit "pont")). eapply said_more; [apply said_shown_point|apply S1].
    - rewrite app_nil_r. eapply said_last, said_shown_point. }
  assert (S3 : f_point r <> None \/ f_subpoint r = None -> forall p, said_parts (PartParagraph p :: opt_point (f_point r) ++ opt_sub (f_subpoint r))
    (show_plain_range numeric_show (lit ")") true (lit "(") p ++ (if is_some (f_point r) then lit " bekezdés " else lit " bekezdése") ++
     match f_point r with Some p => shown_point p ++ (if is_some (f_subpoint r) then lit " pont " else lit " pontja") | None => [] end ++
     match f_subpoint r with Some p => shown_sub p ++ lit " alpontja" | None => [] end)).
  { intros H p. destruct (f_point r) as [q|]; cbn [is_some opt_point app].
    - change (lit " bekezdés ") with (lit " " ++ lit "bekezdés" ++ lit " "). rewrite <- (app_assoc (lit " ")), <- (app_assoc (lit "bekezdés")). eapply said_more; [apply said_shown_paragraph|].
      rewrite <- app_assoc. apply S2.
    - destruct H as [H|H]; [congruence|]. rewrite H. cbn [opt_sub]. rewrite app_nil_r. eapply said_last, said_shown_paragraph. }
  destruct (f_article r) as [a|] eqn:EA.
  - assert (G : f_point r <> None \/ f_subpoint r = None).
    { destruct (f_point r) eqn:EP; [left; discriminate|right]. apply (wf_gap r W EP). left. congruence. }
    rewrite <- app_assoc. cbn [app]. destruct (f_paragraph r) as [p|] eqn:EP; cbn [is_some orb app].
    + change (lit " § ") with (lit " " ++ lit "§" ++ lit " "). rewrite <- (app_assoc (lit " ")), <- (app_assoc (lit "§")). eapply said_more; [apply said_shown_article|].
      rewrite <- app_assoc. now apply S3.
    + destruct (f_point r) as [q|] eqn:EQ; cbn [is_some app].
      * change (lit " § ") with (lit " " ++ lit "§" ++ lit " "). rewrite <- (app_assoc (lit " ")), <- (app_assoc (lit "§")). eapply said_more; [apply said_shown_article|].
        rewrite <- app_assoc. apply S2.
      * destruct G as [G|G]; [congruence|]. rewrite G. rewrite app_nil_r. eapply said_last, said_shown_article.
  - cbn [app]. destruct (f_paragraph r) as [p|] eqn:EP; cbn [app].
    + rewrite <- app_assoc. apply S3. destruct (f_point r) eqn:EQ; [left; discriminate|right]. apply (wf_gap r W EQ). right. congruence.
    + destruct (f_point r) as [q|] eqn:EQ; cbn [app]; [rewrite <- app_assoc; apply S2|]. destruct (f_subpoint r) as [z|]; [apply S1|]. cbn in NE. congruence.
Qed.
Lemma show_phrase r s : well_formed r -> ref_show r = Ok s -> phrase r s.
Proof.
  intros W. rewrite ref_show_lower. destruct (f_act r) as [a|] eqn:E.
  - destruct (act_show a) as [sa| |] eqn:S; cbn [obind]; try discriminate. intros H. apply (f_equal (fun x => match x with Ok y => y | _ => [] end)) in H. cbn beta iota in H. subst s.
    destruct (lower_parts r) as [|p ps] eqn:LP.
    + assert (N : f_article r = None /\ shown_lower r = []).
      { unfold lower_parts in LP. unfold shown_lower. destruct (f_article r); [discriminate|]. destruct (f_paragraph r); [discriminate|]. destruct (f_point r); [discriminate|]. destruct (f_subpoint r); [discriminate|]. auto. }
      destruct N as [N1 N2]. rewrite N1, N2. cbn [is_some]. rewrite !app_nil_r. eapply phrase_act; eauto.
    + assert (NE : lower_parts r <> []) by (rewrite LP; discriminate).
      assert (A : f_article r <> None).
      { intros EA. assert (P : present r LArticle).
        { apply (wf_act _ W); [unfold present; cbn; rewrite E; discriminate|]. clear LP. unfold lower_parts in NE. rewrite EA in NE. cbn [app] in NE.
          destruct (f_paragraph r) eqn:E2; [|destruct (f_point r) eqn:E3; [|destruct (f_subpoint r) eqn:E4; [|cbn in NE; congruence]]].
          - exists LParagraph. split; [unfold finer; cbn; lia|]. unfold present. cbn. rewrite E2. discriminate.
          - exists LPoint. split; [unfold finer; cbn; lia|]. unfold present. cbn. rewrite E3. discriminate.
          - exists LSubpoint. split; [unfold finer; cbn; lia|]. unfold present. cbn. rewrite E4. discriminate. }
        unfold present in P. cbn in P. rewrite EA in P. congruence. }
      destruct (f_article r) eqn:EA; [|congruence]. cbn [is_some]. rewrite <- app_assoc. eapply phrase_both; [exact E|exact S|]. now apply shown_lower_said.
  - intros H. apply (f_equal (fun x => match x with Ok y => y | _ => [] end)) in H. cbn beta iota in H. subst s. destruct (lower_parts r) as [|p ps] eqn:LP.
    + assert (N : shown_lower r = []).
      { unfold lower_parts in LP. unfold shown_lower. destruct (f_article r); [discriminate|]. destruct (f_paragraph r); [discriminate|]. destruct (f_point r); [discriminate|]. destruct (f_subpoint r); [discriminate|]. auto. }
      rewrite N. now apply phrase_empty.
    + apply phrase_parts; [exact E|]. apply shown_lower_said; [exact W|]. rewrite LP. discriminate.
Qed.
(** Only one phrase for a reference *)
Lemma dotted_once {T} (show : T -> str) r a b : dotted show r a -> dotted show r b -> a = b.
Proof. intros [[A ->]|[A ->]] [[B ->]|[B ->]]; congruence. Qed.
Lemma paren_once {T} opening (show : T -> str) r a b : closed_by_paren opening show r a -> closed_by_paren opening show r b -> a = b.
Proof. intros [[A ->]|[A ->]] [[B ->]|[B ->]]; congruence. Qed.
Lemma said_part_once p i n n' j m m' : said_part p i n n' -> said_part p j m m' -> i = j /\ n = m /\ n' = m'.
Proof. intros A B. inversion A; subst; inversion B; subst; repeat split; eauto using dotted_once, paren_once. Qed.
Lemma said_once ps : forall s s', said_parts ps s -> said_parts ps s' -> s = s'.
Proof.
  induction ps as [|p ps IH]; intros s s' A B; [now apply said_nil in A|].
  apply said_split in A as (i & n & n' & P & A), B as (j & m & m' & Q & B). destruct (said_part_once _ _ _ _ _ _ _ P Q) as (<- & <- & <-).
  destruct A as [[EA ->]|(u & A & ->)], B as [[EB ->]|(v & B & ->)]; [reflexivity| | |].
  - subst ps. now apply said_nil in B.
  - subst ps. now apply said_nil in A.
  - now rewrite (IH u v A B).
Qed.
Lemma phrase_once r s s' : phrase r s -> phrase r s' -> s = s'.
Proof.
  intros A B. destruct A as [E L|a s E S L|s E H|a s t E S H], B as [E' L'|a' s' E' S' L'|s' E' H'|a' s' t' E' S' H']; try congruence;
    try (rewrite L in *); try (rewrite L' in *); try (exfalso; eapply said_nil; eassumption).
  - now apply (said_once (lower_parts r)).
  - assert (a = a') by congruence. subst a'. assert (s = s') by congruence. subst s'. now rewrite (said_once _ _ _ H H').
Qed.
Lemma phrase_show r s : well_formed r -> phrase r s -> ref_show r = Ok s.
Proof.
  intros W P. assert (K : exists s', ref_show r = Ok s').
  { rewrite ref_show_lower. destruct P as [E L|a s E S L|s E H|a s t E S H]; rewrite E; try rewrite S; cbn [obind]; eauto. }
  destruct K as [s' K]. rewrite K. f_equal. apply (phrase_once r); [now apply show_phrase|exact P].
Qed.
Lemma show_iff r s : well_formed r -> (ref_show r = Ok s <-> phrase r s).
Proof. intros W. split; [now apply show_phrase|now apply phrase_show]. Qed.

Lemma found_once r r' s l : found_in_phrase r s l -> found_in_phrase r' s l -> r = r'.
Proof.
  unfold found_in_phrase. destruct (f_act r) as [a|] eqn:E, (f_act r') as [a'|] eqn:E'.
  - intros (sa & S & ->) (sa' & S' & H). injection H as H1 H2 H3. subst a'.
    destruct (lower_parts r) eqn:L, (lower_parts r') eqn:L'; try discriminate; [|congruence].
    assert (G : forall x, lower_parts x = [] -> x = mkRef (f_act x) None None None None).
    { intros [xa xb xc xd xe]. unfold lower_parts. cbn. destruct xb, xc, xd, xe; try discriminate. reflexivity. }
    rewrite (G r L), (G r' L'), E, E'. reflexivity.
  - intros (sa & S & ->) H. injection H as _ H _. subst r'. discriminate.
  - intros -> (sa & S & H). injection H as _ H _. subst r. discriminate.
  - congruence.
Qed.
Lemma show_unambiguous r r' s : readable_ref r -> readable_ref r' -> ref_show r = Ok s -> ref_show r' = Ok s -> r = r'.
Proof.
  intros R R' S S'. apply show_phrase in S, S'; try apply rd_form; try assumption.
  destruct (read_back [] (Forall_nil _) _ (mkCache [] false) r s roman_read_reads R S) as (g & l & G & O & F).
  destruct (read_back [] (Forall_nil _) _ (mkCache [] false) r' s roman_read_reads R' S') as (g' & l' & G' & O' & F').
  rewrite G in G'. injection G' as <-. rewrite O in O'. injection O' as <-. now apply (found_once r r' s l).
Qed.
Lemma show_read_back rf known c r s : roman_from_reads rf -> Forall other_beginning known -> readable_ref r -> ref_show r = Ok s ->
  exists g l, grammar_parse s known = Ok g /\ get_outgoing_references rf c g = Ok l /\ found_in_phrase r s l.
Proof. intros R K W S. apply (read_back known K rf c r s R W). apply show_phrase; [now apply rd_form|exact S]. Qed.
