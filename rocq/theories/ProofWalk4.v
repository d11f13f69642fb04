(** In a parsed act of at most 65535 lines all positions are different (C48). *)
From Verif Require Import ProofBase ProofIdent ProofRef ProofText ProofText2 ProofStruct11.
From Verif Require Export ProofWalk3.

(** ** Elements have lines of their own *)
Lemma nonempty_length ls : (List.length (nonempty ls) <= List.length ls)%nat.
Proof. unfold nonempty. induction ls as [|l ls IH]; cbn; [lia|]. destruct (negb (l_empty l)); cbn; lia. Qed.
Lemma lay_list_le {I C} (label : str -> I -> Prop) (lc : I -> C -> option str -> list line -> list line -> Prop) es g ls :
  lay_list label lc es g ls -> (List.length es <= List.length ls)%nat /\
  forall e, In e es -> exists g' seg, lay_elem label lc e g' seg /\ (List.length seg <= List.length ls)%nat.
Proof.
  assert (P : forall e g seg, lay_elem label lc e g seg -> (1 <= List.length seg)%nat).
  { intros e g0 seg (hl & tl & r & body & g1 & g2 & -> & _). cbn. lia. }
  induction 1 as [e g ls H|e es g seg ls H _ _ [L F]].
  - split; [apply P in H; cbn; lia|]. intros e' [<-|[]]. eauto.
  - rewrite app_length. split; [apply P in H; cbn; lia|]. intros e' [<-|K].
    + exists [], seg. split; [exact H|lia].
    + destruct (F e' K) as (g' & seg' & H' & L'). exists g', seg'. split; [exact H'|lia].
Qed.
Lemma lay_body_le {I C} (lc : I -> C -> option str -> list line -> list line -> Prop) i intro c w g ls :
  lay_body lc i (BChildren intro c w) g ls -> exists mid, lc i c w g mid /\ (List.length mid <= List.length ls)%nat.
Proof. intros (pre & mid & -> & _ & _ & H). exists mid. rewrite app_length. split; [exact H|lia]. Qed.
Lemma lay_elem_le {I C} (label : str -> I -> Prop) (lc : I -> C -> option str -> list line -> list line -> Prop) e g seg intro c w :
  lay_elem label lc e g seg -> s_body e = BChildren intro c w ->
  exists g' mid, lc (s_id e) c w g' mid /\ (List.length mid <= List.length seg)%nat.
Proof.
  intros (hl & tl & r & body & g1 & g2 & -> & _ & E & L & _) B. rewrite B in L. apply lay_body_le in L. destruct L as (mid & L & Hm).
  exists g1, mid. split; [exact L|]. apply (f_equal (@List.length _)) in E. rewrite app_length in E. cbn in E |- *.
  assert (N := nonempty_length tl). lia.
Qed.
Lemma lay_siblings_le {I C} (label : str -> I -> Prop) (lc : I -> C -> option str -> list line -> list line -> Prop) es w g ls :
  lay_siblings label lc es w g ls -> (List.length es <= List.length ls)%nat /\
  forall e, In e es -> exists g' seg, lay_elem label lc e g' seg /\ (List.length seg <= List.length ls)%nat.
Proof. intros (wl & _ & L). now apply lay_list_le in L. Qed.
(** ** Distinct identifiers *)
Definition fits (ls : list line) : Prop := (N.of_nat (List.length ls) <= 65535)%N.
Lemma num_distinct {C} (es : list (sae numeric C)) : consecutive num_one num_succ (map s_id es) -> (N.of_nat (List.length es) <= 65535)%N -> distinct_ids es.
Proof. intros [_ S] L. apply num_increasing in S; [apply S|]. now rewrite map_length. Qed.
Lemma sub_distinct {C} (es : list (sae prefixed C)) : consecutive sub_a sub_succ (map s_id es) -> distinct_ids es.
Proof. intros [_ [S _]]. now apply sub_increasing in S; apply S. Qed.
Lemma alpha_distinct {C} (es : list (sae hic C)) : consecutive alpha_a follows (map s_id es) -> distinct_ids es.
Proof. intros [_ [S _]]. now apply alpha_increasing in S; apply S. Qed.
Lemma ordered_alpha_distinct e g seg : lay_elem alpha_label lay_alpha_children e g seg -> fits seg -> ordered_alpha e -> distinct_alpha e.
Proof.
  intros L F O. unfold ordered_alpha, children_of in O. unfold distinct_alpha. destruct (s_body e) as [t|i c w] eqn:B; [exact I|].
  destruct (lay_elem_le _ _ _ _ _ _ _ _ L B) as (g' & mid & Lc & Hm). destruct c as [l|l]; cbn in O.
  - now apply sub_distinct.
  - apply num_distinct; [exact O|]. cbn in Lc. apply lay_siblings_le in Lc. unfold fits in F. lia.
Qed.
Lemma ordered_num_distinct e g seg : lay_elem num_label lay_num_children e g seg -> fits seg -> ordered_num e -> distinct_num e.
Proof.
  intros L F O. unfold ordered_num, children_of in O. unfold distinct_num. destruct (s_body e) as [t|i c w] eqn:B; [exact I|].
  destruct c as [l]; cbn in O. now apply sub_distinct.
Qed.
Lemma par_body_distinct (e : paragraph) id w g ls c i : s_body e = BChildren i c w -> lay_par_children id c w g ls -> fits ls ->
  ordered_par_children (s_id e) c -> distinct_par e.
Proof.
  intros B L F O. unfold distinct_par. rewrite B. unfold fits in F. destruct c as [l|l|l|b|b]; cbn in O, L; try exact I.
  - destruct O as [O1 O2]. split; [now apply alpha_distinct|]. rewrite Forall_forall in O2 |- *. intros x Hx.
    apply lay_siblings_le in L. destruct L as [_ L]. destruct (L x Hx) as (g' & seg & L' & Hs).
    eapply ordered_alpha_distinct; [exact L'|unfold fits; lia|now apply O2].
  - destruct O as [O1 O2]. apply lay_siblings_le in L. destruct L as [L1 L]. split; [apply num_distinct; [exact O1|lia]|].
    rewrite Forall_forall in O2 |- *. intros x Hx. destruct (L x Hx) as (g' & seg & L' & Hs).
    eapply ordered_num_distinct; [exact L'|unfold fits; lia|now apply O2].
Qed.
Lemma article_distinct a ls : lay_article a ls -> fits ls -> ordered_article a ->
  distinct_ids (ar_children a) /\ Forall distinct_par (ar_children a).
Proof.
  intros (tls & gap & body & -> & _ & _ & _ & _ & L) F [O1 O2]. unfold fits in F. rewrite !app_length in F.
  assert (Fb : fits body) by (unfold fits; lia). clear F. unfold fits in Fb.
  destruct L as [(p & E & Ei & L)|[Two L]].
  - rewrite E in *. split; [repeat constructor; intros []|]. constructor; [|constructor]. inversion O1 as [|? ? Op _]; subst.
    destruct (s_body p) as [t|i c w] eqn:B; [unfold distinct_par; now rewrite B|]. apply lay_body_le in L. destruct L as (mid & L & Hm).
    eapply par_body_distinct; [exact B|exact L|unfold fits; lia|]. unfold ordered_par, children_of in Op. now rewrite B in Op.
  - apply lay_list_le in L. destruct L as [L1 L]. split.
    + destruct O2 as [O2|[_ O2]].
      * unfold distinct_ids. rewrite O2. repeat constructor. intros [].
      * apply par_increasing in O2; [apply O2|]. rewrite map_length. lia.
    + rewrite Forall_forall in O1 |- *. intros p Hp. specialize (O1 p Hp). destruct (L p Hp) as (g' & seg & L' & Hs).
      destruct (s_body p) as [t|i c w] eqn:B; [unfold distinct_par; now rewrite B|].
      destruct (lay_elem_le _ _ _ _ _ _ _ _ L' B) as (g2 & mid & Lc & Hm).
      eapply par_body_distinct; [exact B|exact Lc|unfold fits; lia|]. unfold ordered_par, children_of in O1. now rewrite B in O1.
Qed.
Lemma lay_act_le rf cs ls : lay_act rf cs ls -> (List.length cs <= List.length ls)%nat /\
  forall a, In (ChArticle a) cs -> exists seg, lay_article a seg /\ (List.length seg <= List.length ls)%nat.
Proof.
  assert (P : forall c seg, lay_act_child rf c seg -> (1 <= List.length seg)%nat /\ forall a, c = ChArticle a -> exists s, lay_article a s /\ (List.length s <= List.length seg)%nat).
  { intros [e|s|a] seg; cbn.
    - intros (hl & tl & i & suf & -> & _). split; [cbn; lia|discriminate].
    - intros (hl & tl & t & -> & _). split; [cbn; lia|discriminate].
    - intros (hl & tl & r & -> & _ & L). split; [cbn; lia|]. intros a' E. injection E as <-. exists (r :: tl). split; [exact L|cbn; lia]. }
  induction 1 as [c ls H _|c cs seg ls H _ _ [L F]]; apply P in H; destruct H as [H1 H2].
  - split; [cbn; lia|]. intros a [E|[]]. now apply H2.
  - rewrite app_length. split; [cbn; lia|]. intros a [E|K].
    + destruct (H2 a E) as (s & Ls & Hs). exists s. split; [exact Ls|lia].
    + destruct (F a K) as (s & Ls & Hs). exists s. split; [exact Ls|lia].
Qed.
(** ** Articles *)
Lemma article_before_trans x y z : article_before x y -> article_before y z -> article_before x z.
Proof.
  unfold article_before. destruct (a_book x), (a_book y), (a_book z); try tauto.
  - intros [A|[A B]] [C|[C D]]; try (left; lia). right. split; [lia|]. now apply numeric_before_trans with (a_ident y).
  - now apply numeric_before_trans.
Qed.
Lemma article_before_irrefl x : ~ article_before x x.
Proof. unfold article_before. destruct (a_book x); [intros [H|[_ H]]; [lia|]|intros H]; now apply numeric_before_irrefl in H. Qed.
Lemma article_follows_before x y : article_follows y x -> article_before x y.
Proof.
  unfold article_follows, article_before. destruct (a_book y), (a_book x); try tauto.
  - intros [[-> H]|[-> H]]; [|left; lia]. right. split; [reflexivity|]. now apply numeric_follows_before.
  - apply numeric_follows_before.
Qed.
Lemma article_chain_no_wrap l : forall x k, chain article_succ (x :: l) -> (n_num (a_ident x) <= k)%N -> (1 <= k)%N -> (k + N.of_nat (List.length l) <= 65535)%N ->
  Forall (fun i => a_book i <> Some 255%N) (x :: l) -> chain article_follows (x :: l).
Proof.
  induction l as [|y l IH]; intros x k HC Hx H1 Hk HB; [constructor|]. inversion HC as [| |? ? ? Hn HC']; subst. cbn [List.length] in Hk.
  inversion HB as [|? ? Bx By]; subst.
  assert (F : article_follows y x) by (destruct Hn as [Hn|[(_ & _ & Hn)|(_ & Hn & _)]]; [exact Hn|lia|contradiction]).
  constructor; [exact F|]. apply (IH y (k + 1)%N HC'); [|lia|lia|exact By].
  unfold article_follows in F. assert (G : numeric_follows (a_ident y) (a_ident x) -> (n_num (a_ident y) <= k + 1)%N).
  { unfold numeric_follows. destruct (n_suffix (a_ident y)), (n_suffix (a_ident x)); lia. }
  destruct (a_book y), (a_book x); try tauto. destruct F as [[_ F]|[_ F]]; [auto|]. rewrite F. cbn. lia.
Qed.
Lemma articles_increasing ids : chain article_succ ids -> match ids with i :: _ => article_one i | [] => True end ->
  (N.of_nat (List.length ids) <= 65535)%N -> Forall (fun i => a_book i <> Some 255%N) ids -> increasing article_before ids.
Proof.
  intros HC HF HL HB. apply (chain_increasing article_follows); [apply article_follows_before|apply article_before_trans|apply article_before_irrefl|].
  destruct ids as [|x l]; [constructor|]. destruct HF as [E _]. cbn [List.length] in HL. apply (article_chain_no_wrap l _ 1%N HC); try lia; [rewrite E; cbn; lia|exact HB].
Qed.
Lemma article_ids_act cs : article_ids cs = map ar_ident (articles_of cs).
Proof. induction cs as [|[e|s|a] cs IH]; cbn; [reflexivity|exact IH..|]. now rewrite <- IH. Qed.
Lemma articles_of_in x cs : In x (articles_of cs) -> In (ChArticle x) cs.
Proof. induction cs as [|[e|s|a] cs IH]; cbn; [tauto|auto..|]. intros [->|H]; auto. Qed.
Lemma articles_of_length cs : (List.length (articles_of cs) <= List.length cs)%nat.
Proof. induction cs as [|[e|s|a] cs IH]; cbn; lia. Qed.
Lemma parsed_act_distinct rf up raw a : parse_act_structure rf up raw = Ok a -> (N.of_nat (List.length (ar_body raw)) <= 65535)%N ->
  Forall (fun x => a_book (ar_ident x) <> Some 255%N) (act_articles a) -> distinct_act a.
Proof.
  intros H L B. destruct (c28_act _ _ _ _ H) as (O & Ch & Fi). apply parse_act_inv in H. apply parse_complex_body_inv in H.
  destruct H as (pl & body & E & _ & _ & La & _). apply lay_act_le in La. destruct La as [L1 La].
  apply (f_equal (@List.length _)) in E. rewrite app_length in E. split.
  - unfold act_articles in *. rewrite <- article_ids_act in *. apply articles_increasing; try assumption.
    + rewrite article_ids_act, map_length. assert (Y := articles_of_length (ac_children a)). unfold act_child, article in *. lia.
    + rewrite article_ids_act. rewrite Forall_forall in B |- *. intros i Hi. apply in_map_iff in Hi. destruct Hi as (x & <- & Hx). now apply B.
  - rewrite Forall_forall. intros x Hx. apply articles_of_in in Hx. destruct (La x Hx) as (seg & Ls & Hs).
    eapply article_distinct; [exact Ls|unfold fits; lia|now apply O].
Qed.
