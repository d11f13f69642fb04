(** Proofs for C78: sentences which replace or add subtitles. *)
From Verif Require Export ProofSay27.
From Coq Require Import Lia.
Local Open Scope peg_scope.
Local Open Scope N_scope.

Definition with_rest (a : g_act_ref) (s : option g_any_struct) : parser g_block_sub :=
  p <- opt (sk article_relative_position) ;;
  ((r <- sk reference_with_subtitle ;; sk amendment_suffix ;; T ":" ;; ret (mkGBlockSub a s p r false))
   <|> (r <- sk reference_with_subtitle ;; sk amendment_suffix_with_subtitle ;; T ":" ;; ret (mkGBlockSub a s p r false))
   <|> (sk insertion_token ;; r <- sk reference_with_subtitle ;; sk insertion_suffix ;; T ":" ;;
        ret (mkGBlockSub a s p r true))).
Lemma with_is : block_amendment_with_subtitle = (sk g_az_any ;; sk act_title ;; a <- sk act_reference ;; s <- opt (sk any_structural_reference) ;; with_rest a s).
Proof. reflexivity. Qed.
Definition subtitle_ends : list str := flat_map (fun f => map (fun w => lit " helyébe " ++ f ++ lit " " ++ w ++ lit ":") subtitle_replacements) following.

Section Run.
  Variables (rf : str -> option Z) (c : cache).
  Hypothesis roman : roman_from_reads rf.
  Local Notation known := (all_abbreviations c).
  Local Notation yields := (yields known).
  Local Notation fails := (fails known).
  Lemma closing_insertion e : In e insertion_endings -> closing_words known e.
  Proof.
    intros I. unfold insertion_endings in I. cbn [map In] in I. repeat (destruct I as [<-|I]; [constructor; [eexists; split; [apply split_space; reflexivity|reflexivity]|eexists; split; [apply split_space; reflexivity|split; reflexivity]|failing]|]). contradiction.
  Qed.
  Lemma closing_subtitle e : In e subtitle_endings -> closing_words known e.
  Proof.
    intros I. unfold subtitle_endings in I. apply in_app_or in I as [I|I].
    - unfold replacement_endings in I. cbn [map In] in I. repeat (destruct I as [<-|I]; [constructor; [eexists; split; [apply split_space; reflexivity|reflexivity]|eexists; split; [apply split_space; reflexivity|split; reflexivity]|failing]|]). contradiction.
    - apply in_flat_map in I as (f & I & J). apply in_map_iff in J as (w & <- & J). generalize (f ++ lit " " ++ w ++ lit ":"). intros t. constructor; [exists (lit "helyébe " ++ t); split; reflexivity|exists (lit "helyébe " ++ t); split; [reflexivity|split; reflexivity]|failing].
  Qed.
  Lemma renames e A (x : A) o : In e subtitle_endings ->
    (exists o', yields (sk amendment_suffix ;; T ":" ;; ret x) o e x o' []) \/
    (fails (sk amendment_suffix) o e /\ exists o', yields (sk amendment_suffix_with_subtitle ;; T ":" ;; ret x) o e x o' []).
  Proof.
    intros I. unfold subtitle_endings in I. apply in_app_or in I as [I|I]; [left; now apply replaces|right].
    unfold subtitle_replacements in I. cbn [flat_map map app following In] in I. repeat (destruct I as [<-|I]; [split; [here|computed]|]). contradiction.
  Qed.
  (** ** No place *)
  Lemma rel_mid f t o : In f following -> fails (sk article_relative_position) o (lit " " ++ f ++ lit " " ++ t).
  Proof. intros F. unfold following in F. cbn [map In] in F. destruct F as [<-|[<-|[]]]; here. Qed.
  Lemma sub_mid f t o : In f following -> fails (sk reference_with_subtitle) o (lit " " ++ f ++ lit " " ++ t).
  Proof. intros F. unfold following in F. cbn [map In] in F. destruct F as [<-|[<-|[]]]; here. Qed.
  Lemma rel_with x s z v o : one_article x s -> In z and_before_it -> fails (sk article_relative_position) o (lit " " ++ s ++ lit " " ++ z ++ v).
  Proof.
    intros H IZ. set (t := lit " " ++ z ++ v).
    assert (K : spaced t /\ (forall o, fails (one_of_sk ["megelőzően"; "megelőző"; "előtti"]%string) o t) /\ forall o, fails (one_of_sk ["követően"; "követő"]%string) o t).
    { unfold t. clear - IZ. unfold and_before_it in IZ. cbn [map In] in IZ. repeat (destruct IZ as [<-|IZ]; [split; [eexists; split; [reflexivity|split; reflexivity]|split; failing]|]). contradiction. }
    destruct K as (SP & F1 & F2). pose proof (one_digits x s t H) as D. pose proof (digit_first_ws _ D) as W. destruct (y_one known x s [] (o + 1) t H lead_none SP) as (g & Y & _). cbn [app] in Y.
    apply f_sk_sp; [exact W|]. apply f_alt; apply f_bind1, f_sk; try exact W.
    - unfold before_article. eapply f_bind2; [now apply az_not_digit_first|]. eapply f_bind2; [exact Y|]. apply f_bind1, F1.
    - unfold after_article. eapply f_bind2; [now apply az_not_digit_first|]. eapply f_bind2; [exact Y|]. apply f_bind1, F2.
  Qed.
  (** ** The rule after the name of the act and the element *)
  Definition sub_facts (a : act_id) (r : struct_ref) (i : bool) (l : list out_ref) (p : option sr_parent) (q : option g_relative) (w : g_with_subtitle) : Prop :=
    exists x near own l1 l2, near_tree a near l1 q /\ ref_tree a x own l2 w /\ l = l1 ++ l2 /\ r = mkSRef (Some a) None p (subtitle_position x near own) false /\ (i = true \/ near <> None \/ x <> None).
  Lemma said_space a b x own l s : subtitle_said a b x own l s -> exists v, s = lit " " ++ v.
  Proof. intros [x0 s0 z w H IZ W|e s0 w M W|e s0 w x0 s' M W H]; eexists; reflexivity. Qed.
  Lemma y_added a b p near l s f x own l' s' e o :
    near_said a b near l s -> In f following -> subtitle_said a (b ++ s ++ lit " " ++ f) x own l' s' -> In e insertion_endings -> utf8_len b = o ->
    exists q w, sub_facts a (mkSRef (Some a) None p (subtitle_position x near own) false) true (l ++ l') p q w /\
      forall g st, exists o', yields (with_rest g st) o (s ++ lit " " ++ f ++ s' ++ e) (mkGBlockSub g st q w true) o' [].
  Proof.
    intros N F S I EB. destruct (said_space _ _ _ _ _ _ S) as (v & EV).
    assert (K : exists q, yields (opt (sk article_relative_position)) o (s ++ lit " " ++ f ++ s' ++ e) q (o + utf8_len s) (lit " " ++ f ++ s' ++ e) /\ near_tree a near l q).
    { destruct near as [near|].
      - apply (y_near known a b); [exact N|discriminate|exact EB].
      - assert (EN : s = [] /\ l = []) by (inversion N; auto). destruct EN as [-> ->]. exists None. cbn [app]. split; [|left; auto]. rewrite EV, <- app_assoc. change (utf8_len []) with 0. rewrite N.add_0_r. apply y_none. now apply rel_mid. }
    destruct K as (q & YQ & NT). destruct (y_subtitle known a _ x own l' s' e (o + utf8_len s + utf8_len (lit " " ++ f)) S) as (w & o1 & YW & RT); [rewrite <- EB; lens|now apply closing_insertion|].
    exists q, w. split; [exists x, near, own, l, l'; auto 10|]. intros g st. destruct (inserts known e _ (mkGBlockSub g st q w true) o1 I) as (o' & YI). exists o'. unfold with_rest. eapply y_bind; [exact YQ|].
    assert (EM : lit " " ++ f ++ s' ++ e = lit " " ++ f ++ lit " " ++ (v ++ e)) by (now rewrite EV, <- app_assoc). rewrite EM.
    apply y_alt2; [apply f_bind1; now apply sub_mid|]. apply y_alt2; [apply f_bind1; now apply sub_mid|]. eapply y_bind; [apply (y_token known f (lit " ") _ _ F lead_space)|]. 
    replace (lit " " ++ v ++ e) with (s' ++ e) by (now rewrite EV, <- app_assoc). eapply y_bind; [exact YW|exact YI].
  Qed.
  Lemma y_replaced a b p near l s x own l' s' e o :
    (yields (opt (sk article_relative_position)) o (s ++ s' ++ e) near (o + utf8_len s) (s' ++ e)) -> forall nr, near_tree a nr l near -> (nr <> None \/ x <> None) ->
    subtitle_said a (b ++ s) x own l' s' -> In e subtitle_endings -> utf8_len b = o ->
    exists w, sub_facts a (mkSRef (Some a) None p (subtitle_position x nr own) false) false (l ++ l') p near w /\
      forall g st, exists o', yields (with_rest g st) o (s ++ s' ++ e) (mkGBlockSub g st near w false) o' [].
  Proof.
    intros YQ nr NT OR S I EB. destruct (y_subtitle known a _ x own l' s' e (o + utf8_len s) S) as (w & o1 & YW & RT); [rewrite <- EB; lens|now apply closing_subtitle|].
    exists w. split; [exists x, nr, own, l, l'; auto 10|]. intros g st. unfold with_rest. destruct (renames e _ (mkGBlockSub g st near w false) o1 I) as [(o' & YI)|(FA & o' & YI)]; exists o'; (eapply y_bind; [exact YQ|]).
    - apply y_alt1. eapply y_bind; [exact YW|exact YI].
    - apply y_alt2; [eapply f_bind2; [exact YW|apply f_bind1, FA]|]. apply y_alt1. eapply y_bind; [exact YW|exact YI].
  Qed.
  (** ** Conversion *)
  Lemma sub_converted a r i l p q w g st : sub_facts a r i l p q w -> opt_ok (struct_parent_of rf) st = Ok p -> convert_act_reference rf c g = Ok a ->
    convert_subtitle_amendment rf c (mkGBlockSub g st q w i) = Ok (mkSbaPhrase r i).
  Proof.
    intros (x & near & own & l1 & l2 & NT & (OT & RT) & -> & -> & OR) SP CA. unfold convert_subtitle_amendment. cbn [gbs_ref gbs_relative gbs_parent gbs_act gbs_insertion]. rewrite SP, CA.
    destruct x as [x|].
    - destruct RT as (g1 & st1 & en1 & (_ & AP) & -> & _). unfold single_article. rewrite AP. reflexivity.
    - destruct RT as (_ & ->). destruct NT as [(-> & _ & ->)|(g1 & x1 & st1 & en1 & (_ & AP) & _ & [(-> & ->)|(-> & ->)])].
      + destruct own as [[]|]; cbn [own_tree] in OT; try contradiction.
        * destruct OT as (j & E & P). injection E as -> ->. rewrite P. reflexivity.
        * injection OT as -> ->. reflexivity.
        * injection OT as -> ->. destruct OR as [->|[?|?]]; [reflexivity|congruence|congruence].
      + unfold relative_element, single_article. rewrite AP. reflexivity.
      + unfold relative_element, single_article. rewrite AP. reflexivity.
  Qed.
  Lemma fed_single a g x st en b : single_read g x st en -> f_act (ob_ref b) = Some a -> ob_start b = None ->
    exists b', feed_single g b = Ok b' /\ ob_result b' = ob_result b ++ [mkOut st en (mkRef (Some a) (Some (mkRange x x)) None None None)] /\ f_act (ob_ref b') = Some a /\ ob_start b' = None.
  Proof.
    intros (P & AP) EA ES. unfold feed_single. rewrite AP. cbn [obind]. unfold record_one, ob_set. cbn [ob_start ob_ref ob_result ob_end]. rewrite ES, P. cbn [ps_start ps_end ok_or obind].
    assert (B : build (set_article (mkRange x x) (ob_ref b)) = Ok (mkRef (Some a) (Some (mkRange x x)) None None None)) by (unfold set_article, reset_paragraph, reset_point, build, try_ref, check_ranges; rewrite EA; cbn; destruct (is_range _); reflexivity).
    rewrite B. cbn [obind]. eexists. split; [reflexivity|]. cbn [ob_result ob_ref ob_start]. unfold set_article. rewrite EA. auto.
  Qed.
  Lemma sub_outgoing a r i l p q w g st name G o : sub_facts a r i l p q w -> name_tree rf c a name G -> g = G o ->
    get_outgoing_references rf c (RBlockSubtitle (mkGBlockSub g st q w i)) = Ok (mkOut o (o + utf8_len name) (only_act a) :: l).
  Proof.
    intros (x & near & own & l1 & l2 & NT & (_ & RT) & -> & _) NM ->. cbn [get_outgoing_references gbs_act gbs_relative gbs_ref]. rewrite (name_feed rf c a name G o NM). cbn [obind]. set (b := mkOb _ _ _ _).
    assert (K : exists b1, feed_opt feed_relative q b = Ok b1 /\ ob_result b1 = ob_result b ++ l1 /\ f_act (ob_ref b1) = Some a /\ ob_start b1 = None).
    { destruct NT as [(_ & -> & ->)|(g1 & x1 & st1 & en1 & SR & -> & [(_ & ->)|(_ & ->)])]; [exists b; rewrite app_nil_r; auto|apply (fed_single a g1 x1 st1 en1 b SR eq_refl eq_refl)..]. }
    destruct K as (b1 & -> & R1 & A1 & S1). cbn [obind].
    assert (K : exists b2, feed_opt feed_single (gws_article w) b1 = Ok b2 /\ ob_result b2 = ob_result b1 ++ l2).
    { destruct x as [x|].
      - destruct RT as (g1 & st1 & en1 & SR & -> & ->). destruct (fed_single a g1 x st1 en1 b1 SR A1 S1) as (b2 & E & R & _). exists b2. auto.
      - destruct RT as (-> & ->). exists b1. rewrite app_nil_r. auto. }
    destruct K as (b2 & -> & R2). cbn [obind]. rewrite R2, R1, <- app_assoc. reflexivity.
  Qed.
End Run.
