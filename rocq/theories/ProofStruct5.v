(** The text of parsed trees (C29), articles and acts (C30). *)
From Verif Require Import ProofBase ProofIdent ProofIdent2 ProofIdent3 ProofIdent4 ProofText ProofText2.
From Verif Require Export ProofStruct4.

Lemma ns_text_app a b : no_spaces (text (a ++ b)) = no_spaces (text a) ++ no_spaces (text b).
Proof. now rewrite text_app, no_spaces_app. Qed.
Lemma ns_text_cons l b : no_spaces (text (l :: b)) = no_spaces (content l) ++ no_spaces (text b).
Proof. now rewrite text_cons, no_spaces_app. Qed.
Lemma ns_repeat n : no_spaces (repeat (chr " ") n) = [].
Proof. induction n; [reflexivity|]. cbn [repeat]. change (chr " " :: repeat (chr " ") n) with ([chr " "] ++ repeat (chr " ") n).
  now rewrite no_spaces_app, IHn. Qed.
Lemma heads_text {I} (label : str -> I -> Prop) l i r : heads label l i r ->
  exists s, label s i /\ no_spaces (content l) = no_spaces s ++ no_spaces (content r).
Proof.
  intros H. apply heads_content in H. destruct H as (s & n & L & -> & _). exists s. split; [exact L|].
  now rewrite !no_spaces_app, ns_repeat.
Qed.
Lemma empty_content l : l_empty l = true -> content l = [].
Proof. intros H. apply l_empty_iff in H. unfold content. now rewrite H. Qed.
Lemma nonempty_text ls : text (nonempty ls) = text ls.
Proof.
  induction ls as [|l ls IH]; [reflexivity|]. change (l :: ls) with ([l] ++ ls). rewrite nonempty_app, nonempty_one, !text_app, IH.
  destruct (l_empty l) eqn:E; [|reflexivity]. rewrite text_one, (empty_content _ E). reflexivity.
Qed.
Lemma wrap_of_text w wl : wrap_of w wl -> no_spaces (opt_str w) = no_spaces (text wl).
Proof. intros [[-> ->]|[-> _]]; [reflexivity|]. apply c20_join. Qed.

Section Text.
  Context {I C : Type}.
  Variable label : str -> I -> Prop.
  Variable lc : I -> C -> option str -> list line -> list line -> Prop.
  Variable ctext : C -> str -> Prop.
  Hypothesis Hc : forall i c w g ls, lc i c w g ls ->
    exists m, ctext c m /\ no_spaces (text ls) = m ++ no_spaces (opt_str w) ++ no_spaces (text g).
  Lemma lay_body_text i b g ls : lay_body lc i b g ls ->
    exists t, body_text ctext b t /\ no_spaces (text ls) = t ++ no_spaces (text g).
  Proof.
    destruct b as [s|intro c w]; cbn [lay_body body_text].
    - intros (own & -> & ->). eexists. split; [reflexivity|]. now rewrite ns_text_app, c20_join.
    - intros (pre & mid & -> & _ & -> & H). apply Hc in H. destruct H as (m & Hm & E).
      eexists. split; [exists m; split; [exact Hm|reflexivity]|]. rewrite ns_text_app, E, c20_join, <- !app_assoc. reflexivity.
  Qed.
  Lemma lay_elem_text e g ls : lay_elem label lc e g ls ->
    exists t, elem_text label ctext e t /\ no_spaces (text ls) = t ++ no_spaces (text g).
  Proof.
    intros (hl & tl & r & body & g1 & g2 & -> & Hh & Hb & Hl & ->). apply heads_text in Hh. destruct Hh as (s & Ls & Es).
    apply lay_body_text in Hl. destruct Hl as (t & Ht & Et).
    exists (no_spaces s ++ t). split; [exists s, t; auto|].
    rewrite ns_text_cons, Es, <- nonempty_text.
    rewrite <- !app_assoc. f_equal. rewrite <- ns_text_cons, Hb, !ns_text_app, Et, <- app_assoc. reflexivity.
  Qed.
  Lemma lay_list_text es g ls : lay_list label lc es g ls ->
    exists t, list_text (elem_text label ctext) es t /\ no_spaces (text ls) = t ++ no_spaces (text g).
  Proof.
    induction 1 as [e g ls H|e es g seg ls H _ _ IH].
    - apply lay_elem_text in H. destruct H as (t & Ht & E). exists t. split; [|exact E]. exists [t]. split; [now constructor|].
      cbn. now rewrite app_nil_r.
    - apply lay_elem_text in H. destruct H as (t & Ht & E). destruct IH as (t' & (ts & Hts & ->) & E').
      exists (t ++ List.concat ts). split; [exists (t :: ts); split; [now constructor|reflexivity]|].
      rewrite ns_text_app, E, E'. cbn. now rewrite app_nil_r, <- app_assoc.
  Qed.
  Lemma lay_siblings_text es w g ls : lay_siblings label lc es w g ls ->
    exists m, list_text (elem_text label ctext) es m /\ no_spaces (text ls) = m ++ no_spaces (opt_str w) ++ no_spaces (text g).
  Proof.
    intros (wl & Hw & H). apply lay_list_text in H. destruct H as (t & Ht & E). exists t. split; [exact Ht|].
    now rewrite E, ns_text_app, (wrap_of_text _ _ Hw).
  Qed.
End Text.

(** *** quoted blocks *)
Lemma spaced_text gs ls : spaced gs ls -> text ls = text (List.concat gs).
Proof.
  induction 1 as [gap H|gap g gs ls H _ IH]; [now rewrite (blank_text _ H)|].
  cbn [List.concat]. rewrite !text_app, (blank_text _ H), IH. reflexivity.
Qed.
Lemma enclosed_text os cs g inner : (forall c, In c os -> c <> chr " ") -> (forall c, In c cs -> c <> chr " ") ->
  enclosed os cs g inner -> exists o c, In o os /\ In c cs /\ no_spaces (text g) = o :: no_spaces (text inner) ++ [c].
Proof.
  intros Ho Hc H.
  assert (one : forall c, c <> chr " " -> no_spaces [c] = [c]).
  { intros c Hn. unfold no_spaces. cbn [filter]. destruct (N.eqb_spec c (chr " ")); [congruence|reflexivity]. }
  inversion H as [l m a b G Ha Hb|l m mid l' m' a b G G' Ha Hb]; subst; exists (g_ch a), (g_ch b); (split; [exact Ha|]; split; [exact Hb|]).
  - rewrite !text_one. rewrite <- (glyphs_ch l), G. cbn [map]. rewrite map_app. cbn [map]. rewrite glyphs_ch.
    change (g_ch a :: content m ++ [g_ch b]) with ([g_ch a] ++ content m ++ [g_ch b]).
    rewrite !no_spaces_app, !one by auto. reflexivity.
  - rewrite !ns_text_cons, !ns_text_app, !text_one. rewrite <- (glyphs_ch l), G, <- (glyphs_ch l'), G'. cbn [map].
    rewrite map_app. cbn [map]. rewrite !glyphs_ch. change (g_ch a :: content m) with ([g_ch a] ++ content m).
    rewrite !no_spaces_app, !one by auto. cbn [app]. now rewrite <- !app_assoc.
Qed.
Lemma enclosed_all_text os cs gs inners : (forall c, In c os -> c <> chr " ") -> (forall c, In c cs -> c <> chr " ") ->
  Forall2 (enclosed os cs) gs inners ->
  bracketed os cs (map (fun x => no_spaces (text x)) inners) (no_spaces (text (List.concat gs))).
Proof.
  intros Ho Hc. induction 1 as [|g inner gs inners H _ IH]; cbn [map List.concat]; [constructor|].
  rewrite ns_text_app. destruct (enclosed_text _ _ _ _ Ho Hc H) as (o & c & Io & Ic & ->). cbn [app].
  rewrite <- app_assoc. cbn [app]. now constructor.
Qed.
Lemma opt_some_text s : opt_str (some_text s) = s.
Proof. now destruct s. Qed.
Lemma concat_map_text (xs : list (list line)) : List.concat (map (fun x => no_spaces (text x)) xs) = no_spaces (text (List.concat xs)).
Proof. induction xs as [|x xs IH]; [reflexivity|]. cbn [map List.concat]. now rewrite ns_text_app, IH. Qed.
Lemma only_first {Q} (f : Q -> option str) x qs : qs <> [] ->
  (forall k q, nth_error qs k = Some q -> f q = if (k =? 0)%nat then x else None) ->
  List.concat (map (fun q => no_spaces (opt_str (f q))) qs) = no_spaces (opt_str x).
Proof.
  destruct qs as [|q qs]; [congruence|]. intros _ H. cbn [map List.concat]. rewrite (H 0%nat q eq_refl). cbn [Nat.eqb].
  assert (E : List.concat (map (fun q => no_spaces (opt_str (f q))) qs) = []).
  { assert (H' : forall k q, nth_error qs k = Some q -> f q = None) by (intros k q' Hk; apply (H (S k) q' Hk)).
    clear H. induction qs as [|a qs IH]; [reflexivity|]. cbn [map List.concat]. rewrite (H' 0%nat a eq_refl). cbn.
    apply IH. intros k q' Hk. apply (H' (S k) q' Hk). }
  now rewrite E, app_nil_r.
Qed.
Lemma only_last {Q} (f : Q -> option str) x qs : qs <> [] ->
  (forall k q, nth_error qs k = Some q -> f q = if (S k =? List.length qs)%nat then x else None) ->
  List.concat (map (fun q => no_spaces (opt_str (f q))) qs) = no_spaces (opt_str x).
Proof.
  induction qs as [|q qs IH]; [congruence|]. intros _ H. cbn [map List.concat]. pose proof (H 0%nat q eq_refl) as H0.
  destruct qs as [|q' qs].
  - rewrite H0. cbn. now rewrite app_nil_r.
  - rewrite H0. cbn [List.length Nat.eqb opt_str no_spaces filter app]. apply IH; [discriminate|].
    intros k r Hk. apply (H (S k) r Hk).
Qed.
Lemma not_space_brackets : (forall c, In c (lit "([") -> c <> chr " ") /\ (forall c, In c (lit ")]") -> c <> chr " ") /\
  (forall c, In c (lit "„“") -> c <> chr " ") /\ (forall c, In c (lit "”") -> c <> chr " ").
Proof. norm_lit. cbn. repeat split; intros c H; repeat (destruct H as [H|H]; [subst; discriminate|]); contradiction. Qed.
Lemma lay_quoted_text qs w ls : lay_quoted qs w ls ->
  exists m, quoted_text qs m /\ no_spaces (text ls) = m ++ no_spaces (opt_str w).
Proof.
  intros (igs & iin & bgs & wgs & win & closed & wl & -> & Hs & Hi & _ & Hb & _ & Hw & _ & Hne & Hq & ->).
  destruct not_space_brackets as (N1 & N2 & N3 & N4).
  eexists. split.
  - eexists _, _, _, _, _. split; [reflexivity|].
    split; [exact (enclosed_all_text _ _ _ _ N1 N2 Hi)|]. split.
    { rewrite (only_first qb_intro (some_text (join (List.concat iin))) qs Hne) by (intros k q Hk; apply (Hq k q Hk)).
      now rewrite concat_map_text, opt_some_text, c20_join. }
    split; [rewrite <- (map_map qb_lines (fun x => no_spaces (text x))); exact (enclosed_all_text _ _ _ _ N3 N4 Hb)|].
    split; [exact (enclosed_all_text _ _ _ _ N1 N2 Hw)|].
    rewrite (only_last qb_wrap (some_text (join (List.concat win))) qs Hne) by (intros k q Hk; apply (Hq k q Hk)).
    now rewrite concat_map_text, opt_some_text, c20_join.
  - rewrite ns_text_app, (spaced_text _ _ Hs), !concat_app, !ns_text_app, opt_some_text, c20_join. reflexivity.
Qed.

Lemma no_children_text {I} : forall (i : I) c w g ls, lay_no_children i c w g ls ->
  exists m, no_text c m /\ no_spaces (text ls) = m ++ no_spaces (opt_str w) ++ no_spaces (text g).
Proof. intros i []. Qed.
Lemma alpha_children_text_ok : forall i c w g ls, lay_alpha_children i c w g ls ->
  exists m, alpha_children_text c m /\ no_spaces (text ls) = m ++ no_spaces (opt_str w) ++ no_spaces (text g).
Proof. intros i [es|es] w g ls; cbn; apply lay_siblings_text, no_children_text. Qed.
Lemma num_children_text_ok : forall i c w g ls, lay_num_children i c w g ls ->
  exists m, num_children_text c m /\ no_spaces (text ls) = m ++ no_spaces (opt_str w) ++ no_spaces (text g).
Proof. intros i [es] w g ls; cbn; apply lay_siblings_text, no_children_text. Qed.
Lemma par_children_text_ok : forall i c w g ls, lay_par_children i c w g ls ->
  exists m, par_children_text c m /\ no_spaces (text ls) = m ++ no_spaces (opt_str w) ++ no_spaces (text g).
Proof.
  intros i [es|es|qs|b|b] w g ls; cbn; try contradiction.
  - apply lay_siblings_text, alpha_children_text_ok.
  - apply lay_siblings_text, num_children_text_ok.
  - intros [-> H]. apply lay_quoted_text in H. cbn. rewrite app_nil_r. exact H.
Qed.

(** ** articles *)
Lemma title_loop_inv ls : forall t title rest, title_loop t ls = (title, rest) ->
  exists mid, ls = mid ++ rest /\ no_spaces title = no_spaces t ++ no_spaces (text mid).
Proof.
  induction ls as [|l ls IH]; intros t title rest; cbn [title_loop]; destruct (ends_with (lit "]") t).
  - intros H. injection H as <- <-. exists []. split; [reflexivity|]. now rewrite (app_nil_r (no_spaces _)).
  - intros H. injection H as <- <-. exists []. split; [reflexivity|]. now rewrite (app_nil_r (no_spaces _)).
  - intros H. injection H as <- <-. exists []. split; [reflexivity|]. now rewrite (app_nil_r (no_spaces _)).
  - intros H. apply IH in H. destruct H as (mid & -> & E). exists (l :: mid). split; [reflexivity|].
    now rewrite E, append_no_spaces, ns_text_cons, <- app_assoc.
Qed.
Lemma extract_title_inv ls o rest : extract_title ls = Ok (o, rest) ->
  exists tls, ls = tls ++ rest /\ no_spaces (text tls) = title_text o /\ (o = None <-> tls = []).
Proof.
  unfold extract_title. destruct ls as [|l ls]; [discriminate|].
  assert (N : Ok (@None str, l :: ls) = Ok (o, rest) -> exists tls, l :: ls = tls ++ rest /\ no_spaces (text tls) = title_text o /\ (o = None <-> tls = [])).
  { intros H. apply Ok_inj in H. injection H as <- <-. exists []. cbn. tauto. }
  destruct (content l) as [|c t] eqn:Ec; [exact N|]. destruct (N.eqb_spec c 91); [|exact N]. clear N. subst c.
  destruct (title_loop t ls) as [title r] eqn:Et. apply title_loop_inv in Et. destruct Et as (mid & -> & E).
  destruct (ends_with (lit "]") title) eqn:Ee; [|discriminate]. intros H. apply Ok_inj in H. injection H as <- <-.
  apply ends_with_spec in Ee. destruct Ee as (x & ->). exists (l :: mid). split; [reflexivity|]. split.
  - rewrite ns_text_cons, Ec. norm_lit. rewrite removelast_last. change (91%N :: t) with ([91%N] ++ t). unfold title_text. norm_lit.
    rewrite !no_spaces_app, <- app_assoc. change (no_spaces [91%N]) with [91%N]. f_equal.
    rewrite <- E, no_spaces_app. reflexivity.
  - split; discriminate.
Qed.
Lemma ap_finish_inv ctx p a : ap_finish ctx p = Ok a ->
  ar_ident a = ap_id p /\ ar_change a = None /\ lay_article a (ap_lines p) /\ ordered_article a /\
  Forall (fun e => s_si e = si_default /\ s_change e = None) (ar_children a).
Proof.
  unfold ap_finish. intros H. apply obind_ok in H. destruct H as ([title ls] & Ht & H).
  apply extract_title_inv in Ht. destruct Ht as (tls & El & Et & Hn).
  destruct ls as [|l ls']; [discriminate|].
  assert (G : exists gap body, l :: ls' = gap ++ body /\ blank gap /\ (List.length gap <= 1)%nat /\ (if l_empty l then ls' else l :: ls') = body).
  { destruct (l_empty l) eqn:E.
    - exists [l], ls'. apply l_empty_iff in E. split; [reflexivity|]. split; [constructor; [exact E|constructor]|]. split; [cbn; lia|reflexivity].
    - exists [], (l :: ls'). repeat split; auto. constructor. }
  destruct G as (gap & body & Eg & Bg & Lg & Eb). rewrite Eb in H.
  destruct (extract_paragraphs ctx false true None body) as [e| |] eqn:Ex; [| |discriminate].
  - destruct (is_some (em_wrap e)) eqn:Ew; [discriminate|]. apply Ok_inj in H. subst a. cbn [ar_ident ar_title ar_children ar_change].
    apply extract_paragraphs_inv in Ex.
    pose proof (extracted_consecutive _ _ _ _ _ _ _ _ _ _ _ Ex) as Cs.
    destruct Ex as ((wl & Hw & L) & _ & _ & _ & _ & Cc & Fr & Ck & W & _).
    destruct (W eq_refl) as [W1 W2]. rewrite W1, W2 in *. destruct Hw as [[_ ->]|[Hw _]]; [|discriminate].
    split; [reflexivity|]. split; [reflexivity|]. split.
    { exists tls, gap, body. rewrite El, Eg. cbn [ar_title ar_children]. repeat split; try assumption; try apply Hn.
      right. split; [now apply Cc|exact L]. }
    split; [|exact Fr]. split; [exact Ck|]. right. exact Cs.
  - apply obind_ok in H. destruct H as ([e g] & Hp & H). apply Ok_inj in H. subst a. cbn [ar_ident ar_title ar_children ar_change].
    apply parse_paragraph_inv in Hp. destruct Hp as (Hi & Hf & Ho & Hl & Hg). rewrite (Hg eq_refl) in Hl.
    split; [reflexivity|]. split; [reflexivity|]. split.
    { exists tls, gap, body. rewrite El, Eg. cbn [ar_title ar_children]. repeat split; try assumption; try apply Hn.
      left. exists e. auto. }
    split; [|repeat constructor; apply Hf]. split; [now repeat constructor|]. left. cbn. now rewrite Hi.
Qed.
Lemma elem_text_label {I C} (l1 l2 : str -> I -> Prop) (ct : C -> str -> Prop) e t :
  (forall s i, l1 s i -> l2 s i) -> elem_text l1 ct e t -> elem_text l2 ct e t.
Proof. intros H (h & b & L & B & ->). exists h, b. auto. Qed.
Lemma lay_article_text a ls : lay_article a ls -> exists t, article_body_text a t /\ no_spaces (text ls) = t.
Proof.
  intros (tls & gap & body & -> & Et & _ & Bg & _ & H). rewrite !ns_text_app, Et, (blank_text _ Bg). cbn [no_spaces filter app].
  destruct H as [(p & Ep & Hi & L)|[_ L]].
  - apply (lay_body_text _ par_children_text par_children_text_ok) in L. destruct L as (t & Ht & ->). cbn. rewrite app_nil_r.
    eexists. split; [|reflexivity]. exists t. split; [|reflexivity]. rewrite Ep. exists [t]. split; [|symmetry; apply app_nil_r].
    constructor; [|constructor]. exists [], t. split; [right; auto|]. auto.
  - apply (lay_list_text _ _ par_children_text par_children_text_ok) in L. destruct L as (t & (ts & Ht & ->) & ->). cbn. rewrite app_nil_r.
    eexists. split; [|reflexivity]. exists (List.concat ts). split; [|reflexivity]. exists ts. split; [|reflexivity].
    induction Ht as [|e t0 es ts0 He _ IH]; constructor; [|exact IH]. revert He. apply elem_text_label. now left.
Qed.
