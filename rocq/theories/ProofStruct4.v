(** The five element parsers: layout and consecutive identifiers (C28, C31). *)
From Verif Require Import ProofBase ProofIdent ProofIdent2 ProofIdent3 ProofIdent4 ProofText ProofText2.
From Verif Require Export ProofStruct3.

(** *** labels contain no quotes *)
Definition ascii_str (s : str) : Prop := Forall (fun c => (c < 128)%N) s.
Lemma ascii_depth s : ascii_str s -> depth s = 0%Z.
Proof.
  induction 1 as [|c s Hc _ IH]; [reflexivity|]. change (c :: s) with ([c] ++ s). rewrite depth_app, IH.
  unfold depth, opening, closing. cbn [count]. norm_lit.
  destruct (N.eqb_spec c 8222), (N.eqb_spec c 8220), (N.eqb_spec c 8221); cbn; lia.
Qed.
Lemma ascii_app a b : ascii_str a -> ascii_str b -> ascii_str (a ++ b).
Proof. intros. now apply Forall_app. Qed.
Lemma spelling_ascii s x : spelling s x -> ascii_str s.
Proof.
  intros H. inversion H as [c Hc|c Hc|a b d s0 Hin Hs]; subst.
  - repeat constructor. lia.
  - repeat constructor. lia.
  - cbn in Hin. repeat (destruct Hin as [Hin|Hin]; [injection Hin as <- <- <-; cbn in Hs;
      repeat (destruct Hs as [Hs|Hs]; [subst s; repeat constructor|]); contradiction|]). contradiction.
Qed.
Lemma dec_ascii s n : denotes_dec s n -> ascii_str s.
Proof. induction 1; [repeat constructor; lia|]. apply ascii_app; [assumption|]. repeat constructor. lia. Qed.
Lemma numeric_ascii s n : numeric_spelling s n -> ascii_str s.
Proof.
  intros H. inversion H; subst; eauto using dec_ascii, spelling_ascii, ascii_app.
  apply ascii_app; [eauto using dec_ascii|]. apply ascii_app; [repeat constructor|]. eauto using spelling_ascii.
Qed.
Lemma par_label_ascii s i : par_label s i -> ascii_str s.
Proof. intros (d & n & _ & H & ->). apply numeric_ascii in H. norm_lit. apply ascii_app; [repeat constructor|]. apply ascii_app; [assumption|repeat constructor]. Qed.
Lemma num_label_ascii s i : num_label s i -> ascii_str s.
Proof. intros (d & H & ->). apply numeric_ascii in H. norm_lit. apply ascii_app; [assumption|repeat constructor]. Qed.
Lemma alpha_label_ascii s i : alpha_label s i -> ascii_str s.
Proof. intros (d & H & ->). apply spelling_ascii in H. norm_lit. apply ascii_app; [assumption|repeat constructor]. Qed.
Lemma alpha_sub_label_ascii s i : alpha_sub_label s i -> ascii_str s.
Proof.
  intros (d & -> & H). norm_lit. apply ascii_app; [|repeat constructor]. destruct (p_prefix i).
  - destruct H as (x & y & -> & Hx & Hy). apply ascii_app; eauto using spelling_ascii.
  - eauto using spelling_ascii.
Qed.

(** *** identifiers of headers are valid *)
Lemma spelling_ok s x : spelling s x -> hic_ok x = true.
Proof. intros H. apply hic_parse_spelling in H. now apply hic_parse_ok in H. Qed.
Lemma numeric_spelling_ok s x : numeric_spelling s x -> numeric_ok x = true.
Proof. intros H. apply numeric_parse_spelling in H. now apply numeric_parse_ok in H. Qed.
Lemma heads_label {I} (label : str -> I -> Prop) l i r : heads label l i r -> exists s, label s i.
Proof. intros (s & ? & ? & H & _). eauto. Qed.
Lemma alpha_sub_ok s i : alpha_sub_label s i -> prefixed_ok i = true.
Proof.
  intros (d & _ & H). unfold prefixed_ok. destruct (p_prefix i).
  - destruct H as (x & y & _ & Hx & Hy). now rewrite (spelling_ok _ _ Hx), (spelling_ok _ _ Hy).
  - now rewrite (spelling_ok _ _ H).
Qed.

Lemma chain_impl {A} (P : A -> Prop) (R S : A -> A -> Prop) l : (forall x y, P x -> P y -> R x y -> S x y) ->
  Forall P l -> chain R l -> chain S l.
Proof.
  intros H Hf Hc. induction Hc as [|x|x y l Hr Hc IH]; constructor; inversion Hf; subst.
  - inversion H3; subst. auto.
  - auto.
Qed.
Lemma starting_intro {I} (P : I -> Prop) (first : I -> bool) (first' : I -> Prop) (next : I -> I -> bool) (succ : I -> I -> Prop) ids i is :
  (forall x, first x = true -> first' x) -> (forall x y, P x -> P y -> next x y = true -> succ x y) ->
  Forall P ids -> chain (fun y x => next y x = true) ids -> ids = i :: is -> first i = true -> starting first' succ ids.
Proof.
  intros Hf Hn Hp Hc -> Hi. split; [|now apply Hf]. eapply chain_impl; [|exact Hp|exact Hc]. auto.
Qed.

Lemma lay_siblings_keep {I C} label (lc : I -> C -> option str -> list line -> list line -> Prop) es w g ls :
  lay_siblings label lc es w g ls -> lay_siblings label lc es (keep_rest w g) [] ls.
Proof.
  intros (wl & Hw & Hl). exists (wl ++ g). rewrite app_nil_r. split; [now apply wrap_of_app|exact Hl].
Qed.
(** The result of [extract_multiple] in one statement. *)
Definition extracted {I C} (label : str -> I -> Prop) lc (first : I -> Prop) (succ : I -> I -> Prop) (eqb : I -> I -> bool) (ok : I -> C -> Prop) (iok : I -> Prop)
    (ctx : pctx) (w c : bool) (exp : option I) (ls : list line) (r : em_result (list (sae I C))) : Prop :=
  lay_siblings label lc (em_elems r) (em_wrap r) (em_rest r) ls /\ balanced ls /\
  chain succ (map s_id (em_elems r)) /\ Forall iok (map s_id (em_elems r)) /\
  (exists i is, map s_id (em_elems r) = i :: is /\ match exp with Some e => eqb i e = true | None => first i end) /\
  (c = true -> (2 <= List.length (em_elems r))%nat) /\
  Forall (fun e => s_si e = si_default /\ s_change e = None) (em_elems r) /\
  Forall (children_of ok) (em_elems r) /\
  (w = false -> em_wrap r = None /\ em_rest r = []) /\ (ctx = FullAct -> em_rest r = []).
Lemma extracted_intro {I C} `{IdentCommon I} header (children : pctx -> I -> option line -> list line -> outcome (em_result C))
    label lc iok ok (first : I -> Prop) (succ : I -> I -> Prop) ctx w c exp ls r :
  (forall l i r, header l = Ok (Some (i, r)) -> heads label l i r /\ iok i) ->
  (forall s i, label s i -> ascii_str s) ->
  (forall ctx i prev ls e, children ctx i prev ls = Ok e -> lc i (em_elems e) (em_wrap e) (em_rest e) ls /\ ok i (em_elems e)) ->
  (forall i c w g ls, lc i c w g ls -> lc i c (keep_rest w g) [] ls) ->
  (forall x, id_first x = true -> first x) ->
  (forall x y, iok x -> iok y -> id_next x y = true -> succ x y) ->
  extract_multiple header children ctx w c exp ls = Ok r -> extracted label lc first succ id_eqb ok iok ctx w c exp ls r.
Proof.
  intros H1 H2 H3 H4 H5 H6 Hx.
  destruct (extract_multiple_inv header children label lc iok ok H1 (fun s i h => ascii_depth s (H2 s i h)) H3 H4 _ _ _ _ _ _ Hx)
    as (A & B & Ch & (i & is & Ei & Ef) & Cc & Fr & Ck & Ik & W & Fa).
  split; [exact A|]. split; [exact B|]. split.
  { eapply chain_impl; [|exact Ik|exact Ch]. auto. }
  split; [exact Ik|]. split.
  { exists i, is. split; [exact Ei|]. destruct exp; auto. }
  repeat split; try assumption; try (now apply W).
Qed.
Lemma extracted_consecutive {I C} label lc first (succ : I -> I -> Prop) eqb (ok : I -> C -> Prop) iok ctx w ls r :
  extracted label lc first succ eqb ok iok ctx w true None ls r -> consecutive first succ (map s_id (em_elems r)).
Proof.
  intros (_ & _ & Ch & _ & (i & is & Ei & Ef) & Cc & _). split; [rewrite map_length; now apply Cc|].
  split; [exact Ch|]. now rewrite Ei.
Qed.

Definition no_ok {I} (i : I) (c : Empty_set) : Prop := False.
Lemma no_children_lay {I} : forall ctx (i : I) prev ls e, @no_children I Empty_set ctx i prev ls = Ok e ->
  lay_no_children i (em_elems e) (em_wrap e) (em_rest e) ls /\ no_ok i (em_elems e).
Proof. discriminate. Qed.
Lemma no_children_keep {I} : forall (i : I) c w g ls, lay_no_children i c w g ls -> lay_no_children i c (keep_rest w g) [] ls.
Proof. intros i []. Qed.
Lemma num_first_one x : numeric_first x = true -> num_one x.
Proof. apply numeric_first_eq. Qed.
Lemma num_next_succ x y : numeric_ok x = true -> numeric_ok y = true -> numeric_next x y = true -> num_succ x y.
Proof. intros Hx Hy. now apply (proj1 (proj2 c06_exact)). Qed.
Lemma numeric_header_ok l i r : numeric_header l = Ok (Some (i, r)) -> heads num_label l i r /\ numeric_ok i = true.
Proof.
  intros H. apply numeric_header_heads in H. split; [exact H|]. apply heads_label in H. destruct H as (s & d & H & _).
  now apply numeric_spelling_ok in H.
Qed.
Lemma alpha_header_ok l i r : alpha_point_header l = Ok (Some (i, r)) -> heads alpha_label l i r /\ hic_ok i = true.
Proof.
  intros H. apply alpha_header_heads in H. split; [exact H|]. apply heads_label in H. destruct H as (s & d & H & _).
  now apply spelling_ok in H.
Qed.
Lemma alpha_sub_header_ok p l i r : alpha_subpoint_header p l = Ok (Some (i, r)) ->
  heads alpha_sub_label l i r /\ (prefixed_ok i = true /\ p_prefix i = p).
Proof.
  intros H. apply alpha_sub_header_heads in H. destruct H as [H Hp]. split; [exact H|]. split; [|exact Hp].
  apply heads_label in H. destruct H as (s & H). now apply alpha_sub_ok in H.
Qed.
Lemma paragraph_header_ok l i r : paragraph_header l = Ok (Some (i, r)) ->
  heads par_label l i r /\ paragraph_ok i = true.
Proof.
  intros H. apply paragraph_header_heads in H. split; [exact H|]. apply heads_label in H.
  destruct H as (s & d & n & -> & H & _). now apply numeric_spelling_ok in H.
Qed.

Lemma extract_num_subpoints_inv ctx w c e ls r : extract_num_subpoints ctx w c e ls = Ok r ->
  extracted num_label lay_no_children num_one num_succ numeric_eqb no_ok (fun i => numeric_ok i = true) ctx w c e ls r.
Proof.
  unfold extract_num_subpoints. apply (extracted_intro (H := numeric_common)).
  - apply numeric_header_ok.
  - apply num_label_ascii.
  - apply no_children_lay.
  - apply no_children_keep.
  - apply num_first_one.
  - apply num_next_succ.
Qed.
Lemma extract_alpha_subpoints_inv p ctx w c e ls r : extract_alpha_subpoints p ctx w c e ls = Ok r ->
  extracted alpha_sub_label lay_no_children sub_a sub_succ prefixed_eqb no_ok (fun i => prefixed_ok i = true /\ p_prefix i = p) ctx w c e ls r.
Proof.
  unfold extract_alpha_subpoints. apply (extracted_intro (H := prefixed_common)).
  - apply alpha_sub_header_ok.
  - apply alpha_sub_label_ascii.
  - apply no_children_lay.
  - apply no_children_keep.
  - intros x. cbn. unfold prefixed_first. now rewrite hic_first_eq.
  - intros x y [Hx _] [Hy _]. now apply (proj1 (proj2 (proj2 (proj2 c06_exact)))).
Qed.
Lemma omap_ok {A B} (f : A -> B) x y : omap f x = Ok y -> exists a, x = Ok a /\ y = f a.
Proof. destruct x; cbn; intros H; try discriminate. apply Ok_inj in H. eauto. Qed.
Lemma or_else_ok {A} (x y : outcome A) r : or_else x y = Ok r -> x = Ok r \/ (x = Err /\ y = Ok r).
Proof. destruct x; cbn; auto; discriminate. Qed.
Lemma prefixes {C} (p : option hic) (es : list (sae prefixed C)) : Forall (fun i => prefixed_ok i = true /\ p_prefix i = p) (map s_id es) ->
  Forall (fun s => p_prefix (s_id s) = p) es.
Proof. rewrite Forall_map. apply Forall_impl. tauto. Qed.
Lemma num_point_children_inv : forall ctx i prev ls e, num_point_children ctx i prev ls = Ok e ->
  lay_num_children i (em_elems e) (em_wrap e) (em_rest e) ls /\ ordered_num_children i (em_elems e).
Proof.
  unfold num_point_children. intros ctx i prev ls e H. apply omap_ok in H. destruct H as (r & H & ->).
  apply extract_alpha_subpoints_inv in H. cbn [em_map em_elems em_wrap em_rest]. split; [apply H|].
  cbn. split; [eapply extracted_consecutive; exact H|]. apply prefixes, H.
Qed.
Lemma num_children_keep : forall i c w g ls, lay_num_children i c w g ls -> lay_num_children i c (keep_rest w g) [] ls.
Proof. intros i [es] w g ls. apply lay_siblings_keep. Qed.
Lemma alpha_point_children_inv : forall ctx i prev ls e, alpha_point_children ctx i prev ls = Ok e ->
  lay_alpha_children i (em_elems e) (em_wrap e) (em_rest e) ls /\ ordered_alpha_children i (em_elems e).
Proof.
  unfold alpha_point_children. intros ctx i prev ls e H. apply or_else_ok in H. destruct H as [H|[_ H]].
  - apply omap_ok in H. destruct H as (r & H & ->). apply extract_num_subpoints_inv in H.
    cbn [em_map em_elems em_wrap em_rest]. split; [apply H|]. cbn. eapply extracted_consecutive; exact H.
  - apply omap_ok in H. destruct H as (r & H & ->). apply extract_alpha_subpoints_inv in H.
    cbn [em_map em_elems em_wrap em_rest]. split; [apply H|].
    cbn. split; [eapply extracted_consecutive; exact H|]. apply prefixes, H.
Qed.
Lemma alpha_children_keep : forall i c w g ls, lay_alpha_children i c w g ls -> lay_alpha_children i c (keep_rest w g) [] ls.
Proof. intros i [es|es] w g ls; apply lay_siblings_keep. Qed.
Lemma extract_num_points_inv ctx w c e ls r : extract_num_points ctx w c e ls = Ok r ->
  extracted num_label lay_num_children num_one num_succ numeric_eqb ordered_num_children (fun i => numeric_ok i = true) ctx w c e ls r.
Proof.
  unfold extract_num_points. apply (extracted_intro (H := numeric_common)).
  - apply numeric_header_ok.
  - apply num_label_ascii.
  - apply num_point_children_inv.
  - apply num_children_keep.
  - apply num_first_one.
  - apply num_next_succ.
Qed.
Lemma extract_alpha_points_inv ctx w c e ls r : extract_alpha_points ctx w c e ls = Ok r ->
  extracted alpha_label lay_alpha_children alpha_a follows hic_eqb ordered_alpha_children (fun i => hic_ok i = true) ctx w c e ls r.
Proof.
  unfold extract_alpha_points. apply (extracted_intro (H := hic_common)).
  - apply alpha_header_ok.
  - apply alpha_label_ascii.
  - apply alpha_point_children_inv.
  - apply alpha_children_keep.
  - intros x. cbn. now rewrite hic_first_eq.
  - intros x y Hx Hy. now apply (proj1 c06_exact).
Qed.
Lemma paragraph_children_inv : forall ctx i prev ls e, paragraph_children ctx i prev ls = Ok e ->
  lay_par_children i (em_elems e) (em_wrap e) (em_rest e) ls /\ ordered_par_children i (em_elems e).
Proof.
  unfold paragraph_children. intros ctx i prev ls e H. apply or_else_ok in H. destruct H as [H|[_ H]].
  - apply omap_ok in H. destruct H as (r & H & ->). apply extract_quoted_inv in H.
    cbn [em_map em_elems em_wrap em_rest]. split; [apply H|]. cbn. destruct H as (_ & ? & ? & ? & ? & ? & ? & ? & H). apply H.
  - apply or_else_ok in H. destruct H as [H|[_ H]]; apply omap_ok in H; destruct H as (r & H & ->).
    + apply extract_num_points_inv in H. cbn [em_map em_elems em_wrap em_rest]. split; [apply H|].
      cbn. split; [eapply extracted_consecutive; exact H|apply H].
    + apply extract_alpha_points_inv in H. cbn [em_map em_elems em_wrap em_rest]. split; [apply H|].
      cbn. split; [eapply extracted_consecutive; exact H|apply H].
Qed.
Lemma par_children_keep : forall i c w g ls, lay_par_children i c w g ls -> lay_par_children i c (keep_rest w g) [] ls.
Proof.
  intros i c w g ls. destruct c; cbn; try apply lay_siblings_keep; try contradiction.
  intros [-> H]. now split.
Qed.
Lemma extract_paragraphs_inv ctx w c e ls r : extract_paragraphs ctx w c e ls = Ok r ->
  extracted par_label lay_par_children par_one par_succ paragraph_eqb ordered_par_children (fun i => paragraph_ok i = true) ctx w c e ls r.
Proof.
  unfold extract_paragraphs. apply (extracted_intro (H := paragraph_common)).
  - apply paragraph_header_ok.
  - apply par_label_ascii.
  - apply paragraph_children_inv.
  - apply par_children_keep.
  - intros [x|]; cbn; [|discriminate]. rewrite numeric_first_eq. intros ->. reflexivity.
  - intros x y Hx Hy. now apply (proj2 (proj2 (proj2 (proj2 c06_exact)))).
Qed.
Lemma parse_paragraph_inv ctx mode id ls e g : parse_paragraph ctx mode id ls = Ok (e, g) ->
  s_id e = id /\ (s_si e = si_default /\ s_change e = None) /\ children_of ordered_par_children e /\
  lay_body lay_par_children id (s_body e) g ls /\ (mode = KeepIt -> g = []).
Proof.
  unfold parse_paragraph. intros H.
  destruct (sae_parse_inv paragraph_header paragraph_children par_label lay_par_children _ ordered_par_children paragraph_header_ok
      (fun s i h => ascii_depth s (par_label_ascii s i h)) paragraph_children_inv par_children_keep _ _ _ _ _ _ H)
    as (A & B & Cc & D & E).
  split; [exact A|]. split; [exact B|]. split; [|split; assumption].
  unfold children_of. unfold body_cok in Cc. rewrite A. exact Cc.
Qed.
