(** The statements of PropertiesStruct, put together from the earlier lemmas. *)
From Verif Require Import ProofBase ProofIdent ProofIdent2 ProofIdent3 ProofIdent4 ProofText ProofText2.
From Verif Require Export ProofStruct10.

Lemma parse_act_inv rf up raw a : parse_act_structure rf up raw = Ok a ->
  parse_complex_body rf up FullAct (ar_body raw) = Ok (ac_preamble a, ac_children a).
Proof.
  unfold parse_act_structure. intros H. apply obind_ok in H. destruct H as ((p & cs) & E & H). apply Ok_inj in H. now subst a.
Qed.
Lemma c28_body rf up ctx ls p cs : parse_complex_body rf up ctx ls = Ok (p, cs) ->
  (forall a, In (ChArticle a) cs -> ordered_article a) /\ chain article_succ (article_ids cs) /\
  (ctx = FullAct -> match article_ids cs with i :: _ => article_one i | [] => True end).
Proof.
  intros H. apply parse_complex_body_inv in H. destruct H as (pl & body & _ & _ & _ & _ & F & C & _). split.
  - intros a Ha. rewrite Forall_forall in C. apply C in Ha. apply Ha.
  - unfold from in F. destruct F as [F1 F2]. split; [exact F1|]. intros ->. destruct (article_ids cs); [exact I|]. cbn in F2. auto.
Qed.
Lemma c28_act rf up raw a : parse_act_structure rf up raw = Ok a ->
  (forall x, In (ChArticle x) (ac_children a) -> ordered_article x) /\ chain article_succ (article_ids (ac_children a)) /\
  match article_ids (ac_children a) with i :: _ => article_one i | [] => True end.
Proof. intros H. apply parse_act_inv, c28_body in H. destruct H as (A & B & C). specialize (C eq_refl). auto. Qed.

Lemma c29_siblings {I C} (label : str -> I -> Prop) (lc : I -> C -> option str -> list line -> list line -> Prop) (ctext : C -> str -> Prop) first succ eqb (ok : I -> C -> Prop) iok ctx w c e ls r :
  (forall i c w g ls, lc i c w g ls -> exists m, ctext c m /\ no_spaces (text ls) = m ++ no_spaces (opt_str w) ++ no_spaces (text g)) ->
  extracted label lc first succ eqb ok iok ctx w c e ls r ->
  exists m, list_text (elem_text label ctext) (em_elems r) m /\
    no_spaces (text ls) = m ++ no_spaces (opt_str (em_wrap r)) ++ no_spaces (text (em_rest r)).
Proof. intros Hc (L & _). exact (lay_siblings_text label lc ctext Hc _ _ _ _ L). Qed.
Lemma c29_num_sub ctx w c e ls r : extract_num_subpoints ctx w c e ls = Ok r ->
  exists m, list_text (elem_text num_label no_text) (em_elems r) m /\
    no_spaces (text ls) = m ++ no_spaces (opt_str (em_wrap r)) ++ no_spaces (text (em_rest r)).
Proof. intros H. apply extract_num_subpoints_inv in H. revert H. apply c29_siblings. apply no_children_text. Qed.
Lemma c29_alpha_sub p ctx w c e ls r : extract_alpha_subpoints p ctx w c e ls = Ok r ->
  exists m, list_text (elem_text alpha_sub_label no_text) (em_elems r) m /\
    no_spaces (text ls) = m ++ no_spaces (opt_str (em_wrap r)) ++ no_spaces (text (em_rest r)).
Proof. intros H. apply extract_alpha_subpoints_inv in H. revert H. apply c29_siblings. apply no_children_text. Qed.
Lemma c29_num ctx w c e ls r : extract_num_points ctx w c e ls = Ok r ->
  exists m, list_text (elem_text num_label num_children_text) (em_elems r) m /\
    no_spaces (text ls) = m ++ no_spaces (opt_str (em_wrap r)) ++ no_spaces (text (em_rest r)).
Proof. intros H. apply extract_num_points_inv in H. revert H. apply c29_siblings. apply num_children_text_ok. Qed.
Lemma c29_alpha ctx w c e ls r : extract_alpha_points ctx w c e ls = Ok r ->
  exists m, list_text (elem_text alpha_label alpha_children_text) (em_elems r) m /\
    no_spaces (text ls) = m ++ no_spaces (opt_str (em_wrap r)) ++ no_spaces (text (em_rest r)).
Proof. intros H. apply extract_alpha_points_inv in H. revert H. apply c29_siblings. apply alpha_children_text_ok. Qed.
Lemma c29_par ctx w c e ls r : extract_paragraphs ctx w c e ls = Ok r ->
  exists m, list_text (elem_text par_label par_children_text) (em_elems r) m /\
    no_spaces (text ls) = m ++ no_spaces (opt_str (em_wrap r)) ++ no_spaces (text (em_rest r)).
Proof. intros H. apply extract_paragraphs_inv in H. revert H. apply c29_siblings. apply par_children_text_ok. Qed.
Lemma c29_article ctx p a : ap_finish ctx p = Ok a -> article_body_text a (no_spaces (text (ap_lines p))).
Proof.
  intros H. apply ap_finish_inv in H. destruct H as (_ & _ & L & _). apply lay_article_text in L.
  destruct L as (t & Ht & E). now rewrite E.
Qed.

Lemma c30_body rf up ctx ls p cs : parse_complex_body rf up ctx ls = Ok (p, cs) ->
  exists pl body, ls = pl ++ body /\ p = join pl /\ balanced pl /\ lay_act rf cs body /\
    chain article_succ (article_ids cs) /\ (ctx = BlockAm -> p = []).
Proof.
  intros H. apply parse_complex_body_inv in H. destruct H as (pl & body & E & P & B & L & F & _ & N).
  exists pl, body. destruct F as [F _]. auto 10.
Qed.
Lemma c31_body rf up ctx ls p cs : parse_complex_body rf up ctx ls = Ok (p, cs) ->
  exists pl body, ls = pl ++ body /\ balanced pl /\ balanced body /\ opened_outside_quotes (act_header rf) cs body.
Proof.
  intros H. apply parse_complex_body_inv in H. destruct H as (pl & body & E & _ & B & L & _).
  exists pl, body. split; [exact E|]. split; [exact B|]. split; [now apply lay_act_balanced in L|now apply lay_act_opened].
Qed.
Definition sibling_header {I C} (label : str -> I -> Prop) (e : sae I C) (hl : line) : Prop := exists r, heads label hl (s_id e) r.
Lemma c31_num_sub ctx w c e ls r : extract_num_subpoints ctx w c e ls = Ok r ->
  opened_outside_quotes (sibling_header num_label) (em_elems r) ls /\ balanced ls.
Proof. intros H. apply extract_num_subpoints_inv in H. destruct H as (L & B & _). split; [|exact B]. now apply lay_siblings_opened in L. Qed.
Lemma c31_alpha_sub p ctx w c e ls r : extract_alpha_subpoints p ctx w c e ls = Ok r ->
  opened_outside_quotes (sibling_header alpha_sub_label) (em_elems r) ls /\ balanced ls.
Proof. intros H. apply extract_alpha_subpoints_inv in H. destruct H as (L & B & _). split; [|exact B]. now apply lay_siblings_opened in L. Qed.
Lemma c31_num ctx w c e ls r : extract_num_points ctx w c e ls = Ok r ->
  opened_outside_quotes (sibling_header num_label) (em_elems r) ls /\ balanced ls.
Proof. intros H. apply extract_num_points_inv in H. destruct H as (L & B & _). split; [|exact B]. now apply lay_siblings_opened in L. Qed.
Lemma c31_alpha ctx w c e ls r : extract_alpha_points ctx w c e ls = Ok r ->
  opened_outside_quotes (sibling_header alpha_label) (em_elems r) ls /\ balanced ls.
Proof. intros H. apply extract_alpha_points_inv in H. destruct H as (L & B & _). split; [|exact B]. now apply lay_siblings_opened in L. Qed.
Lemma c31_par ctx w c e ls r : extract_paragraphs ctx w c e ls = Ok r ->
  opened_outside_quotes (sibling_header par_label) (em_elems r) ls /\ balanced ls.
Proof. intros H. apply extract_paragraphs_inv in H. destruct H as (L & B & _). split; [|exact B]. now apply lay_siblings_opened in L. Qed.
Lemma c31_parts ctx id ls e g : parse_paragraph ctx KeepIt id ls = Ok (e, g) ->
  lay_body lay_par_children id (s_body e) [] ls.
Proof. intros H. apply parse_paragraph_inv in H. destruct H as (_ & _ & _ & L & K). now rewrite (K eq_refl) in L. Qed.
Lemma c49_quoted prev ls r : extract_quoted prev ls = Ok r ->
  lay_quoted (em_elems r) (em_wrap r) ls /\ em_rest r = [].
Proof. intros H. apply extract_quoted_inv in H. tauto. Qed.
Lemma c49_text prev ls r : extract_quoted prev ls = Ok r ->
  exists m, quoted_text (em_elems r) m /\ no_spaces (text ls) = m ++ no_spaces (opt_str (em_wrap r)).
Proof. intros H. apply extract_quoted_inv in H. destruct H as (_ & L). now apply lay_quoted_text. Qed.
(** The lines of a block have balanced quotes also without the enclosing ones. *)
Lemma enclosed_depth ls m : enclosed (lit "„“") (lit "”") ls m -> depth (text m) = depth (text ls).
Proof.
  assert (D : forall s t : str, depth (s ++ t) = (depth s + depth t)%Z) by (intros; apply depth_app).
  assert (O : forall a, In a (lit "„“") -> depth [a] = 1%Z) by (intros a Ha; change (lit "„“") with [8222; 8220]%N in Ha; destruct Ha as [<-|[<-|[]]]; vm_compute; reflexivity).
  assert (K : forall a, In a (lit "”") -> depth [a] = (-1)%Z) by (intros a Ha; change (lit "”") with [8221]%N in Ha; destruct Ha as [<-|[]]; vm_compute; reflexivity).
  assert (T : forall ls ls' : list line, text (ls ++ ls') = text ls ++ text ls') by (intros; unfold text; now rewrite map_app, concat_app).
  intros [l m1 a b E Ha Hb|l m1 mid l' m' a b E E' Ha Hb]; apply O in Ha; apply K in Hb.
  - unfold text. cbn [map List.concat]. rewrite !app_nil_r, <- !glyphs_ch, E. change (a :: glyphs m1 ++ [b]) with ([a] ++ glyphs m1 ++ [b]).
    rewrite !map_app, !D. cbn [map]. rewrite Ha, Hb. lia.
  - change (l :: mid ++ [l']) with ([l] ++ mid ++ [l']). change (m1 :: mid ++ [m']) with ([m1] ++ mid ++ [m']). rewrite !T, !D.
    unfold text at 1 3 4 6. cbn [map List.concat]. rewrite !app_nil_r, <- !glyphs_ch, E, E'.
    change (a :: glyphs m1) with ([a] ++ glyphs m1). rewrite !map_app, !D. cbn [map]. rewrite Ha, Hb. lia.
Qed.
Lemma c49_inner prev ls r : extract_quoted prev ls = Ok r -> Forall (fun q => balanced (qb_lines q)) (em_elems r).
Proof.
  intros H. apply c49_quoted in H. destruct H as ((igs & iin & bgs & wgs & win & closed & wl & _ & _ & _ & _ & F & W & _) & _).
  revert bgs F W. induction (em_elems r) as [|q qs IH]; intros bgs F W; [constructor|]. cbn in F. inversion F as [|g x gs xs He Hf]; subst.
  inversion W as [|? ? Hg Hgs]; subst. constructor; [|now apply (IH gs)]. apply enclosed_depth in He. unfold balanced. rewrite He. apply Hg.
Qed.
(** A way to see that a line is plain *)
Lemma plain_line_by rf up ctx l : first_se rf se_types l = Ok None ->
  (forall b, try_subtitle up ctx b l = Ok None) -> parse_header match_article article_parse [] l = Ok None -> plain_line rf up ctx l.
Proof.
  intros A B C f pe. unfold act_header_line. rewrite A. cbn. rewrite B. cbn. unfold try_article. rewrite C. unfold ensure. now destruct (match af_indent f with Some _ => _ | None => _ end).
Qed.
