(** Proofs for finding elements by reference (C48). *)
From Verif Require Import ProofBase ProofIdent ProofRef ProofStruct11.
From Verif Require Export ProofWalk2.

(** ** Valid positions *)
Lemma try_par c a p : try_ref (pos_par c a p) = Ok (pos_par c a p).
Proof. unfold try_ref, check_ranges. destruct p; cbn -[is_range single]; now rewrite ?single_article, ?single_numeric. Qed.
Lemma try_point c a p q : plain_point q -> try_ref (pos_point c a p q) = Ok (pos_point c a p q).
Proof.
  intros P. unfold plain_point in P. unfold try_ref, check_ranges.
  destruct p; cbn -[is_range point_is_range single]; now rewrite ?single_article, ?single_numeric, ?P.
Qed.
Lemma try_sub c a p q t : plain_point q -> try_ref (pos_sub c a p q t) = Ok (pos_sub c a p q t).
Proof.
  intros P. unfold plain_point in P. unfold try_ref, check_ranges.
  destruct p; cbn -[is_range point_is_range single]; now rewrite ?single_article, ?single_numeric, ?P.
Qed.
(** What the elements below an article look like *)
Definition below_article (c : act_id) (a : article_id) (x : reference * any_elem) : Prop :=
  f_act (fst x) = Some c /\ f_article (fst x) = Some (single a).
Lemma alpha_elements c a p e x : In x (preorder (alpha_node c a p e)) ->
  (x = (pos_point c a p (at_alpha (s_id e)), El KAlpha e)) \/
  (exists t y, x = (pos_sub c a p (at_alpha (s_id e)) t, y)).
Proof.
  cbn. intros [<-|H]; [now left|]. right. destruct e as [id b si ch]. cbn [s_body s_id] in *. destruct b as [|i [l|l] w]; [destruct H|..];
    apply in_flat_map in H; destruct H as (n & Hn & H); apply in_map_iff in Hn; destruct Hn as (y & <- & _); destruct H as [<-|[]]; eauto.
Qed.
Lemma num_elements c a p e x : In x (preorder (num_node c a p e)) ->
  (x = (pos_point c a p (at_num (s_id e)), El KNum e)) \/
  (exists t y, x = (pos_sub c a p (at_num (s_id e)) t, y)).
Proof.
  cbn. intros [<-|H]; [now left|]. right. destruct e as [id b si ch]. cbn [s_body s_id] in *. destruct b as [|i [l] w]; [destruct H|..];
    apply in_flat_map in H; destruct H as (n & Hn & H); apply in_map_iff in Hn; destruct Hn as (y & <- & _); destruct H as [<-|[]]; eauto.
Qed.
Lemma par_elements c a e x : In x (preorder (par_node c a e)) ->
  x = (pos_par c a (s_id e), El KPar e) \/
  (exists q y, plain_point q /\ x = (pos_point c a (s_id e) q, y)) \/
  (exists q t y, plain_point q /\ x = (pos_sub c a (s_id e) q t, y)).
Proof.
  cbn. intros [<-|H]; [now left|]. right. destruct e as [id b si ch]. cbn [s_body s_id] in *.
  destruct b as [|i [l|l|l|b|b] w]; try now destruct H.
  - apply in_flat_map in H. destruct H as (n & Hn & H). apply in_map_iff in Hn. destruct Hn as (y & <- & _). apply alpha_elements in H.
    destruct H as [->|(t & z & ->)]; [left|right]; eauto 10 using plain_alpha.
  - apply in_flat_map in H. destruct H as (n & Hn & H). apply in_map_iff in Hn. destruct Hn as (y & <- & _). apply num_elements in H.
    destruct H as [->|(t & z & ->)]; [left|right]; eauto 10 using plain_num.
Qed.
Lemma act_elements a r x : In (r, x) (elements a) -> exists ar e, In ar (act_articles a) /\ In e (ar_children ar) /\
  In (r, x) (preorder (par_node (ac_id a) (ar_ident ar) e)).
Proof.
  unfold elements, act_nodes. intros H. apply in_flat_map in H. destruct H as (n & Hn & H). apply in_flat_map in Hn.
  destruct Hn as (ar & Ha & Hn). apply in_map_iff in Hn. destruct Hn as (e & <- & He). eauto.
Qed.
Lemma position_article a r x : In (r, x) (elements a) -> exists ar, In ar (act_articles a) /\
  f_act r = Some (ac_id a) /\ f_article r = Some (single (ar_ident ar)) /\ try_ref r = Ok r.
Proof.
  intros H. apply act_elements in H. destruct H as (ar & e & Ha & He & H). exists ar. split; [exact Ha|].
  apply par_elements in H. destruct H as [E|[(q & y & P & E)|(q & t & y & P & E)]]; injection E as -> _.
  - repeat split. apply try_par.
  - repeat split. now apply try_point.
  - repeat split. now apply try_sub.
Qed.

(** ** Lookup of articles *)
Lemma article_lookup a x : NoDup (map ar_ident (act_articles a)) -> In x (act_articles a) -> act_article a (ar_ident x) = Some x.
Proof.
  unfold act_article. induction (act_articles a) as [|y l IH]; intros N H; [destruct H|]. cbn in *. inversion N as [|? ? Nx Nl]; subst.
  destruct (article_eqb (ar_ident y) (ar_ident x)) eqn:E.
  - apply article_eqb_eq in E. destruct H as [->|H]; [reflexivity|]. destruct Nx. rewrite E. now apply in_map.
  - destruct H as [->|H]; [|now apply IH]. rewrite (proj2 (article_eqb_eq _ _)) in E by reflexivity. discriminate.
Qed.
Lemma article_lookup_sound a i x : act_article a i = Some x -> In x (act_articles a) /\ ar_ident x = i.
Proof. unfold act_article. intros H. apply find_some in H. destruct H as [H E]. now apply article_eqb_eq in E. Qed.
Lemma article_lookup_none a i : act_article a i = None <-> ~ In i (map ar_ident (act_articles a)).
Proof.
  unfold act_article. split.
  - intros H K. apply in_map_iff in K. destruct K as (x & <- & K). apply (find_none _ _ H) in K.
    rewrite (proj2 (article_eqb_eq _ _)) in K by reflexivity. discriminate.
  - intros H. destruct (find _ _) eqn:E; [|reflexivity]. apply find_some in E. destruct E as [E1 E2]. apply article_eqb_eq in E2.
    destruct H. rewrite <- E2. now apply in_map.
Qed.

(** ** Positions are distinct *)
Lemma NoDup_keyed {A B K} (f : A -> list B) (key : A -> K) (p : B -> K) l :
  (forall x b, In x l -> In b (f x) -> p b = key x) -> NoDup (map key l) -> (forall x, In x l -> NoDup (f x)) -> NoDup (flat_map f l).
Proof.
  intros H N F. induction l as [|x l IH]; [constructor|]. cbn in *. inversion N as [|? ? Nx Nl]; subst.
  assert (R : NoDup (flat_map f l)) by (apply IH; auto). specialize (F x (or_introl eq_refl)) as Fx.
  clear IH. revert R. assert (D : forall b, In b (f x) -> ~ In b (flat_map f l)).
  { intros b Hb Hb'. apply in_flat_map in Hb'. destruct Hb' as (y & Hy & Hb'). apply Nx. rewrite <- (H x b), (H y b); auto. now apply in_map. }
  clear -Fx D. induction Fx as [|b m Hb _ IH]; intros R; [exact R|]. cbn. constructor.
  - rewrite in_app_iff. intros [K'|K']; [contradiction|]. apply (D b); [now left|exact K'].
  - apply IH; [|exact R]. intros c Hc. apply D. now right.
Qed.
Lemma NoDup_map_inj {A B} (f : A -> B) l : (forall x y, In x l -> In y l -> f x = f y -> x = y) -> NoDup l -> NoDup (map f l).
Proof.
  intros I N. induction N as [|x l Hx _ IH]; [constructor|]. cbn. constructor.
  - intros K. apply in_map_iff in K. destruct K as (y & E & Hy). apply I in E; [subst; contradiction|now right|now left].
  - apply IH. intros; apply I; auto; now right.
Qed.
Lemma nodup_key {A B K} (f : A -> B) (g : B -> K) l : (forall x y, g x = g y -> x = y) -> NoDup (map f l) -> NoDup (map (fun x => g (f x)) l).
Proof. intros I N. rewrite <- (map_map f g). apply NoDup_map_inj; auto. Qed.
Lemma map_flat_map {A B C} (g : B -> C) (f : A -> list B) l : map g (flat_map f l) = flat_map (fun x => map g (f x)) l.
Proof. induction l; cbn; [reflexivity|]. now rewrite map_app, IHl. Qed.
Lemma flat_map_map {A B C} (g : A -> B) (f : B -> list C) l : flat_map f (map g l) = flat_map (fun x => f (g x)) l.
Proof. induction l; cbn; congruence. Qed.
Lemma single_inj {T} `{IdentCommon T} (x y : T) : single x = single y -> x = y.
Proof. unfold single. congruence. Qed.
Definition posns (n : node) : list reference := map fst (preorder n).
Lemma posns_node r x l : posns (Node r x l) = r :: flat_map posns l.
Proof. unfold posns. cbn. now rewrite map_flat_map. Qed.
Lemma leaf_nodup {I} c a p q (f : I -> ref_subpoint) (ids : list I) : (forall x y, f x = f y -> x = y) -> NoDup ids ->
  NoDup (map (fun i => pos_sub c a p q (f i)) ids).
Proof. intros F N. apply NoDup_map_inj; [|exact N]. intros x y _ _ E. apply F. unfold pos_sub in E. congruence. Qed.
Lemma alpha_sub_posns c a p q (l : list alpha_subpoint) :
  flat_map posns (map (alpha_sub_node c a p q) l) = map (fun i => pos_sub c a p q (at_alpha_sub i)) (map s_id l).
Proof. induction l; cbn; [reflexivity|]. now rewrite <- IHl. Qed.
Lemma num_sub_posns c a p q (l : list num_subpoint) :
  flat_map posns (map (num_sub_node c a p q) l) = map (fun i => pos_sub c a p q (at_num_sub i)) (map s_id l).
Proof. induction l; cbn; [reflexivity|]. now rewrite <- IHl. Qed.
Lemma not_in_subs {I} c a p q p' q' (f : I -> ref_subpoint) ids : ~ In (pos_point c a p q) (map (fun i => pos_sub c a p' q' (f i)) ids).
Proof. intros K. apply in_map_iff in K. destruct K as (x & E & _). discriminate. Qed.
Lemma alpha_posns_nodup c a p e : distinct_alpha e -> NoDup (posns (alpha_node c a p e)).
Proof.
  unfold distinct_alpha, alpha_node. rewrite posns_node. destruct e as [id b si ch]. cbn [s_body s_id].
  destruct b as [t|i [l|l] w]; intros D.
  - repeat constructor. intros [].
  - rewrite alpha_sub_posns. constructor; [apply not_in_subs|]. apply leaf_nodup; [|exact D]. intros x y E. injection E. auto.
  - rewrite num_sub_posns. constructor; [apply not_in_subs|]. apply leaf_nodup; [|exact D]. intros x y E. injection E. auto.
Qed.
Lemma num_posns_nodup c a p e : distinct_num e -> NoDup (posns (num_node c a p e)).
Proof.
  unfold distinct_num, num_node. rewrite posns_node. destruct e as [id b si ch]. cbn [s_body s_id].
  destruct b as [t|i [l] w]; intros D.
  - repeat constructor. intros [].
  - rewrite alpha_sub_posns. constructor; [apply not_in_subs|]. apply leaf_nodup; [|exact D]. intros x y E. injection E. auto.
Qed.
Lemma in_posns n r : In r (posns n) -> exists x, In (r, x) (preorder n).
Proof. unfold posns. intros H. apply in_map_iff in H. destruct H as ((r' & x) & <- & H). eauto. Qed.
Lemma par_posns_nodup c a e : distinct_par e -> NoDup (posns (par_node c a e)).
Proof.
  unfold distinct_par, par_node. rewrite posns_node. destruct e as [id b si ch]. cbn [s_body s_id].
  assert (One : forall r : reference, NoDup [r]) by (intros; repeat constructor; intros []).
  destruct b as [t|i [l|l|l|b|b] w]; intros D; try apply One.
  - destruct D as [D F]. constructor.
    + intros K. apply in_flat_map in K. destruct K as (n & Hn & K). apply in_map_iff in Hn. destruct Hn as (y & <- & _).
      apply in_posns in K. destruct K as (x & K). apply alpha_elements in K. destruct K as [E|(t & z & E)]; discriminate E.
    + rewrite flat_map_map. apply NoDup_keyed with (key := fun e : alpha_point => Some (at_alpha (s_id e))) (p := f_point).
      * intros x r _ K. apply in_posns in K. destruct K as (y & K). apply alpha_elements in K. destruct K as [E|(t & z & E)]; injection E as -> _; reflexivity.
      * apply (nodup_key (fun e : alpha_point => s_id e) (fun i => Some (at_alpha i))); [|exact D]. intros x y E. unfold at_alpha in E. injection E as E _. exact E.
      * intros x Hx. apply alpha_posns_nodup. rewrite Forall_forall in F. now apply F.
  - destruct D as [D F]. constructor.
    + intros K. apply in_flat_map in K. destruct K as (n & Hn & K). apply in_map_iff in Hn. destruct Hn as (y & <- & _).
      apply in_posns in K. destruct K as (x & K). apply num_elements in K. destruct K as [E|(t & z & E)]; discriminate E.
    + rewrite flat_map_map. apply NoDup_keyed with (key := fun e : num_point => Some (at_num (s_id e))) (p := f_point).
      * intros x r _ K. apply in_posns in K. destruct K as (y & K). apply num_elements in K. destruct K as [E|(t & z & E)]; injection E as -> _; reflexivity.
      * apply (nodup_key (fun e : num_point => s_id e) (fun i => Some (at_num i))); [|exact D]. intros x y E. unfold at_num in E. injection E as E _. exact E.
      * intros x Hx. apply num_posns_nodup. rewrite Forall_forall in F. now apply F.
Qed.
Lemma positions_nodup a : distinct_act a -> NoDup (positions a).
Proof.
  intros [N F]. unfold positions, elements, act_nodes. rewrite map_flat_map, flat_map_flat_map.
  apply NoDup_keyed with (key := fun x : article => Some (single (ar_ident x))) (p := f_article).
  - intros x r _ K. apply in_flat_map in K. destruct K as (n & Hn & K). apply in_map_iff in Hn. destruct Hn as (e & <- & _).
    apply in_posns in K. destruct K as (y & K). apply par_elements in K.
    destruct K as [E|[(q & z & _ & E)|(q & t & z & _ & E)]]; injection E as -> _; reflexivity.
  - apply (nodup_key (fun x : article => ar_ident x) (fun i => Some (single i))); [|exact N]. intros x y E. unfold single in E. congruence.
  - intros x Hx. rewrite Forall_forall in F. destruct (F x Hx) as [D Fp]. rewrite flat_map_map.
    apply NoDup_keyed with (key := fun e : paragraph => option_map single (s_id e)) (p := f_paragraph).
    + intros e r _ K. apply in_posns in K. destruct K as (y & K). apply par_elements in K.
      destruct K as [E|[(q & z & _ & E)|(q & t & z & _ & E)]]; injection E as -> _; reflexivity.
    + apply (nodup_key (fun e : paragraph => s_id e) (option_map single)); [|exact D].
      intros [u|] [w|] E; try discriminate; [|reflexivity]. cbn in E. unfold single in E. congruence.
    + intros e He. apply par_posns_nodup. rewrite Forall_forall in Fp. now apply Fp.
Qed.
Lemma NoDup_fst_unique {A B} (l : list (A * B)) a b c : NoDup (map fst l) -> In (a, b) l -> In (a, c) l -> b = c.
Proof.
  induction l as [|(x & y) l IH]; intros N H K; [destruct H|]. cbn in N. inversion N as [|? ? Nx Nl]; subst.
  destruct H as [H|H], K as [K|K].
  - congruence.
  - injection H as -> ->. destruct Nx. change a with (fst (a, c)). now apply in_map.
  - injection K as -> ->. destruct Nx. change a with (fst (a, b)). now apply in_map.
  - now apply IH.
Qed.
Lemma element_unique a r x y : distinct_act a -> In (r, x) (elements a) -> In (r, y) (elements a) -> x = y.
Proof. intros D. apply NoDup_fst_unique. now apply positions_nodup. Qed.
