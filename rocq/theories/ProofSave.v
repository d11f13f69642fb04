(** Proofs about ModelSave: data that fit are read as they were written. *)
From Verif Require Import SpecSave ProofIdent4 ProofRef4 ProofSem.
Open Scope string_scope.

(** ** Pairs of a writer and a reader *)
Definition codec {A} (P : A -> Prop) (f : A -> value) (g : value -> outcome A) : Prop := forall x, P x -> f x <> VNull /\ g (f x) = Ok x.
Definition sound {A} (P : A -> Prop) (g : value -> outcome A) : Prop := forall v, match g v with Ok x => P x | Err => True | Panic => False end.
Definition of_key (k : string) (l : fields) : fields := filter (fun p => str_eqb (fst p) (lit k)) l.
Lemma of_key_app k l l' : of_key k (l ++ l')%list = (of_key k l ++ of_key k l')%list.
Proof. unfold of_key. induction l as [|p l IH]; [reflexivity|]. cbn. destruct (str_eqb _ _); cbn; now rewrite IH. Qed.
Lemma of_key_field k k' v : of_key k (put_field k' v) = if str_eqb (lit k') (lit k) then put_field k' v else [].
Proof. unfold of_key, put_field. cbn. now destruct (str_eqb _ _). Qed.
Lemma of_key_unless k b k' v : of_key k (put_unless b k' v) = if str_eqb (lit k') (lit k) then put_unless b k' v else [].
Proof. unfold of_key, put_unless. destruct b; cbn; now destruct (str_eqb _ _). Qed.
Lemma of_key_some {A} k k' (f : A -> value) o : of_key k (put_some k' f o) = if str_eqb (lit k') (lit k) then put_some k' f o else [].
Proof. unfold of_key, put_some. destruct o; cbn; now destruct (str_eqb _ _). Qed.
Ltac keys :=
  rewrite ?of_key_app, ?of_key_field, ?of_key_unless, ?of_key_some;
  repeat match goal with |- context [str_eqb (lit ?a) (lit ?b)] =>
    let r := eval vm_compute in (str_eqb (lit a) (lit b)) in replace (str_eqb (lit a) (lit b)) with r by (vm_compute; reflexivity) end;
  cbv iota; rewrite ?app_nil_r; reflexivity.

Lemma lookup_key k l : lookup k l = match of_key k l with [] => Ok None | [p] => Ok (Some (snd p)) | _ => Err end.
Proof. reflexivity. Qed.
Lemma field_put {A} (P : A -> Prop) f g k l x : codec P f g -> of_key k l = put_field k (f x) -> P x -> get_field k g l = Ok x.
Proof. intros C K H. unfold get_field. rewrite lookup_key, K. exact (proj2 (C x H)). Qed.
Lemma default_put {A} (P : A -> Prop) f g k l b d x : codec P f g -> of_key k l = put_unless b k (f x) -> P x -> (b = true -> x = d) -> get_default k d g l = Ok x.
Proof. intros C K H E. unfold get_default. rewrite lookup_key, K. destruct b; cbn; [now rewrite E|exact (proj2 (C x H))]. Qed.
Lemma some_put {A} (P : A -> Prop) f g k l o : codec P f g -> of_key k l = put_some k f o -> if_some P o -> get_some k g l = Ok o.
Proof.
  intros C K H. unfold get_some, get_default. rewrite lookup_key, K. destruct o as [x|]; [|reflexivity]. cbn.
  destruct (C x (H x eq_refl)) as [N E]. unfold get_option. rewrite E. destruct (f x); try reflexivity. congruence.
Qed.
Lemma map_ok_put {A} (P : A -> Prop) f g l : codec P f g -> Forall P l -> map_ok g (map f l) = Ok l.
Proof. intros C F. induction F as [|x l H F IH]; [reflexivity|]. cbn. rewrite (proj2 (C x H)). cbn. now rewrite IH. Qed.
Lemma codec_list {A} (P : A -> Prop) f g : codec P f g -> codec (Forall P) (put_list f) (get_list g).
Proof. intros C l F. split; [discriminate|]. exact (map_ok_put P f g l C F). Qed.
Lemma codec_str : codec (fun _ => True) VStr get_str.
Proof. intros s _. split; [discriminate|reflexivity]. Qed.
Lemma codec_bool : codec (fun _ => True) put_bool get_bool.
Proof. intros b _. split; [discriminate|reflexivity]. Qed.
Lemma codec_float : codec (fun _ => True) VFloat get_float.
Proof. intros b _. split; [discriminate|reflexivity]. Qed.
Lemma codec_int a b : codec (fun z => a <= z <= b)%Z VInt (get_int a b).
Proof. intros z [L U]. split; [discriminate|]. cbn. now rewrite (proj2 (Z.leb_le _ _) L), (proj2 (Z.leb_le _ _) U). Qed.
Lemma codec_N m : codec (fun n => n <= m)%N put_N (get_N m).
Proof.
  intros n L. cbv beta in L. split; [discriminate|]. unfold get_N, put_N. rewrite (proj2 (codec_int 0 (Z.of_N m) (Z.of_N n) ltac:(cbv beta; lia))). cbn. now rewrite N2Z.id.
Qed.
Lemma codec_parsed {A} (P : A -> Prop) show parse : (forall x, P x -> parse (show x) = Ok x) -> codec P (fun x => VStr (show x)) (get_parsed parse).
Proof. intros R x H. split; [discriminate|]. cbn. now apply R. Qed.
Lemma sound_list {A} (P : A -> Prop) g : sound P g -> sound (Forall P) (get_list g).
Proof.
  intros S v. destruct v; try exact I. cbn. induction l as [|x l IH]; cbn; [constructor|]. pose proof (S x) as X. destruct (g x); cbn; auto.
  destruct (map_ok g l); cbn; auto.
Qed.
Definition good {A} (P : A -> Prop) (x : outcome A) : Prop := match x with Ok a => P a | Err => True | Panic => False end.
Lemma good_bind {A B} (P : A -> Prop) (Q : B -> Prop) (x : outcome A) (f : A -> outcome B) : good P x -> (forall a, P a -> good Q (f a)) -> good Q (obind x f).
Proof. destruct x; cbn; intros; auto; contradiction. Qed.
Lemma good_map {A B} (P : A -> Prop) (Q : B -> Prop) (f : A -> B) (x : outcome A) : good P x -> (forall a, P a -> Q (f a)) -> good Q (omap f x).
Proof. destruct x; cbn; intros; auto; contradiction. Qed.
Lemma good_first {A} (P : A -> Prop) (x y : outcome A) : good P x -> good P y -> good P (first_ok x y).
Proof. destruct x; cbn; intros; auto; contradiction. Qed.
Lemma good_fields v : good (fun _ => True) (get_fields v).
Proof. now destruct v. Qed.
Lemma good_field {A} (P : A -> Prop) k g l : sound P g -> good P (get_field k g l).
Proof. intros S. unfold get_field, lookup. destruct (filter _ l) as [|p [|]]; cbn; auto. apply S. Qed.
Lemma good_default {A} (P : A -> Prop) k d g l : sound P g -> P d -> good P (get_default k d g l).
Proof. intros S H. unfold get_default, lookup. destruct (filter _ l) as [|p [|]]; cbn; auto. apply S. Qed.
Lemma sound_option {A} (P : A -> Prop) g : sound P g -> sound (if_some P) (get_option g).
Proof.
  intros S v. assert (X : good (if_some P) (omap Some (g v))). { apply (good_map P); [apply S|]. intros a H b E. now injection E as <-. }
  destruct v; try exact X. cbn. discriminate.
Qed.
Lemma good_some {A} (P : A -> Prop) k g l : sound P g -> good (if_some P) (get_some k g l).
Proof. intros S. apply good_default; [now apply sound_option|discriminate]. Qed.
Lemma good_variant v : good (fun _ => True) (get_variant v).
Proof. destruct v; cbn; auto. destruct l as [|[? ?] [|]]; cbn; auto. Qed.
Lemma good_select {A} (P : A -> Prop) l p : (forall k f, In (k, f) l -> forall o, good P (f o)) -> good P (select l p).
Proof.
  induction l as [|[k f] l IH]; intros H; cbn; auto. destruct (str_eqb _ _); [exact (H k f (or_introl eq_refl) _)|].
  apply IH. intros k' f' Hin. exact (H k' f' (or_intror Hin)).
Qed.
Lemma good_data {A} (P : A -> Prop) f o : (forall v, good P (f v)) -> good P (with_data f o).
Proof. intros H. destruct o; cbn; auto. Qed.
Lemma good_no_data {A} (P : A -> Prop) (a : A) o : P a -> good P (no_data a o).
Proof. intros H. destruct o as [[]|]; cbn; auto. Qed.
Lemma sound_parsed {A} (P : A -> Prop) parse : (forall s x, parse s = Ok x -> P x) -> (forall s, parse s <> Panic) -> sound P (get_parsed parse).
Proof. intros H N v. destruct v; try exact I. cbn. destruct (parse s) eqn:E; auto; [exact (H _ _ E)|exact (N _ E)]. Qed.
Lemma sound_str : sound (fun _ => True) get_str. Proof. now intros []. Qed.
Lemma sound_bool : sound (fun _ => True) get_bool. Proof. now intros []. Qed.
Lemma sound_float : sound (fun _ => True) get_float. Proof. now intros []. Qed.
Lemma sound_char : sound (fun _ => True) get_char. Proof. intros []; try exact I. destruct s as [|? [|]]; exact I. Qed.
Lemma sound_int a b : sound (fun z => a <= z <= b)%Z (get_int a b).
Proof. intros []; try exact I. cbn. destruct (Z.leb_spec a z), (Z.leb_spec z b); cbn; auto. Qed.
Lemma sound_N m : sound (fun n => n <= m)%N (get_N m).
Proof. intros v. apply (good_map (fun z => 0 <= z <= Z.of_N m)%Z); [apply sound_int|]. intros z H. lia. Qed.
Lemma sound_weaken {A} (P Q : A -> Prop) g : (forall x, P x -> Q x) -> sound P g -> sound Q g.
Proof. intros H S v. specialize (S v). destruct (g v); auto. Qed.
Lemma codec_weaken {A} (P Q : A -> Prop) f g : (forall x, Q x -> P x) -> codec P f g -> codec Q f g.
Proof. intros H S v X. apply S. auto. Qed.

Create HintDb codecs discriminated.
#[local] Hint Constants Opaque : codecs.
#[local] Hint Resolve codec_list codec_str codec_bool codec_float codec_int codec_N sound_list sound_str sound_bool sound_float sound_char sound_int sound_N : codecs.
(** Steps of reading the fields of a struct just written *)
Ltac side := first [exact I | assumption | now auto | lia].
Ltac step :=
  match goal with
  | |- obind (get_field _ _ _) _ = _ => erewrite field_put; [cbn [obind]|solve [eauto with codecs]|solve [keys]|side]
  | |- obind (get_some _ _ _) _ = _ => erewrite some_put; [cbn [obind]|solve [eauto with codecs]|solve [keys]|side]
  | |- obind (get_default _ _ _ _) _ = _ => erewrite default_put; [cbn [obind]|solve [eauto with codecs]|solve [keys]|side|]
  end.
(** Steps of reading any fields *)
Ltac got :=
  match goal with
  | |- good _ (obind (get_fields _) _) => apply (good_bind _ _ _ _ (good_fields _)); intros ? _
  | |- good _ (obind (get_variant _) _) => apply (good_bind _ _ _ _ (good_variant _)); intros ? _
  | |- good _ (obind (get_field _ _ _) _) => eapply good_bind; [eapply good_field; solve [eauto with codecs]|intros ? ?]
  | |- good _ (obind (get_some _ _ _) _) => eapply good_bind; [eapply good_some; solve [eauto with codecs]|intros ? ?]
  | |- good _ (obind (get_default _ _ _ _) _) => eapply good_bind; [eapply good_default; [solve [eauto with codecs]|]|intros ? ?]
  end.
Ltac cases := got; apply good_select; intros ? ? Hin; cbn [In] in Hin;
  repeat (destruct Hin as [Hin|Hin]; [injection Hin as <- <-; intros ?; first [apply good_no_data|apply good_data; intros ?]|]); [..|now destruct Hin].

(** ** Identifiers *)
Lemma codec_act_id : codec act_id_fits put_act_id get_act_id.
Proof.
  intros [y n] H. split; [discriminate|]. unfold act_id_fits, act_ok in H. rewrite !andb_true_iff, !Z.leb_le in H. cbn in H. unfold get_act_id, put_act_id.
  assert (Y : (-32768 <= y <= 32767)%Z) by (unfold i16_min, i16_max in *; lia). assert (N : (-2147483648 <= n <= 2147483647)%Z) by (unfold i32_min, i32_max in *; lia).
  cbn [get_fields obind act_year act_number]. repeat step. reflexivity.
Qed.
Lemma sound_act_id : sound act_id_fits get_act_id.
Proof.
  intros v. apply (good_bind _ _ _ _ (good_fields v)). intros l _. eapply good_bind; [eapply good_field, sound_int|]. intros y Y.
  eapply good_bind; [eapply good_field, sound_int|]. intros n N. cbn. unfold act_id_fits, act_ok. cbn. rewrite !andb_true_iff, !Z.leb_le.
  unfold i16_min, i16_max, i32_min, i32_max in *. lia.
Qed.
Lemma codec_hic : codec hic_fits put_hic get_hic.
Proof. apply (codec_parsed hic_fits hic_show hic_parse). intros x H. exact (proj1 (c01_roundtrip x H)). Qed.
Lemma codec_numeric : codec numeric_fits put_numeric get_numeric.
Proof. apply (codec_parsed numeric_fits numeric_show numeric_parse). intros x H. exact (proj1 (c02_roundtrip x H)). Qed.
Lemma codec_article_id : codec article_id_fits put_article_id get_article_id.
Proof. apply (codec_parsed article_id_fits article_show article_parse). apply c03_roundtrip. Qed.
Lemma codec_prefixed : codec prefixed_fits put_prefixed get_prefixed.
Proof. apply (codec_parsed prefixed_fits prefixed_show prefixed_parse). intros x [A B]. now apply c03_roundtrip. Qed.
Lemma sound_hic : sound hic_fits get_hic.
Proof. apply sound_parsed; [apply hic_parse_ok|apply hic_parse_not_panic]. Qed.
Lemma sound_numeric : sound numeric_fits get_numeric.
Proof. apply sound_parsed; [apply numeric_parse_ok|apply numeric_parse_not_panic]. Qed.
Lemma sound_article_id : sound article_id_fits get_article_id.
Proof. apply sound_parsed; [apply article_parse_ok|apply article_parse_not_panic]. Qed.
Lemma sound_prefixed : sound prefixed_fits get_prefixed.
Proof. apply sound_parsed; [|apply prefixed_parse_not_panic]. intros s x H. apply c03_parse_ok in H as (A & B & _). now split. Qed.
Lemma range_put {T} `{IdentCommon T} (P : T -> Prop) f parse : codec P f (get_parsed parse) -> (forall x y, id_eqb x y = true <-> x = y) ->
  codec (range_of P) (put_range f) (get_range (get_parsed parse)).
Proof.
  intros C E [x y] [X Y]. cbn in X, Y. unfold put_range. cbn [r_start r_end]. destruct (id_eqb x y) eqn:Q.
  - apply E in Q. subst y. destruct (C x X) as [N R]. split; [exact N|]. unfold get_range. rewrite R. reflexivity.
  - split; [discriminate|]. unfold get_range. cbn [get_parsed get_str obind first_ok get_fields].
    erewrite field_put; [cbn [obind]|exact C|keys|exact X]. erewrite field_put; [reflexivity|exact C|keys|exact Y].
Qed.
Lemma range_sound {T} (P : T -> Prop) (g : value -> outcome T) : sound P g -> sound (range_of P) (get_range g).
Proof.
  intros S v. apply good_first.
  - apply (good_bind P); [apply S|]. intros x X. now split.
  - apply (good_bind _ _ _ _ (good_fields v)). intros l _. apply (good_bind P); [now apply good_field|]. intros x X. apply (good_bind P); [now apply good_field|].
    intros y Y. now split.
Qed.
Lemma codec_numeric_range : codec (range_of numeric_fits) (put_range put_numeric) (get_range get_numeric).
Proof. exact (range_put _ _ _ codec_numeric numeric_eqb_eq). Qed.
Lemma codec_hic_range : codec (range_of hic_fits) (put_range put_hic) (get_range get_hic).
Proof. exact (range_put _ _ _ codec_hic hic_eqb_eq). Qed.
Lemma codec_article_range : codec (range_of article_id_fits) (put_range put_article_id) (get_range get_article_id).
Proof. exact (range_put _ _ _ codec_article_id article_eqb_eq). Qed.
Lemma codec_prefixed_range : codec (range_of prefixed_fits) (put_range put_prefixed) (get_range get_prefixed).
Proof. exact (range_put _ _ _ codec_prefixed prefixed_eqb_eq). Qed.
Lemma numeric_parse_letter c s : (97 <= c <= 122)%N -> numeric_parse (c :: s) = Err.
Proof.
  intros H. unfold numeric_parse, split_suffix. cbn [span]. assert (E : is_digit c = false). { unfold is_digit. norm_lit. destruct (N.leb_spec c 57); [lia|]. apply andb_false_r. }
  rewrite E. destruct (N.eqb_spec c (chr "/")) as [X|_]; [exfalso; revert X; norm_lit; lia|]. cbn [obind is_empty]. pose proof (hic_parse_not_panic (c :: s)).
  destruct (hic_parse (c :: s)); cbn; congruence.
Qed.
Lemma hic_show_letter x : hic_fits x -> exists c s, hic_show x = c :: s /\ (97 <= c <= 122)%N.
Proof.
  unfold hic_fits, hic_ok. destruct x; intros H.
  { apply andb_true_iff in H as [A B]. apply N.leb_le in A, B. eexists _, _. split; [reflexivity|]. lia. }
  all: cbn; norm_lit; eexists _, _; (split; [reflexivity|]); lia.
Qed.
Lemma hic_not_numeric x : hic_fits x -> get_numeric (put_hic x) = Err.
Proof. intros H. destruct (hic_show_letter x H) as (c & s & E & R). unfold get_numeric, put_hic, get_parsed. cbn. rewrite E. now apply numeric_parse_letter. Qed.
Lemma prefixed_not_numeric x : prefixed_fits x -> get_numeric (put_prefixed x) = Err.
Proof.
  destruct x as [p h]. intros [A _]. unfold prefixed_ok in A. cbn in A. apply andb_true_iff in A as [A B].
  unfold get_numeric, put_prefixed, get_parsed, prefixed_show. cbn. destruct p as [q|].
  - destruct (hic_show_letter q A) as (c & s & E & R). rewrite E. now apply numeric_parse_letter.
  - destruct (hic_show_letter h B) as (c & s & E & R). rewrite E. now apply numeric_parse_letter.
Qed.
Lemma range_not_numeric {T} `{IdentCommon T} (P : T -> Prop) (show : T -> str) r : (forall x, P x -> numeric_parse (show x) = Err) -> range_of P r ->
  get_range get_numeric (put_range (fun x => VStr (show x)) r) = Err.
Proof.
  intros N [X Y]. unfold put_range. destruct (id_eqb _ _); unfold get_range, get_numeric; cbn [get_parsed get_str obind first_ok get_fields].
  - now rewrite (N _ X).
  - unfold get_field at 1. rewrite lookup_key. replace (of_key "start" _) with (put_field "start" (VStr (show (r_start r)))) by (symmetry; keys).
    cbn. now rewrite (N _ X).
Qed.

(** ** References *)
Definition point_fits (p : ref_point) : Prop := match p with PtNum r => range_of numeric_fits r | PtAlpha r => range_of hic_fits r end.
Definition subpoint_fits (p : ref_subpoint) : Prop := match p with SpNum r => range_of numeric_fits r | SpAlpha r => range_of prefixed_fits r end.
Lemma codec_point : codec point_fits put_point get_point.
Proof.
  intros [r|r] H; cbn in H; unfold put_point, get_point.
  - destruct (codec_numeric_range r H) as [N E]. split; [exact N|]. now rewrite E.
  - destruct (codec_hic_range r H) as [N E]. split; [exact N|]. pose proof (range_not_numeric hic_fits hic_show r hic_not_numeric H) as Z.
    change (fun x => VStr (hic_show x)) with put_hic in Z. rewrite Z. cbn. now rewrite E.
Qed.
Lemma codec_subpoint : codec subpoint_fits put_subpoint get_subpoint.
Proof.
  intros [r|r] H; cbn in H; unfold put_subpoint, get_subpoint.
  - destruct (codec_numeric_range r H) as [N E]. split; [exact N|]. now rewrite E.
  - destruct (codec_prefixed_range r H) as [N E]. split; [exact N|]. pose proof (range_not_numeric prefixed_fits prefixed_show r prefixed_not_numeric H) as Z.
    change (fun x => VStr (prefixed_show x)) with put_prefixed in Z. rewrite Z. cbn. now rewrite E.
Qed.
Lemma sound_numeric_range : sound (range_of numeric_fits) (get_range get_numeric).
Proof. exact (range_sound _ _ sound_numeric). Qed.
Lemma sound_article_range : sound (range_of article_id_fits) (get_range get_article_id).
Proof. exact (range_sound _ _ sound_article_id). Qed.
Lemma sound_point : sound point_fits get_point.
Proof.
  intros v. apply good_first; [apply (good_map (range_of numeric_fits))|apply (good_map (range_of hic_fits))]; auto; apply range_sound; [apply sound_numeric|apply sound_hic].
Qed.
Lemma sound_subpoint : sound subpoint_fits get_subpoint.
Proof.
  intros v. apply good_first; [apply (good_map (range_of numeric_fits))|apply (good_map (range_of prefixed_fits))]; auto; apply range_sound;
    [apply sound_numeric|apply sound_prefixed].
Qed.
Lemma parts_fit r : parts_ok r <-> if_some act_id_fits (f_act r) /\ if_some (range_of article_id_fits) (f_article r) /\
  if_some (range_of numeric_fits) (f_paragraph r) /\ if_some point_fits (f_point r) /\ if_some subpoint_fits (f_subpoint r).
Proof.
  unfold parts_ok, if_some, point_fits, subpoint_fits. split.
  - intros (A & B & C & E & F & G & H). refine (conj A (conj B (conj C (conj _ _)))); intros [x|x] X; auto.
  - intros (A & B & C & E & F). refine (conj A (conj B (conj C (conj _ (conj _ (conj _ _)))))); intros a X; first [exact (E _ X)|exact (F _ X)].
Qed.

#[local] Hint Resolve codec_act_id codec_hic codec_numeric codec_article_id codec_prefixed
  codec_numeric_range codec_article_range codec_point codec_subpoint : codecs.
#[local] Hint Resolve sound_act_id sound_hic sound_numeric sound_article_id sound_prefixed
  sound_numeric_range sound_article_range sound_point sound_subpoint : codecs.
Ltac picked :=
  repeat match goal with |- context [select ((?k, ?f) :: ?l) (lit ?n, ?d)] =>
    let r := eval vm_compute in (str_eqb (lit n) (lit k)) in
    match r with
    | true => replace (select ((k, f) :: l) (lit n, d)) with (f d) by (cbn [select fst snd]; replace (str_eqb (lit n) (lit k)) with true by (vm_compute; reflexivity); reflexivity)
    | false => replace (select ((k, f) :: l) (lit n, d)) with (select l (lit n, d)) by (cbn [select fst snd]; replace (str_eqb (lit n) (lit k)) with false by (vm_compute; reflexivity); reflexivity)
    end end;
  cbn [with_data no_data].
Lemma omap_put {A B} (P : A -> Prop) f g (h : A -> B) x : codec P f g -> P x -> omap h (g (f x)) = Ok (h x).
Proof. intros C H. now rewrite (proj2 (C x H)). Qed.
Ltac variant := picked; first [reflexivity | eapply omap_put; [solve [eauto with codecs]|side]].
Lemma codec_ref : codec ref_fits put_ref get_ref.
Proof.
  intros r [W P]. apply parts_fit in P as (A & B & C & E & F). split; [discriminate|]. unfold get_ref, put_ref. cbn [get_fields obind].
  repeat step. destruct r. now apply try_ref_wf.
Qed.
Lemma sound_ref : sound ref_fits get_ref.
Proof.
  intros v. change (good ref_fits (get_ref v)). unfold get_ref. repeat got.
  destruct (try_ref _) eqn:E; cbn; auto; [|exact (try_ref_not_panic _ E)]. apply try_ref_ok in E as [-> W]. split; [exact W|]. apply parts_fit. cbn. auto.
Qed.
#[local] Hint Resolve codec_ref sound_ref : codecs.

Lemma codec_sr_element : codec sr_element_fits put_sr_element get_sr_element.
Proof.
  intros e H. split; [destruct e; discriminate|]. destruct e; cbn in H; unfold put_sr_element, put_variant, get_sr_element, get_variant; cbn [obind].
  all: variant.
Qed.
Lemma good_sound {A} (P : A -> Prop) g v : sound P g -> good P (g v).
Proof. intros S. exact (S v). Qed.
Ltac given := first [exact I | eapply good_map; [eapply good_sound; solve [eauto with codecs]|intros ? ?; cbn; side]].
Lemma sound_sr_element : sound sr_element_fits get_sr_element.
Proof. intros v. change (good sr_element_fits (get_sr_element v)). unfold get_sr_element. cases; given. Qed.
Lemma codec_sr_parent : codec sr_parent_fits put_sr_parent get_sr_parent.
Proof.
  intros e H. split; [destruct e; discriminate|]. destruct e; cbn in H; unfold put_sr_parent, put_variant, get_sr_parent, get_variant; cbn [obind]; variant.
Qed.
Lemma sound_sr_parent : sound sr_parent_fits get_sr_parent.
Proof. intros v. change (good sr_parent_fits (get_sr_parent v)). unfold get_sr_parent. cases; given. Qed.
#[local] Hint Resolve codec_sr_element sound_sr_element codec_sr_parent sound_sr_parent : codecs.
Lemma negb_false b : negb b = true -> b = false.
Proof. now destruct b. Qed.
Lemma codec_struct_ref : codec struct_ref_fits put_struct_ref get_struct_ref.
Proof.
  intros r (A & B & C & E). split; [discriminate|]. unfold get_struct_ref, put_struct_ref. cbn [get_fields obind]. repeat step; [destruct r; reflexivity|].
  apply negb_false.
Qed.
Lemma sound_struct_ref : sound struct_ref_fits get_struct_ref.
Proof. intros v. change (good struct_ref_fits (get_struct_ref v)). unfold get_struct_ref. repeat got; [exact I|]. repeat split; auto. Qed.
#[local] Hint Resolve codec_struct_ref sound_struct_ref : codecs.

Section Dates.
Variable D : date -> Prop.
Variable dp : str -> outcome date.
Hypothesis RD : reads_dates D dp.
Lemma codec_date : codec D put_date (get_date dp).
Proof. apply (codec_parsed D show_date dp). apply RD. Qed.
Lemma sound_date : sound D (get_date dp).
Proof. apply sound_parsed; apply RD. Qed.
Lemma str_lt_irrefl s : ~ str_lt s s.
Proof. induction s as [|c s IH]; intros H; inversion H; subst; [lia|auto]. Qed.
Lemma map_get_snoc {V} k (l : list (str * V)) j v : map_get k (l ++ [(j, v)])%list = match map_get k l with Some x => Some x | None => if str_eqb k j then Some v else None end.
Proof. induction l as [|[i w] l IH]; cbn; [reflexivity|]. destruct (str_eqb k i); [reflexivity|exact IH]. Qed.
Lemma map_get_fresh {V} k (l : list (str * V)) : ~ In k (map fst l) -> map_get k l = None.
Proof.
  induction l as [|[i w] l IH]; cbn; [reflexivity|]. intros H. destruct (str_eqb k i) eqn:E; [|auto]. apply str_eqb_eq in E. exfalso. apply H. now left.
Qed.
Lemma map_of_same {V} (m : list (str * V)) : is_map m -> map_of m = m.
Proof.
  intros M. apply map_ext; [apply map_of_is_map|exact M|]. intros k. rewrite map_of_get. unfold is_map, ascending in M.
  induction m as [|[j v] m IH]; [reflexivity|]. cbn in M. inversion M as [|? ? S F]; subst. cbn [rev map_get]. rewrite map_get_snoc, (IH S).
  destruct (str_eqb k j) eqn:E; [|now destruct (map_get k m)]. apply str_eqb_eq in E. subst k. rewrite map_get_fresh; [reflexivity|].
  intros H. rewrite Forall_forall in F. exact (str_lt_irrefl j (F j H)).
Qed.
Lemma map_set_forall {V} (P : str * V -> Prop) k v m : P (k, v) -> Forall P m -> Forall P (map_set k v m).
Proof. intros H F. induction F as [|[j w] m X F IH]; cbn; [auto|]. destruct (str_cmp k j); auto. Qed.
Lemma map_of_forall {V} (P : str * V -> Prop) l : Forall P l -> Forall P (map_of l).
Proof.
  unfold map_of. intros F. assert (G : forall m, Forall P m -> Forall P (fold_left (fun m p => map_set (fst p) (snd p) m) l m)); [|now apply G].
  induction F as [|[j w] l X F IH]; intros m M; cbn; [exact M|]. apply IH. now apply map_set_forall.
Qed.
Lemma codec_abbrevs : codec abbrevs_fit put_abbrevs get_abbrevs.
Proof.
  intros m [M F]. split; [discriminate|]. unfold get_abbrevs, put_abbrevs. cbn [get_fields obind].
  replace (map_ok get_entry (map (fun p => (fst p, put_act_id (snd p))) m)) with (Ok m); [cbn; now rewrite map_of_same|]. clear M.
  induction F as [|[k a] m H F IH]; [reflexivity|]. cbn [map map_ok]. unfold get_entry at 1. cbn [fst snd]. cbn in H. rewrite (proj2 (codec_act_id a H)). cbn. now rewrite <- IH.
Qed.
Lemma sound_abbrevs : sound abbrevs_fit get_abbrevs.
Proof.
  intros v. change (good abbrevs_fit (get_abbrevs v)). unfold get_abbrevs. got. eapply (good_map (Forall (fun p => act_id_fits (snd p)))).
  - induction a as [|[k x] l IH]; cbn; [constructor|]. unfold get_entry at 1. cbn [fst snd]. pose proof (sound_act_id x) as X. destruct (get_act_id x); cbn; auto.
    destruct (map_ok get_entry l); cbn; auto.
  - intros m F. split; [apply map_of_is_map|]. now apply map_of_forall.
Qed.
#[local] Hint Resolve codec_date sound_date codec_abbrevs sound_abbrevs : codecs.
Lemma codec_out : codec out_fits put_out get_out.
Proof.
  intros [s e r] (A & B & C). cbn in A, B, C. split; [discriminate|]. unfold get_out, put_out. cbn [get_fields obind o_start o_end o_ref].
  assert (s <= max_usize)%N by (unfold max_usize; lia). assert (e <= max_usize)%N by (unfold max_usize; lia). repeat step. reflexivity.
Qed.
Lemma sound_out : sound out_fits get_out.
Proof.
  intros v. change (good out_fits (get_out v)). unfold get_out. repeat got. unfold max_usize in *. cbv beta in *. refine (conj _ (conj _ _)); cbn; [lia|lia|assumption].
Qed.
Lemma codec_ba_phrase : codec (fun b => ref_fits (ba_position b)) put_ba_phrase get_ba_phrase.
Proof. intros [r p] A. cbn in A. split; [discriminate|]. unfold get_ba_phrase, put_ba_phrase. cbn [get_fields obind ba_position ba_pure]. repeat step. reflexivity. Qed.
Lemma sound_ba_phrase : sound (fun b => ref_fits (ba_position b)) get_ba_phrase.
Proof. intros v. change (good (fun b => ref_fits (ba_position b)) (get_ba_phrase v)). unfold get_ba_phrase. repeat got. auto. Qed.
Lemma codec_sba_phrase : codec (fun b => struct_ref_fits (sba_position b)) put_sba_phrase get_sba_phrase.
Proof. intros [r p] A. cbn in A. split; [discriminate|]. unfold get_sba_phrase, put_sba_phrase. cbn [get_fields obind sba_position sba_pure]. repeat step. reflexivity. Qed.
Lemma sound_sba_phrase : sound (fun b => struct_ref_fits (sba_position b)) get_sba_phrase.
Proof. intros v. change (good (fun b => struct_ref_fits (sba_position b)) (get_sba_phrase v)). unfold get_sba_phrase. repeat got. auto. Qed.
#[local] Hint Resolve codec_out sound_out codec_ba_phrase sound_ba_phrase codec_sba_phrase sound_sba_phrase : codecs.
Lemma codec_sae_part : codec (fun _ => True) put_sae_part get_sae_part.
Proof. intros p _. split; [discriminate|]. unfold get_sae_part, put_sae_part, get_variant. cbn [obind]. destruct p; picked; reflexivity. Qed.
Lemma sound_sae_part : sound (fun _ => True) get_sae_part.
Proof. intros v. change (good (fun _ => True) (get_sae_part v)). unfold get_sae_part. cases; exact I. Qed.
#[local] Hint Resolve codec_sae_part sound_sae_part : codecs.
Lemma codec_ta_ref : codec ta_ref_fits put_ta_ref get_ta_ref.
Proof.
  intros t H. split; [destruct t; discriminate|]. destruct t; cbn in H; unfold get_ta_ref, put_ta_ref, put_variant, get_variant; cbn [obind]; [picked|variant|variant].
  cbn [get_fields obind]. repeat step; [reflexivity|]. now destruct p.
Qed.
Lemma sound_ta_ref : sound ta_ref_fits get_ta_ref.
Proof.
  intros v. change (good ta_ref_fits (get_ta_ref v)). unfold get_ta_ref. cases; [|given|given]. repeat got; [exact I|]. cbn. auto.
Qed.
#[local] Hint Resolve codec_ta_ref sound_ta_ref : codecs.
Lemma codec_ta : codec ta_fits put_ta get_ta.
Proof. intros [r f t] H. cbn in H. split; [discriminate|]. unfold get_ta, put_ta. cbn [get_fields obind ta_reference ta_from ta_to]. repeat step. reflexivity. Qed.
Lemma sound_ta : sound ta_fits get_ta.
Proof. intros v. change (good ta_fits (get_ta v)). unfold get_ta. repeat got. auto. Qed.
#[local] Hint Resolve codec_ta sound_ta : codecs.
Lemma codec_ed_type : codec (ed_type_fits D) put_ed_type (get_ed_type dp).
Proof.
  intros t H. split; [destruct t; discriminate|]. destruct t as [d|n|m d]; cbn in H; unfold get_ed_type, put_ed_type, put_variant, get_variant; cbn [obind]; [variant| |]; picked.
  - assert (n <= 65535)%N by lia. eapply omap_put; [solve [eauto with codecs]|side].
  - destruct H as [M N]. cbn [get_fields obind]. assert (d <= 65535)%N by lia. assert (if_some (fun m => m <= 255)%N m). { intros x X. specialize (M x X). cbv beta in M. lia. }
    repeat step. reflexivity.
Qed.
Lemma sound_ed_type : sound (ed_type_fits D) (get_ed_type dp).
Proof.
  intros v. change (good (ed_type_fits D) (get_ed_type dp v)). unfold get_ed_type. cases; [given| |].
  - eapply good_map; [eapply good_sound; solve [eauto with codecs]|]. intros n N. cbn in *. lia.
  - repeat got. cbv beta in *. cbn. split; [|lia]. intros x X. match goal with H : if_some _ _ |- _ => specialize (H x X); cbv beta in H; lia end.
Qed.
#[local] Hint Resolve codec_ed_type sound_ed_type : codecs.
Lemma is_empty_nil {A} (l : list A) : is_empty l = true -> l = [].
Proof. now destruct l. Qed.
Lemma codec_enforcement : codec (enforcement_fits D) put_enforcement (get_enforcement dp).
Proof.
  intros [p s d t r] (A & B & C & E). cbn in A, B, C, E. split; [discriminate|]. unfold get_enforcement, put_enforcement.
  cbn [get_fields obind ed_positions ed_structural ed_default ed_date ed_repeal]. repeat step; [reflexivity|apply negb_false|apply is_empty_nil|apply is_empty_nil].
Qed.
Lemma sound_enforcement : sound (enforcement_fits D) (get_enforcement dp).
Proof.
  intros v. change (good (enforcement_fits D) (get_enforcement dp v)). unfold get_enforcement. repeat got; try constructor; cbn; auto.
Qed.
Lemma codec_repeal : codec repeal_fits put_repeal get_repeal.
Proof. intros t H. split; [destruct t; discriminate|]. destruct t; cbn in H; unfold get_repeal, put_repeal, put_variant, get_variant; cbn [obind]; variant. Qed.
Lemma sound_repeal : sound repeal_fits get_repeal.
Proof. intros v. change (good repeal_fits (get_repeal v)). unfold get_repeal. cases; given. Qed.
#[local] Hint Resolve codec_enforcement sound_enforcement codec_repeal sound_repeal : codecs.
Lemma codec_phrase : codec (phrase_fits D) put_phrase (get_phrase dp).
Proof. intros t H. split; [destruct t; discriminate|]. destruct t; cbn in H; unfold get_phrase, put_phrase, put_variant, get_variant; cbn [obind]; variant. Qed.
Lemma sound_phrase : sound (phrase_fits D) (get_phrase dp).
Proof. intros v. change (good (phrase_fits D) (get_phrase dp v)). unfold get_phrase. cases; given. Qed.
#[local] Hint Resolve codec_phrase sound_phrase : codecs.
Lemma abbrevs_fit_nil : abbrevs_fit [].
Proof. split; constructor. Qed.
Lemma codec_si : codec (si_fits D) put_si (get_si dp).
Proof.
  intros [o a p] (A & B & C). cbn in A, B, C. split; [discriminate|]. unfold get_si, put_si. cbn [get_fields obind si_outgoing si_abbrevs si_phrase].
  repeat step; [reflexivity|apply is_empty_nil|apply is_empty_nil].
Qed.
Lemma sound_si : sound (si_fits D) (get_si dp).
Proof.
  intros v. change (good (si_fits D) (get_si dp v)). unfold get_si. repeat got; [constructor|apply abbrevs_fit_nil|]. cbn. repeat split; auto; match goal with H : abbrevs_fit _ |- _ => apply H end.
Qed.
#[local] Hint Resolve codec_si sound_si : codecs.
Lemma codec_cause : codec cause_fits put_cause get_cause.
Proof. intros t H. split; [destruct t; discriminate|]. destruct t; cbn in H; unfold get_cause, put_cause, put_variant, get_variant; cbn [obind]; variant. Qed.
Lemma sound_cause : sound cause_fits get_cause.
Proof. intros v. change (good cause_fits (get_cause v)). unfold get_cause. cases; given. Qed.
#[local] Hint Resolve codec_cause sound_cause : codecs.
Lemma codec_change : codec (change_fits D) put_change (get_change dp).
Proof. intros [d c] [A B]. cbn in A, B. split; [discriminate|]. unfold get_change, put_change. cbn [get_fields obind lc_date lc_cause]. repeat step. reflexivity. Qed.
Lemma sound_change : sound (change_fits D) (get_change dp).
Proof. intros v. change (good (change_fits D) (get_change dp v)). unfold get_change. repeat got. now split. Qed.
#[local] Hint Resolve codec_change sound_change : codecs.
Lemma any {A} (o : option A) : if_some (fun _ => True) o.
Proof. intros x _. exact I. Qed.
#[local] Hint Resolve any : core.
Lemma codec_body {C} (P : C -> Prop) f g : codec P f g -> codec (body_fits P) (put_body f) (get_body g).
Proof.
  intros K [t|i c w] H; (split; [discriminate|]); [reflexivity|]. cbn in H. unfold get_body, put_body. cbn [get_str omap first_ok get_fields obind].
  repeat step. reflexivity.
Qed.
Lemma sound_body {C} (P : C -> Prop) g : sound P g -> sound (body_fits P) (get_body g).
Proof. intros K v. change (good (body_fits P) (get_body g v)). unfold get_body. apply good_first; [given|]. repeat got. assumption. Qed.
#[local] Hint Resolve codec_body sound_body : codecs.
Lemma si_empty_default i : si_is_empty i = true -> i = si_default.
Proof. destruct i as [o a p]. unfold si_is_empty. cbn. destruct o, a, p; cbn; intros; first [reflexivity|discriminate]. Qed.
Lemma si_default_fits : si_fits D si_default.
Proof. repeat split; try constructor. discriminate. Qed.
Lemma codec_sae {I C} (P : I -> Prop) (Q : C -> Prop) idp idg f g :
  (forall i l, P i -> of_key "identifier" l = idp i -> idg l = Ok i) -> (forall k i, str_eqb (lit "identifier") (lit k) = false -> of_key k (idp i) = []) ->
  (forall i, of_key "identifier" (idp i) = idp i) -> codec Q f g -> codec (sae_fits D P Q) (put_sae idp f) (get_sae dp idg g).
Proof.
  intros R K S T [i b s c] (A & B & E & F). cbn in A, B, E, F. split; [discriminate|]. unfold get_sae, put_sae. cbn [get_fields obind s_id s_body s_si s_change].
  erewrite R; [cbn [obind]|exact A|rewrite of_key_app, S; rewrite <- (app_nil_r (idp i)) at 2; f_equal; keys].
  erewrite field_put; [cbn [obind]|solve [eauto with codecs]|rewrite of_key_app, K by (vm_compute; reflexivity); cbn [app]; keys|exact B].
  erewrite default_put; [cbn [obind]|solve [eauto with codecs]|rewrite of_key_app, K by (vm_compute; reflexivity); cbn [app]; keys|exact E|apply si_empty_default].
  erewrite some_put; [cbn [obind]|solve [eauto with codecs]|rewrite of_key_app, K by (vm_compute; reflexivity); cbn [app]; keys|exact F]. reflexivity.
Qed.
Lemma sound_sae {I C} (P : I -> Prop) (Q : C -> Prop) idg g : (forall l, good P (idg l)) -> sound Q g -> sound (sae_fits D P Q) (get_sae dp idg g).
Proof.
  intros R T v. change (good (sae_fits D P Q) (get_sae dp idg g v)). unfold get_sae. got. eapply good_bind; [apply R|intros ? ?]. repeat got; [apply si_default_fits|].
  unfold good, sae_fits. cbn [s_id s_body s_si s_change]. auto.
Qed.
Lemma codec_sae_field {I C} (P : I -> Prop) (Q : C -> Prop) ip ig f g : codec P ip ig -> codec Q f g ->
  codec (sae_fits D P Q) (put_sae (fun i => put_field "identifier" (ip i)) f) (get_sae dp (get_field "identifier" ig) g).
Proof.
  intros R T. apply codec_sae; [| | |exact T].
  - intros i l H K. exact (field_put P ip ig "identifier" l i R K H).
  - intros k i E. now rewrite of_key_field, E.
  - intros i. keys.
Qed.
Lemma sound_sae_field {I C} (P : I -> Prop) (Q : C -> Prop) ig g : sound P ig -> sound Q g -> sound (sae_fits D P Q) (get_sae dp (get_field "identifier" ig) g).
Proof. intros R T. apply sound_sae; [|exact T]. intros l. now apply good_field. Qed.
Lemma codec_none : codec no_children put_none get_none. Proof. intros []. Qed.
Lemma sound_none : sound no_children get_none. Proof. intros v. exact I. Qed.
Lemma codec_alpha_sub : codec (alpha_sub_fits D) put_alpha_sub (get_alpha_sub dp).
Proof. exact (codec_sae_field _ _ _ _ _ _ codec_prefixed codec_none). Qed.
Lemma sound_alpha_sub : sound (alpha_sub_fits D) (get_alpha_sub dp).
Proof. exact (sound_sae_field _ _ _ _ sound_prefixed sound_none). Qed.
Lemma codec_num_sub : codec (num_sub_fits D) put_num_sub (get_num_sub dp).
Proof. exact (codec_sae_field _ _ _ _ _ _ codec_numeric codec_none). Qed.
Lemma sound_num_sub : sound (num_sub_fits D) (get_num_sub dp).
Proof. exact (sound_sae_field _ _ _ _ sound_numeric sound_none). Qed.
#[local] Hint Resolve codec_alpha_sub sound_alpha_sub codec_num_sub sound_num_sub : codecs.
Lemma codec_alpha_children : codec (alpha_children_fit D) put_alpha_children (get_alpha_children dp).
Proof. intros t H. split; [destruct t; discriminate|]. destruct t; cbn in H; unfold get_alpha_children, put_alpha_children, put_variant, get_variant; cbn [obind]; variant. Qed.
Lemma sound_alpha_children : sound (alpha_children_fit D) (get_alpha_children dp).
Proof. intros v. change (good (alpha_children_fit D) (get_alpha_children dp v)). unfold get_alpha_children. cases; given. Qed.
Lemma codec_num_children : codec (num_children_fit D) put_num_children (get_num_children dp).
Proof. intros t H. split; [destruct t; discriminate|]. destruct t; cbn in H; unfold get_num_children, put_num_children, put_variant, get_variant; cbn [obind]; variant. Qed.
Lemma sound_num_children : sound (num_children_fit D) (get_num_children dp).
Proof. intros v. change (good (num_children_fit D) (get_num_children dp v)). unfold get_num_children. cases; given. Qed.
Lemma codec_alpha : codec (alpha_fits D) put_alpha (get_alpha dp).
Proof. exact (codec_sae_field _ _ _ _ _ _ codec_hic codec_alpha_children). Qed.
Lemma sound_alpha : sound (alpha_fits D) (get_alpha dp).
Proof. exact (sound_sae_field _ _ _ _ sound_hic sound_alpha_children). Qed.
Lemma codec_num : codec (num_fits D) put_num (get_num dp).
Proof. exact (codec_sae_field _ _ _ _ _ _ codec_numeric codec_num_children). Qed.
Lemma sound_num : sound (num_fits D) (get_num dp).
Proof. exact (sound_sae_field _ _ _ _ sound_numeric sound_num_children). Qed.
#[local] Hint Resolve codec_alpha sound_alpha codec_num sound_num : codecs.
(** ** Lines *)
Lemma codec_char : codec (fun _ => True) (fun c => VStr [c]) get_char.
Proof. intros c _. split; [discriminate|reflexivity]. Qed.
Lemma codec_part : codec (fun _ => True) put_part get_part.
Proof.
  intros [x c b] _. split; [discriminate|]. unfold get_part, put_part. cbn [get_fields obind p_dx p_ch p_bold]. step.
  erewrite (field_put _ (fun c => VStr [c])); [cbn [obind]|exact codec_char|keys|exact I]. repeat step. reflexivity.
Qed.
Lemma sound_part : sound (fun _ => True) get_part.
Proof. intros v. change (good (fun _ => True) (get_part v)). unfold get_part. repeat got. exact I. Qed.
#[local] Hint Resolve codec_part sound_part : codecs.
Lemma all {A} (l : list A) : Forall (fun _ => True) l.
Proof. induction l; auto. Qed.
#[local] Hint Resolve all : core.
Lemma codec_line : codec (fun _ => True) put_line get_line.
Proof.
  intros [p j b] _. split; [discriminate|]. unfold get_line, put_line. cbn [get_fields obind l_parts l_just l_bold]. repeat step.
  unfold ensure. rewrite (proj2 (str_eqb_eq _ _) eq_refl). reflexivity.
Qed.
Lemma sound_line : sound (fun _ => True) get_line.
Proof. intros v. change (good (fun _ => True) (get_line v)). unfold get_line. repeat got. unfold ensure. destruct (str_eqb _ _); exact I. Qed.
#[local] Hint Resolve codec_line sound_line : codecs.
Lemma codec_quoted : codec (fun _ => True) put_quoted get_quoted.
Proof. intros [i l w] _. split; [discriminate|]. unfold get_quoted, put_quoted. cbn [get_fields obind qb_intro qb_lines qb_wrap]. repeat step. reflexivity. Qed.
Lemma sound_quoted : sound (fun _ => True) get_quoted.
Proof. intros v. change (good (fun _ => True) (get_quoted v)). unfold get_quoted. repeat got. exact I. Qed.
#[local] Hint Resolve codec_quoted sound_quoted : codecs.
(** ** Elements of acts *)
Lemma codec_se_type : codec (fun _ => True) put_se_type get_se_type.
Proof.
  intros t _. split; [destruct t; discriminate|]. destruct t; unfold get_se_type, put_se_type, put_variant, get_variant; cbn [obind]; picked; try reflexivity.
  now destruct is_special.
Qed.
Lemma sound_se_type : sound (fun _ => True) get_se_type.
Proof.
  intros v. change (good (fun _ => True) (get_se_type v)). unfold get_se_type. cases; try exact I. got.
  eapply good_map; [eapply good_default; [exact sound_bool|exact I]|auto].
Qed.
#[local] Hint Resolve codec_se_type sound_se_type : codecs.
Lemma codec_struct_elem : codec (struct_elem_fits D) put_struct_elem (get_struct_elem dp).
Proof. intros [i t y c] [A B]. cbn in A, B. split; [discriminate|]. unfold get_struct_elem, put_struct_elem. cbn [get_fields obind se_id se_title se_ty se_change]. repeat step. reflexivity. Qed.
Lemma sound_struct_elem : sound (struct_elem_fits D) (get_struct_elem dp).
Proof. intros v. change (good (struct_elem_fits D) (get_struct_elem dp v)). unfold get_struct_elem. repeat got. now split. Qed.
Lemma codec_subtitle : codec (subtitle_fits D) put_subtitle (get_subtitle dp).
Proof. intros [i t c] [A B]. cbn in A, B. split; [discriminate|]. unfold get_subtitle, put_subtitle. cbn [get_fields obind st_id st_title st_change]. repeat step. reflexivity. Qed.
Lemma sound_subtitle : sound (subtitle_fits D) (get_subtitle dp).
Proof. intros v. change (good (subtitle_fits D) (get_subtitle dp v)). unfold get_subtitle. repeat got. now split. Qed.
#[local] Hint Resolve codec_struct_elem sound_struct_elem codec_subtitle sound_subtitle : codecs.
Section Over.
Context {P : Type} (Q : P -> Prop) (f : P -> value) (g : value -> outcome P).
Hypothesis CQ : codec Q f g.
Hypothesis SQ : sound Q g.
#[local] Hint Resolve CQ SQ : codecs.
Lemma codec_article : codec (article_fits D Q) (put_article_of f) (get_article_of dp g).
Proof. intros [i t l c] (A & B & C). cbn in A, B, C. split; [discriminate|]. unfold get_article_of, put_article_of. cbn [get_fields obind ar_ident ar_title ar_children ar_change]. repeat step. reflexivity. Qed.
Lemma sound_article : sound (article_fits D Q) (get_article_of dp g).
Proof. intros v. change (good (article_fits D Q) (get_article_of dp g v)). unfold get_article_of. repeat got. unfold good, article_fits. cbn [ar_ident ar_children ar_change]. auto. Qed.
#[local] Hint Resolve codec_article sound_article : codecs.
Lemma codec_child : codec (child_fits D Q) (put_child_of f) (get_child_of dp g).
Proof. intros t H. split; [destruct t; discriminate|]. destruct t; cbn in H; unfold get_child_of, put_child_of, put_variant, get_variant; cbn [obind]; variant. Qed.
Lemma sound_child : sound (child_fits D Q) (get_child_of dp g).
Proof. intros v. change (good (child_fits D Q) (get_child_of dp g v)). unfold get_child_of. cases; given. Qed.
#[local] Hint Resolve codec_child sound_child : codecs.
Lemma codec_ba_children : codec (ba_children_fit D Q) (put_ba_children f) (get_ba_children dp g).
Proof. intros t H. split; [destruct t; discriminate|]. destruct t; cbn in H; unfold get_ba_children, put_ba_children, put_variant, get_variant; cbn [obind]; variant. Qed.
Lemma sound_ba_children : sound (ba_children_fit D Q) (get_ba_children dp g).
Proof. intros v. change (good (ba_children_fit D Q) (get_ba_children dp g v)). unfold get_ba_children. cases; given. Qed.
#[local] Hint Resolve codec_ba_children sound_ba_children : codecs.
Lemma codec_block : codec (fun b => ba_children_fit D Q (bk_children b)) (put_block f) (get_block dp g).
Proof. intros [i c w] A. cbn in A. split; [discriminate|]. unfold get_block, put_block. cbn [get_fields obind bk_intro bk_children bk_wrap]. repeat step. reflexivity. Qed.
Lemma sound_block : sound (fun b => ba_children_fit D Q (bk_children b)) (get_block dp g).
Proof. intros v. change (good (fun b => ba_children_fit D Q (bk_children b)) (get_block dp g v)). unfold get_block. repeat got. auto. Qed.
Lemma codec_sblock : codec (fun b => Forall (child_fits D Q) (sb_children b)) (put_sblock f) (get_sblock dp g).
Proof. intros [i c w] A. cbn in A. split; [discriminate|]. unfold get_sblock, put_sblock. cbn [get_fields obind sb_intro sb_children sb_wrap]. repeat step. reflexivity. Qed.
Lemma sound_sblock : sound (fun b => Forall (child_fits D Q) (sb_children b)) (get_sblock dp g).
Proof. intros v. change (good (fun b => Forall (child_fits D Q) (sb_children b)) (get_sblock dp g v)). unfold get_sblock. repeat got. auto. Qed.
End Over.
Lemma codec_sae_par {C} (Q : C -> Prop) f g : codec Q f g -> codec (sae_fits D (if_some numeric_fits) Q) (put_sae put_par_id f) (get_sae dp get_par_id g).
Proof.
  intros T. apply codec_sae; [| | |exact T].
  - intros i l H K. exact (some_put _ _ _ "identifier" l i codec_numeric K H).
  - intros k i E. unfold put_par_id. now rewrite of_key_some, E.
  - intros i. unfold put_par_id. keys.
Qed.
Lemma sound_sae_par {C} (Q : C -> Prop) g : sound Q g -> sound (sae_fits D (if_some numeric_fits) Q) (get_sae dp get_par_id g).
Proof. intros T. apply sound_sae; [|exact T]. intros l. apply good_some, sound_numeric. Qed.
Lemma codec_par_children n : codec (par_children_fit D n) put_par_children (get_par_children dp n).
Proof.
  induction n as [|n IH]; [intros c []|]. pose proof (codec_sae_par _ _ _ IH) as K. pose proof (codec_block _ _ _ K) as KB. pose proof (codec_sblock _ _ _ K) as KS.
  intros c H. split; [destruct c; discriminate|].
  destruct c; cbn in H; cbn [put_par_children get_par_children]; unfold put_variant, get_variant; cbn [obind]; variant.
Qed.
Lemma sound_par_children n : sound (par_children_fit D n) (get_par_children dp n).
Proof.
  induction n as [|n IH]; [intros c; exact I|]. pose proof (sound_sae_par _ _ IH) as K. pose proof (sound_block _ _ K) as KB. pose proof (sound_sblock _ _ K) as KS.
  intros v. change (good (par_children_fit D (S n)) (get_par_children dp (S n) v)). cbn [get_par_children]. cases; given.
Qed.
Lemma codec_paragraph n : codec (paragraph_fits D n) put_paragraph (get_paragraph dp n).
Proof. exact (codec_sae_par _ _ _ (codec_par_children n)). Qed.
Lemma sound_paragraph n : sound (paragraph_fits D n) (get_paragraph dp n).
Proof. exact (sound_sae_par _ _ (sound_par_children n)). Qed.
Lemma codec_act n : codec (act_fits D n) put_act (get_act dp n).
Proof.
  pose proof (codec_child _ _ _ (codec_paragraph n)) as K. intros [i s p d m c] (A & B & C & E). cbn in A, B, C, E. split; [discriminate|]. unfold get_act, put_act.
  cbn [get_fields obind ac_id ac_subject ac_preamble ac_date ac_abbrevs ac_children]. repeat step; [reflexivity|apply is_empty_nil].
Qed.
Lemma sound_act n : sound (act_fits D n) (get_act dp n).
Proof.
  pose proof (sound_child _ _ (sound_paragraph n)) as K. intros v. change (good (act_fits D n) (get_act dp n v)). unfold get_act. repeat got; [apply abbrevs_fit_nil|].
  unfold good, act_fits. cbn [ac_id ac_date ac_abbrevs ac_children]. auto.
Qed.
End Dates.

(** ** Whole acts *)
Lemma save_roundtrip D dp n a : reads_dates D dp -> act_fits D n a -> get_act dp n (put_act a) = Ok a.
Proof. intros R F. exact (proj2 (codec_act D dp R n a F)). Qed.
Lemma save_injective D dp n a b : reads_dates D dp -> act_fits D n a -> act_fits D n b -> put_act a = put_act b -> a = b.
Proof. intros R A B E. apply Ok_inj. rewrite <- (save_roundtrip D dp n a R A), <- (save_roundtrip D dp n b R B). now rewrite E. Qed.
Lemma save_loaded D dp n v : reads_dates D dp -> get_act dp n v <> Panic /\ forall a, get_act dp n v = Ok a -> act_fits D n a.
Proof. intros R. pose proof (sound_act D dp R n v) as S. destruct (get_act dp n v) as [x| |]; split; try discriminate; try contradiction. intros a E. apply Ok_inj in E. now subst. Qed.
Lemma save_exact D dp n a : reads_dates D dp -> (act_fits D n a <-> exists v, get_act dp n v = Ok a) /\
  (forall v, get_act dp n v = Ok a -> get_act dp n (put_act a) = Ok a).
Proof.
  intros R. assert (L : forall v, get_act dp n v = Ok a -> act_fits D n a) by (intros v; apply (save_loaded D dp n v R)).
  split; [split|].
  - intros F. exists (put_act a). now apply (save_roundtrip D).
  - intros [v E]. exact (L v E).
  - intros v E. apply (save_roundtrip D); eauto.
Qed.
Lemma save_reference r : (ref_fits r -> get_ref (put_ref r) = Ok r) /\ (forall v, get_ref v <> Panic) /\ (forall v, get_ref v = Ok r -> ref_fits r).
Proof.
  split; [intros F; exact (proj2 (codec_ref r F))|]. split; intros v; pose proof (sound_ref v) as S; destruct (get_ref v); try discriminate; try contradiction.
  intros E. apply Ok_inj in E. now subst.
Qed.
Lemma save_digraph : exists r r', well_formed r /\ get_ref (put_ref r) = Ok r' /\ r' <> r.
Proof.
  exists (mkRef None None None None (Some (SpAlpha (single (mkPre None Sz))))), (mkRef None None None None (Some (SpAlpha (single (mkPre (Some (Latin 115)) (Latin 122)))))).
  split; [apply wf_check; split; reflexivity|]. split; [vm_compute; reflexivity|discriminate].
Qed.
