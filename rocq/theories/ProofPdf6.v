(** No panics for whole files; numbers and a sorting function for the examples. *)
From Verif Require Export ProofPdf5.
From Coq Require Import Lia.

Section Run.
  Variable fl : floats.
  Lemma c44_parse_no_panic rank get sort d crop pages : forms_ranked fl rank get ->
    (forall res ops, In (res, Some ops) pages -> drawn_below fl rank res d ops) -> forall c, parse_pages fl sort get d crop pages c <> Panic.
  Proof.
    intros R. induction pages as [|[res ops] pages IH]; intros B c; cbn [parse_pages]; [discriminate|]. destruct ops as [ops|]; [|discriminate]. cbn [ok_or obind].
    pose proof (c44_no_panic fl get rank R d ops (new_renderer fl res c (new_collector fl crop)) (B _ _ (or_introl eq_refl))) as N.
    destruct (handle_ops _ _ _ _ _) as [r| |]; [|discriminate|now destruct N]. cbn [obind].
    specialize (IH (fun x y I => B x y (or_intror I)) (rr_cache _ r)). destruct (parse_pages _ _ _ _ _ pages _); [discriminate..|now destruct IH].
  Qed.
  Lemma c44_unmatched get d ops r r' : forms_satisfy fl (balanced fl) get -> saves fl (List.length (rr_stack _ r)) ops = None -> handle_ops fl get d ops r <> Ok r'.
  Proof. intros B N H. apply c44_depth in H; [congruence|exact B]. Qed.
  Lemma c44_self get res n x fr d r : rr_res _ r = Some res -> rs_xobjects _ res n = Some x -> get x = Some (XForm _ fr (Some [OXObject _ n])) ->
    (forall s, fr = Some s -> rs_xobjects _ s n = Some x) -> handle_op fl get d r (OXObject _ n) = Panic.
  Proof.
    revert res r. induction d as [|d IH]; intros res r E X G F; rewrite handle_xobject_op; unfold handle_xobject; rewrite E; cbn [ok_or obind]; rewrite X; cbn [ok_or obind]; rewrite G; cbn [ok_or obind]; [reflexivity|].
    cbn [deeper ofold]. destruct fr as [s|].
    - erewrite (IH s); [reflexivity|reflexivity|now apply F|exact G|exact F].
    - erewrite (IH res); [reflexivity|exact E|exact X|exact G|exact F].
  Qed.
  Lemma c45_no_spaces get d ops res c crop r : handle_ops fl get d ops (new_renderer fl res c (new_collector fl crop)) = Ok r -> no_spaces fl (cl_chars _ (rr_coll _ r)).
  Proof.
    intros H. apply c45_collected in H as [_ (l & -> & F)]. cbn [app cl_chars rr_coll new_renderer new_collector]. unfold no_spaces. eapply Forall_impl; [|exact F].
    intros ch (_ & W & _) E. rewrite E in W. discriminate.
  Qed.
  Lemma c56_named fonts get : all_fonts_of fl fonts get -> forall d ops res c k r' n sz r'',
    fonts_of fl fonts res -> cache_ok fl fonts c ->
    handle_ops fl get d ops (new_renderer fl (Some res) c k) = Ok r' -> handle_op fl get d r' (OTextFont fl n sz) = Ok r'' ->
    exists a p f, rs_fonts fl res n = Some (a, p) /\ convert_font fl p = Ok f /\ ts_font fl (rr_state fl r'') = Some f /\ ts_size fl (rr_state fl r'') = sz.
  Proof.
    intros G d ops res c k r' n sz r'' FO C H1 H2.
    assert (Q : good fl fonts (new_renderer fl (Some res) c k)) by (split; [exact C|intros x [= <-]; exact FO]).
    destruct (c56_font fl fonts get G d ops _ _ n sz r'' Q H1 H2) as (res' & a & p & f & [= <-] & A & B & D & S).
    now exists a, p, f.
  Qed.
  Lemma c55_code_255 (w : N -> flt fl) t : (let* f := convert_font fl (mkPdfFont fl (Some w) false None (Some (BTable t, [])) (Some [])) in Ok (to_unicode fl f 255%N)) = Ok TuUnknown.
  Proof.
    cbn [convert_font pf_widths pf_encoding pf_unicode ok_or obind fst snd process_encoding]. cbn [add_mappings fold_left]. f_equal.
    eapply means_unique; [apply (means_unicode fl (mkFont fl [] [] false false None w) (base_mappings t) 255%N eq_refl eq_refl)|].
    assert (Z : forall p, last_of (fun m => code_of 255%N m && p m) (base_mappings t) = None).
    { intros p. destruct (last_of _ _) as [m|] eqn:L; [|reflexivity]. apply last_of_sound in L as [I P]. apply andb_true_iff in P as [P _]. unfold code_of in P. apply N.eqb_eq in P.
      unfold base_mappings in I. apply in_flat_map in I as (c & J & I). apply in_codes in J. destruct (t c); [|easy]. destruct I as [<-|[]]. cbn in P. lia. }
    apply Means_nothing; [apply Z|rewrite Z; discriminate|]. cbn. now intros [? _].
  Qed.
End Run.

(** Sorting by insertion *)
Section Sort.
  Context {A : Type} (cmp : A -> A -> comparison).
  Fixpoint insert (x : A) (l : list A) : list A :=
    match l with [] => [x] | y :: l' => match cmp x y with Lt => x :: y :: l' | _ => y :: insert x l' end end.
  Definition insertion_sort (l : list A) : list A := fold_right insert [] l.
  Lemma insert_perm x l : Permutation (insert x l) (x :: l).
  Proof.
    induction l as [|y l IH]; cbn; [reflexivity|]. destruct (cmp x y); try reflexivity; rewrite IH; constructor.
  Qed.
  Lemma insertion_perm l : Permutation (insertion_sort l) l.
  Proof. induction l as [|x l IH]; cbn; [reflexivity|]. rewrite insert_perm. now constructor. Qed.
  Let lt (a b : A) : bool := match cmp a b with Lt => true | _ => false end.
  Lemma insertion_sorted l : weak_order lt -> StronglySorted (fun a b => lt b a = false) (insertion_sort l).
  Proof.
    intros (I & T & N). induction l as [|x l IHl]; cbn; [constructor|]. fold (insertion_sort l). revert IHl. generalize (insertion_sort l). clear l. intros l H.
    induction H as [|y l' S IH F]; cbn; [repeat constructor|].
    assert (E : (exists Q : lt x y = true, insert x (y :: l') = x :: y :: l') \/ (exists Q : lt x y = false, insert x (y :: l') = y :: insert x l')).
    { unfold lt. cbn. destruct (cmp x y); [right|left|right]; now exists eq_refl. }
    change (match cmp x y with Lt => x :: y :: l' | _ => y :: insert x l' end) with (insert x (y :: l')). destruct E as [[Q ->]|[Q ->]].
    - assert (Y : lt y x = false). { destruct (lt y x) eqn:Y; [|reflexivity]. rewrite <- (I x). symmetry. now apply (T x y x). }
      constructor; [now constructor|]. constructor; [exact Y|]. eapply Forall_impl; [|exact F]. intros z Z. now apply (N z y x).
    - constructor; [exact IH|]. apply (Permutation_Forall (Permutation_sym (insert_perm x l'))). constructor; [exact Q|exact F].
  Qed.
End Sort.

(** Numbers in thousandths *)
Definition milli : floats := mkFl Z
  0%Z 1000%Z 1000000%Z 500%Z 16000%Z 800%Z 250%Z 10%Z
  Z.add Z.sub (fun a b => a * b / 1000)%Z (fun a b => a * 1000 / b)%Z
  Z.opp Z.abs Z.max (fun n => Z.of_nat n * 1000)%Z
  Z.ltb Z.leb Z.eqb (fun x => x).
Definition isort : (pchar milli -> pchar milli -> comparison) -> list (pchar milli) -> list (pchar milli) := fun cmp => insertion_sort cmp.
Lemma isort_moves : moves milli isort.
Proof. intros cmp l. apply insertion_perm. Qed.
Lemma isort_sorts : sorts milli isort.
Proof. intros cmp l W. apply insertion_sorted. exact W. Qed.
Lemma milli_order : weak_order (f_lt milli).
Proof.
  unfold f_lt, milli. split; [|split]; intros *.
  - apply Z.ltb_irrefl.
  - rewrite !Z.ltb_lt. lia.
  - rewrite !Z.ltb_ge. lia.
Qed.
Lemma milli_coord : exact_coord milli.
Proof. now split. Qed.
