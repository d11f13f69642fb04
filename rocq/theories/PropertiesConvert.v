(** C35: converting quoted blocks into block amendments. *)
From Verif Require Import ProofConvert3.
From Coq Require String.
Local Open Scope N_scope.

(** A successful conversion changes only the paragraphs that have an amending phrase and exactly one quoted
    block; there the block becomes the amendment, with its intro, its wrap up and all of its text. *)
Theorem C35_converts : forall rf up a, snd (convert_act rf up a) = Ok tt ->
  same_act_but (treated rf) a (fst (convert_act rf up a)).
Proof. exact c35_ok. Qed.
Print Assumptions C35_converts.
(** Without such a paragraph nothing happens. *)
Theorem C35_others_untouched : forall rf up a, (forall p, In p (act_pars a) -> ~ candidate p) ->
  convert_act rf up a = (a, Ok tt).
Proof. exact c35_none. Qed.
Print Assumptions C35_others_untouched.
(** Converting again changes nothing. *)
Theorem C35_idempotent : forall rf up a, snd (convert_act rf up a) = Ok tt ->
  convert_act rf up (fst (convert_act rf up a)) = (fst (convert_act rf up a), Ok tt).
Proof. exact c35_idempotent. Qed.
Print Assumptions C35_idempotent.
(** A conversion that fails stops at the failing paragraph: what comes before is converted, what comes after is
    unchanged, and the failing paragraph differs only in the missing intro of its block. *)
Theorem C35_failure : forall rf up a, snd (convert_act rf up a) <> Ok tt ->
  same_act_but head_kept a (fst (convert_act rf up a)) /\
  exists done done' p p' rest, act_pars a = done ++ p :: rest /\ act_pars (fst (convert_act rf up a)) = done' ++ p' :: rest /\
    Forall2 (treated rf) done done' /\ candidate p /\ intro_lost p p'.
Proof. exact c35_fail. Qed.
Print Assumptions C35_failure.
(** No panic if the blocks have lines, none of which ends with a space, and bracketed titles have a text after them *)
Theorem C35_no_panic : forall rf up a,
  (forall p q, In p (act_pars a) -> amending p -> one_block p q ->
     qb_lines q <> [] /\ Forall not_ending_in_space (qb_lines q) /\ brackets_followed rf up BlockAm (qb_lines q)) ->
  snd (convert_act rf up a) <> Panic.
Proof. exact c35_no_panic. Qed.
Print Assumptions C35_no_panic.

(** ** Examples and counterexamples *)
Definition tls (l : list String.string) : list line := map (fun s => from_test_str (lit s)) l.
Definition rf0 (s : str) : option Z := if str_eqb s (lit "II") then Some 2%Z else None.
Definition up0 (c : char) : bool := ((65 <=? c) && (c <=? 90))%N.
Definition num (n : N) : numeric := mkNum n None.
Definition phrase_par (ph : option phrase) (qs : list quoted_block) : paragraph :=
  mkSae None (BChildren (lit "A törvény a következő szöveggel lép hatályba:") (PcQuoted qs) (Some (lit "Eddig."))) (mkSi [] [] ph) None.
Definition act_of (ps : list paragraph) : act :=
  mkActS (mkAct 2020 1) [] [] default_date [] [ChSubtitle (mkSub None (lit "Alcím") None); ChArticle (mkArticle (mkArt None (num 1)) None ps None)].
Definition par_ref : reference :=
  mkRef (Some (mkAct 2010 5)) (Some (single (mkArt None (num 3)))) (Some (single (num 2))) None None.
Definition block_phrase : phrase := PhBlock (mkBaPhrase par_ref true).
Definition good_block : quoted_block := mkQb (Some (lit "Bevezető")) (tls ["3. § (2) Az első."; "(3) A második."]%string) (Some (lit "záró")).
Definition bad_block : quoted_block := mkQb (Some (lit "Bevezető")) (tls ["(4) Nem ez."]%string) None.
Definition struct_phrase (e : sr_element) (t : bool) : phrase := PhStructural (mkSbaPhrase (mkSRef None None None e t) true).
Example C35_paragraphs_ex :
  let r := convert_act rf0 up0 (act_of [phrase_par None [good_block]; phrase_par (Some block_phrase) [good_block]]) in
  snd r = Ok tt /\
  map (fun p => match s_body p with
                | BChildren i (PcBlock b) w => Some (i, bk_intro b, match bk_children b with BcParagraph l => map s_id l | _ => [] end, bk_wrap b, w)
                | _ => None end) (act_pars (fst r)) =
  [None; Some (lit "A törvény a következő szöveggel lép hatályba:", Some (lit "Bevezető"), [Some (num 2); Some (num 3)], Some (lit "záró"), Some (lit "Eddig."))].
Proof. vm_compute. auto. Qed.
Example C35_structures_ex :
  let conv e t ls := convert_act rf0 up0 (act_of [phrase_par (Some (struct_phrase e t)) [mkQb None (tls ls) None]]) in
  let shape r := (snd r, map (fun p => match s_body p with
                | BChildren i (PcStruct b) w => map (fun c => match c with
                    | ChArticle a => article_show (ar_ident a) | ChSubtitle s => st_title s | ChStruct e => se_title e end) (sb_children b)
                | _ => [] end) (act_pars (fst r))) in
  shape (conv (SeArticle (mkRange (mkArt None (num 3)) (mkArt None (num 4)))) false ["3. § Egy"; "kettő"; "4. § Három"]%string)
    = (Ok tt, [[lit "3"; lit "4"]]) /\
  shape (conv (SeChapter (num 2)) true ["Az új"; "cím"]%string) = (Ok tt, [[lit "Az új cím"]]) /\
  shape (conv (SeChapter (num 2)) true ["II. Fejezet"; "Az új cím"]%string) = (Ok tt, [[lit "Az új cím"]]) /\
  shape (conv (SeChapter (num 2)) false ["II. Fejezet"; "Cím"; "7. § Szöveg"]%string) = (Ok tt, [[lit "Cím"; lit "7"]]) /\
  shape (conv (SeSubtitleId (num 2)) true ["<BOLD>2. Alcím"]%string) = (Ok tt, [[lit "Alcím"]]).
Proof. vm_compute. repeat split. Qed.
Example C35_untouched_ex : (forall p, In p (act_pars (act_of [phrase_par None [good_block]; phrase_par (Some block_phrase) [good_block; good_block]])) -> ~ candidate p).
Proof.
  intros p [<-|[<-|[]]]; intros [A (q & i & w & E)].
  - exact A.
  - discriminate.
Qed.
Example C35_no_panic_ex : let q := good_block in qb_lines q <> [] /\ Forall not_ending_in_space (qb_lines q) /\ brackets_followed rf0 up0 BlockAm (qb_lines q).
Proof.
  split; [discriminate|]. split.
  - repeat constructor; intros s E; apply (f_equal (@rev _)) in E; rewrite rev_app_distr in E; vm_compute in E; discriminate.
  - intros a l b s E Ec. apply (f_equal (@rev _)) in Ec. rewrite rev_app_distr in Ec.
    destruct a as [|x [|y a]]; cbn in E; injection E as E1 E2; subst; try (vm_compute in Ec; discriminate). destruct a; discriminate.
Qed.
(** A failing conversion does not leave the act unchanged. *)
Theorem C35_atomic_refuted : exists rf up a, snd (convert_act rf up a) = Err /\ fst (convert_act rf up a) <> a.
Proof.
  exists rf0, up0, (act_of [phrase_par (Some block_phrase) [bad_block]]). split; [vm_compute; reflexivity|].
  intros E. apply (f_equal act_pars) in E. vm_compute in E. discriminate.
Qed.
Print Assumptions C35_atomic_refuted.
(** It may panic: the block may consist of the header of the article alone, or of a title alone. *)
Theorem C35_header_only_refuted : exists rf up a, snd (convert_act rf up a) = Panic.
Proof.
  exists rf0, up0, (act_of [phrase_par (Some block_phrase) [mkQb None [mkLine (map (fun c => mkPart 1 c false) (lit "3. § ")) false false] None]]).
  vm_compute. reflexivity.
Qed.
Print Assumptions C35_header_only_refuted.
Theorem C35_title_alone_refuted : exists rf up a, snd (convert_act rf up a) = Panic.
Proof.
  exists rf0, up0, (act_of [phrase_par (Some (struct_phrase (SeArticle (single (mkArt None (num 3)))) false))
    [mkQb None (tls ["3. § [A cím]"]%string) None]]).
  vm_compute. reflexivity.
Qed.
Print Assumptions C35_title_alone_refuted.
