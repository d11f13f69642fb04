(** C33, C34, C48: the walkers and the positions of elements. *)
From Verif Require Import ModelStruct ProofWalk4.
From Coq Require String.
Local Open Scope N_scope.

(** ** The act of the repository's own tests, walker.rs:160-199 *)
Definition si0 : sem_info := si_default.
Definition sub_ (p c : N) (t : String.string) : alpha_subpoint :=
  mkSae (mkPre (Some (Latin p)) (Latin c)) (BText (lit t)) si0 None.
Definition pt_ (c : N) (b : sae_body alpha_children) : alpha_point := mkSae (Latin c) b si0 None.
Definition par_ (n : option N) (b : sae_body par_children) : paragraph := mkSae (option_map (fun n => mkNum n None) n) b si0 None.
Definition art_ (n : N) (t : option str) (l : list paragraph) : act_child := ChArticle (mkArticle (mkArt (Some 1) (mkNum n None)) t l None).
Definition act_ (l : list act_child) : act :=
  mkActS (mkAct 2345 13) (lit "A tesztelésről") (lit "A tesztelés nagyon fontos, és egyben kötelező") (mkDate 2345 6 7) [] l.
Definition test_act : act := act_
  [ChStruct (mkSe (mkNum 1 None) (lit "Egyszerű dolgok") TBook None);
   ChSubtitle (mkSub None (lit "Alcim id nelkul") None);
   art_ 1 (Some (lit "Az egyetlen cikk, aminek cime van.")) [par_ None (BText (lit "Meg szövege"))];
   art_ 2 None
     [par_ (Some 1) (BText (lit "Valami valami"));
      par_ (Some 2) (BChildren (lit "Egy felsorolás legyen")
        (PcAlpha [pt_ 97 (BText (lit "többelemű"));
                  pt_ 98 (BChildren (lit "kellően") (AcAlpha [sub_ 98 97 "átláthatatlan"; sub_ 98 98 "komplex"]) None)])
        (Some (lit "minden esetben.")))]].

(** * C33 *)
(** The walker makes exactly the calls of [act_events] and stops when one fails. *)
Theorem C33_walk_is_the_event_sequence : forall S (v : visitor S) a s, walk_act v a s = run v (act_events a) s.
Proof. exact @walk_act_run. Qed.
Print Assumptions C33_walk_is_the_event_sequence.
(** In that sequence each element is entered once and left once, in document order, properly nested. *)
Theorem C33_document_order : forall a,
  entered (act_events a) = elements a /\ Permutation (exited (act_events a)) (elements a) /\ nested (act_events a).
Proof. exact (fun a => conj (entered_act a) (conj (exited_act a) (nested_act a))). Qed.
Print Assumptions C33_document_order.
(** A visitor that writes down its calls ends up with that sequence. *)
Theorem C33_recorded : forall a, walk_act recorder a [] = (act_events a, Ok tt).
Proof. exact recorder_walk. Qed.
Print Assumptions C33_recorded.
(** The position is the act, the article and the identifiers of the elements above and of the element itself;
    it is a valid reference. *)
Theorem C33_positions : forall a r x, In (r, x) (elements a) -> exists ar, In ar (act_articles a) /\
  f_act r = Some (ac_id a) /\ f_article r = Some (single (ar_ident ar)) /\ try_ref r = Ok r.
Proof. exact position_article. Qed.
Print Assumptions C33_positions.
(** walker.rs:236-265 test_immutable, with compact references *)
Definition test_visitor : visitor (list str) :=
  mkVisitor
    (fun k r e s => (s ++ [lit "ENTER@" ++ ref_show_compact r] ++ match s_body e with BText t => [lit "TEXT:" ++ t] | _ => [] end, Ok tt))
    (fun k r e s => (s ++ [lit "EXIT@" ++ ref_show_compact r], Ok tt)).
Example C33_walker_test : walk_act test_visitor test_act [] = (map lit
  ["ENTER@2345.13_1.1___"; "TEXT:Meg szövege"; "EXIT@2345.13_1.1___";
   "ENTER@2345.13_1.2_1__"; "TEXT:Valami valami"; "EXIT@2345.13_1.2_1__";
   "ENTER@2345.13_1.2_2__";
   "ENTER@2345.13_1.2_2_a_"; "TEXT:többelemű"; "EXIT@2345.13_1.2_2_a_";
   "ENTER@2345.13_1.2_2_b_";
   "ENTER@2345.13_1.2_2_b_ba"; "TEXT:átláthatatlan"; "EXIT@2345.13_1.2_2_b_ba";
   "ENTER@2345.13_1.2_2_b_bb"; "TEXT:komplex"; "EXIT@2345.13_1.2_2_b_bb";
   "EXIT@2345.13_1.2_2_b_"; "EXIT@2345.13_1.2_2__"]%string, Ok tt).
Proof. vm_compute. reflexivity. Qed.
(** A visitor that fails at the fifth call stops there. *)
Example C33_stops : fst (walk_act (mkVisitor (fun k r e n => (n + 1, if n =? 4 then Err else Ok tt)) (fun k r e n => (n + 1, Ok tt))) test_act 0) = 5.
Proof. vm_compute. reflexivity. Qed.

(** * C34 *)
(** With a visitor that changes nothing the act stays as it is, and the walk is that of the immutable walker. *)
Theorem C34_unchanged : forall S (v : visitor_mut S) a s, changes_nothing v ->
  mut_act v a s = ((a, fst (walk_act (forget v) a s)), snd (walk_act (forget v) a s)).
Proof. exact (fun S v a s K => same_act v K a s). Qed.
Print Assumptions C34_unchanged.
(** Keeping a trace does not change what happens. *)
Theorem C34_trace_faithful : forall S (v : visitor_mut S) a s, strip (mut_act (traced v) a (s, [])) = mut_act v a s.
Proof. exact (fun S v a s => strip_act v a (s, [])). Qed.
Print Assumptions C34_trace_faithful.
(** If entering an element keeps its body, the calls are those of the immutable walker: all of them, or up to
    and including the first that fails. *)
Theorem C34_same_calls : forall S (v : visitor_mut S) a s, keeps_body v ->
  made (snd (snd (fst (mut_act (traced v) a (s, []))))) (snd (mut_act (traced v) a (s, []))) (map event_pos (act_events a)).
Proof. exact @c34_calls. Qed.
Print Assumptions C34_same_calls.
(** A visitor that only annotates elements leaves everything else in the act as it is, also if it fails. *)
Theorem C34_annotations_only : forall S (v : visitor_mut S) a s, annotates v ->
  bare_act (fst (fst (mut_act v a s))) = bare_act a.
Proof. exact (fun S v a s K => annot_act v K a s). Qed.
Print Assumptions C34_annotations_only.
(** A visitor without state changes each element by its two functions, and nothing else. *)
Theorem C34_applies_visitor : forall g h a, mut_act (stateless g h) a tt = ((m_act g h a, tt), Ok tt).
Proof. exact pure_act. Qed.
Print Assumptions C34_applies_visitor.
(** A failing visitor leaves what it would leave if it kept quiet and did nothing from the failing call on:
    the changes made until then are kept, that of the failing call too. *)
Theorem C34_failure_keeps : forall S (v : visitor_mut S) a s, let '((b, (s', f)), o) := mut_act (stubborn v) a (s, None) in
  o = Ok tt /\ mut_act v a s = ((b, s'), match f with Some o => o | None => Ok tt end).
Proof. exact @stubborn_act. Qed.
Print Assumptions C34_failure_keeps.
(** A visitor may replace the children on entering; then the calls differ. *)
Definition cutter : visitor_mut unit :=
  mkVisitorMut
    (fun k r e s => ((match get_last_part r, s_body e with
                      | PartPoint _, BChildren _ _ _ => with_body e (BText (lit "No children allowed"))
                      | _, _ => e end, s), Ok tt))
    (fun k r e s =>
      let f := flat_map (fun c => if (c =? chr "e")%N then [chr "a"] else [c]) in
      ((match s_body e with
        | BText t => with_body e (BText (f t))
        | BChildren i c w => with_body e (BChildren (f i) c w) end, s), Ok tt)).
Theorem C34_same_calls_refuted : exists (v : visitor_mut unit) a,
  ~ made (snd (snd (fst (mut_act (traced v) a (tt, []))))) (snd (mut_act (traced v) a (tt, []))) (map event_pos (act_events a)).
Proof.
  exists cutter, test_act. intros [(_ & E & _)|(N & _)].
  - apply (f_equal (@List.length _)) in E. vm_compute in E. discriminate.
  - apply N. vm_compute. reflexivity.
Qed.
Print Assumptions C34_same_calls_refuted.
(** walker.rs:332-340 test_mutable *)
Example C34_walker_test : mut_act cutter test_act tt = ((act_
  [ChStruct (mkSe (mkNum 1 None) (lit "Egyszerű dolgok") TBook None);
   ChSubtitle (mkSub None (lit "Alcim id nelkul") None);
   art_ 1 (Some (lit "Az egyetlen cikk, aminek cime van.")) [par_ None (BText (lit "Mag szövaga"))];
   art_ 2 None
     [par_ (Some 1) (BText (lit "Valami valami"));
      par_ (Some 2) (BChildren (lit "Egy falsorolás lagyan")
        (PcAlpha [pt_ 97 (BText (lit "többalamű")); pt_ 98 (BText (lit "No childran allowad"))])
        (Some (lit "minden esetben.")))]], tt), Ok tt).
Proof. vm_compute. reflexivity. Qed.
(** Visitors as in the hypotheses: counting calls, noting a change on leaving *)
Definition quitter : visitor_mut N :=
  mkVisitorMut (fun k r e n => ((with_body e (BText (lit "új")), n + 1), if n =? 1 then Err else Ok tt)) (fun k r e n => ((e, n), Ok tt)).
Example C34_failure_ex : mut_act quitter (act_ [art_ 1 None [par_ (Some 1) (BText (lit "a")); par_ (Some 2) (BText (lit "b")); par_ (Some 3) (BText (lit "c"))]]) 0 =
  ((act_ [art_ 1 None [par_ (Some 1) (BText (lit "új")); par_ (Some 2) (BText (lit "új")); par_ (Some 3) (BText (lit "c"))]], 2), Err).
Proof. vm_compute. reflexivity. Qed.
Definition counter : visitor_mut N := mkVisitorMut (fun k r e n => ((e, n + 1), Ok tt)) (fun k r e n => ((e, n), Ok tt)).
Definition marker : visitor_mut N :=
  mkVisitorMut (fun k r e n => ((e, n + 1), if n =? 4 then Err else Ok tt))
    (fun k r e n => ((mkSae (s_id e) (s_body e) (s_si e) (Some (mkLc (mkDate 2020 1 1) (CcAmendment r))), n), Ok tt)).
Example C34_unchanged_ex : changes_nothing counter /\ mut_act counter test_act 0 = ((test_act, 7), Ok tt).
Proof. split; [now intros k r e s|vm_compute; reflexivity]. Qed.
Example C34_annotations_ex : annotates marker /\ keeps_body marker /\ snd (mut_act marker test_act 0) = Err /\
  fst (fst (mut_act marker test_act 0)) <> test_act.
Proof. split; [now split|]. split; [now intros k r e s|]. split; [vm_compute; reflexivity|vm_compute; discriminate]. Qed.

(** * C48 *)
(** If article identifiers are distinct, looking one up finds it. *)
Theorem C48_article_found : forall a x, NoDup (map ar_ident (act_articles a)) -> In x (act_articles a) ->
  act_article a (ar_ident x) = Some x.
Proof. exact article_lookup. Qed.
Print Assumptions C48_article_found.
Theorem C48_lookup_sound : forall a i x, act_article a i = Some x -> In x (act_articles a) /\ ar_ident x = i.
Proof. exact article_lookup_sound. Qed.
Print Assumptions C48_lookup_sound.
Theorem C48_lookup_complete : forall a i, act_article a i = None <-> ~ In i (map ar_ident (act_articles a)).
Proof. exact article_lookup_none. Qed.
Print Assumptions C48_lookup_complete.
(** If siblings have different identifiers, no two elements have the same position. *)
Theorem C48_positions_distinct : forall a, distinct_act a -> NoDup (positions a).
Proof. exact positions_nodup. Qed.
Print Assumptions C48_positions_distinct.
Theorem C48_element_unique : forall a r x y, distinct_act a -> In (r, x) (elements a) -> In (r, y) (elements a) -> x = y.
Proof. exact element_unique. Qed.
Print Assumptions C48_element_unique.
(** This is so in every parsed act of at most 65535 lines, if it does not reach the last possible book. *)
Theorem C48_parsed_acts_distinct : forall rf up raw a, parse_act_structure rf up raw = Ok a ->
  (N.of_nat (List.length (ar_body raw)) <= 65535)%N ->
  Forall (fun x => a_book (ar_ident x) <> Some 255%N) (act_articles a) -> distinct_act a.
Proof. exact parsed_act_distinct. Qed.
Print Assumptions C48_parsed_acts_distinct.
(** Building the references never fails. *)
Theorem C48_references_valid : forall a r x, In (r, x) (elements a) -> try_ref r = Ok r.
Proof.
  exact (fun a r x H => match position_article a r x H with ex_intro _ _ (conj _ (conj _ (conj _ T))) => T end).
Qed.
Print Assumptions C48_references_valid.
(** With repeated article identifiers the lookup finds the first one only. *)
Theorem C48_duplicate_refuted : exists a x, In x (act_articles a) /\ act_article a (ar_ident x) <> Some x.
Proof.
  exists (act_ [art_ 1 None []; art_ 1 (Some (lit "Cím")) []]), (mkArticle (mkArt (Some 1) (mkNum 1 None)) (Some (lit "Cím")) [] None).
  split; [right; now left|]. vm_compute. discriminate.
Qed.
Print Assumptions C48_duplicate_refuted.
Example C48_distinct_ex : distinct_act test_act /\ List.length (positions test_act) = 7%nat.
Proof.
  split; [|vm_compute; reflexivity]. split.
  - cbn. repeat constructor; cbn; intuition discriminate.
  - repeat constructor; cbn; intuition discriminate.
Qed.
Example C48_parsed_ex :
  let raw := mkRaw (mkAct 2020 1) [] default_date (map (fun s => ModelText.from_test_str (lit s)) ["1:1. § Egy"; "2:1. § Kettő"]%string) in
  option_map (fun a => map ar_ident (act_articles a)) (to_opt (ModelStruct.parse_act_structure (fun _ => None) (fun _ => false) raw)) =
  Some [mkArt (Some 1) (mkNum 1 None); mkArt (Some 2) (mkNum 1 None)].
Proof. vm_compute. reflexivity. Qed.
