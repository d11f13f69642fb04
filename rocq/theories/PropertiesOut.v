(** C38, C53, C54: the text output. *)
From Verif Require Import ProofOut3 PropertiesSem.
Local Open Scope N_scope.

(** * C38 *)
(** The text is cut exactly when the references follow each other and begin and end at characters of the text; *)
Theorem C38_when_cut : forall t refs,
  (cuttable t 0 refs -> exists l, split_string_at_references t refs = Ok l) /\
  (~ cuttable t 0 refs -> split_string_at_references t refs = Panic).
Proof. exact c38_cut. Qed.
Print Assumptions C38_when_cut.
(** the pieces together are the text, plain and marked ones alternate, and the marked ones are the texts of the
    references in order. *)
Theorem C38_pieces : forall t refs l, split_string_at_references t refs = Ok l ->
  List.concat (map fst l) = t /\ alternating l /\ Forall2 (fun o x => piece t (o_start o) (o_end o) x) refs (marked l).
Proof. exact c38_pieces. Qed.
Print Assumptions C38_pieces.
(** Without colours the text is written as it is, *)
Theorem C38_plain : forall t p i, op_colored p = false -> cuttable t 0 (si_outgoing i) -> colorize_sae t p i = Ok t.
Proof. exact c38_plain. Qed.
Print Assumptions C38_plain.
(** with colours each piece is between a colour code and a reset code. *)
Theorem C38_colored : forall t p i s, op_colored p = true -> colorize_sae t p i = Ok s -> exists l,
  split_string_at_references t (si_outgoing i) = Ok l /\
  s = flat_map (fun x : str * bool => [27] ++ lit "[" ++ (if snd x then lit "36" else if is_some (si_phrase i) then lit "33" else lit "0") ++ lit "m" ++ fst x ++ [27] ++ lit "[0m") l.
Proof. exact c38_colored. Qed.
Print Assumptions C38_colored.
(** Ordered references (C37) that are pieces of the text can be cut. *)
Theorem C38_ordered_references : forall t l lo, spans_ordered lo l ->
  Forall (fun o => exists x, piece t (o_start o) (o_end o) x) l -> cuttable t lo l.
Proof. exact spans_cuttable. Qed.
Print Assumptions C38_ordered_references.
Example C38_sample_cut : cuttable (lit "Ló a: Ptk., ő") 0 [mkOut 0 3 (ref_of_act a13); mkOut 7 11 (ref_of_act a14)] /\
  split_string_at_references (lit "Ló a: Ptk., ő") [mkOut 0 3 (ref_of_act a13); mkOut 7 11 (ref_of_act a14)] =
  Ok [([], false); (lit "Ló", true); (lit " a: ", false); (lit "Ptk.", true); (lit ", ő", false)].
Proof.
  split; [|vm_compute; reflexivity]. cbn [cuttable o_start o_end].
  assert (B : forall n, (exists x, split_at_byte (lit "Ló a: Ptk., ő") n = Some x) -> boundary (lit "Ló a: Ptk., ő") n).
  { intros n [[a b] E]. apply split_at_byte_ok in E as [E F]. now exists a, b. }
  repeat split; try lia; apply B; eexists; vm_compute; reflexivity.
Qed.
(** Not cut: the second character takes two bytes; overlapping; beyond the end *)
Example C38_sample_panics : map (split_string_at_references (lit "Ló"))
  [[mkOut 0 2 (ref_of_act a13)]; [mkOut 0 1 (ref_of_act a13); mkOut 0 1 (ref_of_act a13)]; [mkOut 1 4 (ref_of_act a13)]] = [Panic; Panic; Panic].
Proof. vm_compute. reflexivity. Qed.
(** The references that adding semantic information records need not be of this kind: "lásd Ptk" with the
    abbreviation "Ptk." known gives a reference that ends after the text, and then printing the act panics. *)
Definition one_line : str -> N -> list str := fun s _ => [s].
Definition ptk_act : act := mkActS a14 [] [] default_date [(lit "Ptk.", a13)]
  [ChArticle (mkArticle (mkArt None (mkNum 1 None)) None [mkSae None (BText (lit "lásd Ptk")) si_default None] None)].
Theorem C38_recorded_references_cut_refuted :
  ~ (forall rf gp a w colored,
     (forall c s k r, gp s k = Ok r -> in_order 0 (root_events rf (ca_map c) r) /\ after (root_events rf (ca_map c) r) 0 <= utf8_len s) ->
     snd (add_semantic_info rf gp a) = Ok true \/ snd (add_semantic_info rf gp a) = Ok false ->
     5 * act_levels (fst (add_semantic_info rf gp a)) <= w ->
     act_output one_line w colored (fst (add_semantic_info rf gp a)) <> Panic).
Proof.
  intros H. apply (H no_roman ptk_parser ptk_act 100 false).
  - unfold ptk_parser. intros c s k r. destruct (str_eqb_spec s (lit "lásd Ptk.")) as [->|]; [|discriminate]. intros E. injection E as <-.
    vm_compute. repeat split; congruence.
  - right. vm_compute. reflexivity.
  - vm_compute. discriminate.
  - vm_compute. reflexivity.
Qed.
Print Assumptions C38_recorded_references_cut_refuted.

(** * C53 *)
(** If wrapping keeps the characters that are not white space, then the output without colours consists of the
    texts and headers of the act in document order, up to white space. *)
Theorem C53_all_text : forall wrap, (forall s w, solid (List.concat (wrap s w)) = solid s) ->
  forall w a s, act_output wrap w false a = Ok s -> solid s = solid (act_texts a).
Proof. exact c53_all_text. Qed.
Print Assumptions C53_all_text.
(** A wrapping that puts each word into its own line *)
Definition words : str -> N -> list str := fun s _ =>
  fold_right (fun c l => if c =? 32 then [] :: l else match l with x :: l' => (c :: x) :: l' | [] => [[c]] end) [[]] s.
Example C53_words : forall s w, solid (List.concat (words s w)) = solid s.
Proof.
  intros s w. unfold words. match goal with |- context [fold_right ?g _ _] => set (f := g) end.
  induction s as [|c s IH]; [reflexivity|]. cbn [fold_right]. change (solid (c :: s)) with (solid ([c] ++ s)). rewrite solid_app, <- IH.
  unfold f at 1. destruct (N.eqb_spec c 32) as [->|E]; [reflexivity|].
  destruct (fold_right f [[]] s) as [|x l]; [now rewrite app_nil_r|]. cbn [List.concat]. now rewrite <- solid_app.
Qed.
Definition out_act : act := mkActS a13 (lit "a lóról") (lit "Bevezető") default_date []
  [ChStruct (mkSe (mkNum 1 None) (lit "CÍM") TChapter None);
   ChArticle (mkArticle (mkArt None (mkNum 1 None)) (Some (lit "Címe"))
     [sem_par;
      mkSae (Some (mkNum 3 None)) (BChildren (lit "Az lép:")
        (PcBlock (mkBlock (Some (lit "bev")) (BcParagraph [mkSae (Some (mkNum 5 None)) (BText (lit "új szöveg.")) si_default None]) None)) None) si_default None] None)].

Definition out_lines : list str := map lit
  ["     2012. évi XIII. törvény a lóról"; ""; "     Bevezető"; ""; ""; "     I. FEJEZET"; "     CÍM"; "";
   "     1. §           [Címe]";
   "               (2)  Ha";
   "                    a)   egy, és";
   "                    b)   kettő:";
   "                         ba)  x;";
   "                         bb)  y";
   "                         esetén";
   "                    lesz.";
   "               (3)  Az lép:";
   "                    (bev)";
   "                    „";
   "                         (5)  új szöveg.";
   "                    ”"]%string.
Example C53_sample : act_output one_line 40 false out_act = Ok (flat_map (fun l => l ++ newline) out_lines).
Proof. vm_compute. reflexivity. Qed.
(** With colours the codes are also there: the claim needs the output to be without colours. *)
Theorem C53_all_text_colored_refuted : ~ (forall w colored a s, act_output words w colored a = Ok s -> solid s = solid (act_texts a)).
Proof.
  intros H. specialize (H 40 true (mkActS a13 [] [] default_date [] [])). vm_compute act_output in H. specialize (H _ eq_refl).
  vm_compute in H. discriminate.
Qed.
Print Assumptions C53_all_text_colored_refuted.

(** * C54 *)
(** Printing does not panic if the page is wide enough for the indentation, the act number has a roman numeral and
    the references of every element can be cut from its text (C38). *)
Theorem C54_no_panic : forall wrap w colored a, 5 * act_levels a <= w -> act_show (ac_id a) <> Panic ->
  Forall (fun x => cuttable (fst x) 0 (snd x)) (act_refs a) -> act_output wrap w colored a <> Panic.
Proof. exact c54_no_panic. Qed.
Print Assumptions C54_no_panic.
(** A text that is not wrapped at all still panics on a narrow page. *)
Theorem C54_narrow_page_refuted : ~ (forall w a, act_show (ac_id a) <> Panic ->
  Forall (fun x => cuttable (fst x) 0 (snd x)) (act_refs a) -> act_output one_line w false a <> Panic).
Proof. intros H. apply (H 29 out_act); [vm_compute; discriminate|repeat constructor|vm_compute; reflexivity]. Qed.
Print Assumptions C54_narrow_page_refuted.
(** [act_levels] is the number of levels that this act needs. *)
Example C54_sample : (act_levels out_act = 6) /\ Forall (fun x => cuttable (fst x) 0 (snd x)) (act_refs out_act) /\
  (act_output one_line 29 false out_act = Panic) /\ act_output one_line 30 false out_act <> Panic.
Proof. split; [reflexivity|]. split; [repeat constructor|]. split; [vm_compute; reflexivity|vm_compute; discriminate]. Qed.
