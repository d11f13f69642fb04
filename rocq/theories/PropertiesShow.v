(** C67: the text of a reference. *)
From Verif Require Import ProofShow10.
Local Open Scope N_scope.

(** * Examples *)
Definition sh_num (n : N) : numeric := mkNum n None.
Definition sh_la (s : string) : hic := Latin (hd 0 (lit s)).
Definition one {T} (x : T) : range T := mkRange x x.
(** 2012. évi I. törvény 6:15/A. § (2) bekezdés a) pont ab)–ad) alpontja *)
Definition sh_long : reference := mkRef (Some (mkAct 2012 1)) (Some (one (mkArt (Some 6) (mkNum 15 (Some (sh_la "a"))))))
  (Some (one (sh_num 2))) (Some (PtAlpha (one (sh_la "a"))))
  (Some (SpAlpha (mkRange (mkPre (Some (sh_la "a")) (sh_la "b")) (mkPre (Some (sh_la "a")) (sh_la "d"))))).
Definition sh_points : reference := mkRef None None None (Some (PtNum (mkRange (sh_num 3) (mkNum 5 (Some Cs))))) None.
Definition sh_article (x y : article_id) : reference := mkRef None (Some (mkRange x y)) None None None.
Definition sh_roman (s : str) : option Z := Some (roman_read s).
(** What the grammar reads from the text of a reference *)
Definition sh_read (r : reference) : option (list out_ref) :=
  match ref_show r with
  | Ok s => match grammar_parse s [lit "Ptk."] with
            | Ok g => match get_outgoing_references sh_roman cache_new g with Ok l => Some l | _ => None end
            | _ => None
            end
  | _ => None
  end.
Lemma sh_long_ok : readable_ref sh_long.
Proof.
  split.
  - split; [intros _ _; discriminate|intros _ _; discriminate|].
    intros [] [] H; unfold finer; cbn; intros F P; try lia; cbn in H; solve [contradiction|apply P; reflexivity|apply H; reflexivity].
  - unfold parts_ok; cbn; repeat match goal with |- _ /\ _ => split end; intros a H; try discriminate; injection H as <-; vm_compute; repeat split; reflexivity.
  - left. discriminate.
  - intros a H. injection H as <-. vm_compute. discriminate.
  - intros x H. injection H as <-. cbn. auto.
  - discriminate.
Qed.
Lemma sh_points_ok : readable_ref sh_points.
Proof.
  split.
  - split; [intros H; exfalso; apply H; reflexivity|intros H; exfalso; apply H; reflexivity|].
    intros [] [] H; unfold finer; cbn; intros F P; try lia; cbn in H; solve [contradiction|apply P; reflexivity|apply H; reflexivity].
  - unfold parts_ok; cbn; repeat match goal with |- _ /\ _ => split end; intros a H; try discriminate; injection H as <-; vm_compute; repeat split; reflexivity.
  - right. discriminate.
  - discriminate.
  - discriminate.
  - discriminate.
Qed.

(** * C67 *)
(** The text of a reference is the Hungarian phrase. *)
Theorem C67_phrase : forall r s, well_formed r -> (ref_show r = Ok s <-> phrase r s).
Proof. exact show_iff. Qed.
Print Assumptions C67_phrase.
Example C67_sample : well_formed sh_long /\ well_formed sh_points /\
  ref_show sh_long = Ok (lit "2012. évi I. törvény 6:15/A. § (2) bekezdés a) pont ab)–ad) alpontja") /\
  ref_show sh_points = Ok (lit "3–5cs. pontja").
Proof. split; [apply sh_long_ok|]. split; [apply sh_points_ok|]. split; vm_compute; reflexivity. Qed.
(** The grammar reads this text as the same reference, and as the act in it, at their exact places, whatever
    abbreviations are known. *)
Theorem C67_read_back : forall rf known c r s, roman_from_reads rf -> Forall other_beginning known -> readable_ref r -> ref_show r = Ok s ->
  exists g l, grammar_parse s known = Ok g /\ get_outgoing_references rf c g = Ok l /\ found_in_phrase r s l.
Proof. exact show_read_back. Qed.
Print Assumptions C67_read_back.
Example C67_sample_read : roman_from_reads sh_roman /\ Forall other_beginning [lit "Ptk."] /\ readable_ref sh_long /\ readable_ref sh_points /\
  sh_read sh_long = Some [mkOut 0 23 (mkRef (Some (mkAct 2012 1)) None None None None); mkOut 24 75 sh_long] /\
  sh_read sh_points = Some [mkOut 0 15 sh_points].
Proof.
  split; [exact roman_read_reads|]. split; [constructor; [|constructor]; exists 80, (lit "tk."); split; [reflexivity|]; repeat split; vm_compute; intuition discriminate|].
  split; [exact sh_long_ok|]. split; [exact sh_points_ok|]. split; vm_compute; reflexivity.
Qed.
(** Different references have different texts. *)
Theorem C67_unambiguous : forall r r' s, readable_ref r -> readable_ref r' -> ref_show r = Ok s -> ref_show r' = Ok s -> r = r'.
Proof. exact show_unambiguous. Qed.
Print Assumptions C67_unambiguous.

(** Not all texts are read back. *)
(** A two-letter suffix of an article: 5/CS. §-a. Nothing is found. *)
Definition sh_cs : article_id := mkArt None (mkNum 5 (Some Cs)).
Theorem C67_article_suffix_refuted : exists r, well_formed r /\ parts_ok r /\
  ref_show r = Ok (lit "5/CS. §-a") /\ sh_read r = Some [].
Proof.
  exists (sh_article sh_cs sh_cs). split; [|split; [|split; vm_compute; reflexivity]].
  - split; [intros H; exfalso; apply H; reflexivity|intros H; exfalso; apply H; reflexivity|].
    intros [] [] H F P; cbn in H; solve [contradiction|apply P; reflexivity|apply H; reflexivity].
  - unfold parts_ok; cbn; repeat match goal with |- _ /\ _ => split end; intros a H; try discriminate; injection H as <-; vm_compute; repeat split; reflexivity.
Qed.
Print Assumptions C67_article_suffix_refuted.
(** A range over more books: 1:5–2:7. §-a. It is read as a range of the first book. *)
Theorem C67_books_refuted : exists r, well_formed r /\ parts_ok r /\
  ref_show r = Ok (lit "1:5–2:7. §-a") /\ sh_read r = Some [mkOut 0 15 (sh_article (mkArt (Some 1) (sh_num 5)) (mkArt (Some 1) (sh_num 7)))].
Proof.
  exists (sh_article (mkArt (Some 1) (sh_num 5)) (mkArt (Some 2) (sh_num 7))). split; [|split; [|split; vm_compute; reflexivity]].
  - split; [intros H; exfalso; apply H; reflexivity|intros H; exfalso; apply H; reflexivity|].
    intros [] [] H F P; unfold finer in F; cbn in H, F; try lia; solve [contradiction|apply P; reflexivity|apply H; reflexivity].
  - unfold parts_ok; cbn; repeat match goal with |- _ /\ _ => split end; intros a H; try discriminate; injection H as <-; vm_compute; repeat split; reflexivity.
Qed.
Print Assumptions C67_books_refuted.
(** A numeric subpoint with a suffix: (2) bekezdés a) pont 2a. alpontja. It is read as the whole point. *)
Definition sh_point (x : option ref_subpoint) : reference := mkRef None None (Some (one (sh_num 2))) (Some (PtAlpha (one (sh_la "a")))) x.
Theorem C67_subpoint_suffix_refuted : exists r, well_formed r /\ parts_ok r /\
  ref_show r = Ok (lit "(2) bekezdés a) pont 2a. alpontja") /\ sh_read r = Some [mkOut 0 21 (sh_point None)].
Proof.
  exists (sh_point (Some (SpNum (one (mkNum 2 (Some (sh_la "a"))))))). split; [|split; [|split; vm_compute; reflexivity]].
  - split; [intros _ _; discriminate|intros H; exfalso; apply H; reflexivity|].
    intros [] [] H F P; cbn in H; solve [contradiction|apply P; reflexivity|apply H; reflexivity].
  - unfold parts_ok; cbn; repeat match goal with |- _ /\ _ => split end; intros a H; try discriminate; injection H as <-; vm_compute; repeat split; reflexivity.
Qed.
Print Assumptions C67_subpoint_suffix_refuted.
(** Two subpoints with one text: cs as one letter, and s under c. *)
Theorem C67_unambiguous_digraph_refuted : exists r r' s, r <> r' /\ well_formed r /\ well_formed r' /\
  ref_show r = Ok s /\ ref_show r' = Ok s /\ sh_read r = Some [mkOut 0 (utf8_len s) r'].
Proof.
  exists (sh_point (Some (SpAlpha (one (mkPre None Cs))))), (sh_point (Some (SpAlpha (one (mkPre (Some (sh_la "c")) (sh_la "s")))))), (lit "(2) bekezdés a) pont cs) alpontja").
  split; [vm_compute; congruence|].
  split; [|split; [|split; [|split]; vm_compute; reflexivity]];
    (split; [intros _ _; discriminate|intros H; exfalso; apply H; reflexivity|]);
    intros [] [] H F P; cbn in H; solve [contradiction|apply P; reflexivity|apply H; reflexivity].
Qed.
Print Assumptions C67_unambiguous_digraph_refuted.
(** A negative year, which the type of acts allows: the sign is not read. *)
Theorem C67_year_refuted : exists a s l, ref_show (mkRef (Some a) None None None None) = Ok s /\ act_ok a = true /\
  sh_read (mkRef (Some a) None None None None) = Some l /\ map o_ref l = [mkRef (Some (mkAct (- act_year a) (act_number a))) None None None None].
Proof. exists (mkAct (-1) 1), (lit "-1. évi I. törvény"), [mkOut 1 21 (mkRef (Some (mkAct 1 1)) None None None None)]. repeat split; vm_compute; reflexivity. Qed.
Print Assumptions C67_year_refuted.
