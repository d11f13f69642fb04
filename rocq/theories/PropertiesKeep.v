(** C86: what the program makes of an issue can be stored and is read back unchanged. *)
From Verif Require Import SpecKeep ProofKeep ProofKeep3 ProofKeep4 PropertiesMk PropertiesWritten PropertiesSay8.
From Coq Require Import Lia.

(** ** C86 *)
(** The acts cut from an issue have an identifier and a date that fit. *)
Theorem C86_issue : forall D rf ud pages acts, roman_i32 rf -> has_dates D -> parse_mk_pages ud rf pages = Ok acts -> Forall (raw_fits D) acts.
Proof. exact (fun D rf ud pages acts R H => issue_fits D rf R H ud pages acts). Qed.
Print Assumptions C86_issue.
(** The structure of a text fits, with any text and any roman numerals. *)
Theorem C86_structure : forall D n rf up raw a, raw_fits D raw -> parse_act_structure rf up raw = Ok a -> act_fits D (S n) a.
Proof. exact (fun D n rf up raw a H P => structure_fits D n rf up raw a P (proj1 H) (proj2 H)). Qed.
Print Assumptions C86_structure.
(** Semantic information fits, with any grammar, if the places it records do; also when a sentence was not understood and the rest was left. *)
Theorem C86_inform : forall D rf gp n a b o, roman_i32 rf -> has_dates D -> act_fits D (S n) a -> add_semantic_info rf gp a = (b, o) ->
  Forall places_fit (infos b) -> act_fits D (S n) b.
Proof. exact (fun D rf gp n a b o R H F => inform_fits D rf R H gp n a F b o). Qed.
Print Assumptions C86_inform.
(** The places which the grammar of the code gives fit. *)
Theorem C86_places : forall rf a b o, Forall (fun k => k <> []) (map fst (ac_abbrevs a)) -> texts_short a -> Forall places_fit (infos a) ->
  add_semantic_info rf grammar_parse a = (b, o) -> Forall places_fit (infos b).
Proof. exact inform_places. Qed.
Print Assumptions C86_places.
(** Converting amendments keeps this, with one more level of amendments; also when one of them cannot be converted. *)
Theorem C86_convert : forall D n rf up a b o, act_fits D (S (S n)) a -> convert_act rf up a = (b, o) -> act_fits D (S (S n)) b.
Proof. intros D n rf up a b o F E. pose proof (convert_fits D n rf up a F) as H. rewrite E in H. exact H. Qed.
Print Assumptions C86_convert.
(** So every act the program makes of a text, at any step, is read back unchanged. *)
Theorem C86_stored : forall D rf up dp raw a n, roman_i32 rf -> has_dates D -> reads_dates D dp -> raw_fits D raw ->
  (forall s, parse_act_structure rf up raw = Ok s -> texts_short s) -> act_made rf up grammar_parse raw a -> get_act dp (S (S n)) (put_act a) = Ok a.
Proof. exact (fun D rf up dp raw a n R H => made_stored D rf R H up dp raw a n). Qed.
Print Assumptions C86_stored.
(** The conditions on dates can be met: all dates of the calendar, with this reader *)
Theorem C86_calendar : has_dates calendar /\ reads_dates calendar read_date.
Proof. exact (conj calendar_has calendar_read). Qed.
Print Assumptions C86_calendar.

(** Roman numerals read as Rust's [i32] *)
Definition small_roman (s : str) : option Z := let z := roman_read s in if ((i32_min <=? z) && (z <=? i32_max))%Z then Some z else None.
Lemma small_roman_i32 : roman_i32 small_roman.
Proof. intros s z. unfold small_roman. cbv zeta. destruct (_ && _) eqn:E; [|discriminate]. intros X. injection X as <-. lia. Qed.
(** An issue with two acts: both are cut out and fit. *)
Definition kept_issue : list (list line) :=
  [[bl "MAGYAR KÖZLÖNY 71. szám"; empty_line; ln "A MAGYAR KÖZTÁRSASÁG HIVATALOS LAPJA"; ln "2012. június 28., kedd"; ln "tartalom"];
   bl "II. Törvények" :: act1 []; app (act1 []) [bl "III. Kormányrendeletek"]].
Lemma ok_size {A} (o : outcome (list A)) n : match o with Ok l => Nat.eqb (List.length l) n | _ => false end = true -> exists l, o = Ok l /\ List.length l = n.
Proof. destruct o as [l| |]; try discriminate. intros E. exists l. split; [reflexivity|now apply PeanoNat.Nat.eqb_eq]. Qed.
Example C86_issue_kept : exists acts, parse_mk_pages is_digit small_roman kept_issue = Ok acts /\ List.length acts = 2 /\ Forall (raw_fits calendar) acts.
Proof.
  destruct (ok_size (parse_mk_pages is_digit small_roman kept_issue) 2) as (acts & E & L); [vm_compute; reflexivity|].
  exact (ex_intro _ acts (conj E (conj L (C86_issue calendar small_roman is_digit kept_issue acts small_roman_i32 calendar_has E)))).
Qed.
(** The act of C84 in lines: it defines an abbreviation, amends another act and says when it comes into force. All steps are done and the
    result is read back. *)
Definition all_steps (rf : str -> option Z) (up : char -> bool) (raw : act_raw) : outcome act :=
  let* a := parse_act_structure rf up raw in
  let '(b, o) := add_semantic_info rf grammar_parse a in let* _ := o in let '(c, o) := convert_act rf up b in let* _ := o in Ok c.
Lemma all_steps_made rf up raw c : all_steps rf up raw = Ok c -> act_made rf up grammar_parse raw c.
Proof.
  unfold all_steps. intros K. destruct (parse_act_structure rf up raw) as [a| |] eqn:PS; try discriminate K. cbn [obind] in K.
  destruct (add_semantic_info rf grammar_parse a) as [b o] eqn:A. destruct o as [ch| |]; try discriminate K. cbn [obind] in K.
  destruct (convert_act rf up b) as [c' o'] eqn:C. destruct o' as [[]| |]; try discriminate K. cbn [obind] in K. injection K as <-.
  exact (made_converted _ _ _ _ _ _ _ _ _ PS A C).
Qed.
Lemma ok_short (o : outcome act) : match o with Ok s => forallb (fun p => (utf8_len (own_text (snd p)) + 1 <? 2 ^ 64)%N) (elements s) | _ => true end = true ->
  forall s, o = Ok s -> texts_short s.
Proof.
  intros H s ->. unfold texts_short. rewrite Forall_forall. intros p I. rewrite forallb_forall in H. specialize (H p I). cbv beta in H.
  now apply N.ltb_lt in H.
Qed.
Lemma kept_steps : all_steps small_roman up1 sa_written = Ok sa_result.
Proof. vm_compute. reflexivity. Qed.
Lemma kept_raw : raw_fits calendar sa_written.
Proof. split; vm_compute; repeat split; try reflexivity; discriminate. Qed.
Lemma kept_short s : parse_act_structure small_roman up1 sa_written = Ok s -> texts_short s.
Proof. apply ok_short. vm_compute. reflexivity. Qed.
Example C86_kept : get_act read_date 2 (put_act sa_result) = Ok sa_result.
Proof.
  exact (C86_stored calendar small_roman up1 read_date sa_written sa_result 0 small_roman_i32 calendar_has calendar_read kept_raw kept_short
    (all_steps_made _ _ _ _ kept_steps)).
Qed.
