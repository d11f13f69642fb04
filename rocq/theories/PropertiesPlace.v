(** C66: where characters are on a page. *)
From Verif Require Import ProofPlace2.
From Coq Require Import QArith QArith.Qcanon.
Local Open Scope N_scope.

(** * Examples: rational numbers, a font whose glyphs are half as wide as high, and the same with two byte codes *)
Definition qc (z : Z) : Qc := Q2Qc (inject_Z z).
Definition rationals : floats := mkFl Qc
  (qc 0) (qc 1) (qc 1000) (Q2Qc (1 # 2)) (qc 16) (Q2Qc (4 # 5)) (Q2Qc (1 # 4)) (Q2Qc (1 # 100))
  Qcplus Qcminus Qcmult Qcdiv
  Qcopp (fun a => if Qle_bool (this a) 0 then Qcopp a else a) (fun a b => if Qle_bool (this a) (this b) then b else a) (fun n => qc (Z.of_nat n))
  (fun a b => negb (Qle_bool (this b) (this a))) (fun a b => Qle_bool (this a) (this b)) (fun a b => Qeq_bool (this a) (this b))
  (fun a => (Qnum (this a) / Zpos (Qden (this a)))%Z).
Lemma rationals_exact : exact rationals.
Proof. exists Qcinv. exact Qcft. Qed.
Definition ascii_code (c : N) : option char := if ((32 <=? c) && (c <? 127))%N then Some c else None.
Definition half_wide (two : bool) : pdf_font rationals :=
  mkPdfFont rationals (Some (fun _ => qc 500)) two (Some (lit "Times-Bold")) (Some (BTable ascii_code, [])) (Some []).
Definition its_font (a : N) : pdf_font rationals := half_wide (a =? 2).
Definition one_form (n : str) : option N := if str_eqb n (lit "X") then Some 7 else None.
Definition its_res : resources rationals :=
  mkRes rationals (fun n => Some (if str_eqb n (lit "F2") then (2, half_wide true) else (1, half_wide false))) (fun _ => None) one_form.
Definition its_form (i : N) : option (xobject rationals) :=
  Some (XForm rationals None (Some [OMove rationals (qc 30) (qc 0); ODraw rationals (lit "f")])).
Definition whole_page : crop_box rationals := mkCrop rationals (qc 0) (qc 0) (qc 800) (qc 600).
Definition its_page : list (op rationals) :=
  [OTextFont rationals (lit "F1") (qc 10); OMatrix rationals (mkMx rationals (qc 2) (qc 0) (qc 0) (qc 2) (qc 100) (qc 700));
   OCharSpacing rationals (qc 1); OWordSpacing rationals (qc 3); ODraw rationals (lit "a b");
   OLeading rationals (qc 12); OTextScaling rationals (qc 50); ORise rationals (qc 1); ONewline rationals;
   ODrawAdjusted rationals [AText rationals (lit "c"); ASpacing rationals (qc 200); AText rationals (lit "d")];
   OXObject rationals (lit "X"); ODraw rationals (lit "e");
   OBeginMarked rationals (Some (lit "gh")); ODraw rationals (lit "???"); OEndMarked rationals].
(** What is seen: the places, the widths, the widths of a space and the characters *)
Definition places (o : outcome (renderer rationals)) : option (list (Q * Q * Q * Q * char)) :=
  match o with Ok r => Some (map (fun c : pchar rationals => (this (pc_x _ c), this (pc_y _ c), this (pc_width _ c), this (pc_space _ c), pc_ch _ c)) (cl_chars _ (rr_coll _ r))) | _ => None end.

(** * C66 *)
(** If numbers are not rounded, the characters found on a page are where the PDF reference puts them. *)
Theorem C66_placed : forall fl crop fonts get, exact fl -> all_fonts_of fl fonts get -> forall res k d ops r',
  (forall r, res = Some r -> fonts_of fl fonts r) -> cache_ok fl fonts k ->
  handle_ops fl get d ops (new_renderer fl res k (new_collector fl crop)) = Ok r' ->
  exists c, painted fl crop get res ops (blank fl) c /\ cl_chars _ (rr_coll _ r') = cv_chars _ c.
Proof. exact c66_sound. Qed.
Print Assumptions C66_placed.
(** and every page that can be drawn so is read. *)
Theorem C66_read : forall fl crop fonts get, exact fl -> all_fonts_of fl fonts get -> forall res k ops c,
  (forall r, res = Some r -> fonts_of fl fonts r) -> cache_ok fl fonts k -> painted fl crop get res ops (blank fl) c ->
  exists d0, forall d, (d0 <= d)%nat -> exists r', handle_ops fl get d ops (new_renderer fl res k (new_collector fl crop)) = Ok r' /\ cl_chars _ (rr_coll _ r') = cv_chars _ c.
Proof. exact c66_complete. Qed.
Print Assumptions C66_read.
(** The characters are determined by the operations. *)
Theorem C66_determined : forall fl crop fonts get, exact fl -> all_fonts_of fl fonts get -> forall res ops c c',
  (forall r, res = Some r -> fonts_of fl fonts r) -> painted fl crop get res ops (blank fl) c -> painted fl crop get res ops (blank fl) c' -> cv_chars _ c = cv_chars _ c'.
Proof. exact c66_determined. Qed.
Print Assumptions C66_determined.
Example C66_sample : exact rationals /\ all_fonts_of rationals its_font its_form /\ fonts_of rationals its_font its_res /\ cache_ok rationals its_font [] /\
  places (handle_ops rationals its_form 3 its_page (new_renderer rationals (Some its_res) [] (new_collector rationals whole_page))) =
  Some [(100 # 1, 700 # 1, 10 # 1, 10 # 1, chr "a"); (130 # 1, 700 # 1, 10 # 1, 10 # 1, chr "b");
        (100 # 1, 678 # 1, 5 # 1, 5 # 1, chr "c"); (104 # 1, 678 # 1, 5 # 1, 5 # 1, chr "d"); (160 # 1, 678 # 1, 5 # 1, 5 # 1, chr "f");
        (110 # 1, 678 # 1, 5 # 1, 5 # 1, chr "e"); (116 # 1, 678 # 1, 17 # 2, 5 # 1, chr "g"); (249 # 2, 678 # 1, 17 # 2, 5 # 1, chr "h")]%Q.
Proof.
  split; [exact rationals_exact|]. split; [|split; [|split]].
  - intros i fr ops. discriminate.
  - split; [|discriminate]. intros n a p. unfold its_res. cbn [rs_fonts]. destruct (str_eqb n (lit "F2")); intros [= <- <-]; reflexivity.
  - discriminate.
  - vm_compute. reflexivity.
Qed.
(** The reference has word spacing only for one byte codes; here it is also added after the two byte code 32. *)
Definition two_bytes (spacing : Z) : list (op rationals) :=
  [OTextFont rationals (lit "F2") (qc 10); OWordSpacing rationals (qc spacing); ODraw rationals [0; 32; 0; 97]].
Theorem C66_word_spacing_refuted :
  places (handle_ops rationals its_form 0 (two_bytes 0) (new_renderer rationals (Some its_res) [] (new_collector rationals whole_page))) = Some [(5 # 1, 0 # 1, 5 # 1, 5 # 1, chr "a")]%Q /\
  places (handle_ops rationals its_form 0 (two_bytes 3) (new_renderer rationals (Some its_res) [] (new_collector rationals whole_page))) = Some [(8 # 1, 0 # 1, 5 # 1, 5 # 1, chr "a")]%Q.
Proof. split; vm_compute; reflexivity. Qed.
Print Assumptions C66_word_spacing_refuted.
