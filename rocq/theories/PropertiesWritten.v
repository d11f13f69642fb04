(** C61-C64: header lines exactly, and written structure is read back. *)
From Verif Require Import ProofWritten6 SpecIdent.
From Coq Require String.
Local Open Scope N_scope.

Definition ln (s : String.string) : line := from_test_str (lit s).
Definition rf1 (s : str) : option Z := if str_eqb s (lit "I") then Some 1%Z else if str_eqb s (lit "II") then Some 2%Z else None.
Definition up1 (c : char) : bool := ((65 <=? c) && (c <=? 90))%N.
Definition num (n : N) : numeric := mkNum n None.

(** * C61 *)
(** A line is read as a header if and only if it has the form of one, with the identifier its label spells
    and the rest of the line in its place. Never an error; a panic exactly if nothing follows the label. *)
Theorem C61_paragraph : exact_header paragraph_header (header_of par_form paragraph_words) (label_only par_form).
Proof. exact c61_paragraph. Qed.
Print Assumptions C61_paragraph.
Theorem C61_number : exact_header numeric_header (header_of num_form point_words) (label_only num_form).
Proof. exact c61_number. Qed.
Print Assumptions C61_number.
Theorem C61_letter : exact_header alpha_point_header (header_of alpha_form point_words) (label_only alpha_form).
Proof. exact c61_letter. Qed.
Print Assumptions C61_letter.
Theorem C61_subpoint : forall p, exact_header (alpha_subpoint_header p) (sub_header_of p) (label_only sub_form).
Proof. exact c61_sub. Qed.
Print Assumptions C61_subpoint.
Theorem C61_article : exact_header (parse_header match_article article_parse []) (header_of article_form []) (label_only article_form).
Proof. exact c61_article. Qed.
Print Assumptions C61_article.
Example C61_ex : header_of num_form point_words (ln "12/a.   szöveg") (mkNum 12 (Some (Latin (chr "a")))) (slice (ln "12/a.   szöveg") 6 None).
Proof. apply c61_number. vm_compute. reflexivity. Qed.
Example C61_words_ex : forall i r, ~ header_of alpha_form point_words (ln "a) pont szerint") i r.
Proof. intros i r H. apply c61_letter in H. vm_compute in H. discriminate. Qed.
Example C61_article_ex : header_of article_form [] (ln "2:3/A. § Szöveg") (mkArt (Some 2) (mkNum 3 (Some (Latin (chr "a"))))) (slice (ln "2:3/A. § Szöveg") 9 None).
Proof. apply c61_article. vm_compute. reflexivity. Qed.
(** A label and a space are enough for a panic. *)
Example C61_panic_ex : label_only par_form (ln "(1) ").
Proof. apply c61_paragraph. vm_compute. reflexivity. Qed.

(** * C62 *)
(** Lines that are a written form of a list of elements are read as exactly these elements, with exactly
    their wrap up: in acts and in quoted amendments. Lines do not end in a space. *)
Theorem C62_numbered_subpoints : forall ctx es wl given ls, Forall not_ending_in_space ls -> w_num_subpoints ctx es wl given ls ->
  extract_num_subpoints ctx true true None ls = Ok (mkEm es (wrap_text wl) given).
Proof. exact read_num_subpoints. Qed.
Print Assumptions C62_numbered_subpoints.
Theorem C62_lettered_subpoints : forall ctx p es wl given ls, Forall not_ending_in_space ls -> w_alpha_subpoints ctx p es wl given ls ->
  extract_alpha_subpoints p ctx true true None ls = Ok (mkEm es (wrap_text wl) given).
Proof. exact read_alpha_subpoints. Qed.
Print Assumptions C62_lettered_subpoints.
Theorem C62_numbered_points : forall ctx es wl given ls, Forall not_ending_in_space ls -> w_num_points ctx es wl given ls ->
  extract_num_points ctx true true None ls = Ok (mkEm es (wrap_text wl) given).
Proof. exact read_num_points. Qed.
Print Assumptions C62_numbered_points.
Theorem C62_lettered_points : forall ctx es wl given ls, Forall not_ending_in_space ls -> w_alpha_points ctx es wl given ls ->
  extract_alpha_points ctx true true None ls = Ok (mkEm es (wrap_text wl) given).
Proof. exact read_alpha_points. Qed.
Print Assumptions C62_lettered_points.
Theorem C62_quoted_blocks : forall prev qs wl ls, w_quoted prev qs wl ls -> extract_quoted prev ls = Ok (mkEm qs (wrap_text wl) []).
Proof. exact read_quoted. Qed.
Print Assumptions C62_quoted_blocks.
Theorem C62_paragraphs : forall ctx es ls, Forall not_ending_in_space ls -> w_paragraphs ctx es ls ->
  extract_paragraphs ctx false true None ls = Ok (mkEm es None []).
Proof. exact read_paragraphs. Qed.
Print Assumptions C62_paragraphs.
(** The lines of an article are those after its header, the first of which is the rest of the header line. *)
Theorem C62_article : forall ctx a ls, Forall not_ending_in_space ls -> w_article ctx a ls -> ap_finish ctx (mkAP (ar_ident a) ls) = Ok a.
Proof. exact read_article. Qed.
Print Assumptions C62_article.

(** ** An article *)
(** Ways to cut a list of known length *)
Ltac cut a E := destruct a as [|? a]; cbn [app] in E; [|cbn in E; first [discriminate E|injection E as <- E; cut a E]].
Ltac parts := let a := fresh "a" in let l := fresh "l" in let b := fresh "b" in let E := fresh "E" in
  intros a l b E; cut a E; try discriminate E; injection E as <- <-.
Ltac fine := split; [vm_compute; reflexivity|let a := fresh "a" in let b := fresh "b" in let E := fresh "E" in
  intros a b E; cut a E; subst; vm_compute; discriminate].
Ltac no_hd thm := let H := fresh "H" in intros H; apply thm in H; vm_compute in H; discriminate H.
Ltac clean_lines := repeat constructor; let s := fresh "s" in let E := fresh "E" in intros s E; apply (f_equal (@rev _)) in E; rewrite rev_app_distr in E; vm_compute in E; discriminate.

Definition a1 : line := ln "a) első:".
Definition a2 : line := ln "    aa) egyik,".
Definition a3 : line := ln "    ab) másik,".
Definition a4 : line := ln "b) második".
Definition a5 : line := ln "lezárás.".
Definition leaf (p : prefixed) (t : str) : alpha_subpoint := mkSae p (BText t) si_default None.
Definition pre (p c : String.string) : prefixed := mkPre (Some (Latin (chr p))) (Latin (chr c)).
Definition sample_points : list alpha_point :=
  [mkSae (Latin (chr "a")) (BChildren (lit "első:") (AcAlpha [leaf (pre "a" "a") (lit "egyik,"); leaf (pre "a" "b") (lit "másik,")]) None) si_default None;
   mkSae (Latin (chr "b")) (BText (lit "második")) si_default None].
Lemma b_after_a : follows (Latin (chr "b")) (Latin (chr "a")).
Proof. exists [], []. eexists. split; [vm_compute; reflexivity|constructor]. Qed.
Lemma leaf_body i t r : join [r] = t -> quotes_fine [r] -> w_body (C := Empty_set) (@opens_none prefixed) w_no_children false i (BText t) [] [r].
Proof. intros E Q. split; [exact Q|]. exists [r]. split; [reflexivity|]. split; [now symmetry|]. split; [|reflexivity]. intros a l b _ _ []. Qed.
Example C62_subpoints_ex : w_alpha_subpoints FullAct (Some (Latin (chr "a"))) [leaf (pre "a" "a") (lit "egyik,"); leaf (pre "a" "b") (lit "másik,")] [] [] [a2; a3].
Proof.
  split; [|cbn; auto]. eexists _, _, a2, [a3]. split; [reflexivity|]. split; [reflexivity|]. split; [reflexivity|].
  apply (w_cons _ _ _ _ _ _ _ _ _ _ [] [] a2 [] (slice a2 4 None) a3 []).
  - apply c61_sub. vm_compute. reflexivity.
  - fine.
  - parts.
  - split; reflexivity.
  - apply leaf_body; [vm_compute; reflexivity|fine].
  - vm_compute. reflexivity.
  - split; [reflexivity|exact b_after_a].
  - apply (w_last _ _ _ _ _ _ _ _ _ _ a3 [] (slice a3 4 None)).
    + apply c61_sub. vm_compute. reflexivity.
    + fine.
    + parts.
    + split; reflexivity.
    + exists [slice a3 4 None]. split; [reflexivity|]. split; [apply leaf_body; [vm_compute; reflexivity|fine]|].
      split; [repeat constructor; vm_compute; discriminate|]. auto.
Qed.
Example C62_points_ex : w_alpha_points FullAct sample_points [a5] [] [a1; a2; a3; a4; a5].
Proof.
  split; [|cbn; auto]. eexists _, _, a1, [a2; a3; a4; a5]. split; [reflexivity|]. split; [reflexivity|]. split; [reflexivity|].
  apply (w_cons _ _ _ _ _ _ _ _ _ _ [a5] [] a1 [a2; a3] (slice a1 3 None) a4 [a5]).
  - apply c61_letter. vm_compute. reflexivity.
  - fine.
  - parts; intros _ M; vm_compute in M; discriminate M.
  - split; reflexivity.
  - split; [fine|]. exists [slice a1 3 None], [a2; a3], [], []. split; [vm_compute; reflexivity|]. split; [vm_compute; reflexivity|].
    split; [vm_compute; reflexivity|]. split; [|split; [exact C62_subpoints_ex|auto]].
    parts. intros _ [(j & r & H & _)|(j & r & H & _)].
    + revert H. no_hd c61_number.
    + revert H. no_hd c61_sub.
  - vm_compute. reflexivity.
  - exact b_after_a.
  - apply (w_last _ _ _ _ _ _ _ _ _ _ a4 [a5] (slice a4 3 None)).
    + apply c61_letter. vm_compute. reflexivity.
    + fine.
    + parts; intros _ _ j r; no_hd c61_letter.
    + split; reflexivity.
    + exists [slice a4 3 None]. split; [vm_compute; reflexivity|]. split.
      * split; [fine|]. exists [slice a4 3 None]. split; [reflexivity|]. split; [vm_compute; reflexivity|]. split; [|reflexivity].
        parts. intros _ [(j & r & H & _)|(j & r & H & _)]; revert H; [no_hd c61_number|no_hd c61_sub].
      * split; [repeat constructor; vm_compute; discriminate|]. split; [vm_compute; reflexivity|reflexivity].
Qed.
Example C62_points_read_ex : extract_alpha_points FullAct true true None [a1; a2; a3; a4; a5] = Ok (mkEm sample_points (Some (lit "lezárás.")) []).
Proof. vm_compute. reflexivity. Qed.
(** A paragraph with a quoted block, and one with a text *)
Definition q1 : line := ln "(1) A törvény helyébe a következő lép:".
Definition q2 : line := ln "[Bevezető szöveg]".
Definition q3 : line := ln "„Az új".
Definition q4 : line := ln "szöveg.”".
Definition q5 : line := ln "(záró szöveg)".
Definition q6 : line := ln "(2) Ez is.".
Definition sample_block : list quoted_block := [mkQb (Some (lit "Bevezető szöveg")) [without_first q3; without_last q4] (Some (lit "záró szöveg"))].
Example C62_quoted_ex : w_quoted (Some (slice q1 4 None)) sample_block [] [q2; q3; q4; q5].
Proof.
  exists [[q2]], [[without_last (without_first q2)]], [q2], [[q3; q4]], [[without_first q3; without_last q4]], [q3; q4], [[q5]], [[without_last (without_first q5)]], [q5], [].
  assert (T : forall os cs l, first_in os l = true -> last_in cs l = true -> (2 <= List.length (content l))%nat -> quotes_fine [l] -> group os cs [l] [without_last (without_first l)]).
  { intros os cs l F L N Q. split; [apply btw_one; [now apply first_in_iff|now apply last_in_iff|exact N]|]. split; [exact Q|].
    intros a m b E Nb. destruct a as [|x [|y a]]; cbn in E; try discriminate. injection E as <- <-. congruence. }
  split; [reflexivity|]. split; [apply (spread_cons [] [q2] [] []); constructor|].
  split; [apply (spread_cons [] [q3; q4] [] []); constructor|]. split; [apply (spread_cons [] [q5] [] []); constructor|].
  split; [constructor|]. split; [|split; [|split]].
  - constructor; [|constructor]. apply T; [vm_compute; reflexivity|vm_compute; reflexivity|vm_compute; lia|fine].
  - constructor; [|constructor]. split.
    + apply (btw_many _ _ q3 [] q4); [apply first_in_iff; vm_compute; reflexivity|apply last_in_iff; vm_compute; reflexivity].
    + split; [fine|]. parts; [intros _ [B _]; vm_compute in B; discriminate B|congruence].
  - constructor; [|constructor]. apply T; [vm_compute; reflexivity|vm_compute; reflexivity|vm_compute; lia|fine].
  - split; [discriminate|]. split; [discriminate|]. split; [intros _; exists (slice q1 4 None), (removelast (content (slice q1 4 None))); split; vm_compute; reflexivity|].
    split; [exact I|]. split; [split; [reflexivity|intros a b E; destruct a; [vm_compute; discriminate|discriminate]]|]. vm_compute. reflexivity.
Qed.

(** ** The lines of an act *)
Definition b1 : line := ln "Bevezetés.".
Definition b2 : line := ln "I. FEJEZET".
Definition b3 : line := ln "Az alapok".
Definition b4 : line := empty_line.
Definition b5 : line := ln "<BOLD>Alcím".
Definition b6 : line := ln "1. § [Név]".
Definition b7 : line := ln "(1) Egy.".
Definition b8 : line := ln "(2) Kettő.".
Definition b9 : line := ln "2. § Három.".
Definition text_par (i : paragraph_id) (t : str) : paragraph := mkSae i (BText t) si_default None.
Definition art1 : article := mkArticle (mkArt None (num 1)) (Some (lit "Név")) [text_par (Some (num 1)) (lit "Egy."); text_par (Some (num 2)) (lit "Kettő.")] None.
Definition art2 : article := mkArticle (mkArt None (num 2)) None [text_par None (lit "Három.")] None.
Lemma opens_par_none i a l : first_in (lit "„“") l || first_in (lit "([") l = false ->
  match numeric_header l, alpha_point_header l with Ok None, Ok None => true | _, _ => false end = true -> ~ opens_par i a l.
Proof.
  intros F E [B|[[_ B]|[(j & r & H & _)|(j & r & H & _)]]].
  - apply first_in_iff in B. rewrite B in F. discriminate.
  - apply first_in_iff in B. rewrite B, Bool.orb_true_r in F. discriminate.
  - apply c61_number in H. rewrite H in E. discriminate.
  - apply c61_letter in H. rewrite H in E. destruct (numeric_header l) as [[|]| |]; discriminate.
Qed.
Ltac text_ex t := split; [fine|]; exists [t]; split; [reflexivity|]; split; [vm_compute; reflexivity|]; split; [|reflexivity];
  parts; intros _; apply opens_par_none; vm_compute; reflexivity.
Example C62_article_ex : w_article FullAct art1 [slice b6 5 None; b7; b8].
Proof.
  exists [slice b6 5 None], [], [b7; b8]. split; [reflexivity|]. split.
  - exists (slice b6 5 None), []. split; [reflexivity|]. split; [apply first_in_iff; vm_compute; reflexivity|].
    split; [vm_compute; reflexivity|]. intros a b x E N. destruct a; [|discriminate]. cbn in E. subst b. now elim N.
  - split; [constructor|]. split; [cbn; lia|]. split; [discriminate|]. split; [intros _; discriminate|]. split; [reflexivity|]. left.
    split; [|cbn; lia]. exists (text_par (Some (num 1)) (lit "Egy.")), [text_par (Some (num 2)) (lit "Kettő.")], b7, [b8].
    split; [reflexivity|]. split; [reflexivity|]. split; [reflexivity|].
    apply (w_cons _ _ _ _ _ _ _ _ _ _ [] [] b7 [] (slice b7 4 None) b8 []).
    + apply c61_paragraph. vm_compute. reflexivity.
    + fine.
    + parts.
    + split; reflexivity.
    + text_ex (slice b7 4 None).
    + vm_compute. reflexivity.
    + exists (num 2), (num 1). split; [reflexivity|]. split; [reflexivity|]. left. reflexivity.
    + apply (w_last _ _ _ _ _ _ _ _ _ _ b8 [] (slice b8 4 None)).
      * apply c61_paragraph. vm_compute. reflexivity.
      * fine.
      * parts.
      * split; reflexivity.
      * split; [|split; reflexivity]. text_ex (slice b8 4 None).
Qed.
Example C62_plain_article_ex : w_article FullAct art2 [slice b9 5 None].
Proof.
  exists [], [], [slice b9 5 None]. split; [reflexivity|]. split.
  - split; [reflexivity|]. intros B. apply first_in_iff in B. vm_compute in B. discriminate.
  - split; [constructor|]. split; [cbn; lia|]. split; [discriminate|]. split; [intros _; vm_compute; discriminate|]. split; [reflexivity|]. right.
    exists (text_par None (lit "Három.")). split; [reflexivity|]. split; [reflexivity|]. split; [split; reflexivity|]. split.
    + intros l tl i r E H. injection E as <- <-. apply c61_paragraph in H. vm_compute in H. discriminate.
    + text_ex (slice b9 5 None).
Qed.

(** * C63 *)
(** Lines that are a written form of chapters, subtitles and articles are read as exactly these, with the
    preamble: whole acts and quoted structural amendments. *)
Theorem C63_body : forall rf up ctx preamble cs ls, Forall not_ending_in_space ls -> w_act rf up ctx preamble cs ls ->
  parse_complex_body rf up ctx ls = Ok (preamble, cs).
Proof. exact read_act. Qed.
Print Assumptions C63_body.
Theorem C63_act : forall rf up raw preamble cs, Forall not_ending_in_space (ar_body raw) -> w_act rf up FullAct preamble cs (ar_body raw) ->
  parse_act_structure rf up raw = Ok (mkActS (ar_id raw) (ar_subject raw) preamble (ar_date raw) [] cs).
Proof. exact read_act_structure. Qed.
Print Assumptions C63_act.
(** No subtitle is longer than 1500 bytes. *)
Theorem C63_subtitle_limit : forall rf up ctx ls preamble cs s, parse_complex_body rf up ctx ls = Ok (preamble, cs) -> In (ChSubtitle s) cs ->
  (utf8_len (st_title s) <= 1500)%N.
Proof. exact subtitle_limit. Qed.
Print Assumptions C63_subtitle_limit.
Definition sample_children : list act_child :=
  [ChStruct (mkSe (num 1) (lit "Az alapok") TChapter None); ChSubtitle (mkSub None (lit "Alcím") None); ChArticle art1; ChArticle art2].
Lemma opens_none_of rf up ctx last e l o : not_ending_in_space l -> last_article_ok last ->
  match act_header_line rf up ctx (fac last) e l with Ok None => true | _ => false end = true -> ~ line_opens rf up ctx last e l o.
Proof. intros N K E H. apply (act_header_exact rf up ctx last e l N K) in H. rewrite H in E. discriminate. Qed.
Ltac clean := let s := fresh "s" in let E := fresh "E" in intros s E; apply (f_equal (@rev _)) in E; rewrite rev_app_distr in E; vm_compute in E; discriminate.
Ltac nothing := parts; (intros ? ?; apply opens_none_of; [clean|first [exact I|reflexivity]|vm_compute; reflexivity]).
Ltac no_struct := let ty := fresh in let j := fresh in let H := fresh in intros ty j H; apply (first_se_exact rf1) in H; vm_compute in H; discriminate.
Example C63_ex : w_act rf1 up1 FullAct (lit "Bevezetés.") sample_children [b1; b2; b3; b4; b5; b6; b7; b8; b9].
Proof.
  exists [b1], [b2; b3; b4; b5; b6; b7; b8; b9]. split; [reflexivity|]. split; [fine|]. split; [nothing|].
  split; [vm_compute; reflexivity|]. split; [discriminate|]. split; [discriminate|].
  apply (wc_cons _ _ _ _ _ (OStruct TChapter (num 1)) _ _ b2 [b3; b4] [b5; b6; b7; b8; b9]).
  { apply first_se_exact. vm_compute. reflexivity. }
  { fine. }
  { nothing. }
  { vm_compute. auto. }
  apply (wc_cons _ _ _ _ _ (OSubtitle None (lit "Alcím")) _ _ b5 [] [b6; b7; b8; b9]).
  { split; [apply try_subtitle_exact; vm_compute; reflexivity|no_struct]. }
  { fine. }
  { nothing. }
  { split; [reflexivity|]. split; [reflexivity|]. split; [vm_compute; discriminate|reflexivity]. }
  apply (wc_cons _ _ _ _ _ (OArticle (mkArt None (num 1)) (slice b6 5 None)) _ _ b6 [b7; b8] [b9]).
  { split; [|split; [no_struct|intros j t H; apply try_subtitle_exact in H; vm_compute in H; discriminate]].
    split; [apply c61_article; vm_compute; reflexivity|]. intros _. split; [reflexivity|now left]. }
  { fine. }
  { nothing. }
  { split; [reflexivity|exact C62_article_ex]. }
  apply (wc_cons _ _ _ _ _ (OArticle (mkArt None (num 2)) (slice b9 5 None)) _ _ b9 [] []).
  { split; [|split; [no_struct|intros j t H; apply try_subtitle_exact in H; vm_compute in H; discriminate]].
    split; [apply c61_article; vm_compute; reflexivity|]. split; [vm_compute; reflexivity|left; vm_compute; reflexivity]. }
  { fine. }
  { nothing. }
  { split; [reflexivity|exact C62_plain_article_ex]. }
  constructor.
Qed.
Example C63_lines_ex : Forall not_ending_in_space [b1; b2; b3; b4; b5; b6; b7; b8; b9].
Proof. repeat (constructor; [clean|]). constructor. Qed.

(** * C64 *)
(** A quoted block that is a written form of what the amendment says is converted to exactly that. *)
Theorem C64_amended : forall pos c ls, Forall not_ending_in_space ls -> w_amended pos c ls -> convert_simple pos ls = Ok c.
Proof. exact read_amended. Qed.
Print Assumptions C64_amended.
Theorem C64_structure : forall rf up pos cs ls, Forall not_ending_in_space ls -> w_structure rf up pos cs ls -> convert_structural rf up pos ls = Ok cs.
Proof. exact read_structure. Qed.
Print Assumptions C64_structure.
Theorem C64_paragraph : forall rf up p p', becomes rf up p p' -> convert_paragraph rf up p = (p', Ok tt).
Proof. exact read_block. Qed.
Print Assumptions C64_paragraph.
(** In an act where every quoted amendment is a written form of what its paragraph says, all are converted
    and nothing else changes. *)
Theorem C64_act : forall rf up a b,
  same_act_but (fun p p' => (candidate p /\ becomes rf up p p') \/ (~ candidate p /\ p' = p)) a b -> convert_act rf up a = (b, Ok tt).
Proof. exact read_blocks. Qed.
Print Assumptions C64_act.

(** Two paragraphs of an article, the first after the header of the article *)
Definition d1 : line := ln "3. § (2) Az első.".
Definition d2 : line := ln "(3) A második.".
Definition cut1 : line := slice d1 5 None.
Definition par_pos : reference := mkRef (Some (mkAct 2010 5)) (Some (single (mkArt None (num 3)))) (Some (mkRange (num 2) (num 3))) None None.
Definition new_pars : list paragraph := [text_par (Some (num 2)) (lit "Az első."); text_par (Some (num 3)) (lit "A második.")].
Example C64_amended_ex : w_amended par_pos (BcParagraph new_pars) [d1; d2].
Proof.
  change (exists a ls', f_article par_pos = Some a /\ after_article_header (r_start a) [d1; d2] ls' /\
      w_from par_hd par_succ opens_par (w_par_children BlockAm) (Some (num 2)) new_pars ls').
  exists (single (mkArt None (num 3))), [cut1; d2]. split; [reflexivity|]. split.
  - left. exists d1, [d2], (content cut1). split; [reflexivity|]. split; [vm_compute; reflexivity|]. split; [vm_compute; discriminate|reflexivity].
  - eexists _, _, cut1, [d2]. split; [reflexivity|]. split; [reflexivity|]. split; [reflexivity|].
    apply (w_cons _ _ _ _ _ _ _ _ _ _ [] [] cut1 [] (slice cut1 4 None) d2 []).
    + apply c61_paragraph. vm_compute. reflexivity.
    + fine.
    + parts.
    + split; reflexivity.
    + text_ex (slice cut1 4 None).
    + vm_compute. reflexivity.
    + exists (num 3), (num 2). split; [reflexivity|]. split; [reflexivity|]. left. reflexivity.
    + apply (w_last _ _ _ _ _ _ _ _ _ _ d2 [] (slice d2 4 None)).
      * apply c61_paragraph. vm_compute. reflexivity.
      * fine.
      * parts.
      * split; reflexivity.
      * split; [|split; reflexivity]. text_ex (slice d2 4 None).
Qed.
(** A subpoint of point b, from "bc)" on *)
Definition d3 : line := ln "bc) harmadik,".
Definition d4 : line := ln "bd) negyedik".
Definition sub_pos : reference :=
  mkRef None (Some (single (mkArt None (num 3)))) None (Some (PtAlpha (single (Latin (chr "b"))))) (Some (SpAlpha (mkRange (pre "b" "c") (pre "b" "d")))).
Example C64_subpoints_ex : w_amended sub_pos (BcAlphaSub [leaf (pre "b" "c") (lit "harmadik,"); leaf (pre "b" "d") (lit "negyedik")]) [d3; d4].
Proof.
  change (w_from (sub_header_of (Some (Latin (chr "b")))) sub_succ (@opens_none prefixed) w_no_children (pre "b" "c")
    [leaf (pre "b" "c") (lit "harmadik,"); leaf (pre "b" "d") (lit "negyedik")] [d3; d4]).
  eexists _, _, d3, [d4]. split; [reflexivity|]. split; [reflexivity|]. split; [reflexivity|].
  apply (w_cons _ _ _ _ _ _ _ _ _ _ [] [] d3 [] (slice d3 4 None) d4 []).
  - apply c61_sub. vm_compute. reflexivity.
  - fine.
  - parts.
  - split; reflexivity.
  - apply leaf_body; [vm_compute; reflexivity|fine].
  - vm_compute. reflexivity.
  - split; [reflexivity|]. exists [Latin 97; Latin 98], [Cs]. eexists. split; [vm_compute; reflexivity|]. repeat constructor.
  - apply (w_last _ _ _ _ _ _ _ _ _ _ d4 [] (slice d4 4 None)).
    + apply c61_sub. vm_compute. reflexivity.
    + fine.
    + parts.
    + split; reflexivity.
    + split; [|split; reflexivity]. apply leaf_body; [vm_compute; reflexivity|fine].
Qed.
(** A new title of a chapter, with and without its number *)
Definition new_title (i : numeric) : list act_child := [ChStruct (mkSe i (lit "Az új cím") TChapter None)].
Example C64_structure_ex : w_structure rf1 up1 (mkSRef None None None (SeChapter (num 2)) true) (new_title (num 2)) [ln "Az új"; ln "cím"] /\
  w_structure rf1 up1 (mkSRef None None None (SeChapter (num 2)) true) (new_title (num 2)) [ln "II. Fejezet"; ln "Az új cím"].
Proof.
  split; (eexists; split; [reflexivity|]; eexists; split; [reflexivity|]; split; [reflexivity|]; split; [reflexivity|]).
  - right. split; [reflexivity|]. split; [vm_compute; reflexivity|]. intros j H. apply try_se_exact in H. vm_compute in H. discriminate.
  - left. exists (ln "II. Fejezet"), [ln "Az új cím"]. split; [reflexivity|]. split; [apply try_se_exact; vm_compute; reflexivity|vm_compute; reflexivity].
Qed.
Definition quoting (c : par_children) : paragraph :=
  mkSae None (BChildren (lit "A törvény helyébe a következő lép:") c (Some (lit "Eddig."))) (mkSi [] [] (Some (PhBlock (mkBaPhrase par_pos true)))) None.
Definition quoting_act (c : par_children) : act :=
  mkActS (mkAct 2020 1) [] [] default_date [] [ChArticle (mkArticle (mkArt None (num 1)) None [text_par (Some (num 1)) (lit "Egy."); quoting c] None)].
Example C64_act_ex : same_act_but (fun p p' => (candidate p /\ becomes rf1 up1 p p') \/ (~ candidate p /\ p' = p))
  (quoting_act (PcQuoted [mkQb (Some (lit "Bevezető")) [d1; d2] None])) (quoting_act (PcBlock (mkBlock (Some (lit "Bevezető")) (BcParagraph new_pars) None))).
Proof.
  repeat (split; [reflexivity|]). constructor; [|constructor]. repeat (split; [reflexivity|]). constructor; [|constructor; [|constructor]].
  - right. split; [|reflexivity]. intros [A _]. exact A.
  - left. split.
    + split; [exact I|]. eexists _, _, _. reflexivity.
    + eexists _, _, _, _. split; [reflexivity|]. split; [reflexivity|]. split; [repeat (constructor; [clean|]); constructor|].
      eexists. split; [reflexivity|exact C64_amended_ex].
Qed.
