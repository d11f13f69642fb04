(** C77-: sentences which replace or add structural elements, and what is read from them. *)
From Verif Require Import PropertiesSay PropertiesSay2 ProofSay25.
From Coq Require Import Lia.
Local Open Scope N_scope.

(** * C77 *)
(** A sentence that replaces a chapter, a part or a title of an act, or only its title, or adds one: exactly the act is
    found, at its place, and the position is the element said, in the book and under the element said. *)
Theorem C77_structural : forall rf c pre post a r i s info, roman_from_reads rf -> top pre = [] -> top post = [] ->
  structural_sentence (ca_map c) a r i s info ->
  extract_semantic_info rf grammar_parse s (mkAdder pre post c) = (mkAdder pre post c, Ok info).
Proof. exact (fun rf c pre post a r i s info H => structural_read rf c H pre post a r i s info). Qed.
Print Assumptions C77_structural.
Ltac small_end := repeat (constructor; [left; left; red; vm_compute; intuition discriminate|]); constructor.
Lemma sa_fejezet : element_said (SpChapter (sa_num 3)) (SeChapter (sa_num 3)) (lit "III. Fejezete").
Proof. apply (chapter_said (sa_num 3) (lit "III") (lit "Fejezet") (lit "e")); [exact (roman_plain 3 ltac:(lia))|right; now left|small_end]. Qed.
Lemma sa_cim : element_said (SpTitle (mkNum 4 (Some (sa_la "a")))) (SeTitle (mkNum 4 (Some (sa_la "a")))) (lit "IV/A. címmel").
Proof. apply (title_said (mkNum 4 (Some (sa_la "a"))) (lit "IV/A") (lit "cím") (lit "mel")); [exact (roman_lettered 4 65 ltac:(lia) ltac:(lia))|now left|small_end]. Qed.
Lemma sa_resz : element_said (SpPart (sa_num 2)) (SePart (sa_num 2)) (lit "Második Része").
Proof. apply (part_said 2 (lit "Második") (lit "Rész") (lit "e")); [exact (ordinal_small 1 (lit "Második") eq_refl)|right; now left|small_end]. Qed.
Lemma sa_konyv : book_said (sa_num 1) (lit "ELSŐ KÖNYV").
Proof. apply (book_named 1 (lit "ELSŐ") (lit "KÖNYV") []); [exact (ordinal_big 0 (lit "ELSŐ") eq_refl)|right; right; now left|constructor]. Qed.
Example C77_sample :
  (exists s info r, structural_sentence (ca_map cache_new) sa_act r false s info /\
   s = lit "A fogyasztóvédelemről szóló 1997. évi CLV. törvény Második Része ELSŐ KÖNYV III. Fejezete címe helyébe a következő cím lép:" /\
   info = mkSi [mkOut 33 58 (only_act sa_act)] [] (Some (PhStructural (mkSbaPhrase (mkSRef (Some sa_act) (Some (sa_num 1)) (Some (SpPart (sa_num 2))) (SeChapter (sa_num 3)) true) false)))) /\
  sa_read "A fogyasztóvédelemről szóló 1997. évi CLV. törvény Második Része ELSŐ KÖNYV III. Fejezete címe helyébe a következő cím lép:" cache_new =
    Ok (mkSi [mkOut 33 58 (only_act sa_act)] [] (Some (PhStructural (mkSbaPhrase (mkSRef (Some sa_act) (Some (sa_num 1)) (Some (SpPart (sa_num 2))) (SeChapter (sa_num 3)) true) false)))).
Proof.
  split; [|vm_compute; reflexivity]. do 3 eexists. split.
  - apply (structural_sentence_of _ _ (lit "A ") sa_title (lit "1997. évi CLV. törvény")); [now left|apply sa_named|].
    apply (element_replaced_in sa_act _ _ (Some (sa_num 1)) (SeChapter (sa_num 3)) true (lit "Második Része") (lit "ELSŐ KÖNYV III. Fejezete") (lit " címe") (lit " helyébe a következő cím lép:") sa_resz); [|exact the_title|member].
    exact (in_book (sa_num 1) (lit "ELSŐ KÖNYV") _ _ (lit "III. Fejezete") sa_konyv sa_fejezet).
  - split; vm_compute; reflexivity.
Qed.
Example C77_added :
  (exists s info r, structural_sentence (ca_map sa_cache) sa_act r true s info /\
   s = lit "Az Fgytv. Második Része a következő IV/A. címmel egészül ki:" /\
   info = mkSi [mkOut 3 9 (only_act sa_act)] [] (Some (PhStructural (mkSbaPhrase (mkSRef (Some sa_act) None (Some (SpPart (sa_num 2))) (SeTitle (mkNum 4 (Some (sa_la "a")))) false) true)))) /\
  sa_read "Az Fgytv. Második Része a következő IV/A. címmel egészül ki:" sa_cache =
    Ok (mkSi [mkOut 3 9 (only_act sa_act)] [] (Some (PhStructural (mkSbaPhrase (mkSRef (Some sa_act) None (Some (SpPart (sa_num 2))) (SeTitle (mkNum 4 (Some (sa_la "a")))) false) true)))).
Proof.
  split; [|vm_compute; reflexivity]. do 3 eexists. split.
  - apply (structural_sentence_of _ _ (lit "Az ") [] (lit "Fgytv.")); [member| |].
    + apply sa_short.
    + exact (element_added_in sa_act _ _ None _ (lit "Második Része") (lit "a következő") (lit "IV/A. címmel") (lit " egészül ki:") sa_resz ltac:(member) (not_in_book _ _ _ sa_cim) ltac:(member)).
  - split; vm_compute; reflexivity.
Qed.
(** The book of the element which the amended one is in is not kept. *)
Theorem C77_book_of_parent_refuted :
  ~ (forall rf c pre post a az title name b sb p k' sp p' k s e, roman_from_reads rf -> top pre = [] -> top post = [] ->
     In az the -> act_named (ca_map c) a (lit " " ++ sb ++ lit " " ++ sp ++ lit " " ++ s ++ e) title name ->
     book_said b sb -> element_said p k' sp -> element_said p' k s -> In e structural_endings ->
     snd (extract_semantic_info rf grammar_parse (az ++ title ++ name ++ lit " " ++ sb ++ lit " " ++ sp ++ lit " " ++ s ++ e) (mkAdder pre post c)) =
       Ok (restructured (az ++ title) name a (mkSRef (Some a) (Some b) (Some p) k false) false)).
Proof.
  intros H. specialize (H sa_roman cache_new [] [] sa_act (lit "A ") sa_title (lit "1997. évi CLV. törvény") (sa_num 1) (lit "ELSŐ KÖNYV") (SpPart (sa_num 2)) _ (lit "Második Része") _ _ (lit "III. Fejezete") (lit " helyébe a következő rendelkezés lép:")
    roman_read_reads eq_refl eq_refl (or_introl eq_refl) (sa_named _) sa_konyv sa_resz sa_fejezet ltac:(member)). vm_compute in H. discriminate H.
Qed.
Print Assumptions C77_book_of_parent_refuted.
