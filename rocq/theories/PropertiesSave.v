(** C85: acts are written to JSON and YAML and read back. *)
From Verif Require Import SpecSave ProofIdent4 ProofRef4 ProofSem ProofSave.
Open Scope string_scope.

(** * C85 *)
(** An act that fits is read back as it was written. *)
Theorem C85_roundtrip : forall D dp n a, reads_dates D dp -> act_fits D n a -> get_act dp n (put_act a) = Ok a.
Proof. exact save_roundtrip. Qed.
Print Assumptions C85_roundtrip.
(** Different acts are written differently. *)
Theorem C85_injective : forall D dp n a b, reads_dates D dp -> act_fits D n a -> act_fits D n b -> put_act a = put_act b -> a = b.
Proof. exact save_injective. Qed.
Print Assumptions C85_injective.
(** Reading any data at all gives an act that fits or an error, never a panic. *)
Theorem C85_loaded : forall D dp n v, reads_dates D dp -> get_act dp n v <> Panic /\ forall a, get_act dp n v = Ok a -> act_fits D n a.
Proof. exact save_loaded. Qed.
Print Assumptions C85_loaded.
(** So the acts which can be read are exactly those which fit, and what was read once is kept by writing and reading. *)
Theorem C85_exact : forall D dp n a, reads_dates D dp -> (act_fits D n a <-> exists v, get_act dp n v = Ok a) /\
  (forall v, get_act dp n v = Ok a -> get_act dp n (put_act a) = Ok a).
Proof. exact save_exact. Qed.
Print Assumptions C85_exact.
(** References on their own *)
Theorem C85_reference : forall r, (ref_fits r -> get_ref (put_ref r) = Ok r) /\ (forall v, get_ref v <> Panic) /\ (forall v, get_ref v = Ok r -> ref_fits r).
Proof. exact save_reference. Qed.
Print Assumptions C85_reference.
(** Without the condition on prefixed letters this is false: the reference to subpoint [sz], a digraph, is read as subpoint [z] of point [s]. *)
Theorem C85_digraph_refuted : exists r r', well_formed r /\ get_ref (put_ref r) = Ok r' /\ r' <> r.
Proof. exact save_digraph. Qed.
Print Assumptions C85_digraph_refuted.

(** The act of tests/simple_tests/test_serialization.rs:38-236, without the second half of its children, and its form there (238-320) *)
Definition numb (n : N) : numeric := mkNum n None.
Definition plain {I C} (i : I) (t : string) : sae I C := mkSae i (BText (lit t)) si_default None.
Definition test_date : date := mkDate 2345 6 7.
Definition test_act : act :=
  mkActS (mkAct 2345 13) (lit "A tesztelésről") (lit "A tesztelés nagyon fontos, és egyben kötelező") test_date [(lit "Btk.", mkAct 2012 100)]
    [ChStruct (mkSe (numb 1) (lit "Egyszerű dolgok") TBook None); ChSubtitle (mkSub None (lit "Alcim id nelkul") None);
     ChArticle (mkArticle (mkArt (Some 1%N) (numb 1)) (Some (lit "Az egyetlen cikk, aminek cime van.")) [plain None "Meg szövege"] None);
     ChArticle (mkArticle (mkArt (Some 1%N) (numb 2)) None
       [plain (Some (numb 1)) "Valami valami hosszu szoveg";
        mkSae (Some (numb 2)) (BChildren (lit "Egy felsorolás legyen")
          (PcAlpha [plain (Latin 97) "többelemű";
                    mkSae (Latin 98) (BChildren (lit "kellően")
                      (AcAlpha [plain (mkPre (Some (Latin 98)) (Latin 97)) "átláthatatlan"; plain (mkPre (Some (Latin 98)) (Latin 98)) "komplex"]) None) si_default None])
          (Some (lit "minden esetben."))) si_default None] None);
     ChStruct (mkSe (mkNum 1 (Some (Latin 97))) (lit "A hozzaadott") (TPart false) None);
     ChArticle (mkArticle (mkArt (Some 2%N) (mkNum 1 (Some (Latin 97)))) None [plain None "Added after the fact"] None)].
Definition str_ (s : string) : value := VStr (lit s).
Definition map_ (l : list (string * value)) : value := VMap (map (fun p => (lit (fst p), snd p)) l).
Definition test_tree : value := map_
  [("identifier", map_ [("year", VInt 2345); ("number", VInt 13)]);
   ("subject", str_ "A tesztelésről"); ("preamble", str_ "A tesztelés nagyon fontos, és egyben kötelező"); ("publication_date", str_ "2345-06-07");
   ("contained_abbreviations", map_ [("Btk.", map_ [("year", VInt 2012); ("number", VInt 100)])]);
   ("children", VSeq
     [map_ [("StructuralElement", map_ [("identifier", str_ "1"); ("title", str_ "Egyszerű dolgok"); ("element_type", str_ "Book")])];
      map_ [("Subtitle", map_ [("title", str_ "Alcim id nelkul")])];
      map_ [("Article", map_ [("identifier", str_ "1:1"); ("title", str_ "Az egyetlen cikk, aminek cime van."); ("children", VSeq [map_ [("body", str_ "Meg szövege")]])])];
      map_ [("Article", map_ [("identifier", str_ "1:2"); ("children", VSeq
        [map_ [("identifier", str_ "1"); ("body", str_ "Valami valami hosszu szoveg")];
         map_ [("identifier", str_ "2"); ("body", map_ [("intro", str_ "Egy felsorolás legyen");
           ("children", map_ [("AlphabeticPoint", VSeq
             [map_ [("identifier", str_ "a"); ("body", str_ "többelemű")];
              map_ [("identifier", str_ "b"); ("body", map_ [("intro", str_ "kellően"); ("children", map_ [("AlphabeticSubpoint", VSeq
                [map_ [("identifier", str_ "ba"); ("body", str_ "átláthatatlan")]; map_ [("identifier", str_ "bb"); ("body", str_ "komplex")]])])])]])]);
           ("wrap_up", str_ "minden esetben.")])]])])];
      map_ [("StructuralElement", map_ [("identifier", str_ "1a"); ("title", str_ "A hozzaadott"); ("element_type", map_ [("Part", map_ [])])])];
      map_ [("Article", map_ [("identifier", str_ "2:1/A"); ("children", VSeq [map_ [("body", str_ "Added after the fact")]])])]])].
Definition test_dates (s : str) : outcome date := if str_eqb s (lit "2345-06-07") then Ok test_date else Err.
Example C85_sample : reads_dates (eq test_date) test_dates /\ act_fits (eq test_date) 1 test_act /\ put_act test_act = test_tree /\ get_act test_dates 1 test_tree = Ok test_act.
Proof.
  assert (R : reads_dates (eq test_date) test_dates).
  { split; [intros d <-; vm_compute; reflexivity|]. unfold test_dates. split; intros s; destruct (str_eqb s _); congruence. }
  assert (P : put_act test_act = test_tree) by (vm_compute; reflexivity).
  assert (G : get_act test_dates 1 test_tree = Ok test_act) by (vm_compute; reflexivity).
  split; [exact R|]. split; [|split; [exact P|exact G]]. exact (proj2 (save_loaded (eq test_date) test_dates 1 test_tree R) test_act G).
Qed.
(** An article with an amendment in it, references, a changed paragraph and an enforcement date; the forms are those of
    tests/datatests/data_add_semantic_info and data_convert_block_amendments. *)
Definition ref_ (a : option act_id) (b : N) : reference := mkRef a (Some (single (mkArt None (numb b)))) None None None.
Definition amending_act : act :=
  mkActS (mkAct 2020 1) (lit "A") (lit "") test_date []
    [ChArticle (mkArticle (mkArt None (numb 1)) None
      [mkSae (Some (numb 1)) (BChildren (lit "A Tv. 2. §-a")
         (PcBlock (mkBlock (Some (lit "(")) (BcParagraph [mkSae (Some (numb 3)) (BChildren (lit "x") (PcQuoted [mkQb None [mkLine [mkPart 0 97%N true] false true] None]) None) si_default None]) None)) None)
         (mkSi [mkOut 2 9 (ref_ (Some (mkAct 2012 1)) 2)] [(lit "Tv.", mkAct 2012 1)]
           (Some (PhBlock (mkBaPhrase (mkRef (Some (mkAct 2012 1)) (Some (single (mkArt None (numb 2)))) (Some (mkRange (numb 3) (numb 4))) None None) true)))) None;
       mkSae (Some (numb 2)) (BText (lit "x")) (mkSi [] [] (Some (PhEnforcement (mkEd [ref_ None 3] [] false (EdDayInMonth None 8) (Some test_date)))))
         (Some (mkLc test_date (CcAmendment (ref_ (Some (mkAct 2021 5)) 7))));
       mkSae (Some (numb 3)) (BText (lit "y")) (mkSi [] [] (Some (PhText [mkTa (TaSae (mkRef None None None (Some (PtAlpha (single (Latin 97)))) None) PartIntroOnly) (lit "u") (lit "v")])))
         (Some (mkLc test_date CcAutoRepeal))] None)].
Definition amending_tree : value := map_
  [("identifier", map_ [("year", VInt 2020); ("number", VInt 1)]); ("subject", str_ "A"); ("preamble", str_ ""); ("publication_date", str_ "2345-06-07");
   ("children", VSeq [map_ [("Article", map_ [("identifier", str_ "1"); ("children", VSeq
     [map_ [("identifier", str_ "1");
        ("body", map_ [("intro", str_ "A Tv. 2. §-a"); ("children", map_ [("BlockAmendment", map_ [("intro", str_ "("); ("children", map_ [("Paragraph", VSeq
          [map_ [("identifier", str_ "3"); ("body", map_ [("intro", str_ "x"); ("children", map_ [("QuotedBlock", VSeq [map_ [("lines", VSeq
            [map_ [("parts", VSeq [map_ [("dx", VFloat 0); ("content", str_ "a"); ("bold", VBool true)]]); ("justified", VBool false);
                   ("cached_content", str_ "a"); ("cached_bold", VBool true)]])]])])])]])])])])]);
        ("semantic_info", map_
          [("outgoing_references", VSeq [map_ [("start", VInt 2); ("end", VInt 9);
             ("reference", map_ [("act", map_ [("year", VInt 2012); ("number", VInt 1)]); ("article", str_ "2")])]]);
           ("new_abbreviations", map_ [("Tv.", map_ [("year", VInt 2012); ("number", VInt 1)])]);
           ("special_phrase", map_ [("BlockAmendment", map_ [("position", map_ [("act", map_ [("year", VInt 2012); ("number", VInt 1)]); ("article", str_ "2");
              ("paragraph", map_ [("start", str_ "3"); ("end", str_ "4")])]); ("pure_insertion", VBool true)])])])];
      map_ [("identifier", str_ "2"); ("body", str_ "x");
        ("semantic_info", map_ [("special_phrase", map_ [("EnforcementDate", map_ [("positions", VSeq [map_ [("article", str_ "3")]]);
           ("date", map_ [("DayInMonthAfterPublication", map_ [("day", VInt 8)])]); ("inline_repeal", str_ "2345-06-07")])])]);
        ("last_change", map_ [("date", str_ "2345-06-07"); ("cause", map_ [("Amendment", map_ [("act", map_ [("year", VInt 2021); ("number", VInt 5)]); ("article", str_ "7")])])])];
      map_ [("identifier", str_ "3"); ("body", str_ "y");
        ("semantic_info", map_ [("special_phrase", map_ [("TextAmendment", VSeq [map_ [("reference", map_ [("SAE", map_ [("reference", map_ [("point", str_ "a")]);
           ("amended_part", str_ "IntroOnly")])]); ("from", str_ "u"); ("to", str_ "v")]])])]);
        ("last_change", map_ [("date", str_ "2345-06-07"); ("cause", str_ "AutoRepeal")])]])])]])].
Example C85_amending : put_act amending_act = amending_tree /\ get_act test_dates 2 amending_tree = Ok amending_act /\ act_fits (eq test_date) 2 amending_act /\
  get_act test_dates 1 amending_tree = Err.
Proof.
  assert (P : put_act amending_act = amending_tree) by (vm_compute; reflexivity).
  assert (G : get_act test_dates 2 amending_tree = Ok amending_act) by (vm_compute; reflexivity).
  split; [exact P|]. split; [exact G|]. split; [exact (proj2 (save_loaded (eq test_date) test_dates 2 amending_tree (proj1 C85_sample)) amending_act G)|vm_compute; reflexivity].
Qed.
(** Data which are refused: a field given twice, one missing, a number too large, a name not known, a reference with a gap; and a field not known, which is ignored *)
Example C85_refused :
  get_act_id (map_ [("year", VInt 1); ("number", VInt 2); ("year", VInt 1)]) = Err /\ get_act_id (map_ [("year", VInt 1)]) = Err /\
  get_act_id (map_ [("year", VInt 32768); ("number", VInt 2)]) = Err /\ get_sr_element (str_ "Part") = Err /\ get_sr_parent (map_ [("Book", str_ "1")]) = Err /\
  get_ref (map_ [("article", str_ "1"); ("subpoint", str_ "a")]) = get_ref (map_ [("article", str_ "1"); ("subpoint", str_ "a"); ("x", VNull)]) /\
  get_ref (map_ [("act", map_ [("year", VInt 1); ("number", VInt 2)]); ("point", str_ "a")]) = Err /\
  get_ref (map_ [("point", str_ "a"); ("article", VNull); ("other", VBool true)]) = Ok (mkRef None None None (Some (PtAlpha (single (Latin 97)))) None).
Proof. vm_compute. repeat split; reflexivity. Qed.
