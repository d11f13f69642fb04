(** The repository's own unit tests of src/identifier and src/reference, evaluated on the model.
    Not proofs about all inputs; they check that the model agrees with the code on the inputs the
    authors tested. *)
From Verif Require Import ModelRef SpecIdent.

Definition get {A} (d : A) (x : outcome A) : A := match x with Ok a => a | _ => d end.
Definition n0 := mkNum 0 None.
Definition nm (s : string) : numeric := get n0 (numeric_parse (lit s)).
Definition ar (s : string) : article_id := get (mkArt None n0) (article_parse (lit s)).
Definition hc (s : string) : hic := get Cs (hic_parse (lit s)).
Definition pf (s : string) : prefixed := get (mkPre None Cs) (prefixed_parse (lit s)).
Definition rng {T} (p : string -> T) (a b : string) : range T := mkRange (p a) (p b).
Definition one {T} (p : string -> T) (a : string) : range T := single (p a).
Definition is_lt (c : comparison) := match c with Lt => true | _ => false end.
Definition is_err {A} (o : outcome A) := match o with Err => true | _ => false end.
Definition rf (s : str) : option Z :=
  if is_empty s then None else if forallb is_roman_digit s then Some (roman_read s) else None.

(** src/identifier/act.rs tests *)
Example act_parsing :
  map (fun s => act_parse rf (lit s)) ["2012/123"; "2012.123"; "2012-123"; "2012_123"; "2012. évi CLIV. törvény"]%string
  = [Ok (mkAct 2012 123); Ok (mkAct 2012 123); Ok (mkAct 2012 123); Ok (mkAct 2012 123); Ok (mkAct 2012 154)]
  /\ (let* s := act_show (mkAct 2022 420) in act_parse rf s) = Ok (mkAct 2022 420)
  /\ act_show_compact (mkAct 2012 420) = lit "2012.420" /\ act_parse_compact (lit "2012.420") = Ok (mkAct 2012 420)
  /\ map (fun s => is_err (act_parse_compact (lit s))) ["2012"; "a"; "2012.a"; "a.420"]%string = [true; true; true; true].
Proof. vm_compute. repeat split. Qed.
(** src/identifier/alphabetic.rs, article.rs, numeric.rs, paragraph.rs, prefixed_alphabetic.rs, range.rs tests *)
Example ident_ordering :
  forallb is_lt [hic_cmp (hc "n") (hc "ny"); hic_cmp (hc "sz") (hc "zs"); hic_cmp (hc "a") (hc "f");
    article_cmp (ar "6/C") (ar "9"); article_cmp (ar "2:12") (ar "3:1"); article_cmp (ar "3:12/X") (ar "3:15/B");
    numeric_cmp (nm "2") (nm "5"); numeric_cmp (nm "2") (nm "5b"); numeric_cmp (nm "2b") (nm "5");
    numeric_cmp (nm "2b") (nm "2c"); numeric_cmp (nm "2c") (nm "3");
    paragraph_cmp (Some (nm "50")) (Some (nm "51")); paragraph_cmp None (Some (nm "50"));
    prefixed_cmp (pf "a") (pf "x"); prefixed_cmp (pf "xa") (pf "xb"); prefixed_cmp (pf "cc") (pf "dc")] = true.
Proof. vm_compute. reflexivity. Qed.
Example ident_parsing :
  article_parse (lit "123") = Ok (mkArt None (mkNum 123 None)) /\
  article_parse (lit "88:1/SZ") = Ok (mkArt (Some 88%N) (mkNum 1 (Some Sz))) /\
  article_show_compact (ar "2:12/B") = lit "2.12b" /\ article_parse_compact (lit "2.12b") = Ok (ar "2:12/B") /\
  article_show_compact (ar "12/B") = lit "12b" /\ article_parse_compact (lit "12b") = Ok (ar "12/B") /\
  article_parse_compact (lit "a") = Err /\
  map (fun s => numeric_parse (lit s)) ["123"; "123/A"; "123/Z"; "123/C"; "51x"; "5zs"; "11/cs"]%string =
   map Ok [mkNum 123 None; mkNum 123 (Some (Latin 97)); mkNum 123 (Some (Latin 122)); mkNum 123 (Some (Latin 99));
           mkNum 51 (Some (Latin 120)); mkNum 5 (Some Zs); mkNum 11 (Some Cs)] /\
  forallb (fun s => is_err (numeric_parse (lit s))) [""; "a"; "1aa"; "1/"; "12/"; "12/aa"; "12//a"; "1:123"]%string = true /\
  map (fun s => numeric_from_roman rf (lit s)) ["XIV"; "III/i"; "XCV/Z"; "C/C"; "XI/cs"]%string =
   map Ok [mkNum 14 None; mkNum 3 (Some (Latin 105)); mkNum 95 (Some (Latin 122)); mkNum 100 (Some (Latin 99)); mkNum 11 (Some Cs)] /\
  forallb (fun s => is_err (numeric_from_roman rf (lit s))) [""; "a"; "I/"; "II/"; "II/aa"; "II//a"; "I:II"]%string = true /\
  paragraph_parse (lit "51") = Ok (Some (nm "51")) /\ paragraph_parse (lit "") = Ok None /\
  paragraph_show (Some (nm "12a")) = lit "12a" /\ paragraph_parse (lit "a") = Err /\
  prefixed_parse (lit "a") = Ok (mkPre None (Latin 97)) /\ prefixed_parse (lit "aa") = Ok (mkPre (Some (Latin 97)) (Latin 97)) /\
  prefixed_parse (lit "sz") = Ok (mkPre (Some (Latin 115)) (Latin 122)) /\
  range_show_compact (one nm "5") = lit "5" /\ range_show_compact (rng nm "5" "10") = lit "5-10" /\
  forallb (fun s => is_err (range_parse_compact (T:=numeric) (lit s))) ["a"; "a-10"; "10-a"; "1-10-5"]%string = true.
Proof. vm_compute. repeat split. Qed.
(** src/identifier/mod.rs tests *)
Example ident_next :
  forallb (fun p => numeric_next (nm (fst p)) (nm (snd p)))
    [("123", "122"); ("123/A", "123"); ("123zs", "123z"); ("13", "12c")]%string = true /\
  forallb (fun p => negb (numeric_next (nm (fst p)) (nm (snd p))))
    [("12b", "12"); ("12a", "11"); ("13", "11"); ("11", "11"); ("11", "12")]%string = true /\
  forallb (fun p => article_next (ar (fst p)) (ar (snd p))) [("1:123", "1:122"); ("2:1", "1:123"); ("13", "12c")]%string = true /\
  forallb (fun p => negb (article_next (ar (fst p)) (ar (snd p))))
    [("1:1", "2:2"); ("1:1", "3:1"); ("2:1a", "1:123"); ("1:1", "1"); ("1", "1:1"); ("1:1", "2"); ("1", "1:2")]%string = true /\
  forallb (fun p => hic_next (hc (fst p)) (hc (snd p))) [("B", "a"); ("Ny", "n"); ("o", "Ny")]%string = true /\
  forallb (fun p => negb (hic_next (hc (fst p)) (hc (snd p)))) [("a", "B"); ("a", "a"); ("Ny", "Ny"); ("n", "Ny")]%string = true /\
  forallb (fun p => prefixed_next (pf (fst p)) (pf (snd p))) [("b", "a"); ("ab", "aa"); ("l", "k"); ("cl", "ck")]%string = true /\
  forallb (fun p => negb (prefixed_next (pf (fst p)) (pf (snd p)))) [("c", "c"); ("ca", "db"); ("c", "bb"); ("cc", "b")]%string = true.
Proof. vm_compute. repeat split. Qed.

(** src/reference/string.rs tests *)
Definition a12 := mkAct 2012 1.
Definition disp (r : reference) := ref_show r.
Example ref_display :
  let base := mkRef (Some a12) (Some (one ar "1")) (Some (one nm "2")) (Some (PtNum (one nm "3"))) (Some (SpAlpha (one pf "a"))) in
  let base2 := mkRef (Some a12) (Some (one ar "1:123/B")) (Some (one nm "2")) (Some (PtAlpha (one hc "a"))) (Some (SpNum (one nm "2/a"))) in
  map (fun n => disp (Nat.iter n parent base)) [0; 1; 2; 3; 4]%nat =
   map (fun s => Ok (lit s)) ["2012. évi I. törvény 1. § (2) bekezdés 3. pont a) alpontja";
     "2012. évi I. törvény 1. § (2) bekezdés 3. pontja"; "2012. évi I. törvény 1. § (2) bekezdése";
     "2012. évi I. törvény 1. §-a"; "2012. évi I. törvény"]%string /\
  disp base2 = Ok (lit "2012. évi I. törvény 1:123/B. § (2) bekezdés a) pont 2a. alpontja") /\
  disp (parent base2) = Ok (lit "2012. évi I. törvény 1:123/B. § (2) bekezdés a) pontja") /\
  disp (mkRef None (Some (one ar "1")) None (Some (PtAlpha (rng hc "a" "x"))) None) = Ok (lit "1. § a)–x) pontja") /\
  disp empty_ref = Ok [].
Proof. vm_compute. repeat split. Qed.
Example ref_compact :
  let base := mkRef (Some a12) (Some (one ar "1")) (Some (one nm "2")) (Some (PtNum (one nm "3"))) (Some (SpNum (one nm "4"))) in
  let missing := mkRef None (Some (one ar "1")) None (Some (PtAlpha (rng hc "a" "x"))) None in
  ref_show_compact base = lit "2012.1_1_2_3_4" /\ ref_parse_compact (lit "2012.1_1_2_3_4") = Ok base /\
  ref_show_compact missing = lit "_1__a-x_" /\ ref_parse_compact (lit "_1__a-x_") = Ok missing /\
  ref_show_compact empty_ref = lit "____" /\ ref_parse_compact (lit "____") = Ok empty_ref /\
  forallb (fun s => is_err (ref_parse_compact (lit s))) ["_1__a-x"; "_1__a-x__"; "_a__a-x__"]%string = true.
Proof. vm_compute. repeat split. Qed.
(** src/reference/builder.rs tests *)
Example ref_builder :
  let b := set_subpoint (SpAlpha (one pf "sz")) (set_point (PtNum (one nm "20")) (set_paragraph (one nm "20")
           (set_article (one ar "4:20") (set_act (mkAct 2001 420) empty_ref)))) in
  build b = Ok (mkRef (Some (mkAct 2001 420)) (Some (one ar "4:20")) (Some (one nm "20")) (Some (PtNum (one nm "20")))
                 (Some (SpAlpha (one pf "sz")))) /\
  build (set_article (rng ar "1:10" "1:10/C") b) = Ok (mkRef (Some (mkAct 2001 420)) (Some (rng ar "1:10" "1:10/C")) None None None) /\
  build (set_point (PtAlpha (rng hc "a" "x")) (set_article (one ar "1") empty_ref)) =
    Ok (mkRef None (Some (one ar "1")) None (Some (PtAlpha (rng hc "a" "x"))) None) /\
  build empty_ref = Ok empty_ref /\
  build (set_subpoint (SpAlpha (one pf "sz")) (set_paragraph (one nm "20") empty_ref)) = Err /\
  build (set_point (PtAlpha (rng hc "f" "u")) (set_paragraph (rng nm "20" "21") empty_ref)) = Err /\
  build (set_subpoint (SpAlpha (one pf "fu")) (set_point (PtAlpha (one hc "f")) (set_paragraph (rng nm "20" "21") empty_ref))) = Err.
Proof. vm_compute. repeat split. Qed.
(** src/reference/tests.rs *)
Definition ap (a : option ref_article) (p : option ref_paragraph) := mkRef None a p None None.
Definition o1 (s : string) := Some (one ar s).
Definition o2 (a b : string) := Some (rng ar a b).
Definition q1 (s : string) := Some (one nm s).
Definition q2 (a b : string) := Some (rng nm a b).
Example ref_contains :
  forallb (fun p => contains (fst p) (snd p))
   [ (ap (o1 "1") None, ap (o1 "1") None); (ap (o2 "2" "4") None, ap (o1 "2") None); (ap (o2 "2" "4") None, ap (o1 "3") None);
     (ap (o2 "2" "4") None, ap (o1 "4") None); (ap (o2 "2" "4") None, ap (o2 "2" "3") None); (ap (o2 "2" "4") None, ap (o2 "2" "4") None);
     (ap (o2 "2" "4") None, ap (o2 "3" "4") None); (ap (o1 "1") None, ap (o1 "1") (q1 "2"));
     (ap (o1 "1") None, ap (o1 "1") (q2 "2" "15")); (ap (o2 "1" "2") None, ap (o1 "1") (q2 "2" "15"));
     (ap (o2 "1" "2") None, ap (o1 "2") (q1 "2")); (ap (o2 "1" "3") None, ap (o1 "2") (q1 "2")); (ap None None, ap (o1 "1") None) ] = true /\
  forallb (fun p => negb (contains (fst p) (snd p)))
   [ (ap (o1 "1") None, ap (o1 "2") None); (ap (o2 "2" "4") None, ap (o1 "1") None); (ap (o2 "2" "4") None, ap (o1 "5") None);
     (ap (o2 "2" "4") None, ap (o2 "1" "3") None); (ap (o2 "2" "4") None, ap (o2 "4" "5") None); (ap (o2 "2" "4") None, ap (o2 "14" "15") None);
     (ap (o1 "1") (q1 "1"), ap (o1 "1") (q1 "2")); (ap (o1 "1") (q1 "1"), ap (o1 "1") None); (ap (o1 "1") (q1 "1"), ap (o1 "2") None);
     (ap (o1 "1") None, ap None None); (ap (o1 "1") None, ap None (q1 "1"));
     (mkRef (Some a12) (o1 "1") None None None, mkRef (Some (mkAct 2012 2)) (o1 "1") None None None) ] = true.
Proof. vm_compute. repeat split. Qed.
Example ref_ordering :
  forallb is_lt
   [ ref_cmp (mkRef None (o1 "1") None (Some (PtAlpha (rng hc "a" "x"))) None) (ap (o1 "2") None);
     ref_cmp (mkRef None (o1 "1") None (Some (PtAlpha (rng hc "a" "x"))) None) (ref_of_act (mkAct 2000 1));
     ref_cmp (mkRef None (o1 "1") None (Some (PtAlpha (rng hc "a" "x"))) (Some (SpNum (rng nm "1" "2"))))
             (mkRef None (o1 "1") None (Some (PtAlpha (rng hc "a" "x"))) (Some (SpNum (rng nm "3" "4")))) ] = true.
Proof. vm_compute. reflexivity. Qed.
Example ref_make_range :
  let art_ (s : string) := mkRef (Some a12) (o1 s) None None None in
  let par (s : string) := mkRef (Some a12) (o1 "4:80") (q1 s) None None in
  let rel (a b : string) := mkRef None None (q1 "80") (Some (PtAlpha (rng hc a b))) None in
  make_range (art_ "4:20"%string) (art_ "4:80"%string) = Ok (mkRef (Some a12) (o2 "4:20" "4:80") None None None) /\
  make_range (par "20"%string) (par "80"%string) = Ok (mkRef (Some a12) (o1 "4:80") (q2 "20" "80") None None) /\
  make_range (rel "a"%string "b"%string) (rel "f"%string "g"%string) = Ok (rel "a"%string "g"%string) /\
  make_range (art_ "4:20"%string) (par "80"%string) = Err /\ make_range (art_ "4:80"%string) (par "80"%string) = Err /\
  make_range (mkRef None None None (Some (PtNum (one nm "20"))) None) (mkRef None None None (Some (PtAlpha (one hc "a"))) None) = Err.
Proof. vm_compute. repeat split. Qed.
Example ref_relative :
  let base := mkRef (Some a12) (o1 "1") (q1 "1") (Some (PtNum (one nm "1"))) (Some (SpNum (one nm "1"))) in
  relative_to empty_ref base = Ok base /\ relative_to base empty_ref = Ok base /\
  relative_to (ref_of_act (mkAct 2014 1)) base = Ok (ref_of_act (mkAct 2014 1)) /\
  relative_to (ap (o1 "5") None) base = Ok (mkRef (Some a12) (o1 "5") None None None) /\
  relative_to (ap None (q1 "5")) base = Ok (mkRef (Some a12) (o1 "1") (q1 "5") None None) /\
  relative_to (ref_of_numeric_point (nm "5")) base = Ok (mkRef (Some a12) (o1 "1") (q1 "1") (Some (PtNum (one nm "5"))) None) /\
  relative_to (ref_of_numeric_subpoint (nm "5")) base =
    Ok (mkRef (Some a12) (o1 "1") (q1 "1") (Some (PtNum (one nm "1"))) (Some (SpNum (one nm "5")))) /\
  relative_to (ref_of_alpha_subpoint (pf "ab")) (ref_of_alpha_point (hc "a")) =
    Ok (mkRef None None None (Some (PtAlpha (one hc "a"))) (Some (SpAlpha (one pf "ab")))) /\
  relative_to (ref_of_alpha_subpoint (pf "ab")) (ap None (q1 "1")) = Err.
Proof. vm_compute. repeat split. Qed.
