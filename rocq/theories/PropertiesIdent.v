(** Properties C01-C07 and C52: identifiers. *)
From Verif Require Import ProofIdent5.

(** * C01 *)
Theorem C01_letters_roundtrip : forall x, hic_ok x = true ->
  hic_parse (hic_show x) = Ok x /\ hic_parse (hic_show_upper x) = Ok x.
Proof. exact c01_roundtrip. Qed.
Print Assumptions C01_letters_roundtrip.
Theorem C01_letters_parse_exact : forall s x, hic_parse s = Ok x <-> spelling s x.
Proof. exact hic_parse_spelling. Qed.
Print Assumptions C01_letters_parse_exact.
Theorem C01_letters_parse_total : forall s, hic_parse s <> Panic.
Proof. exact hic_parse_not_panic. Qed.
Print Assumptions C01_letters_parse_total.
Theorem C01_letters_print_is_lowercase : forall s x, hic_parse s = Ok x -> hic_show x = lower_str s.
Proof. exact hic_show_lower_str. Qed.
Print Assumptions C01_letters_print_is_lowercase.
Example C01_example : hic_ok Dz = true /\ hic_show Dz = lit "dz" /\ hic_parse (lit "Dz") = Ok Dz
  /\ hic_parse (lit "dZ") = Err /\ hic_parse (lit "é") = Err /\ hic_parse (lit "") = Err.
Proof. repeat split; vm_compute; reflexivity. Qed.

(** * C02 *)
Theorem C02_numeric_roundtrip : forall x, numeric_ok x = true ->
  numeric_parse (numeric_show x) = Ok x /\ numeric_parse (numeric_show_slash x) = Ok x.
Proof. exact c02_roundtrip. Qed.
Print Assumptions C02_numeric_roundtrip.
Theorem C02_numeric_parse_exact : forall s x, numeric_parse s = Ok x <-> numeric_spelling s x.
Proof. exact numeric_parse_spelling. Qed.
Print Assumptions C02_numeric_parse_exact.
Theorem C02_numeric_parse_total : forall s, numeric_parse s <> Panic.
Proof. exact numeric_parse_not_panic. Qed.
Print Assumptions C02_numeric_parse_total.
Example C02_example :
  numeric_ok (mkNum 123 (Some Sz)) = true /\ numeric_show (mkNum 123 (Some Sz)) = lit "123sz" /\
  numeric_show_slash (mkNum 123 (Some Sz)) = lit "123/SZ" /\
  numeric_parse (lit "65535/a") = Ok (mkNum 65535 (Some (Latin 97))) /\ numeric_parse (lit "65536") = Err /\
  numeric_parse (lit "12/") = Err /\ numeric_parse (lit "a") = Err.
Proof. repeat split; vm_compute; reflexivity. Qed.

(** * C03 *)
Theorem C03_roundtrip :
  (forall x, article_ok x = true -> article_parse (article_show x) = Ok x) /\
  (forall x, paragraph_ok x = true -> paragraph_parse (paragraph_show x) = Ok x) /\
  (forall x, prefixed_ok x = true -> prefixed_latin x = true -> prefixed_parse (prefixed_show x) = Ok x).
Proof. exact c03_roundtrip. Qed.
Print Assumptions C03_roundtrip.
Theorem C03_parse :
  (forall s, article_parse s <> Panic) /\ (forall s, paragraph_parse s <> Panic) /\
  (forall s, prefixed_parse s <> Panic) /\
  (forall s x, article_parse s = Ok x -> article_ok x = true) /\
  (forall s x, paragraph_parse s = Ok x -> paragraph_ok x = true) /\
  (forall s x, prefixed_parse s = Ok x ->
     prefixed_ok x = true /\ prefixed_latin x = true /\ prefixed_show x = lower_str s).
Proof. exact c03_parse_ok. Qed.
Print Assumptions C03_parse.
Theorem C03_article_parse_exact : forall s x, article_parse s = Ok x <->
  (exists i, numeric_spelling s i /\ x = mkArt None i) \/
  (exists bs b is_ i, s = bs ++ 58%N :: is_ /\ denotes_dec (strip_plus bs) b /\ (b <= 255)%N /\
                     numeric_spelling is_ i /\ x = mkArt (Some b) i).
Proof. exact article_parse_exact. Qed.
Print Assumptions C03_article_parse_exact.
(** The exact printed forms: digits without leading zeros, small letters, capitals after a slash. *)
Theorem C03_printed :
  (forall x, hic_ok x = true -> small_letters (hic_show x) x) /\
  (forall x, numeric_ok x = true -> printed_numeric (numeric_show x) x) /\
  (forall x, article_ok x = true -> printed_article (article_show x) x) /\
  (forall x, prefixed_ok x = true -> exists ps cs, prefixed_show x = ps ++ cs /\ small_letters cs (p_chr x) /\
     match p_prefix x with Some p => small_letters ps p | None => ps = [] end).
Proof. exact c03_printed. Qed.
Print Assumptions C03_printed.
(** Digraph letters are representable in the prefixed type, but do not survive. *)
Theorem C03_digraph_refuted : exists x, prefixed_ok x = true /\ prefixed_parse (prefixed_show x) <> Ok x.
Proof. exists (mkPre None Cs). split; vm_compute; [reflexivity | discriminate]. Qed.
Print Assumptions C03_digraph_refuted.
Example C03_example :
  article_ok (mkArt (Some 3%N) (mkNum 12 (Some (Latin 98)))) = true /\
  article_show (mkArt (Some 3%N) (mkNum 12 (Some (Latin 98)))) = lit "3:12/B" /\
  paragraph_ok None = true /\ paragraph_show None = [] /\
  prefixed_ok (mkPre (Some (Latin 97)) (Latin 98)) = true /\ prefixed_latin (mkPre (Some (Latin 97)) (Latin 98)) = true.
Proof. repeat split; vm_compute; reflexivity. Qed.

(** * C04 *)
Theorem C04_compact_identifiers :
  (forall x, hic_ok x = true -> hic_parse (hic_show x) = Ok x) /\
  (forall x, numeric_ok x = true -> numeric_parse (numeric_show x) = Ok x) /\
  (forall x, article_ok x = true -> article_parse_compact (article_show_compact x) = Ok x) /\
  (forall x, paragraph_ok x = true -> paragraph_parse (paragraph_show x) = Ok x) /\
  (forall x, prefixed_ok x = true -> prefixed_latin x = true -> prefixed_parse (prefixed_show x) = Ok x) /\
  (forall x, act_ok x = true -> act_parse_compact (act_show_compact x) = Ok x).
Proof. exact c04_identifiers. Qed.
Print Assumptions C04_compact_identifiers.
Theorem C04_compact_ranges :
  (forall r : range hic, range_of (fun x => hic_ok x = true) r -> range_parse_compact (range_show_compact r) = Ok r) /\
  (forall r : range numeric, range_of (fun x => numeric_ok x = true) r -> range_parse_compact (range_show_compact r) = Ok r) /\
  (forall r : range article_id, range_of (fun x => article_ok x = true) r -> range_parse_compact (range_show_compact r) = Ok r) /\
  (forall r : range paragraph_id, range_of (fun x => paragraph_ok x = true) r -> range_parse_compact (range_show_compact r) = Ok r) /\
  (forall r : range prefixed, range_of (fun x => prefixed_ok x = true /\ prefixed_latin x = true) r ->
     range_parse_compact (range_show_compact r) = Ok r).
Proof. exact c04_ranges. Qed.
Print Assumptions C04_compact_ranges.
Theorem C04_compact_options :
  (forall o : option hic, (forall x, o = Some x -> hic_ok x = true) ->
     opt_parse_compact hic_parse (opt_show_compact hic_show o) = Ok o) /\
  (forall o : option numeric, (forall x, o = Some x -> numeric_ok x = true) ->
     opt_parse_compact numeric_parse (opt_show_compact numeric_show o) = Ok o) /\
  (forall o : option article_id, (forall x, o = Some x -> article_ok x = true) ->
     opt_parse_compact article_parse_compact (opt_show_compact article_show_compact o) = Ok o) /\
  (forall o : option prefixed, (forall x, o = Some x -> prefixed_ok x = true /\ prefixed_latin x = true) ->
     opt_parse_compact prefixed_parse (opt_show_compact prefixed_show o) = Ok o) /\
  (forall o : option act_id, (forall x, o = Some x -> act_ok x = true) ->
     opt_parse_compact act_parse_compact (opt_show_compact act_show_compact o) = Ok o) /\
  (forall o : option paragraph_id, (forall x, o = Some x -> paragraph_ok x = true /\ x <> None) ->
     opt_parse_compact paragraph_parse (opt_show_compact paragraph_show o) = Ok o).
Proof. exact c04_options. Qed.
Print Assumptions C04_compact_options.
Theorem C04_compact_optional_ranges :
  (forall o : option (range hic), (forall r, o = Some r -> range_of (fun x => hic_ok x = true) r) ->
     opt_parse_compact range_parse_compact (opt_show_compact range_show_compact o) = Ok o) /\
  (forall o : option (range numeric), (forall r, o = Some r -> range_of (fun x => numeric_ok x = true) r) ->
     opt_parse_compact range_parse_compact (opt_show_compact range_show_compact o) = Ok o) /\
  (forall o : option (range article_id), (forall r, o = Some r -> range_of (fun x => article_ok x = true) r) ->
     opt_parse_compact range_parse_compact (opt_show_compact range_show_compact o) = Ok o).
Proof. exact c04_optional_ranges. Qed.
Print Assumptions C04_compact_optional_ranges.
Theorem C04_compact_distinct :
  (forall x y, hic_ok x = true -> hic_ok y = true -> hic_show x = hic_show y -> x = y) /\
  (forall x y, numeric_ok x = true -> numeric_ok y = true -> numeric_show x = numeric_show y -> x = y) /\
  (forall x y, article_ok x = true -> article_ok y = true -> article_show_compact x = article_show_compact y -> x = y) /\
  (forall x y, act_ok x = true -> act_ok y = true -> act_show_compact x = act_show_compact y -> x = y) /\
  (forall x y : range article_id, range_of (fun x => article_ok x = true) x -> range_of (fun x => article_ok x = true) y ->
     range_show_compact x = range_show_compact y -> x = y) /\
  (forall x y : range numeric, range_of (fun x => numeric_ok x = true) x -> range_of (fun x => numeric_ok x = true) y ->
     range_show_compact x = range_show_compact y -> x = y).
Proof. exact c04_distinct. Qed.
Print Assumptions C04_compact_distinct.
(** The unrestricted claim fails for prefixed letters with digraphs and for [Some] of the empty paragraph. *)
Theorem C04_compact_prefixed_refuted : exists x y, prefixed_ok x = true /\ prefixed_ok y = true /\
  x <> y /\ prefixed_show x = prefixed_show y.
Proof.
  exists (mkPre None Cs), (mkPre (Some (Latin 99)) (Latin 115)).
  repeat split; try (vm_compute; reflexivity). discriminate.
Qed.
Print Assumptions C04_compact_prefixed_refuted.
Theorem C04_compact_optional_paragraph_refuted : exists o : option paragraph_id,
  opt_parse_compact paragraph_parse (opt_show_compact paragraph_show o) <> Ok o.
Proof. exists (Some None). discriminate. Qed.
Print Assumptions C04_compact_optional_paragraph_refuted.
Example C04_example :
  range_show_compact (mkRange (mkArt (Some 1%N) (mkNum 2 None)) (mkArt (Some 1%N) (mkNum 5 (Some Gy)))) = lit "1.2-1.5gy" /\
  range_of (fun x => article_ok x = true) (mkRange (mkArt (Some 1%N) (mkNum 2 None)) (mkArt (Some 1%N) (mkNum 5 (Some Gy)))) /\
  act_ok (mkAct (-5) 70000) = true /\ act_show_compact (mkAct (-5) 70000) = lit "-5.70000".
Proof. repeat split; vm_compute; reflexivity. Qed.

(** * C05 *)
Theorem C05_strict_total_orders :
  strict_total hic_eqb hic_cmp /\ strict_total numeric_eqb numeric_cmp /\
  strict_total article_eqb article_cmp /\ strict_total paragraph_eqb paragraph_cmp /\
  strict_total prefixed_eqb prefixed_cmp /\ strict_total act_eqb act_cmp.
Proof. exact c05_total. Qed.
Print Assumptions C05_strict_total_orders.
Theorem C05_legal_order :
  (forall x y, hic_ok x = true -> hic_ok y = true -> (hic_cmp x y = Lt <-> before x y)) /\
  (forall x y, numeric_ok x = true -> numeric_ok y = true -> (numeric_cmp x y = Lt <-> numeric_before x y)) /\
  (forall x y, article_ok x = true -> article_ok y = true -> (article_cmp x y = Lt <-> article_before x y)) /\
  (forall x y, prefixed_ok x = true -> prefixed_ok y = true -> (prefixed_cmp x y = Lt <-> prefixed_before x y)) /\
  (forall x y, paragraph_ok x = true -> paragraph_ok y = true -> (paragraph_cmp x y = Lt <-> match x, y with
     | Some a, Some b => numeric_before a b | None, Some _ => True | _, None => False end)) /\
  (forall x y, act_cmp x y = Lt <-> (act_year x < act_year y)%Z \/
     (act_year x = act_year y /\ (act_number x < act_number y)%Z)).
Proof. exact c05_legal. Qed.
Print Assumptions C05_legal_order.
Theorem C05_ranges : forall T (C : IdentCommon T), strict_total id_eqb id_cmp ->
  strict_total (@range_eqb T _) range_cmp /\
  (forall x y : range T, range_cmp x y = Lt <-> id_cmp (r_start x) (r_start y) = Lt \/
     (r_start x = r_start y /\ id_cmp (r_end x) (r_end y) = Lt)) /\
  (forall (r : range T) i, range_contains r i = true <->
     (r_start r = i \/ id_cmp (r_start r) i = Lt) /\ (i = r_end r \/ id_cmp i (r_end r) = Lt)).
Proof. exact c05_ranges. Qed.
Print Assumptions C05_ranges.
Example C05_ranges_example : strict_total (@id_eqb _ hic_common) id_cmp /\ strict_total (@id_eqb _ numeric_common) id_cmp /\ strict_total (@id_eqb _ article_common) id_cmp /\ strict_total (@id_eqb _ prefixed_common) id_cmp /\ range_contains (mkRange (Latin 97) (Latin 99)) (Latin 98) = true /\ range_contains (mkRange (Latin 97) (Latin 99)) Cs = false.
Proof.
  destruct c05_total as (A & B & C & _ & D & _). split; [exact A|]. split; [exact B|]. split; [exact C|]. split; [exact D|].
  split; reflexivity.
Qed.
Example C05_example : hic_cmp Cs (Latin 100) = Lt /\ hic_cmp (Latin 99) Cs = Lt /\
  numeric_cmp (mkNum 1 None) (mkNum 1 (Some (Latin 97))) = Lt /\
  numeric_cmp (mkNum 1 (Some (Latin 98))) (mkNum 2 None) = Lt /\
  article_cmp (mkArt (Some 1%N) (mkNum 99 None)) (mkArt (Some 2%N) (mkNum 1 None)) = Lt.
Proof. repeat split; vm_compute; reflexivity. Qed.

(** * C06 *)
Theorem C06_next_exact :
  (forall x y, hic_ok x = true -> hic_ok y = true -> (hic_next x y = true <-> follows x y)) /\
  (forall x y, numeric_ok x = true -> numeric_ok y = true ->
     (numeric_next x y = true <-> numeric_follows x y \/ (x = mkNum 0 None /\ n_num y = 65535%N))) /\
  (forall x y, article_ok x = true -> article_ok y = true ->
     (article_next x y = true <-> article_follows x y
      \/ (a_book x = a_book y /\ a_ident x = mkNum 0 None /\ n_num (a_ident y) = 65535%N)
      \/ (a_book x = Some 0%N /\ a_book y = Some 255%N /\ a_ident x = mkNum 1 None))) /\
  (forall x y, prefixed_ok x = true -> prefixed_ok y = true ->
     (prefixed_next x y = true <-> p_prefix x = p_prefix y /\ follows (p_chr x) (p_chr y))) /\
  (forall x y, paragraph_ok x = true -> paragraph_ok y = true ->
     (paragraph_next x y = true <-> exists a b, x = Some a /\ y = Some b /\
        (numeric_follows a b \/ (a = mkNum 0 None /\ n_num b = 65535%N)))).
Proof. exact c06_exact. Qed.
Print Assumptions C06_next_exact.
Theorem C06_next_is_later :
  (forall x y, hic_next x y = true -> hic_cmp y x = Lt) /\
  (forall x y, numeric_ok x = true -> numeric_ok y = true -> n_num x <> 0%N ->
     numeric_next x y = true -> numeric_cmp y x = Lt) /\
  (forall x y, article_ok x = true -> article_ok y = true -> n_num (a_ident x) <> 0%N -> a_book x <> Some 0%N ->
     article_next x y = true -> article_cmp y x = Lt) /\
  (forall x y, prefixed_next x y = true -> prefixed_cmp y x = Lt) /\
  (forall x y, paragraph_ok x = true -> paragraph_ok y = true -> (forall n, x = Some n -> n_num n <> 0%N) ->
     paragraph_next x y = true -> paragraph_cmp y x = Lt).
Proof. exact c06_forward. Qed.
Print Assumptions C06_next_is_later.
Theorem C06_next_irreflexive :
  (forall x, hic_next x x = false) /\ (forall x, numeric_ok x = true -> numeric_next x x = false) /\
  (forall x, article_ok x = true -> article_next x x = false) /\
  (forall x, prefixed_next x x = false) /\
  (forall x, paragraph_ok x = true -> paragraph_next x x = false).
Proof. exact c06_irrefl. Qed.
Print Assumptions C06_next_irreflexive.
Theorem C06_next_wraps_refuted :
  (exists x y, numeric_ok x = true /\ numeric_ok y = true /\ numeric_next x y = true /\ numeric_cmp x y = Lt) /\
  (exists x y, article_ok x = true /\ article_ok y = true /\ article_next x y = true /\ article_cmp x y = Lt).
Proof. exact c06_wrap. Qed.
Print Assumptions C06_next_wraps_refuted.
Example C06_example : hic_next (Latin 114) (Latin 112) = true /\ hic_next (Latin 100) Cs = true /\
  hic_next (Latin 100) (Latin 99) = true /\ hic_next (Latin 100) (Latin 98) = false /\
  numeric_next (mkNum 8 None) (mkNum 7 (Some (Latin 120))) = true /\
  numeric_next (mkNum 7 (Some (Latin 97))) (mkNum 7 None) = true.
Proof. repeat split; vm_compute; reflexivity. Qed.

(** * C07 *)
Theorem C07_chain_sorted :
  (forall l, chain (fun y x => hic_next y x = true) l ->
     StronglySorted (fun x y => hic_cmp x y = Lt) l /\ NoDup l) /\
  (forall l, chain (fun y x => prefixed_next y x = true) l ->
     StronglySorted (fun x y => prefixed_cmp x y = Lt) l /\ NoDup l) /\
  (forall l, Forall (fun i => numeric_ok i = true) l -> chain (fun y x => numeric_next y x = true) l ->
     Forall (fun i => n_num i <> 0%N) l ->
     StronglySorted (fun x y => numeric_cmp x y = Lt) l /\ NoDup l) /\
  (forall l, Forall (fun i => paragraph_ok i = true) l -> chain (fun y x => paragraph_next y x = true) l ->
     Forall (fun i => forall n, i = Some n -> n_num n <> 0%N) l ->
     StronglySorted (fun x y => paragraph_cmp x y = Lt) l /\ NoDup l) /\
  (forall l, Forall (fun i => article_ok i = true) l -> chain (fun y x => article_next y x = true) l ->
     Forall (fun i => n_num (a_ident i) <> 0%N /\ a_book i <> Some 0%N) l ->
     StronglySorted (fun x y => article_cmp x y = Lt) l /\ NoDup l).
Proof. exact c07_sorted. Qed.
Print Assumptions C07_chain_sorted.
(** Starting from a "first" identifier no wrap-around is possible below these lengths. *)
Theorem C07_chain_from_first :
  (forall l, Forall (fun i => numeric_ok i = true) l -> chain (fun y x => numeric_next y x = true) l ->
     match l with x :: _ => numeric_first x = true | [] => True end -> (N.of_nat (List.length l) <= 65535)%N ->
     StronglySorted (fun x y => numeric_cmp x y = Lt) l /\ NoDup l) /\
  (forall l, Forall (fun i => article_ok i = true) l -> chain (fun y x => article_next y x = true) l ->
     match l with x :: _ => article_first x = true | [] => True end -> (N.of_nat (List.length l) <= 255)%N ->
     StronglySorted (fun x y => article_cmp x y = Lt) l /\ NoDup l).
Proof. exact c07_from_first. Qed.
Print Assumptions C07_chain_from_first.
Theorem C07_chain_wraps_refuted : exists l, Forall (fun i => article_ok i = true) l /\
  chain (fun y x => article_next y x = true) l /\
  match l with x :: _ => article_first x = true | [] => True end /\ ~ NoDup l.
Proof. exact c07_wrap. Qed.
Print Assumptions C07_chain_wraps_refuted.
Example C07_example :
  chain (fun y x => numeric_next y x = true)
    [mkNum 1 None; mkNum 2 None; mkNum 2 (Some (Latin 97)); mkNum 2 (Some (Latin 98)); mkNum 3 None] /\
  chain (fun y x => hic_next y x = true) [Latin 97; Latin 98; Latin 99; Cs; Latin 100; Latin 101].
Proof. split; apply chainb_chain; vm_compute; reflexivity. Qed.

(** * C52 *)
(** [rf] is the external [roman::from], assumed only to read standard numerals. *)
Theorem C52_act_display_roundtrip : forall rf pre post x, roman_from_reads rf ->
  (1000 <= act_year x <= 9999)%Z -> (1 <= act_number x <= 3999)%Z ->
  forallb (fun c => negb (is_digit c)) pre = true ->
  exists s, act_show x = Ok s /\ act_parse rf (pre ++ s ++ post) = Ok x.
Proof. exact c52_roundtrip. Qed.
Print Assumptions C52_act_display_roundtrip.
Theorem C52_act_display_panics_iff : forall x, act_show x = Panic <-> ~ (1 <= act_number x <= 3999)%Z.
Proof. exact act_show_panic_iff. Qed.
Print Assumptions C52_act_display_panics_iff.
Theorem C52_act_display_refuted : forall rf, exists s x, act_parse rf s = Ok x /\ act_show x = Panic.
Proof. exact c52_panic. Qed.
Print Assumptions C52_act_display_refuted.
Theorem C52_act_display_compact_refuted : exists s x, act_parse_compact s = Ok x /\ act_show x = Panic.
Proof. exact c52_panic_compact. Qed.
Print Assumptions C52_act_display_compact_refuted.
(** A reader satisfying the assumption exists. *)
Example C52_example_reader : roman_from_reads (fun s => Some (roman_read s)).
Proof. exact roman_read_reads. Qed.
Example C52_example : act_show (mkAct 2013 5) = Ok (lit "2013. évi V. törvény") /\
  act_parse (fun s => Some (roman_read s)) (lit "A 1994. évi XLIV. törvény.") = Ok (mkAct 1994 44).
Proof. split; vm_compute; reflexivity. Qed.
