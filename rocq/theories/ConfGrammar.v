(** Conformance of the grammar with data tests of the repository (tests/datatests/data_semantic_parser): the expected
    references, new abbreviations and special phrase, written as text. All 230 data tests were compared this way outside
    of this development; these are some of the short ones. *)
From Verif Require Import ModelGrammar.
Definition rs {T} (f : T -> str) (eqb : T -> T -> bool) (r : range T) : str :=
  if eqb (r_start r) (r_end r) then f (r_start r) else f (r_start r) ++ lit "~" ++ f (r_end r).
Definition o {T} (k : string) (f : T -> str) (x : option T) : str := match x with Some v => lit k ++ lit "=" ++ f v ++ lit " " | None => [] end.
Definition s_act (a : act_id) : str := act_show_compact a.
Definition s_art := rs article_show article_eqb.
Definition s_ref (r : reference) : str :=
  lit "{" ++ o "act" s_act (f_act r) ++ o "article" s_art (f_article r)
  ++ o "paragraph" (rs numeric_show numeric_eqb) (f_paragraph r)
  ++ o "point" (fun p => match p with PtNum r => rs numeric_show numeric_eqb r | PtAlpha r => rs hic_show hic_eqb r end) (f_point r)
  ++ o "subpoint" (fun p => match p with SpNum r => rs numeric_show numeric_eqb r | SpAlpha r => rs prefixed_show prefixed_eqb r end) (f_subpoint r) ++ lit "}".
Definition s_par (p : sr_parent) : str := match p with
| SpPart i => lit "Part:" ++ numeric_show i | SpTitle i => lit "Title:" ++ numeric_show i | SpChapter i => lit "Chapter:" ++ numeric_show i
| SpSubtitleId i => lit "SubtitleId:" ++ numeric_show i | SpSubtitleRange r => lit "SubtitleRange:" ++ rs numeric_show numeric_eqb r | SpSubtitleTitle t => lit "SubtitleTitle:" ++ t end.
Definition s_el (p : sr_element) : str := match p with
| SePart i => lit "Part:" ++ numeric_show i | SeTitle i => lit "Title:" ++ numeric_show i | SeChapter i => lit "Chapter:" ++ numeric_show i
| SeSubtitleId i => lit "SubtitleId:" ++ numeric_show i | SeSubtitleRange r => lit "SubtitleRange:" ++ rs numeric_show numeric_eqb r | SeSubtitleTitle t => lit "SubtitleTitle:" ++ t
| SeSubtitleAfterArticle a => lit "SubtitleAfterArticle:" ++ article_show a
| SeSubtitleBeforeArticle a => lit "SubtitleBeforeArticle:" ++ article_show a
| SeSubtitleBeforeArticleInclusive a => lit "SubtitleBeforeArticleInclusive:" ++ article_show a
| SeSubtitleUnknown => lit "SubtitleUnknown"
| SeArticle r => lit "Article:" ++ s_art r end.
Definition b (x : bool) : str := if x then lit "true" else lit "false".
Definition s_sr (s : struct_ref) : str := lit "<" ++ o "act" s_act (sr_act s) ++ o "book" numeric_show (sr_book s) ++ o "parent" s_par (sr_par s) ++ o "structural_element" s_el (Some (sr_elem s)) ++ o "title_only" b (Some (sr_title_only s)) ++ lit ">".
Definition s_date (d : date) : str := show_Z (d_year d) ++ lit "-" ++ show_N (d_month d) ++ lit "-" ++ show_N (d_day d).
Definition s_ta (r : ta_ref) : str := match r with
| TaSae r p => lit "SAE" ++ s_ref r ++ (match p with PartAll => lit "All" | PartIntroOnly => lit "IntroOnly" | PartWrapUpOnly => lit "WrapUpOnly" end)
| TaStructural r => s_sr r | TaArticleTitle r => lit "ArticleTitle" ++ s_ref r end.
Definition s_ph (p : phrase) : str := match p with
| PhBlock x => lit "BlockAmendment " ++ s_ref (ba_position x) ++ b (ba_pure x)
| PhStructural x => lit "StructuralBlockAmendment " ++ s_sr (sba_position x) ++ b (sba_pure x)
| PhRepeal l => lit "Repeal " ++ flat_map (fun r => match r with RrRef r => s_ref r | RrStructural r => s_sr r end) l
| PhText l => lit "TextAmendment " ++ flat_map (fun t => s_ta (ta_reference t) ++ lit "[" ++ ta_from t ++ lit "|" ++ ta_to t ++ lit "]") l
| PhEnforcement e => lit "EnforcementDate " ++ flat_map s_ref (ed_positions e) ++ flat_map s_sr (ed_structural e) ++ b (ed_default e)
   ++ (match ed_date e with EdDate d => lit "Date:" ++ s_date d | EdDaysAfter n => lit "DaysAfter:" ++ show_N n
       | EdDayInMonth m d => lit "DayInMonth:" ++ (match m with Some m => show_N m | None => [] end) ++ lit "/" ++ show_N d end)
   ++ o "inline_repeal" s_date (ed_repeal e) end.
Definition rv (c : char) : Z := if N.eqb c 73 then 1%Z else if N.eqb c 86 then 5%Z else if N.eqb c 88 then 10%Z else if N.eqb c 76 then 50%Z else if N.eqb c 67 then 100%Z else if N.eqb c 68 then 500%Z else if N.eqb c 77 then 1000%Z else 0%Z.
Fixpoint rfl (s : str) : Z := match s with [] => 0%Z | a :: s' => match s' with c :: _ => if (rv a <? rv c)%Z then (rfl s' - rv a)%Z else (rfl s' + rv a)%Z | [] => rv a end end.
Definition rf (s : str) : option Z := let z := rfl s in match roman_to z with Some t => if str_eqb t s then Some z else None | None => None end.
Definition s_si (i : sem_info) : str :=
  flat_map (fun r => s_ref (o_ref r)) (si_outgoing i) ++ [10%N]
  ++ flat_map (fun p => fst p ++ lit "=" ++ s_act (snd p) ++ lit ";") (si_abbrevs i) ++ [10%N]
  ++ match si_phrase i with Some p => s_ph p | None => lit "None" end.
Definition run (ab : list (str * act_id)) (t : str) : str :=
  match extract_semantic_info rf grammar_parse t (mkAdder [] [] (cache_from (map_of ab))) with
  | (_, Ok i) => s_si i | (_, Err) => lit "ERR" | (_, Panic) => lit "PANIC" end.
(** ref_only/corner_2.yml *)
Example ref_only_corner_2 : run [] (lit "A 2006. évi X. törvény 25 §-a.") = lit "{act=2006.10 }" ++ [10; 10]%N ++ lit "None".
Proof. vm_compute. reflexivity. Qed.
(** ref_only/abbrev_1.yml *)
Example ref_only_abbrev_1 : run [(lit "Gyvt.", mkAct 1997 31)] (lit "A Gyvt. 5. § ny) pontja alapján...") = lit "{act=1997.31 }{act=1997.31 article=5 point=ny }" ++ [10; 10]%N ++ lit "None".
Proof. vm_compute. reflexivity. Qed.
(** enforcement_date/date_1.yml *)
Example enforcement_date_date_1 : run [] (lit "E törvény 2013. július 1-jén lép hatályba.") = lit "" ++ [10; 10]%N ++ lit "EnforcementDate trueDate:2013-7-1".
Proof. vm_compute. reflexivity. Qed.
(** enforcement_date/relative_2.yml *)
Example enforcement_date_relative_2 : run [] (lit "Ez a törvény kihirdetését követő napon lép hatályba.") = lit "" ++ [10; 10]%N ++ lit "EnforcementDate trueDaysAfter:1".
Proof. vm_compute. reflexivity. Qed.
(** repeal/simple_3.yml *)
Example repeal_simple_3 : run [(lit "Iktv.", mkAct 2012 142)] (lit "Nem lép hatályba az Iktv. 116. § f) pontja.") = lit "{act=2012.142 }{act=2012.142 article=116 point=f }" ++ [10; 10]%N ++ lit "Repeal {act=2012.142 article=116 point=f }".
Proof. vm_compute. reflexivity. Qed.
(** block_amendment/ba_5.yml *)
Example block_amendment_ba_5 : run [(lit "Eht.", mkAct 2003 100)] (lit "Az Eht. 188. §-a a következő 31/a. ponttal egészül ki:") = lit "{act=2003.100 }{act=2003.100 article=188 point=31a }" ++ [10; 10]%N ++ lit "BlockAmendment {act=2003.100 article=188 point=31a }true".
Proof. vm_compute. reflexivity. Qed.
(** block_amendment/ba_2.yml *)
Example block_amendment_ba_2 : run [(lit "Tv.", mkAct 2042 69)] (lit "A Tv. 1. § 3. pontja helyébe a következő rendelkezés lép:") = lit "{act=2042.69 }{act=2042.69 article=1 point=3 }" ++ [10; 10]%N ++ lit "BlockAmendment {act=2042.69 article=1 point=3 }false".
Proof. vm_compute. reflexivity. Qed.
(** structural_block_amendment/sba_19.yml *)
Example structural_block_amendment_sba_19 : run [(lit "Szt.", mkAct 2000 100)] (lit "Az Szt. a következő VI/A. Fejezettel egészül ki:") = lit "{act=2000.100 }" ++ [10; 10]%N ++ lit "StructuralBlockAmendment <act=2000.100 structural_element=Chapter:6a title_only=false >true".
Proof. vm_compute. reflexivity. Qed.
(** structural_block_amendment/chapter_replacement.yml *)
Example structural_block_amendment_chapter_replacement : run [(lit "Btk.", mkAct 2012 100)] (lit "A Btk. XXIV. Fejezete helyébe a következő fejezet lép:") = lit "{act=2012.100 }" ++ [10; 10]%N ++ lit "StructuralBlockAmendment <act=2012.100 structural_element=Chapter:24 title_only=false >false".
Proof. vm_compute. reflexivity. Qed.
(** article_title_amendment/atl_1.yml *)
Example article_title_amendment_atl_1 : run [(lit "Ptk.", mkAct 2013 5)] (lit "A Ptk. 6:534. § címe az „életviszonyok” szövegrész helyett az „értékviszonyok” szöveggel lép hatályba.") = lit "{act=2013.5 }{act=2013.5 article=6:534 }" ++ [10; 10]%N ++ lit "TextAmendment ArticleTitle{act=2013.5 article=6:534 }[életviszonyok|értékviszonyok]".
Proof. vm_compute. reflexivity. Qed.
(** text_amendment/with_structural_3.yml *)
Example text_amendment_with_structural_3 : run [(lit "Fmhtv.", mkAct 2009 50)] (lit "A Fmhtv. 1. §-át megelőző alcím-címében a „Polgári” szövegrész helyébe a „polgári” szöveg lép.") = lit "{act=2009.50 }{act=2009.50 article=1 }" ++ [10; 10]%N ++ lit "TextAmendment <act=2009.50 structural_element=SubtitleBeforeArticle:1 title_only=false >[Polgári|polgári]".
Proof. vm_compute. reflexivity. Qed.
(** text_amendment/ptk_1.yml *)
Example text_amendment_ptk_1 : run [(lit "Ptk.", mkAct 2013 5)] (lit "A Ptk. 7:43. § (3) bekezdése a „Semmis” szövegrész helyett az „Érvénytelen” szöveggel lép hatályba.") = lit "{act=2013.5 }{act=2013.5 article=7:43 paragraph=3 }" ++ [10; 10]%N ++ lit "TextAmendment SAE{act=2013.5 article=7:43 paragraph=3 }All[Semmis|Érvénytelen]".
Proof. vm_compute. reflexivity. Qed.
