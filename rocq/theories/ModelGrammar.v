(** Model of hun_law_grammar/grammar.ebnf and src/lib.rs: the parser which peginator generates from the grammar.
    No proofs in this file.

    What peginator does is modelled by the functions of the first part:
    - rules are tried in order at a place of the text, the first match of a choice counts (PEG);
    - in a rule without [@no_skip_ws], ASCII white space is skipped before every literal, range, rule call and [$];
    - [@position] gives the byte range from the place where the rule was called (after the skipping by the caller) to
      the end of the last token; [@string] gives the text of that range;
    - [@memoize] keeps the first result of a rule for each place of the text, even though [@check(store_abbreviation)]
      may have added an abbreviation since then;
    - [@check] and [@extern] functions change the state even when the rule containing them fails later.
    A loop which does not end (its body matches without consuming) is the value [Panic].
    Parts of the result which nobody looks at (attachments, quotes and other tokens) are left out. *)
From Verif Require Export ModelSem.

(** ** The generated parser: places, state and results *)
Record cur := mkCur { cu_off : N; cu_rest : str }.
(** The known abbreviations (lib.rs:23-26) and the memoized results of ActTitle and AnyStructuralReference *)
Record glob := mkGlob {
  gl_known : list str;
  gl_titles : list (N * outcome (unit * cur));
  gl_structs : list (N * outcome (g_any_struct * cur)) }.
Definition parser (A : Type) : Type := cur -> glob -> outcome (A * cur) * glob.

Definition ret {A} (a : A) : parser A := fun c g => (Ok (a, c), g).
Definition pbind {A B} (p : parser A) (f : A -> parser B) : parser B :=
  fun c g => match p c g with (Ok (a, c'), g') => f a c' g' | (Err, g') => (Err, g') | (Panic, g') => (Panic, g') end.
Declare Scope peg_scope.
Delimit Scope peg_scope with peg.
Notation "x <- p ;; q" := (pbind p (fun x => q)) (at level 61, p at next level, right associativity) : peg_scope.
Notation "p ;; q" := (pbind p (fun _ => q)) (at level 61, right associativity) : peg_scope.
(** [a | b] *)
Definition alt {A} (p q : parser A) : parser A := fun c g => match p c g with (Err, g') => q c g' | r => r end.
Notation "p <|> q" := (alt p q) (at level 60, right associativity) : peg_scope.
Local Open Scope peg_scope.
(** [[a]] *)
Definition opt {A} (p : parser A) : parser (option A) :=
  fun c g => match p c g with
             | (Ok (a, c'), g') => (Ok (Some a, c'), g')
             | (Err, g') => (Ok (None, c), g')
             | (Panic, g') => (Panic, g')
             end.
(** [{a}]: at most as many times as there are characters *)
Fixpoint many_n {A} (n : nat) (p : parser A) : parser (list A) :=
  fun c g => match n with
             | O => (Panic, g)
             | S n' =>
                 match p c g with
                 | (Ok (a, c'), g') =>
                     match many_n n' p c' g' with
                     | (Ok (l, c''), g'') => (Ok (a :: l, c''), g'')
                     | (Err, g'') => (Err, g'')
                     | (Panic, g'') => (Panic, g'')
                     end
                 | (Err, g') => (Ok ([], c), g')
                 | (Panic, g') => (Panic, g')
                 end
             end.
Definition many {A} (p : parser A) : parser (list A) := fun c g => many_n (S (List.length (cu_rest c))) p c g.
(** [{a}+] *)
Definition many1 {A} (p : parser A) : parser (list A) := x <- p ;; l <- many p ;; ret (x :: l).
(** [!a], [&a] *)
Definition not_ahead {A} (p : parser A) : parser unit :=
  fun c g => match p c g with (Ok _, g') => (Err, g') | (Err, g') => (Ok (tt, c), g') | (Panic, g') => (Panic, g') end.
Definition ahead {A} (p : parser A) : parser unit :=
  fun c g => match p c g with (Ok _, g') => (Ok (tt, c), g') | (Err, g') => (Err, g') | (Panic, g') => (Panic, g') end.
Definition void {A} (p : parser A) : parser unit := p ;; ret tt.
(** A literal *)
Definition advance (s rest : str) (c : cur) : cur := mkCur (cu_off c + utf8_len s)%N rest.
Definition tok_str (s : str) : parser unit :=
  fun c g => match strip_prefix s (cu_rest c) with Some r => (Ok (tt, advance s r c), g) | None => (Err, g) end.
Definition tok (s : string) : parser unit := tok_str (lit s).
(** A character with a property: ranges and [@char] rules *)
Definition chr_if (f : char -> bool) : parser unit :=
  fun c g => match cu_rest c with
             | x :: r => if f x then (Ok (tt, advance [x] r c), g) else (Err, g)
             | [] => (Err, g)
             end.
(** [char] *)
Definition any : parser unit := chr_if (fun _ => true).
(** [$] without the white space *)
Definition eoi : parser unit := fun c g => match cu_rest c with [] => (Ok (tt, c), g) | _ => (Err, g) end.
(** The rule Whitespace: ASCII white space *)
Definition is_ascii_ws (c : char) : bool := existsb (N.eqb c) [32; 9; 10; 12; 13]%N.
Definition ws : parser unit :=
  fun c g => let '(w, r) := span is_ascii_ws (cu_rest c) in (Ok (tt, advance w r c), g).
(** A rule call, and a literal, in a rule which skips white space *)
Definition sk {A} (p : parser A) : parser A := ws ;; p.
Definition T (s : string) : parser unit := sk (tok s).
(** [@string] and [@position] *)
Definition sliced {A} (p : parser A) : parser str :=
  fun c g => match p c g with
             | (Ok (_, c'), g') => (Ok (firstn (List.length (cu_rest c) - List.length (cu_rest c')) (cu_rest c), c'), g')
             | (Err, g') => (Err, g')
             | (Panic, g') => (Panic, g')
             end.
Definition located {A} (p : parser (pos -> A)) : parser A :=
  fun c g => match p c g with
             | (Ok (f, c'), g') => (Ok (f (ModelSem.mkPos (cu_off c) (cu_off c')), c'), g')
             | (Err, g') => (Err, g')
             | (Panic, g') => (Panic, g')
             end.
(** [@memoize] *)
Fixpoint memo_get {R} (k : N) (l : list (N * R)) : option R :=
  match l with [] => None | (k', r) :: l' => if (k =? k')%N then Some r else memo_get k l' end.
Definition memo_title (p : parser unit) : parser unit :=
  fun c g => match memo_get (cu_off c) (gl_titles g) with
             | Some r => (r, g)
             | None => let '(r, g') := p c g in (r, mkGlob (gl_known g') ((cu_off c, r) :: gl_titles g') (gl_structs g'))
             end.
Definition memo_struct (p : parser g_any_struct) : parser g_any_struct :=
  fun c g => match memo_get (cu_off c) (gl_structs g) with
             | Some r => (r, g)
             | None => let '(r, g') := p c g in (r, mkGlob (gl_known g') (gl_titles g') ((cu_off c, r) :: gl_structs g'))
             end.

(** ** Simple tokens *)
Definition in_range (a b c : char) : bool := ((a <=? c) && (c <=? b))%N.
(** grammar.ebnf:466-467 HunLower *)
Definition hun_lower_extra : str := lit "éáőúöüóíű".
(** grammar.ebnf:468-469 HunUpper *)
Definition hun_upper_extra : str := lit "ÉÁŐÚÖÜÓÍŰ".
(** grammar.ebnf:485-486 RomanNumeralChar *)
Definition roman_chars : str := lit "IVXLCDM".
(** grammar.ebnf:521-522 Dash *)
Definition dash_chars : str := lit "−–-".
(** grammar.ebnf:466-467 HunLower *)
Definition is_hun_lower (c : char) : bool := in_range 97 122 c || existsb (N.eqb c) hun_lower_extra.
(** grammar.ebnf:468-469 HunUpper *)
Definition is_hun_upper (c : char) : bool := in_range 65 90 c || existsb (N.eqb c) hun_upper_extra.
(** grammar.ebnf:464-465 HunAny *)
Definition is_hun_any (c : char) : bool := is_hun_lower c || is_hun_upper c.
(** grammar.ebnf:466-467 HunLower *)
Definition hun_lower : parser unit := chr_if is_hun_lower.
(** grammar.ebnf:464-465 HunAny *)
Definition hun_any : parser unit := chr_if is_hun_any.
(** grammar.ebnf:521-522 Dash *)
Definition dash : parser unit := chr_if (fun c => existsb (N.eqb c) dash_chars).
(** 'A'..'Z', for instance grammar.ebnf:92, 182 *)
Definition upper_az : parser unit := chr_if (in_range 65 90).
(** 'a'..'z', grammar.ebnf:135, 166 *)
Definition lower_az : parser unit := chr_if (in_range 97 122).
(** grammar.ebnf:471-472 Az *)
Definition g_az : parser unit := tok "a" ;; opt (tok "z") ;; tok " ".
(** grammar.ebnf:473-474 AzUpper *)
Definition g_az_upper : parser unit := tok "A" ;; opt (tok "z") ;; tok " ".
(** grammar.ebnf:475-476 AzAny *)
Definition g_az_any : parser unit := g_az <|> g_az_upper.
(** grammar.ebnf:479-481 Number *)
Definition g_number : parser str := sliced (many1 (chr_if (in_range 48 57))).
(** grammar.ebnf:478 NumberWithDot *)
Definition number_with_dot : parser str := n <- sk g_number ;; T "." ;; ret n.
(** grammar.ebnf:482-484 Roman *)
Definition g_roman : parser str := sliced (many1 (chr_if (fun c => existsb (N.eqb c) roman_chars))).
(** grammar.ebnf:488-489 Word *)
Definition word_char : parser unit := chr_if (fun c => is_hun_any c || (c =? 45)%N).
(** grammar.ebnf:488-489 Word *)
Definition g_word : parser unit := void (many1 word_char).
(** grammar.ebnf:491-492 CapitalizedWord *)
Definition capitalized_word : parser unit := chr_if is_hun_upper ;; void (many word_char).
(** grammar.ebnf:462 AnyToken *)
Definition any_token : parser unit := sk g_word <|> void (sk g_number) <|> sk any.
(** One of several literals, without skipping *)
Fixpoint one_of (l : list string) : parser unit :=
  match l with [] => fun _ g => (Err, g) | s :: l' => tok s <|> one_of l' end.
(** One of several literals, in a rule which skips white space *)
Fixpoint one_of_sk (l : list string) : parser unit :=
  match l with [] => fun _ g => (Err, g) | s :: l' => T s <|> one_of_sk l' end.
(** grammar.ebnf:496-499 Month *)
Definition g_month : parser str := sliced (one_of
  ["január"; "február"; "március"; "április"; "május"; "június"; "július"; "augusztus"; "szeptember"; "október";
   "november"; "december"]%string).
(** grammar.ebnf:494 Date *)
Definition g_date_rule : parser g_date :=
  y <- sk g_number ;; T "." ;; m <- sk g_month ;; d <- sk g_number ;;
  one_of_sk ["-án"; "-jén"; "-én"; ". napján"]%string ;; ret (mkGDate y m d).
(** grammar.ebnf:501-508 HungarianOrdinal *)
Definition hungarian_ordinal : parser str := sliced (one_of
  ["első"; "második"; "harmadik"; "negyedik"; "ötödik"; "hatodik"; "hetedik"; "nyolcadik"; "kilencedik"; "tizedik";
   "tizenegyedik"; "tizenkettedik"; "tizenharmadik"; "tizennegyedik"; "tizenötödik"; "tizenhatodik"; "tizenhetedik";
   "tizennyolcadik"; "tizenkilencedik"; "huszadik"; "harmincadik"; "negyvenedik"; "ötvenedik"; "hatvanadik";
   "hetvenedik"; "nyolcvanadik"; "kilencvenedik"]%string).
(** grammar.ebnf:510-519 HungarianOrdinalCapital *)
Definition hungarian_ordinal_capital : parser str := sliced (one_of
  ["Első"; "Második"; "Harmadik"; "Negyedik"; "Ötödik"; "Hatodik"; "Hetedik"; "Nyolcadik"; "Kilencedik"; "Tizedik";
   "Tizenegyedik"; "Tizenkettedik"; "Tizenharmadik"; "Tizennegyedik"; "Tizenötödik"; "Tizenhatodik"; "Tizenhetedik";
   "Tizennyolcadik"; "Tizenkilencedik";
   "ELSŐ"; "MÁSODIK"; "HARMADIK"; "NEGYEDIK"; "ÖTÖDIK"; "HATODIK"; "HETEDIK"; "NYOLCADIK"; "KILENCEDIK"; "TIZEDIK";
   "TIZENEGYEDIK"; "TIZENKETTEDIK"; "TIZENHARMADIK"; "TIZENNEGYEDIK"; "TIZENÖTÖDIK"; "TIZENHATODIK"; "TIZENHETEDIK";
   "TIZENNYOLCADIK"; "TIZENKILENCEDIK"]%string).

(** ** Quotes and lists *)
(** grammar.ebnf:160-161 QuoteInner *)
Definition quote_mark : parser unit := T "„" <|> T "”".
(** grammar.ebnf:160-161 QuoteInner *)
Definition unquoted : parser unit := void (many (not_ahead quote_mark ;; sk any)).
(** grammar.ebnf:160-161 QuoteInner; QuoteInner calls itself for quotes inside: [n] bounds the depth *)
Fixpoint quote_inner_n (n : nat) : parser unit :=
  match n with
  | O => fun _ g => (Panic, g)
  | S n' => unquoted ;; void (many (T "„" ;; sk (quote_inner_n n') ;; T "”" ;; unquoted))
  end.
(** grammar.ebnf:160-161 QuoteInner *)
Definition quote_inner : parser str := fun c g => sliced (quote_inner_n (S (List.length (cu_rest c)))) c g.
(** grammar.ebnf:158 Quote *)
Definition g_quote : parser str := T "„" ;; q <- sk quote_inner ;; T "”" ;; ret q.
(** grammar.ebnf:163 ListSeparator *)
Definition list_separator : parser unit :=
  ((opt (T "," <|> T ";") ;; one_of_sk ["és"; "valamint"; "illetve"; "vagy"]%string) <|> T "," <|> T ";") ;; void (opt (sk g_az)).
(** grammar.ebnf:165-166 SuffixChar *)
Definition suffix_char : parser unit := one_of ["cs"; "dz"; "gy"; "ly"; "ny"; "sz"; "ty"; "zs"]%string <|> lower_az.
(** A word of letters with a fixed beginning, without skipping *)
Definition suffixed (s : string) : parser unit := tok s ;; void (many hun_lower).
(** [x { ListSeparator x }] *)
Definition sep_list {A} (p : parser A) : parser (list A) :=
  x <- sk p ;; l <- many (sk list_separator ;; sk p) ;; ret (x :: l).

(** ** References *)
(** grammar.ebnf:78-79 ActSuffix *)
Definition act_suffix : parser unit := (tok "törvén" ;; void (many1 hun_lower)) <|> tok "tv.".
(** grammar.ebnf:76-77 ActId *)
Definition g_act_id_rule : parser g_act_id := located (
  y <- sk g_number ;; T "." ;; T "évi" ;; n <- sk g_roman ;; T "." ;; sk act_suffix ;; ret (mkGAct y n)).
(** grammar.ebnf:72-74 PotentialAbbreviation *)
Definition potential_abbreviation : parser str := sliced (many1 (not_ahead (tok ")") ;; any)).
(** lib.rs:35-40 store_abbreviation; it is called on the result *)
Definition checked (p : parser g_act_id_now) : parser g_act_id_now :=
  fun c g => match p c g with
             | (Ok (n, c'), g') => (Ok (n, c'), mkGlob (store_abbreviation n (gl_known g')) (gl_titles g') (gl_structs g'))
             | r => r
             end.
(** grammar.ebnf:65-70 ActIdWithFromNowOn *)
Definition act_id_with_from_now_on : parser g_act_id_now := checked (
  a <- sk g_act_id_rule ;;
  o <- opt (T "(" ;; T "a" ;; T "továbbiakban" ;; opt (T ":") ;;
            x <- ((sk g_act_id_rule ;; ret None) <|> (s <- sk potential_abbreviation ;; ret (Some s))) ;;
            T ")" ;; ret x) ;;
  ret (mkGNow a (match o with Some x => x | None => None end))).
(** grammar.ebnf:153-154 AbbreviationContent; lib.rs:42-52 parse_abbreviation *)
Definition abbreviation_content : parser str :=
  fun c g => match parse_abbreviation (gl_known g) (cu_rest c) with
             | Some k => (Ok (k, advance k (skipn (List.length k) (cu_rest c)) c), g)
             | None => (Err, g)
             end.
(** grammar.ebnf:150-151 Abbreviation *)
Definition g_abbreviation : parser g_act_ref := located (s <- sk abbreviation_content ;; ret (GAbbrev s)).
(** grammar.ebnf:57-60 ActReference *)
Definition act_reference : parser g_act_ref :=
  (n <- sk act_id_with_from_now_on ;; ret (GActId n)) <|> sk g_abbreviation.

(** grammar.ebnf:93-94 ArticleSuffix *)
Definition article_suffix : parser unit := (tok "§-" ;; void (many1 hun_lower)) <|> tok "§".
(** grammar.ebnf:90-92 ArticleId *)
Definition g_article_id : parser str := sliced (g_number ;; opt (tok "/" ;; upper_az)).
(** grammar.ebnf:83-89 ArticleReferencePart *)
Definition article_reference_part : parser g_art_part := located (
  b <- opt (n <- sk g_number ;; T ":" ;; ret n) ;;
  ((s <- sk g_article_id ;; opt (T "." ;; sk article_suffix) ;; sk dash ;; opt (sk g_number ;; T ":") ;;
    e <- sk g_article_id ;; T "." ;; ret (mkGArt b (Some s) (Some e) None))
   <|> (i <- sk g_article_id ;; T "." ;; ret (mkGArt b None None (Some i))))).
(** grammar.ebnf:82 ArticleReference *)
Definition article_reference : parser (list g_art_part) :=
  l <- sep_list article_reference_part ;; sk article_suffix ;; ret l.
(** grammar.ebnf:96-97 SingleArticleReference *)
Definition single_article_reference : parser g_single := located (
  p <- sk article_reference_part ;; sk article_suffix ;; ret (mkGSingle p)).

(** The common form of the reference parts of grammar.ebnf:101-102, 111-112, 121-122, 131-132, 141-142 *)
Definition range_part (start id : parser str) (sep last : parser unit) : parser g_part := located (
  (s <- start ;; sep ;; e <- id ;; last ;; ret (mkGPart (Some s) (Some e) None))
  <|> (i <- id ;; last ;; ret (mkGPart None None (Some i)))).
(** grammar.ebnf:103-105 ParagraphId *)
Definition paragraph_id_rule : parser str := sliced (g_number ;; opt suffix_char).
(** grammar.ebnf:101-102 ParagraphReferencePart *)
Definition paragraph_reference_part : parser g_part :=
  range_part (T "(" ;; sk paragraph_id_rule) (T "(" ;; sk paragraph_id_rule) (T ")" ;; sk dash) (T ")").
(** grammar.ebnf:100 ParagraphReference, 106-107 ParagraphSuffix *)
Definition paragraph_reference : parser (list g_part) :=
  l <- sep_list paragraph_reference_part ;; sk (suffixed "bekezdés") ;; ret l.
(** grammar.ebnf:113-115 AlphabeticPointId *)
Definition alpha_point_id : parser str := sliced suffix_char.
(** grammar.ebnf:111-112 AlphabeticPointReferencePart *)
Definition alpha_point_part : parser g_part :=
  range_part (sk alpha_point_id) (sk alpha_point_id) (opt (T ")") ;; sk dash) (T ")").
(** grammar.ebnf:110 AlphabeticPointReference, 116-117 AlphabeticPointSuffix *)
Definition alpha_point_reference : parser (list g_part) :=
  l <- sep_list alpha_point_part ;; sk (suffixed "pont") ;; ret l.
(** grammar.ebnf:123-125 NumericPointId *)
Definition num_point_id : parser str := sliced (g_number ;; opt (opt (tok "/") ;; suffix_char)).
(** grammar.ebnf:121-122 NumericPointReferencePart *)
Definition num_point_part : parser g_part := range_part (sk num_point_id) (sk num_point_id) (sk dash) (T ".").
(** grammar.ebnf:120 NumericPointReference, 126-127 NumericPointSuffix *)
Definition num_point_reference : parser (list g_part) :=
  l <- sep_list num_point_part ;; sk (suffixed "pont") ;; ret l.
(** grammar.ebnf:133-135 AlphabeticSubpointId *)
Definition alpha_subpoint_id : parser str := sliced (lower_az ;; opt lower_az).
(** grammar.ebnf:131-132 AlphabeticSubpointReferencePart *)
Definition alpha_subpoint_part : parser g_part :=
  range_part (sk alpha_subpoint_id) (sk alpha_subpoint_id) (T ")" ;; sk dash) (T ")").
(** grammar.ebnf:130 AlphabeticSubpointReference, 136-137 AlphabeticSubpointSuffix *)
Definition alpha_subpoint_reference : parser (list g_part) :=
  l <- sep_list alpha_subpoint_part ;; sk (suffixed "alpont") ;; ret l.
(** grammar.ebnf:141-142 NumericSubpointReferencePart, 143-145 NumericSubpointId *)
Definition num_subpoint_part : parser g_part := range_part (sk (sliced g_number)) (sk (sliced g_number)) (sk dash) (T ".").
(** grammar.ebnf:140 NumericSubpointReference, 146-147 NumericSubpointSuffix *)
Definition num_subpoint_reference : parser (list g_part) :=
  l <- sep_list num_subpoint_part ;; sk (suffixed "alpont") ;; ret l.

(** Numeric and alphabetic points or subpoints: one of the two *)
Definition two_kinds : Type := option (list g_part) * option (list g_part).
(** No field set, grammar.ebnf:53-55 *)
Definition no_kind : two_kinds := (None, None).
(** grammar.ebnf:54 ReferenceWithPoint *)
Definition points_of : parser two_kinds :=
  (l <- sk alpha_point_reference ;; ret (None, Some l)) <|> (l <- sk num_point_reference ;; ret (Some l, None)).
(** grammar.ebnf:55 ReferenceWithSubpoint *)
Definition subpoints_of : parser two_kinds :=
  (l <- sk alpha_subpoint_reference ;; ret (None, Some l)) <|> (l <- sk num_subpoint_reference ;; ret (Some l, None)).
(** grammar.ebnf:54 ReferenceWithPoint *)
Definition reference_with_point : parser (two_kinds * two_kinds) :=
  p <- points_of ;; s <- opt subpoints_of ;; ret (p, match s with Some s => s | None => no_kind end).
(** An optional >ReferenceWithPoint, grammar.ebnf:47, 53 *)
Definition or_no_point (o : option (two_kinds * two_kinds)) : two_kinds * two_kinds :=
  match o with Some x => x | None => (no_kind, no_kind) end.
(** grammar.ebnf:53 ReferenceWithParagraph *)
Definition reference_with_paragraph : parser (list g_part * (two_kinds * two_kinds)) :=
  l <- sk paragraph_reference ;; o <- opt reference_with_point ;; ret (l, or_no_point o).
(** grammar.ebnf:44-51 Reference *)
Definition mk_ref (a : option (list g_art_part)) (p : option (list g_part)) (x : two_kinds * two_kinds) (q : pos) : g_ref :=
  mkGRef a p (fst (fst x)) (snd (fst x)) (fst (snd x)) (snd (snd x)) q.
(** grammar.ebnf:44-51 Reference *)
Definition g_reference : parser g_ref := located (
  (a <- sk article_reference ;; x <- reference_with_paragraph ;; ret (mk_ref (Some a) (Some (fst x)) (snd x)))
  <|> (a <- sk article_reference ;; o <- opt reference_with_point ;; ret (mk_ref (Some a) None (or_no_point o)))
  <|> (x <- reference_with_paragraph ;; ret (mk_ref None (Some (fst x)) (snd x)))
  <|> (x <- reference_with_point ;; ret (mk_ref None None x))
  <|> (x <- subpoints_of ;; ret (mk_ref None None (no_kind, x)))).
(** grammar.ebnf:40-42 CompoundReference *)
Definition compound_reference : parser g_compound :=
  (a <- opt (sk act_reference) ;; r <- sk g_reference ;; l <- many (sk list_separator ;; sk g_reference) ;;
   ret (mkGComp a (r :: l)))
  <|> (a <- sk act_reference ;; ret (mkGComp (Some a) [])).

(** ** Structural references *)
(** grammar.ebnf:170 AfterArticle *)
Definition after_article : parser g_single :=
  opt (sk g_az) ;; s <- sk single_article_reference ;; one_of_sk ["követően"; "követő"]%string ;; ret s.
(** grammar.ebnf:171 BeforeArticle *)
Definition before_article : parser g_single :=
  opt (sk g_az) ;; s <- sk single_article_reference ;; one_of_sk ["megelőzően"; "megelőző"; "előtti"]%string ;; ret s.
(** grammar.ebnf:172 ArticleRelativePosition *)
Definition article_relative_position : parser g_relative :=
  (s <- sk before_article ;; ret (GBefore s)) <|> (s <- sk after_article ;; ret (GAfter s)).
(** grammar.ebnf:183-184 SubtitleSuffix *)
Definition subtitle_suffix : parser unit := suffixed "alcím".
(** grammar.ebnf:187-188 SubtitleSuffixPossessive *)
Definition subtitle_suffix_possessive : parser unit :=
  one_of ["alcíme"; "alcímében"; "alcím címe"; "alcím címében"]%string ;; not_ahead hun_lower.
(** grammar.ebnf:175-176 RawTitle *)
Definition raw_title : parser str := sliced (
  sk capitalized_word ;;
  void (many (not_ahead (opt (T "című") ;; sk subtitle_suffix_possessive) ;; sk any_token))).
(** grammar.ebnf:173 SubtitleTitle *)
Definition subtitle_title : parser str :=
  t <- (sk g_quote <|> sk raw_title) ;; opt (T "című") ;; sk subtitle_suffix ;; ret t.
(** [[["/"] 'A'..'Z']] after a number, with skipping *)
Definition letter_suffix : parser unit := void (opt (opt (T "/") ;; sk upper_az)).
(** grammar.ebnf:181-182 SubtitleId *)
Definition subtitle_id : parser str := sliced (sk g_number ;; letter_suffix).
(** grammar.ebnf:179 SubtitleReferencePart *)
Definition subtitle_reference_part : parser g_subtitle_part :=
  (s <- sk subtitle_id ;; opt (T ".") ;; sk dash ;; e <- sk subtitle_id ;; T "." ;; ret (mkGSub (Some s) (Some e) None))
  <|> (i <- sk subtitle_id ;; T "." ;; ret (mkGSub None None (Some i))).
(** grammar.ebnf:178 SubtitlesReference *)
Definition subtitles_reference : parser (list g_subtitle_part) :=
  l <- sep_list subtitle_reference_part ;; sk subtitle_suffix ;; ret l.
(** grammar.ebnf:190 BookReference, 191-192 BookSuffix *)
Definition book_reference : parser str :=
  i <- sk hungarian_ordinal_capital ;; sk (one_of ["könyv"; "Könyv"; "KÖNYV"]%string ;; many hun_any) ;; ret i.
(** grammar.ebnf:194-195 ChapterId, 204-205 TitleId *)
Definition chapter_id : parser str := sliced (sk g_roman ;; letter_suffix).
(** grammar.ebnf:196 ChapterReference, 197-198 ChapterSuffix *)
Definition chapter_reference : parser str :=
  i <- sk chapter_id ;; T "." ;; sk (one_of ["fejezet"; "Fejezet"; "FEJEZET"]%string ;; many hun_any) ;; ret i.
(** grammar.ebnf:200 PartReference, 201-202 PartSuffix *)
Definition part_reference : parser str :=
  i <- sk hungarian_ordinal_capital ;; sk (one_of ["rész"; "Rész"; "RÉSZ"]%string ;; many hun_any) ;; ret i.
(** grammar.ebnf:206 TitleReference, 207-208 TitleSuffix *)
Definition title_reference : parser str :=
  i <- sk chapter_id ;; T "." ;; sk (one_of ["cím"; "Cím"; "CÍM"]%string ;; many hun_any) ;; ret i.
(** grammar.ebnf:210-211 TitleOnlyToken *)
Definition title_only_token : parser unit := (tok "címe" ;; void (opt (tok "i"))) <|> suffixed "címé".
(** grammar.ebnf:213-223 AnyStructuralReference *)
Definition any_structural_reference : parser g_any_struct := memo_struct (
  b <- opt (sk book_reference) ;;
  k <- ((i <- sk chapter_reference ;; ret (GChapter i))
        <|> (i <- sk part_reference ;; ret (GPart i))
        <|> (i <- sk title_reference ;; ret (GTitle i))
        <|> (p <- sk subtitle_reference_part ;; sk subtitle_suffix ;; ret (GSubtitlePart p))
        <|> (t <- sk subtitle_title ;; ret (GSubtitleTitle t))) ;;
  t <- opt (sk title_only_token) ;;
  ret (mkGAny b k (is_some t))).

(** ** Attachments *)
(** grammar.ebnf:231 AttachmentReferencePart *)
Definition attachment_reference_part : parser unit :=
  ((sk g_number ;; sk dash ;; void (sk g_number)) <|> void (sk g_number)) ;; T ".".
(** grammar.ebnf:232-233 AttachmentSuffix *)
Definition attachment_suffix : parser unit := opt (tok "számú ") ;; suffixed "melléklet".
(** grammar.ebnf:244-245 AttachmentJunkIdChar *)
Definition junk_id_char (c : char) : bool :=
  in_range 97 122 c || in_range 65 90 c || in_range 48 57 c || existsb (N.eqb c) dash_chars || existsb (N.eqb c) (lit ".()").
(** grammar.ebnf:241-242 AttachmentJunkId *)
Definition attachment_junk_id : parser unit := void g_quote <|> void (many1 (chr_if junk_id_char)).
(** grammar.ebnf:235-239 AttachmentJunk *)
Definition attachment_junk : parser unit :=
  (many1 (attachment_junk_id ;; opt (list_separator ;; opt ws)) ;; ws ;;
   one_of ["pont"; "alpont"; "rész"; "fejezet"; "sor"; "oszlop"]%string ;; void (many hun_lower))
  <|> suffixed "foglalt táblázat"
  <|> suffixed "cím".
(** grammar.ebnf:227-230 AttachmentReference *)
Definition attachment_reference : parser unit :=
  sep_list attachment_reference_part ;; sk attachment_suffix ;; void (many (sk attachment_junk ;; opt (sk list_separator))).

(** ** Lists of simple expressions *)
(** grammar.ebnf:34-38 AnySimpleExpression *)
Definition any_simple_expression : parser g_simple :=
  (sk g_quote ;; ret GOther) <|> (r <- sk compound_reference ;; ret (GCompound r))
  <|> (sk attachment_reference ;; ret GOther) <|> (sk any_token ;; ret GOther).
(** grammar.ebnf:31-32 ListOfSimpleExpressions *)
Definition list_of_simple_expressions : parser (list g_simple) := many1 (sk any_simple_expression).

(** ** Block amendments *)
(** grammar.ebnf:249 AmendmentCombinatorJunk *)
Definition combinator_junk : parser unit :=
  void (many (one_of_sk ["és"; "valamint"; "ezzel"; "egyidejűleg"]%string)).
(** grammar.ebnf:250-251 TheFollowing *)
Definition the_following : parser unit :=
  opt (one_of ["a "; "az "]%string) ;; (tok "következő" <|> suffixed "alábbi").
(** grammar.ebnf:253 InsertionToken *)
Definition insertion_token : parser unit := sk combinator_junk ;; sk the_following.
(** grammar.ebnf:255-273 InsertionReference *)
Definition mk_ins (a : list (list g_art_part)) (p : option (list g_part)) (x : two_kinds * two_kinds) (q : pos) : g_ins :=
  mkGIns a p (fst (fst x)) (snd (fst x)) (fst (snd x)) (snd (snd x)) q.
(** The optional group of grammar.ebnf:265 *)
Definition or_nothing (o : option (list (list g_art_part) * option (list g_part))) : list (list g_art_part) * option (list g_part) :=
  match o with Some a => a | None => ([], None) end.
(** grammar.ebnf:255-273 InsertionReference *)
Definition insertion_reference : parser g_ins := located (
  (sk insertion_token ;; a <- sk article_reference ;; p <- sk paragraph_reference ;;
   ret (mk_ins [a] (Some p) (no_kind, no_kind)))
  <|> (sk insertion_token ;; a <- sk article_reference ;; b <- opt (sk list_separator ;; sk article_reference) ;;
       ret (mk_ins (a :: match b with Some b => [b] | None => [] end) None (no_kind, no_kind)))
  <|> (a <- opt ((opt (sk g_az) ;; a <- sk article_reference ;; ret [a]) <|> (T "a §" ;; ret [])) ;;
       sk insertion_token ;; p <- sk paragraph_reference ;;
       ret (mk_ins (match a with Some a => a | None => [] end) (Some p) (no_kind, no_kind)))
  <|> (a <- opt ((opt (sk g_az) ;; a <- sk article_reference ;; p <- opt (sk paragraph_reference) ;; ret ([a], p))
                 <|> (T "a §" ;; ret ([], None)) <|> (T "a bekezdés" ;; ret ([], None))) ;;
       sk insertion_token ;; x <- points_of ;;
       ret (mk_ins (fst (or_nothing a)) (snd (or_nothing a)) (x, no_kind)))
  <|> (opt (sk g_az) ;; a <- sk article_reference ;; p <- opt (sk paragraph_reference) ;; x <- points_of ;;
       sk insertion_token ;; y <- subpoints_of ;; ret (mk_ins [a] p (x, y)))).
(** grammar.ebnf:276-277 SubtitleToken *)
Definition subtitle_token : parser unit :=
  tok "alcím" ;; opt (tok "-") ;; many hun_lower ;; void (opt (tok " " ;; suffixed "cím")).
(** grammar.ebnf:279-288 ReferenceWithSubtitle *)
Definition reference_with_subtitle : parser g_with_subtitle :=
  (a <- sk single_article_reference ;; T "és" ;; sk g_az ;; opt (one_of_sk ["azt"; "azokat"; "§-t"]%string) ;;
   T "megelőző" ;; sk subtitle_token ;; ret (mkGWs (Some a) None None))
  <|> (x <- ((i <- sk subtitle_id ;; T "." ;; sk subtitle_token ;; ret (Some i, None))
             <|> (q <- sk g_quote ;; sk subtitle_token ;; ret (None, Some q))
             <|> (sk subtitle_token ;; ret (None, None))) ;;
       a <- opt (T "és" ;; sk single_article_reference) ;;
       ret (mkGWs a (fst x) (snd x))).
(** grammar.ebnf:290-293 AmendmentSuffix *)
Definition amendment_suffix : parser unit :=
  (T "helyébe" ;; sk the_following ;; one_of_sk ["rendelkezés lép"; "rendelkezések lépnek"]%string)
  <|> (sk the_following ;; T "szöveggel lép hatályba")
  <|> (sk the_following ;; T "szerint módosul").
(** grammar.ebnf:295-296 AmendmentSuffixWithSubtitle *)
Definition amendment_suffix_with_subtitle : parser unit :=
  T "helyébe" ;; sk the_following ;; opt (T "rendelkezés és") ;; T "alcím" ;; opt (T "cím") ;; opt (T "és rendelkezés") ;;
  one_of_sk ["lép"; "lépnek"]%string.
(** grammar.ebnf:298-299 AmendmentSuffixWithStructural *)
Definition amendment_suffix_with_structural : parser unit :=
  T "helyébe" ;; sk the_following ;;
  opt ((T "alcím" ;; void (opt (T "cím"))) <|> T "cím" <|> T "fejezet" <|> T "Fejezet" <|> T "rész") ;; T "lép".
(** grammar.ebnf:301-303 InsertionSuffix *)
Definition insertion_suffix : parser unit := one_of_sk ["egészül ki"; "kiegészülve lép hatályba"]%string.
(** grammar.ebnf:308-310 ActTitle *)
Definition act_title : parser unit := memo_title (void (many (
  not_ahead (sk act_reference ;; not_ahead (one_of_sk ["hatálybalépés"; "módosítás"; "összefüggő"]%string)) ;; sk any_token))).
(** grammar.ebnf:312-323 BlockAmendment *)
Definition block_amendment : parser g_block :=
  sk g_az_any ;; sk act_title ;; a <- sk act_reference ;; s <- opt (sk any_structural_reference) ;;
  ((r <- sk g_reference ;; sk amendment_suffix ;; T ":" ;; ret (mkGBlock a s (Some r) None))
   <|> (i <- sk insertion_reference ;; sk insertion_suffix ;; T ":" ;; ret (mkGBlock a s None (Some i)))
   <|> (r <- sk g_reference ;; sk amendment_suffix ;; opt (T ",") ;; sk combinator_junk ;;
        opt (opt (sk g_az) ;; sk act_reference) ;; opt (sk any_structural_reference) ;;
        i <- sk insertion_reference ;; sk insertion_suffix ;; T ":" ;; ret (mkGBlock a s (Some r) (Some i)))).
(** grammar.ebnf:325-333 BlockAmendmentWithSubtitle *)
Definition block_amendment_with_subtitle : parser g_block_sub :=
  sk g_az_any ;; sk act_title ;; a <- sk act_reference ;; s <- opt (sk any_structural_reference) ;;
  p <- opt (sk article_relative_position) ;;
  ((r <- sk reference_with_subtitle ;; sk amendment_suffix ;; T ":" ;; ret (mkGBlockSub a s p r false))
   <|> (r <- sk reference_with_subtitle ;; sk amendment_suffix_with_subtitle ;; T ":" ;; ret (mkGBlockSub a s p r false))
   <|> (sk insertion_token ;; r <- sk reference_with_subtitle ;; sk insertion_suffix ;; T ":" ;;
        ret (mkGBlockSub a s p r true))).
(** grammar.ebnf:335-344 BlockAmendmentStructural *)
Definition structural_suffix : parser unit := sk amendment_suffix <|> sk amendment_suffix_with_structural.
(** grammar.ebnf:335-344 BlockAmendmentStructural *)
Definition block_amendment_structural : parser g_block_struct :=
  sk g_az_any ;; sk act_title ;; a <- sk act_reference ;; opt (sk article_relative_position) ;;
  ((p <- sk any_structural_reference ;; r <- sk any_structural_reference ;; structural_suffix ;; T ":" ;;
    ret (mkGBlockStruct a (Some p) r false None))
   <|> (r <- sk any_structural_reference ;; structural_suffix ;; T ":" ;; ret (mkGBlockStruct a None r false None))
   <|> (p <- sk any_structural_reference ;; sk insertion_token ;; r <- sk any_structural_reference ;; sk insertion_suffix ;;
        T ":" ;; ret (mkGBlockStruct a (Some p) r true None))
   <|> (b <- opt (sk book_reference) ;; sk insertion_token ;; r <- sk any_structural_reference ;; sk insertion_suffix ;;
        T ":" ;; ret (mkGBlockStruct a None r true b))).

(** ** Enforcement dates *)
(** The beginning of AfterPublication and DayInMonth, grammar.ebnf:350-351, 357-358 *)
Definition publication : parser unit :=
  opt (one_of_sk ["a"; "e törvény"]%string) ;; one_of_sk ["kihirdetését"; "kihirdetést"]%string ;; T "követő".
(** HungarianOrdinal | NumberWithDot, grammar.ebnf:352, 361 *)
Definition g_ordinal_rule : parser g_ordinal :=
  (s <- sk hungarian_ordinal ;; ret (GWord s)) <|> (s <- sk number_with_dot ;; ret (GNumber s)).
(** grammar.ebnf:349-354 AfterPublication *)
Definition after_publication : parser g_ed_date :=
  publication ;; d <- opt g_ordinal_rule ;; T "napon" ;; ret (GAfterPublication d).
(** grammar.ebnf:356-363 DayInMonth *)
Definition day_in_month : parser g_ed_date :=
  publication ;; m <- opt (sk hungarian_ordinal) ;; T "hónap" ;; d <- g_ordinal_rule ;; T "napján" ;; ret (GDayInMonth m d).
(** grammar.ebnf:365-370 InlineRepeal *)
Definition inline_repeal : parser g_date :=
  opt (T ",") ;; T "és" ;; opt (one_of_sk ["ez a"; "e"]%string ;; T "törvény") ;; d <- sk g_date_rule ;; opt (T "a") ;;
  T "hatályát veszti" ;; ret d.
(** grammar.ebnf:395 EnforcementDateReference *)
Definition enforcement_date_reference : parser g_ed_ref :=
  (r <- sk g_reference ;; ret (GEdRef r)) <|> (s <- sk any_structural_reference ;; ret (GEdStruct s))
  <|> (l <- sk subtitles_reference ;; ret (GEdSubtitles l)) <|> (sk attachment_reference ;; ret GEdAttachment).
(** grammar.ebnf:397-398 ExceptionJunk *)
Definition exception_junk : parser unit :=
  (one_of ["szerinti"; "foglalt"; "foglalt"]%string <|> ret tt) ;; many hun_lower ;; suffixed " kivétel".
(** grammar.ebnf:372-393 EnforcementDate *)
Definition enforcement_date : parser g_enforcement :=
  ((one_of_sk ["Ez a"; "E"]%string ;; T "törvény") <|> sk g_az_upper) ;;
  e <- opt (opt (sk dash) ;; T "a" ;; r <- sk g_reference ;; sk exception_junk ;; opt (sk dash) ;; ret r) ;;
  rs <- opt (x <- sk enforcement_date_reference ;; l <- many (sk list_separator ;; sk enforcement_date_reference) ;; ret (x :: l)) ;;
  opt (sk g_az) ;;
  d <- ((d <- sk g_date_rule ;; ret (GDate d)) <|> sk after_publication <|> sk day_in_month) ;;
  T "lép hatályba" ;; i <- opt (sk inline_repeal) ;; T "." ;;
  ret (mkGEd e (match rs with Some l => l | None => [] end) d i).

(** ** Text amendments and repeals *)
(** grammar.ebnf:447-448 TextAmendmentToken *)
Definition text_amendment_token : parser unit := suffixed "szöveg".
(** grammar.ebnf:403 ArticleTitleReference, 401-402 ArticleTitleToken *)
Definition article_title_reference : parser g_single :=
  a <- sk single_article_reference ;; sk (opt (tok "szakasz") ;; tok "cím" ;; many1 hun_lower) ;; ret a.
(** grammar.ebnf:408-413 ReferenceWithIntroWrapup, 405-406 its tokens *)
Definition reference_with_intro_wrapup : parser g_ta_ref :=
  r <- sk g_reference ;;
  t <- opt (t <- ((T "nyitó" ;; ret GIntro) <|> (T "záró" ;; ret GWrapUp)) ;; sk text_amendment_token ;; ret t) ;;
  ret (GTaRef r t).
(** grammar.ebnf:415 TextAmendmentSubtitleJunk *)
Definition text_amendment_subtitle_junk : parser unit :=
  (sk subtitle_title ;; void (opt (sk title_only_token))) <|> (opt (sk subtitle_reference_part) ;; sk subtitle_token).
(** grammar.ebnf:417-422 TextAmendmentStructuralReference *)
Definition text_amendment_structural : parser g_ta_ref :=
  (p <- sk any_structural_reference ;; r <- sk article_relative_position ;; sk text_amendment_subtitle_junk ;;
   ret (GTaStructural (Some p) (GTaRelative r)))
  <|> (p <- sk any_structural_reference ;; s <- sk any_structural_reference ;; ret (GTaStructural (Some p) (GTaStruct s)))
  <|> (r <- sk article_relative_position ;; sk text_amendment_subtitle_junk ;; ret (GTaStructural None (GTaRelative r)))
  <|> (s <- sk any_structural_reference ;; ret (GTaStructural None (GTaStruct s))).
(** grammar.ebnf:424-429 TextAmendmentReference *)
Definition text_amendment_reference : parser g_ta_ref :=
  (s <- sk article_title_reference ;; ret (GTaArticleTitle s)) <|> sk text_amendment_structural
  <|> (l <- sk subtitles_reference ;; ret (GTaSubtitles l)) <|> sk reference_with_intro_wrapup
  <|> (sk attachment_reference ;; ret GTaAttachment).
(** grammar.ebnf:438-445 TextAmendmentPart *)
Definition text_amendment_part : parser (str * str) :=
  opt (sk g_az) ;; a <- sk g_quote ;; sk text_amendment_token ;; one_of_sk ["helyébe"; "helyett"]%string ;;
  opt (sk g_az) ;; b <- sk g_quote ;; (ahead (sk list_separator) <|> sk text_amendment_token) ;; ret (a, b).
(** grammar.ebnf:431-436 TextAmendment *)
Definition g_text_amendment_rule : parser g_text_amendment :=
  sk g_az_any ;; sk act_title ;; a <- sk act_reference ;;
  rs <- many1 (r <- sk text_amendment_reference ;; opt (sk list_separator) ;; ret r) ;;
  ps <- sep_list text_amendment_part ;; opt (T ",") ;; T "lép" ;; opt (T "hatályba") ;; T "." ;;
  ret (mkGTa a rs ps).
(** grammar.ebnf:452-458 Repeal *)
Definition g_repeal_rule : parser g_repeal :=
  one_of_sk ["Nem lép hatályba"; "Hatályát veszti"; "Hatályát veszíti"]%string ;;
  sk g_az ;; sk act_title ;; a <- sk act_reference ;;
  rs <- many (r <- sk text_amendment_reference ;; opt (sk list_separator) ;; ret r) ;;
  ts <- many (opt (sk g_az) ;; t <- sk g_quote ;; opt (sk text_amendment_token) ;; opt (sk list_separator) ;; ret t) ;;
  T "." ;; ret (mkGRep a rs ts).

(** ** Root *)
(** grammar.ebnf:19-27 Root *)
Definition g_root_rule : parser g_root :=
  (x <- sk block_amendment ;; sk eoi ;; ret (RBlock x))
  <|> (x <- sk block_amendment_with_subtitle ;; sk eoi ;; ret (RBlockSubtitle x))
  <|> (x <- sk block_amendment_structural ;; sk eoi ;; ret (RBlockStruct x))
  <|> (x <- sk g_text_amendment_rule ;; sk eoi ;; ret (RText x))
  <|> (x <- sk enforcement_date ;; sk eoi ;; ret (REnforcement x))
  <|> (x <- sk g_repeal_rule ;; sk eoi ;; ret (RRepeal x))
  <|> (x <- sk list_of_simple_expressions ;; sk eoi ;; ret (RList x)).
(** lib.rs:28-33 grammar_parse *)
Definition grammar_parse (s : str) (known : list str) : outcome g_root :=
  omap fst (fst (g_root_rule (mkCur 0 s) (mkGlob known [] []))).
