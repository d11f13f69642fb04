# Design of the hun_law_rs model and proofs

The Rust source in `/repo` is read as text only. Everything below is proved about a
hand-written Gallina model of it (`rocq/theories`), not about the compiled program.

## 1. Conventions of the model

* A `char` is a Unicode scalar value (`N`). A `String`/`&str` is `list N`. Functions of the code
  that count bytes (`str::len`, byte slices, boldness) use `utf8_len` explicitly.
* Fixed-width integers are `N`/`Z` with explicit range predicates; `wrapping_sub` is written as
  subtraction modulo 2^8 / 2^16. Parsing into a fixed-width integer fails outside its range.
* `f64` coordinates are exact rationals/integers (`Q` or `Z`): no rounding, no NaN. This is a
  simplification and part of the trusted base.
* `Result<T>` is a three-way outcome: `Ok v`, `Err`, `Panic`. Error messages are not modelled.
* A `&mut self` method returns the new state. When the code can fail after having mutated, the
  model returns the mutated state together with the error.
* Loops are structural recursion or folds; where fuel is needed the out-of-fuel value is an explicit
  third outcome which the theorems exclude.
* Regular expressions are written as explicit matchers.
* External code (crate `roman`, `regex`, `pdf`, `serde`, `chrono`, `textwrap`, generated PEG parser)
  is either re-modelled from its documentation (marked "external" in the comment) or left as a
  universally quantified function argument.

## 2. File layout

| kind | content |
|---|---|
| `Base*.v` | strings, UTF-8 literals, decimal printing/parsing |
| `Model*.v` | the code, function by function, with file:line citations; no proofs |
| `Spec*.v` | small independent specifications used in theorem statements |
| `Proof*.v` | lemmas |
| `Properties*.v` | theorem statements closed by `exact lemma`, `Print Assumptions`, examples |
| `Conf*.v` | the repository's own unit tests transcribed and evaluated on the model |

## 3. Plan per property

| id | modelled | how proved |
|---|---|---|
| C01 | alphabetic.rs completely | case analysis, string lemmas |
| C02 | numeric.rs `split_suffix`, FromStr, Display, with_slash; decimal u16 | decimal print/parse lemma, suffix scan induction |
| C03 | article.rs, paragraph.rs, prefixed_alphabetic.rs | from C01/C02 plus `split_once` lemmas |
| C04 | compact_string.rs, act.rs, range.rs | separator-freeness of printed parts |
| C05 | the `Ord` impls as comparison functions | reduction to lexicographic order on N |
| C06 | `is_next_from` with wrap | arithmetic; `_refuted` witness for the wrap |
| C07 | chains of `is_next_from` | induction over the list |
| C08 | reference/*.rs | invariant by induction over an operation language |
| C09 | builder.rs | induction over the call list against a last-write spec |
| C10 | string.rs compact form | `split` at '_' lemma, C04 |
| C11–C17 | reference/mod.rs | case analysis over the five optional parts against prefix/range specs; `_refuted` witnesses |
| C18–C20 | indentedline.rs | induction over parts |
| C21 | util/mod.rs QuoteCheck | induction over text |
| C22–C23 | fixups.rs | window search lemmas |
| C24–C25 | fixup_editor.rs update_fixups; main.rs pipeline | loop invariant with the measure "number of differing lines"; `_refuted` witness |
| C26 | mk_act_section.rs | induction |
| C27 | mk_act_section.rs ActExtractor | symbolic run of the state machine over segmented input |
| C28–C32 | parser/structure | induction over the line list, invariants of the parser state |
| C33–C34 | walker.rs | structural induction over the tree, against a list-of-events spec |
| C35 | block_amendment.rs (structure) with an abstract element converter | structural induction; `_refuted` witness |
| C36 | abbreviation.rs cache | induction over adds |
| C37 | semantic_info/reference.rs, sae.rs | induction over the fed parts, offset arithmetic |
| C38 | output/text.rs split_string_at_references | induction |
| C39–C40 | text_amendment.rs, repeal.rs, enforcement_date.rs | list induction over grammar output types |
| C41–C42 | build.rs, hun_str.rs | finite sweep lifted with `forallb_forall` |
| C43 | parser/pdf page_of_lines.rs | induction over the sorted characters; permutations; a relation from groups to lines |
| C44 | parser/pdf page.rs, textstate.rs | stack discipline lemma by induction over operations and form depth |
| C45 | parser/pdf collector.rs, actual_text.rs, util.rs | induction over codes; a growth relation through all operations |
| C46 | mk_downloader.rs | decimal injectivity |
| C47 | structure.rs, structural_element.rs | numeral round-trip, string lemmas |
| C48 | to_element.rs, structure.rs | structural induction |
| C49 | quote.rs | state machine invariant |
| C50 | semantic_info/sae.rs | structural induction against a context spec |
| C51 | hun_law_grammar/src/lib.rs | `_refuted` witness and first-match characterisation |
| C52 | act.rs | `_refuted` witness, round-trip in 1..3999 |
| C53–C54 | output/text.rs | nested induction over the act; `_refuted` witnesses |
| C55 | parser/pdf/font.rs | induction over the mappings from the right against a last-one-wins spec |
| C56 | parser/pdf/font.rs, page.rs, mod.rs | simulation between renderers that differ in their caches only |
| C57–C60 | grammar.ebnf, hun_law_grammar/src/lib.rs | one invariant of parsers (offset and remaining text agree, result correct) closed under all combinators, applied rule by rule; `_refuted` witnesses |
| C61 | parse_header with the header patterns of sae.rs, article.rs | each matcher is shown equal to its form, both ways |
| C62–C63 | parser/structure | one induction over written lists, used for every kind of element; the written form is a relation in SpecWritten |
| C64 | block_amendment.rs | from C62 and C63 per position |
| C65 | semantic_info/block_amendment.rs, sae.rs, abbreviation.rs | minimum and maximum of references by induction, the rest by cases against relations; `_refuted` witness |
| C66 | pdf/textstate.rs, page.rs, collector.rs, actual_text.rs | the matrices of the text state are maps; a relation between renderer and pen is kept by every operation in both directions; `_refuted` witness |
| C67 | reference/string.rs, parser/semantic_info/reference.rs, grammar.ebnf | the text is the only phrase of a reference; a chain of lemmas feeds the phrase through each rule of the grammar, showing that earlier alternatives fail; `_refuted` witnesses |
| C68 | output/mod.rs, quick_display_indented_line | the display is shown equal to the only text in the relation; rows of pages by induction |
| C69 | fixup_editor.rs | the file is shown row by row, cut back into rows, and joined with C24, C25 |
| C70 | main.rs | a relation of everything that happens in a run, by induction over acts, issues and answers; `_refuted` witnesses |
| C71 | grammar.ebnf, semantic_info/*.rs | the sentence is fed through each rule of the grammar; a statement about the two memo tables is kept, so titles and structural references may be looked up instead of read; conversions by C65 |
| C72 | grammar.ebnf, semantic_info/*.rs | as C71, by cases on the level of the new element |
| C73 | grammar.ebnf, enforcement_date.rs | the grammar is followed rule by rule on the spelled sentence (ProofSay10: no reference starts at a year or a day; ProofSay11: dates, ordinals, publication, repeal), then the conversion of the tree is computed |
| C74 | grammar.ebnf, repeal.rs, text_amendment.rs, reference.rs | induction on the list: one reference is read with every earlier alternative refused (ProofSay12, ProofSay13), a separator cannot begin a reference or end one, quotations are read with their nested quotations (ProofSay14), and the builder resumes the levels above each part (ProofSay12, ProofSay15); then the conversion of the tree is computed (ProofSay17) |
| C75 | grammar.ebnf, text_amendment.rs, reference.rs | the list of references as in C74; the three rules of block amendments, which are tried first, refuse what is after the first reference, whatever part it ends with (ProofSay18, ProofSay19); the pairs of quotations by induction on their list (ProofSay19); then the conversion of the tree is computed (ProofSay20) |
| C76 | grammar.ebnf, enforcement_date.rs, reference.rs | parsers that read or refuse every text, leaving an end of it; hence in a text without "évi" and without known abbreviations no act is ever found, wherever the title of an act is thought to end (ProofSay21); the list of references before a date by induction, then the sentence (ProofSay22) |
| C77 | grammar.ebnf, block_amendment.rs, structural_reference.rs | roman numbers with a letter, and ordinals, are read and told apart by their first letters (ProofSay23); references to elements are read (ProofSay24); the rules tried before refuse what is after the name of the act, then the sentence (ProofSay25). Refuted: the book named before the element which the amended one is in is lost (`C77_book_of_parent_refuted`; the code has a TODO) |
| C78 | grammar.ebnf, block_amendment.rs, structural_reference.rs | articles, places, numbers and titles of subtitles are read (ProofSay26); the rule of block amendments refuses (ProofSay27); the amendment is read (ProofSay28), then the sentence (ProofSay29, ProofSay30). Refuted: `C78_title_beside_refuted`, `C78_replaced_with_article_refuted`, `C78_plural_refuted` |
| C79 | grammar.ebnf, block_amendment.rs, reference.rs | the element of the act, the joining words and the act named again are read, and the rules tried first refuse (ProofSay31); the two halves give one position (by C65's `position_spec`) and the sentence is read (ProofSay32). Refuted: `C79_second_element_refuted`, `C79_second_act_refuted` |
| C80 | grammar.ebnf, reference.rs, sae.rs | what can begin a reference, an act or another piece is decided by the next characters (ProofSay33, ProofSay34); one pass over the pieces (ProofSay35); that the special rules refuse is shown for every run of the parser with the Hoare-style rules of C57 (ProofGrammar2, `z_` lemmas: an amendment reads one of eight endings and a colon last, a change of texts reads a quotation and "szöveg", ...); texts in acts by C50 (ProofSay36). Refuted: `C80_act_is_found_refuted` |
| C81 | grammar.ebnf, abbreviation.rs, sae.rs | the reader's known abbreviations as state: `shifts`/`falls` (ProofSay37) say how a rule changes them; the pieces one by one, with the invariant that everything known was known before, is introduced in the text (C59, whose `introduces` now asks for an act before it) and begins no other piece (ProofSay38, ProofSay39). Refuted: `C81_order_refuted` |
| C82 | semantic_info.rs, sae.rs | one relation for all kinds of sentences (SpecSay11); a special sentence divided into texts is the same sentence (`kept_again`, `understood_again`); induction on the texts with the map of C36 (ProofSay40) |
| C83 | semantic_info.rs, walker.rs | `blank_act` keeps all but the information (SpecInform), also the last changes, which `bare_act` of C50 drops; invariant of the walk, and the act rebuilt from `blank_act` and the list of information (ProofInform) |
| C84 | act.rs, semantic_info, block_amendment.rs, main.rs | `act_of_lines` (SpecSay12) puts the written forms of C63, C82, C83 and C64 together; C62, C63, C83 and C64 composed, and C68 for the program (ProofSay41) |
| C85 | derived Serialize and Deserialize of structure.rs, semantic_info.rs, reference, identifier, indentedline.rs | a pair of functions for each type to and from a tree of values (ModelSave); `act_fits` says what can be stored (SpecSave); for each type the reader is a left inverse on what fits, and what it returns fits and is never a panic (ProofSave), by induction on the depth of amendments; the sample is the act and the tree of tests/simple_tests/test_serialization.rs; digraphs refuted |
| C86 | from parse_mk_pages through structure, add_semantic_info and convert_act to the stored tree | `act_made` lists the acts the steps leave, `roman_i32`, `has_dates`, `places_fit` and `texts_short` say what is asked of readers and texts (SpecKeep); every parser and builder of an identifier, reference or phrase is shown to give what fits (ProofKeep, ProofKeep2), an act fits exactly if its blank copy and all its pieces of information do (ProofKeep3), and C85 does the rest; the dates of the calendar with a sample reader meet the conditions (ProofKeep4); the run is the act of C84 |
| C87 | main.rs with JSON or YAML output | `gives_act` says that a text is read back as an act, `act_at` which act a step makes, `fixed` what stored fixups make of its lines (SpecDisk); by induction over issues, acts and answers all that is written is empty or good (ProofDisk), and a successful run wrote every act asked for (ProofDisk2); C86 gives the reading; the text formats are any pair with reading after writing, and SampleDisk has such a pair |
| C88 | fixups.rs: Fixup as a value, load_from, save | ModelFixup; a fixup is read back by the lemmas of C85, paths are distinct because acts are displayed differently and years have no slash (ProofFixup) |
| C89 | mk_downloader.rs: download_mk_issue | ModelFetch; the server and failures of writing are arguments; by cases for one issue, by induction for sequences; paths are distinct by C46 (ProofFetch) |

## 4. Trusted base

* Coq 8.16.1's kernel (including `vm_compute`).
* The axioms `Print Assumptions` lists under each theorem (section 5; so far none).
* The fidelity of the hand translation; each definition cites its source, deviations are stated at the definition
  and in the header of each `Model*.v`.
* Functions of other crates are arguments of the model, and theorems hold for all of them unless a hypothesis is
  stated: `rf` (`roman::from`), `ud` (what `\d` of the regex crate matches beyond ASCII), `up`
  (`char::is_uppercase`), `gp` (`grammar_parse`; C57–C60 are about its model),
  `wrap` (`textwrap::wrap`), `sort` (`sort_unstable_by`), `floats` (the operations of `f32`, so rounding, NaN and
  infinities are covered; hypotheses like `weak_order` say where they matter), and what the crate `pdf` reads from a
  file (`resources`, `xobject`, `pdf_font`, the operations of pages).
* ModelGrammar is what peginator generates from grammar.ebnf: order of choices, skipping of white space, positions,
  memoizing and calls of check functions are as its documentation says (listed in the header of the file). The 230 data
  tests of data_semantic_parser give the expected results on the model; ConfGrammar keeps twelve of them.
* The chapter header regexes are case insensitive; only ASCII folding (plus the Hungarian letters occurring in
  them) is modelled.

### 4.1 What is modelled and what is not

| source | model | not modelled |
|---|---|---|
| src/identifier/*.rs | ModelIdent, completely | |
| src/util/compact_string.rs, hun_str.rs, mod.rs | ModelIdent, ModelMk, ModelText | |
| src/util/indentedline.rs | ModelText (f64 as integers of thousandths), parse_header in ModelStruct, serde in ModelSave | f64 rounding |
| src/util/walker.rs | ModelWalk, completely | |
| src/util/debug.rs, singleton_yaml.rs | | debug.rs all; singleton_yaml.rs is in ModelSave only as the tree it writes and reads |
| src/reference/*.rs | ModelRef, types of structural.rs in ModelTypes, serde in ModelSave | |
| src/structure.rs, src/semantic_info.rs | ModelTypes, ModelStruct (headers), ModelWalk, serde in ModelSave | structs given as sequences, the text of JSON and YAML |
| src/fixups.rs, bin/hun_law/fixup_editor.rs | ModelText, the session in ModelMain, files in ModelFixup | the text of YAML, failures to open files; the editor is an argument |
| src/mk_downloader.rs, build.rs | ModelMk, ModelFetch | the network and the file system (arguments), code generation |
| src/parser/mk_act_section.rs | ModelMk, completely | logging |
| src/parser/structure/*.rs | ModelStruct, completely | logging, error texts |
| src/parser/semantic_info/*.rs | ModelSem, completely | error texts |
| hun_law_grammar | ModelGrammar: all rules of grammar.ebnf, grammar_parse; result types, parse_abbreviation, store_abbreviation in ModelSem | parts of the result nobody reads (attachment numbers, texts of other tokens), texts of errors |
| src/output/*.rs | ModelOut: text output of acts, quick_display_indented_line; ModelMain: pages, raw acts, choice of format | JSON and YAML (an argument) |
| src/parser/pdf/*.rs | ModelPdf, completely | the crate `pdf`; decoding of the marked content dictionary |
| bin/hun_law/main.rs | ModelMain, get_issues in ModelMk | command line parsing, logging; files that can be created and the person at the terminal are arguments |

### 4.2 Claims refuted of the faithful model

Each has a `_refuted` theorem with a concrete witness.

* C03, C04, C10, C85: the prefixed letter type can hold digraphs which do not survive printing or storing; `Some` of the empty
  paragraph identifier and `None` have the same compact string. Acts made from texts never hold such letters (C86).
* C06, C07, C28: "is next from" wraps around at 65535 (book 255), so long chains are not increasing.
* C13, C14: references skipping the paragraph level compare wrongly with those that do not; the empty reference
  does not contain references with an act.
* C19, C21, C24, C25: an empty line is bold after as_bold; a quote closed before it is opened within a line is not
  noticed; fixups recorded for lines ending in a tab, or across collapsed empty lines, cannot be applied again.
* C27: an act header after two empty lines is missed.
* C29: labels are equal as identifiers, not as printed.
* C32: the structure parser panics on an article with a title alone, and on headers followed by nothing but spaces.
* C34: a visitor replacing the children on entering changes the calls.
* C35: failing conversion loses the intro; header-only blocks panic.
* C36: repeating the work reports a change again when one abbreviation is defined twice.
* C37: a reference may end after the element's own text, covering a full stop that was supplied.
* C38, C54: printing an act with such a reference panics; so does printing on a page narrower than the indentation.
* C40: exceptions to an enforcement date are dropped; any day of the month is accepted.
* C42, C46, C47, C48, C51, C52: see the notes in section 5.
* C43: the comparison for sorting is not a total order (equal numbers are both greater than the other).
* C44: restoring leaves the boldness and the space width of the last font set; an unbalanced form changes the page's
  saved states; a form drawing itself overflows the stack.
* C45: white space inside the box is dropped; a text given for glyphs is lost when another is nested in it or no glyph
  is drawn.
* C55: a character of the unicode map is lost if its glyph name is unknown; code 255 of base encodings has no meaning.
* C56: a reused font address gives the wrong font.
* C57: with the real grammar too, printing an act with a reference covering the supplied full stop panics.
* C58: the grammar takes white space in "5 / A. alcím", which cannot be read, so the sentence is refused.
* C59: an abbreviation introduced in a skipped part of a sentence is used but never defined.
* C60: reading does not end if the empty abbreviation is known.
* C65: the position of a block amendment may have elements that were not named.
* C66: word spacing is also added after the two byte code 32; the PDF reference has it only for one byte codes. Also, coordinate transformations (`cm`, form matrices) are ignored, as a TODO in textstate.rs says; the statement of C66 leaves them out too.
* C67: some displayed references are not read back by the grammar: `5/CS. §-a` (nothing is found), `1:5–2:7. §-a` (read as 1:5–1:7), `a) pont 2a. alpontja` (read as the whole point), negative years (the sign is lost); the subpoint cs as one letter and s under c have the same text.
* C46: asking for an unknown act numbered over 3999 panics, because the error message displays it.
* C69: leaving an empty row in the editor panics, although the error message for changed line numbers suggests it for deleting a line.
* C70: the exit status is success although an issue could not be read or a requested act is not in its issue; the file of a failed act is left empty; with the editor forced, the texts of all attempts are written into the same file.
* C50: a failing pass leaves the elements before the failure annotated (example `C50_not_atomic`).
* C77: a book named before the parent of an added chapter is lost (the TODO in structural conversion says so).
* C78: "5. §-át megelőző alcím címe helyébe a következő alcím cím lép:" — that only the title is replaced is lost: the
  conversion of a subtitle beside an article never looks at the words "címe".
* C78: "12. alcíme és 15. §-a helyébe a következő alcím és rendelkezés lép:" is not read as an amendment: the optional
  reference to a structural element takes "12. alcíme", and nothing is tried again without it.
* C78: grammar.ebnf:296 has `("lép" | "lépnek")`, where "lépnek" is never reached as "lép" is tried first; such a sentence
  yields no phrase.
* C79: "5. §-a helyébe a következő rendelkezés lép, és az Fgytv. Második Része a következő 5/A. §-sal egészül ki:" — a part,
  title or chapter named only in the second half is lost.
* C79: an act named in the second half is lost even if it is another one: what is added is taken to be in the first act
  (grammar.ebnf, BlockAmendment: "this is usually the exact same as in the beginning").
* C80: "Az Fgytv. (2) bekezdése szerint." — an act that is named is not found at all when a paragraph or point without an
  article comes after it: the whole compound reference makes no sense and is dropped (reference.rs, simple expressions).
* C81: "Az Fgytv. 8. §-a és a 2011. évi CXII. törvény (a továbbiakban: Fgytv.) szerint." — an abbreviation that is introduced
  again changes the meaning of the words before that in the same sentence: all abbreviations of the sentence are added before the
  references are resolved (sae.rs). The first reference is to the new act.

<!-- generated below -->

## 5. Theorems and what Print Assumptions lists

### C01: Letter identifiers survive printing and re-parsing

Round trip, exact acceptance and totality for all strings.

* `C01_letters_roundtrip` (PropertiesIdent.v): closed under the global context
* `C01_letters_parse_exact` (PropertiesIdent.v): closed under the global context
* `C01_letters_parse_total` (PropertiesIdent.v): closed under the global context
* `C01_letters_print_is_lowercase` (PropertiesIdent.v): closed under the global context

### C02: Numeric identifiers survive printing and re-parsing

Round trip, exact acceptance and totality for all strings.

* `C02_numeric_roundtrip` (PropertiesIdent.v): closed under the global context
* `C02_numeric_parse_exact` (PropertiesIdent.v): closed under the global context
* `C02_numeric_parse_total` (PropertiesIdent.v): closed under the global context

### C03: Article, paragraph and prefixed-letter identifiers survive printing and re-parsing

Round trips and exact acceptance; the digraph values of the prefixed type, which FromStr never produces, do not survive (refuted theorem).

* `C03_roundtrip` (PropertiesIdent.v): closed under the global context
* `C03_parse` (PropertiesIdent.v): closed under the global context
* `C03_article_parse_exact` (PropertiesIdent.v): closed under the global context
* `C03_printed` (PropertiesIdent.v): closed under the global context
* `C03_digraph_refuted` (PropertiesIdent.v): closed under the global context

### C04: Compact strings of identifiers are lossless

Lossless for all types; refuted for two representable corner values (digraph prefixed letters, Some of the empty paragraph).

* `C04_compact_identifiers` (PropertiesIdent.v): closed under the global context
* `C04_compact_ranges` (PropertiesIdent.v): closed under the global context
* `C04_compact_options` (PropertiesIdent.v): closed under the global context
* `C04_compact_optional_ranges` (PropertiesIdent.v): closed under the global context
* `C04_compact_distinct` (PropertiesIdent.v): closed under the global context
* `C04_compact_prefixed_refuted` (PropertiesIdent.v): closed under the global context
* `C04_compact_optional_paragraph_refuted` (PropertiesIdent.v): closed under the global context

### C05: Identifier ordering is a total order that follows the legal numbering

Strict total orders agreeing with the legal order.

* `C05_strict_total_orders` (PropertiesIdent.v): closed under the global context
* `C05_legal_order` (PropertiesIdent.v): closed under the global context
* `C05_ranges` (PropertiesIdent.v): closed under the global context
* `C05_references` (PropertiesRef.v): closed under the global context

### C06: 'is next from' means strictly later, with no wrap-around

Exact characterisation; the wrap-around at 0/65535 and book 0/255 is proved as a refutation.

* `C06_next_exact` (PropertiesIdent.v): closed under the global context
* `C06_next_is_later` (PropertiesIdent.v): closed under the global context
* `C06_next_irreflexive` (PropertiesIdent.v): closed under the global context
* `C06_next_wraps_refuted` (PropertiesIdent.v): closed under the global context

### C07: A consecutive identifier chain has no duplicates and is sorted

Sorted and duplicate free; with the first element 'first' this holds up to the stated lengths, beyond which the wrap-around refutes it.

* `C07_chain_sorted` (PropertiesIdent.v): closed under the global context
* `C07_chain_from_first` (PropertiesIdent.v): closed under the global context
* `C07_chain_wraps_refuted` (PropertiesIdent.v): closed under the global context

### C08: Every reference obtainable through the API is well formed

Every reference obtainable from the public constructors and operations is well formed; the checker is exact.

* `C08_obtainable_well_formed` (PropertiesRef.v): closed under the global context
* `C08_check_exact` (PropertiesRef.v): closed under the global context

### C09: Setting a reference part clears exactly the finer parts

Exact content of the builder after any call sequence and exact success condition of build.

* `C09_builder_parts` (PropertiesRef.v): closed under the global context
* `C09_build_exact` (PropertiesRef.v): closed under the global context

### C10: References survive the compact string

Lossless for references without digraph prefixed letters (those are refuted); parsing never panics and yields well-formed values only.

* `C10_compact_roundtrip` (PropertiesRef.v): closed under the global context
* `C10_compact_injective` (PropertiesRef.v): closed under the global context
* `C10_compact_parse` (PropertiesRef.v): closed under the global context
* `C10_digraph_refuted` (PropertiesRef.v): closed under the global context

### C11: Resolving references relative to a base is associative and keeps absolute references

Exact characterisation, identity, absorption and associativity of relative_to.

* `C11_relative_exact` (PropertiesRef.v): closed under the global context
* `C11_relative_empty` (PropertiesRef.v): closed under the global context
* `C11_relative_total` (PropertiesRef.v): closed under the global context
* `C11_coarsest_exists` (PropertiesRef.v): closed under the global context
* `C11_relative_identity` (PropertiesRef.v): closed under the global context
* `C11_absolute_untouched` (PropertiesRef.v): closed under the global context
* `C11_associative` (PropertiesRef.v): closed under the global context

### C12: Taking parents removes exactly the finest part and terminates

parent removes exactly the finest part; five parents are empty.

* `C12_parent_removes_finest` (PropertiesRef.v): closed under the global context
* `C12_finest_exists` (PropertiesRef.v): closed under the global context
* `C12_five_parents_empty` (PropertiesRef.v): closed under the global context
* `C12_not_own_parent` (PropertiesRef.v): closed under the global context
* `C12_parent_well_formed` (PropertiesRef.v): closed under the global context

### C13: is_parent_of agrees with 'is a proper prefix'

Holds when the paragraph level is not skipped between article and point; refuted otherwise.

* `C13_parent_is_proper_prefix` (PropertiesRef.v): closed under the global context
* `C13_skipped_level_refuted` (PropertiesRef.v): closed under the global context

### C14: contains is reflexive and monotone

Containment is inclusion of positions for references agreeing on skipped levels; transitivity and reflexivity; refuted for the empty reference and for skipped levels.

* `C14_contains_is_inclusion` (PropertiesRef.v): closed under the global context
* `C14_no_skip_suffices` (PropertiesRef.v): closed under the global context
* `C14_transitive` (PropertiesRef.v): closed under the global context
* `C14_reflexive` (PropertiesRef.v): closed under the global context
* `C14_empty_contains_refuted` (PropertiesRef.v): closed under the global context
* `C14_empty_contains_relative` (PropertiesRef.v): closed under the global context
* `C14_skipped_level_refuted` (PropertiesRef.v): closed under the global context

### C15: make_range covers exactly from its start to its end

Exact result of make_range, its endpoints, totality.

* `C15_make_range_exact` (PropertiesRef.v): closed under the global context
* `C15_make_range_endpoints` (PropertiesRef.v): closed under the global context
* `C15_make_range_same` (PropertiesRef.v): closed under the global context
* `C15_make_range_total` (PropertiesRef.v): closed under the global context

### C16: Range endpoints are single and inside the range

First and last in range are single, idempotent and contained.

* `C16_endpoints_single` (PropertiesRef.v): closed under the global context
* `C16_endpoints_parts` (PropertiesRef.v): closed under the global context
* `C16_endpoints_idempotent` (PropertiesRef.v): closed under the global context
* `C16_endpoints_contained` (PropertiesRef.v): closed under the global context

### C17: get_last_part returns the finest present part

get_last_part is the finest present part.

* `C17_last_part_finest` (PropertiesRef.v): closed under the global context
* `C17_last_part_empty` (PropertiesRef.v): closed under the global context
* `C17_act_only` (PropertiesRef.v): closed under the global context
* `C17_act_only_relative_refuted` (PropertiesRef.v): closed under the global context

### C18: Slicing a line is slicing its characters

Slices as positioned glyph lists for all indices; byte-index slicing on character boundaries.

* `C18_slice_content` (PropertiesText.v): closed under the global context
* `C18_index_total` (PropertiesText.v): closed under the global context
* `C18_slice_whole` (PropertiesText.v): closed under the global context
* `C18_split_concat` (PropertiesText.v): closed under the global context
* `C18_slice_bytes` (PropertiesText.v): closed under the global context
* `C18_slice_bytes_exact` (PropertiesText.v): closed under the global context
* `C18_slice_bytes_no_error` (PropertiesText.v): closed under the global context

### C19: Indentation and boldness of slices are positional

Positions, indents and boldness in thousandths of a point (exact arithmetic stands in for f64). as_bold of an empty line is bold although it has no bold character (refuted).

* `C19_slice_positions` (PropertiesText.v): closed under the global context
* `C19_concat_positions` (PropertiesText.v): closed under the global context
* `C19_indent_at` (PropertiesText.v): closed under the global context
* `C19_indent_at_past_end` (PropertiesText.v): closed under the global context
* `C19_slice_indent` (PropertiesText.v): closed under the global context
* `C19_bold_ratio` (PropertiesText.v): closed under the global context
* `C19_as_bold_empty_refuted` (PropertiesText.v): closed under the global context
* `C19_slice_justified` (PropertiesText.v): closed under the global context
* `C19_concat_justified` (PropertiesText.v): closed under the global context
* `C19_equal` (PropertiesText.v): closed under the global context
* `C19_equal_lines_refuted` (PropertiesText.v): closed under the global context

### C20: Joining lines loses no text

append_to and join characterised step by step; deleting spaces commutes with joining.

* `C20_append` (PropertiesText.v): closed under the global context
* `C20_join_loses_nothing` (PropertiesText.v): closed under the global context
* `C20_join_steps` (PropertiesText.v): closed under the global context

### C21: Quote tracking equals net quote depth

Level equals net depth; errors are only seen at line ends (a line that closes first and reopens later is accepted: refuted for mid-line errors).

* `C21_open_iff` (PropertiesText.v): closed under the global context
* `C21_error_iff` (PropertiesText.v): closed under the global context
* `C21_mid_line_refuted` (PropertiesText.v): closed under the global context

### C22: A text fixup changes exactly one line, the intended one

Exact success condition; only the located line changes; positions of the kept prefix and suffix are preserved.

* `C22_succeeds_iff` (PropertiesText.v): closed under the global context
* `C22_changes_one_line` (PropertiesText.v): closed under the global context
* `C22_prefix_kept` (PropertiesText.v): closed under the global context
* `C22_suffix_kept` (PropertiesText.v): closed under the global context
* `C22_never_panics` (PropertiesText.v): closed under the global context

### C23: A fixup list is applied in order or fails as a whole

Left-to-right composition, stops at the first failure (lines already fixed stay fixed, as in the code).

* `C23_composition` (PropertiesText.v): closed under the global context
* `C23_first_failure` (PropertiesText.v): closed under the global context

### C24: The fixup editor's recorded fixups reproduce the edit

Recorded fixups reproduce the edit for every success; the loop terminates by a decreasing measure; lines with surrounding whitespace are an exception when <BOLD> is used (refuted).

* `C24_recorded_fixups_reproduce` (PropertiesText.v): closed under the global context
* `C24_plain_edit` (PropertiesText.v): closed under the global context
* `C24_terminates` (PropertiesText.v): closed under the global context
* `C24_whitespace_refuted` (PropertiesText.v): closed under the global context

### C25: Fixups recorded on the cleaned body can be re-applied on reload

Refuted with a body whose context window spans a collapsed run; holds when nothing is collapsed.

* `C25_reapply_refuted` (PropertiesText.v): closed under the global context
* `C25_reapply_without_collapse` (PropertiesText.v): closed under the global context

### C26: Collapsing double empty lines keeps all text

All four parts.

* `C26_keeps_text` (PropertiesText.v): closed under the global context
* `C26_no_double_empty` (PropertiesText.v): closed under the global context
* `C26_keeps_one` (PropertiesText.v): closed under the global context
* `C26_idempotent` (PropertiesText.v): closed under the global context

### C27: Extracted acts contain exactly the lines between header and signature

Full run of the state machine over act blocks with and without the asterisk footer, lifted to pages and section headings; refuted for headers after two empty lines.

* `C27_extracts_blocks` (PropertiesMk.v): closed under the global context
* `C27_issue` (PropertiesMk.v): closed under the global context
* `C27_bodies_are_fed_lines` (PropertiesMk.v): closed under the global context
* `C27_delimiters` (PropertiesMk.v): closed under the global context
* `C27_header` (PropertiesMk.v): closed under the global context
* `C27_header_id` (PropertiesMk.v): closed under the global context
* `C27_cover_page` (PropertiesMk.v): closed under the global context
* `C27_double_empty_refuted` (PropertiesMk.v): closed under the global context

### C28: Sibling identifiers of parsed elements are consecutive

Consecutive at every level, for articles, whole bodies and converted amendments; increasing up to 65535 siblings, refuted beyond (numbers wrap around).

Modelled: ModelStruct: the header matchers, parse, extract_multiple, article and act parsers

* `C28_article` (PropertiesStruct.v): closed under the global context
* `C28_body` (PropertiesStruct.v): closed under the global context
* `C28_act` (PropertiesStruct.v): closed under the global context
* `C28_amendment` (PropertiesStruct.v): closed under the global context
* `C28_increasing_numbers` (PropertiesStruct.v): closed under the global context
* `C28_increasing_paragraphs` (PropertiesStruct.v): closed under the global context
* `C28_increasing_letters` (PropertiesStruct.v): closed under the global context
* `C28_increasing_subpoints` (PropertiesStruct.v): closed under the global context
* `C28_increasing_refuted` (PropertiesStruct.v): closed under the global context

### C29: Parsing sub-article elements loses no text

All five list parsers and articles; labels as written in the input. Refuted for printed labels (01. is read as 1.).

Modelled: ModelStruct

* `C29_numeric_subpoints` (PropertiesStruct.v): closed under the global context
* `C29_alphabetic_subpoints` (PropertiesStruct.v): closed under the global context
* `C29_numeric_points` (PropertiesStruct.v): closed under the global context
* `C29_alphabetic_points` (PropertiesStruct.v): closed under the global context
* `C29_paragraphs` (PropertiesStruct.v): closed under the global context
* `C29_article` (PropertiesStruct.v): closed under the global context
* `C29_printed_labels_refuted` (PropertiesStruct.v): closed under the global context

### C30: Act-level parsing loses no lines and keeps article order

Lines divided in order among preamble and children, text kept, article identifiers form a chain.

Modelled: ModelStruct: parse_complex_body, parse_act_structure

* `C30_lines` (PropertiesStruct.v): closed under the global context
* `C30_text` (PropertiesStruct.v): closed under the global context

### C31: Quoted text never starts a new element

Children of acts and elements of every list start only where all quotes are closed.

Modelled: ModelStruct

* `C31_act` (PropertiesStruct.v): closed under the global context
* `C31_paragraphs` (PropertiesStruct.v): closed under the global context
* `C31_alphabetic_points` (PropertiesStruct.v): closed under the global context
* `C31_numeric_points` (PropertiesStruct.v): closed under the global context
* `C31_alphabetic_subpoints` (PropertiesStruct.v): closed under the global context
* `C31_numeric_subpoints` (PropertiesStruct.v): closed under the global context
* `C31_paragraph_body` (PropertiesStruct.v): closed under the global context

### C32: The structure parser never panics

No panic when no line ends in a space and bracketed lines are followed by text; refuted in general with three witnesses.

Modelled: ModelStruct

* `C32_no_panic` (PropertiesStruct.v): closed under the global context
* `C32_title_only_refuted` (PropertiesStruct.v): closed under the global context
* `C32_empty_after_title_refuted` (PropertiesStruct.v): closed under the global context
* `C32_header_only_refuted` (PropertiesStruct.v): closed under the global context

### C33: The walker visits every sub-article element once, in document order, with its own reference

The walk equals running the visitor over an independently written event list, for every visitor; the list enters each element once in document order, leaves each once and is nested.

Modelled: ModelWalk: impl_walk_sae! for shared references

* `C33_walk_is_the_event_sequence` (PropertiesWalk.v): closed under the global context
* `C33_document_order` (PropertiesWalk.v): closed under the global context
* `C33_recorded` (PropertiesWalk.v): closed under the global context
* `C33_positions` (PropertiesWalk.v): closed under the global context

### C34: The mutating walker applies the visitor and nothing else

Same calls when entering keeps the body (a traced visitor shows them); refuted for a visitor that replaces the children on entering; acts unchanged, annotated or mapped accordingly; stops at the first error.

Modelled: ModelWalk: impl_walk_sae! for mutable references

* `C34_unchanged` (PropertiesWalk.v): closed under the global context
* `C34_trace_faithful` (PropertiesWalk.v): closed under the global context
* `C34_same_calls` (PropertiesWalk.v): closed under the global context
* `C34_annotations_only` (PropertiesWalk.v): closed under the global context
* `C34_applies_visitor` (PropertiesWalk.v): closed under the global context
* `C34_failure_keeps` (PropertiesWalk.v): closed under the global context
* `C34_same_calls_refuted` (PropertiesWalk.v): closed under the global context

### C35: Block amendment conversion touches only quoted blocks it can convert

Success: only amending paragraphs with one block change, intro/wrap-up/text kept, identifiers as announced; idempotent; failure described exactly; atomicity refuted (intro lost); panics refuted with witnesses, excluded under stated conditions.

Modelled: ModelStruct: convert_* (structure/block_amendment.rs completely)

* `C35_converts` (PropertiesConvert.v): closed under the global context
* `C35_others_untouched` (PropertiesConvert.v): closed under the global context
* `C35_idempotent` (PropertiesConvert.v): closed under the global context
* `C35_failure` (PropertiesConvert.v): closed under the global context
* `C35_no_panic` (PropertiesConvert.v): closed under the global context
* `C35_atomic_refuted` (PropertiesConvert.v): closed under the global context
* `C35_header_only_refuted` (PropertiesConvert.v): closed under the global context
* `C35_title_alone_refuted` (PropertiesConvert.v): closed under the global context

### C36: The abbreviation cache is a last-write-wins map and reports changes exactly

Last write wins; exact condition of has_changed; contents idempotent and sorted. Refuted: repeating the work reports a change again when one abbreviation is defined twice.

Modelled: ModelSem: AbbreviationCache (abbreviation.rs completely)

* `C36_last_write_wins` (PropertiesSem.v): closed under the global context
* `C36_changed_exactly` (PropertiesSem.v): closed under the global context
* `C36_unchanged_keeps_map` (PropertiesSem.v): closed under the global context
* `C36_twice` (PropertiesSem.v): closed under the global context
* `C36_keys_sorted` (PropertiesSem.v): closed under the global context
* `C36_repeat_reports_no_change_refuted` (PropertiesSem.v): closed under the global context

### C37: Outgoing reference positions are ordered, disjoint and inside the text

The references are exactly those said by the places of the grammar result, ordered and disjoint if these are; adjusted ones stay ordered, end inside the own sentence and cover the same words. Inside the own text is refuted (supplied full stop).

Modelled: ModelSem: OutgoingReferenceBuilder, adjust_outgoing_reference; the grammar result is an argument

* `C37_references` (PropertiesSem.v): closed under the global context
* `C37_references_of_list` (PropertiesSem.v): closed under the global context
* `C37_no_panic` (PropertiesSem.v): closed under the global context
* `C37_ordered` (PropertiesSem.v): closed under the global context
* `C37_adjusted_ordered` (PropertiesSem.v): closed under the global context
* `C37_adjusted_inside` (PropertiesSem.v): closed under the global context
* `C37_adjusted_same_words` (PropertiesSem.v): closed under the global context
* `C37_inside_own_text_refuted` (PropertiesSem.v): closed under the global context

### C38: Colouring references in text output does not alter the text

Cut iff the references are ordered and at character boundaries, otherwise panic; pieces concatenate to the text, alternate, and the marked ones are the referenced texts. That recorded references are always such is refuted (supplied full stop): printing panics.

Modelled: ModelOut: split_string_at_references, colorize_sae_string

* `C38_when_cut` (PropertiesOut.v): closed under the global context
* `C38_pieces` (PropertiesOut.v): closed under the global context
* `C38_plain` (PropertiesOut.v): closed under the global context
* `C38_colored` (PropertiesOut.v): closed under the global context
* `C38_ordered_references` (PropertiesOut.v): closed under the global context
* `C38_recorded_references_cut_refuted` (PropertiesOut.v): closed under the global context

### C39: Text amendments and repeals are the full cross product in order

Exact characterisation of both conversions as a product over independently read references, for every grammar result; all with the resolved act.

Modelled: ModelSem: text_amendment.rs, repeal.rs, structural_reference.rs completely

* `C39_text_amendment` (PropertiesSem.v): closed under the global context
* `C39_act_resolved` (PropertiesSem.v): closed under the global context
* `C39_repeal` (PropertiesSem.v): closed under the global context
* `C39_product_determined` (PropertiesSem.v): closed under the global context

### C40: Enforcement dates are classified exhaustively

Exact characterisation for every grammar result. Refuted: exceptions are dropped; days of the month above 31 are accepted.

Modelled: ModelSem: enforcement_date.rs completely

* `C40_enforcement_date` (PropertiesSem.v): closed under the global context
* `C40_date_determined` (PropertiesSem.v): closed under the global context
* `C40_keeps_exceptions_refuted` (PropertiesSem.v): closed under the global context
* `C40_invalid_days_rejected_refuted` (PropertiesSem.v): closed under the global context

### C41: Hungarian ordinals round-trip

All 101 words in three forms by a small sweep; acceptance is exact.

* `C41_range` (PropertiesMk.v): closed under the global context
* `C41_words` (PropertiesMk.v): closed under the global context
* `C41_round_trip` (PropertiesMk.v): closed under the global context
* `C41_injective` (PropertiesMk.v): closed under the global context
* `C41_accepts_only` (PropertiesMk.v): closed under the global context
* `C41_never_panics` (PropertiesMk.v): closed under the global context

### C42: Hungarian dates are parsed to the date written

Exact acceptance. The date as first stated ('DD.') is refuted: a missing last dot truncates the day, and any character is accepted for a dot.

* `C42_reads_written_date` (PropertiesMk.v): closed under the global context
* `C42_accepts_iff` (PropertiesMk.v): closed under the global context
* `C42_never_panics` (PropertiesMk.v): closed under the global context
* `C42_missing_dot_refuted` (PropertiesMk.v): closed under the global context

### C43: Page line assembly conserves characters

For every arithmetic and every sorting function that permutes; ordering for sorting functions that sort by a weak order. The comparison function is not a total order (refuted).

Modelled: ModelPdf: all of src/parser/pdf; f32 is any type with operations, sort_unstable_by is an argument, the pdf crate's lookups are functions

* `C43_conserved` (PropertiesPdf.v): closed under the global context
* `C43_lines` (PropertiesPdf.v): closed under the global context
* `C43_empty` (PropertiesPdf.v): closed under the global context
* `C43_total_order_refuted` (PropertiesPdf.v): closed under the global context

### C44: PDF graphics state is restored by balanced save/restore

Holds if the forms are balanced; without that, and for the boldness kept in the collector, refuted. Self-drawing forms overflow the stack (refuted).

Modelled: ModelPdf: all of src/parser/pdf; f32 is any type with operations, sort_unstable_by is an argument, the pdf crate's lookups are functions

* `C44_depth` (PropertiesPdf.v): closed under the global context
* `C44_unmatched` (PropertiesPdf.v): closed under the global context
* `C44_balanced` (PropertiesPdf.v): closed under the global context
* `C44_restored` (PropertiesPdf.v): closed under the global context
* `C44_form` (PropertiesPdf.v): closed under the global context
* `C44_resources` (PropertiesPdf.v): closed under the global context
* `C44_marks` (PropertiesPdf.v): closed under the global context
* `C44_no_panic` (PropertiesPdf.v): closed under the global context
* `C44_file_no_panic` (PropertiesPdf.v): closed under the global context
* `C44_boldness_refuted` (PropertiesPdf.v): closed under the global context
* `C44_unbalanced_form_refuted` (PropertiesPdf.v): closed under the global context
* `C44_self_drawing_refuted` (PropertiesPdf.v): closed under the global context

### C45: Characters outside the crop box never reach the output and those inside always do

Exact for all characters but white space, which is dropped inside the box too (refuted). Texts given for glyphs are lost when nested or empty (refuted).

Modelled: ModelPdf: all of src/parser/pdf; f32 is any type with operations, sort_unstable_by is an argument, the pdf crate's lookups are functions

* `C45_quirks` (PropertiesPdf.v): closed under the global context
* `C45_character` (PropertiesPdf.v): closed under the global context
* `C45_shown` (PropertiesPdf.v): closed under the global context
* `C45_unknown` (PropertiesPdf.v): closed under the global context
* `C45_actual_text` (PropertiesPdf.v): closed under the global context
* `C45_collected` (PropertiesPdf.v): closed under the global context
* `C45_no_spaces` (PropertiesPdf.v): closed under the global context
* `C45_space_refuted` (PropertiesPdf.v): closed under the global context
* `C45_nested_refuted` (PropertiesPdf.v): closed under the global context
* `C45_no_glyph_refuted` (PropertiesPdf.v): closed under the global context

### C46: Gazette issue keys are parsed and formed unambiguously

Exact parser, injective cache keys, injective URLs within a century (for all non-negative issue numbers), refuted across centuries; get_issues returns exactly the needed issues in order. Refuted: that an unknown act is always an error (one numbered over 3999 panics while the error is written).

* `C46_parse_iff` (PropertiesMk.v): closed under the global context
* `C46_parse_round_trip` (PropertiesMk.v): closed under the global context
* `C46_cache_key_injective` (PropertiesMk.v): closed under the global context
* `C46_url_injective` (PropertiesMk.v): closed under the global context
* `C46_url_centuries_refuted` (PropertiesMk.v): closed under the global context
* `C46_get_issues` (PropertiesMk.v): closed under the global context
* `C46_unknown_act_refuted` (PropertiesMk.v): closed under the global context

### C47: Structural headers round-trip

Round trip for all printable headers except suffixed books and parts, which are refuted; roman::from assumed to read standard numerals.

Modelled: ModelTypes: se_header, se_parse_identifier; ModelStruct: try_se

* `C47_round_trip` (PropertiesStruct.v): closed under the global context
* `C47_printable` (PropertiesStruct.v): closed under the global context
* `C47_suffixed_refuted` (PropertiesStruct.v): closed under the global context

### C48: An element is found by its own reference

Positions are valid references and distinct when sibling identifiers are; parsed acts up to 65535 lines satisfy this; lookup finds the article; refuted for repeated identifiers.

Modelled: ModelWalk, ModelStruct: positions, Act::article

* `C48_article_found` (PropertiesWalk.v): closed under the global context
* `C48_lookup_sound` (PropertiesWalk.v): closed under the global context
* `C48_lookup_complete` (PropertiesWalk.v): closed under the global context
* `C48_positions_distinct` (PropertiesWalk.v): closed under the global context
* `C48_element_unique` (PropertiesWalk.v): closed under the global context
* `C48_parsed_acts_distinct` (PropertiesWalk.v): closed under the global context
* `C48_references_valid` (PropertiesWalk.v): closed under the global context
* `C48_duplicate_refuted` (PropertiesWalk.v): closed under the global context

### C49: Quoted blocks are extracted whole

Layout of intros, blocks and wrap ups; text kept; blocks balanced and end at the first possible place.

Modelled: ModelStruct: the quoted block state machine

* `C49_blocks` (PropertiesStruct.v): closed under the global context
* `C49_text` (PropertiesStruct.v): closed under the global context
* `C49_inner_balanced` (PropertiesStruct.v): closed under the global context

### C50: The text given to the grammar is the element in its sentence context

The whole pass is the sequence of understood sentences, each the specified concatenation; first failure stops and keeps the rest; only semantic information and abbreviations change; no panic when the grammar does not panic. The grammar is an argument. (C57–C60 use the modelled grammar.)

Modelled: ModelSem: sae.rs, mod.rs completely

* `C50_sentences` (PropertiesSem.v): closed under the global context
* `C50_success_is_all` (PropertiesSem.v): closed under the global context
* `C50_failure_is_first` (PropertiesSem.v): closed under the global context
* `C50_sentence_determined` (PropertiesSem.v): closed under the global context
* `C50_no_panic` (PropertiesSem.v): closed under the global context
* `C50_no_panic_article` (PropertiesSem.v): closed under the global context
* `C50_single_article` (PropertiesSem.v): closed under the global context

### C51: An abbreviation in text refers to the one that was defined

First known prefix (exact); unique when no abbreviation is a prefix of another; shortest on cache order; longest refuted.

Modelled: ModelSem: parse_abbreviation, store_abbreviation (hun_law_grammar/src/lib.rs)

* `C51_first_match` (PropertiesSem.v): closed under the global context
* `C51_not_found` (PropertiesSem.v): closed under the global context
* `C51_unambiguous` (PropertiesSem.v): closed under the global context
* `C51_shortest_match` (PropertiesSem.v): closed under the global context
* `C51_longest_match_refuted` (PropertiesSem.v): closed under the global context

### C52: Printing an act identifier never fails

Refuted (panic) with exact characterisation; round trip for 1..3999 and 4-digit years assuming roman::from reads standard numerals.

* `C52_act_display_roundtrip` (PropertiesIdent.v): closed under the global context
* `C52_act_display_panics_iff` (PropertiesIdent.v): closed under the global context
* `C52_act_display_refuted` (PropertiesIdent.v): closed under the global context
* `C52_act_display_compact_refuted` (PropertiesIdent.v): closed under the global context

### C53: Text output loses no text

For every wrapping function that keeps non-white characters; with colours refuted (the codes are extra characters).

Modelled: ModelOut: all TextOutput impls; textwrap::wrap is an argument

* `C53_all_text` (PropertiesOut.v): closed under the global context
* `C53_all_text_colored_refuted` (PropertiesOut.v): closed under the global context

### C54: Text output does not panic

Sufficient width, roman numeral and cuttable references exclude panics; without the width refuted.

Modelled: ModelOut: all TextOutput impls; usize subtraction panics below zero (debug build)

* `C54_no_panic` (PropertiesOut.v): closed under the global context
* `C54_narrow_page_refuted` (PropertiesOut.v): closed under the global context

### C55: What a character code means in a font

A unicode map entry is shadowed by an unknown glyph name, and code 255 of base encodings is missing (refuted).

Modelled: ModelPdf: all of src/parser/pdf; f32 is any type with operations, sort_unstable_by is an argument, the pdf crate's lookups are functions

* `C55_meaning` (PropertiesPdf.v): closed under the global context
* `C55_unique` (PropertiesPdf.v): closed under the global context
* `C55_unicode_map_refuted` (PropertiesPdf.v): closed under the global context
* `C55_code_255_refuted` (PropertiesPdf.v): closed under the global context

### C56: The font cache and the other pages do not change what a page says

Needs that an address always belongs to one font; without it refuted.

Modelled: ModelPdf: all of src/parser/pdf; f32 is any type with operations, sort_unstable_by is an argument, the pdf crate's lookups are functions

* `C56_font` (PropertiesPdf.v): closed under the global context
* `C56_pages` (PropertiesPdf.v): closed under the global context
* `C56_reused_address_refuted` (PropertiesPdf.v): closed under the global context

### C57: The grammar gives places inside the text, in order, between characters

For all texts. Inside the element's own text without the supplied full stop is refuted, with a panic when printing.

Modelled: ModelGrammar: all of grammar.ebnf and hun_law_grammar/src/lib.rs, with peginator's semantics; ModelSem, ModelOut

* `C57_places` (PropertiesGrammar.v): closed under the global context
* `C57_recorded` (PropertiesGrammar.v): closed under the global context
* `C57_inside_own_text_refuted` (PropertiesGrammar.v): closed under the global context
* `C57_printing` (PropertiesGrammar.v): closed under the global context

### C58: Words captured by the grammar have the form of their level and can be read

For all texts. Readability needs numbers up to 65535 (books up to 255) and resolvable acts; identifiers of subtitles with white space are refuted.

Modelled: ModelGrammar: all of grammar.ebnf and hun_law_grammar/src/lib.rs, with peginator's semantics; ModelSem, ModelOut

* `C58_captured_words` (PropertiesGrammar.v): closed under the global context
* `C58_readable` (PropertiesGrammar.v): closed under the global context
* `C58_ordinals` (PropertiesGrammar.v): closed under the global context
* `C58_months` (PropertiesGrammar.v): closed under the global context
* `C58_subtitle_number` (PropertiesGrammar.v): closed under the global context
* `C58_readable_subtitles_refuted` (PropertiesGrammar.v): closed under the global context

### C59: Abbreviations come from the text

For all texts and acts; abbreviations are learnt only from introductions right after an act. That a used abbreviation can always be resolved is refuted.

Modelled: ModelGrammar: all of grammar.ebnf and hun_law_grammar/src/lib.rs, with peginator's semantics; ModelSem, ModelOut

* `C59_acts` (PropertiesGrammar.v): closed under the global context
* `C59_introduced` (PropertiesGrammar.v): closed under the global context
* `C59_resolvable_refuted` (PropertiesGrammar.v): closed under the global context

### C60: The grammar reads every text and always ends

For all texts and acts. With an empty known abbreviation refuted.

Modelled: ModelGrammar: all of grammar.ebnf and hun_law_grammar/src/lib.rs, with peginator's semantics; ModelSem, ModelOut

* `C60_total` (PropertiesGrammar.v): closed under the global context
* `C60_sentences` (PropertiesGrammar.v): closed under the global context
* `C60_no_panic` (PropertiesGrammar.v): closed under the global context
* `C60_empty_abbreviation_refuted` (PropertiesGrammar.v): closed under the global context

### C61: Header lines are recognised exactly

If and only if, for all lines.

Modelled: ModelStruct, ModelConvert

* `C61_paragraph` (PropertiesWritten.v): closed under the global context
* `C61_number` (PropertiesWritten.v): closed under the global context
* `C61_letter` (PropertiesWritten.v): closed under the global context
* `C61_subpoint` (PropertiesWritten.v): closed under the global context
* `C61_article` (PropertiesWritten.v): closed under the global context

### C62: Written points, paragraphs and articles are read back

For lines that do not end in a space; the written form is a relation that does not mention the parser.

Modelled: ModelStruct, ModelConvert

* `C62_numbered_subpoints` (PropertiesWritten.v): closed under the global context
* `C62_lettered_subpoints` (PropertiesWritten.v): closed under the global context
* `C62_numbered_points` (PropertiesWritten.v): closed under the global context
* `C62_lettered_points` (PropertiesWritten.v): closed under the global context
* `C62_quoted_blocks` (PropertiesWritten.v): closed under the global context
* `C62_paragraphs` (PropertiesWritten.v): closed under the global context
* `C62_article` (PropertiesWritten.v): closed under the global context

### C63: Written acts are read back

For lines that do not end in a space; roman numerals and upper case are oracles.

Modelled: ModelStruct, ModelConvert

* `C63_body` (PropertiesWritten.v): closed under the global context
* `C63_act` (PropertiesWritten.v): closed under the global context
* `C63_subtitle_limit` (PropertiesWritten.v): closed under the global context

### C64: Written amendments are converted

For lines that do not end in a space.

Modelled: ModelStruct, ModelConvert

* `C64_amended` (PropertiesWritten.v): closed under the global context
* `C64_structure` (PropertiesWritten.v): closed under the global context
* `C64_paragraph` (PropertiesWritten.v): closed under the global context
* `C64_act` (PropertiesWritten.v): closed under the global context

### C65: Special phrases and new abbreviations mean what the sentence says

Exact in both directions. Refuted: that a position has only elements that were named (amending (1) and (3) counts as (1) to (3)).

Modelled: ModelSem

* `C65_block` (PropertiesAmend.v): closed under the global context
* `C65_structural` (PropertiesAmend.v): closed under the global context
* `C65_subtitle` (PropertiesAmend.v): closed under the global context
* `C65_phrase` (PropertiesAmend.v): closed under the global context
* `C65_phrase_determined` (PropertiesAmend.v): closed under the global context
* `C65_abbreviations` (PropertiesAmend.v): closed under the global context
* `C65_only_what_is_said_refuted` (PropertiesAmend.v): closed under the global context

### C66: Characters are found where the page draws them

Exact in both directions, for arithmetic without rounding (any field). The transformation of the page (cm) and of forms is ignored by the code and so by the statement. Refuted: that word spacing is added only after one byte codes.

Modelled: ModelPdf

* `C66_placed` (PropertiesPlace.v): closed under the global context
* `C66_read` (PropertiesPlace.v): closed under the global context
* `C66_determined` (PropertiesPlace.v): closed under the global context
* `C66_word_spacing_refuted` (PropertiesPlace.v): closed under the global context

### C67: The text of a reference is the Hungarian phrase and is read back

Exact phrase for all well formed references; read back proved through the model of the whole grammar. Refuted: reading back two-letter suffixes of articles, ranges over books, suffixed numeric subpoints, and negative years; and that texts of digraph subpoints are unambiguous.

Modelled: ModelRef, ModelGrammar, ModelSem

* `C67_phrase` (PropertiesShow.v): closed under the global context
* `C67_read_back` (PropertiesShow.v): closed under the global context
* `C67_unambiguous` (PropertiesShow.v): closed under the global context
* `C67_article_suffix_refuted` (PropertiesShow.v): closed under the global context
* `C67_books_refuted` (PropertiesShow.v): closed under the global context
* `C67_subpoint_suffix_refuted` (PropertiesShow.v): closed under the global context
* `C67_unambiguous_digraph_refuted` (PropertiesShow.v): closed under the global context
* `C67_year_refuted` (PropertiesShow.v): closed under the global context

### C68: Lines, pages and raw acts are written as they stand on the page

Exact in both directions for lines and pages.

Modelled: ModelMain (output/mod.rs), ModelOut

* `C68_line` (PropertiesMain.v): closed under the global context
* `C68_pages` (PropertiesMain.v): closed under the global context
* `C68_raw` (PropertiesMain.v): closed under the global context
* `C68_read_back` (PropertiesMain.v): closed under the global context

### C69: An editor session stores exactly the changes made in the editor

For lines without spaces at their ends (others are refused), and editors that keep five bytes before every text. Refuted: that an emptied row, as the error message suggests for deleting a line, is handled (it panics).

Modelled: ModelMain, ModelText

* `C69_file` (PropertiesMain.v): closed under the global context
* `C69_opened` (PropertiesMain.v): closed under the global context
* `C69_session` (PropertiesMain.v): closed under the global context
* `C69_untouched` (PropertiesMain.v): closed under the global context
* `C69_next_load` (PropertiesMain.v): closed under the global context
* `C69_empty_line_refuted` (PropertiesMain.v): closed under the global context

### C70: The program writes exactly the requested acts, each to its own output

A relation for whole runs, with consequences. Refuted: that the exit status tells of unread issues or missing acts, that a failed act leaves no empty file, and that a forced editor writes the text once.

Modelled: ModelMain; downloading, files, JSON, YAML and the person are arguments

* `C70_run` (PropertiesMain.v): closed under the global context
* `C70_alone` (PropertiesMain.v): closed under the global context
* `C70_written` (PropertiesMain.v): closed under the global context
* `C70_all_written` (PropertiesMain.v): closed under the global context
* `C70_files` (PropertiesMain.v): closed under the global context
* `C70_act` (PropertiesMain.v): closed under the global context
* `C70_no_panic` (PropertiesMain.v): closed under the global context
* `C70_lines_no_panic` (PropertiesMain.v): closed under the global context
* `C70_exit_status_refuted` (PropertiesMain.v): closed under the global context
* `C70_missing_act_refuted` (PropertiesMain.v): closed under the global context
* `C70_empty_file_refuted` (PropertiesMain.v): closed under the global context
* `C70_forced_refuted` (PropertiesMain.v): closed under the global context

### C71: A sentence of replacement is read as written

From the text of the sentence to its semantic information, through the grammar and all conversions.

Modelled: ModelGrammar, ModelSem

* `C71_replacement` (PropertiesSay.v): closed under the global context

### C72: A sentence of insertion is read as written

As C71. Sentences that insert two articles, or replace and insert at once, are not covered.

Modelled: ModelGrammar, ModelSem

* `C72_insertion` (PropertiesSay.v): closed under the global context

### C73: A sentence of enforcement is read as written

Sentences about the whole act only; parts of the act that come into force on other days are not covered.

Modelled: ModelGrammar, ModelSem

* `C73_enforcement` (PropertiesSay.v): closed under the global context

### C74: A sentence of repeal is read as written

Each element of the list is one reference (an element or a range); enumerations inside a level such as "(2) és (3) bekezdése", structural elements, article titles, intro and closing parts and attachments in the list are not covered.

Modelled: ModelGrammar, ModelSem

* `C74_repeal` (PropertiesSay2.v): closed under the global context

### C75: A text amendment is read as written

The list of references is as in C74: enumerations inside a level, structural elements, article titles, intro and closing parts and attachments are not covered.

Modelled: ModelGrammar, ModelSem

* `C75_text` (PropertiesSay2.v): closed under the global context

### C76: A sentence bringing parts of an act into force is read as written

The list of references is as in C74; structural elements, subtitles and attachments in the list are not covered. The list does not begin with point a), which the grammar tries to read as an exception.

Modelled: ModelGrammar, ModelSem

* `C76_parts` (PropertiesSay2.v): closed under the global context
* `C76_exception` (PropertiesSay2.v): closed under the global context

### C77: A sentence replacing or adding a chapter, part or title of an act is read as written

Chapters, parts and titles; subtitles are in C78. The element which the amended one is in is named without a book: with one, the book is lost (C77_book_of_parent_refuted).

Modelled: ModelGrammar, ModelSem

* `C77_structural` (PropertiesSay3.v): closed under the global context
* `C77_book_of_parent_refuted` (PropertiesSay3.v): closed under the global context

### C78: A sentence replacing or adding a subtitle of an act is read as written

A subtitle beside an article, with an article, or with a number or title of its own. A subtitle with a number or title cannot be replaced together with an article (C78_replaced_with_article_refuted); that only the title of a subtitle beside an article is replaced is lost (C78_title_beside_refuted); "lépnek" is not read (C78_plural_refuted).

Modelled: ModelGrammar, ModelSem

* `C78_subtitles` (PropertiesSay4.v): closed under the global context
* `C78_title_beside_refuted` (PropertiesSay4.v): closed under the global context
* `C78_replaced_with_article_refuted` (PropertiesSay4.v): closed under the global context
* `C78_plural_refuted` (PropertiesSay4.v): closed under the global context

### C79: A sentence that replaces and adds elements at once, or in a part of an act, is read as written

At least one joining word is needed between the halves: without one the grammar eats the space before the second name. A part, title or chapter, or another act, named only in the second half is lost (C79_second_element_refuted, C79_second_act_refuted).

Modelled: ModelGrammar, ModelSem

* `C79_block` (PropertiesSay5.v): closed under the global context
* `C79_second_element_refuted` (PropertiesSay5.v): closed under the global context
* `C79_second_act_refuted` (PropertiesSay5.v): closed under the global context

### C80: The references in ordinary sentences are found, each at its place, and nothing else is

References to attachments, several articles under one paragraph sign ("5. és 6. §") and introductions of abbreviations are not among the pieces. An act followed by a paragraph or point without an article is lost (C80_act_is_found_refuted).

Modelled: ModelGrammar, ModelSem

* `C80_text` (PropertiesSay6.v): closed under the global context
* `C80_act` (PropertiesSay6.v): closed under the global context
* `C80_act_is_found_refuted` (PropertiesSay6.v): closed under the global context

### C81: Sentences that introduce abbreviations teach them, and use them

Introductions inside amending sentences and repeals are not described. An abbreviation introduced again changes the meaning of the words before (C81_order_refuted).

Modelled: ModelGrammar, ModelSem

* `C81_text` (PropertiesSay7.v): closed under the global context
* `C81_order_refuted` (PropertiesSay7.v): closed under the global context

### C82: Acts with sentences of every described kind are read as written, one sentence after the other

Every sentence of the act is of a kind described by C71-C81; acts with other sentences are covered by C50 (each text gets what the grammar reads from its sentence) and C57-C60.

Modelled: ModelGrammar, ModelSem, ModelWalk

* `C82_act` (PropertiesSay7.v): closed under the global context

### C83: Adding semantic information changes nothing but the information and the abbreviations

Modelled: ModelSem, ModelWalk

* `C83_rest` (PropertiesSay8.v): closed under the global context
* `C83_determined` (PropertiesSay8.v): closed under the global context
* `C83_act` (PropertiesSay8.v): closed under the global context
* `C83_rest_article` (PropertiesSay8.v): closed under the global context
* `C83_article_determined` (PropertiesSay8.v): closed under the global context
* `C83_article` (PropertiesSay8.v): closed under the global context

### C84: An act written in lines becomes exactly this act, with all that is said in it

For acts whose sentences are all of the kinds of C71-C81; acts with other sentences are covered by C33-C70 stage by stage.

Modelled: ModelStruct, ModelSem, ModelGrammar, ModelConvert, ModelMain

* `C84_act` (PropertiesSay8.v): closed under the global context
* `C84_one` (PropertiesSay8.v): closed under the global context
* `C84_program` (PropertiesSay8.v): closed under the global context

### C85: Acts written to JSON or YAML are read back unchanged, and whatever is read is valid

For the tree of values between the types and the text; the text of JSON and YAML and the reading of dates are external. Digraphs are refuted.

Modelled: ModelSave

* `C85_roundtrip` (PropertiesSave.v): closed under the global context
* `C85_injective` (PropertiesSave.v): closed under the global context
* `C85_loaded` (PropertiesSave.v): closed under the global context
* `C85_exact` (PropertiesSave.v): closed under the global context
* `C85_reference` (PropertiesSave.v): closed under the global context
* `C85_digraph_refuted` (PropertiesSave.v): closed under the global context

### C86: Whatever the program makes of an issue can be stored and is read back unchanged

For texts of less than 2^64 bytes; roman::from is any reader giving an i32 and chrono any reader of the dates of the calendar.

Modelled: ModelMk, ModelStruct, ModelSem, ModelWalk, ModelSave

* `C86_issue` (PropertiesKeep.v): closed under the global context
* `C86_structure` (PropertiesKeep.v): closed under the global context
* `C86_inform` (PropertiesKeep.v): closed under the global context
* `C86_places` (PropertiesKeep.v): closed under the global context
* `C86_convert` (PropertiesKeep.v): closed under the global context
* `C86_stored` (PropertiesKeep.v): closed under the global context
* `C86_calendar` (PropertiesKeep.v): closed under the global context

### C87: The files a run of the program leaves can be loaded, and a successful run leaves all acts

The text of JSON and YAML is external: any writer and reader that fit together. Texts of elements have less than 2^64 bytes.

Modelled: ModelMain, ModelSave

* `C87_alone` (PropertiesDisk.v): closed under the global context
* `C87_session` (PropertiesDisk.v): closed under the global context
* `C87_complete` (PropertiesDisk.v): closed under the global context
* `C87_texts` (PropertiesDisk.v): closed under the global context

### C88: Fixups saved in a file are loaded unchanged and never touch those of another act

Directories can be created and files opened; the text of YAML is external.

Modelled: ModelFixup

* `C88_saved` (PropertiesFixup.v): closed under the global context
* `C88_others` (PropertiesFixup.v): closed under the global context
* `C88_store` (PropertiesFixup.v): closed under the global context
* `C88_paths` (PropertiesFixup.v): closed under the global context
* `C88_place` (PropertiesFixup.v): closed under the global context
* `C88_form` (PropertiesFixup.v): closed under the global context
* `C88_none` (PropertiesFixup.v): closed under the global context
* `C88_no_panic` (PropertiesFixup.v): closed under the global context

### C89: Issues in the cache are used without asking the server and are never mixed up

The server and the file system are external arguments; a failed write may leave anything in the file it writes, and touches no other.

Modelled: ModelFetch

* `C89_cached` (PropertiesFetch.v): closed under the global context
* `C89_fetched` (PropertiesFetch.v): closed under the global context
* `C89_unreachable` (PropertiesFetch.v): closed under the global context
* `C89_request` (PropertiesFetch.v): closed under the global context
* `C89_source` (PropertiesFetch.v): closed under the global context
* `C89_twice` (PropertiesFetch.v): closed under the global context
* `C89_others` (PropertiesFetch.v): closed under the global context
* `C89_independent` (PropertiesFetch.v): closed under the global context
* `C89_held` (PropertiesFetch.v): closed under the global context
* `C89_asked` (PropertiesFetch.v): closed under the global context
* `C89_function` (PropertiesFetch.v): closed under the global context
* `C89_place` (PropertiesFetch.v): closed under the global context
* `C89_whole_refuted` (PropertiesFetch.v): closed under the global context
