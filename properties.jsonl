{"id": "C01", "title": "Letter identifiers survive printing and re-parsing", "statement": "For every Hungarian letter identifier (a..z and the digraphs cs,dz,gy,ly,ny,sz,ty,zs) parsing its Display output yields the same identifier, parsing its upper-case Display output also yields it, and for every string s accepted by FromStr, printing the result gives the lower-cased s. FromStr rejects every string which is not one of these letters or digraphs.", "quantifier": "all identifier values; all input strings", "why_tests_cant": "Tests sample a few letters; the claim is about every string, in particular that no other string is accepted.", "anchors": ["src/identifier/alphabetic.rs::HungarianIdentifierChar", "src/identifier/alphabetic.rs::FromStr", "src/identifier/alphabetic.rs::Display"]}
{"id": "C02", "title": "Numeric identifiers survive printing and re-parsing", "statement": "For every numeric identifier (u16 number, optional letter suffix) parse(to_string(x)) = x and parse(with_slash(x)) = x. FromStr accepts exactly the strings digits + optional ('/'? + letter suffix) whose digits fit u16 (and the accepted value is the one written), and rejects everything else without panicking.", "quantifier": "all u16 numbers x all suffixes; all input strings", "why_tests_cant": "65536*35 values times two formats, and an infinite set of malformed strings.", "anchors": ["src/identifier/numeric.rs::NumericIdentifier", "src/identifier/numeric.rs::split_suffix", "src/identifier/numeric.rs::FromStr", "src/identifier/numeric.rs::with_slash"]}
{"id": "C03", "title": "Article, paragraph and prefixed-letter identifiers survive printing and re-parsing", "statement": "parse(to_string(x)) = x for every ArticleIdentifier (optional u8 book) and every ParagraphIdentifier (including the empty one); for PrefixedAlphabeticIdentifier it holds for every value made of plain Latin letters (the only ones FromStr produces), and each value produced by FromStr prints back to the (lower-cased) input.", "quantifier": "all identifier values; all input strings", "why_tests_cant": "Unbounded input strings; interaction of ':' and '/' separators and the empty string.", "anchors": ["src/identifier/article.rs::FromStr", "src/identifier/paragraph.rs::FromStr", "src/identifier/prefixed_alphabetic.rs::FromStr"]}
{"id": "C04", "title": "Compact strings of identifiers are lossless", "statement": "For every identifier, identifier range and optional identifier, from_compact_string(compact_string(x)) = x; hence two different values never share a compact string.", "quantifier": "all values of act, article, numeric, alphabetic identifiers, ranges of them and options of them", "why_tests_cant": "Injectivity is a statement about all pairs of values; separators ('.', '-', '_') of nested encodings must never clash.", "anchors": ["src/util/compact_string.rs", "src/identifier/range.rs::CompactStringHelper", "src/identifier/act.rs::ActIdentifier"]}
{"id": "C05", "title": "Identifier ordering is a total order that follows the legal numbering", "statement": "The derived/implemented comparison on letter, numeric, article, paragraph, prefixed and act identifiers is a strict total order consistent with ==, and follows legal order: a<b<c<cs<d..., 1<1a<1b<2, and book before article number.", "quantifier": "all pairs and triples of identifiers", "why_tests_cant": "Transitivity/totality quantify over all triples.", "anchors": ["src/identifier/alphabetic.rs::Ord", "src/identifier/numeric.rs::NumericIdentifier", "src/identifier/article.rs::ArticleIdentifier"]}
{"id": "C06", "title": "'is next from' means strictly later, with no wrap-around", "statement": "If x.is_next_from(y) then y < x; an identifier is never next from itself; (letters) each identifier has at most one plain alphabetical predecessor chain. For numeric and article identifiers the code uses wrapping subtraction, so the implication is false at the integer boundary (0 after 65535; book 0 after book 255) and true everywhere else.", "quantifier": "all pairs of identifiers", "why_tests_cant": "The counterexamples sit at one point of a 2^32 pair space; the positive claim covers all the others.", "anchors": ["src/identifier/numeric.rs::is_next_from", "src/identifier/article.rs::is_next_from", "src/identifier/alphabetic.rs::is_next_from"]}
{"id": "C07", "title": "A consecutive identifier chain has no duplicates and is sorted", "statement": "If every element of a list of identifiers is 'next from' the element before it and the first is 'first', the list is strictly increasing and duplicate free.", "quantifier": "all lists of identifiers of any length", "why_tests_cant": "Unbounded list length.", "anchors": ["src/identifier/mod.rs::IdentifierCommon", "src/identifier/numeric.rs::is_next_from"]}
{"id": "C08", "title": "Every reference obtainable through the API is well formed", "statement": "Whatever sequence of public operations produced it (builder, from_compact_string, make_range, relative_to, parent, first_in_range, last_in_range, without_act, conversions), a Reference never has a gap in its parts below the first present one that the type forbids (subpoint without point under an article/paragraph, paragraph or point under an act without article ...), and only its last present part may be a real range.", "quantifier": "all finite sequences of API calls with all arguments", "why_tests_cant": "Invariant over arbitrary operation histories.", "anchors": ["src/reference/unchecked.rs::check_part_combination", "src/reference/unchecked.rs::check_ranges", "src/reference/mod.rs::Reference", "src/reference/builder.rs::ReferenceBuilder"]}
{"id": "C09", "title": "Setting a reference part clears exactly the finer parts", "statement": "After any sequence of set_part calls the builder holds, for each level, the last value set at that level unless a coarser level was set later, in which case it holds none; build succeeds exactly when that combination is well formed.", "quantifier": "all sequences of set_part calls", "why_tests_cant": "Unbounded call sequences.", "anchors": ["src/reference/builder.rs::ReferenceBuilder", "src/reference/builder.rs::ReferenceBuilderSetPart"]}
{"id": "C10", "title": "References survive the compact string", "statement": "For every well-formed Reference r whose letters are representable, from_compact_string(compact_string(r)) = r, so distinct references have distinct compact strings.", "quantifier": "all references", "why_tests_cant": "Nested separators, optional parts and ranges make an infinite product space.", "anchors": ["src/reference/string.rs::CompactString"]}
{"id": "C11", "title": "Resolving references relative to a base is associative and keeps absolute references", "statement": "r.relative_to(b) keeps every part of r, only takes parts coarser than r's coarsest from b, leaves references with an act untouched, is the identity for an empty base, and (a rel b) rel c = a rel (b rel c) whenever both sides are defined.", "quantifier": "all triples of references", "why_tests_cant": "Triples of 5-part optional-range records.", "anchors": ["src/reference/mod.rs::relative_to"]}
{"id": "C12", "title": "Taking parents removes exactly the finest part and terminates", "statement": "parent() removes exactly the finest present part and keeps the others, so after at most five steps it reaches the empty reference; a non-empty reference is never its own parent.", "quantifier": "all references", "why_tests_cant": "All combinations of present parts.", "anchors": ["src/reference/mod.rs::parent"]}
{"id": "C13", "title": "is_parent_of agrees with 'is a proper prefix'", "statement": "a.is_parent_of(b) iff b agrees with a on all of a's parts and b has at least one finer part. The code violates this when a skips the paragraph level (e.g. 1. § a) is reported as parent of 1. § (2)); it holds when a has no skipped level.", "quantifier": "all pairs of references", "why_tests_cant": "Pair space of 5-part records; the violation needs a skipped middle part.", "anchors": ["src/reference/mod.rs::is_parent_of"]}
{"id": "C14", "title": "contains is reflexive and monotone", "statement": "Every reference contains itself, contains its range endpoints, and containment is transitive for references without a skipped level; the comment 'the empty reference contains everything' is false for references with an act.", "quantifier": "all triples of references", "why_tests_cant": "Quantifies over triples; interplay of range containment and parenthood.", "anchors": ["src/reference/mod.rs::contains", "src/reference/mod.rs::is_parent_of"]}
{"id": "C15", "title": "make_range covers exactly from its start to its end", "statement": "If a.make_range(b) = r then r.first_in_range() = a.first_in_range(), r.last_in_range() = b.last_in_range(), a and b agree on all parts except the last; make_range(a,a)=a; and it fails exactly when the two do not differ in only the finest part of the same kind.", "quantifier": "all pairs of references", "why_tests_cant": "Error conditions are spread over a four-level decision ladder.", "anchors": ["src/reference/mod.rs::make_range"]}
{"id": "C16", "title": "Range endpoints are single and inside the range", "statement": "first_in_range/last_in_range never contain real ranges, are idempotent, keep the set of present parts and are contained in r (when its ranges are ordered).", "quantifier": "all references", "why_tests_cant": "All references including reversed ranges.", "anchors": ["src/reference/mod.rs::first_in_range", "src/reference/mod.rs::last_in_range"]}
{"id": "C17", "title": "get_last_part returns the finest present part", "statement": "get_last_part() is Empty iff the reference is empty, otherwise it is the finest present part with its value.", "quantifier": "all references", "why_tests_cant": "Small decision ladder, all combinations.", "anchors": ["src/reference/mod.rs::get_last_part"]}
{"id": "C18", "title": "Slicing a line is slicing its characters", "statement": "For every line and all (possibly negative) indices, content(slice(a,b)) is the corresponding character slice of content, slice(0,None) has equal content, and splitting at any index and concatenating the contents gives the original content; no index panics.", "quantifier": "all lines and all integer indices", "why_tests_cant": "Index arithmetic with clamping and negative offsets over arbitrary part lists.", "anchors": ["src/util/indentedline.rs::slice", "src/util/indentedline.rs::convert_index"]}
{"id": "C19", "title": "Indentation and boldness of slices are positional", "statement": "indent_at(i) is the x coordinate of the i-th character and slice(i,..) starts at indent_at(i); a line is bold iff more than two thirds of its characters are bold.", "quantifier": "all lines and indices", "why_tests_cant": "Sum over arbitrary part lists.", "anchors": ["src/util/indentedline.rs::indent_at", "src/util/indentedline.rs::from_parts"]}
{"id": "C20", "title": "Joining lines loses no text", "statement": "append_to only ever inserts a single space between existing text and the line, never changes or drops other characters; no space is inserted after a hyphen unless the continuation starts with 'és ' or 'vagy '. Deleting spaces from join(lines) equals deleting spaces from the concatenation of the lines.", "quantifier": "all line lists", "why_tests_cant": "Unbounded lists, arbitrary text.", "anchors": ["src/util/indentedline.rs::append_to", "src/util/indentedline.rs::join"]}
{"id": "C21", "title": "Quote tracking equals net quote depth", "statement": "After any sequence of lines the quote tracker is open iff the number of opening quotes exceeds the closing ones; it reports an error exactly at the first line end where the text so far closes more quotes than it opened; check_end succeeds iff balanced.", "quantifier": "all texts", "why_tests_cant": "Property over all prefixes of arbitrary strings.", "anchors": ["src/util/mod.rs::QuoteCheck"]}
{"id": "C22", "title": "A text fixup changes exactly one line, the intended one", "statement": "Fixup.apply succeeds iff the context lines followed by the old line occur exactly once; then only that line changes, its content becomes the requested replacement, the number of lines is unchanged (or exactly that line is removed) and the indent of the line's common prefix is preserved; on failure the body is unchanged.", "quantifier": "all bodies and fixups", "why_tests_cant": "Uniqueness over arbitrary line lists.", "anchors": ["src/fixups.rs::Fixup", "src/fixups.rs::apply_to_line"]}
{"id": "C23", "title": "A fixup list is applied in order or fails as a whole", "statement": "Fixups.apply(body) is the left-to-right composition of the single fixups and returns an error as soon as one fails; the result on success depends only on the body and list.", "quantifier": "all fixup lists", "why_tests_cant": "Unbounded lists.", "anchors": ["src/fixups.rs::Fixups"]}
{"id": "C24", "title": "The fixup editor's recorded fixups reproduce the edit", "statement": "Whenever update_fixups succeeds for a (body, edited text) pair, re-applying the recorded fixups to the body gives text equal to the edit, line by line, and the loop terminates.", "quantifier": "all bodies and all edits with the same number of lines", "why_tests_cant": "Loop over arbitrary many edits with a search for unique context.", "anchors": ["src/bin/hun_law/fixup_editor.rs::update_fixups", "src/fixups.rs::Fixup"]}
{"id": "C25", "title": "Fixups recorded on the cleaned body can be re-applied on reload", "statement": "Recorded fixups are computed against the body after double-empty-line removal but re-applied before it; the property 'they re-apply' is false when the recorded context spans a collapsed empty run.", "quantifier": "all raw bodies and edits", "why_tests_cant": "Needs a body where the context window spans removed lines.", "anchors": ["src/bin/hun_law/fixup_editor.rs::update_fixups", "src/bin/hun_law/main.rs::process_single_act", "src/parser/mk_act_section.rs::remove_double_empty_lines"]}
{"id": "C26", "title": "Collapsing double empty lines keeps all text", "statement": "remove_double_empty_lines keeps every non-empty line in order, leaves no two adjacent empty lines, keeps at least one empty line where there was one between texts, and is idempotent.", "quantifier": "all bodies", "why_tests_cant": "Unbounded lists.", "anchors": ["src/parser/mk_act_section.rs::remove_double_empty_lines"]}
{"id": "C27", "title": "Extracted acts contain exactly the lines between header and signature", "statement": "For a well-formed section (empty line, act header, subject ending in '*', body, optional asterisk footer, signature block) the extractor returns one act per such block, in order, whose body is exactly the body lines without footer and signature; lines outside are dropped. A header that is preceded by two consecutive empty lines is missed (violated by the code).", "quantifier": "all page contents of that shape; all state-machine inputs", "why_tests_cant": "State machine over unbounded input.", "anchors": ["src/parser/mk_act_section.rs::ActExtractor", "src/parser/mk_act_section.rs::parse_mk_pages_into_acts"]}
{"id": "C28", "title": "Sibling identifiers of parsed elements are consecutive", "statement": "In every element tree returned by the structure parser, each list of siblings starts with a 'first' identifier (where required) and each next sibling 'is next from' the previous one, there are at least two children in each list, hence identifiers are strictly increasing.", "quantifier": "all lists of lines accepted by the parser", "why_tests_cant": "Recursive parser over unbounded text.", "anchors": ["src/parser/structure/sae.rs::extract_multiple", "src/parser/structure/sae.rs::parse"]}
{"id": "C29", "title": "Parsing sub-article elements loses no text", "statement": "Concatenating (without spaces) headers, intros, texts and wrap-ups of the parsed tree in order gives the concatenation of the input lines without spaces.", "quantifier": "all lists of lines accepted by the parser", "why_tests_cant": "Recursive parser over unbounded text.", "anchors": ["src/parser/structure/sae.rs::SAEParser"]}
{"id": "C30", "title": "Act-level parsing loses no lines and keeps article order", "statement": "Every line fed to the act parser ends up in exactly one of preamble, structural element, subtitle or article, in order; article identifiers of the act form a consecutive chain within a book.", "quantifier": "all bodies accepted by the parser", "why_tests_cant": "Line-driven state machine over unbounded input.", "anchors": ["src/parser/structure/act.rs::ActParser", "src/parser/structure/article.rs::ArticleParser"]}
{"id": "C31", "title": "Quoted text never starts a new element", "statement": "While a quote is open, lines that look like article, paragraph, point or structural headers do not start a new element in the surrounding act.", "quantifier": "all bodies", "why_tests_cant": "Any nesting and any line content inside quotes.", "anchors": ["src/parser/structure/act.rs::ActParser", "src/parser/structure/sae.rs::extract_multiple", "src/util/mod.rs::QuoteCheck"]}
{"id": "C32", "title": "The structure parser never panics", "statement": "Parsing any body returns Ok or Err. False in the code: an article whose bracketed title consumes all its lines makes ArticleParser::finish index an empty list.", "quantifier": "all bodies", "why_tests_cant": "One degenerate shape among infinitely many.", "anchors": ["src/parser/structure/article.rs::finish"]}
{"id": "C33", "title": "The walker visits every sub-article element once, in document order, with its own reference", "statement": "walk_saes calls enter/exit exactly once per paragraph/point/subpoint below articles, properly nested, children in order; the position passed equals the element's reference resolved against its article and act.", "quantifier": "all acts", "why_tests_cant": "Recursive data of arbitrary size.", "anchors": ["src/util/walker.rs::WalkSAE", "src/util/walker.rs::SAEVisitor"]}
{"id": "C34", "title": "The mutating walker applies the visitor and nothing else", "statement": "walk_saes_mut calls the visitor on the same sequence of positions as walk_saes; with a visitor that does not modify elements the act is unchanged; on error it stops immediately.", "quantifier": "all acts and visitors", "why_tests_cant": "Arbitrary visitors and trees.", "anchors": ["src/util/walker.rs::WalkSAEMut", "src/util/walker.rs::SAEVisitorMut"]}
{"id": "C35", "title": "Block amendment conversion touches only quoted blocks it can convert", "statement": "convert_block_amendments leaves all paragraphs without a matching semantic phrase or without a single quoted block unchanged, keeps intro and wrap-up text of converted ones, and on error leaves the act unchanged (the last is violated: the intro of the failing block is lost).", "quantifier": "all acts", "why_tests_cant": "Error atomicity over arbitrary trees.", "anchors": ["src/parser/structure/block_amendment.rs::convert_block_amendments"]}
{"id": "C36", "title": "The abbreviation cache is a last-write-wins map and reports changes exactly", "statement": "resolve returns the last act added under the abbreviation (or the initial one), never anything else; has_changed is true iff some add changed the map at the time; adding the same list twice reports no further change in contents.", "quantifier": "all sequences of adds", "why_tests_cant": "Unbounded histories.", "anchors": ["src/parser/semantic_info/abbreviation.rs::AbbreviationCache"]}
{"id": "C37", "title": "Outgoing reference positions are ordered, disjoint and inside the text", "statement": "If grammar positions are ordered and disjoint, the positions of the recorded outgoing references are ordered and disjoint, and after adjustment to the element's own text lie inside it. The last is violated when a full stop was appended to the parsed text and the reference ends with it.", "quantifier": "all grammar outputs with ordered positions; all prefixes/postfixes", "why_tests_cant": "Offset arithmetic over arbitrary strings.", "anchors": ["src/parser/semantic_info/reference.rs::OutgoingReferenceBuilder", "src/parser/semantic_info/sae.rs::adjust_outgoing_reference", "src/parser/semantic_info/sae.rs::assemble_to_be_parsed_text"]}
{"id": "C38", "title": "Colouring references in text output does not alter the text", "statement": "For ordered, disjoint, in-range reference positions the pieces produced for text output concatenate to the original text and the flagged pieces are exactly the referenced substrings; otherwise the code panics.", "quantifier": "all texts and reference lists", "why_tests_cant": "Arbitrary positions and multi-byte text.", "anchors": ["src/output/text.rs::split_string_at_references"]}
{"id": "C39", "title": "Text amendments and repeals are the full cross product in order", "statement": "Converting a text amendment yields exactly one replacement entry per (reference, from/to pair), all with the act resolved; a repeal with texts yields the same with empty replacement and one without texts yields plain repeals.", "quantifier": "all grammar outputs", "why_tests_cant": "Arbitrary list lengths.", "anchors": ["src/parser/semantic_info/text_amendment.rs", "src/parser/semantic_info/repeal.rs"]}
{"id": "C40", "title": "Enforcement dates are classified exhaustively", "statement": "Converting an enforcement date keeps all positions in order, and the date part is converted to exactly the kind written (date, days after publication, day of month after publication), rejecting invalid numbers.", "quantifier": "all grammar outputs", "why_tests_cant": "Arbitrary lists and numerals.", "anchors": ["src/parser/semantic_info/enforcement_date.rs::convert_enforcement_date"]}
{"id": "C41", "title": "Hungarian ordinals round-trip", "statement": "For every n in 0..=100, from_hungarian(to_hungarian(n)) = n in lower, upper and capitalised form; no two numbers share a word; numbers above 100 are rejected without panic.", "quantifier": "all numbers; all strings", "why_tests_cant": "Uniqueness of 303 generated words and rejection of every other string.", "anchors": ["build.rs::generate_hun_strs", "src/util/hun_str.rs"]}
{"id": "C42", "title": "Hungarian dates are parsed to the date written", "statement": "NaiveDate::from_hungarian accepts a string iff it starts with four digits, a character, ' ', a month name, ' ', a day of one or two digits (greedy) and one more character, and these name a valid calendar date, which is returned; in particular 'YYYY. month D.' and 'YYYY. month DD.' are read as written. That the dots are required, or that a missing last dot is harmless, is violated by the code.", "quantifier": "all strings", "why_tests_cant": "Unbounded strings.", "anchors": ["src/util/hun_str.rs::FromHungarianString"]}
{"id": "C43", "title": "Page line assembly conserves characters", "statement": "Turning positioned characters into lines keeps every non-space character exactly once, grouped by line from top to bottom and left to right in each line; only spaces and empty lines are added or removed.", "quantifier": "all lists of positioned characters", "why_tests_cant": "Sorting/grouping over arbitrary geometry.", "anchors": ["src/parser/pdf/page_of_lines.rs"]}
{"id": "C44", "title": "PDF graphics state is restored by balanced save/restore", "statement": "Any balanced sequence of save/restore operations leaves the state unchanged from the caller's viewpoint; an unmatched restore is an error, not a panic.", "quantifier": "all operation sequences", "why_tests_cant": "Unbounded nesting.", "anchors": ["src/parser/pdf/page.rs"]}
{"id": "C45", "title": "Characters outside the crop box never reach the output and those inside always do", "statement": "Rendering a character keeps it iff its position is within the crop box; the quirk mapping only ever affects the documented characters.", "quantifier": "all positions and characters", "why_tests_cant": "Continuous coordinates.", "anchors": ["src/parser/pdf/collector.rs::CharCollector"]}
{"id": "C46", "title": "Gazette issue keys are parsed and formed unambiguously", "statement": "MkIssue parsing accepts exactly YEAR/ISSUE and two issues share a cache file only if equal; download URLs of issues in the same century are distinct (but not across centuries). The issues looked up for a list of acts are exactly the acts' issues, each once, in order; an unknown act is an error.", "quantifier": "all strings and issue pairs", "why_tests_cant": "Injectivity over all pairs.", "anchors": ["src/mk_downloader.rs::MkIssue"]}
{"id": "C47", "title": "Structural headers round-trip", "statement": "For each structural element type and identifier for which a header can be printed, parsing the printed header with the same type and expected-next identifier recognises it and yields the same identifier.", "quantifier": "all element types and identifiers", "why_tests_cant": "All identifiers in roman/Hungarian/numeric notation.", "anchors": ["src/structure.rs::StructuralElementType", "src/parser/structure/structural_element.rs"]}
{"id": "C48", "title": "An element is found by its own reference", "statement": "For every article/paragraph/point/subpoint in an act, the reference computed for the element resolves (article lookup) to that element, and building references from identifiers of nested elements always succeeds.", "quantifier": "all acts", "why_tests_cant": "Recursive data.", "anchors": ["src/reference/to_element.rs", "src/structure.rs::Act"]}
{"id": "C49", "title": "Quoted blocks are extracted whole", "statement": "The quoted block parser returns intro, quoted lines and wrap-up whose text concatenation is the input; quotes are balanced in the extracted block; nested quotes stay inside.", "quantifier": "all line lists accepted by the parser", "why_tests_cant": "State machine over unbounded input with nesting.", "anchors": ["src/parser/structure/quote.rs::QuotedBlockParser"]}
{"id": "C50", "title": "The text given to the grammar is the element in its sentence context", "statement": "While adding semantic information, the text parsed for an element is the concatenation of all ancestors' intros, its own text (minus trailing conjunctions), and the ancestors' wrap-ups innermost first; the stacks are balanced after each element.", "quantifier": "all acts", "why_tests_cant": "Recursion depth and arbitrary texts.", "anchors": ["src/parser/semantic_info/sae.rs::SemanticInfoAdder"]}
{"id": "C51", "title": "An abbreviation in text refers to the one that was defined", "statement": "The abbreviation found at a text position should be the longest known abbreviation that is a prefix; the code takes the first in list order, so the claim is false when one abbreviation is a prefix of another.", "quantifier": "all lists of known abbreviations and texts", "why_tests_cant": "Depends on the insertion order of arbitrary abbreviation sets.", "anchors": ["hun_law_grammar/src/lib.rs::parse_abbreviation"]}
{"id": "C52", "title": "Printing an act identifier never fails", "statement": "Every ActIdentifier that can be parsed can be displayed. False: numbers outside the roman numeral range are accepted by FromStr and from_compact_string and panic in Display; for numbers 1..3999 display/parse round-trips.", "quantifier": "all act identifiers", "why_tests_cant": "Boundary of an external numeral crate.", "anchors": ["src/identifier/act.rs::Display", "src/identifier/act.rs::FromStr"]}
{"id": "C53", "title": "Text output loses no text", "statement": "The plain text output of an act consists, up to white space, of the texts and headers of all of its elements in document order, with the contents of amendments between quotation marks.", "quantifier": "all acts, page widths and wrapping functions that keep the characters other than white space", "why_tests_cant": "Acts nest without bound; the tests compare a few samples.", "anchors": ["src/output/text.rs::TextOutput"]}
{"id": "C54", "title": "Text output does not panic", "statement": "Writing an act as text does not panic when the page is at least five characters wide per indentation level, the act number has a roman numeral and the recorded references can be cut from the texts. On a narrower page it panics.", "quantifier": "all acts, widths and colour settings", "why_tests_cant": "Depends on width, nesting depth and recorded byte positions together.", "anchors": ["src/output/text.rs::write_wrapped_line", "src/output/text.rs::split_string_at_references"]}
{"id": "C55", "title": "What a character code means in a font", "statement": "The text of a code is the last string mapping, else the last character mapping, among base encoding, differences and unicode map; else the code itself for identity fonts; else unknown, and drawing an unknown code is an error.", "quantifier": "all fonts and codes", "why_tests_cant": "Fonts combine arbitrary tables.", "anchors": ["src/parser/pdf/font.rs::FastFont"]}
{"id": "C56", "title": "The font cache and the other pages do not change what a page says", "statement": "With a different address for each font, setting a font sets the one named by the resources, and parsing a file gives the results of parsing each page by itself.", "quantifier": "all files", "why_tests_cant": "Depends on the order and number of pages and fonts.", "anchors": ["src/parser/pdf/font.rs::FontCache", "src/parser/pdf/mod.rs::parse_pdf"]}
{"id": "C57", "title": "The grammar gives places inside the text, in order, between characters", "statement": "For every text, the parts the grammar reports are non-empty, follow one another, end inside the text and begin and end between characters; the references recorded for an act can be cut from the element's text with its full stop, and printing the act does not panic if they end inside the text or the text is closed.", "quantifier": "all texts, known abbreviations and acts", "why_tests_cant": "Data tests compare positions of a few sentences; slicing panics depend on multi-byte characters and rule combinations.", "anchors": ["hun_law_grammar/grammar.ebnf", "src/parser/semantic_info/reference.rs::OutgoingReferenceBuilder", "src/output/text.rs"]}
{"id": "C58", "title": "Words captured by the grammar have the form of their level and can be read", "statement": "Everything the grammar captures is a piece of the text of the form of its level (numbers, letters, ranges with both ends, months, ordinals, quoted texts); with short numbers and known acts every part of a reference denotes something.", "quantifier": "all texts and known abbreviations", "why_tests_cant": "The conversions unwrap or fail on unexpected words; only a proof covers all words the rules accept.", "anchors": ["hun_law_grammar/grammar.ebnf", "src/parser/semantic_info/reference.rs", "src/identifier/mod.rs"]}
{"id": "C59", "title": "Abbreviations come from the text", "statement": "An abbreviation the grammar reports was known or is introduced in the text with 'továbbiakban'; the abbreviations of an act after adding semantic information are its earlier ones and those introduced in one of its sentences.", "quantifier": "all texts, known abbreviations and acts", "why_tests_cant": "Parser state survives backtracking, so any failed rule could leave abbreviations behind.", "anchors": ["hun_law_grammar/src/lib.rs::store_abbreviation", "hun_law_grammar/src/lib.rs::parse_abbreviation", "src/parser/semantic_info/abbreviation.rs"]}
{"id": "C60", "title": "The grammar reads every text and always ends", "statement": "If no known abbreviation is empty, parsing ends without panic on every text and refuses exactly the texts of white space; adding semantic information with it never panics.", "quantifier": "all texts, known abbreviations and acts", "why_tests_cant": "Non-termination and refusal for some text cannot be excluded by examples.", "anchors": ["hun_law_grammar/grammar.ebnf", "hun_law_grammar/src/lib.rs::grammar_parse", "src/parser/semantic_info/mod.rs"]}
{"id": "C61", "title": "Header lines are recognised exactly", "statement": "A line is read as the header of a paragraph, point, sub-point or article if and only if it has the form of one: the label, spaces, and a rest that does not begin with a word such as 'pont'. The identifier is the one the label spells and the rest keeps its place. Reading a header panics exactly if nothing follows the label, and is never an error.", "quantifier": "all lines", "why_tests_cant": "Both directions over all lines: tests cannot show that no other line is taken for a header.", "anchors": ["src/parser/structure/sae.rs::parse_header", "src/parser/structure/article.rs"]}
{"id": "C62", "title": "Written points, paragraphs and articles are read back", "statement": "If lines are a written form of a list of sub-points, points, quoted blocks, paragraphs or of an article (headers in order, texts without lines that look like the next header, quotes closed, wrap up back at the margin or, in amendments, after the first line that is not justified), then parsing gives exactly these elements, with exactly their wrap up.", "quantifier": "all lists of elements of any length and all their written forms", "why_tests_cant": "Completeness over all nested lists and layouts.", "anchors": ["src/parser/structure/sae.rs", "src/parser/structure/article.rs"]}
{"id": "C63", "title": "Written acts are read back", "statement": "If lines are a written form of a preamble and of structural elements, subtitles and articles, then parsing the lines gives exactly these. No subtitle of a parsed act is longer than 1500 bytes.", "quantifier": "all acts and all their written forms, all roman numeral and upper case oracles", "why_tests_cant": "Completeness over all acts; tests cover a few samples.", "anchors": ["src/parser/structure/act.rs", "src/parser/structure/structural_element.rs", "src/parser/structure/subtitle.rs"]}
{"id": "C64", "title": "Written amendments are converted", "statement": "If the quoted lines are a written form of the elements the amendment names, then the block amendment converter gives exactly these, with the block's intro and wrap up; if this holds for every quoted amendment of an act, the act is converted without error and nothing else changes.", "quantifier": "all acts, positions and quoted lines", "why_tests_cant": "Completeness over all positions, nested lists and layouts.", "anchors": ["src/parser/structure/block_amendment.rs"]}
{"id": "C65", "title": "Special phrases and new abbreviations mean what the sentence says", "statement": "For every parsed sentence the special phrase is exactly the one the sentence says: a block amendment covers everything from the first to the last element named, whole articles keep their structural parent, subtitles are told by article, place, title or number in this order, pure insertions are marked, and text amendments, repeals and enforcement dates are recognised as such; unreadable parts are errors. The abbreviations introduced are exactly those given with the acts named in the sentence, in order.", "quantifier": "all parsed sentences, abbreviation caches and roman numeral readers", "why_tests_cant": "Tests cover a few sentences; the claim is over all parse trees and all combinations of optional parts.", "anchors": ["src/parser/semantic_info/block_amendment.rs", "src/parser/semantic_info/sae.rs", "src/parser/semantic_info/abbreviation.rs"]}
{"id": "C66", "title": "Characters are found where the page draws them", "statement": "If numbers are not rounded, the characters collected from a page, with their places, widths, spaces and boldness, are exactly those drawn by a pen that moves as the PDF reference says: on a line put on the page by an affine map, moved by glyphs, spacing and adjustments, saved and restored, with texts given for marked glyphs; forms are drawn with their resources and leave the pen where it was. Every page that can be drawn so is read, and the operations determine the characters.", "quantifier": "all pages, forms, fonts, crop boxes and exact arithmetics", "why_tests_cant": "The claim is over all sequences of operations and all matrices; tests read a few PDF files.", "anchors": ["src/parser/pdf/textstate.rs", "src/parser/pdf/page.rs", "src/parser/pdf/collector.rs", "src/parser/pdf/actual_text.rs"]}
{"id": "C67", "title": "The text of a reference is the Hungarian phrase and is read back", "statement": "The displayed text of a well formed reference is the phrase of Hungarian legal texts: the act, then for each level the identifier (or the range with a dash) and the noun, only the last noun possessive. The grammar and the reference collector read this text as exactly the same reference, at its exact place, together with the act in it, whatever usual abbreviations are known, if articles have one-letter suffixes and are of one book, and numeric subpoints have no suffix. Different such references have different texts.", "quantifier": "all references, all lists of known abbreviations beginning with other than a digit, a small letter or a parenthesis", "why_tests_cant": "The claim joins the printer, the grammar and the collector for all identifiers and ranges of all levels; tests have a few dozens of sentences.", "anchors": ["src/reference/string.rs", "src/parser/semantic_info/reference.rs", "hun_law_grammar/grammar.ebnf"]}
{"id": "C68", "title": "Lines, pages and raw acts are written as they stand on the page", "statement": "A line is written with its text in its column (one for every five points of indentation), after the marks for bold and not justified if those are asked for; pages are written in order, each under its number of all pages; the lines of an act are written under its name, subject and ISO date. A line written with its marks is read back by the test helper with the same text, boldness and justification.", "quantifier": "all lines, pages and raw acts; reading back for texts without marks and double spaces", "why_tests_cant": "Tests compare a few outputs; the claim is over all lines, indentations and page counts.", "anchors": ["src/output/mod.rs", "src/util/indentedline.rs", "src/util/debug.rs"]}
{"id": "C69", "title": "An editor session stores exactly the changes made in the editor", "statement": "The file shown in the editor has a row for each line: the number of open quotes at its end and the line in its column, opened at the first place where quotes go wrong. Leaving it unchanged stores no fixup and changes nothing; otherwise the next load of the act gives exactly the lines left in the editor, and the fixups of other acts are not touched.", "quantifier": "all acts, stored fixups and editors that keep the first five bytes of every row", "why_tests_cant": "Sessions with an editor are not tested at all; the claim is over everything a person may do in it.", "anchors": ["src/bin/hun_law/fixup_editor.rs", "src/fixups.rs"]}
{"id": "C70", "title": "The program writes exactly the requested acts, each to its own output", "statement": "A run reads exactly the issues of the acts asked for (or the issues given), in order, and writes the text of every requested act in them to its own file or under its own heading, up to the step and in the format asked for; a failure of one act does not affect others. Different acts have different files. Without questions no fixups change and the run ends; in an interactive run the text written is made with the fixups stored at the end and only fixups of the failing act are added to. The exit status is success exactly if no processed act failed.", "quantifier": "all command lines, records, issues, stored fixups, answers and editors", "why_tests_cant": "The program needs the network and a person; the tests only cover its parts.", "anchors": ["src/bin/hun_law/main.rs", "src/bin/hun_law/fixup_editor.rs", "src/output/mod.rs"]}
{"id": "C71", "title": "A sentence of replacement is read as written", "statement": "A sentence that says that an element of an act is replaced (\"A ... szóló 1997. évi CLV. törvény 5. § (2) bekezdése helyébe a következő rendelkezés lép:\") yields exactly two references, the act and the element, each at its exact bytes, and the phrase of amendment for that element: structural for whole articles, an amendment of the element otherwise.", "quantifier": "all acts named by number with any title or by a known abbreviation, all readable references, all noun endings, the seven endings of such sentences, all caches of abbreviations that do not occur elsewhere in the sentence", "why_tests_cant": "Tests read some sentences of real acts; the claim is over all titles, references and endings.", "anchors": ["src/parser/semantic_info/block_amendment.rs", "src/parser/semantic_info/reference.rs", "src/parser/semantic_info/sae.rs", "hun_law_grammar/grammar.ebnf"]}
{"id": "C72", "title": "A sentence of insertion is read as written", "statement": "A sentence that says that a new element is put into an act (\"Az Fgytv. 5. § (2) bekezdése a következő c)–d) ponttal egészül ki:\") yields exactly the act and the new element with the parts it is put under, at their exact bytes, and the phrase of insertion for that element.", "quantifier": "all acts named by number or abbreviation, all readable references whose last part is the new one, all noun endings, both endings of such sentences", "why_tests_cant": "Tests read some sentences of real acts; the claim is over all titles, references and endings.", "anchors": ["src/parser/semantic_info/block_amendment.rs", "src/parser/semantic_info/reference.rs", "src/parser/semantic_info/sae.rs", "hun_law_grammar/grammar.ebnf"]}
{"id": "C73", "title": "A sentence of enforcement is read as written", "statement": "A sentence by which an act comes into force (\"Ez a törvény 2013. január 1-jén lép hatályba, és 2014. február 28-án hatályát veszti.\") yields exactly the rule it states: the date, the number of days after publication, or the day of a month after publication, with the day of repeal when one is given; it names no position, so it is the rule of the whole act, and no reference is read from it.", "quantifier": "all valid dates from year 0 to 262143, all ordinals in words or in digits up to 65535, all the spellings of the subject, the publication, the day and the repeal, all caches of abbreviations", "why_tests_cant": "Tests read some sentences; the claim is over all days and ordinals.", "anchors": ["hun_law_grammar/grammar.ebnf", "src/parser/semantic_info/enforcement_date.rs"]}
{"id": "C74", "title": "A sentence of repeal is read as written", "statement": "A sentence that repeals an act, parts of an act or texts in parts of an act (\"Hatályát veszti a … 1997. évi CLV. törvény 5. § (2) bekezdése, (4) bekezdés a) pontja és a 8. §.\", \"… 5. §-ában az „a” és a „b” szövegrész.\") yields the act and exactly the parts listed, each at its place in the sentence, where a part takes over from the part before it the levels above its own; and its meaning is the repeal of the act, of exactly those parts in that order, or the deletion of exactly the quoted texts in each of those parts.", "quantifier": "all acts, all titles and known abbreviations, all lists of well-formed references of any length with any endings of words and any usual separators, all lists of quotations of any length with quotation marks nested to any depth, all caches of abbreviations", "why_tests_cant": "Tests read a handful of sentences; the number of listed parts, the texts and the nesting of quotes have no bound.", "anchors": ["hun_law_grammar/grammar.ebnf", "src/parser/semantic_info/repeal.rs", "src/parser/semantic_info/text_amendment.rs", "src/parser/semantic_info/reference.rs"]}
{"id": "C75", "title": "A text amendment is read as written", "statement": "A sentence that exchanges texts in parts of an act (\"A … 1997. évi CLV. törvény 5. § (2) bekezdésében és 8. §-ában az „a” szövegrész helyébe a „b” szöveg, a „c” szövegrész helyett a „d” szöveg lép.\") yields the act and exactly the parts listed, each at its place in the sentence and with the levels it takes over from the part before it; and its meaning is the exchange of exactly the quoted pairs, in order, in each of those parts, in order. It is never taken for a block amendment.", "quantifier": "all acts, all titles and known abbreviations, all lists of well-formed references of any length with any endings of words and any usual separators, all lists of pairs of quotations of any length with quotation marks nested to any depth, all caches of abbreviations", "why_tests_cant": "Tests read a handful of sentences; the number of listed parts and of pairs, the texts and the nesting of quotes have no bound, and that none of the rules tried before accepts such a sentence is a claim about all of them.", "anchors": ["hun_law_grammar/grammar.ebnf", "src/parser/semantic_info/text_amendment.rs", "src/parser/semantic_info/reference.rs"]}
{"id": "C76", "title": "A sentence bringing parts of an act into force is read as written", "statement": "A sentence that brings listed parts of the act into force (\"A 8. § és az 5. § (2) bekezdése 2013. január 1-jén lép hatályba.\") yields exactly the parts listed, each at its place in the sentence and with the levels it takes over from the part before it; its meaning is that exactly these parts come into force on the day said (and are repealed on the day said), and that it is not the default for the act. If no act is named in it, it is never taken for an amendment. An exception named in a sentence about the whole act (\"Ez a törvény – a 8. §-ban foglalt kivétellel – ... lép hatályba.\") is passed over: the act comes into force on the day said, by default, and no reference is reported.", "quantifier": "all lists of well-formed references of any length with any endings of words and any usual separators, all dates and all ways to give a day after publication, with and without repeal in the same sentence, all caches of abbreviations of which none occurs in the sentence", "why_tests_cant": "Tests read a handful of sentences; the number of listed parts has no bound, dates and references both begin with numbers, and that the four rules for amendments, which are tried first and look for the name of an act anywhere in the sentence, all refuse it is a claim about every text without such a name.", "anchors": ["hun_law_grammar/grammar.ebnf", "src/parser/semantic_info/enforcement_date.rs", "src/parser/semantic_info/reference.rs"]}
{"id": "C77", "title": "A sentence replacing or adding a chapter, part or title of an act is read as written", "statement": "A sentence that replaces a chapter, a part or a title of an act (\"A ... törvény Második Része III. Fejezete helyébe a következő fejezet lép:\"), or only its title (\"... III. Fejezete címe helyébe a következő cím lép:\"), or adds one (\"... Második Része a következő IV/A. címmel egészül ki:\"), yields exactly the act named, at its place in the sentence, and a structural amendment whose position is exactly the element said: of its kind, with its number and letter, in the book said, under the element said, for its title only if that is said; it is an insertion exactly if it is said to be added.", "quantifier": "all acts, named with any title and number or by any known abbreviation; all roman numbers up to 3999 with and without a letter, all ordinals of the grammar in both spellings; all endings of the words; with and without a book and an element it is in; all endings of the sentence that the grammar has", "why_tests_cant": "Tests read a few sentences; roman numbers and ordinals can begin with the same letter, titles of subtitles begin with capital letters as these elements do, and that both rules tried before refuse every such sentence is a claim about all names, numbers and endings.", "anchors": ["hun_law_grammar/grammar.ebnf", "src/parser/semantic_info/block_amendment.rs", "src/parser/semantic_info/structural_reference.rs"]}
{"id": "C78", "title": "A sentence replacing or adding a subtitle of an act is read as written", "statement": "A sentence that adds a subtitle to an act (\"A ... törvény Második Része az 5. §-át megelőzően a következő „Záró rész” alcímmel egészül ki:\", \"... a következő 5/A. §-sal és az azt megelőző alcímmel egészül ki:\"), or replaces one (\"... 5. §-t megelőző alcím helyébe a következő alcím lép:\", \"... 12–14. alcím címe helyébe ...\"), yields exactly the act and the articles named, each at its place in the sentence, and a structural amendment whose position is as said: before the article which the subtitle comes with; else before or after the article it is beside; else that of its number, its range of numbers or its title; in the part, chapter or title of the act said; it is an insertion exactly if it is said to be added.", "quantifier": "all acts, named with any title and number or by any known abbreviation; all articles with a book and a letter or without; all numbers of subtitles up to 65535 with and without a letter; all quoted titles; all words for before and after; all endings of the words; all endings of the sentence that the grammar has (without \"lépnek\" after the words for a subtitle: see the refuted claim)", "why_tests_cant": "Tests read a few sentences; every part is optional, the rules tried before begin with the same words, and that each of them refuses every such sentence is a claim about all names, numbers, titles and endings.", "anchors": ["hun_law_grammar/grammar.ebnf", "src/parser/semantic_info/block_amendment.rs", "src/parser/semantic_info/structural_reference.rs"]}
{"id": "C79", "title": "A sentence that replaces and adds elements at once, or in a part of an act, is read as written", "statement": "A sentence that replaces an element of an act, adds one, or replaces one and adds another (\"A ... törvény Második Része 5. §-a helyébe a következő rendelkezés lép, és az Fgytv. Második Része a következő 5/A. §-sal egészül ki:\") yields exactly the act and the elements named, each at its place in the sentence. The position of the amendment is from the first to the last of the elements; whole articles are put under the part, title or chapter said at the beginning; it is an insertion exactly if nothing is replaced.", "quantifier": "all acts, named with any title and number or by any known abbreviation; all parts, titles and chapters or none; all elements under an article (single ones and ranges), all endings of the words and sentences the grammar has; any row of the joining words, with or without a comma; the act and the element named again or not", "why_tests_cant": "Tests read a few such sentences; that the two rules tried first refuse every one of them, for any element, and that the two halves make one position is a claim about all pairs of references.", "anchors": ["hun_law_grammar/grammar.ebnf", "src/parser/semantic_info/block_amendment.rs", "src/parser/semantic_info/reference.rs"]}
{"id": "C80", "title": "The references in ordinary sentences are found, each at its place, and nothing else is", "statement": "A sentence that is none of the special ones (an amendment, a repeal, a change of texts, a sentence about coming into force, the introduction of an abbreviation) and in which references to parts of this act (\"az 5. § (2) bekezdése és a 8. § szerint\"), acts by number or known abbreviation (\"az 1959. évi IV. törvény alapján\") and references to parts of such acts (\"az Fgytv. 8. §-a\") are said among other words, numbers, dates, marks and quotations yields exactly these references, in order, each with its place and with the parts taken over from the references and the act before it; no abbreviation and no phrase. The texts of a paragraph with points each get the references that end in them. An act with such sentences only gets them everywhere and is not changed otherwise.", "quantifier": "all sentences built of such pieces, of any length, with any text before and after; all references readable in the grammar; all acts; all maps of known abbreviations without an empty one; all words, numbers and marks that cannot begin a reference", "why_tests_cant": "Tests look at some sentences; that every special rule refuses every ordinary sentence, that the loop over the pieces resumes after every reference, and that no word, number or mark is taken for a reference are claims about all texts.", "anchors": ["hun_law_grammar/grammar.ebnf", "src/parser/semantic_info/reference.rs", "src/parser/semantic_info/sae.rs"]}
{"id": "C81", "title": "Sentences that introduce abbreviations teach them, and use them", "statement": "A sentence with no special meaning in which acts are named with \"(a továbbiakban: Infotv.)\" after them yields the references said in it; the abbreviation it introduces is attached to its texts with the last act it was introduced for, means this act everywhere in the sentence where it is used after its introduction, and is added to the abbreviations known so far. The texts of the sentence get the references that end in them.", "quantifier": "all sentences built of such pieces, of any length, with any number of introductions and any text before and after; all maps of known abbreviations without an empty one; all abbreviations that do not begin with white space, a digit or a colon and have no closing parenthesis", "why_tests_cant": "Which abbreviations the reader knows changes while it reads, also while it tries rules that do not apply in the end; that every such attempt leaves a state in which the rest is read as written is a claim about all texts.", "anchors": ["hun_law_grammar/grammar.ebnf", "src/parser/semantic_info/abbreviation.rs", "src/parser/semantic_info/sae.rs"]}
{"id": "C82", "title": "Acts with sentences of every described kind are read as written, one sentence after the other", "statement": "In an act whose texts are sentences of any of the described kinds (C71-C81: amendments, insertions, structural amendments, subtitles, repeals, changes of texts, sentences about coming into force, ordinary sentences and introductions of abbreviations), alone or divided into an intro, points and a wrap-up, adding semantic information succeeds; every text gets exactly the references ending in it, the abbreviations its sentence introduces and the phrase (an intro only if it is an amendment), read with the abbreviations of the act and of all sentences before it; the act then has the abbreviations it had with those introduced, reports a change exactly when one of them was not known with this act, and is otherwise the same.", "quantifier": "all acts, of any number and nesting of elements, with sentences of these kinds; all maps of abbreviations without an empty one", "why_tests_cant": "The sentences depend on each other through the abbreviations; that any mixture of them in any order is read right is a claim about all acts.", "anchors": ["src/parser/semantic_info/mod.rs", "src/parser/semantic_info/sae.rs", "src/parser/semantic_info/abbreviation.rs"]}
{"id": "C83", "title": "Adding semantic information changes nothing but the information and the abbreviations", "statement": "Adding semantic information to an act, whether it succeeds or fails, leaves everything of it as it was (identifier, subject, preamble, date, elements, their identifiers, texts, nesting, quoted blocks and last changes) except the semantic information of its elements and its map of abbreviations. An act is determined by the information of its elements in document order together with this rest, so an act with sentences of the kinds of C82 becomes exactly the act with what they say.", "quantifier": "all acts; any result of the grammar for any text (an arbitrary function) for the first part", "why_tests_cant": "A part of an act that is lost or altered while it is rebuilt element by element shows only in acts that have this part; the claim is about all acts and all outcomes of the grammar.", "anchors": ["src/parser/semantic_info/mod.rs", "src/util/walker.rs"]}
{"id": "C84", "title": "An act written in lines becomes exactly this act, with all that is said in it", "statement": "If the lines of an act are a written form of its elements (C63), every text of it is made of sentences of the described kinds (C82), and the lines quoted in it are written forms of what its amendments announce (C64), then reading the lines, adding semantic information and converting block amendments succeed, one after the other, and give exactly the act with these elements, what the sentences say and the amendments in place of the quoted lines; no lines are a written form of two different acts; and the program writes out this act when it is told to do all steps.", "quantifier": "all acts and all lists of lines, of any length; for the program all stored fixups and output formats", "why_tests_cant": "The three stages are tested on their own and on a few whole acts; that together they return what was written, for every act, is a claim about all acts.", "anchors": ["src/parser/structure/act.rs", "src/parser/semantic_info/mod.rs", "src/parser/structure/block_amendment.rs", "src/bin/hun_law/main.rs"]}
{"id": "C85", "title": "Acts written to JSON or YAML are read back unchanged, and whatever is read is valid", "statement": "Every act whose identifiers and numbers are in range, whose references are well formed, whose prefixed letters are not digraphs and whose amendments are not nested too deep is read back exactly as it was written; different acts are written differently. Reading any data gives such an act or an error and never panics, so the acts that can be read are exactly these, and reading, writing and reading again changes nothing. The same holds for references on their own. For digraphs among the prefixed letters it is refuted.", "quantifier": "all acts, all trees of data, any set of dates with any reader of them", "why_tests_cant": "The test writes and reads one act without semantic information; which of the many optional fields, untagged variants and shortened ranges can be confused with each other depends on the data.", "anchors": ["src/structure.rs", "src/semantic_info.rs", "src/reference/unchecked.rs", "src/reference/parts.rs", "src/reference/structural.rs", "src/identifier/range.rs", "src/util/indentedline.rs", "src/util/singleton_yaml.rs"]}
{"id": "C86", "title": "Whatever the program makes of an issue can be stored and is read back unchanged", "statement": "Every act cut from an issue, its structure, the act with semantic information and the act with converted amendments meet the conditions of C85, also when one of the last two steps stops with an error in the middle: all numbers are in the range of their type, references are well formed, prefixed letters are never digraphs, amendments are at most one level deep. So all of them are read back from JSON or YAML exactly as they were written. The places recorded by the grammar are in range when the texts have less than 2^64 bytes.", "quantifier": "all issues, all texts, any roman numeral reader giving an i32, any character classes, any reader of the dates of the calendar; for each step also any act and any grammar", "why_tests_cant": "A run on a few acts stores what these contain; that no text whatever leads to a reference, digraph or nesting which cannot be loaded again depends on all parsers and builders together.", "anchors": ["src/parser/mk_act_section.rs", "src/parser/structure/act.rs", "src/parser/structure/block_amendment.rs", "src/parser/semantic_info/mod.rs", "src/parser/semantic_info/reference.rs", "src/reference/builder.rs", "src/identifier/prefixed_alphabetic.rs", "src/semantic_info.rs", "src/structure.rs"]}
{"id": "C87", "title": "The files a run of the program leaves can be loaded, and a successful run leaves all acts", "statement": "Run to the structure or to the end with JSON or YAML as its format, the program writes for every act either nothing or a text from which exactly the act made of its lines and its stored fixups is read back, also when the run ends with an error or a panic, and also with questions asked unless the output is forced. When a run without questions is successful and prints no error of an issue, every issue asked for was read and every act asked for in it was written to its place in this way.", "quantifier": "all issues, arguments, fixups, answers and file systems, any text format from which written values are read back", "why_tests_cant": "No test runs the program; that nothing else than a loadable act ever gets into a file, whichever step fails, depends on all of the run.", "anchors": ["src/bin/hun_law/main.rs", "src/output/mod.rs", "src/structure.rs", "src/util/singleton_yaml.rs"]}
{"id": "C88", "title": "Fixups saved in a file are loaded unchanged and never touch those of another act", "statement": "Loading the fixups of an act after saving them gives exactly what was saved; for all other acts loading gives what it gave before, because different acts have different paths, each named after the act in the directory of its year. Without a file there are no fixups. So the files behave like the store used in C69 and C70. Loading any contents does not panic when the act can be displayed.", "quantifier": "all fixups, acts, directories and contents of files, any YAML text from which written values are read back", "why_tests_cant": "The tests only apply fixups to lines; omitted fields, paths built from the displayed act and the files of other acts are not tested.", "anchors": ["src/fixups.rs", "src/util/singleton_yaml.rs", "src/identifier/act.rs"]}
{"id": "C89", "title": "Issues in the cache are used without asking the server and are never mixed up", "statement": "An issue in the cache is returned unchanged without a request or a change of files; any other causes exactly one request to its address, whose answer is returned and stored, or nothing if the request fails. An issue once returned is returned the same without a request. No download touches any other file or the result of another issue. When a sequence of issues is returned, the requests are one for each issue that was not in the cache. That a cached issue is always a whole answer is false: a write that fails half way leaves a part which is returned from then on.", "quantifier": "all servers, disks, failures of writing, directories and sequences of issues", "why_tests_cant": "Nothing in the tests downloads; failures of the network and the disk cannot be tried in all combinations.", "anchors": ["src/mk_downloader.rs", "src/bin/hun_law/main.rs"]}
