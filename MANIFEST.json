{
 "claims": [
  {
   "property": "C01",
   "status": "proved",
   "theorems": [
    "C01_letters_roundtrip",
    "C01_letters_parse_exact",
    "C01_letters_parse_total",
    "C01_letters_print_is_lowercase"
   ],
   "note": "Round trip, exact acceptance and totality for all strings."
  },
  {
   "property": "C02",
   "status": "proved",
   "theorems": [
    "C02_numeric_roundtrip",
    "C02_numeric_parse_exact",
    "C02_numeric_parse_total"
   ],
   "note": "Round trip, exact acceptance and totality for all strings."
  },
  {
   "property": "C03",
   "status": "proved",
   "theorems": [
    "C03_roundtrip",
    "C03_parse",
    "C03_article_parse_exact",
    "C03_printed",
    "C03_digraph_refuted"
   ],
   "note": "Round trips and exact acceptance; the digraph values of the prefixed type, which FromStr never produces, do not survive (refuted theorem)."
  },
  {
   "property": "C04",
   "status": "proved",
   "theorems": [
    "C04_compact_identifiers",
    "C04_compact_ranges",
    "C04_compact_options",
    "C04_compact_optional_ranges",
    "C04_compact_distinct",
    "C04_compact_prefixed_refuted",
    "C04_compact_optional_paragraph_refuted"
   ],
   "note": "Lossless for all types; refuted for two representable corner values (digraph prefixed letters, Some of the empty paragraph)."
  },
  {
   "property": "C05",
   "status": "proved",
   "theorems": [
    "C05_strict_total_orders",
    "C05_legal_order",
    "C05_ranges",
    "C05_references"
   ],
   "note": "Strict total orders agreeing with the legal order."
  },
  {
   "property": "C06",
   "status": "proved",
   "theorems": [
    "C06_next_exact",
    "C06_next_is_later",
    "C06_next_irreflexive",
    "C06_next_wraps_refuted"
   ],
   "note": "Exact characterisation; the wrap-around at 0/65535 and book 0/255 is proved as a refutation."
  },
  {
   "property": "C07",
   "status": "proved",
   "theorems": [
    "C07_chain_sorted",
    "C07_chain_from_first",
    "C07_chain_wraps_refuted"
   ],
   "note": "Sorted and duplicate free; with the first element 'first' this holds up to the stated lengths, beyond which the wrap-around refutes it."
  },
  {
   "property": "C08",
   "status": "proved",
   "theorems": [
    "C08_obtainable_well_formed",
    "C08_check_exact"
   ],
   "note": "Every reference obtainable from the public constructors and operations is well formed; the checker is exact."
  },
  {
   "property": "C09",
   "status": "proved",
   "theorems": [
    "C09_builder_parts",
    "C09_build_exact"
   ],
   "note": "Exact content of the builder after any call sequence and exact success condition of build."
  },
  {
   "property": "C10",
   "status": "proved",
   "theorems": [
    "C10_compact_roundtrip",
    "C10_compact_injective",
    "C10_compact_parse",
    "C10_digraph_refuted"
   ],
   "note": "Lossless for references without digraph prefixed letters (those are refuted); parsing never panics and yields well-formed values only."
  },
  {
   "property": "C11",
   "status": "proved",
   "theorems": [
    "C11_relative_exact",
    "C11_relative_empty",
    "C11_relative_total",
    "C11_coarsest_exists",
    "C11_relative_identity",
    "C11_absolute_untouched",
    "C11_associative"
   ],
   "note": "Exact characterisation, identity, absorption and associativity of relative_to."
  },
  {
   "property": "C12",
   "status": "proved",
   "theorems": [
    "C12_parent_removes_finest",
    "C12_finest_exists",
    "C12_five_parents_empty",
    "C12_not_own_parent",
    "C12_parent_well_formed"
   ],
   "note": "parent removes exactly the finest part; five parents are empty."
  },
  {
   "property": "C13",
   "status": "proved",
   "theorems": [
    "C13_parent_is_proper_prefix",
    "C13_skipped_level_refuted"
   ],
   "note": "Holds when the paragraph level is not skipped between article and point; refuted otherwise."
  },
  {
   "property": "C14",
   "status": "proved",
   "theorems": [
    "C14_contains_is_inclusion",
    "C14_no_skip_suffices",
    "C14_transitive",
    "C14_reflexive",
    "C14_empty_contains_refuted",
    "C14_empty_contains_relative",
    "C14_skipped_level_refuted"
   ],
   "note": "Containment is inclusion of positions for references agreeing on skipped levels; transitivity and reflexivity; refuted for the empty reference and for skipped levels."
  },
  {
   "property": "C15",
   "status": "proved",
   "theorems": [
    "C15_make_range_exact",
    "C15_make_range_endpoints",
    "C15_make_range_same",
    "C15_make_range_total"
   ],
   "note": "Exact result of make_range, its endpoints, totality."
  },
  {
   "property": "C16",
   "status": "proved",
   "theorems": [
    "C16_endpoints_single",
    "C16_endpoints_parts",
    "C16_endpoints_idempotent",
    "C16_endpoints_contained"
   ],
   "note": "First and last in range are single, idempotent and contained."
  },
  {
   "property": "C17",
   "status": "proved",
   "theorems": [
    "C17_last_part_finest",
    "C17_last_part_empty",
    "C17_act_only",
    "C17_act_only_relative_refuted"
   ],
   "note": "get_last_part is the finest present part."
  },
  {
   "property": "C18",
   "status": "proved",
   "theorems": [
    "C18_slice_content",
    "C18_index_total",
    "C18_slice_whole",
    "C18_split_concat",
    "C18_slice_bytes",
    "C18_slice_bytes_exact",
    "C18_slice_bytes_no_error"
   ],
   "note": "Slices as positioned glyph lists for all indices; byte-index slicing on character boundaries."
  },
  {
   "property": "C19",
   "status": "proved",
   "theorems": [
    "C19_slice_positions",
    "C19_concat_positions",
    "C19_indent_at",
    "C19_indent_at_past_end",
    "C19_slice_indent",
    "C19_bold_ratio",
    "C19_as_bold_empty_refuted",
    "C19_slice_justified",
    "C19_concat_justified",
    "C19_equal",
    "C19_equal_lines_refuted"
   ],
   "note": "Positions, indents and boldness in thousandths of a point (exact arithmetic stands in for f64). as_bold of an empty line is bold although it has no bold character (refuted)."
  },
  {
   "property": "C20",
   "status": "proved",
   "theorems": [
    "C20_append",
    "C20_join_loses_nothing",
    "C20_join_steps"
   ],
   "note": "append_to and join characterised step by step; deleting spaces commutes with joining."
  },
  {
   "property": "C21",
   "status": "proved",
   "theorems": [
    "C21_open_iff",
    "C21_error_iff",
    "C21_mid_line_refuted"
   ],
   "note": "Level equals net depth; errors are only seen at line ends (a line that closes first and reopens later is accepted: refuted for mid-line errors)."
  },
  {
   "property": "C22",
   "status": "proved",
   "theorems": [
    "C22_succeeds_iff",
    "C22_changes_one_line",
    "C22_prefix_kept",
    "C22_suffix_kept",
    "C22_never_panics"
   ],
   "note": "Exact success condition; only the located line changes; positions of the kept prefix and suffix are preserved."
  },
  {
   "property": "C23",
   "status": "proved",
   "theorems": [
    "C23_composition",
    "C23_first_failure"
   ],
   "note": "Left-to-right composition, stops at the first failure (lines already fixed stay fixed, as in the code)."
  },
  {
   "property": "C24",
   "status": "proved",
   "theorems": [
    "C24_recorded_fixups_reproduce",
    "C24_plain_edit",
    "C24_terminates",
    "C24_whitespace_refuted"
   ],
   "note": "Recorded fixups reproduce the edit for every success; the loop terminates by a decreasing measure; lines with surrounding whitespace are an exception when <BOLD> is used (refuted)."
  },
  {
   "property": "C25",
   "status": "proved",
   "theorems": [
    "C25_reapply_refuted",
    "C25_reapply_without_collapse"
   ],
   "note": "Refuted with a body whose context window spans a collapsed run; holds when nothing is collapsed."
  },
  {
   "property": "C26",
   "status": "proved",
   "theorems": [
    "C26_keeps_text",
    "C26_no_double_empty",
    "C26_keeps_one",
    "C26_idempotent"
   ],
   "note": "All four parts."
  },
  {
   "property": "C27",
   "status": "proved",
   "theorems": [
    "C27_extracts_blocks",
    "C27_issue",
    "C27_bodies_are_fed_lines",
    "C27_delimiters",
    "C27_header",
    "C27_header_id",
    "C27_cover_page",
    "C27_double_empty_refuted"
   ],
   "note": "Full run of the state machine over act blocks with and without the asterisk footer, lifted to pages and section headings; refuted for headers after two empty lines."
  },
  {
   "property": "C28",
   "status": "proved",
   "theorems": [
    "C28_article",
    "C28_body",
    "C28_act",
    "C28_amendment",
    "C28_increasing_numbers",
    "C28_increasing_paragraphs",
    "C28_increasing_letters",
    "C28_increasing_subpoints",
    "C28_increasing_refuted"
   ],
   "note": "Consecutive at every level, for articles, whole bodies and converted amendments; increasing up to 65535 siblings, refuted beyond (numbers wrap around)."
  },
  {
   "property": "C29",
   "status": "proved",
   "theorems": [
    "C29_numeric_subpoints",
    "C29_alphabetic_subpoints",
    "C29_numeric_points",
    "C29_alphabetic_points",
    "C29_paragraphs",
    "C29_article",
    "C29_printed_labels_refuted"
   ],
   "note": "All five list parsers and articles; labels as written in the input. Refuted for printed labels (01. is read as 1.)."
  },
  {
   "property": "C30",
   "status": "proved",
   "theorems": [
    "C30_lines",
    "C30_text"
   ],
   "note": "Lines divided in order among preamble and children, text kept, article identifiers form a chain."
  },
  {
   "property": "C31",
   "status": "proved",
   "theorems": [
    "C31_act",
    "C31_paragraphs",
    "C31_alphabetic_points",
    "C31_numeric_points",
    "C31_alphabetic_subpoints",
    "C31_numeric_subpoints",
    "C31_paragraph_body"
   ],
   "note": "Children of acts and elements of every list start only where all quotes are closed."
  },
  {
   "property": "C32",
   "status": "proved",
   "theorems": [
    "C32_no_panic",
    "C32_title_only_refuted",
    "C32_empty_after_title_refuted",
    "C32_header_only_refuted"
   ],
   "note": "No panic when no line ends in a space and bracketed lines are followed by text; refuted in general with three witnesses."
  },
  {
   "property": "C33",
   "status": "proved",
   "theorems": [
    "C33_walk_is_the_event_sequence",
    "C33_document_order",
    "C33_recorded",
    "C33_positions"
   ],
   "note": "The walk equals running the visitor over an independently written event list, for every visitor; the list enters each element once in document order, leaves each once and is nested."
  },
  {
   "property": "C34",
   "status": "proved",
   "theorems": [
    "C34_unchanged",
    "C34_trace_faithful",
    "C34_same_calls",
    "C34_annotations_only",
    "C34_applies_visitor",
    "C34_failure_keeps",
    "C34_same_calls_refuted"
   ],
   "note": "Same calls when entering keeps the body (a traced visitor shows them); refuted for a visitor that replaces the children on entering; acts unchanged, annotated or mapped accordingly; stops at the first error."
  },
  {
   "property": "C35",
   "status": "proved",
   "theorems": [
    "C35_converts",
    "C35_others_untouched",
    "C35_idempotent",
    "C35_failure",
    "C35_no_panic",
    "C35_atomic_refuted",
    "C35_header_only_refuted",
    "C35_title_alone_refuted"
   ],
   "note": "Success: only amending paragraphs with one block change, intro/wrap-up/text kept, identifiers as announced; idempotent; failure described exactly; atomicity refuted (intro lost); panics refuted with witnesses, excluded under stated conditions."
  },
  {
   "property": "C36",
   "status": "proved",
   "theorems": [
    "C36_last_write_wins",
    "C36_changed_exactly",
    "C36_unchanged_keeps_map",
    "C36_twice",
    "C36_keys_sorted",
    "C36_repeat_reports_no_change_refuted"
   ],
   "note": "Last write wins; exact condition of has_changed; contents idempotent and sorted. Refuted: repeating the work reports a change again when one abbreviation is defined twice."
  },
  {
   "property": "C37",
   "status": "proved",
   "theorems": [
    "C37_references",
    "C37_references_of_list",
    "C37_no_panic",
    "C37_ordered",
    "C37_adjusted_ordered",
    "C37_adjusted_inside",
    "C37_adjusted_same_words",
    "C37_inside_own_text_refuted"
   ],
   "note": "The references are exactly those said by the places of the grammar result, ordered and disjoint if these are; adjusted ones stay ordered, end inside the own sentence and cover the same words. Inside the own text is refuted (supplied full stop)."
  },
  {
   "property": "C38",
   "status": "proved",
   "theorems": [
    "C38_when_cut",
    "C38_pieces",
    "C38_plain",
    "C38_colored",
    "C38_ordered_references",
    "C38_recorded_references_cut_refuted"
   ],
   "note": "Cut iff the references are ordered and at character boundaries, otherwise panic; pieces concatenate to the text, alternate, and the marked ones are the referenced texts. That recorded references are always such is refuted (supplied full stop): printing panics."
  },
  {
   "property": "C39",
   "status": "proved",
   "theorems": [
    "C39_text_amendment",
    "C39_act_resolved",
    "C39_repeal",
    "C39_product_determined"
   ],
   "note": "Exact characterisation of both conversions as a product over independently read references, for every grammar result; all with the resolved act."
  },
  {
   "property": "C40",
   "status": "proved",
   "theorems": [
    "C40_enforcement_date",
    "C40_date_determined",
    "C40_keeps_exceptions_refuted",
    "C40_invalid_days_rejected_refuted"
   ],
   "note": "Exact characterisation for every grammar result. Refuted: exceptions are dropped; days of the month above 31 are accepted."
  },
  {
   "property": "C41",
   "status": "proved",
   "theorems": [
    "C41_range",
    "C41_words",
    "C41_round_trip",
    "C41_injective",
    "C41_accepts_only",
    "C41_never_panics"
   ],
   "note": "All 101 words in three forms by a small sweep; acceptance is exact."
  },
  {
   "property": "C42",
   "status": "proved",
   "theorems": [
    "C42_reads_written_date",
    "C42_accepts_iff",
    "C42_never_panics",
    "C42_missing_dot_refuted"
   ],
   "note": "Exact acceptance. The date as first stated ('DD.') is refuted: a missing last dot truncates the day, and any character is accepted for a dot."
  },
  {
   "property": "C43",
   "status": "proved",
   "theorems": [
    "C43_conserved",
    "C43_lines",
    "C43_empty",
    "C43_total_order_refuted"
   ],
   "note": "For every arithmetic and every sorting function that permutes; ordering for sorting functions that sort by a weak order. The comparison function is not a total order (refuted)."
  },
  {
   "property": "C44",
   "status": "proved",
   "theorems": [
    "C44_depth",
    "C44_unmatched",
    "C44_balanced",
    "C44_restored",
    "C44_form",
    "C44_resources",
    "C44_marks",
    "C44_no_panic",
    "C44_file_no_panic",
    "C44_boldness_refuted",
    "C44_unbalanced_form_refuted",
    "C44_self_drawing_refuted"
   ],
   "note": "Holds if the forms are balanced; without that, and for the boldness kept in the collector, refuted. Self-drawing forms overflow the stack (refuted)."
  },
  {
   "property": "C45",
   "status": "proved",
   "theorems": [
    "C45_quirks",
    "C45_character",
    "C45_shown",
    "C45_unknown",
    "C45_actual_text",
    "C45_collected",
    "C45_no_spaces",
    "C45_space_refuted",
    "C45_nested_refuted",
    "C45_no_glyph_refuted"
   ],
   "note": "Exact for all characters but white space, which is dropped inside the box too (refuted). Texts given for glyphs are lost when nested or empty (refuted)."
  },
  {
   "property": "C46",
   "status": "proved",
   "theorems": [
    "C46_parse_iff",
    "C46_parse_round_trip",
    "C46_cache_key_injective",
    "C46_url_injective",
    "C46_url_centuries_refuted",
    "C46_get_issues",
    "C46_unknown_act_refuted"
   ],
   "note": "Exact parser, injective cache keys, injective URLs within a century (for all non-negative issue numbers), refuted across centuries; get_issues returns exactly the needed issues in order. Refuted: that an unknown act is always an error (one numbered over 3999 panics while the error is written)."
  },
  {
   "property": "C47",
   "status": "proved",
   "theorems": [
    "C47_round_trip",
    "C47_printable",
    "C47_suffixed_refuted"
   ],
   "note": "Round trip for all printable headers except suffixed books and parts, which are refuted; roman::from assumed to read standard numerals."
  },
  {
   "property": "C48",
   "status": "proved",
   "theorems": [
    "C48_article_found",
    "C48_lookup_sound",
    "C48_lookup_complete",
    "C48_positions_distinct",
    "C48_element_unique",
    "C48_parsed_acts_distinct",
    "C48_references_valid",
    "C48_duplicate_refuted"
   ],
   "note": "Positions are valid references and distinct when sibling identifiers are; parsed acts up to 65535 lines satisfy this; lookup finds the article; refuted for repeated identifiers."
  },
  {
   "property": "C49",
   "status": "proved",
   "theorems": [
    "C49_blocks",
    "C49_text",
    "C49_inner_balanced"
   ],
   "note": "Layout of intros, blocks and wrap ups; text kept; blocks balanced and end at the first possible place."
  },
  {
   "property": "C50",
   "status": "proved",
   "theorems": [
    "C50_sentences",
    "C50_success_is_all",
    "C50_failure_is_first",
    "C50_sentence_determined",
    "C50_no_panic",
    "C50_no_panic_article",
    "C50_single_article"
   ],
   "note": "The whole pass is the sequence of understood sentences, each the specified concatenation; first failure stops and keeps the rest; only semantic information and abbreviations change; no panic when the grammar does not panic. The grammar is an argument. (C57–C60 use the modelled grammar.)"
  },
  {
   "property": "C51",
   "status": "proved",
   "theorems": [
    "C51_first_match",
    "C51_not_found",
    "C51_unambiguous",
    "C51_shortest_match",
    "C51_longest_match_refuted"
   ],
   "note": "First known prefix (exact); unique when no abbreviation is a prefix of another; shortest on cache order; longest refuted."
  },
  {
   "property": "C52",
   "status": "proved",
   "theorems": [
    "C52_act_display_roundtrip",
    "C52_act_display_panics_iff",
    "C52_act_display_refuted",
    "C52_act_display_compact_refuted"
   ],
   "note": "Refuted (panic) with exact characterisation; round trip for 1..3999 and 4-digit years assuming roman::from reads standard numerals."
  },
  {
   "property": "C53",
   "status": "proved",
   "theorems": [
    "C53_all_text",
    "C53_all_text_colored_refuted"
   ],
   "note": "For every wrapping function that keeps non-white characters; with colours refuted (the codes are extra characters)."
  },
  {
   "property": "C54",
   "status": "proved",
   "theorems": [
    "C54_no_panic",
    "C54_narrow_page_refuted"
   ],
   "note": "Sufficient width, roman numeral and cuttable references exclude panics; without the width refuted."
  },
  {
   "property": "C55",
   "status": "proved",
   "theorems": [
    "C55_meaning",
    "C55_unique",
    "C55_unicode_map_refuted",
    "C55_code_255_refuted"
   ],
   "note": "A unicode map entry is shadowed by an unknown glyph name, and code 255 of base encodings is missing (refuted)."
  },
  {
   "property": "C56",
   "status": "proved",
   "theorems": [
    "C56_font",
    "C56_pages",
    "C56_reused_address_refuted"
   ],
   "note": "Needs that an address always belongs to one font; without it refuted."
  },
  {
   "property": "C57",
   "status": "proved",
   "theorems": [
    "C57_places",
    "C57_recorded",
    "C57_inside_own_text_refuted",
    "C57_printing"
   ],
   "note": "For all texts. Inside the element's own text without the supplied full stop is refuted, with a panic when printing."
  },
  {
   "property": "C58",
   "status": "proved",
   "theorems": [
    "C58_captured_words",
    "C58_readable",
    "C58_ordinals",
    "C58_months",
    "C58_subtitle_number",
    "C58_readable_subtitles_refuted"
   ],
   "note": "For all texts. Readability needs numbers up to 65535 (books up to 255) and resolvable acts; identifiers of subtitles with white space are refuted."
  },
  {
   "property": "C59",
   "status": "proved",
   "theorems": [
    "C59_acts",
    "C59_introduced",
    "C59_resolvable_refuted"
   ],
   "note": "For all texts and acts; abbreviations are learnt only from introductions right after an act. That a used abbreviation can always be resolved is refuted."
  },
  {
   "property": "C60",
   "status": "proved",
   "theorems": [
    "C60_total",
    "C60_sentences",
    "C60_no_panic",
    "C60_empty_abbreviation_refuted"
   ],
   "note": "For all texts and acts. With an empty known abbreviation refuted."
  },
  {
   "property": "C61",
   "status": "proved",
   "theorems": [
    "C61_paragraph",
    "C61_number",
    "C61_letter",
    "C61_subpoint",
    "C61_article"
   ],
   "note": "If and only if, for all lines."
  },
  {
   "property": "C62",
   "status": "proved",
   "theorems": [
    "C62_numbered_subpoints",
    "C62_lettered_subpoints",
    "C62_numbered_points",
    "C62_lettered_points",
    "C62_quoted_blocks",
    "C62_paragraphs",
    "C62_article"
   ],
   "note": "For lines that do not end in a space; the written form is a relation that does not mention the parser."
  },
  {
   "property": "C63",
   "status": "proved",
   "theorems": [
    "C63_body",
    "C63_act",
    "C63_subtitle_limit"
   ],
   "note": "For lines that do not end in a space; roman numerals and upper case are oracles."
  },
  {
   "property": "C64",
   "status": "proved",
   "theorems": [
    "C64_amended",
    "C64_structure",
    "C64_paragraph",
    "C64_act"
   ],
   "note": "For lines that do not end in a space."
  },
  {
   "property": "C65",
   "status": "proved",
   "theorems": [
    "C65_block",
    "C65_structural",
    "C65_subtitle",
    "C65_phrase",
    "C65_phrase_determined",
    "C65_abbreviations",
    "C65_only_what_is_said_refuted"
   ],
   "note": "Exact in both directions. Refuted: that a position has only elements that were named (amending (1) and (3) counts as (1) to (3))."
  },
  {
   "property": "C66",
   "status": "proved",
   "theorems": [
    "C66_placed",
    "C66_read",
    "C66_determined",
    "C66_word_spacing_refuted"
   ],
   "note": "Exact in both directions, for arithmetic without rounding (any field). The transformation of the page (cm) and of forms is ignored by the code and so by the statement. Refuted: that word spacing is added only after one byte codes."
  },
  {
   "property": "C67",
   "status": "proved",
   "theorems": [
    "C67_phrase",
    "C67_read_back",
    "C67_unambiguous",
    "C67_article_suffix_refuted",
    "C67_books_refuted",
    "C67_subpoint_suffix_refuted",
    "C67_unambiguous_digraph_refuted",
    "C67_year_refuted"
   ],
   "note": "Exact phrase for all well formed references; read back proved through the model of the whole grammar. Refuted: reading back two-letter suffixes of articles, ranges over books, suffixed numeric subpoints, and negative years; and that texts of digraph subpoints are unambiguous."
  },
  {
   "property": "C68",
   "status": "proved",
   "theorems": [
    "C68_line",
    "C68_pages",
    "C68_raw",
    "C68_read_back"
   ],
   "note": "Exact in both directions for lines and pages."
  },
  {
   "property": "C69",
   "status": "proved",
   "theorems": [
    "C69_file",
    "C69_opened",
    "C69_session",
    "C69_untouched",
    "C69_next_load",
    "C69_empty_line_refuted"
   ],
   "note": "For lines without spaces at their ends (others are refused), and editors that keep five bytes before every text. Refuted: that an emptied row, as the error message suggests for deleting a line, is handled (it panics)."
  },
  {
   "property": "C70",
   "status": "proved",
   "theorems": [
    "C70_run",
    "C70_alone",
    "C70_written",
    "C70_all_written",
    "C70_files",
    "C70_act",
    "C70_no_panic",
    "C70_lines_no_panic",
    "C70_exit_status_refuted",
    "C70_missing_act_refuted",
    "C70_empty_file_refuted",
    "C70_forced_refuted"
   ],
   "note": "A relation for whole runs, with consequences. Refuted: that the exit status tells of unread issues or missing acts, that a failed act leaves no empty file, and that a forced editor writes the text once."
  },
  {
   "property": "C71",
   "status": "proved",
   "theorems": [
    "C71_replacement"
   ],
   "note": "From the text of the sentence to its semantic information, through the grammar and all conversions."
  },
  {
   "property": "C72",
   "status": "proved",
   "theorems": [
    "C72_insertion"
   ],
   "note": "As C71. Sentences that insert two articles, or replace and insert at once, are not covered."
  },
  {
   "property": "C73",
   "status": "proved",
   "theorems": [
    "C73_enforcement"
   ],
   "note": "Sentences about the whole act only; parts of the act that come into force on other days are not covered."
  },
  {
   "property": "C74",
   "status": "proved",
   "theorems": [
    "C74_repeal"
   ],
   "note": "Each element of the list is one reference (an element or a range); enumerations inside a level such as \"(2) és (3) bekezdése\", structural elements, article titles, intro and closing parts and attachments in the list are not covered."
  },
  {
   "property": "C75",
   "status": "proved",
   "theorems": [
    "C75_text"
   ],
   "note": "The list of references is as in C74: enumerations inside a level, structural elements, article titles, intro and closing parts and attachments are not covered."
  },
  {
   "property": "C76",
   "status": "proved",
   "theorems": [
    "C76_parts",
    "C76_exception"
   ],
   "note": "The list of references is as in C74; structural elements, subtitles and attachments in the list are not covered. The list does not begin with point a), which the grammar tries to read as an exception."
  },
  {
   "property": "C77",
   "status": "proved",
   "theorems": [
    "C77_structural",
    "C77_book_of_parent_refuted"
   ],
   "note": "Chapters, parts and titles; subtitles are in C78. The element which the amended one is in is named without a book: with one, the book is lost (C77_book_of_parent_refuted)."
  },
  {
   "property": "C78",
   "status": "proved",
   "theorems": [
    "C78_subtitles",
    "C78_title_beside_refuted",
    "C78_replaced_with_article_refuted",
    "C78_plural_refuted"
   ],
   "note": "A subtitle beside an article, with an article, or with a number or title of its own. A subtitle with a number or title cannot be replaced together with an article (C78_replaced_with_article_refuted); that only the title of a subtitle beside an article is replaced is lost (C78_title_beside_refuted); \"lépnek\" is not read (C78_plural_refuted)."
  },
  {
   "property": "C79",
   "status": "proved",
   "theorems": [
    "C79_block",
    "C79_second_element_refuted",
    "C79_second_act_refuted"
   ],
   "note": "At least one joining word is needed between the halves: without one the grammar eats the space before the second name. A part, title or chapter, or another act, named only in the second half is lost (C79_second_element_refuted, C79_second_act_refuted)."
  },
  {
   "property": "C80",
   "status": "proved",
   "theorems": [
    "C80_text",
    "C80_act",
    "C80_act_is_found_refuted"
   ],
   "note": "References to attachments, several articles under one paragraph sign (\"5. és 6. §\") and introductions of abbreviations are not among the pieces. An act followed by a paragraph or point without an article is lost (C80_act_is_found_refuted)."
  },
  {
   "property": "C81",
   "status": "proved",
   "theorems": [
    "C81_text",
    "C81_order_refuted"
   ],
   "note": "Introductions inside amending sentences and repeals are not described. An abbreviation introduced again changes the meaning of the words before (C81_order_refuted)."
  },
  {
   "property": "C82",
   "status": "proved",
   "theorems": [
    "C82_act"
   ],
   "note": "Every sentence of the act is of a kind described by C71-C81; acts with other sentences are covered by C50 (each text gets what the grammar reads from its sentence) and C57-C60."
  },
  {
   "property": "C83",
   "status": "proved",
   "theorems": [
    "C83_rest",
    "C83_determined",
    "C83_act",
    "C83_rest_article",
    "C83_article_determined",
    "C83_article"
   ],
   "note": ""
  },
  {
   "property": "C84",
   "status": "proved",
   "theorems": [
    "C84_act",
    "C84_one",
    "C84_program"
   ],
   "note": "For acts whose sentences are all of the kinds of C71-C81; acts with other sentences are covered by C33-C70 stage by stage."
  },
  {
   "property": "C85",
   "status": "proved",
   "theorems": [
    "C85_roundtrip",
    "C85_injective",
    "C85_loaded",
    "C85_exact",
    "C85_reference",
    "C85_digraph_refuted"
   ],
   "note": "For the tree of values between the types and the text; the text of JSON and YAML and the reading of dates are external. Digraphs are refuted."
  },
  {
   "property": "C86",
   "status": "proved",
   "theorems": [
    "C86_issue",
    "C86_structure",
    "C86_inform",
    "C86_places",
    "C86_convert",
    "C86_stored",
    "C86_calendar"
   ],
   "note": "For texts of less than 2^64 bytes; roman::from is any reader giving an i32 and chrono any reader of the dates of the calendar."
  },
  {
   "property": "C87",
   "status": "proved",
   "theorems": [
    "C87_alone",
    "C87_session",
    "C87_complete",
    "C87_texts"
   ],
   "note": "The text of JSON and YAML is external: any writer and reader that fit together. Texts of elements have less than 2^64 bytes."
  },
  {
   "property": "C88",
   "status": "proved",
   "theorems": [
    "C88_saved",
    "C88_others",
    "C88_store",
    "C88_paths",
    "C88_place",
    "C88_form",
    "C88_none",
    "C88_no_panic"
   ],
   "note": "Directories can be created and files opened; the text of YAML is external."
  },
  {
   "property": "C89",
   "status": "proved",
   "theorems": [
    "C89_cached",
    "C89_fetched",
    "C89_unreachable",
    "C89_request",
    "C89_source",
    "C89_twice",
    "C89_others",
    "C89_independent",
    "C89_held",
    "C89_asked",
    "C89_function",
    "C89_place",
    "C89_whole_refuted"
   ],
   "note": "The server and the file system are external arguments; a failed write may leave anything in the file it writes, and touches no other."
  }
 ]
}