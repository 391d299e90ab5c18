{
 "claims": [
  {
   "property": "C01",
   "status": "proved",
   "theorems": [
    "C01_events_form_a_stream"
   ],
   "note": "Every token list, every final scanner error, any number of requests."
  },
  {
   "property": "C02",
   "status": "proved",
   "theorems": [
    "C02_parser_never_panics"
   ],
   "note": "Every interleaving of peek and next_event, also after errors."
  },
  {
   "property": "C03",
   "status": "proved",
   "theorems": [
    "C03_end_is_final"
   ],
   "note": "Every history before and after StreamEnd."
  },
  {
   "property": "C04",
   "status": "proved",
   "theorems": [
    "C04_peek_announces_next",
    "C04_peeks_do_not_matter",
    "C04_same_events_with_errors"
   ],
   "note": "Answer for answer while no error is answered; with errors the events are still those of plain next calls."
  },
  {
   "property": "C05",
   "status": "proved",
   "theorems": [
    "C05_anchor_ids_count_up"
   ],
   "note": ""
  },
  {
   "property": "C06",
   "status": "proved",
   "theorems": [
    "C06_alias_denotes_latest_anchor",
    "C06_unknown_alias_is_an_error"
   ],
   "note": ""
  },
  {
   "property": "C07",
   "status": "proved",
   "theorems": [
    "C07_tag_resolution",
    "C07_tag_meaning_unique"
   ],
   "note": "For every declaration table, handle and suffix."
  },
  {
   "property": "C08",
   "status": "partial",
   "theorems": [
    "C08_refuted",
    "C08_duplicate_handle_refuted",
    "C08_last_directive_partial",
    "C08_two_versions_rejected"
   ],
   "note": "REFUTED of the faithful model: only the last directive survives and duplicate handles are accepted. Proved: the last directive is honoured, two %YAML directives are always rejected."
  },
  {
   "property": "C09",
   "status": "proved",
   "theorems": [
    "C09_flow_trees"
   ],
   "note": "Every flow tree with properties, aliases, single pairs, empty keys and values, trailing commas; any continuation. The entry kind of C47 is outside the trees."
  },
  {
   "property": "C10",
   "status": "proved",
   "theorems": [
    "C10_block_trees",
    "C10_streams"
   ],
   "note": "Every block tree, any continuation; and whole streams of documents with markers and at most one directive each (see C08)."
  },
  {
   "property": "C11",
   "status": "proved",
   "theorems": [
    "C11_load_builds_the_tree",
    "C11_streams_are_documents",
    "C11_load_from_tokens"
   ],
   "note": "All document lists without tagged/bad keys; also composed with the parser model, from tokens."
  },
  {
   "property": "C12",
   "status": "partial",
   "theorems": [
    "C12_refuted",
    "C12_no_pair_lost_partial",
    "C12_what_is_kept_partial"
   ],
   "note": "REFUTED of the faithful model: a tagged or bad key is forgotten and the next node becomes the key. Proved: no pair lost without such keys; exactly what is kept otherwise."
  },
  {
   "property": "C13",
   "status": "proved",
   "theorems": [
    "C13_loaded_alias_is_a_copy",
    "C13_loaded_unknown_alias_is_bad",
    "C13_alias_is_a_copy",
    "C13_unknown_or_open_alias_is_bad",
    "C13_computed_value_is_loaded",
    "C13_parser_numbers_are_distinct"
   ],
   "note": "The value computed for an alias, for all documents with distinct anchor numbers; for documents without tagged/bad keys that value is found at the same position of the result."
  },
  {
   "property": "C14",
   "status": "proved",
   "theorems": [
    "C14_loader_never_panics",
    "C14_no_leftover",
    "C14_documents_independent"
   ],
   "note": ""
  },
  {
   "property": "C15",
   "status": "proved",
   "theorems": [
    "C15_single_is_first",
    "C15_loading_is_safe"
   ],
   "note": "From tokens, through the parser model."
  },
  {
   "property": "C16",
   "status": "proved",
   "theorems": [
    "C16_quoted_is_string"
   ],
   "note": ""
  },
  {
   "property": "C17",
   "status": "proved",
   "theorems": [
    "C17_integers_survive",
    "C17_decimal_notations"
   ],
   "note": ""
  },
  {
   "property": "C18",
   "status": "proved",
   "theorems": [
    "C18_hexadecimal",
    "C18_octal"
   ],
   "note": ""
  },
  {
   "property": "C19",
   "status": "partial",
   "theorems": [
    "C19_refuted",
    "C19_null_spellings",
    "C19_bool_spellings",
    "C19_integer_spellings_partial"
   ],
   "note": "REFUTED of the faithful model for integers (++5, +-5, 0x-5). Proved exactly for null and booleans; for integers the exact set of accepted spellings."
  },
  {
   "property": "C20",
   "status": "partial",
   "theorems": [
    "C20_refuted",
    "C20_int_tag_partial",
    "C20_float_tag_partial",
    "C20_bool_tag_partial",
    "C20_null_tag_partial",
    "C20_str_tag",
    "C20_unknown_core_tag_partial",
    "C20_other_tag"
   ],
   "note": "REFUTED of the faithful model for scalars that are not plain (!!int \"12\" is a string). Proved for plain scalars, with the exact accepted texts; !!str and other tags in all styles."
  },
  {
   "property": "C21",
   "status": "partial",
   "theorems": [
    "C21_refuted",
    "C21_one_type_partial",
    "C21_exactly_one_predicate",
    "C21_accessors_agree"
   ],
   "note": "REFUTED of the faithful model for tagged values, which report the bad type. Proved for untagged values; exactly one predicate and agreement of accessors for all values."
  },
  {
   "property": "C22",
   "status": "partial",
   "theorems": [
    "C22_refuted",
    "C22_sequence_write_read",
    "C22_mapping_write_read",
    "C22_write_where_read",
    "C22_mapping_read_by_integer_partial"
   ],
   "note": "REFUTED of the faithful model for mappings indexed by an integer (the key is overwritten). Proved for sequences by position and mappings by string key."
  },
  {
   "property": "C23",
   "status": "proved",
   "theorems": [
    "C23_escaped_text_reads_back"
   ],
   "note": "For every byte sequence, hence for every text; the scalar anywhere in a document."
  },
  {
   "property": "C24",
   "status": "partial",
   "theorems": [
    "C24_refuted",
    "C24_unquoted_strings_partial"
   ],
   "note": "REFUTED of the faithful model: 0o17 is left unquoted and read as a number. Proved exactly which unquoted strings are misread (octal numbers, two signs, +.inf)."
  },
  {
   "property": "C25",
   "status": "partial",
   "theorems": [
    "C25_round_trip_partial",
    "C25_refuted",
    "C25_literal_refuted"
   ],
   "note": "REFUTED of the faithful model: strings like 0o17, ++5 and +.inf, whole floats, infinities and NaN come back as other scalars, keys of more than 1024 bytes do not load, literal blocks fail on leading spaces, a document line ..., keys, several line feeds at the end and a document starting with a tab. Proved: every value of scalars, sequences and mappings with scalar keys up to 1024 bytes loads into the same arrangement, equal exactly if all its scalars survive; with multiline_strings on, provided every string of several lines can stand as a literal scalar where it is (fits_blocks: first non-empty line without leading space, one line feed at most at the end, no carriage return, not a key, and as a whole document no marker lines and no leading tab). Indentation 2, the only one the emitter uses."
  },
  {
   "property": "C26",
   "status": "proved",
   "theorems": [
    "C26_level_kept",
    "C26_lines_indented"
   ],
   "note": "Levels for every writer, failing ones included; the lines for a writer that takes everything, with multi-line literal strings off (the default) and tags that fit on a line."
  },
  {
   "property": "C27",
   "status": "partial",
   "theorems": [
    "C27_refuted",
    "C27_quoted_nul_refuted",
    "C27_wide_block_refuted",
    "C27_scanning_ends_partial",
    "C27_outcomes_partial"
   ],
   "note": "REFUTED of the faithful model: a lone carriage return, a NUL in a quoted scalar, and a block scalar indented by 125 columns before the end of the text make the scanner loop for ever (for every bound). Proved, with a bound of six steps per byte, for every text without lone carriage returns and without any NUL (also outside quotes) that has no | and > at all, or in which no line begins with more than 124 spaces and no header of a block scalar stands behind more than 115 bytes of its line; lines may have any length. Missing: wider texts in which nothing hangs."
  },
  {
   "property": "C28",
   "status": "partial",
   "theorems": [
    "C28_refuted",
    "C28_positions_partial",
    "C28_error_positions"
   ],
   "note": "REFUTED of the faithful model at the end of the stream: the marker is moved one line below the text. Proved for all texts at every call for everything else, spans of tokens and error markers included."
  },
  {
   "property": "C29",
   "status": "proved",
   "theorems": [
    "C29_single_quoted_text_reads_back",
    "C29_single_quoted_documents_load"
   ],
   "note": ""
  },
  {
   "property": "C30",
   "status": "partial",
   "theorems": [
    "C30_refuted",
    "C30_blocks_balanced_partial",
    "C30_at_every_moment",
    "C30_one_stream_end"
   ],
   "note": "REFUTED of the faithful model when the text ends inside a flow collection. Proved for every other complete scan; nesting and increasing indentation proved at every moment of every scan."
  },
  {
   "property": "C31",
   "status": "proved",
   "theorems": [
    "C31_skip_exactly",
    "C31_every_text_splits"
   ],
   "note": "For the string source (the buffered one runs the same code on fewer than 32 bytes)."
  },
  {
   "property": "C32",
   "status": "partial",
   "theorems": [
    "C32_refuted",
    "C32_buffered_peek_partial",
    "C32_buffered_empty_partial"
   ],
   "note": "REFUTED of the faithful model: one skip of exactly 33 bytes. Proved for all texts and all skips by other amounts."
  },
  {
   "property": "C33",
   "status": "partial",
   "theorems": [
    "C33_refuted",
    "C33_flags_refuted",
    "C33_short_text_partial",
    "C33_spaces_partial"
   ],
   "note": "REFUTED of the faithful model: with 32 bytes buffered, text that is not white space is passed over. Proved when fewer than 32 bytes are left, and for lines of spaces of any length."
  },
  {
   "property": "C34",
   "status": "proved",
   "theorems": [
    "C34_comparison_masks",
    "C34_first_equal_lane"
   ],
   "note": "comp_to_bitmask for 16 and 32 lanes, comp followed by to_bitmask for 32 lanes; C34_to_bitmask16_panics records that the unused 16-lane to_bitmask always panics."
  },
  {
   "property": "C35",
   "status": "partial",
   "theorems": [
    "C35_refuted",
    "C35_line_partial",
    "C35_buffered_line_partial",
    "C35_last_line"
   ],
   "note": "REFUTED of the faithful model on the last line (nothing is collected). Proved for every line ended by a line break, both sources."
  },
  {
   "property": "C36",
   "status": "partial",
   "theorems": [
    "C36_refuted",
    "C36_reads_inside_partial"
   ],
   "note": "REFUTED of the faithful model: peek_char reads four bytes unchecked for an error message. Proved for every text without a reserved indicator among its last three bytes."
  },
  {
   "property": "C37",
   "status": "partial",
   "theorems": [
    "C37_refuted",
    "C37_document_events_partial",
    "C37_only_aliases_dropped",
    "C37_one_document_streams"
   ],
   "note": "REFUTED of the faithful model when the document has aliases: they are dropped. Proved for documents without aliases; with aliases, they and nothing else are left out."
  },
  {
   "property": "C38",
   "status": "proved",
   "theorems": [
    "C38_encodes_base64",
    "C38_roundtrip",
    "C38_length",
    "C38_alphabet",
    "C38_spaces_ignored",
    "C38_roundtrip_with_breaks"
   ],
   "note": "All byte strings."
  },
  {
   "property": "C39",
   "status": "partial",
   "theorems": [
    "C39_plain_strings_partial",
    "C39_refuted",
    "C39_backslash_refuted",
    "C39_line_feed_refuted",
    "C39_two_spaces_refuted",
    "C39_marker_refuted",
    "C39_escape_refuted"
   ],
   "note": "REFUTED of the faithful model: nothing is escaped (double quote, backslash, line feed), a split at two spaces loses one, a word --- moved to the start of a line ends the document. Proved for all other strings, every formatter and every division into words."
  },
  {
   "property": "C40",
   "status": "partial",
   "theorems": [
    "C40_nested_values_partial",
    "C40_refuted",
    "C40_enum_values_refuted",
    "C40_tuple_elements_refuted",
    "C40_struct_elements_refuted",
    "C40_last_list_refuted",
    "C40_nulls_refuted"
   ],
   "note": "REFUTED of the faithful model: an element or key that has been peeked is not seen by options, tuples and structs; enums written as mappings and tuples ending in a list do not consume exactly their events; ~ is not seen as null. Proved for all nestings of the remaining types."
  },
  {
   "property": "C41",
   "status": "partial",
   "theorems": [
    "C41_refuted",
    "C41_plain_unchanged",
    "C41_single_unchanged",
    "C41_what_is_escaped",
    "C41_single_injective",
    "C41_plain_injective_partial"
   ],
   "note": "REFUTED of the faithful model in plain mode (tab and backslash-t). Unchanged texts proved in both modes, injectivity proved in single-quote mode and in plain mode without such pairs."
  },
  {
   "property": "C42",
   "status": "proved",
   "theorems": [
    "C42_limit_counts_leaves",
    "C42_expansion_permitted"
   ],
   "note": "usize sums are unbounded in the model; the boxed values of the code have no sharing, so a sum cannot exceed the memory."
  },
  {
   "property": "C43",
   "status": "proved",
   "theorems": [
    "C43_peek_after_skips",
    "C43_document_indicator",
    "C43_plain_scalar_ends"
   ],
   "note": "usize positions are unbounded in the model."
  },
  {
   "property": "C44",
   "status": "partial",
   "theorems": [
    "C44_load_aliases_local_partial",
    "C44_refuted"
   ],
   "note": "REFUTED of the faithful model for the pull interface: anchors survive into later documents. Proved for the push interface (load)."
  },
  {
   "property": "C45",
   "status": "proved",
   "theorems": [
    "C45_parsing_ends"
   ],
   "note": "Bound: 8 requests per token."
  },
  {
   "property": "C46",
   "status": "proved",
   "theorems": [
    "C46_load_is_safe",
    "C46_load_sends_the_iterator_events"
   ],
   "note": ""
  },
  {
   "property": "C47",
   "status": "partial",
   "theorems": [
    "C47_refuted",
    "C47_value_lost",
    "C47_no_value_partial"
   ],
   "note": "REFUTED of the faithful model: the value indicator is swallowed. Proved of the parser in any flow sequence and state: whatever value is written, the pair is delivered empty and an error follows; if there is no value either, the pair of two empty nodes is read and the parser is where it should be."
  },
  {
   "property": "C48",
   "status": "proved",
   "theorems": [
    "C48_float_spellings",
    "C48_everything_else_is_string"
   ],
   "note": "Rounding to f64 is not modelled: the value is the decimal number written."
  },
  {
   "property": "C49",
   "status": "partial",
   "theorems": [
    "C49_missing_nodes_partial",
    "C49_refuted"
   ],
   "note": "REFUTED of the faithful model: the empty node loads as the empty string. Proved what happens instead, for every stream of documents of C59 and every missing node in it (values, keys, elements, whole documents, nodes with properties only): each is loaded as the empty string (with a tag outside the core schema around it), all other nodes as in C59."
  },
  {
   "property": "C50",
   "status": "partial",
   "theorems": [
    "C50_refuted",
    "C50_no_panic_partial"
   ],
   "note": "REFUTED of the faithful model: a version number above 255. Proved for every text without directive or without three digits in a row."
  },
  {
   "property": "C51",
   "status": "partial",
   "theorems": [
    "C51_deserialising_returns",
    "C51_no_panic_partial",
    "C51_refuted"
   ],
   "note": "It always returns. REFUTED for panics: a unit variant written as a mapping reaches todo!(). Proved to be the only panic: none for types without unit variants."
  },
  {
   "property": "C52",
   "status": "proved",
   "theorems": [
    "C52_double_quoted_lines",
    "C52_single_quoted_lines",
    "C52_quoted_documents_load"
   ],
   "note": "Line feeds as line breaks, spaces as indentation; escape sequences inside double quotes are the subject of C23."
  },
  {
   "property": "C53",
   "status": "proved",
   "theorems": [
    "C53_load_accepts_what_the_iterator_reads"
   ],
   "note": ""
  },
  {
   "property": "C54",
   "status": "partial",
   "theorems": [
    "C54_dumped_values_deserialise_partial",
    "C54_refuted"
   ],
   "note": "REFUTED of the faithful model: null is written ~ and read as neither () nor None, the strings \"\" and null in an Option become None, infinities, NaN and minus zero change, strings like 0o17 are misread, and the types of C40 are not read. Proved for values without those, with scalar keys up to 1024 bytes, and with multiline_strings on for values that fit literal blocks as in C25: any such value and type, through emitter, scanner, parser, iterator and deserialiser."
  },
  {
   "property": "C55",
   "status": "partial",
   "theorems": [
    "C55_serialised_values_deserialise_partial",
    "C55_refuted"
   ],
   "note": "REFUTED of the faithful model: () and None with the default formatter, minus zero, infinities, a line feed as a character, nested options, null as a string in an option, and the strings of C39. Proved for the rest, whole documents, any formatter."
  },
  {
   "property": "C56",
   "status": "partial",
   "theorems": [
    "C56_json_loads_partial",
    "C56_refuted"
   ],
   "note": "REFUTED of the faithful model by three kinds of JSON text: a carriage return on its own as white space makes the scanner loop, nothing but tabs between a colon and a number or literal name is an error, a pair of surrogate escapes is an error. Proved for all other JSON texts, of any nesting and any length below 2^32 - 1."
  },
  {
   "property": "C57",
   "status": "partial",
   "theorems": [
    "C57_block_document_partial",
    "C57_block_scalar_partial",
    "C57_cut_partial",
    "C57_refuted",
    "C57_cut_refuted",
    "C57_marker_refuted"
   ],
   "note": "REFUTED of the faithful model by scalars without content (a clipped one is a line feed), by a tab at the start of unindented content (error), by content indented by 125 columns before the end of the text (endless loop), by a last line cut off at the end of the text (a line feed is added unless stripped), and a line --- inside unindented content is content. Proved for block scalars with content, none of these, whose blank lines hold at most as many spaces as the indentation and whose breaks are LF or CRLF: in any context when the lines end in line breaks, and as a whole document also with the last line cut off."
  },
  {
   "property": "C58",
   "status": "partial",
   "theorems": [
    "C58_plain_scalar_partial",
    "C58_plain_document_partial",
    "C58_refuted"
   ],
   "note": "REFUTED of the faithful model: an indented line that begins like a document marker ends the scalar and is an error, a word - before , [ ] { } in a flow collection is an error, and a comment on a line indented by tabs does not end the scalar. Proved of the scanner for every other plain scalar in block and flow context, with its end position and what follows, and for whole documents of at least two words that end in white space or nothing. Words have no NUL, line breaks are LF and CRLF."
  },
  {
   "property": "C59",
   "status": "partial",
   "theorems": [
    "C59_layout_events",
    "C59_layout_loads_partial",
    "C59_refuted",
    "C59_tags_refuted"
   ],
   "note": "REFUTED of the faithful model: missing nodes are loaded as empty strings, not null, a tab between colon and value is an error, core tags written in full and the tag ! stay as tags around the value, !!int 0x1F is a bad value, keys with other tags are forgotten, of two directives the first is forgotten. Proved for every stream of block documents with at most one directive each: scanned and parsed as those documents, missing nodes, anchors, aliases and tags included, if the documents have events at all (no alias without anchor, no undeclared handle); loaded as their values, with aliases resolved and tags applied, outside the exceptions above, plain scalars like ++5 and integers outside i64. Any nesting, indentation, comments, empty lines and markers; plain scalars of any number of lines, quoted scalars in full (C61), block scalars with content indented by 1 to 124 spaces whose last line ends with a line break (C57), flow collections shorter than 4 GB as in C62, directives as in C64. The layouts have spaces as separation (tabs only inside scalars, comments and directives) and no block scalars without content; keys before a colon are in one line: scalars, with or without properties, aliases or properties alone; escapes in tags are ASCII."
  },
  {
   "property": "C60",
   "status": "partial",
   "theorems": [
    "C60_layout_deserialises_partial",
    "C60_refuted"
   ],
   "note": "REFUTED of the faithful model: ~ is not read as None (and see C40 for the types that are not read). Proved for every layout of C59 that is one document without anchors, aliases and tags and with at most one directive (flow collections included, so in particular for texts that are one flow collection, C62), any number of markers ..., and the types and nulls of C40_nested_values_partial."
  },
  {
   "property": "C61",
   "status": "proved",
   "theorems": [
    "C61_quoted_scalars",
    "C61_quoted_documents"
   ],
   "note": "quoted_scalar (SpecStrings.v) is the grammar with values; it has no lone CR and no NUL inside scalars, and tabs at the start of lines only behind the required indentation."
  },
  {
   "property": "C62",
   "status": "partial",
   "theorems": [
    "C62_flow_loads_partial",
    "C62_refuted"
   ],
   "note": "REFUTED of the faithful model: [a: {b: c, d: e}] loses an entry of the inner mapping, {a:[b]}, a line break between a collection used as key and its colon, and a plain scalar ending with the word - are errors. Proved for all other flow collections shorter than 4 GB, of any nesting, over any number of lines, with comments, explicit keys, single pairs, commas at the end, quoted scalars as in C61, anchors, tags and aliases: except that plain scalars that start with a colon are left out too (a limit of the proof: those tried are read well), missing nodes (loaded as empty strings, C59), integers outside i64, plain scalars like ++5, and the tags that C59_tags_refuted names; gaps between tokens are of spaces, line breaks and comments, no tabs."
  },
  {
   "property": "C63",
   "status": "partial",
   "theorems": [
    "C63_anchors",
    "C63_tags_partial",
    "C63_refuted"
   ],
   "note": "REFUTED of the faithful model: percent escapes of characters beyond ASCII give another character (two bytes) or an error (three bytes). Proved for anchors and aliases in full, and for all tags whose escaped characters are ASCII. tag_text (SpecProps.v) is the grammar with handles and suffixes."
  },
  {
   "property": "C64",
   "status": "partial",
   "theorems": [
    "C64_directives_partial",
    "C64_refuted"
   ],
   "note": "REFUTED of the faithful model: a version number above 255 overflows (see C50). Proved for all directives with version numbers below 256 of at most nine digits and prefixes whose escaped characters are ASCII and do not stand first; a reserved directive comes out as a tag directive with empty handle and prefix."
  },
  {
   "property": "C65",
   "status": "proved",
   "theorems": [
    "C65_tokens_stand"
   ],
   "note": "Every text and fuel, no hypothesis. The form of each kind of token is that of SpecAccept.written: for quoted scalars, tags and directives wider than YAML in the ways C66 names, for plain and block scalars in the ways the specification's comments name; the flow flag and the required indentation are existential there. End places are claimed for what has a text of its own except quoted scalars (their span takes in what is skipped behind them)."
  },
  {
   "property": "C66",
   "status": "partial",
   "theorems": [
    "C66_single_quotes",
    "C66_anchors",
    "C66_quotes_partial",
    "C66_tags_partial",
    "C66_directives_partial",
    "C66_refuted"
   ],
   "note": "REFUTED of the faithful model: a line of a double-quoted scalar may begin with an escaped line break, !<> and handles with an underscore are accepted. Proved in full for single quotes, anchors and aliases; for double quotes, tags and directives that nothing is accepted beyond the slightly wider forms of SpecAccept."
  },
  {
   "property": "C67",
   "status": "proved",
   "theorems": [
    "C67_text_is_covered",
    "C67_read_is_covered"
   ],
   "note": "Every text and fuel. The pieces are those of SpecAccept.written (see C65 for where they are wider than YAML); between them white space, line breaks and comments, which need not be set off by white space here. Implied tokens (stream and block starts and ends, keys, single-pair mappings) are empty and may be anywhere in the order."
  },
  {
   "property": "C68",
   "status": "partial",
   "theorems": [
    "C68_equal_is_same_partial",
    "C68_symmetric",
    "C68_transitive",
    "C68_copy_is_equal_partial",
    "C68_lookup_compares",
    "C68_order_refuted",
    "C68_nan_refuted"
   ],
   "note": "REFUTED of the faithful model: mappings with the same pairs in another order are unequal, and a value with a NaN inside does not equal its copy. Proved for every comparison of floating point numbers: equal exactly if the same tree with the pairs in the same order; symmetric and transitive if the comparison of floating point numbers is; a copy is equal exactly if every floating point number inside equals itself."
  },
  {
   "property": "C69",
   "status": "partial",
   "theorems": [
    "C69_reads_as_its_value",
    "C69_makes_its_value",
    "C69_writes_its_value",
    "C69_refuted"
   ],
   "note": "REFUTED of the faithful model: SpannedYaml does not override with_start, with_end and with_span, so a place given to a node is forgotten. All accessors, constructors and in-place writes proved to agree with those of the value without places and to keep the place. Editing a string in place is not modelled for these nodes; the loader cannot build them, since they have no From<YamlData>."
  },
  {
   "property": "C70",
   "status": "proved",
   "theorems": [
    "C70_there_and_back",
    "C70_back_and_there",
    "C70_written_where_read",
    "C70_copied_and_taken"
   ],
   "note": "Every value. Numbers are unbounded integers and exact decimals in the model; an in-place edit of a string keeps its length in bytes."
  },
  {
   "property": "C71",
   "status": "partial",
   "theorems": [
    "C71_what_reads_back",
    "C71_reads_back_partial",
    "C71_refuted"
   ],
   "note": "REFUTED of the faithful model: tabs and line breaks come back as a backslash and a letter, since single quotes know no escapes. Proved for every text without NUL and lone carriage returns what it reads back as, and that it reads back as itself exactly if it has no tab and no line break. The function is not called by the rest of the code."
  },
  {
   "property": "C72",
   "status": "partial",
   "theorems": [
    "C72_serialisable_partial",
    "C72_refuted"
   ],
   "note": "REFUTED of the faithful model: bytes, unit structs, newtypes, enums and all collections are todo!(). Proved for every formatter that exactly truth values, numbers, characters, strings, the unit and options of these are serialised and that every other value panics; 128-bit integers are left out."
  },
  {
   "property": "C73",
   "status": "partial",
   "theorems": [
    "C73_lane_by_lane",
    "C73_splat",
    "C73_panics",
    "C73_in_halves_partial",
    "C73_swizzle",
    "C73_refuted"
   ],
   "note": "REFUTED of the faithful model: swizzle on thirty-two lanes never picks from the second half. Proved for every vector for and, shift, sum, comparison and splat; what swizzle gives is proved too. The unrolled expressions are modelled as maps over the lane numbers, so a single wrong literal index in the code would show in the reading of the code, not in the proof."
  },
  {
   "property": "C74",
   "status": "partial",
   "theorems": [
    "C74_read_as_written_partial",
    "C74_there_and_back",
    "C74_refuted"
   ],
   "note": "REFUTED of the faithful model: an unknown escape leaves the loop in the state behind a backslash, so in \\xn the n is read as a line break. Proved for every text all of whose escapes are known ones, and that every text can be written so; a single backslash at the end (lost) is outside the notation."
  },
  {
   "property": "C75",
   "status": "partial",
   "theorems": [
    "C75_json_deserialises_partial",
    "C75_refuted"
   ],
   "note": "REFUTED of the faithful model: the quoted string null (or the empty one) as an Option<String> becomes None, and -0 is refused as an unsigned integer. Proved for every JSON text C56 covers (no lone carriage return, no surrogate pair, no tab-only gap between a colon and a number or literal name, shorter than 2^32-1 bytes) and every type C40 covers (options, tuples and structs not directly inside sequences or as map keys; no tuple ending in a vector; enums with unit variants only), for all values but zero as an unsigned integer and these two strings in an Option. Integers beyond the signed 64-bit range are covered as floats only."
  },
  {
   "property": "C76",
   "status": "partial",
   "theorems": [
    "C76_only_denoted_partial",
    "C76_stands_behind_partial",
    "C76_texts_partial",
    "C76_without_structs",
    "C76_refuted"
   ],
   "note": "REFUTED of the faithful model: a quoted string null (or an empty quoted string) is given as the None of an Option<String>, and a quoted string of digits as an integer. Proved as an equivalence for the types of C40 (no option, tuple or struct in peeked position, no tuple ending in a vector, only unit variants) and for nodes that have only known members where a struct is read, with the nulls the deserialiser recognises in place of those of YAML and integers in any style; texts are documents in block layout without anchors, tags and aliases."
  },
  {
   "property": "C77",
   "status": "partial",
   "theorems": [
    "C77_cases_tell_apart_partial",
    "C77_refuted"
   ],
   "note": "REFUTED of the faithful model: a scalar with a line feed looks like two scalars, and a case whose expected events end with ERR passes with every text. Proved for the format of the YAML test suite for all other cases and event streams without line feeds in values, blanks in anchor names and > in tags. Texts whose scan does not end are outside parser_of_text."
  },
  {
   "property": "C78",
   "status": "partial",
   "theorems": [
    "C78_worn_deserialises_partial",
    "C78_worn_exactly_partial",
    "C78_refuted"
   ],
   "note": "REFUTED of the faithful model: the event iterator drops aliases, so - &a 7 and - *a deserialise as the vector of one 7. Proved for documents without aliases, with at most one directive (see C08) and the layouts of C59 (tags without escaped characters beyond ASCII), for the types and nulls of C40; as an equivalence under the conditions of C76."
  },
  {
   "property": "C79",
   "status": "partial",
   "theorems": [
    "C79_json_only_partial",
    "C79_refuted"
   ],
   "note": "REFUTED of the faithful model: the JSON string of digits in quotes is given as an integer. Proved for the JSON texts of C56 (shorter than 2^32 bytes), the types of C40 and values whose objects have no members unknown to the struct read there (and no array there), up to three leniencies of the deserialiser stated in json_given false: strings of digits as integers, the strings null and the empty one as null, and scalars spelled like a unit variant."
  },
  {
   "property": "C80",
   "status": "proved",
   "theorems": [
    "C80_rest_is_ignored"
   ],
   "note": "At the level of tokens, for the default parser (tags are not kept): the first document is any written document of SpecStream (any directives with at most one %YAML; of several directives the last counts, see C08). The scan may end or fail anywhere behind the marker that ends the document."
  }
 ]
}