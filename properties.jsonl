{"id": "C01", "title": "Parser events always form a well-nested YAML stream", "statement": "Whatever text is parsed, the events handed out by the parser form a prefix of the grammar StreamStart (DocumentStart node DocumentEnd)* StreamEnd, where node is a scalar, an alias, a sequence start/nodes/end or a mapping start/(key node, value node)*/end. If StreamEnd is delivered, the sequence is a complete sentence of that grammar: every opened collection and document was closed, and every mapping holds an even number of nodes.", "quantifier": "every finite or infinite sequence of scanner tokens (hence every input text), including ones that end in a scanner error at any point, and every number of event requests", "why_tests_cant": "The set of token sequences is infinite and the parser is a 20-state push-down machine; a test suite samples a few hundred documents, while consumers (loader, serde) rely on nesting for every possible document.", "anchors": ["yam-core/src/parsing/parser.rs:Parser::parse", "yam-core/src/parsing/parser.rs:Parser::state_machine", "yam-core/src/parsing/parser.rs:Parser::next_event", "yam-core/src/parsing/parser.rs:Parser::pop_state"]}
{"id": "C02", "title": "Parser never panics, whatever the tokens", "statement": "Requesting events from the parser never reaches one of its unwrap/unreachable panics: the stack of pending states is never popped while empty, for any input. The only outcomes of a request are an event, an error value, or end of iteration.", "quantifier": "every token sequence and every number of event requests, including requests after an error", "why_tests_cant": "A panic needs a particular malformed document; the space of malformed token sequences is unbounded.", "anchors": ["yam-core/src/parsing/parser.rs:Parser::pop_state", "yam-core/src/parsing/parser.rs:Parser::parse_node", "yam-core/src/parsing/parser.rs:Parser::state_machine"]}
{"id": "C03", "title": "Iteration stops for good after the end of the stream", "statement": "Once the parser has delivered StreamEnd through its event-by-event API, every later request for the next event yields None, and peeking yields None as well; no event is ever delivered after StreamEnd.", "quantifier": "every token sequence, every number and interleaving of peek/next requests after the end", "why_tests_cant": "Ranges over every history of calls.", "anchors": ["yam-core/src/parsing/parser.rs:Parser::next_event", "yam-core/src/parsing/parser.rs:Parser::peek", "yam-core/src/parsing/parser.rs:Parser::next_event_impl"]}
{"id": "C04", "title": "Peeking does not change what is read", "statement": "Peeking returns the event the following next call returns, peeking any number of times is the same as peeking once, and the sequence of events obtained with next calls is the same whether or not peeks are interleaved.", "quantifier": "every token sequence and every interleaving of peek and next calls", "why_tests_cant": "There are infinitely many interleavings of the two calls.", "anchors": ["yam-core/src/parsing/parser.rs:Parser::peek", "yam-core/src/parsing/parser.rs:Parser::next_event", "yam-core/src/parsing/parser.rs:Parser::next_event_impl"]}
{"id": "C05", "title": "Anchor ids are unique and increase", "statement": "The anchor ids carried by scalar, sequence-start and mapping-start events are either 0 (not anchored) or a fresh number: the n-th anchored node of the whole stream carries id n, so no two anchored nodes of a stream share an id.", "quantifier": "every token sequence, any number of documents and anchors, any redefinition of a name", "why_tests_cant": "Requires reasoning about every history of anchor definitions, across documents.", "anchors": ["yam-core/src/parsing/parser.rs:Parser::register_anchor", "yam-core/src/parsing/parser.rs:Parser::parse_node"]}
{"id": "C06", "title": "An alias denotes the latest preceding anchor of that name", "statement": "An alias event carries the id of the most recent anchored node with that name that was started before the alias in the same stream; an alias whose name has no such node makes the parser return an error instead of an event.", "quantifier": "every token sequence and every alias in it", "why_tests_cant": "Needs all histories of (re)definitions; tests only cover a few overrides.", "anchors": ["yam-core/src/parsing/parser.rs:Parser::parse_node", "yam-core/src/parsing/parser.rs:Parser::register_anchor"]}
{"id": "C07", "title": "Tag shorthand resolution", "statement": "A tag written `!!suffix` resolves to prefix `tag:yaml.org,2002:` unless the handle `!!` was redeclared in which case the declared prefix is used; a tag `!suffix` keeps the handle `!` unless redeclared; a tag with a named handle resolves to the declared prefix, and is an error when the handle is undeclared; a verbatim or non-specific tag is left as is.", "quantifier": "every handle, every suffix and every directive table", "why_tests_cant": "Handles, suffixes and tables are arbitrary strings/maps.", "anchors": ["yam-core/src/parsing/parser.rs:Parser::resolve_tag"]}
{"id": "C08", "title": "All directives of a document are honoured", "statement": "Every %TAG directive in front of a document is usable in that document whatever other directives stand around it, two %TAG directives for one handle are rejected, and two %YAML directives are rejected.", "quantifier": "every sequence of directives before a document", "why_tests_cant": "The order and number of directives is unbounded.", "anchors": ["yam-core/src/parsing/parser.rs:Parser::parser_process_directives"]}
{"id": "C09", "title": "Flow collections are parsed to exactly the tree that was written", "statement": "For every finite tree of scalars (plain, quoted), aliases to defined anchors, flow sequences and flow mappings, the token sequence of its flow notation is parsed without error to exactly the event sequence of that tree: same order, same nesting, same scalar texts and styles.", "quantifier": "every finite tree, any width and depth, followed by any continuation of tokens", "why_tests_cant": "Trees are unbounded in width and depth; the proof is by induction over the tree.", "anchors": ["yam-core/src/parsing/parser.rs:Parser::flow_sequence_entry", "yam-core/src/parsing/parser.rs:Parser::flow_mapping_key", "yam-core/src/parsing/parser.rs:Parser::flow_mapping_value"]}
{"id": "C10", "title": "Block collections are parsed to exactly the tree that was written", "statement": "For every finite tree of scalars, block sequences and block mappings (with flow collections allowed inside), the token sequence of its block notation is parsed without error to exactly the event sequence of that tree.", "quantifier": "every finite tree, any width and depth, followed by any continuation of tokens", "why_tests_cant": "Unbounded width and depth, mixed nesting of flow in block.", "anchors": ["yam-core/src/parsing/parser.rs:Parser::block_sequence_entry", "yam-core/src/parsing/parser.rs:Parser::block_mapping_key", "yam-core/src/parsing/parser.rs:Parser::block_mapping_value", "yam-core/src/parsing/parser.rs:Parser::indentless_sequence_entry"]}
{"id": "C11", "title": "Loading builds exactly the tree the events denote", "statement": "Loading the event stream of a list of documents returns one value per document, in order, and each value is exactly the tree: sequences keep all elements in order, mappings keep all pairs in order (duplicates included), scalars are resolved by the scalar rules. This holds for every document in which no mapping key resolves to a tagged or bad value.", "quantifier": "every list of documents, every tree of any width and depth without tagged/bad keys", "why_tests_cant": "Unbounded trees; the loader's half-finished mappings make nesting the interesting case.", "anchors": ["yam-core/src/prelude/loader.rs:YamlLoader::on_event", "yam-core/src/prelude/loader.rs:YamlLoader::insert_new_node"]}
{"id": "C12", "title": "A mapping loses no pair when loaded", "statement": "Every key/value pair written in a mapping is present in the loaded mapping, also when the key carries an application tag such as `!foo a` or does not fit its core-schema tag.", "quantifier": "every mapping, every key node", "why_tests_cant": "Keys are arbitrary nodes; tests use plain string keys.", "anchors": ["yam-core/src/prelude/loader.rs:YamlLoader::insert_new_node", "yam-core/src/node/yaml_data.rs:YamlDoc::get_type"]}
{"id": "C13", "title": "Loading an alias yields a copy of the anchored node", "statement": "When loading, an alias to a completed anchored node is replaced by a value equal to that node; an alias whose anchor is unknown or still open (a self reference) is replaced by the bad value and never makes loading loop or panic.", "quantifier": "every well-nested event stream and every alias in it", "why_tests_cant": "Needs every history of anchors, including reuse across documents.", "anchors": ["yam-core/src/prelude/loader.rs:YamlLoader::on_event", "yam-core/src/prelude/loader.rs:YamlLoader::insert_new_node"]}
{"id": "C14", "title": "The loader never panics on a parser's event stream", "statement": "Feeding the loader any prefix of any well-nested event stream never reaches one of its unwrap/unreachable panics, and between documents it holds no leftover state: the values loaded from a later document do not depend on earlier documents except through anchors.", "quantifier": "every well-nested event stream and every prefix of it", "why_tests_cant": "All nestings and all cut points.", "anchors": ["yam-core/src/prelude/loader.rs:YamlLoader::on_event"]}
{"id": "C15", "title": "Loading one document returns the first of all documents", "statement": "Loading only the first document gives the same value as the first element of loading all documents; for a stream without documents it reports that there is none.", "quantifier": "every well-formed list of documents", "why_tests_cant": "Every number of documents and every content.", "anchors": ["yam-core/src/prelude/loader.rs:load_single", "yam-core/src/prelude/loader.rs:load_from"]}
{"id": "C16", "title": "Quoted, literal and folded scalars without a tag are strings", "statement": "A scalar that is not plain and not tagged resolves to a string with exactly its text, whatever that text looks like (`\"true\"`, `'12'`, `\"null\"` stay strings).", "quantifier": "every text and every non-plain style", "why_tests_cant": "All texts.", "anchors": ["yam-core/src/node/scalar.rs:YamlScalar::parse_from_scalar"]}
{"id": "C17", "title": "Every 64-bit integer survives printing and resolution", "statement": "The decimal notation of any 64-bit signed integer, written as a plain scalar, resolves to exactly that integer; a decimal notation outside the 64-bit range never resolves to an integer.", "quantifier": "all 2^64 integers and every decimal digit string of any length", "why_tests_cant": "2^64 values and unbounded digit strings.", "anchors": ["yam-core/src/node/scalar.rs:YamlScalar::parse_from_cow", "yam-core/src/saphyr_emitter/mod.rs:YamlEmitter::emit_node"]}
{"id": "C18", "title": "Hexadecimal and octal notation", "statement": "A plain scalar `0x` followed by hexadecimal digits (`0o` followed by octal digits) resolves to the integer with that value in base 16 (8) when it fits in 64 bits signed, and to a non-integer otherwise.", "quantifier": "every digit string of any length", "why_tests_cant": "Unbounded digit strings and the overflow boundary.", "anchors": ["yam-core/src/node/scalar.rs:YamlScalar::parse_from_cow"]}
{"id": "C19", "title": "Only the core-schema spellings become null, booleans or integers", "statement": "An untagged plain scalar resolves to null exactly for `~`, `null`, `Null`, `NULL`; to a boolean exactly for the three spellings of true and of false; and to an integer only if it is in the YAML core-schema integer form `[-+]?[0-9]+`, `0o[0-7]+` or `0x[0-9a-fA-F]+`. No other text is silently turned into one of these.", "quantifier": "every text", "why_tests_cant": "The set of texts is infinite; accidental conversions such as `++5` sit far from any example.", "anchors": ["yam-core/src/node/scalar.rs:YamlScalar::parse_from_cow"]}
{"id": "C20", "title": "Core-schema tags force the type or fail", "statement": "A scalar tagged with a core-schema tag (`!!int`, `!!float`, `!!bool`, `!!null`, `!!str`) loads as a value of that type or as the bad value, never as another type; `!!str` always gives the exact text; any other tag keeps the tag around the untagged resolution.", "quantifier": "every text, style and tag", "why_tests_cant": "All texts times all tags.", "anchors": ["yam-core/src/node/scalar.rs:YamlScalar::parse_from_scalar", "yam-core/src/node/yaml_data.rs:YamlDoc::value_from_scalar_and_tag"]}
{"id": "C21", "title": "Each value has exactly one type and accessors agree with it", "statement": "For every value exactly one of the type predicates holds (tagged values look through to their content), and a typed accessor returns a result exactly when the corresponding predicate holds.", "quantifier": "every value", "why_tests_cant": "Values are unbounded trees of tags.", "anchors": ["yam-core/src/node/yaml_data.rs:YamlDoc", "yam-core/src/node/yaml.rs:Yaml"]}
{"id": "C22", "title": "Reading and writing through an index address the same place", "statement": "Storing through a mutable index and reading back through the same shared index returns the stored value and leaves every other element unchanged, for sequences by position and for mappings by position and by string key.", "quantifier": "every collection, every index", "why_tests_cant": "All collections and all indices.", "anchors": ["yam-core/src/node/yaml.rs:Index", "yam-core/src/node/yaml.rs:IndexMut"]}
{"id": "C23", "title": "Escaped text read back is the same text", "statement": "Writing any text as a double-quoted scalar with the emitter's escaping and scanning that scalar back yields exactly the same text, for every sequence of Unicode characters including controls, quotes, backslashes, blanks at the ends and line breaks.", "quantifier": "every finite text (every sequence of Unicode scalar values)", "why_tests_cant": "All texts: the interesting ones mix control characters, escapes and multi-byte characters.", "anchors": ["yam-core/src/saphyr_emitter/mod.rs:escape_str", "yam-core/src/parsing/scanner.rs:Scanner::scan_flow_scalar", "yam-core/src/parsing/scanner.rs:Scanner::resolve_flow_scalar_escape_sequence"]}
{"id": "C24", "title": "A string emitted without quotes is read back as that string", "statement": "Whenever the emitter decides that a string needs no quotes, resolving that text as a plain scalar gives back a string with that content (not a number, boolean or null).", "quantifier": "every text the emitter leaves unquoted", "why_tests_cant": "The set of texts is infinite, and the emitter's and the resolver's grammars are maintained separately.", "anchors": ["yam-core/src/saphyr_emitter/mod.rs:need_quotes", "yam-core/src/node/scalar.rs:YamlScalar::parse_from_cow"]}
{"id": "C25", "title": "Emitting then loading preserves the value", "statement": "Dumping a value and loading the text back gives an equal value.", "quantifier": "every value built from strings, integers, booleans, nulls, floats, sequences and mappings", "why_tests_cant": "Unbounded trees and texts.", "anchors": ["yam-core/src/saphyr_emitter/mod.rs:YamlEmitter::dump", "yam-core/src/prelude/loader.rs:load_from"]}
{"id": "C26", "title": "Emission keeps its indentation bookkeeping", "statement": "Emitting any node leaves the emitter's nesting level where it was, never drops below the level of the enclosing node, and indents each line of a nested block collection by the configured number of spaces per level.", "quantifier": "every value, every starting level and both compact settings", "why_tests_cant": "Unbounded nesting.", "anchors": ["yam-core/src/saphyr_emitter/mod.rs:YamlEmitter::emit_node", "yam-core/src/saphyr_emitter/mod.rs:YamlEmitter::write_indent"]}
{"id": "C27", "title": "Scanning always terminates", "statement": "Scanning any finite text reaches the end of the stream or an error after finitely many steps; no input makes the scanner loop forever.", "quantifier": "every finite byte string", "why_tests_cant": "Non-termination needs a particular byte at a particular place; fuzzing samples, a proof covers all.", "anchors": ["yam-core/src/parsing/scanner.rs:Scanner::fetch_next_token", "yam-core/src/parsing/scanner.rs:Scanner::skip_to_next_token", "yam-core/src/parsing/scanner.rs:Scanner::skip_linebreak", "yam-core/src/parsing/scanner.rs:Scanner::scan_flow_scalar"]}
{"id": "C28", "title": "Positions reported by the scanner are byte offsets", "statement": "At every moment the scanner's marker position equals the number of bytes consumed from the input, its line is one plus the number of line breaks consumed and its column counts bytes since the last line break, so spans of tokens point at the text they came from.", "quantifier": "every input and every scanning step", "why_tests_cant": "Every input and every reachable scanner state.", "anchors": ["yam-core/src/parsing/scanner.rs:Scanner::skip_linebreak", "yam-core/src/parsing/scanner.rs:Scanner::skip_blank", "yam-core/src/parsing/scanner.rs:Scanner::skip_non_blank", "yam-core/src/parsing/scanner.rs:Marker"]}
{"id": "C29", "title": "Single-quoted text read back is the same text", "statement": "For every line of printable text, doubling its single quotes and enclosing it in single quotes gives a scalar whose scanned value is that text.", "quantifier": "every text without line breaks and NUL that neither starts nor ends in a way changed by folding", "why_tests_cant": "All texts.", "anchors": ["yam-core/src/parsing/scanner.rs:Scanner::scan_flow_scalar", "yam-core/src/parsing/scanner.rs:Scanner::consume_flow_scalar_non_whitespace_chars"]}
{"id": "C30", "title": "Block structure tokens are balanced", "statement": "In any complete scan, every block-sequence/block-mapping start token is closed by exactly one block-end token, and the scanner's indentation stack is empty at the end of the stream; indentation recorded for nested blocks is strictly increasing.", "quantifier": "every sequence of indentation changes the scanner can perform", "why_tests_cant": "Every history of indentation pushes and pops.", "anchors": ["yam-core/src/parsing/scanner.rs:Scanner::roll_indent", "yam-core/src/parsing/scanner.rs:Scanner::unroll_indent", "yam-core/src/parsing/scanner.rs:Scanner::roll_one_col_indent", "yam-core/src/parsing/scanner.rs:Scanner::unroll_non_block_indents"]}
{"id": "C31", "title": "Skipping whitespace consumes exactly the blanks and the comment", "statement": "Skipping to the end of a line consumes exactly the longest prefix of blanks (tabs only if allowed) and a comment preceded by a blank, never any other byte, reports the number of bytes consumed and whether blanks and tabs were seen; a `#` not preceded by a blank is an error.", "quantifier": "every input, position and flag", "why_tests_cant": "All inputs.", "anchors": ["yam-core/src/parsing/source.rs:shared_skip_ws_to_eol"]}
{"id": "C32", "title": "The buffered source behaves like the string source", "statement": "Any sequence of peek and skip requests answered by the 32-byte buffered source gives the same bytes as the string source over the same input.", "quantifier": "every input of any length, every sequence of skips (of any amounts) and peeks within the buffer", "why_tests_cant": "Every history of skips and refills, including ones that straddle the buffer boundary.", "anchors": ["yam-core/src/parsing/buffered_source.rs:BufferedBytesSource", "yam-core/src/parsing/source.rs:StrSource"]}
{"id": "C33", "title": "The vectorised whitespace skipping agrees with the byte-wise one", "statement": "Skipping blanks to the end of the line with the buffered (SIMD-style) source consumes the same bytes and reports the same flags as with the string source.", "quantifier": "every input and flag", "why_tests_cant": "All inputs longer than the vector width.", "anchors": ["yam-core/src/parsing/buffered_source.rs:skip_ws_to_eol", "yam-core/src/util/u8x16.rs:U8X16", "yam-core/src/util/u8x32.rs:U8X32"]}
{"id": "C34", "title": "Vector comparisons mark exactly the equal lanes", "statement": "Bit i of the comparison bit mask of a 16- or 32-byte vector is set exactly when lane i equals the compared byte, and its number of trailing zeros is the index of the first equal byte.", "quantifier": "every 16/32-byte vector and every byte", "why_tests_cant": "256^32 vectors.", "anchors": ["yam-core/src/util/u8x16.rs:BitOps", "yam-core/src/util/u8x32.rs:BitOps"]}
{"id": "C35", "title": "Collecting the rest of a line takes exactly the text up to the line break", "statement": "Collecting a line appends exactly the bytes before the next line break (or, on the last line, all remaining bytes) and consumes exactly those.", "quantifier": "every input and position, both sources", "why_tests_cant": "All inputs; the last line without a terminator is the forgotten case.", "anchors": ["yam-core/src/parsing/source.rs:push_non_breakz_chr", "yam-core/src/parsing/buffered_source.rs:push_non_breakz_chr"]}
{"id": "C36", "title": "Reads stay inside the input", "statement": "Peeking a character never reads outside of the input buffer.", "quantifier": "every input and every position the scanner peeks at", "why_tests_cant": "Memory-safety for every input length.", "anchors": ["yam-core/src/parsing/source.rs:StrSource::peek_char", "yam-core/src/parsing/scanner.rs:Scanner::fetch_next_token"]}
{"id": "C37", "title": "The serde event iterator delivers the document's events", "statement": "The event iterator used for deserialisation yields, for a one-document stream, DocStart, then exactly the events of the document node in order, then DocEnd, and then None forever.", "quantifier": "every one-document event stream", "why_tests_cant": "All documents.", "anchors": ["yam-core/src/parsing/parser_iter.rs:ParserIter::next"]}
{"id": "C38", "title": "Base64 round trip", "statement": "Decoding the base64 encoding of any byte string gives the byte string back; the encoding has length 4*ceil(n/3) and uses only the base64 alphabet and padding; decoding ignores spaces and line breaks anywhere.", "quantifier": "every byte string", "why_tests_cant": "All byte strings of all lengths.", "anchors": ["yam-serde/src/binary.rs:encode_as_base64", "yam-serde/src/binary.rs:decode_as_base64"]}
{"id": "C39", "title": "Serialised strings are valid double-quoted YAML with the same content", "statement": "Serialising any string yields a double-quoted scalar which reads back as that string.", "quantifier": "every text", "why_tests_cant": "All texts.", "anchors": ["yam-serde/src/escape_str.rs:escape_double_quotes", "yam-serde/src/ser.rs:serialize_str"]}
{"id": "C40", "title": "Deserialising into nested collections consumes exactly the value", "statement": "Deserialising a value of a nested list/map/tuple type from the event iterator yields exactly the denoted value and consumes exactly that value's events, so that the next element starts at the right place.", "quantifier": "every nesting of sequences and mappings of scalars and every shape of target type", "why_tests_cant": "Unbounded nestings of types and values.", "anchors": ["yam-serde/src/de.rs:deserialize_seq", "yam-serde/src/de.rs:deserialize_map", "yam-serde/src/de.rs:next_el"]}
{"id": "C41", "title": "The string escaper never changes text that needs no escaping and is reversible", "statement": "Escaping leaves text without special characters unchanged, and two different texts never get the same escaped form.", "quantifier": "every pair of texts, each escaping mode", "why_tests_cant": "All pairs of texts.", "anchors": ["yam-core/src/escaper.rs"]}
{"id": "C42", "title": "Expansion limits count the scalars", "statement": "The expansion size computed for a value is exactly the number of scalar leaves it would have when all aliases are expanded, and expansion is permitted exactly when that number is below the limit.", "quantifier": "every value", "why_tests_cant": "All trees; alias bombs are exponential.", "anchors": ["yam-core/src/lazy_expander.rs"]}
{"id": "C43", "title": "Source peeking and skipping follow the text", "statement": "After any sequence of skips, peeking n bytes ahead returns the byte at offset (sum of skips + n) of the input, or 0/None past the end; the document-indicator and plain-scalar lookaheads are determined by those bytes alone.", "quantifier": "every input, every sequence of skips, every offset", "why_tests_cant": "All histories.", "anchors": ["yam-core/src/parsing/source.rs:StrSource"]}
{"id": "C44", "title": "Loading the same anchors across documents", "statement": "Anchors are local to a document: an alias in a later document to a name only anchored in an earlier document is an error.", "quantifier": "every multi-document stream", "why_tests_cant": "Every history over documents; differs between the two parser entry points.", "anchors": ["yam-core/src/parsing/parser.rs:Parser::load", "yam-core/src/parsing/parser.rs:Parser::next_event"]}
{"id": "C45", "title": "Parsing always comes to an end", "statement": "Asking the parser for events always ends: after at most 8 requests per token (plus one) it has delivered StreamEnd or answered an error; it never keeps producing events for ever.", "quantifier": "every token sequence", "why_tests_cant": "Non-termination needs one particular token sequence that keeps the state machine in a cycle without consuming tokens; the space of sequences is unbounded.", "anchors": ["yam-core/src/parsing/parser.rs:Parser::state_machine", "yam-core/src/parsing/parser.rs:Parser::next_event"]}
{"id": "C46", "title": "The push interface delivers the iterator's events", "statement": "Loading through the receiver interface never panics and always ends; on success the events sent form a complete stream and are exactly the events the pull interface delivers, in the same order.", "quantifier": "every token sequence", "why_tests_cant": "Two separate traversals of the same state machine, one recursive over nodes and one event at a time: agreement on all token sequences, of any nesting depth, needs a simulation proof.", "anchors": ["yam-core/src/parsing/parser.rs:Parser::load", "yam-core/src/parsing/parser.rs:Parser::next_event"]}
{"id": "C47", "title": "A single pair with an empty key inside a flow sequence", "statement": "A flow sequence entry written with a key indicator and no key node, such as `[? : b]`, is parsed as a one-pair mapping with an empty key and the written value.", "quantifier": "every flow sequence containing such an entry", "why_tests_cant": "The empty-key path swallows the token after the key indicator; only this rare combination of indicators shows it.", "anchors": ["yam-core/src/parsing/parser.rs:Parser::flow_sequence_entry_mapping_key"]}
{"id": "C48", "title": "Floats are exactly the core-schema float spellings", "statement": "An untagged plain scalar resolves to a floating point value exactly if it is one of the spellings of infinity or not-a-number, or a core-schema decimal number that is not a 64-bit decimal integer; the value is the decimal number written. A text that is no null, boolean, integer or float spelling stays exactly that string.", "quantifier": "every text", "why_tests_cant": "the set of texts is infinite, and the accepting path goes through the library's float parser, which alone accepts more spellings", "anchors": ["yam-core/src/node/scalar.rs:parse_core_schema_fp", "yam-core/src/node/scalar.rs:YamlScalar::parse_from_cow"]}
{"id": "C49", "title": "A missing value loads as null", "statement": "A node left empty (a mapping value, a key or an element that is not written, as in `a:`) loads as null, as the YAML core schema demands.", "quantifier": "every document and every empty node in it", "why_tests_cant": "empty nodes arise in many places of the grammar; one wrong resolution of the empty text affects all of them", "anchors": ["yam-core/src/parsing/parser.rs:ScalarValue::empty_scalar", "yam-core/src/node/scalar.rs:YamlScalar::parse_from_cow"]}
{"id": "C50", "title": "Scanning does not panic", "statement": "No input makes the scanner panic: no unwrap of an empty stack of indents or simple keys, no insertion outside of the token queue, no arithmetic failure.", "quantifier": "every finite byte string", "why_tests_cant": "the stacks and the queue positions of simple keys depend on the whole history of the scan; fuzzing reaches only some of them", "anchors": ["yam-core/src/parsing/scanner.rs:Scanner::insert_token", "yam-core/src/parsing/scanner.rs:Scanner::unroll_indent", "yam-core/src/parsing/scanner.rs:Scanner::fetch_value", "yam-core/src/parsing/scanner.rs:Scanner::scan_version_directive_number"]}
{"id": "C51", "title": "Deserialising always returns", "statement": "Deserialising into any type from any sequence of events, well-formed or not, ends with a value or an error value: it never loops and never panics.", "quantifier": "every target type and every finite sequence of events", "why_tests_cant": "All nestings of types and all event sequences, including those of broken documents.", "anchors": ["yam-serde/src/de.rs:next_el", "yam-serde/src/de.rs:next_element_seed", "yam-serde/src/de.rs:unit_variant"]}
{"id": "C52", "title": "Line folding in quoted scalars", "statement": "A quoted scalar written over several lines is read as its words: blanks inside a line are kept, a line break together with the blanks around it is read as one space, a line break followed by n empty lines as n line feeds; doubled single quotes are one quote; and the end position of the token is the line and column a reader counts.", "quantifier": "every list of words and gaps (blanks, line breaks, empty lines, any indentation that is deep enough), both quoting styles, anywhere in a document", "why_tests_cant": "All combinations of words, blanks, breaks and indentations; the code juggles four buffers whose contents depend on the whole history of the line.", "anchors": ["yam-core/src/parsing/scanner.rs:Scanner::scan_flow_scalar", "yam-core/src/parsing/scanner.rs:Scanner::consume_flow_scalar_non_whitespace_chars"]}
{"id": "C53", "title": "Push and pull interfaces accept the same streams", "statement": "Pushing all events to a receiver succeeds exactly for the token streams that the event iterator reads to the end of the stream and in which every alias refers to an anchor of its own document.", "quantifier": "every token stream, scanner error and final position, with tags kept or not", "why_tests_cant": "Two separately written drivers (recursive and iterative) must agree on all token streams, well formed or not.", "anchors": ["yam-core/src/parsing/parser.rs:Parser::load", "yam-core/src/parsing/parser.rs:Parser::next_event"]}
{"id": "C54", "title": "Dumped values deserialise", "statement": "A YAML value that is dumped into a string and deserialised as a Rust type that the value has gives the Rust value it is of that type: integers in range, booleans, floats, strings, units, options, vectors, maps, tuples, structs and enums.", "quantifier": "every value of scalars, sequences and mappings of any size, every type built from these, every Rust value the YAML value stands for", "why_tests_cant": "Composition of emitter, scanner, parser, event iterator and deserialiser over unboundedly many values and types; a defect can appear only for one combination of type and layout.", "anchors": ["yam-serde/src/lib.rs:from_str", "yam-serde/src/de.rs:Deserializer", "yam-core/src/saphyr_emitter/mod.rs:YamlEmitter::dump"]}
{"id": "C55", "title": "Serialised values deserialise", "statement": "A boolean, integer, float, character, string, unit or option that is serialised with any formatter and deserialised as its own type comes back equal.", "quantifier": "every such value, every formatter, every division of the string into words", "why_tests_cant": "All strings, widths and formatters; serialiser and deserialiser are written separately and meet only in the text.", "anchors": ["yam-serde/src/ser.rs:Serializer", "yam-serde/src/de.rs:Deserializer", "yam-serde/src/lib.rs:from_str"]}
{"id": "C56", "title": "JSON texts load as their value", "statement": "A JSON text is a YAML text with the same meaning: loading it gives exactly one document, which is the JSON value (objects as mappings in order, arrays as sequences, strings decoded, integers in the 64-bit range as integers, other numbers as the decimal they are written as, true, false and null).", "quantifier": "every JSON text of RFC 8259: any nesting, any white space between tokens, any strings and numbers", "why_tests_cant": "Infinitely many texts; white space, nesting, key state and escapes interact in the scanner, and each test fixes one combination.", "anchors": ["yam-core/src/parsing/scanner.rs:fetch_flow_collection_start", "yam-core/src/parsing/scanner.rs:fetch_value", "yam-core/src/parsing/scanner.rs:fetch_flow_value", "yam-core/src/parsing/scanner.rs:resolve_flow_scalar_escape_sequence", "yam-core/src/prelude/loader.rs"]}
{"id": "C57", "title": "Block scalars have the value YAML gives them", "statement": "A literal or folded block scalar, with any chomping and indentation indicator, comment behind the header, line breaks of both kinds, blank and more indented lines, is read as the text of section 8.1 of YAML 1.2.2: indentation removed, lines joined as written or folded, trailing breaks stripped, clipped or kept; the scanner goes on right behind it.", "quantifier": "every block scalar: any number of lines, any content bytes, any indentation, any chomping, any context", "why_tests_cant": "Unbounded number of lines whose blank and more indented neighbours interact in folding and chomping; the position of the end depends on all of them.", "anchors": ["yam-core/src/parsing/scanner.rs:scan_block_scalar", "yam-core/src/parsing/scanner.rs:skip_block_scalar_indent", "yam-core/src/parsing/scanner.rs:skip_block_scalar_first_line_indent", "yam-core/src/parsing/scanner.rs:scan_block_scalar_content_line"]}
{"id": "C58", "title": "Plain scalars over several lines have the value YAML gives them", "statement": "A plain scalar, in block or flow context, is read as its words joined by the white space between them, where a line break is folded to a space and n empty lines to n line feeds; it ends at the end of the text, before a comment, before a colon followed by white space, before the signs of flow collections inside them, before a line that is indented less, and before a document marker at the margin; the scanner goes on right behind the white space that follows.", "quantifier": "every plain scalar: any number of words, lines and empty lines, any bytes in words, both kinds of line breaks, any indentation, block and flow context, any text after it", "why_tests_cant": "Unbounded sequences of words and blank lines, with colons, number signs, dashes and tabs at every position and both kinds of context; each combination decides whether the scalar goes on.", "anchors": ["yam-core/src/parsing/scanner.rs:scan_plain_scalar", "yam-core/src/parsing/scanner.rs:fetch_plain_scalar", "yam-core/src/parsing/source.rs:next_can_be_plain_scalar"]}
{"id": "C59", "title": "Block documents mean what their layout says", "statement": "A text laid out as a stream of block documents is scanned and parsed as exactly those documents and loaded as the values YAML gives them: sequences, mappings with keys in the line or behind question marks, sequences in the column of their key, collections beside or below their indicator at any indentation, scalars over several lines, missing nodes, anchors and tags in either order on any node, aliases (as values, entries or keys) that stand for the node last anchored by that name, comments and empty lines anywhere, document markers, directives.", "quantifier": "every text of any number of documents, nested to any depth, with any indentation, comments, empty lines, both kinds of line breaks, plain, quoted and block scalars of one or more lines, anchors, aliases, tags and directives", "why_tests_cant": "Which indicators open and close a collection depends on the columns of all lines so far; the combinations of nesting, indentation, comments, missing nodes and simple keys are unbounded.", "anchors": ["yam-core/src/parsing/scanner.rs:roll_indent", "yam-core/src/parsing/scanner.rs:unroll_indent", "yam-core/src/parsing/scanner.rs:fetch_block_entry", "yam-core/src/parsing/scanner.rs:fetch_value", "yam-core/src/parsing/scanner.rs:fetch_key", "yam-core/src/parsing/scanner.rs:fetch_document_indicator", "yam-core/src/parsing/scanner.rs:skip_to_next_token", "yam-core/src/parsing/parser.rs:parse_node", "yam-core/src/prelude/loader.rs:on_event_impl", "yam-core/src/parsing/scanner.rs:fetch_directive"]}
{"id": "C60", "title": "Block documents deserialise as the Rust values they describe", "statement": "A text laid out as one block document (C59) deserialises, as any Rust type that its node is a value of, as exactly that value: structs with their fields in any order and missing options, maps, vectors, options, numbers, booleans, strings; comments, empty lines, indentation and the style of scalars make no difference.", "quantifier": "every text of one block document and every target type", "why_tests_cant": "Layouts are unbounded, as in C59, and so are types; the theorem joins the scanner, the parser, the event iterator and the deserialiser for every pair of them.", "anchors": ["yam-serde/src/lib.rs:from_str", "yam-serde/src/de.rs:deserialize_any", "yam-serde/src/de.rs:deserialize_map", "yam-core/src/parsing/parser_iter.rs:next", "yam-core/src/parsing/scanner.rs:fetch_more_tokens"]}
{"id": "C61", "title": "Quoted scalars have the value YAML gives them", "statement": "A single- or double-quoted scalar is scanned as exactly the string YAML 1.2 gives it: every escape (the letters, \\x, \\u and \\U codes as UTF-8), doubled single quotes, blanks kept inside lines, line breaks folded to a space or to one line feed per empty line, escaped line breaks joined, both kinds of line breaks, tabs behind the indentation; the token ends where a reader counting lines and columns sees it (behind the spaces and the comment that follow the scalar in its line), and a text that is such a scalar is loaded as that string.", "quantifier": "every scalar, of any number of lines and escapes, at any place and indentation, in block and flow context, with any text before and after it that may stand there", "why_tests_cant": "Escapes, blanks, empty lines, joined and folded breaks combine without bound, and the loop keeps four pieces of state across them; a sample cannot show that no combination loses or adds a character.", "anchors": ["yam-core/src/parsing/scanner.rs:scan_flow_scalar", "yam-core/src/parsing/scanner.rs:consume_flow_scalar_non_whitespace_chars", "yam-core/src/parsing/scanner.rs:resolve_flow_scalar_escape_sequence", "yam-core/src/parsing/scanner.rs:read_break"]}
{"id": "C62", "title": "Flow collections mean what YAML says", "statement": "A text that is a flow collection is loaded as the value YAML gives it: sequences and mappings nested to any depth over any number of lines, with comments and empty lines between tokens, single pairs, explicit and missing keys, values directly behind the colon of a quoted key, a comma at the end, plain scalars over several lines, quoted scalars with escapes, anchors, tags and aliases.", "quantifier": "every text that is one flow collection, of any nesting and number of lines, with comments, spaces and empty lines wherever YAML allows them", "why_tests_cant": "Whether a colon, a comma or a bracket ends an entry depends on all collections open at that place, on saved simple keys and on the states of single pairs; nesting and lengths are unbounded, and the failures found need three collections inside each other.", "anchors": ["yam-core/src/parsing/scanner.rs:fetch_flow_collection_start", "yam-core/src/parsing/scanner.rs:fetch_flow_collection_end", "yam-core/src/parsing/scanner.rs:fetch_flow_entry", "yam-core/src/parsing/scanner.rs:fetch_flow_value", "yam-core/src/parsing/scanner.rs:fetch_value", "yam-core/src/parsing/scanner.rs:end_implicit_mapping", "yam-core/src/parsing/scanner.rs:scan_plain_scalar", "yam-core/src/parsing/parser.rs:flow_sequence_entry", "yam-core/src/parsing/parser.rs:flow_mapping_key", "yam-core/src/prelude/loader.rs:on_event_impl"]}
{"id": "C63", "title": "Anchors, aliases and tags are read as written", "statement": "An anchor or an alias is scanned as its whole name, whatever signs it has in it; a tag is scanned as the handle and suffix it is written with (verbatim tags without a handle, named handles, local tags, the lone exclamation mark), with every percent escape replaced by the character it stands for; the token's span and the scanner's position end exactly behind it.", "quantifier": "every name and every tag text of YAML 1.2, of any length, with any text before and behind it that may stand there, in block and flow context", "why_tests_cant": "The scanner takes letters for a handle before it knows whether an exclamation mark follows, and escapes of one to four bytes can stand anywhere between other characters; a sample cannot show that every split is put together again.", "anchors": ["yam-core/src/parsing/scanner.rs:scan_anchor", "yam-core/src/parsing/scanner.rs:scan_tag", "yam-core/src/parsing/scanner.rs:scan_tag_handle", "yam-core/src/parsing/scanner.rs:scan_tag_shorthand_suffix", "yam-core/src/parsing/scanner.rs:scan_verbatim_tag", "yam-core/src/parsing/scanner.rs:scan_uri_escapes", "yam-core/src/parsing/char_utils.rs:is_tag_char"]}
{"id": "C64", "title": "Directives are read as written", "statement": "A %YAML directive is scanned as its two version numbers, a %TAG directive as its handle and prefix with escapes decoded, a reserved directive as one that declares nothing; in each case the spaces and comment behind it and the line break are skipped, and nothing after them.", "quantifier": "every directive text of YAML 1.2 with any blanks between its parts, any spaces or comment behind it and either kind of line break", "why_tests_cant": "Numbers, handles, prefixes and blanks have any length, and each part ends by a different test on the next byte.", "anchors": ["yam-core/src/parsing/scanner.rs:scan_directive", "yam-core/src/parsing/scanner.rs:scan_directive_name", "yam-core/src/parsing/scanner.rs:scan_version_directive_value", "yam-core/src/parsing/scanner.rs:scan_version_directive_number", "yam-core/src/parsing/scanner.rs:scan_tag_directive_value", "yam-core/src/parsing/scanner.rs:scan_tag_prefix"]}
{"id": "C65", "title": "Every token stands in the text at its place", "statement": "Whatever text is scanned and however the scan ends, every token that is delivered either is written in the text at the place its span starts with - an indicator as its sign, a scalar, anchor, alias, tag or directive in the form of its kind and with the value of that form, and what has a text of its own ends where its span says - or is one of the tokens that are implied (stream start and end, keys, block starts and ends) and then its span is empty.", "quantifier": "every text whatsoever, valid or not, and every fuel", "why_tests_cant": "A token made of nothing, made of the wrong bytes or placed beside its text shows up only on the texts that bring it about, and these are mostly invalid texts no test suite lists.", "anchors": ["yam-core/src/parsing/scanner.rs:fetch_next_token", "yam-core/src/parsing/scanner.rs:scan_plain_scalar", "yam-core/src/parsing/scanner.rs:scan_block_scalar", "yam-core/src/parsing/scanner.rs:scan_flow_scalar", "yam-core/src/parsing/scanner.rs:scan_anchor", "yam-core/src/parsing/scanner.rs:scan_tag", "yam-core/src/parsing/scanner.rs:scan_directive"]}
{"id": "C66", "title": "What YAML does not allow as a quoted scalar, anchor, tag or directive is rejected", "statement": "When the scanner accepts a quoted scalar, an anchor or alias, a tag or a directive, the bytes it took form one according to the grammar of YAML 1.2, its value is the value of that form, and what follows may follow it; everything else is an error.", "quantifier": "every text before and behind, every indentation, block and flow context, every fuel", "why_tests_cant": "Invalid inputs are unbounded in number and kind (bad escapes, tabs and indentation on continuation lines, broken percent escapes, content behind a closing quote); tests can list some of them only.", "anchors": ["yam-core/src/parsing/scanner.rs:scan_flow_scalar", "yam-core/src/parsing/scanner.rs:consume_flow_scalar_non_whitespace_chars", "yam-core/src/parsing/scanner.rs:resolve_flow_scalar_escape_sequence", "yam-core/src/parsing/scanner.rs:scan_anchor", "yam-core/src/parsing/scanner.rs:scan_tag", "yam-core/src/parsing/scanner.rs:scan_uri_escapes", "yam-core/src/parsing/scanner.rs:scan_directive"]}
{"id": "C67", "title": "Nothing of the text is lost", "statement": "When a scan comes to its end without an error, the text consists of nothing but what is written for the delivered tokens, one after the other in their order and each at its place, with white space, line breaks and comments in between; a scan that stops earlier has read a beginning of the text in the same way.", "quantifier": "every text, valid or not, and every fuel; the first half for scans that end without an error", "why_tests_cant": "A byte skipped without a token, or a token read twice, is noticed only when a test happens to have content in exactly that place; the possible places are unbounded.", "anchors": ["yam-core/src/parsing/scanner.rs:fetch_next_token", "yam-core/src/parsing/scanner.rs:skip_to_next_token", "yam-core/src/parsing/scanner.rs:fetch_more_tokens", "yam-core/src/parsing/scanner.rs:scan_block_scalar", "yam-core/src/parsing/scanner.rs:scan_flow_scalar"]}
{"id": "C68", "title": "Values compare equal exactly when they are the same value", "statement": "Two values compare equal exactly when they are the same YAML value: the same kind and content, sequences item by item, mappings with the same pairs whatever their order, tagged values with the same tag; comparing is symmetric and transitive, every value equals its copy, and looking up a key is by this comparison.", "quantifier": "every two values and every comparison of floating point numbers", "why_tests_cant": "Values nest without bound and a mistake in one arm shows only for the pair of kinds it concerns, at the depth it occurs.", "anchors": ["yam-core/src/node/yaml_data.rs:eq", "yam-core/src/node/scalar.rs:eq", "yam-core/src/node/yaml_data.rs:clone"]}
{"id": "C69", "title": "A node with its place behaves as the value it carries", "statement": "Every accessor, constructor and in-place write of a node that carries its place in the text gives what it gives for the value without the places; writes and tags keep the place, and a place given to a node is the node's place afterwards.", "quantifier": "every node with places, every written value and every place", "why_tests_cant": "The accessors are written out twice, once for each type of node; the two copies must agree for every node and not only for the handful a test builds.", "anchors": ["yam-core/src/node/spanned_yaml.rs:as_sequence", "yam-core/src/node/spanned_yaml.rs:into_tagged", "yam-core/src/prelude/mod.rs:with_span"]}
{"id": "C70", "title": "Converting, copying and writing values in place lose nothing", "statement": "A value made from a Rust value is converted back to exactly that value, and only such values are; a value can be written in place exactly where it can be read and is then what was written; a copy is the value itself, and taking a value returns it and leaves the bad value.", "quantifier": "every value and every Rust value of the convertible types", "why_tests_cant": "The statements are about every value of unbounded nesting and every integer, string and list.", "anchors": ["yam-core/src/node/yaml.rs:into_string", "yam-core/src/node/yaml.rs:from", "yam-core/src/node/yaml.rs:as_i64_mut", "yam-core/src/prelude/mod.rs:take"]}
{"id": "C71", "title": "Text escaped for single quotes reads back", "statement": "What the serialiser's escaping for single quotes writes, put between single quotes, is a document that loads as the string that was escaped.", "quantifier": "every text without NUL in which carriage returns stand only in front of line feeds", "why_tests_cant": "Quotes, tabs and line breaks may stand anywhere and next to each other in a text of any length, and the escaped text passes through scanner, parser and loader.", "anchors": ["yam-serde/src/ser.rs:escape_single_quotes", "yam-core/src/parsing/scanner.rs:scan_flow_scalar"]}
{"id": "C72", "title": "Every Rust value can be serialised", "statement": "Serialising a value of serde's data model returns a text, whatever the value and the formatter; it does not panic.", "quantifier": "every value of serde's data model except 128-bit integers, and every formatter", "why_tests_cant": "Values nest without bound and every kind of value has its own method; a missing one is met only by a value of that kind.", "anchors": ["yam-serde/src/ser.rs:serialize_str", "yam-serde/src/ser.rs:serialize_seq", "yam-serde/src/ser.rs:serialize_struct", "yam-serde/src/ser.rs:serialize_some"]}
{"id": "C73", "title": "Vector operations act lane by lane, and on thirty-two lanes as on two halves", "statement": "And, shift, sum and comparison of byte vectors compute every lane of the result from the lanes at its place; sums panic exactly if a lane overflows and shifts exactly from eight on; every operation on a vector of thirty-two lanes gives what the operation on sixteen lanes gives for its two halves.", "quantifier": "every vector and every operand", "why_tests_cant": "The operations are unrolled by hand, lane by lane; one wrong index among thirty-two shows only for vectors that differ in exactly that lane.", "anchors": ["yam-core/src/util/u8x16.rs:swizzle", "yam-core/src/util/u8x32.rs:swizzle", "yam-core/src/util/u8x32.rs:add_other", "yam-core/src/util/u8x32.rs:shift_right"]}
{"id": "C74", "title": "Test cases are read as their notation says", "statement": "In the texts of the test cases a backslash with one of the letters n, r, t, b or a second backslash stands for the control byte or the backslash, a backslash in front of any other byte stands for that byte, and every other byte stands for itself; every text can be written in this notation and is read back.", "quantifier": "every text and every sequence of escapes", "why_tests_cant": "The function only prepares the tests; a wrong reading changes what the tests test without any test failing.", "anchors": ["yam-test-bench/src/lib.rs:unescape_text"]}
{"id": "C75", "title": "JSON texts deserialise as the Rust values they describe", "statement": "Deserialising a JSON text (RFC 8259) into a Rust type gives the value the JSON value is for that type: numbers as integers and floats, strings, arrays as vectors and tuples, objects as maps and structs (members in any order, a missing option being None), null as None or the unit.", "quantifier": "every JSON text, every target type and every value of it", "why_tests_cant": "Texts, types and values vary independently: white space and escapes, nesting of types, order of members; tests pick a few combinations.", "anchors": ["yam-serde/src/lib.rs:from_str", "yam-serde/src/de.rs:deserialize_option", "yam-core/src/parsing/scanner.rs:fetch_flow_scalar"]}
{"id": "C76", "title": "Only what a node denotes is deserialised", "statement": "If deserialising a node as a Rust type succeeds with a value, the node denotes that value for that type, so every mismatch of kind, range or number of elements is an error; and the deserialiser then stands behind the node.", "quantifier": "every node, every target type, every value, every text of a document in block layout", "why_tests_cant": "Tests try the mismatches their author thought of; that no node of any shape is accepted as a wrong value, or with elements left over, is a claim about all of them.", "anchors": ["yam-serde/src/de.rs:deserialize_seq", "yam-serde/src/de.rs:deserialize_any", "yam-serde/src/de.rs:peek_null", "yam-serde/src/lib.rs:from_str"]}
{"id": "C77", "title": "A test case tells event streams apart", "statement": "If two texts pass the same event test case of the test bench, the parser reads the same events from them: the same kinds in the same order, with the same names of anchors, tags, styles and values.", "quantifier": "every test case and every two texts", "why_tests_cant": "It is about what the tests themselves can see: no test run shows that another event stream would have passed too.", "anchors": ["yam-test-bench/src/lib.rs:write_str_from_event", "yam-test-bench/src/lib.rs:assert_eq_event_case_saph", "yam-test-bench/src/lib.rs:extract_tag_full"]}
{"id": "C78", "title": "Documents with anchors, aliases and tags deserialise as what they stand for", "statement": "A text laid out as one document, with anchors, aliases, tags and a directive, deserialises as a Rust type as exactly the values that its node denotes for that type: tags count as declared by the document, anchors make no difference, and an alias counts as the node it refers to.", "quantifier": "every text of one document in block or flow notation with node properties, every target type, every value", "why_tests_cant": "Properties may stand at any node of a tree of any shape, with any declared handles; that none of them shifts or hides an event between the scanner and the deserialiser is a claim about all such texts and types.", "anchors": ["yam-core/src/parsing/parser_iter.rs:next", "yam-core/src/parsing/parser.rs:parse_node", "yam-serde/src/lib.rs:from_str", "yam-serde/src/de.rs:deserialize_any"]}
{"id": "C79", "title": "A JSON text is deserialised as nothing but what it is", "statement": "If deserialising a JSON text as a Rust type succeeds with a value, the JSON value is that Rust value for that type: no number out of range, no string as a number, no array of another length, no object with a member twice, without or beyond its fields.", "quantifier": "every JSON text, every target type and every value", "why_tests_cant": "Tests show for chosen texts that a wrong type is refused; that no JSON text at all slips through as a value it is not needs the scanner, the parser and the deserialiser inverted for every text and type.", "anchors": ["yam-serde/src/lib.rs:from_str", "yam-serde/src/de.rs:deserialize_any", "yam-serde/src/de.rs:deserialize_seq", "yam-serde/src/de.rs:peek_null", "yam-core/src/parsing/scanner.rs:fetch_more_tokens"]}
{"id": "C80", "title": "Loading one document ignores what follows it", "statement": "Loading a single document from a token stream gives the value of the first document, whatever tokens follow once the document is ended by --- or ... or the end of the stream, readable or not, and however the scan ends after them.", "quantifier": "every first document (directives, markers and node), every sequence of tokens behind the marker that ends it, every outcome of the scan", "why_tests_cant": "What stands behind the first document is any token sequence at all, most of them malformed; tests try a few well-formed ones.", "anchors": ["yam-core/src/prelude/loader.rs:load_single", "yam-core/src/prelude/loader.rs:load_single_source", "yam-core/src/prelude/loader.rs:load_single_from_parser", "yam-core/src/parsing/parser.rs:load", "yam-core/src/parsing/parser.rs:load_document"]}
