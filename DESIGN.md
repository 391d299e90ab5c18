# Formal model of yam-rs: design

This directory holds a Rocq (Coq 8.16.1) model of the logic of `yam-rs` (source pinned in
`/repo`) and theorems about that model for all inputs, states and histories.
`properties.jsonl` lists the properties in English, `MANIFEST.json` says which theorem settles
which property, `seeded/LOG.jsonl` records the mutation tests of the theorems.

## Layout (`rocq/theories`)

| file | contents |
|---|---|
| `Base.v` | bytes, texts, byte-string constants, association maps |
| `Chars.v` | `char_utils.rs` |
| `Source.v` | `source.rs`: the string source and the default methods of `Source` |
| `Buffered.v`, `Simd.v` | `buffered_source.rs`, `util/u8x16.rs`, `util/u8x32.rs` |
| `Tokens.v` | tokens, events, tags, scalar values (`parsing/mod.rs`, head of `parser.rs`, `scanner.rs`) |
| `Parser.v` | `parser.rs`: the event state machine, `peek`/`next_event`/`load` |
| `ParserRun.v`, `SpecEvents.v` | request histories; the event grammar and anchors as specification |
| `SpecLoad.v`, `SpecTree.v`, `SpecStream.v` | document-local aliases; trees with their tokens and events; whole streams |
| `ParserProofs.v`, `ParserStep.v`, `ParserStates.v`, `ParserTheorems.v`, `ParserPairs.v`, `ParserTerm.v` | invariants of the state machine, termination |
| `ParserLoad.v`, `ParserSim.v`, `ParserAccept.v` | the push interface: grammar, safety, equality with the pull interface, which streams it accepts |
| `ParserTree.v`, `ParserStream.v` | reading back trees and streams |
| `ParserIter.v` | `parser_iter.rs` |
| `Scalar.v` | `node/scalar.rs`: scalar resolution |
| `Yaml.v` | `node/yaml.rs`, `node/yaml_data.rs`: values, accessors, indexing |
| `Loader.v` | `prelude/loader.rs` |
| `Cursor.v`, `Scanner.v` | `scanner.rs`: reading the text; tokens, simple keys, indentation, flow levels |
| `Pipeline.v`, `Conformance.v` | scanner and parser together; 217 of the project's own event tests run on the model (evidence for the reading of the code, not a proof) |
| `SpecScan.v` | places in a text, lines, nesting of block tokens |
| `CursorProofs.v`, `CursorRuns.v`, `CursorScalars.v` | every reading method keeps the marker on the text and goes forward |
| `ScannerInv.v`, `ScannerFetch.v`, `ScannerRun.v`, `ScannerTheorems.v`, `ScannerStated.v` | invariant of the scanner, one lemma per fetching method, calls of `next`, whole scans |
| `ScannerHang.v` | texts on which the scanner never ends |
| `Emitter.v` | `saphyr_emitter/mod.rs` |
| `SpecEmit.v` | lines and levels, strings that should have been quoted |
| `ExactCursor.v`, `EmitterText.v` | exact runs of the scanner on quoted scalars |
| `EmitterProofs.v`, `EmitterLayout.v`, `EmitterPlain.v`, `EmitterStated.v` | level, text and lines of emitted values; unquoted strings |
| `SpecQuoted.v`, `FoldedQuotes.v` | words and gaps in quoted scalars; their scan |
| `EagerScan.v`, `ExactPlain.v`, `ScanSteps.v`, `NodeScan.v`, `DumpScan.v` | exact runs of the whole scanner: tokens fetched one by one, plain scalars, rounds over block collections, a dumped value |
| `LoadText.v` | `load_from` on a text: scanner, parser and loader together |
| `SpecRoundTrip.v`, `RoundTripScalars.v`, `RoundTrip.v`, `RoundTripExact.v` | what a dumped value is loaded back as |
| `SerdeSer.v`, `SpecSer.v` | `yam-serde/src/ser.rs`, `escape_str.rs` and the specification of C39 |
| `FromText.v` | `from_str` of `yam-serde/src/lib.rs`: scanner, parser, iterator and deserialiser together |
| `SpecFromText.v`, `SpecSerRead.v`, `TextDocs.v`, `ScalarDocs.v`, `ScalarDocsRead.v`, `FromTextProofs.v`, `SerRead.v` | which Rust value a YAML value is; documents that are dumped values or single scalars; C54 and C55 |
| `SpecBlock.v`, `BlockScan.v`, `BlockCut.v`, `BlockStep.v`, `BlockDoc.v`, `BlockHang.v`, `BlockLoad.v` | block scalars: lines and values, the scanner over them, C57, the endless scalar of C27 |
| `SpecPlain.v`, `PlainScan.v`, `PlainDocs.v` | plain scalars over several lines: words, folding, what ends them, C58 |
| `SpecLayout.v`, `LayoutCursor.v`, `LayoutScan.v`, `LayoutScalar.v`, `LayoutNodes.v`, `LayoutDocs.v`, `SpecMeaning.v`, `MeaningProofs.v`, `LayoutLoad.v`, `DecoratedDocs.v` | block documents by their layout: which texts are which trees and values, C59 |
| `SpecFlow.v`, `FlowScan.v`, `FlowSteps.v`, `TreeLike.v`, `FlowNodes.v`, `FlowLeaf.v`, `FlowLoad.v` | flow collections: which texts are which trees, the scanner over them, C62; leaves of C59 and C60 |
| `SpecProps.v`, `PropsScan.v`, `PropsDocs.v` | anchors, aliases, tags and directives: their grammar with meanings, the scanner over them, C63 and C64 |
| `SpecAccept.v`, `QuotedOnly.v`, `GapsOnly.v`, `PropsOnly.v`, `PlainOnly.v`, `BlockOnly.v`, `HeadersOnly.v`, `Stands.v`, `Covers.v`, `AcceptCases.v` | what the scanner accepts, form by form; every token stands in the text and they cover it, C65 to C67 |
| `Values.v`, `SpecEqual.v`, `ValuesProofs.v` | comparing, copying, converting and writing values, `SpannedYaml`; C68 to C70 |
| `SerAll.v`, `SpecSerAll.v`, `SerAllProofs.v` | the rest of `yam-serde/src/ser.rs`; C71 and C72 |
| `SimdOps.v`, `SimdOpsProofs.v` | the remaining operations of `util/u8x16.rs` and `u8x32.rs`; C73 |
| `TestText.v`, `TestTextProofs.v` | `unescape_text` of `yam-test-bench/src/lib.rs`; C74 |
| `TestEvents.v`, `SpecTestEvents.v`, `TestEventsProofs.v` | `write_str_from_event` and `assert_eq_event_case_*` of `yam-test-bench/src/lib.rs`; C77 |
| `SpecJsonSerde.v`, `JsonSerde.v` | which Rust value a JSON value is; C75, from the scan of C56 and the deserialiser of C40 |
| `SpecSerdeOnly.v`, `SerdeOnly.v`, `OnlyText.v` | what is taken for null; C76, inversion of the deserialiser, with C40 an equivalence |
| `SpecWorn.v`, `WornDocs.v` | the node that a tree with anchors, aliases and tags stands for; C78 |
| `SpecJsonOnly.v`, `JsonOnly.v` | which values may be given for a JSON value; C79 |
| `SpecSingle.v`, `SingleLoad.v` | what may stand behind the first document; C80 |
| `SpecStrings.v`, `StringScan.v`, `StringDocs.v` | quoted scalars with escapes, joined and folded lines: grammar with values, the scanner over them, C61 |
| `SpecLayoutSerde.v`, `LayoutSerde.v` | block documents deserialised, C60 |
| `SpecJson.v`, `JsonCursor.v`, `FlowScan.v`, `JsonScan.v`, `JsonLoad.v` | JSON texts and values; flow collections token by token; C56 |
| `Escaper.v`, `Lazy.v` | `escaper.rs`, `lazy_expander.rs` |
| `Serde.v`, `SpecSerde.v`, `SerdeProofs.v`, `SerdeTotal.v`, `SerdeWitness.v` | `yam-serde/src/de.rs` on the events of the iterator; serde's own `Deserialize` implementations and derived visitors are modelled as serde documents them |
| `*Proofs.v` | lemmas; no property statement lives there |
| `Spec*.v` | small specifications, independent of the model's helpers |
| `Properties*.v` | the property theorems, each `exact lemma`, with `Print Assumptions` and examples |

Model files contain no proofs. Every definition cites file and lines in `/repo`.

## Conventions

* bytes are `N`, texts are `list N` (UTF-8 bytes of the Rust `str`); lengths and indices are `nat`
  except where the code does machine arithmetic that the property depends on;
* `&mut self` methods return the new state; `Result` is data; a panic (`unwrap`, `unreachable!`,
  slice out of range) is an explicit `Panic` value, distinct from an error value; an undefined
  (out of bounds, unchecked) read is an explicit `Ub` value;
* unbounded loops take fuel and return an explicit `OutOfFuel` value when it is exhausted;
  theorems about termination say which fuel suffices, refutations show that none does.

## Plan per property

* C01 events form a well-nested stream: `Parser.v` over an arbitrary token list ending in an
  arbitrary scanner error. An independent push-down acceptor of event sequences (`SpecEvents.v`)
  and an inductive grammar; proof by a simulation invariant between parser stack and acceptor stack,
  induction over the number of requests.
* C02 no panic: invariant on (state, stack), for every token list and number of requests, errors included.
* C03 end is final: one-step invariant, induction over requests.
* C04 peek transparent: simulation between runs with and without peeks.
* C05/C06 anchors: history invariant: ids in order of definition; alias looked up in the history of anchors.
* C07 tag resolution: decision table as implications.
* C08 directives: refuted (`parser_process_directives` starts a fresh table for every directive);
  prove exactly what survives (the last directive).
* C09/C10 flow and block trees: a tree type with printing functions to tokens and to events;
  induction over trees with arbitrary state stack and continuation.
* C11–C15 loader: `Loader.v` over event lists; denotation function from trees to values with an
  environment of anchors (`SpecValue.v`); induction over trees with arbitrary document stack. C12 refuted
  by `{!foo a: b}`; what the loader does with such keys is described exactly (`kept_pairs`). C13 by
  positions in documents (`eval_at`). C15 by comparing the two runs of `load`; `load_from` is composed with
  the parser model, so C11 and C15 also speak about tokens.
* C16–C20 scalar resolution: `Scalar.v`; own decimal/hex/octal printers and value functions as spec.
  Floats are kept as the decimal number written (`FNum`); rounding to `f64` is not modelled. Refuted parts:
  C19 for integers (`++5`), C20 for quoted scalars (`!!int "12"`), C49 (the empty node is the empty string;
  `C49_missing_nodes_partial`: every missing node of every stream of C59 is, by the reading `Filled` of `SpecMeaning.v`).
* C48 floats: grammar of core-schema floats as inductive predicates; both directions.
* C21/C22 accessors and indexing: `Yaml.v`; C21 refuted for tagged values; C22 refuted for positional writes to a mapping.
* C23 escape round trip: `Emitter.escape_str` composed with the quoted-scalar scanner; induction over the text.
* C24 quotes: refuted (`0o17`, `++5`, `+.inf`); proved that exactly the texts of those families are misread.
* C25 dump/load: refuted by witnesses (`0o17`, `1.0`, infinity, a key of 1025 bytes; with literal blocks: leading spaces,
  a line `...`, a key, two line feeds at the end, a document starting with a tab). Proved for all values of scalars,
  sequences and mappings, nested to any depth, with scalar keys of at most 1024 bytes, and with `multiline_strings` for
  those whose strings of several lines fit a literal block where they stand (`fits_blocks`): the text loads into one value of the same arrangement, each scalar coming back as `comes_back`
  says, and the value is equal exactly if all its scalars `survive`. The proof follows the scanner round by round over
  the emitted text (`NodeScan.v`: invariant relating indentation stack, simple keys and the text left, by induction
  over the value), gives the token stream of a tree, and goes on with C09/C10 (tokens to events), C53 (the push
  interface accepts them) and C11 (events to value). Floats are compared as numbers.
* C26 emitter bookkeeping: induction over values; the writer is a parameter that may refuse any piece, so the
  level is followed through failures too. The text is proved to be lines at the levels that `line_levels`
  (`SpecEmit.v`) computes from the value alone.
* C27 termination: refuted for all bounds (a lone CR, a NUL in a quoted scalar, a block scalar indented by 125 columns
  before the end of the text). Proved with an explicit
  bound (6 per byte) for texts without them in which no line begins with more than 124 spaces and no header of a
  block scalar stands behind more than 115 bytes of its line (or that have no `|` and `>`); lines may have any length:
  the loop for block scalars indented by 126 and more columns does not end at the end of the text. Measure: the
  bytes left, queued tokens and open indents.
* C28 positions: invariant of every cursor primitive and of every scanning method; all token spans and error
  markers are places of the text. Refuted at the end of the stream, where the marker is moved one line down.
* C29 single quotes: induction over the text.
* C30 indentation tokens: invariant over all methods relating the indentation stack to the tokens delivered and
  queued, insertions in the middle of the queue included. Refuted when the text ends inside a flow collection.
* C50 no panic of the scanner: proved except for version numbers above 255 (`%YAML 256.0` panics).
* C31 whitespace skipping: loop invariant against a declarative description.
* C32–C36 sources: refinement of the 32-byte buffer to the text; refuted for `skip(33)`; SIMD by bit lemmas;
  `push_non_breakz_chr` refuted on the last line; `peek_char` refuted within three bytes of the end.
* C37 iterator: from the event list of a one-document stream; refuted when aliases occur (they are dropped).
* C38 base64: arithmetic on 24-bit groups, induction over the text.
* C39 serialised strings (`SerdeSer.v` models `ser.rs` and `escape_str.rs`; the division of a text into words and their
  widths, made by the crate `unicode-segmentation`, is an arbitrary input): refuted by five witnesses (double quote,
  backslash, line feed, two spaces at a split, `---` at a split). For the remaining strings: what is written is the text
  with some spaces replaced by line feeds (`multi_folds`), and C52 reads that back.
* C40 deserialisation: a universe of target types (`target`), a relation `denotes` saying which Rust value a node
  is, and an induction over types that follows the `has_peeked` flag. `reads` names the types for which each value
  is read and exactly its events are consumed. Refuted by witnesses for each excluded type: options, tuples and
  structs where the first event has been peeked, tuples ending in a list, enums in mapping form; `~` and quoted nulls.
* C51 deserialising returns: measure 2 x events left + look-ahead flag; every loop step lowers it although `next_el`
  can hand out an event twice. The only panic is `todo!()` for unit variants in mapping form.
* C52 line folding in quoted scalars: words and gaps are a small data type (`SpecQuoted.v`); `flow_words` is the loop
  invariant of `scan_flow_scalar` over it, with the text written and the text meant both computed from the same list.
* C54 dumped values deserialise: `typed` says which Rust value of a type a YAML value is. The scan of a dumped value (C25)
  gives the events of a one-document stream, C37 hands them to the deserialiser, C40 reads them; `types_lossless` shows by
  induction over types that a value of a type, written and resolved again, still denotes it. Refuted for nulls (written
  `~`, which `peek_null` does not know), `""` and `null` in options, special floats, misread strings.
* C55 serialised values deserialise: the text is one plain or quoted scalar; `scalar_doc` follows the scanner over
  a document that is one scalar. Refuted by eight witnesses.
* C56 JSON: RFC 8259 as mutually inductive relations between texts and values (`SpecJson.v`). `spot` describes the states
  of the scanner between two tokens of a flow collection (depth, pending keys, white space left to skip); one lemma per
  kind of token, then mutual induction over the JSON text gives the token stream of a flow tree, and C09/C10/C53 and the
  loader theorems do the rest. Refuted by three witnesses.
* C57 block scalars: a scalar is a header, lines of content with the blank lines before them, and what follows; the value is
  given by a rule for the joint of two lines (`SpecBlock.v`). One lemma per loop of the scanner, then induction over the lines,
  in any context (`C57_block_scalar_partial`) and for whole documents. Refuted by scalars without content, with a tab at the
  start of unindented content, indented by 125 columns at the end; `---` inside unindented content is read as content.
  A last line cut off by the end of the text gets a line feed unless stripped (`C57_cut_partial`); YAML's grammar has none
  there (`C57_cut_refuted`).
* C58 plain scalars: words and what stands between them (white space, or line breaks with empty lines and indentation); the
  value folds the breaks; `plain_stop` lists what ends a scalar. Proved of `scan_plain_scalar` in block and flow context with
  the exact position behind it (`C58_plain_scalar_partial`), and for documents (`C58_plain_document_partial`). Refuted by an
  indented line that looks like a document marker (the test for markers does not look at the column), by a lone dash before a
  flow sign (tested for every word, not only the first), and by a comment behind a tab (`skip_ws_to_eol` swallows it and the
  scalar goes on).
* C59 layout: `SpecLayout.v` gives the grammar of block documents over columns, as mutually inductive relations between texts,
  trees (those of C09) and values. `Before` describes the scanner in front of some content with white space, comments and
  indentation levels still to be handled; one lemma per round of the scanner (entry, key, value, scalar, marker), then mutual
  induction over the layout; closing of levels is done lazily by the next round (`unwinds`). C10 gives the events, C16 the
  values. Block scalars are leaves that end in front of the next line, not in their last one: every relation carries where a
  text leaves its last line (`onwards`, `finally`), and what may follow depends on it. Flow collections (C62) are leaves too.
  Anchors and tags stand in front of nodes, beside them or in the line above; an alias is a node of its own, and a key.
  `SpecMeaning.v` says what trees mean: anchors in document order with the values of their nodes, an alias the last of that name,
  core tags by name, other tags around the value; `MeaningProofs.v` shows that the event-based semantics of C16 gives the same.
  Refuted by missing nodes (an empty plain scalar is loaded as `""`), by a tab behind a colon, by the tags of
  `C59_tags_refuted` and by two directives before a document (C08).
* C62 flow collections: `SpecFlow.v` gives the grammar of flow nodes as mutually inductive relations between texts and trees,
  once for YAML and once (`full = false`) without what the scanner misreads. `FlowAt` describes the scanner inside collections
  (levels, saved keys, the states of single pairs, the flag `flow_mapping_started`); one lemma per token, then mutual induction.
  A single pair whose value contains a mapping is scanned with the tokens of a mapping of one entry or with those of a single
  pair; `like` (`TreeLike.v`) relates trees that differ only in this, and they have the same events. Refuted by the four texts
  of `C62_refuted`; that plain scalars starting with a colon are left out is a limit of the proof.
* C63 anchors, aliases and tags, C64 directives: `SpecProps.v` gives the texts with names, handles, suffixes, prefixes and
  numbers; the theorems are about `scan_anchor`, `scan_tag` and `scan_directive` at any place of any text. The scanner joins
  the bytes of an escaped character by `code << 8`, so `C63_refuted` has one that becomes another character and one that is
  rejected; `C64_refuted` is the overflow of C50 seen from the directive.
* C65 every token stands in the text: the converse direction of C57, C58, C61, C63 and C64. `SpecAccept.v` describes, per kind
  of token, the texts it may have been made of (`written`); soundness of each scanning function (`quoted_only`, `anchor_only`,
  `tag_only`, `directive_only`, `plain_only`, `block_only`: if the function answers Ok, the bytes it consumed have that form)
  is lifted to whole scans by an invariant over the token queue (`Stands.v`). No hypothesis on the text. The forms are the
  ones the code accepts, which are wider than YAML in the places named there (C66; for plain scalars: a document marker
  at any column ends them, tab-indented comments are content; block scalars: indentation is any, NUL behind the header is
  content). The flow flag and the required indentation are existential in `written`. The end of the span is claimed
  where the token has a text of its own, except for quoted scalars, whose span takes in blanks and comment behind them.
* C66 nothing else is accepted: single quotes, anchors and aliases in full against `quoted_scalar` and `anchor_name`, the
  grammars of C61 and C63; double quotes, tags and directives against the wider `taken_*`. `C66_refuted` has the witnesses:
  a continuation line beginning with an escaped line break, `!<>`, `!x_y!z`.
* C67 nothing is lost: `covers` builds the text from left to right out of the pieces of C65 and gaps (white space, line
  breaks, comments). The proof follows the scanner's steps as C65 does, with the exact place of the cursor after each.
  A scan that ends without an error covers the whole text; any other scan covers the part it has read. A comment need
  not be preceded by white space in a gap (the code checks that in some places only), and implied tokens are empty and
  may be anywhere in the order.
* C68 equality, C69 nodes with places, C70 conversions: `Values.v`. `yaml_eqb` takes the comparison of floating point
  numbers as an argument, as the code is generic in it; `same` is the inductive relation. C68 refuted by the order of
  pairs and by NaN, C69 by `with_span`, which `SpannedYaml` inherits as the identity although the loader's interface
  relies on it to record places. `forget` drops the places; every accessor commutes with it.
* C71 escaping for single quotes, C72 serialisers: `SerAll.v`. `spelled_out` says what a text reads back as; the reading
  is that of C29. C71 refuted by a tab; C72 by every collection (`todo!()` panics), with exactly the values that are
  serialised described by `has_serialiser`.
* C73 vector operations: `SimdOps.v`, over the lanes of `Simd.v`. Refuted by `U8X32::swizzle`, whose macro masks the lane
  number to the first sixteen lanes for both halves. The unrolled code is modelled as a map over the lane numbers.
* C74 the notation of the test cases: `SpecTestText.v` is a relation between notations and texts. Refuted by an unknown escape,
  which leaves `unescape_text` in the state behind a backslash; proved for texts with known escapes only, and that every text has
  such a notation.
* C75 JSON texts deserialised: `json_is` (`SpecJsonSerde.v`) says which Rust value a JSON value is, by recursion on the type and
  without the nodes of C40. `JsonSerde.v` shows that the nodes a JSON text is scanned to (`noted`, kept along the scan of C56)
  denote the same value. Refuted by `"null"` as an `Option<String>` and by `-0` as an unsigned integer.
* C76 only denoted values: induction on the type, inverting each visitor at a node; a tuple that stops early leaves elements
  behind, which `deserialize_seq` refuses because the last event is no end of a sequence. Structs only where all
  members are fields (`known_fields`; others are skipped). Refuted by `"null"` as an `Option<String>`, which is given as `None`, and by `"5"`, which is given
  as an integer.
* C77 test cases tell events apart: lines are cut at their line feeds, then anchor, tag, style and value within a line.
  Refuted by a value with a line feed, and by cases that expect an error, of which nothing is compared. The text of an error
  behind `ERR` (`InlineTestDetailed`) is left out of the model; white space trimmed at the end is that of ASCII.
* C78 properties on nodes: C60 and C76 over trees with anchors and tags, by induction over the tree with the anchors before
  it; the parser's numbering of anchors is that of the specification. False with aliases, which the iterator leaves out.
* C79 JSON texts as nothing else: C76 at the node of a JSON text (C56), turned back from nodes to JSON values by induction on the
  type. False for strings of digits, which are given as integers.
* C80 one document: the run of the parser over the first document (C10) is cut at its end marker, and `load` pulls exactly
  these events (`load_pulls`, by induction on the fuel); the loader then has the value of the node (C13). Tags mean what the
  last directive says (see C08). Only the tokens are arbitrary: how the scanner reads the text behind the document is not
  part of it.
* C61 quoted scalars: `SpecStrings.v` relates texts and values; `words_run` is the loop of `scan_flow_scalar` over any such text,
  by induction on its words, with escapes (`piece_runs`, `hex_run` for codes of any number of digits) and escaped line breaks
  (`turn_joins`).  The span of the token includes the spaces and the comment behind the scalar, as in the code.
  The same relation gives the quoted scalars of C59 and C60.
* C60 layout to Rust values: C59 gives the events, C37 what the iterator delivers, C40 what the deserialiser makes of it.
  Refuted by `~` as `None`.
* C41 escaper: refuted (not injective); unchanged-text part proved.
* C42 expansion limits: induction over values.
* C43 source peeking: induction over skips.
* C44 anchors per document: proved for `load`, refuted for the iterator.
* C45 parsing ends: potential argument over (tokens, state, stack), 8 requests per token.
* C46 push = pull: simulation up to the anchor table (`load` clears it per document), then both traces coincide.
* C53 push and pull accept the same: the simulation of C46 run backwards, from a finished iterator run.
* C47 empty key of a single pair: refuted by a witness, `[? : b]`; `ParserPairs.v` runs the parser from any state behind the
  question mark: every written value is lost and an error follows (`C47_value_lost`), a pair without value is read.

## Found in the code while modelling

* `LOW_NIBBLE_WS` never has bit 8, so the vectorised `skip_ws_to_eol` never sees a `#`.
* `U8X16::to_bitmask` indexes lanes 16 to 31 and always panics (it has no caller).
* An empty literal block (`|` and a line feed at the end of the text) is the string of one line feed.
* `is_valid_literal_block_scalar` has `\u{d7fff}` for `\u{d7ff}`.
* `ser.rs`: `current_depth` is never changed, so the long form of strings is always chosen; collections end in `todo!()`.
* `assert_eq_event_case_saph` takes `actual_err` from the expected events, so a test case that expects an error always passes.
* Integers are parsed from the text of a scalar whatever its style: `"5"` and `!!str 5` are given as integers.
* `~`, the null of the emitter, cannot be deserialised as `()` or `None`; the default formatter of the serialiser writes `()`
  as an empty document, which is not read as `()` either.
* The emitter writes a bad value as `~` and nothing at all for an alias.
* A block scalar indented by 125 spaces and more before the end of the text keeps the scanner busy for ever.
* A line `---` inside an unindented block scalar is content; only `...` is looked for.
* Pairs of surrogate escapes, and a tab between a colon and a plain value in a flow mapping, are errors.
* `scan_uri_escapes` puts the bytes of a percent-encoded character together as `code << 8 | byte`.

## Trusted base

* Coq's kernel (with `vm_compute`); no axioms: every property theorem is `Closed under the global context`.
  `coqchk` lists seven axioms of `Coq.ssr.ssrunder`, a standard library module loaded by other library modules; no
  theorem here uses them.
* The reading of the Rust code: the model is tied to the code by citation only, nothing is extracted or run. 217 of the
  project's own event tests hold of the model (`Conformance.v`).
* Modelled: `yam-core/src` `parsing/` (scanner, parser, iterator, sources, character classes, tags), `node/` (scalars,
  values), `prelude/loader.rs`, `saphyr_emitter/`, `escaper.rs`, `lazy_expander.rs`, `util/u8x16.rs`, `util/u8x32.rs`;
  `yam-serde/src` `lib.rs`, `de.rs`, `ser.rs`, `escape_str.rs`.
* Not modelled: spans and markers of `MarkedYaml`, the derive macros and `Deserialize` implementations of serde
  themselves (modelled as documented), the division of texts into words (an arbitrary input), rounding of decimal
  numbers to `f64`, allocation failure, `usize` overflow of lengths.
