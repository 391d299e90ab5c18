(** Whole texts of block documents: loaded (C59, C49) and deserialised (C60). *)
From Verif Require Import Base Tokens Scalar Source Cursor Scanner Yaml Parser ParserRun LoadText SpecTree SpecStream SpecEvents Pipeline SpecLayout ParserStream LayoutDocs LayoutLoad DecoratedDocs.
From Verif Require Import Serde SpecSerde FromText SpecLayoutSerde LayoutSerde.
From Coq Require Import String.
Local Open Scope list_scope.

(** ** C59 *)
(** Full statement: a text laid out as a stream of documents ([stream]) is loaded as the values YAML
    gives its documents: [doc_means Standard].  It is false: see [C59_refuted].
    Whatever its documents are, with anchors, aliases and tags, if they have events ([stream_means]: no
    alias without an anchor, no undeclared tag handle) and no more than one directive each (C08), the text
    is scanned and parsed as exactly these events.  The tokens are those of documents [ds] with the same events: a single pair in a sequence
    ([IPair]) may be there as a mapping of one entry. *)
Theorem C59_layout_events fuel w lead l evs : stream w lead l -> Forall one_directive l -> stream_means dirs_table false l evs -> 4 * List.length w + 12 < fuel ->
  exists toks z ds, scan fuel w = (toks, (z, Ok tt)) /\ map k_type toks = stream_toks lead ds /\ docs_ok true ds /\
    stream_means dirs_table false ds evs /\
    forall er mk, events_of (List.length evs) (new_parser toks er mk false) = evs.
Proof. exact (layout_parses fuel w lead l evs). Qed.
Print Assumptions C59_layout_events.
(** Loaded, it is what YAML makes of it, its aliases the nodes they name and its tags applied, with these
    exceptions ([doc_means Narrow]): missing nodes, plain scalars like [++5], core tags written in full or on
    unusual notations, the tag [!], keys with tags; and documents with more than one directive. *)
Theorem C59_layout_loads_partial fuel w lead l ys : stream w lead l -> Forall one_directive l -> Forall2 (doc_means Narrow) l ys ->
  64 * List.length w + 64 <= fuel -> load_text fuel w = Ok ys.
Proof. exact (layout_loads fuel w lead l ys). Qed.
Print Assumptions C59_layout_loads_partial.
(** A missing value is null, but loaded as an empty string.  A tab may separate a colon and a value,
    but is an error here. *)
Theorem C59_refuted :
  (exists w lead l ys, stream w lead l /\ Forall2 (doc_means Standard) l ys /\ forall fuel, load_text fuel w <> Ok ys) /\
  forall fuel y, load_text fuel (str "a:" ++ [9%N] ++ str "b") <> Ok y.
Proof. split; [|exact tab_fails]. exact (ex_intro _ _ (ex_intro _ _ (ex_intro _ _ (ex_intro _ _ (conj missing_stream (conj missing_means missing_loads)))))). Qed.
Print Assumptions C59_refuted.
(** Each of the exceptions with tags, and two directives. *)
Theorem C59_tags_refuted :
  misread (str "!<tag:yaml.org,2002:int> 3") (YScalar (SInt 3)) /\
  misread (str "! 3") (YScalar (SString (str "3"))) /\
  misread (str "!!int 0x1F") (YScalar (SInt 31)) /\
  misread (str "!t k: v") (YMap [(YTagged (Tag (str "!") (str "t")) (YScalar (SString (str "k"))), YScalar (SString (str "v")))]) /\
  misread (str "!t") (YTagged (Tag (str "!") (str "t")) (YScalar SNull)) /\
  misread (str "%TAG !a! x:" ++ lf ++ str "%TAG !b! y:" ++ lf ++ str "--- !a!z 7") (YTagged (Tag (str "x:") (str "z")) (YScalar (SInt 7))).
Proof. exact (conj verbatim_misread (conj mark_misread (conj hex_misread (conj key_misread (conj none_misread two_misread))))). Qed.
Print Assumptions C59_tags_refuted.
(** Three documents with comments, empty lines, a folded scalar, a sequence in the column of its key, a
    key that is a sequence, flow collections, a literal scalar and a marker [...]. *)
Example C59_meets : stream sample 0 sample_docs /\ Forall one_directive sample_docs /\ Forall2 (doc_means Narrow) sample_docs sample_values.
Proof. split; [exact sample_stream|]. split; [repeat constructor|exact sample_means]. Qed.
Example C59_loads : load_text (64 * List.length sample + 64) sample = Ok sample_values.
Proof. vm_compute. reflexivity. Qed.
(** What the sample stands for. *)
Example C59_sample : sample = str "# head" ++ lf ++ str "a: 1 # one" ++ lf ++ lf ++ str """\x62"" :" ++ lf ++ str "- x" ++ lf ++ str "  y" ++ lf ++ str "-" ++ lf ++
  str "    - 'z'" ++ lf ++ str "    -  [x, # c" ++ lf ++ str "      {k: [a], }, z: 1]" ++ lf ++ str "---" ++ lf ++ str "? - k" ++ lf ++ str ": ~" ++ lf ++ str "..." ++ lf ++
  str "- |+ # k" ++ lf ++ lf ++ str "  x" ++ lf ++ lf ++ str "# c" ++ lf ++ str "- true" ++ lf.
Proof. reflexivity. Qed.
(** Anchors, aliases and tags: on the whole document, keys, values, entries, empty nodes and inside flow
    collections.  The last alias is that of the node anchored last. *)
Example C59_decorated : stream deco 0 deco_docs /\ Forall one_directive deco_docs /\ Forall2 (doc_means Narrow) deco_docs [deco_value].
Proof. split; [exact deco_stream|]. split; [repeat constructor|exact deco_means]. Qed.
Example C59_decorated_loads : load_text (64 * List.length deco + 64) deco = Ok [deco_value].
Proof. vm_compute. reflexivity. Qed.
Example C59_deco : deco = str "--- &r !!map" ++ lf ++ str "&k k: &a x" ++ lf ++ str "*a : !t" ++ lf ++ str "- *k" ++ lf ++ str "- &e !!str" ++ lf ++
  str "- !!str" ++ lf ++ str "  |" ++ lf ++ str "  y" ++ lf ++ str "- [*a , &a 7, !!null : *a ]".
Proof. reflexivity. Qed.
(** Documents with directives, one of which gives a tag its prefix. *)
Example C59_declared : stream declared 0 declared_docs /\ Forall one_directive declared_docs /\ Forall2 (doc_means Narrow) declared_docs declared_values.
Proof. split; [exact declared_stream|]. split; [repeat constructor|exact declared_means]. Qed.
Example C59_declared_loads : load_text (64 * List.length declared + 64) declared = Ok declared_values.
Proof. vm_compute. reflexivity. Qed.
Example C59_declares : declared = str "# one" ++ lf ++ str "%TAG !e! tag:e.com,2000:  # c" ++ lf ++ lf ++ str "---" ++ lf ++ str "- !e!x 1" ++ lf ++ str "- 7" ++ lf ++ str "..." ++ lf ++
  str "%YAML 1.2" ++ lf ++ str "--- !<x> 7" ++ lf.
Proof. reflexivity. Qed.

(** ** C49 *)
(** Full statement: nodes that are not written are loaded as null.  It is false ([C49_refuted], [C59_refuted]).
    What is true: every one of them, wherever it stands, is loaded as the empty string, around it its tags if
    they are outside of the core schema, and everything else as in C59 ([doc_means Filled]). *)
Theorem C49_missing_nodes_partial fuel w lead l ys : stream w lead l -> Forall one_directive l -> Forall2 (doc_means Filled) l ys ->
  64 * List.length w + 64 <= fuel -> load_text fuel w = Ok ys.
Proof. apply (layout_reads Filled fuel w lead l ys). discriminate. Qed.
Print Assumptions C49_missing_nodes_partial.
(** Without a value in block and flow mappings, without an element, without a node behind a tag, and an
    empty document. *)
Example C49_meets : stream gaps 0 gaps_docs /\ Forall one_directive gaps_docs /\ Forall2 (doc_means Filled) gaps_docs gaps_values.
Proof. split; [exact gaps_stream|]. split; [repeat constructor|exact gaps_means]. Qed.
Example C49_loads : load_text (64 * List.length gaps + 64) gaps = Ok gaps_values /\
  gaps = str "- a:" ++ lf ++ str "-" ++ lf ++ str "- {b, c: }" ++ lf ++ str "- !t" ++ lf ++ str "---" ++ lf.
Proof. split; [vm_compute; reflexivity|reflexivity]. Qed.

(** ** C60 *)
(** Full statement: a text that is one document with the node [n] deserialises, as a type [t], as the
    value that [n] denotes: [denotes yaml_null (fun n => ~ yaml_null n)].  It is false: see
    [C60_refuted].  Proved: it holds for the types and nulls of C40. *)
Theorem C60_layout_deserialises_partial fuel w lead ds b o e n t x :
  stream w lead [Doc ds b o e] -> List.length ds <= 1 -> part_is o n -> reads false t = true ->
  denotes (fun n => yaml_null n /\ seen_as_null n) seen_as_value t n x -> 12 * List.length w + 12 < fuel ->
  from_text fuel t w = Ok (DOk x).
Proof. exact (layout_deserialises fuel w lead ds b o e n t x). Qed.
Print Assumptions C60_layout_deserialises_partial.
Theorem C60_refuted : exists w lead b o e n t x,
  stream w lead [Doc [] b o e] /\ part_is o n /\ reads false t = true /\ denotes yaml_null (fun n => ~ yaml_null n) t n x /\
  forall fuel, from_text fuel t w <> Ok (DOk x).
Proof. exact tilde_refutes. Qed.
Print Assumptions C60_refuted.
(** A configuration with comments, a sequence in the column of its key, a missing value and a nested map, as
    a struct with fields in another order, one of which is not there. *)
Example C60_meets : stream config 0 [Doc [] false (Some config_tree) 0] /\ part_is (Some config_tree) config_node /\
  reads false config_type = true /\ denotes (fun n => yaml_null n /\ seen_as_null n) seen_as_value config_type config_node config_value.
Proof. exact (conj config_stream (conj config_is config_denotes)). Qed.
Example C60_reads : from_text (12 * List.length config + 13) config_type config = Ok (DOk config_value).
Proof. vm_compute. reflexivity. Qed.
Example C60_config : config = str "name: ""a b""  # who" ++ lf ++ str "sizes:" ++ lf ++ str "- 7" ++ lf ++ str "- 9" ++ lf ++ str "# none:" ++ lf ++ str "note:" ++ lf ++ str "env:" ++ lf ++ str "   x : true" ++ lf.
Proof. reflexivity. Qed.
