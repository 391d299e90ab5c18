(** Properties of the loader: C11-C15, C49. *)
From Verif Require Import Base Tokens Parser ParserRun SpecEvents Scalar Yaml Loader SpecValue ParserExamples.
From Verif Require Import LoaderProofs LoaderAlias LoaderLoad LoaderTheorems.
From Coq Require Import String.
Local Open Scope list_scope.

(** A document used in the examples: [{a: [1, x, x], a: 2}], the mapping anchored. *)
Definition sc (s : string) : node := NdScalar (ScalarValue (str s) Plain 0 None).
Definition doc1 : node :=
  NdMap 1 None [(sc "a", NdSeq 0 None [sc "1"; NdScalar (ScalarValue (str "x") Plain 2 None); NdAlias 2]);
                (sc "a", sc "2")].
Definition val1 : yaml :=
  YMap [(YScalar (SString (str "a")), YSeq [YScalar (SInt 1); YScalar (SString (str "x")); YScalar (SString (str "x"))]);
        (YScalar (SString (str "a")), YScalar (SInt 2))].

(** C11: the documents of every event stream are loaded as the values they denote, in order, when
    no key is bad or tagged. *)
Theorem C11_load_builds_the_tree : forall ds, docs_good_keys [] ds ->
  exists l, loader_run (docs_evs ds) new_loader = Ok l /\
            ld_docs l = fst (docs_values all_pairs [] ds) /\
            List.length (ld_docs l) = List.length ds.
Proof. exact loader_builds. Qed.
Print Assumptions C11_load_builds_the_tree.
(** Every well-formed event stream is that of some documents, so nothing is left out. *)
Theorem C11_streams_are_documents : forall evs, stream_events evs <-> exists ds, evs = docs_evs ds.
Proof. exact streams_are_documents. Qed.
Print Assumptions C11_streams_are_documents.
(** From tokens: what [load_from] answers are the values of the documents of the events the parser
    sends, each evaluated by itself. *)
Theorem C11_load_from_tokens : forall fuel toks e mk ys, load_from fuel toks e mk = Ok ys ->
  exists n ds, events_of n (new_parser toks e mk false) = docs_evs ds /\
    ys = map (fun d => fst (value_of kept_pairs [] (snd d))) ds /\
    (docs_good_keys [] ds -> ys = fst (docs_values all_pairs [] ds)).
Proof. exact load_from_tokens. Qed.
Print Assumptions C11_load_from_tokens.
Example C11_example : docs_good_keys [] [(true, doc1); (false, sc "~")] /\
  fst (docs_values all_pairs [] [(true, doc1); (false, sc "~")]) = [val1; YScalar SNull].
Proof. vm_compute. intuition. Qed.
Example C11_example_tokens :
  load_from 200 toks_anchors eof_err mk0 =
  Ok [YSeq [YScalar (SString (str "x")); YMap [(YScalar (SString (str "k")), YScalar (SString (str "x")))];
            YScalar (SString (str "y")); YScalar (SString (str "y"))]].
Proof. vm_compute. reflexivity. Qed.

(** C12, the part that holds: without bad or tagged keys no pair is lost, in any mapping. Missing:
    mappings with such keys (see below); what the loader keeps of those is [kept_pairs], exactly. *)
Theorem C12_no_pair_lost_partial : forall a t l e, good_keys e (NdMap a t l) ->
  exists ps, untag (fst (value_of kept_pairs e (NdMap a t l))) = YMap ps /\
             List.length ps = List.length l.
Proof. exact no_pair_lost. Qed.
Print Assumptions C12_no_pair_lost_partial.
Theorem C12_what_is_kept_partial : forall ds,
  exists l, loader_run (docs_evs ds) new_loader = Ok l /\ ld_docs l = fst (docs_values kept_pairs [] ds).
Proof. exact loader_exact. Qed.
Print Assumptions C12_what_is_kept_partial.
(** C12 is false: [{!foo a: b}] loads as an empty mapping, [{!foo a: b, c: d}] as [{b: c}]. *)
Definition tagged_key : node := NdScalar (ScalarValue (str "a") Plain 0 (Some (Tag (str "!") (str "foo")))).
Theorem C12_refuted : exists n l,
  n = NdMap 0 None [(tagged_key, sc "b"); (sc "c", sc "d")] /\
  loader_run (docs_evs [(false, n)]) new_loader = Ok l /\
  ld_docs l = [YMap [(YScalar (SString (str "b")), YScalar (SString (str "c")))]].
Proof. eexists. eexists. split; [reflexivity|]. vm_compute. auto. Qed.
Print Assumptions C12_refuted.
Example C12_example : good_keys [] doc1 /\ ~ good_keys [] (NdMap 0 None [(tagged_key, sc "b")]).
Proof. vm_compute. intuition. Qed.

(** C13: in a document whose anchors have different numbers (as the parser numbers them), the value
    computed for an alias is that of the node with its number, if that is complete before... *)
Theorem C13_alias_is_a_copy : forall n p q e m a, NoDup (anchored_ids (node_evs n)) ->
  node_at n p = Some m -> anchor_of m = a -> a <> 0 ->
  node_at n q = Some (NdAlias a) -> complete_before p q ->
  exists y, eval_at kept_pairs e n q = Some y /\ eval_at kept_pairs e n p = Some y.
Proof. exact alias_is_a_copy. Qed.
Print Assumptions C13_alias_is_a_copy.
(** ... and otherwise what the environment of the document says: the bad value if nothing. *)
Theorem C13_unknown_or_open_alias_is_bad : forall n q e a,
  (forall p m, node_at n p = Some m -> anchor_of m = a -> ~ complete_before p q) -> a <> 0 ->
  lookup e a = None ->
  node_at n q = Some (NdAlias a) -> eval_at kept_pairs e n q = Some YBad.
Proof. exact unknown_alias_is_bad. Qed.
Print Assumptions C13_unknown_or_open_alias_is_bad.
(** The value computed at a position is found there in the loaded document, if its keys are good. *)
Theorem C13_computed_value_is_loaded : forall n q e, good_keys e n -> node_at n q <> None ->
  eval_at all_pairs e n q = value_at (fst (value_of kept_pairs e n)) q.
Proof. exact computed_value_is_loaded. Qed.
Print Assumptions C13_computed_value_is_loaded.
(** For what the parser sends the hypotheses on numbers hold. *)
Theorem C13_parser_numbers_are_distinct : forall fuel toks e mk keep p' r,
  load fuel true (new_parser toks e mk keep) = (p', Ok r) -> NoDup (anchored_ids (map fst r)).
Proof. exact load_anchors_distinct. Qed.
Print Assumptions C13_parser_numbers_are_distinct.
(** In the documents the loader builds from a stream without bad or tagged keys: an alias whose anchored
    node is complete stands for an equal value... *)
Theorem C13_loaded_alias_is_a_copy : forall ds i b n p q m a,
  docs_good_keys [] ds -> nth_error ds i = Some (b, n) -> NoDup (anchored_ids (node_evs n)) ->
  node_at n p = Some m -> anchor_of m = a -> a <> 0 ->
  node_at n q = Some (NdAlias a) -> complete_before p q ->
  exists l v y, loader_run (docs_evs ds) new_loader = Ok l /\ nth_error (ld_docs l) i = Some v /\
    value_at v p = Some y /\ value_at v q = Some y.
Proof. exact loaded_alias_is_a_copy. Qed.
Print Assumptions C13_loaded_alias_is_a_copy.
(** ... and one whose anchor is unknown or still open for the bad value. *)
Theorem C13_loaded_unknown_alias_is_bad : forall ds i b n q a,
  docs_good_keys [] ds -> nth_error ds i = Some (b, n) ->
  (forall p m, node_at n p = Some m -> anchor_of m = a -> ~ complete_before p q) -> a <> 0 ->
  (forall j b' n', j < i -> nth_error ds j = Some (b', n') -> ~ In a (anchored_ids (node_evs n'))) ->
  node_at n q = Some (NdAlias a) ->
  exists l v, loader_run (docs_evs ds) new_loader = Ok l /\ nth_error (ld_docs l) i = Some v /\
    value_at v q = Some YBad.
Proof. exact loaded_unknown_alias_is_bad. Qed.
Print Assumptions C13_loaded_unknown_alias_is_bad.
Example C13_example_loaded : exists l,
  loader_run (docs_evs [(false, sc "0"); (true, doc1); (true, NdSeq 3 None [NdAlias 3])]) new_loader = Ok l /\
  ld_docs l = [YScalar (SInt 0); val1; YSeq [YBad]].
Proof. eexists. vm_compute. auto. Qed.
Example C13_example :
  node_at doc1 [Val 0; Elem 2] = Some (NdAlias 2) /\
  eval_at kept_pairs [] doc1 [Val 0; Elem 2] = Some (YScalar (SString (str "x"))) /\
  complete_before [Val 0; Elem 1] [Val 0; Elem 2] /\
  fst (value_of kept_pairs [] (NdSeq 1 None [NdAlias 1])) = YSeq [YBad].
Proof.
  split; [reflexivity|]. split; [reflexivity|]. split; [|reflexivity].
  exists [Val 0], (Elem 1), [], (Elem 2), []. vm_compute. auto.
Qed.

(** C14: no prefix of an event stream makes the loader panic... *)
Theorem C14_loader_never_panics : forall evs l1 l2, stream_events evs -> evs = l1 ++ l2 ->
  exists st, loader_run l1 new_loader = Ok st.
Proof. exact loader_never_panics. Qed.
Print Assumptions C14_loader_never_panics.
(** ... after every document the stacks are as at the start... *)
Theorem C14_no_leftover : forall ds l1 l2, docs_evs ds = l1 ++ l2 ->
  (exists l1', l1 = l1' ++ [EDocumentEnd]) ->
  exists st, loader_run l1 new_loader = Ok st /\ ld_doc_stack st = [] /\ ld_key_stack st = [].
Proof. exact no_leftover. Qed.
Print Assumptions C14_no_leftover.
(** ... and a document whose aliases refer to its own anchors, unused before, is loaded as if it
    were the only one. *)
Theorem C14_documents_independent : forall ds1 b n ds2,
  incl (alias_ids (node_evs n)) (anchored_ids (node_evs n)) ->
  (forall i, In i (anchored_ids (node_evs n)) -> ~ In i (anchored_ids (flat_map doc_evs ds1))) ->
  exists l, loader_run (docs_evs (ds1 ++ (b, n) :: ds2)) new_loader = Ok l /\
    nth_error (ld_docs l) (List.length ds1) = Some (fst (value_of kept_pairs [] n)).
Proof. exact documents_alone. Qed.
Print Assumptions C14_documents_independent.
Example C14_example :
  loader_run [EStreamStart; EDocumentStart true; EMappingStart 0 None; ESequenceStart 3 None] new_loader
  = Ok (Loader [] [(YSeq [], 3, None); (YMap [], 0, None)] [YBad] []) /\
  loader_run [EMappingEnd] new_loader = Panic.
Proof. vm_compute. auto. Qed.

(** C15. *)
Theorem C15_single_is_first : forall fuel toks e mk ys, load_from fuel toks e mk = Ok ys ->
  load_single fuel toks e mk = match ys with y :: _ => Ok y | [] => Err NoDocument end.
Proof. exact load_single_first. Qed.
Print Assumptions C15_single_is_first.
(** Loading answers values or an error, never a panic, and ends. *)
Theorem C15_loading_is_safe : forall fuel toks e mk, 16 * List.length toks + 1 <= fuel ->
  (exists ys, load_from fuel toks e mk = Ok ys) \/ (exists er, load_from fuel toks e mk = Err er).
Proof. exact load_from_safe. Qed.
Print Assumptions C15_loading_is_safe.
Definition toks_docs : list token := map tk
  [TStreamStart; pl "12"; TDocumentStart; TFlowSequenceStart; pl "x"; TFlowSequenceEnd; TStreamEnd].
Example C15_example :
  load_from 200 toks_docs eof_err mk0 = Ok [YScalar (SInt 12); YSeq [YScalar (SString (str "x"))]] /\
  load_single 200 toks_docs eof_err mk0 = Ok (YScalar (SInt 12)) /\
  load_single 200 (map tk [TStreamStart; TStreamEnd]) eof_err mk0 = Err NoDocument.
Proof. vm_compute. auto. Qed.

(** C49 is false: the value missing in [a:] is loaded as the empty string. *)
Theorem C49_refuted : exists toks,
  toks = map tk [TStreamStart; TBlockMappingStart; TKey; pl "a"; TValue; TBlockEnd; TStreamEnd] /\
  load_from 200 toks eof_err mk0 =
    Ok [YMap [(YScalar (SString (str "a")), YScalar (SString []))]].
Proof. eexists. split; [reflexivity|]. vm_compute. reflexivity. Qed.
Print Assumptions C49_refuted.
