(** Properties of the event parser on written trees: C07-C10, C47. *)
From Verif Require Import ParserPairs.
From Verif Require Import Base Tokens Parser ParserRun SpecEvents SpecTree SpecStream ParserExamples.
From Verif Require Import ParserTree ParserStream.
From Coq Require Import String List.
Local Open Scope list_scope.

(** C07: resolving a written tag gives what it means under the declarations, and an error exactly
    when it means nothing. The meaning is unique. *)
Theorem C07_tag_resolution : forall tg sp h s,
  match resolve_tag_in tg sp h s with
  | Ok t => tag_means tg h s (Some t)
  | Err _ => tag_means tg h s None
  | _ => False
  end.
Proof. exact resolve_tag_means. Qed.
Print Assumptions C07_tag_resolution.
Theorem C07_tag_meaning_unique : forall tg h s o1 o2,
  tag_means tg h s o1 -> tag_means tg h s o2 -> o1 = o2.
Proof. exact tag_means_det. Qed.
Print Assumptions C07_tag_meaning_unique.
Example C07_example_core : resolve_tag_in [] (span_empty mk0) (str "!!") (str "int")
  = Ok (Tag (str "tag:yaml.org,2002:") (str "int")).
Proof. vm_compute. reflexivity. Qed.
Example C07_example_named : resolve_tag_in [(str "!e!", str "tag:e.com:")] (span_empty mk0) (str "!e!") (str "x")
  = Ok (Tag (str "tag:e.com:") (str "x")).
Proof. vm_compute. reflexivity. Qed.
Example C07_example_undeclared : exists e, resolve_tag_in [] (span_empty mk0) (str "!e!") (str "x") = Err e.
Proof. eexists. vm_compute. reflexivity. Qed.

(** C08, the whole claim: every document means what all of its directives say. False of the code:
    [%TAG !a! A] / [%TAG !b! B] / [--- !a!x y] is a correct document that is rejected, ... *)
Definition two_tags : doc :=
  Doc [DTag (str "!a!") (str "A"); DTag (str "!b!") (str "B")] true
      (Some (TrScalar (Props None (Some (str "!a!", str "x")) false) Plain (str "y"))) 0.
Theorem C08_refuted : exists ds evs,
  docs_ok true ds /\ Forall one_version ds /\ stream_means dirs_table false ds evs /\
  events_of 100 (new_parser (map tk (stream_toks 0 ds)) eof_err mk0 false) <> evs.
Proof.
  exists [two_tags],
    [EStreamStart; EDocumentStart true;
     EScalar (ScalarValue (str "y") Plain 0 (Some (Tag (str "A") (str "x")))); EDocumentEnd; EStreamEnd].
  split; [|split; [|split]].
  - vm_compute. intuition (discriminate || auto).
  - repeat constructor.
  - exists [EDocumentStart true; EScalar (ScalarValue (str "y") Plain 0 (Some (Tag (str "A") (str "x")))); EDocumentEnd].
    split; [reflexivity|].
    change [EDocumentStart true; EScalar (ScalarValue (str "y") Plain 0 (Some (Tag (str "A") (str "x")))); EDocumentEnd]
      with (EDocumentStart (d_explicit two_tags) :: [EScalar (ScalarValue (str "y") Plain 0 (Some (Tag (str "A") (str "x"))))] ++ EDocumentEnd :: []).
    apply (DM_cons _ _ _ _ _ _ (fun h s => if text_eqb h (str "!a!") then Some (Tag (str "A") s) else None)).
    + intros h s t. destruct (text_eqb h (str "!a!")) eqn:E; [|discriminate].
      apply ParserProofs.text_eqb_eq in E. subst h. intros X; inversion X. apply TM_declared. reflexivity.
    + reflexivity.
    + constructor.
  - vm_compute. discriminate.
Qed.
Print Assumptions C08_refuted.
(** ... and two [%TAG] directives for one handle are accepted. *)
Theorem C08_duplicate_handle_refuted : exists toks h p1 p2,
  map k_type toks = [TStreamStart; TTagDirective h p1; TTagDirective h p2; TDocumentStart; TStreamEnd] /\
  In EStreamEnd (events_of 100 (new_parser toks eof_err mk0 false)).
Proof.
  exists (map tk [TStreamStart; TTagDirective (str "!a!") (str "A"); TTagDirective (str "!a!") (str "B");
                  TDocumentStart; TStreamEnd]), (str "!a!"), (str "A"), (str "B").
  split; [reflexivity|]. vm_compute. tauto.
Qed.
Print Assumptions C08_duplicate_handle_refuted.
(** What holds: each document means what the last of its directives says (all of them, when there
    is only one: C10), ... Missing: the directives before the last one. *)
Theorem C08_last_directive_partial : forall keep lead ds evs toks e mk n,
  Forall one_version ds -> docs_ok true ds -> stream_means last_table keep ds evs ->
  map k_type toks = stream_toks lead ds -> List.length evs <= n ->
  events_of n (new_parser toks e mk keep) = evs.
Proof. exact stream_read_last. Qed.
Print Assumptions C08_last_directive_partial.
(** ... and two [%YAML] directives are always rejected, whatever stands around them. *)
Theorem C08_two_versions_rejected : forall toks e mk keep lead dirs c rest n,
  map k_type toks = TStreamStart :: repeat TDocumentEnd lead ++ map dir_tok dirs ++ c :: rest ->
  2 <= versions dirs -> 2 <= n ->
  exists err, nth_error (snd (run_requests (repeat RNext n) (new_parser toks e mk keep))) 1
              = Some (Some (Err err)).
Proof. exact two_versions_rejected. Qed.
Print Assumptions C08_two_versions_rejected.
Example C08_example : versions [DVersion 1 2; DTag (str "!a!") (str "A"); DVersion 1 2] = 2.
Proof. reflexivity. Qed.

(** C09: the flow notation of a tree, with anything behind it, is read as the events of the tree. *)
Theorem C09_flow_trees : forall t tags evs toks e mk keep more,
  flow_tree t ->
  (forall h s tg, tags h s = Some tg -> tag_means [] h s (Some tg)) ->
  tree_events tags [] t = Some evs ->
  node_stop more ->
  map k_type toks = TStreamStart :: tree_toks t ++ more ->
  events_of (2 + List.length evs) (new_parser toks e mk keep)
  = EStreamStart :: EDocumentStart false :: evs.
Proof.
  intros t tags evs toks e mk keep more H1 H2 H3 H4.
  refine (tree_then_anything t tags evs toks e mk keep more (flow_is_block false t H1) H2 H3 _).
  destruct more as [|[] more]; try contradiction; reflexivity.
Qed.
Print Assumptions C09_flow_trees.
Definition sc (x : string) : tree := TrScalar no_props Plain (str x).
(** [{a: [b, *x, ? c : ], d, : &y e, ? f, }] after an anchor [x] on the mapping. *)
Definition flow_example : tree :=
  TrFlowMap (Props (Some (str "x")) None false)
    [(KNode (sc "a"), VNode (TrFlowSeq no_props [INode (sc "b"); INode (TrAlias (str "x")); IPair (sc "c") VEmpty] false));
     (KBare (sc "d"), VAbsent);
     (KNone, VNode (TrScalar (Props (Some (str "y")) None false) DoubleQuote (str "e")));
     (KNode (sc "f"), VAbsent)] true.
Example C09_example : flow_tree flow_example /\
  tree_events (fun _ _ => None) [] flow_example =
  Some [EMappingStart 1 None;
    EScalar (ScalarValue (str "a") Plain 0 None);
    ESequenceStart 0 None; EScalar (ScalarValue (str "b") Plain 0 None); EAlias 1;
      EMappingStart 0 None; EScalar (ScalarValue (str "c") Plain 0 None); empty_event; EMappingEnd;
    ESequenceEnd;
    EScalar (ScalarValue (str "d") Plain 0 None); empty_event;
    empty_event; EScalar (ScalarValue (str "e") DoubleQuote 2 None);
    EScalar (ScalarValue (str "f") Plain 0 None); empty_event;
    EMappingEnd].
Proof. split; [cbn; intuition discriminate|vm_compute; reflexivity]. Qed.

(** C10: block (and flow) notation, ... *)
Theorem C10_block_trees : forall t tags evs toks e mk keep more,
  block_tree false t ->
  (forall h s tg, tags h s = Some tg -> tag_means [] h s (Some tg)) ->
  tree_events tags [] t = Some evs ->
  node_stop more ->
  map k_type toks = TStreamStart :: tree_toks t ++ more ->
  events_of (2 + List.length evs) (new_parser toks e mk keep)
  = EStreamStart :: EDocumentStart false :: evs.
Proof.
  intros t tags evs toks e mk keep more H1 H2 H3 H4.
  refine (tree_then_anything t tags evs toks e mk keep more H1 H2 H3 _).
  destruct more as [|[] more]; try contradiction; reflexivity.
Qed.
Print Assumptions C10_block_trees.
(** ... and whole streams of documents, with directives, [---] and [...] markers. *)
Theorem C10_streams : forall keep lead ds evs toks e mk n,
  Forall one_directive ds -> docs_ok true ds -> stream_means dirs_table keep ds evs ->
  map k_type toks = stream_toks lead ds -> List.length evs <= n ->
  events_of n (new_parser toks e mk keep) = evs.
Proof. exact stream_read. Qed.
Print Assumptions C10_streams.
(** [- a] / [-] / [- k:] / [  - &x [b]] / [  - *x] / [  ?] / [  : v] (the list under [k] is not indented). *)
Definition block_example : tree :=
  TrBlockSeq no_props
    [Some (sc "a"); None;
     Some (TrBlockMap no_props
       [(KNode (sc "k"), VNode (TrIndentless no_props
           [Some (TrFlowSeq (Props (Some (str "x")) None false) [INode (sc "b")] false); Some (TrAlias (str "x"))]));
        (KEmpty, VNode (sc "v"))])].
Example C10_example : block_tree false block_example /\
  tree_events (fun _ _ => None) [] block_example =
  Some [ESequenceStart 0 None; EScalar (ScalarValue (str "a") Plain 0 None); empty_event;
    EMappingStart 0 None; EScalar (ScalarValue (str "k") Plain 0 None);
      ESequenceStart 0 None; ESequenceStart 1 None; EScalar (ScalarValue (str "b") Plain 0 None); ESequenceEnd;
        EAlias 1; ESequenceEnd;
      empty_event; EScalar (ScalarValue (str "v") Plain 0 None); EMappingEnd; ESequenceEnd].
Proof. split; [cbn; intuition discriminate|vm_compute; reflexivity]. Qed.
Example C10_streams_example :
  let ds := [Doc [DTag (str "!e!") (str "E")] true
               (Some (TrScalar (Props None (Some (str "!e!", str "x")) true) Plain (str "y"))) 2;
             Doc [] false (Some block_example) 0; Doc [] true None 0] in
  Forall one_directive ds /\ docs_ok true ds /\
  exists evs, stream_means dirs_table false ds evs /\ List.length evs = 25.
Proof.
  split; [repeat constructor|]. split; [vm_compute; intuition (discriminate || auto)|].
  eexists. split.
  - eexists. split; [reflexivity|].
    apply (DM_cons _ _ _ _ _ _ (fun h s => if text_eqb h (str "!e!") then Some (Tag (str "E") s) else None)).
    { intros h s t. destruct (text_eqb h (str "!e!")) eqn:E; [|discriminate].
      apply ParserProofs.text_eqb_eq in E. subst h. intros X; inversion X. apply TM_declared. reflexivity. }
    { reflexivity. }
    apply (DM_cons _ _ _ _ _ _ (fun _ _ => None)); [discriminate|vm_compute; reflexivity|].
    apply (DM_cons _ _ _ _ _ _ (fun _ _ => None)); [discriminate|vm_compute; reflexivity|].
    constructor.
  - reflexivity.
Qed.

(** C47: a single pair in a flow sequence may have an empty key, [[? : b]]. False of the code: the
    value indicator is skipped together with the missing key. *)
Theorem C47_refuted : exists toks b,
  map k_type toks = [TStreamStart; TFlowSequenceStart; TKey; TValue; TScalar Plain b; TFlowSequenceEnd; TStreamEnd] /\
  events_of 100 (new_parser toks eof_err mk0 false) <>
  [EStreamStart; EDocumentStart false; ESequenceStart 0 None; EMappingStart 0 None;
   empty_event; EScalar (ScalarValue b Plain 0 None); EMappingEnd; ESequenceEnd; EDocumentEnd; EStreamEnd].
Proof.
  exists (map tk [TStreamStart; TFlowSequenceStart; TKey; TValue; TScalar Plain (str "b"); TFlowSequenceEnd; TStreamEnd]), (str "b").
  split; [reflexivity|]. vm_compute. discriminate.
Qed.
Print Assumptions C47_refuted.
(** Whatever value is written behind [? :], in whatever sequence, it is not read: the pair is delivered
    empty and the next event is an error. *)
Theorem C47_value_lost p tv t r : behind_question_mark p -> p_toks p = tv :: t :: r -> k_type tv = TValue ->
  k_type t <> TFlowEntry /\ k_type t <> TFlowSequenceEnd /\ k_type t <> TValue ->
  forall n, events_of (4 + n) p = [empty_event; empty_event; EMappingEnd].
Proof. intros H HT KV (N1 & N2 & N3). apply (value_lost p tv t r H HT KV); [intros [E|E]; contradiction|exact N3]. Qed.
Print Assumptions C47_value_lost.
(** If there is no value either, [[? : , x]], the pair is read, and the parser is in front of the comma or
    the bracket, in the same sequence. *)
Theorem C47_no_value_partial p tv t r : behind_question_mark p -> p_toks p = tv :: t :: r -> k_type tv = TValue ->
  k_type t = TFlowEntry \/ k_type t = TFlowSequenceEnd ->
  exists p', behind_entry t r p p' /\ forall n, events_of (3 + n) p = [empty_event; empty_event; EMappingEnd] ++ events_of n p'.
Proof. exact (empty_pair p tv t r). Qed.
Print Assumptions C47_no_value_partial.
(** Parsers in this place: behind the first question mark of [[? : b]] and of [[? : , ? : ]]. *)
Definition behind_first (l : list token_type) : parser :=
  let p := new_parser (map tk ([TStreamStart; TFlowSequenceStart; TKey] ++ l)) eof_err mk0 false in
  fst (next_event (fst (next_event (fst (next_event (fst (next_event p))))))).
Example C47_meets : behind_question_mark (behind_first [TValue; TScalar Plain (str "b"); TFlowSequenceEnd; TStreamEnd]) /\
  events_of 100 (behind_first [TValue; TFlowEntry; TKey; TValue; TFlowSequenceEnd; TStreamEnd]) =
  [empty_event; empty_event; EMappingEnd; EMappingStart 0 None; empty_event; empty_event; EMappingEnd; ESequenceEnd; EDocumentEnd; EStreamEnd].
Proof. split; [repeat split; reflexivity|vm_compute; reflexivity]. Qed.
