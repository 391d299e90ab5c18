(** Properties of the event iterator used for deserialisation: C37. *)
From Verif Require Import Base Tokens Parser ParserRun SpecEvents ParserExamples ParserIter SpecIter IterProofs.
From Coq Require Import String Lia.
Local Open Scope list_scope.

(** C37 for documents without aliases: [DocStart], exactly the events of the node, [DocEnd], and then
    [None] for any number of further calls. Missing: documents with aliases (see [C37_refuted]). *)
Theorem C37_document_events_partial : forall toks e mk keep n b body fuel m,
  node_events body ->
  events_of n (new_parser toks e mk keep)
    = EStreamStart :: EDocumentStart b :: body ++ [EDocumentEnd; EStreamEnd] ->
  (forall id, ~ In (EAlias id) body) ->
  List.length body < fuel ->
  iter_run fuel (List.length (yam_events body) + 2 + m) (new_iter (new_parser toks e mk keep)) =
  map (fun y => Ok (Some y)) (YDocStart :: yam_events body ++ [YDocEnd]) ++ repeat (Ok None) m.
Proof.
  intros toks e mk keep n b body fuel m Hb H Ha Hl.
  assert (Hf : filter (fun e => negb (is_alias_event e)) body = body).
  { clear - Ha. induction body as [|x body IH]; [reflexivity|]. cbn [filter].
    destruct x; cbn [is_alias_event negb]; try (rewrite IH; [reflexivity|intros id Hi; apply (Ha id); right; exact Hi]).
    exfalso. apply (Ha id). left; reflexivity. }
  pose proof (iter_document toks e mk keep n b body fuel m Hb H Hl) as R. cbv zeta in R.
  rewrite Hf in R. exact R.
Qed.
Print Assumptions C37_document_events_partial.
(** With aliases: they, and nothing else, are left out. *)
Theorem C37_only_aliases_dropped : forall toks e mk keep n b body fuel m,
  node_events body ->
  events_of n (new_parser toks e mk keep)
    = EStreamStart :: EDocumentStart b :: body ++ [EDocumentEnd; EStreamEnd] ->
  List.length body < fuel ->
  let ys := yam_events (filter (fun e => negb (is_alias_event e)) body) in
  iter_run fuel (List.length ys + 2 + m) (new_iter (new_parser toks e mk keep)) =
  map (fun y => Ok (Some y)) (YDocStart :: ys ++ [YDocEnd]) ++ repeat (Ok None) m.
Proof. exact iter_document. Qed.
Print Assumptions C37_only_aliases_dropped.
(** C37 is false as stated: the alias of [[&a x, *a]] is not delivered. *)
Definition alias_doc : list token :=
  map tk [TStreamStart; TFlowSequenceStart; TAnchor (str "a"); TScalar Plain (str "x"); TFlowEntry;
          TAlias (str "a"); TFlowSequenceEnd; TStreamEnd].
Theorem C37_refuted : exists toks body,
  node_events body /\
  events_of 20 (new_parser toks eof_err mk0 false)
    = EStreamStart :: EDocumentStart false :: body ++ [EDocumentEnd; EStreamEnd] /\
  forall fuel, 10 <= fuel ->
  iter_run fuel (List.length (yam_events body) + 2) (new_iter (new_parser toks eof_err mk0 false)) <>
  map (fun y => Ok (Some y)) (YDocStart :: yam_events body ++ [YDocEnd]).
Proof.
  pose (body := [ESequenceStart 0 None; EScalar (ScalarValue (str "x") Plain 1 None); EAlias 1; ESequenceEnd]).
  assert (Hb : node_events body).
  { change body with (ESequenceStart 0 None :: ([EScalar (ScalarValue (str "x") Plain 1 None)] ++ [EAlias 1] ++ []) ++ [ESequenceEnd]).
    apply NE_seq. apply NS_cons; [constructor|]. apply NS_cons; constructor. }
  assert (He : events_of 20 (new_parser alias_doc eof_err mk0 false)
    = EStreamStart :: EDocumentStart false :: body ++ [EDocumentEnd; EStreamEnd]) by (vm_compute; reflexivity).
  exists alias_doc, body. split; [exact Hb|]. split; [exact He|]. intros fuel Hf.
  pose proof (iter_document alias_doc eof_err mk0 false 20 false body fuel 1 Hb He) as R.
  specialize (R ltac:(cbn; lia)).
  change (List.length (yam_events body) + 2)
    with (List.length (yam_events (filter (fun e => negb (is_alias_event e)) body)) + 2 + 1).
  cbv zeta in R. rewrite R. vm_compute. discriminate.
Qed.
Print Assumptions C37_refuted.
(** Every token list whose complete event stream has exactly one document gives such a run. *)
Theorem C37_one_document_streams : forall toks e mk keep n,
  let evs := events_of n (new_parser toks e mk keep) in
  In EStreamEnd evs ->
  List.length (filter (fun x => match x with EDocumentStart _ => true | _ => false end) evs) = 1 ->
  exists b body, node_events body /\
    evs = EStreamStart :: EDocumentStart b :: body ++ [EDocumentEnd; EStreamEnd].
Proof. exact one_document. Qed.
Print Assumptions C37_one_document_streams.
Example C37_example :
  let toks := map tk [TStreamStart; TDocumentStart; TFlowMappingStart; TKey; TScalar Plain (str "a"); TValue;
                      TFlowSequenceStart; TScalar Plain (str "b"); TFlowSequenceEnd; TFlowMappingEnd; TStreamEnd] in
  let body := [EMappingStart 0 None; EScalar (ScalarValue (str "a") Plain 0 None); ESequenceStart 0 None;
               EScalar (ScalarValue (str "b") Plain 0 None); ESequenceEnd; EMappingEnd] in
  events_of 20 (new_parser toks eof_err mk0 false)
    = EStreamStart :: EDocumentStart true :: body ++ [EDocumentEnd; EStreamEnd] /\
  iter_run 9 12 (new_iter (new_parser toks eof_err mk0 false)) =
    map (fun y => Ok (Some y))
      [YDocStart; YMapStart 0 None; YScalarEv (ScalarValue (str "a") Plain 0 None); YSeqStart 0 None;
       YScalarEv (ScalarValue (str "b") Plain 0 None); YSeqEnd; YMapEnd; YDocEnd] ++ repeat (Ok None) 4.
Proof. vm_compute. auto. Qed.
