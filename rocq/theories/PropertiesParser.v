(** Properties of the event parser: C01-C06, C45. *)
From Verif Require Import Base Tokens Parser ParserRun SpecEvents ParserExamples.
From Verif Require Import ParserProofs ParserStep ParserStates ParserTheorems ParserTerm.
From Coq Require Import String.

(** C01: whatever the tokens and the scanner's final error, the events delivered by any number of
    requests start a sentence of the event grammar, and form a complete one once [StreamEnd] is
    among them. *)
Theorem C01_events_form_a_stream : forall toks e mk keep n,
  let evs := events_of n (new_parser toks e mk keep) in
  (exists tail, stream_events (evs ++ tail)) /\ (In EStreamEnd evs -> stream_events evs).
Proof. exact events_of_grammar. Qed.
Print Assumptions C01_events_form_a_stream.
Example C01_example :
  events_of 40 (new_parser toks_anchors eof_err mk0 false) =
  [EStreamStart; EDocumentStart false; ESequenceStart 0 None;
   EScalar (ScalarValue (str "x") Plain 1 None);
   EMappingStart 0 None; EScalar (ScalarValue (str "k") Plain 0 None); EAlias 1; EMappingEnd;
   EScalar (ScalarValue (str "y") Plain 2 None); EAlias 2;
   ESequenceEnd; EDocumentEnd; EStreamEnd].
Proof. vm_compute. reflexivity. Qed.
Example C01_example_error :
  events_of 40 (new_parser toks_bad eof_err mk0 false) =
  [EStreamStart; EDocumentStart false; EMappingStart 0 None; ESequenceStart 0 None].
Proof. vm_compute. reflexivity. Qed.

(** C02: every answer to every interleaving of [peek] and [next_event] requests, also after
    errors, is an event, an error value or the end; never a panic, an undefined read or
    non-termination. *)
Theorem C02_parser_never_panics : forall toks e mk keep rs a,
  In a (snd (run_requests rs (new_parser toks e mk keep))) ->
  a = None \/ (exists ev, a = Some (Ok ev)) \/ (exists err, a = Some (Err err)).
Proof. exact requests_never_panic. Qed.
Print Assumptions C02_parser_never_panics.
Example C02_example : (* the error at position 4 does not stop the client from going on *)
  map (fun a => match a with Some (Ok _) => 0 | Some (Err _) => 1 | _ => 2 end)
    (snd (run_requests (repeat RNext 9) (new_parser toks_bad eof_err mk0 false)))
  = [0; 0; 0; 0; 1; 1; 1; 1; 1].
Proof. vm_compute. reflexivity. Qed.

(** C03: after [StreamEnd] was delivered by [next_event], every later request answers [None]. *)
Theorem C03_end_is_final : forall toks e mk keep rs1 rs2 sp,
  let p0 := new_parser toks e mk keep in
  In (RNext, Some (Ok (EStreamEnd, sp))) (log rs1 p0) ->
  snd (run_requests rs2 (fst (run_requests rs1 p0))) = repeat None (List.length rs2).
Proof. exact end_is_final. Qed.
Print Assumptions C03_end_is_final.
Example C03_example :
  In (RNext, Some (Ok (EStreamEnd, span_empty mk0)))
     (log (repeat RNext 13) (new_parser toks_anchors eof_err mk0 false)).
Proof. vm_compute. tauto. Qed.

(** C04: peeking announces exactly the event that the next call returns, a second peek changes
    nothing ... *)
Theorem C04_peek_announces_next : forall toks e mk keep rs v,
  let p := fst (run_requests rs (new_parser toks e mk keep)) in
  snd (peek p) = Some (Ok v) ->
  snd (next_event (fst (peek p))) = Some (Ok v) /\ peek (fst (peek p)) = peek p.
Proof. exact peek_then_next_reached. Qed.
Print Assumptions C04_peek_announces_next.
(** ... and the answers of the [next_event] calls do not depend on the peeks between them, as long
    as no error is answered. *)
Theorem C04_peeks_do_not_matter : forall toks e mk keep rs,
  let p0 := new_parser toks e mk keep in
  existsb is_err_answer (snd (run_requests rs p0)) = false ->
  nexts (log rs p0) = snd (run_requests (repeat RNext (count_next rs)) p0).
Proof. exact peeks_transparent_new. Qed.
Print Assumptions C04_peeks_do_not_matter.
(** With error answers: the events received are those of some number of plain [next_event] calls. *)
Theorem C04_same_events_with_errors : forall toks e mk keep rs,
  let p0 := new_parser toks e mk keep in
  exists m, events_in (nexts (log rs p0)) = events_in (snd (run_requests (repeat RNext m) p0)).
Proof. exact peeks_same_events_new. Qed.
Print Assumptions C04_same_events_with_errors.
Example C04_example :
  existsb is_err_answer (snd (run_requests [RPeek; RNext; RPeek; RPeek; RNext; RNext; RPeek]
     (new_parser toks_anchors eof_err mk0 false))) = false.
Proof. vm_compute. reflexivity. Qed.

(** C05: the [n]-th anchored node delivered carries the id [n]; [cs] are the tokens read so far. *)
Theorem C05_anchor_ids_count_up : forall toks e mk keep n,
  let evs := events_of n (new_parser toks e mk keep) in
  exists cs rest, toks = cs ++ rest /\
    anchored_ids evs = seq 1 (List.length (anchor_names cs)).
Proof. exact anchor_ids_count_up. Qed.
Print Assumptions C05_anchor_ids_count_up.
Example C05_example :
  anchored_ids (events_of 40 (new_parser toks_anchors eof_err mk0 false)) = [1; 2].
Proof. vm_compute. reflexivity. Qed.

(** C06: each alias event carries the number of the latest anchor of its name among the tokens
    before it. [cs] are the tokens read; if the end was delivered they include the end token. *)
Theorem C06_alias_denotes_latest_anchor : forall toks e mk keep n,
  let evs := events_of n (new_parser toks e mk keep) in
  exists cs rest, toks = cs ++ rest /\
    anchored_ids evs = seq 1 (List.length (anchor_names cs)) /\
    alias_targets [] cs = map Some (alias_ids evs) /\
    (In EStreamEnd evs -> exists t, In t cs /\ k_type t = TStreamEnd).
Proof. exact anchors_and_aliases_end. Qed.
Print Assumptions C06_alias_denotes_latest_anchor.
(** ... and an alias without such an anchor, anywhere before the end of the stream, makes the
    parser answer an error. *)
Theorem C06_unknown_alias_is_an_error : forall toks rest e mk keep n,
  (forall t, In t toks -> k_type t <> TStreamEnd) ->
  In None (alias_targets [] toks) ->
  8 * List.length (toks ++ rest) < n ->
  Exists err_answer (snd (run_requests (repeat RNext n) (new_parser (toks ++ rest) e mk keep))).
Proof. exact unknown_alias_is_error. Qed.
Print Assumptions C06_unknown_alias_is_an_error.
Example C06_example :
  alias_targets [] toks_anchors = [Some 1; Some 2] /\ alias_targets [] toks_unknown = [None] /\
  events_of 9 (new_parser toks_unknown eof_err mk0 false) =
    [EStreamStart; EDocumentStart false; ESequenceStart 0 None;
     EScalar (ScalarValue (str "a") Plain 0 None)].
Proof. vm_compute. auto. Qed.

(** C45: the parser ends: after more than [8 * #tokens] requests the end of the stream or an error
    has been answered. *)
Theorem C45_parsing_ends : forall toks e mk keep n,
  8 * List.length toks < n ->
  Exists final_answer (snd (run_requests (repeat RNext n) (new_parser toks e mk keep))).
Proof. exact parser_terminates. Qed.
Print Assumptions C45_parsing_ends.
Example C45_example : (* nested implicit pairs need several events per token *)
  events_of 30 (new_parser (map tk [TStreamStart; TFlowSequenceStart; TKey; TValue; TFlowSequenceEnd;
                                    TStreamEnd]) eof_err mk0 false)
  = [EStreamStart; EDocumentStart false; ESequenceStart 0 None; EMappingStart 0 None;
     ev_empty_scalar; ev_empty_scalar; EMappingEnd; ESequenceEnd; EDocumentEnd; EStreamEnd].
Proof. vm_compute. reflexivity. Qed.
