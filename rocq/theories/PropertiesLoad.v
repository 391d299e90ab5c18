(** Properties of the push interface of the parser: C44, C46. *)
From Verif Require Import Base Tokens Parser ParserRun SpecEvents SpecLoad ParserExamples.
From Verif Require Import ParserLoad ParserSim ParserAccept.
From Coq Require Import String List.
Local Open Scope list_scope.

(** C44 for [load]: every alias sent to the receiver refers to an anchor of its own document. *)
Theorem C44_load_aliases_local_partial : forall fuel multi toks e mk keep p' r,
  load fuel multi (new_parser toks e mk keep) = (p', Ok r) -> aliases_local [] (map fst r).
Proof.
  intros fuel multi toks e mk keep p' r H. pose proof (load_ok fuel multi toks e mk keep) as HL.
  rewrite H in HL. apply HL.
Qed.
Print Assumptions C44_load_aliases_local_partial.
(** [&a x] / [--- *a]: two documents; rejected by [load] ... *)
Definition toks_two_docs : list token := map tk
  [TStreamStart; TAnchor (str "a"); pl "x"; TDocumentStart; TAlias (str "a"); TStreamEnd].
Example C44_load_rejects : exists p' err,
  load 100 true (new_parser toks_two_docs eof_err mk0 false) = (p', Err err).
Proof. eexists. eexists. vm_compute. reflexivity. Qed.
Example C44_example_accepts : exists p' r,
  load 200 true (new_parser toks_anchors eof_err mk0 false) = (p', Ok r) /\
  alias_ids (map fst r) = [1; 2].
Proof. eexists. eexists. split; vm_compute; reflexivity. Qed.
(** ... but the iterator resolves it to the anchor of the first document. *)
Theorem C44_refuted : exists toks,
  let evs := events_of 100 (new_parser toks eof_err mk0 false) in
  In EStreamEnd evs /\ ~ aliases_local [] evs.
Proof. exists toks_two_docs. vm_compute. tauto. Qed.
Print Assumptions C44_refuted.

(** C46: [load] answers an event list or an error, never a panic; it ends (16 steps per token are
    enough); the events are a complete stream (a stream that stops between documents when only one
    document is asked for). *)
Theorem C46_load_is_safe : forall fuel multi toks e mk keep,
  match load fuel multi (new_parser toks e mk keep) with
  | (_, Ok r) =>
      exists tail, stream_events (map fst r ++ tail) /\ (multi = true -> tail = [])
  | (_, Err _) => True
  | (_, Fuel) => fuel < 16 * List.length toks + 1
  | (_, _) => False
  end.
Proof.
  intros fuel multi toks e mk keep. pose proof (load_ok fuel multi toks e mk keep) as H.
  destruct (load fuel multi (new_parser toks e mk keep)) as [p' [r|err| | |]]; auto.
  destruct H as (_ & tail & H1 & H2 & _). exists tail; auto.
Qed.
Print Assumptions C46_load_is_safe.
(** ... and exactly the events of the iterator. *)
Theorem C46_load_sends_the_iterator_events : forall fuel toks e mk keep p' r n,
  load fuel true (new_parser toks e mk keep) = (p', Ok r) -> List.length r <= n ->
  events_of n (new_parser toks e mk keep) = map fst r.
Proof. exact load_is_iteration. Qed.
Print Assumptions C46_load_sends_the_iterator_events.
Example C46_example : exists p' r,
  load 200 true (new_parser toks_anchors eof_err mk0 false) = (p', Ok r) /\ List.length r = 13.
Proof. eexists. eexists. split; vm_compute; reflexivity. Qed.

(** C53: [load] accepts exactly the streams that the iterator reads to their end and in which every
    alias refers to an anchor of its own document. *)
Theorem C53_load_accepts_what_the_iterator_reads : forall fuel toks e mk keep,
  16 * List.length toks + 1 <= fuel ->
  let p := new_parser toks e mk keep in
  (exists p' r, load fuel true p = (p', Ok r)) <->
  (exists n, In EStreamEnd (events_of n p) /\ aliases_local [] (events_of n p)).
Proof. exact load_accepts_iff. Qed.
Print Assumptions C53_load_accepts_what_the_iterator_reads.
Example C53_accepts : let p := new_parser toks_anchors eof_err mk0 false in
  16 * List.length toks_anchors + 1 <= 600 /\ In EStreamEnd (events_of 100 p) /\ aliases_local [] (events_of 100 p).
Proof. vm_compute. repeat split; try tauto; repeat constructor. Qed.
Example C53_rejects : let p := new_parser toks_two_docs eof_err mk0 false in
  In EStreamEnd (events_of 100 p) /\ ~ aliases_local [] (events_of 100 p).
Proof. vm_compute. tauto. Qed.
