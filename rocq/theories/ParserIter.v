(** Model of the event iterator used for deserialisation: [yam-core/src/parsing/parser_iter.rs]. *)
From Verif Require Import Base Tokens Parser.
From Coq Require Import String.

(** [parser_iter.rs:6-12] [State]. *)
Inductive iter_state := IStreamStart | IInDocument | IEndDocument.

(** [parser_iter.rs:14-25] [YamEvent]. *)
Inductive yam_event :=
| YDocStart | YDocEnd | YStreamEnd
| YAlias (id : nat)
| YScalarEv (v : scalar_value)
| YSeqStart (anchor : nat) (t : option tag) | YSeqEnd
| YMapStart (anchor : nat) (t : option tag) | YMapEnd.

(** [parser_iter.rs:52-56] [ParserIter]. *)
Record parser_iter := ParserIter { i_parser : parser; i_state : iter_state; i_error : option yerr }.

(** [parser_iter.rs:68-74] [ParserIter::new], given the freshly made parser. *)
Definition new_iter (p : parser) : parser_iter := ParserIter p IStreamStart None.

(** Methods of the iterator: state and outcome. *)
Definition IM := M parser_iter.
(** Field updates. *)
Definition set_i_state (s : iter_state) (i : parser_iter) : parser_iter := ParserIter (i_parser i) s (i_error i).
Definition set_i_error (e : yerr) (i : parser_iter) : parser_iter :=
  ParserIter (i_parser i) (i_state i) (Some e).
(** [self.parser.next_event_impl()?.0] (parser_iter.rs:107, 115, 127, 167). *)
Definition iter_event : IM event := fun i =>
  let '(p, o) := next_event_impl (i_parser i) in
  (ParserIter p (i_state i) (i_error i),
   match o with Ok (e, _) => Ok e | Err e => Err e | Panic => Panic | Ub => Ub | Fuel => Fuel end).

(** [parser_iter.rs:105-124] [process_start]. *)
Definition process_start : IM yam_event := (
  let* ev := iter_event in
  match ev with
  | EStreamStart =>
      let* ev := iter_event in
      match ev with
      | EDocumentStart _ => modify (set_i_state IInDocument) ;;; ret YDocStart
      | _ => fail (UnexpectedEventErr "DocStart" (event_simple_str ev))
      end
  | _ => fail (UnexpectedEventErr "StreamStart" (event_simple_str ev))
  end)%m.

(** [parser_iter.rs:126-163] [process_doc]: [None] is [ControlFlow::Continue]. *)
Definition process_doc : IM (option yam_event) := (
  let* ev := iter_event in
  match ev with
  | EAlias _ => ret None
  | EStreamStart => fail (UnexpectedEventErr "StreamStart" (event_simple_str ev))
  | EStreamEnd => fail (UnexpectedEventErr "StreamEnd" (event_simple_str ev))
  | EDocumentStart _ => fail (UnexpectedEventErr "DocumentStart" (event_simple_str ev))
  | EDocumentEnd => modify (set_i_state IEndDocument) ;;; ret (Some YDocEnd)
  | EScalar a => ret (Some (YScalarEv a))
  | ESequenceStart a t => ret (Some (YSeqStart a t))
  | ESequenceEnd => ret (Some YSeqEnd)
  | EMappingStart a t => ret (Some (YMapStart a t))
  | EMappingEnd => ret (Some YMapEnd)
  end)%m.

(** [parser_iter.rs:165-176] [finish_document]. *)
Definition finish_document : IM yam_event := (
  let* ev := iter_event in
  match ev with
  | EStreamEnd => ret YStreamEnd
  | _ => fail (UnexpectedEventErr "StreamStart" (event_simple_str ev))
  end)%m.

(** [parser_iter.rs:84-93] the loop of [next]. *)
Fixpoint iter_loop (fuel : nat) : IM yam_event := fun i =>
  match i_state i with
  | IStreamStart => process_start i
  | IInDocument =>
      match process_doc i with
      | (i', Ok (Some y)) => (i', Ok y)
      | (i', Ok None) => match fuel with O => (i', Fuel) | S f => iter_loop f i' end
      | (i', Err e) => (i', Err e)
      | (i', Panic) => (i', Panic)
      | (i', Ub) => (i', Ub)
      | (i', Fuel) => (i', Fuel)
      end
  | IEndDocument => finish_document i
  end.

(** [parser_iter.rs:83-102] [next]: errors are stored and answered [None]. *)
Definition iter_next (fuel : nat) (i : parser_iter) : parser_iter * out (option yam_event) :=
  match iter_loop fuel i with
  | (i', Err e) => (set_i_error e i', Ok None)
  | (i', Ok YStreamEnd) => (i', Ok None)
  | (i', Ok y) => (i', Ok (Some y))
  | (i', Panic) => (i', Panic)
  | (i', Ub) => (i', Ub)
  | (i', Fuel) => (i', Fuel)
  end.

(** The answers to [n] calls of [next]. *)
Fixpoint iter_run (fuel n : nat) (i : parser_iter) : list (out (option yam_event)) :=
  match n with
  | O => []
  | S n => let '(i', a) := iter_next fuel i in a :: iter_run fuel n i'
  end.
