(** What the event iterator of deserialisation should deliver for a node: one event for each event of
    the node, in order. *)
From Verif Require Import Base Tokens ParserIter.

Definition yam_of (e : event) : option yam_event :=
  match e with
  | EScalar v => Some (YScalarEv v)
  | ESequenceStart a t => Some (YSeqStart a t)
  | ESequenceEnd => Some YSeqEnd
  | EMappingStart a t => Some (YMapStart a t)
  | EMappingEnd => Some YMapEnd
  | EAlias id => Some (YAlias id)
  | _ => None
  end.
Fixpoint yam_events (l : list event) : list yam_event :=
  match l with
  | [] => []
  | e :: r => match yam_of e with Some y => y :: yam_events r | None => yam_events r end
  end.
Definition is_alias_event (e : event) : bool := match e with EAlias _ => true | _ => false end.
