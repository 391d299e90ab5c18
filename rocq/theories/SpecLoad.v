(** Specification of document-local aliases, independent of the parser. *)
From Verif Require Import Base Tokens SpecEvents.

(** [ids]: the anchors seen since the last document start. Every alias refers to one of them. *)
Fixpoint aliases_local (ids : list nat) (evs : list event) : Prop :=
  match evs with
  | [] => True
  | EDocumentStart _ :: r => aliases_local [] r
  | EAlias id :: r => In id ids /\ aliases_local ids r
  | e :: r => aliases_local (anchored_ids [e] ++ ids) r
  end.
