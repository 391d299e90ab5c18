(** What serialised strings are compared with. *)
From Verif Require Import Base SpecQuoted.
From Coq Require Import String.
Local Open Scope list_scope.

(** The text with some of its spaces replaced by line feeds. *)
Definition folds_to (t t' : text) : Prop := Forall2 (fun a b => b = a \/ (a = 32%N /\ b = 10%N)) t t'.
(** No double quote, backslash, line break or NUL. *)
Definition plain_content (t : text) : Prop := Forall (fun b => ~ In b [34; 92; 10; 13; 0]%N) t.
(** No two blanks in a row. *)
Definition single_blanks (t : text) : Prop :=
  forall a x y b, t = a ++ x :: y :: b -> blank x -> blank y -> False.
(** No word [---] or [...] after a space. *)
Definition no_marker_word (t : text) : Prop :=
  forall a r, t = a ++ 32%N :: r -> ~ doc_mark (r ++ [34%N]).
