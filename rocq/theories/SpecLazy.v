(** The scalar leaves of a value, in order. *)
From Verif Require Import Base Tokens Lazy.

Fixpoint leaves (x : lazy_expander) : list scalar_value :=
  match x with
  | LScalar v => [v]
  | LVector l => flat_map leaves l
  | LMap l => flat_map (fun p => let '(a, b) := p in leaves a ++ leaves b) l
  end.
