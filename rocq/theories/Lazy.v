(** Model of the expansion limits: [yam-core/src/lazy_expander.rs]. *)
From Verif Require Import Base Tokens.

(** [lazy_expander.rs:5-9], [28-30], [40-42]: [LazyExpander], [LazyExpanderVec], [LazyExpanderMap]. *)
Inductive lazy_expander :=
| LScalar (v : scalar_value)
| LVector (l : list lazy_expander)
| LMap (l : list (lazy_expander * lazy_expander)).

(** [lazy_expander.rs:18-26], [32-38], [44-50] [calculate_limit]; [usize] sums are unbounded. *)
Fixpoint calculate_limit (x : lazy_expander) : nat :=
  match x with
  | LScalar _ => 1
  | LVector l => fold_left (fun acc e => acc + calculate_limit e) l 0
  | LMap l => fold_left (fun acc e => let '(a, b) := e in acc + calculate_limit a + calculate_limit b) l 0
  end.

(** [lazy_expander.rs:11-16] [can_expand]. *)
Definition can_expand (x : lazy_expander) (limit : nat) : bool := Nat.ltb (calculate_limit x) limit.
