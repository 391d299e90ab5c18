(** What should come back when a value is dumped and loaded, in terms of values and texts alone. *)
From Verif Require Import Base Tokens Scalar Yaml SpecScalar SpecEmit SpecBlock.
From Coq Require Import String.
Local Open Scope list_scope.

(** All scalars of a value made of scalars, sequences and mappings satisfy [P]. *)
Fixpoint all_scalars (P : scalar -> Prop) (y : yaml) : Prop :=
  match y with
  | YScalar v => P v
  | YSeq l => fold_right (fun x r => all_scalars P x /\ r) True l
  | YMap l => fold_right (fun x r => (all_scalars P (fst x) /\ all_scalars P (snd x)) /\ r) True l
  | _ => False
  end.
(** Integers have 64 bits. *)
Definition valid_scalar (v : scalar) : Prop :=
  match v with SInt z => i64_range z | _ => True end.
(** [(-1)^neg * m * 10^e] is the integer [z]. *)
Definition whole (neg : bool) (m : N) (e z : Z) : Prop :=
  (z * 10 ^ Z.max 0 (- e) = (if neg then -1 else 1) * Z.of_N m * 10 ^ Z.max 0 e)%Z.
(** Equal scalars: floats are the same when they are the same number with the same sign, whatever
    the decimal exponent they are written with. *)
Definition same_scalar (v w : scalar) : Prop :=
  match v, w with
  | SFloat (FNum n m e), SFloat (FNum n' m' e') =>
      n = n' /\ (Z.of_N m * 10 ^ Z.max 0 (e - e') = Z.of_N m' * 10 ^ Z.max 0 (e' - e))%Z
  | _, _ => v = w
  end.
(** Scalars that survive: strings that do not look like numbers, floats that are not small
    integers. *)
Definition survives (v : scalar) : Prop :=
  match v with
  | SString t => ~ misread t
  | SFloat (FNum neg m e) => ~ exists z, i64_range z /\ whole neg m e z
  | SFloat _ => False
  | _ => True
  end.
(** What a scalar comes back as. *)
Inductive comes_back : scalar -> scalar -> Prop :=
| cb_same v w : survives v -> same_scalar v w -> comes_back v w
| cb_misread t v : misread t -> (forall u, v <> SString u) -> comes_back (SString t) v
| cb_whole neg m e z : i64_range z -> whole neg m e z -> comes_back (SFloat (FNum neg m e)) (SInt z)
| cb_inf neg : comes_back (SFloat (FInf neg)) (SString (if neg then str "-inf" else str "inf"))
| cb_nan : comes_back (SFloat FNan) (SString (str "NaN")).
(** The same value with other scalars. *)
Inductive alike (R : scalar -> scalar -> Prop) : yaml -> yaml -> Prop :=
| al_scalar v w : R v w -> alike R (YScalar v) (YScalar w)
| al_seq l l' : Forall2 (alike R) l l' -> alike R (YSeq l) (YSeq l')
| al_map l l' : Forall2 (fun x x' => alike R (fst x) (fst x') /\ alike R (snd x) (snd x')) l l' ->
    alike R (YMap l) (YMap l').
(** Every scalar that is a key satisfies [P]. *)
Fixpoint scalar_keys (P : scalar -> Prop) (y : yaml) : Prop :=
  match y with
  | YSeq l => fold_right (fun x r => scalar_keys P x /\ r) True l
  | YMap l => fold_right (fun x r =>
      ((match fst x with YScalar v => P v | _ => True end) /\
       scalar_keys P (fst x) /\ scalar_keys P (snd x)) /\ r) True l
  | _ => True
  end.

(** ** With strings of several lines as literal blocks *)
Definition single_line (v : scalar) : Prop := match v with SString t => ~ In 10%N t | _ => True end.
Definition block_string (v : scalar) : Prop := match v with SString t => In 10%N t -> literal_string t | _ => True end.
(** Every string of several lines can be written as a literal scalar where it stands. *)
Definition fits_blocks (y : yaml) : Prop :=
  all_scalars block_string y /\ scalar_keys single_line y /\
  match y with YScalar (SString t) => In 10%N t -> literal_document t | _ => True end.
