(** What a serialised value should be deserialised as. *)
From Verif Require Import Base Chars Scalar Yaml SpecScalar SpecRoundTrip Serde SerdeSer SpecSer.
From Coq Require Import String.
Local Open Scope list_scope.

(** [same_value v t x]: read as a [t], the serialised value [v] is [x] (a character is read as a
    string). *)
Fixpoint same_value (v : ser_value) (t : target) (x : value) : Prop :=
  match v with
  | SerBool b => t = DBool /\ x = VBool b
  | SerInt z => exists lo hi, t = DInt lo hi /\ (lo <= z <= hi)%Z /\ x = VInt z
  | SerFloat f => t = DFloat /\ exists f', x = VFloat f' /\ same_scalar (SFloat f) (SFloat f')
  | SerChar c => t = DString /\ x = VString (utf8 c)
  | SerStr ws => t = DString /\ x = VString (List.concat (map fst ws))
  | SerUnit => t = DUnit /\ x = VUnit
  | SerNone => exists t', t = DOption t' /\ x = VNone
  | SerSome v => exists t' x', t = DOption t' /\ x = VSome x' /\ same_value v t' x'
  end.
(** The values that come back.  Strings: those of C39; characters: no line break and no NUL; floats:
    finite and not minus zero; null is written [null]; in an option: no null, no option, no empty
    string, no string [null]. *)
Definition returns (f : formatter) (v : ser_value) : Prop :=
  match v with
  | SerBool _ | SerInt _ => True
  | SerFloat (FNum neg m _) => neg = true -> m <> 0%N
  | SerFloat _ => False
  | SerChar c => ~ In c [10; 13; 0]%N
  | SerStr ws =>
      let t := List.concat (map fst ws) in
      Forall (fun w => fst w <> []) ws /\ plain_content t /\ single_blanks t /\ no_marker_word t
  | SerUnit | SerNone => null_format f = str "null"
  | SerSome _ => False
  end.
Definition returns_some (f : formatter) (v : ser_value) : Prop :=
  match v with
  | SerUnit | SerNone => False
  | SerStr ws => returns f v /\ ~ In (List.concat (map fst ws)) [[]; str "null"]
  | v => returns f v
  end.
Definition comes_back_as_it_was (f : formatter) (v : ser_value) : Prop :=
  match v with SerSome v => returns_some f v | v => returns f v end.
