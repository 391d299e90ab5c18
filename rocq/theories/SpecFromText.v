(** Which Rust value of a type a YAML value is. *)
From Verif Require Import Base Tokens Scalar Yaml SpecScalar SpecEmit Serde SpecRoundTrip.
From Coq Require Import String.
Local Open Scope list_scope.

(** The key of an entry is the string [name]. *)
Definition named (name : text) (e : yaml * yaml) : Prop := fst e = YScalar (SString name).
(** [typed null some t y x]: as a [t], the value [y] is [x]; [null] and [some] say which values are the
    null and the other values of an [Option].  Floats are only determined up to the decimal exponent
    they are written with; integers are also floats. *)
Fixpoint typed (null some : yaml -> Prop) (t : target) (y : yaml) (x : value) {struct t} : Prop :=
  match t with
  | DInt lo hi => exists z, y = YScalar (SInt z) /\ x = VInt z /\ (lo <= z <= hi)%Z
  | DBool => exists b, y = YScalar (SBool b) /\ x = VBool b
  | DFloat =>
      (exists f f', y = YScalar (SFloat f) /\ x = VFloat f' /\ same_scalar (SFloat f) (SFloat f')) \/
      (exists z, y = YScalar (SInt z) /\ x = VFloat (FNum (z <? 0)%Z (Z.abs_N z) 0))
  | DString => exists s, y = YScalar (SString s) /\ x = VString s
  | DUnit => null y /\ x = VUnit
  | DOption t =>
      (null y /\ x = VNone) \/
      (some y /\ exists x', x = VSome x' /\ typed null some t y x')
  | DVec t => exists l xs, y = YSeq l /\ x = VSeq xs /\ Forall2 (typed null some t) l xs
  | DMap k v => exists l xs, y = YMap l /\ x = VMap xs /\
      Forall2 (fun e p => typed null some k (fst e) (fst p) /\ typed null some v (snd e) (snd p)) l xs
  | DTuple ts => exists l xs, y = YSeq l /\ x = VSeq xs /\
      (fix all ts l xs := match ts, l, xs with
         | [], [], [] => True
         | t :: ts, y :: l, x :: xs => typed null some t y x /\ all ts l xs
         | _, _, _ => False
         end) ts l xs
  | DStruct fs => exists l xs, y = YMap l /\ x = VStruct xs /\
      (* every entry is a field, none is there twice *)
      NoDup (map fst fs) /\ NoDup (map fst l) /\
      Forall (fun e => exists name, named name e /\ In name (map fst fs)) l /\
      (* the fields in order, a missing [Option] being [None] *)
      (fix all fs xs := match fs, xs with
         | [], [] => True
         | (name, t) :: fs, (name', x) :: xs =>
             name = name' /\
             ((exists e, In e l /\ named name e /\ typed null some t (snd e) x) \/
              (Forall (fun e => ~ named name e) l /\ (exists t', t = DOption t') /\ x = VNone)) /\
             all fs xs
         | _, _ => False
         end) fs xs
  | DEnum vs =>
      (exists name t, y = YScalar (SString name) /\ x = VEnum name VUnit /\ In (name, (KUnit, t)) vs /\ NoDup (map fst vs)) \/
      (exists name c x' kind t, y = YMap [(YScalar (SString name), c)] /\ x = VEnum name x' /\ NoDup (map fst vs) /\
        In (name, (kind, t)) vs /\ kind <> KUnit /\
        (fix content vs := match vs with
           | [] => False
           | (name', (_, t)) :: vs => (name = name' /\ typed null some t c x') \/ content vs
           end) vs)
  | DIgnored => x = VIgnored
  end.

(** Scalars that the emitter writes so that they are read back as the same value: strings that do
    not look like numbers, 64-bit integers, finite floats other than minus zero. *)
Definition fine (v : scalar) : Prop :=
  match v with
  | SString t => ~ misread t
  | SInt z => i64_range z
  | SFloat (FNum neg m e) => neg = true -> m <> 0%N
  | SFloat _ => False
  | _ => True
  end.
(** Null is null and nothing else. *)
Definition is_null (y : yaml) : Prop := y = YScalar SNull.
Definition no_null (y : yaml) : Prop := y <> YScalar SNull.
(** Values that are neither null nor taken for it by the deserialiser. *)
Definition clear (y : yaml) : Prop := ~ In y [YScalar SNull; YScalar (SString []); YScalar (SString (str "null"))].
Definition nothing (y : yaml) : Prop := False.
