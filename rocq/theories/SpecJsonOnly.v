(** Which Rust values the deserialiser may give for a JSON value. *)
From Verif Require Import Base Scalar Yaml SpecScalar Serde SpecJson.
From Coq Require Import String.
Local Open Scope list_scope.

(** What is taken for null: [null], and the strings ["null"] and [""]. *)
Definition json_null (y : yaml) : Prop := In y [YScalar SNull; YScalar (SString []); YScalar (SString (str "null"))].
(** How a JSON scalar is written, without the quotes of a string. *)
Definition json_spelling (y : yaml) (s : text) : Prop :=
  y = YScalar (SString s) \/ (exists n, y = YScalar n /\ json_number s n) \/
  (y = YScalar SNull /\ s = str "null") \/ (y = YScalar (SBool true) /\ s = str "true") \/ (y = YScalar (SBool false) /\ s = str "false").

(** [json_given full t y x]: as a [t], the JSON value [y] may be given as [x].  [full = true]: if it is one.
    [full = false]: or else if it is a string of digits, given as an integer; a string taken for
    null, and then as nothing else in an [Option]; a scalar spelled like a variant
    without data, given as that.  An integer beyond 64 bits is the number it is. *)
Fixpoint json_given (full : bool) (t : target) (y : yaml) (x : value) {struct t} : Prop :=
  match t with
  | DInt lo hi => exists z, x = VInt z /\ (lo <= z <= hi)%Z /\
      (y = YScalar (SInt z) \/ (exists neg m, y = YScalar (SFloat (FNum neg m 0)) /\ z = (if neg : bool then - Z.of_N m else Z.of_N m)%Z) \/
       (full = false /\ exists s, y = YScalar (SString s) /\ signed dec_digit 10 s z))
  | DBool => exists b, y = YScalar (SBool b) /\ x = VBool b
  | DFloat => exists f, x = VFloat f /\
      (y = YScalar (SFloat f) \/ exists z, y = YScalar (SInt z) /\ f = FNum (z <? 0)%Z (Z.abs_N z) 0)
  | DString => exists s, y = YScalar (SString s) /\ x = VString s
  | DUnit => (y = YScalar SNull \/ full = false /\ json_null y) /\ x = VUnit
  | DOption t =>
      ((y = YScalar SNull \/ full = false /\ json_null y) /\ x = VNone) \/
      (y <> YScalar SNull /\ (full = true \/ ~ json_null y) /\ exists x', x = VSome x' /\ json_given full t y x')
  | DVec t => exists l xs, y = YSeq l /\ x = VSeq xs /\ Forall2 (json_given full t) l xs
  | DMap k v => exists l xs, y = YMap l /\ x = VMap xs /\
      Forall2 (fun e p => json_given full k (fst e) (fst p) /\ json_given full v (snd e) (snd p)) l xs
  | DTuple ts => exists l xs, y = YSeq l /\ x = VSeq xs /\
      (fix all ts l xs := match ts, l, xs with
         | [], [], [] => True
         | t :: ts, y :: l, x :: xs => json_given full t y x /\ all ts l xs
         | _, _, _ => False
         end) ts l xs
  | DStruct fs => exists l xs, y = YMap l /\ x = VStruct xs /\
      (* every member is a field, none is there twice *)
      NoDup (map fst l) /\
      Forall (fun e => exists name, fst e = YScalar (SString name) /\ In name (map fst fs)) l /\
      (* the fields in order, a missing [Option] being [None] *)
      (fix all fs xs := match fs, xs with
         | [], [] => True
         | (name, t) :: fs, (name', x) :: xs =>
             name = name' /\
             ((exists v, In (YScalar (SString name), v) l /\ json_given full t v x) \/
              (~ In (YScalar (SString name)) (map fst l) /\ (exists t', t = DOption t') /\ x = VNone)) /\
             all fs xs
         | _, _ => False
         end) fs xs
  | DEnum vs =>
      (exists s t, (y = YScalar (SString s) \/ full = false /\ json_spelling y s) /\ x = VEnum s VUnit /\ assoc s vs = Some (KUnit, t)) \/
      (exists name c x', y = YMap [(YScalar (SString name), c)] /\ x = VEnum name x' /\
        (fix some_variant vs := match vs with
           | [] => False
           | (name', (kind, t)) :: vs =>
               (name = name' /\ kind <> KUnit /\ json_given full t c x') \/ (name <> name' /\ some_variant vs)
           end) vs)
  | DIgnored => x = VIgnored
  end.

(** [members_known t y]: wherever a struct is read, there is no array, and an object there has only members named
    by the fields. *)
Fixpoint members_known (t : target) (y : yaml) {struct t} : Prop :=
  match t with
  | DInt _ _ | DBool | DFloat | DString | DUnit | DEnum _ | DIgnored => True
  | DOption t => members_known t y
  | DVec t => forall l, y = YSeq l -> Forall (members_known t) l
  | DMap k v => forall l, y = YMap l -> Forall (fun e => members_known k (fst e) /\ members_known v (snd e)) l
  | DTuple ts => forall l, y = YSeq l ->
      (fix all ts l := match ts, l with
         | t :: ts, y :: l => members_known t y /\ all ts l
         | _, _ => True
         end) ts l
  | DStruct fs => NoDup (map fst fs) /\ (forall l, y <> YSeq l) /\ forall l, y = YMap l ->
      Forall (fun e => exists name, fst e = YScalar (SString name) /\ In name (map fst fs)) l /\
      (fix all fs := match fs with
         | [] => True
         | (name, t) :: fs => Forall (fun e => fst e = YScalar (SString name) -> members_known t (snd e)) l /\ all fs
         end) fs
  end.
