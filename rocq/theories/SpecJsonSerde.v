(** Which Rust value a JSON value is for a target type. *)
From Verif Require Import Base Scalar Yaml SpecScalar Serde.
From Coq Require Import String.
Local Open Scope list_scope.

(** [json_is full t y x]: as a [t], the JSON value [y] is [x].  [full = false] leaves out zero as an unsigned
    integer, which may be written [-0], and the strings ["null"] and [""] as the value of an [Option]. *)
Fixpoint json_is (full : bool) (t : target) (y : yaml) (x : value) {struct t} : Prop :=
  match t with
  | DInt lo hi => exists z, y = YScalar (SInt z) /\ x = VInt z /\ (lo <= z <= hi)%Z /\ (full = true \/ z <> 0%Z \/ (lo < 0)%Z)
  | DBool => exists b, y = YScalar (SBool b) /\ x = VBool b
  | DFloat => exists f, x = VFloat f /\
      (y = YScalar (SFloat f) \/ exists z, y = YScalar (SInt z) /\ f = FNum (z <? 0)%Z (Z.abs_N z) 0)
  | DString => exists s, y = YScalar (SString s) /\ x = VString s
  | DUnit => y = YScalar SNull /\ x = VUnit
  | DOption t =>
      (y = YScalar SNull /\ x = VNone) \/
      (y <> YScalar SNull /\ (full = true \/ ~ In y [YScalar (SString []); YScalar (SString (str "null"))]) /\
       exists x', x = VSome x' /\ json_is full t y x')
  | DVec t => exists l xs, y = YSeq l /\ x = VSeq xs /\ Forall2 (json_is full t) l xs
  | DMap k v => exists l xs, y = YMap l /\ x = VMap xs /\
      Forall2 (fun e p => json_is full k (fst e) (fst p) /\ json_is full v (snd e) (snd p)) l xs
  | DTuple ts => exists l xs, y = YSeq l /\ x = VSeq xs /\
      (fix all ts l xs := match ts, l, xs with
         | [], [], [] => True
         | t :: ts, y :: l, x :: xs => json_is full t y x /\ all ts l xs
         | _, _, _ => False
         end) ts l xs
  | DStruct fs => exists l xs, y = YMap l /\ x = VStruct xs /\
      (* every member is a field, none is there twice *)
      NoDup (map fst fs) /\ NoDup (map fst l) /\
      Forall (fun e => exists name, fst e = YScalar (SString name) /\ In name (map fst fs)) l /\
      (* the fields in order, a missing [Option] being [None] *)
      (fix all fs xs := match fs, xs with
         | [], [] => True
         | (name, t) :: fs, (name', x) :: xs =>
             name = name' /\
             ((exists v, In (YScalar (SString name), v) l /\ json_is full t v x) \/
              (~ In (YScalar (SString name)) (map fst l) /\ (exists t', t = DOption t') /\ x = VNone)) /\
             all fs xs
         | _, _ => False
         end) fs xs
  | DEnum vs =>
      (exists s, y = YScalar (SString s) /\ x = VEnum s VUnit /\ exists t, assoc s vs = Some (KUnit, t)) \/
      (exists name c x', y = YMap [(YScalar (SString name), c)] /\ x = VEnum name x' /\
        (fix some_variant vs := match vs with
           | [] => False
           | (name', (kind, t)) :: vs =>
               (name = name' /\ kind <> KUnit /\ json_is full t c x') \/ (name <> name' /\ some_variant vs)
           end) vs)
  | DIgnored => x = VIgnored
  end.
