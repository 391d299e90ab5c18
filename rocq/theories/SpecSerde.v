(** Which Rust value a YAML node denotes for a target type, and which events a node has. *)
From Verif Require Import Base Tokens Scalar ParserIter SpecScalar Serde.
From Coq Require Import String.
Local Open Scope list_scope.

(** ** Nodes and their events *)
Inductive node :=
| NScalar (v : scalar_value)
| NSeq (anchor : nat) (t : option tag) (l : list node)
| NMap (anchor : nat) (t : option tag) (l : list (node * node)).
Fixpoint node_yams (n : node) : list yam_event :=
  match n with
  | NScalar v => [YScalarEv v]
  | NSeq a t l => YSeqStart a t :: flat_map node_yams l ++ [YSeqEnd]
  | NMap a t l => YMapStart a t :: flat_map (fun x => node_yams (fst x) ++ node_yams (snd x)) l ++ [YMapEnd]
  end.

(** ** Denotation *)
(** What a scalar resolves to (see C16 to C20 for the resolver). *)
Definition resolves (v : scalar_value) (s : scalar) : Prop :=
  parse_from_cow_and_metadata (sv_value v) (sv_type v) (sv_tag v) = Some s.
(** Nulls of YAML: an empty plain scalar, or one that resolves to null. *)
Definition yaml_null (n : node) : Prop :=
  exists v, n = NScalar v /\ ((sv_type v = Plain /\ sv_value v = []) \/ resolves v SNull).
(** The nulls that the deserialiser recognises: empty, or spelled [null]. *)
Definition seen_as_null (n : node) : Prop :=
  exists v, n = NScalar v /\ sv_tag v = None /\ In (sv_value v) [[]; str "null"].
(** No null, and neither seen as one nor (with a tag) possibly so. *)
Definition seen_as_value (n : node) : Prop :=
  ~ yaml_null n /\ ~ seen_as_null n /\
  forall v, n = NScalar v -> sv_tag v = None.

(** The key of an entry is a scalar that is the string [name]. *)
Definition key_is (name : text) (e : node * node) : Prop :=
  exists v, fst e = NScalar v /\ resolves v (SString name).

(** [denotes null some t n v]: as a [t], the node [n] is the value [v]; [null] and [some] say which nodes
    are the null and the non-null values of an [Option]. *)
Fixpoint denotes (null some : node -> Prop) (t : target) (n : node) (x : value) {struct t} : Prop :=
  match t with
  | DInt lo hi =>
      exists v z, n = NScalar v /\ x = VInt z /\ signed dec_digit 10 (sv_value v) z /\ (lo <= z <= hi)%Z /\
        ((exists r, sv_value v = minus ++ r) -> lo < 0)%Z
  | DBool => exists v b, n = NScalar v /\ x = VBool b /\ resolves v (SBool b)
  | DFloat => exists v f, n = NScalar v /\ x = VFloat f /\
      (resolves v (SFloat f) \/ exists z, resolves v (SInt z) /\ f = FNum (z <? 0)%Z (Z.abs_N z) 0)
  | DString => exists v s, n = NScalar v /\ x = VString s /\ resolves v (SString s)
  | DUnit => null n /\ x = VUnit
  | DOption t => (null n /\ x = VNone) \/ (some n /\ exists y, x = VSome y /\ denotes null some t n y)
  | DVec t => exists a g l xs, n = NSeq a g l /\ x = VSeq xs /\ Forall2 (denotes null some t) l xs
  | DMap k v => exists a g l xs, n = NMap a g l /\ x = VMap xs /\
      Forall2 (fun e y => denotes null some k (fst e) (fst y) /\ denotes null some v (snd e) (snd y)) l xs
  | DTuple ts => exists a g l xs, n = NSeq a g l /\ x = VSeq xs /\
      (fix all ts l xs := match ts, l, xs with
         | [], [], [] => True
         | t :: ts, n :: l, x :: xs => denotes null some t n x /\ all ts l xs
         | _, _, _ => False
         end) ts l xs
  | DStruct fs => exists a g l xs, n = NMap a g l /\ x = VStruct xs /\
      (* every entry is a field, none is there twice *)
      NoDup (map fst fs) /\
      Forall (fun e => exists name, key_is name e /\ In name (map fst fs)) l /\
      (forall l1 e l2 name, l = l1 ++ e :: l2 -> key_is name e -> Forall (fun e => ~ key_is name e) (l1 ++ l2)) /\
      (* the fields in order, a missing [Option] being [None] *)
      (fix all fs xs := match fs, xs with
         | [], [] => True
         | (name, t) :: fs, (name', x) :: xs =>
             name = name' /\
             ((exists e, In e l /\ key_is name e /\ denotes null some t (snd e) x) \/
              (Forall (fun e => ~ key_is name e) l /\ (exists t', t = DOption t') /\ x = VNone)) /\
             all fs xs
         | _, _ => False
         end) fs xs
  | DEnum vs =>
      (exists v, n = NScalar v /\ x = VEnum (sv_value v) VUnit /\
        exists t, assoc (sv_value v) vs = Some (KUnit, t)) \/
      (exists a g k c name y, n = NMap a g [(k, c)] /\ x = VEnum name y /\ key_is name (k, c) /\
        (fix some_variant vs := match vs with
           | [] => False
           | (name', (kind, t)) :: vs =>
               (name = name' /\ kind <> KUnit /\ denotes null some t c y) \/ (name <> name' /\ some_variant vs)
           end) vs)
  | DIgnored => x = VIgnored
  end.

(** ** Where the deserialiser reads a type correctly *)
(** [reads peeked t]: [peeked] says that the first event has been looked at already, as for the elements
    of sequences and the keys of mappings. *)
Fixpoint reads (peeked : bool) (t : target) : bool :=
  match t with
  | DInt _ _ | DBool | DFloat | DString | DUnit => true
  | DOption t => negb peeked && reads true t
  | DVec t => reads true t
  | DMap k v => reads true k && reads false v
  | DTuple ts =>
      negb peeked && forallb (reads true) ts &&
      match rev ts with DVec _ :: _ => false | _ => true end
  | DStruct fs => negb peeked && forallb (fun x => reads false (snd x)) fs
  | DEnum vs => forallb (fun x => match fst (snd x) with KUnit => true | _ => false end) vs
  | DIgnored => false
  end.

(** No enum has a unit variant. *)
Fixpoint no_unit_variants (t : target) : bool :=
  match t with
  | DInt _ _ | DBool | DFloat | DString | DUnit | DIgnored => true
  | DOption t | DVec t => no_unit_variants t
  | DMap k v => no_unit_variants k && no_unit_variants v
  | DTuple ts => forallb no_unit_variants ts
  | DStruct fs => forallb (fun x => no_unit_variants (snd x)) fs
  | DEnum vs => forallb (fun x => match fst (snd x) with KUnit => false | _ => no_unit_variants (snd (snd x)) end) vs
  end.
