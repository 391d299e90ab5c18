(** What the deserialiser takes for null, and the types whose values are read exactly. *)
From Verif Require Import Base Tokens ParserIter Serde SpecSerde.
From Coq Require Import String.
Local Open Scope list_scope.

(** An empty scalar or one spelled [null], in quotes or not and with any tag; [~] with a core-schema tag. *)
Definition taken_for_null (n : node) : Prop :=
  exists v, n = NScalar v /\
    (In (sv_value v) [[]; str "null"] \/
     (sv_value v = str "~" /\ exists g, sv_tag v = Some g /\ t_handle g = str "tag:yaml.org,2002:")).

(** [known_fields t n]: wherever a struct is read, the node is no sequence, and a mapping there has only members
    named by the fields.  (Structs skip other members, and take sequences for their fields in order.) *)
Fixpoint known_fields (t : target) (n : node) {struct t} : Prop :=
  match t with
  | DInt _ _ | DBool | DFloat | DString | DUnit | DEnum _ | DIgnored => True
  | DOption t => known_fields t n
  | DVec t => forall a g l, n = NSeq a g l -> Forall (known_fields t) l
  | DMap k v => forall a g l, n = NMap a g l -> Forall (fun e => known_fields k (fst e) /\ known_fields v (snd e)) l
  | DTuple ts => forall a g l, n = NSeq a g l ->
      (fix all ts l := match ts, l with
         | t :: ts, n :: l => known_fields t n /\ all ts l
         | _, _ => True
         end) ts l
  | DStruct fs => NoDup (map fst fs) /\ (forall a g l, n <> NSeq a g l) /\ forall a g l, n = NMap a g l ->
      Forall (fun e => exists name, key_is name e /\ In name (map fst fs)) l /\
      (fix all fs := match fs with
         | [] => True
         | (name, t) :: fs => Forall (fun e => key_is name e -> known_fields t (snd e)) l /\ all fs
         end) fs
  end.
(** No structs. *)
Fixpoint no_structs (t : target) : bool :=
  match t with
  | DInt _ _ | DBool | DFloat | DString | DUnit | DEnum _ | DIgnored => true
  | DOption t | DVec t => no_structs t
  | DMap k v => no_structs k && no_structs v
  | DTuple ts => forallb no_structs ts
  | DStruct _ => false
  end.
