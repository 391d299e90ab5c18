(** The node of the deserialiser's specification that a tree with anchors, aliases and tags stands for
    (YAML 1.2.2, sections 6.9 and 7.1), stated without the parser. *)
From Verif Require Import Base Tokens Scalar Yaml ParserIter SpecEvents SpecTree SpecStream SpecMeaning Serde SpecSerde SpecLayoutSerde.
Local Open Scope list_scope.

(** The anchors before a node, in document order, each with its node if that is complete. *)
Definition named_nodes := list (text * option SpecSerde.node).
Definition noted (pr : props) (o : option SpecSerde.node) : named_nodes :=
  match pr_anchor pr with Some n => [(n, o)] | None => [] end.
(** The number of a node: anchored nodes are counted from one. *)
Definition number (E : named_nodes) (pr : props) : nat :=
  match pr_anchor pr with Some _ => S (List.length E) | None => 0 end.
(** An alias stands for the last node anchored by that name before it. *)
Definition stands_for (E : named_nodes) (a : text) (n : SpecSerde.node) : Prop :=
  exists E1 E2, E = E1 ++ (a, Some n) :: E2 /\ ~ In a (map fst E2).
(** Parts one after the other: each sees the anchors of those before it. *)
Inductive list_worn {A B : Type} (part : named_nodes -> A -> B -> named_nodes -> Prop) : named_nodes -> list A -> list B -> named_nodes -> Prop :=
| lw_nil E : list_worn part E [] [] []
| lw_cons E x y D l ys D' : part E x y D -> list_worn part (E ++ D) l ys D' -> list_worn part E (x :: l) (y :: ys) (D ++ D').

(** [tree_worn al tg E t n D]: behind the anchors [E], with the declared handles [tg], the tree [t] stands for [n];
    [D] are the anchors in it.  [al]: with aliases. *)
Inductive tree_worn (al : bool) (tg : list (text * text)) : named_nodes -> tree -> SpecSerde.node -> named_nodes -> Prop :=
| tw_scalar E pr o st v n : tagged_as tg pr o -> n = NScalar (ScalarValue v st (number E pr) o) -> tree_worn al tg E (TrScalar pr st v) n (noted pr (Some n))
| tw_alias E a n : al = true -> stands_for E a n -> tree_worn al tg E (TrAlias a) n []
| tw_empty E pr o n : tagged_as tg pr o -> n = NScalar (ScalarValue [] Plain (number E pr) o) -> tree_worn al tg E (TrEmpty pr) n (noted pr (Some n))
| tw_flow_seq E pr o l b ns n D : tagged_as tg pr o -> list_worn (item_worn al tg) (E ++ noted pr None) l ns D ->
    n = NSeq (number E pr) o ns -> tree_worn al tg E (TrFlowSeq pr l b) n (noted pr (Some n) ++ D)
| tw_flow_map E pr o l b ns n D : tagged_as tg pr o -> list_worn (pair_worn al tg) (E ++ noted pr None) l ns D ->
    n = NMap (number E pr) o ns -> tree_worn al tg E (TrFlowMap pr l b) n (noted pr (Some n) ++ D)
| tw_seq E pr o l ns n D : tagged_as tg pr o -> list_worn (part_worn al tg) (E ++ noted pr None) l ns D ->
    n = NSeq (number E pr) o ns -> tree_worn al tg E (TrBlockSeq pr l) n (noted pr (Some n) ++ D)
| tw_dashes E pr o l ns n D : tagged_as tg pr o -> list_worn (part_worn al tg) (E ++ noted pr None) l ns D ->
    n = NSeq (number E pr) o ns -> tree_worn al tg E (TrIndentless pr l) n (noted pr (Some n) ++ D)
| tw_map E pr o l ns n D : tagged_as tg pr o -> list_worn (pair_worn al tg) (E ++ noted pr None) l ns D ->
    n = NMap (number E pr) o ns -> tree_worn al tg E (TrBlockMap pr l) n (noted pr (Some n) ++ D)
with part_worn (al : bool) (tg : list (text * text)) : named_nodes -> option tree -> SpecSerde.node -> named_nodes -> Prop :=
| pw_node E t n D : tree_worn al tg E t n D -> part_worn al tg E (Some t) n D
| pw_none E : part_worn al tg E None missing_dnode []
with key_worn (al : bool) (tg : list (text * text)) : named_nodes -> key tree -> SpecSerde.node -> named_nodes -> Prop :=
| kw_node E t n D : tree_worn al tg E t n D -> key_worn al tg E (KNode t) n D
| kw_bare E t n D : tree_worn al tg E t n D -> key_worn al tg E (KBare t) n D
| kw_empty E : key_worn al tg E KEmpty missing_dnode []
| kw_none E : key_worn al tg E KNone missing_dnode []
with value_worn (al : bool) (tg : list (text * text)) : named_nodes -> SpecTree.value tree -> SpecSerde.node -> named_nodes -> Prop :=
| vw_node E t n D : tree_worn al tg E t n D -> value_worn al tg E (VNode t) n D
| vw_empty E : value_worn al tg E VEmpty missing_dnode []
| vw_absent E : value_worn al tg E VAbsent missing_dnode []
with pair_worn (al : bool) (tg : list (text * text)) : named_nodes -> key tree * SpecTree.value tree -> SpecSerde.node * SpecSerde.node -> named_nodes -> Prop :=
| pw_pair E k v n D n' D' : key_worn al tg E k n D -> value_worn al tg (E ++ D) v n' D' -> pair_worn al tg E (k, v) (n, n') (D ++ D')
with item_worn (al : bool) (tg : list (text * text)) : named_nodes -> item tree -> SpecSerde.node -> named_nodes -> Prop :=
| iw_node E t n D : tree_worn al tg E t n D -> item_worn al tg E (INode t) n D
| iw_pair E t v n D n' D' : tree_worn al tg E t n D -> value_worn al tg (E ++ D) v n' D' -> item_worn al tg E (IPair t v) (NMap 0 None [(n, n')]) (D ++ D').
(** A document: its own directives count, its anchors are its own. *)
Definition doc_worn (al : bool) (ds : list directive) (o : option tree) (n : SpecSerde.node) : Prop :=
  exists D, part_worn al (dirs_table ds) [] o n D.
