(** The node of the deserialiser's specification that a tree without properties stands for. *)
From Verif Require Import Base Tokens Scalar ParserIter SpecTree SpecStream Serde SpecSerde SpecLayout.
Local Open Scope list_scope.

Definition missing_dnode : SpecSerde.node := NScalar (ScalarValue [] Plain 0 None).
Inductive tree_is : tree -> SpecSerde.node -> Prop :=
| ti_scalar st v : tree_is (TrScalar no_props st v) (NScalar (ScalarValue v st 0 None))
| ti_flow_seq l b ns : Forall2 item_is l ns -> tree_is (TrFlowSeq no_props l b) (NSeq 0 None ns)
| ti_flow_map l b ns : Forall2 pair_is l ns -> tree_is (TrFlowMap no_props l b) (NMap 0 None ns)
| ti_seq l ns : Forall2 part_is l ns -> tree_is (TrBlockSeq no_props l) (NSeq 0 None ns)
| ti_dashes l ns : Forall2 part_is l ns -> tree_is (TrIndentless no_props l) (NSeq 0 None ns)
| ti_map l ns : Forall2 pair_is l ns -> tree_is (TrBlockMap no_props l) (NMap 0 None ns)
with part_is : option tree -> SpecSerde.node -> Prop :=
| pi_node t n : tree_is t n -> part_is (Some t) n
| pi_none : part_is None missing_dnode
with key_is_node : key tree -> SpecSerde.node -> Prop :=
| ki_node t n : tree_is t n -> key_is_node (KNode t) n
| ki_bare t n : tree_is t n -> key_is_node (KBare t) n
| ki_empty : key_is_node KEmpty missing_dnode
| ki_none : key_is_node KNone missing_dnode
with value_is_node : SpecTree.value tree -> SpecSerde.node -> Prop :=
| vi_node t n : tree_is t n -> value_is_node (VNode t) n
| vi_empty : value_is_node VEmpty missing_dnode
| vi_absent : value_is_node VAbsent missing_dnode
with pair_is : key tree * SpecTree.value tree -> SpecSerde.node * SpecSerde.node -> Prop :=
| pa_pair k v n n' : key_is_node k n -> value_is_node v n' -> pair_is (k, v) (n, n')
with item_is : item tree -> SpecSerde.node -> Prop :=
| ii_node t n : tree_is t n -> item_is (INode t) n
| ii_pair t v n n' : tree_is t n -> value_is_node v n' -> item_is (IPair t v) (NMap 0 None [(n, n')]).
