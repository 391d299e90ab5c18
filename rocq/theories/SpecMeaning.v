(** The values that YAML gives to trees (YAML 1.2.2, sections 3.2, 6.9, 7.1 and chapter 10), stated without
    the loader. *)
From Verif Require Import Base Tokens Scalar Yaml SpecScalar SpecEvents SpecTree SpecStream.
From Coq Require Import String.
Local Open Scope list_scope.

(** [Standard] is YAML with the core schema.  [Narrow] leaves out what the loader does not do: nodes that are not
    there, which YAML reads as null; plain scalars like [++5], which YAML reads as strings; core tags on other
    notations than the usual one; core tags written in full; the tag [!]; tagged keys.  [Filled] is [Narrow] but has
    nodes that are not there, and reads them, unlike YAML, as empty strings.
    Integers outside the signed 64-bit range are not said to mean anything. *)
Inductive reading := Standard | Narrow | Filled.
(** A node that is not there. *)
Inductive missing : reading -> yaml -> Prop :=
| ms_null : missing Standard (YScalar SNull)
| ms_string : missing Filled (YScalar (SString [])).
Inductive plain_means (rd : reading) (t : text) : scalar -> Prop :=
| pm_null : null_spelling t -> plain_means rd t SNull
| pm_bool b : bool_spelling t b -> plain_means rd t (SBool b)
| pm_int z : core_int t z -> i64_range z -> plain_means rd t (SInt z)
| pm_float f : denotes_float t f -> (forall z, ~ signed dec_digit 10 t z) -> plain_means rd t (SFloat f)
| pm_string : ~ null_spelling t -> (forall b, ~ bool_spelling t b) -> (forall z, ~ core_int t z) ->
    (forall f, ~ denotes_float t f) -> (rd <> Standard -> forall z, ~ extra_int t z) -> plain_means rd t (SString t).

(** ** Tags *)
(** The tag a node is written with, [tg] being the declared handles. *)
Inductive tagged_as (tg : list (text * text)) (pr : props) : option tag -> Prop :=
| ta_none : pr_tag pr = None -> tagged_as tg pr None
| ta_some h s g : pr_tag pr = Some (h, s) -> tag_means tg h s (Some g) -> tagged_as tg pr (Some g).
Definition whole_tag (g : tag) : text := t_handle g ++ t_suffix g.
(** A tag of the core schema, by name. *)
Definition core_name (rd : reading) (g : tag) (name : text) : Prop :=
  whole_tag g = core_prefix ++ name /\ (rd <> Standard -> t_handle g = core_prefix).
(** A tag outside of the core schema: it stays around the value. *)
Definition other_name (g : tag) : Prop :=
  whole_tag g <> str "!" /\ forall name, whole_tag g <> core_prefix ++ name.
(** A scalar. *)
Inductive scalar_means (rd : reading) : option tag -> scalar_type -> text -> yaml -> Prop :=
| sc_plain v s : plain_means rd v s -> scalar_means rd None Plain v (YScalar s)
| sc_quoted st v : st <> Plain -> scalar_means rd None st v (YScalar (SString v))
| sc_str g st v : core_name rd g (str "str") -> scalar_means rd (Some g) st v (YScalar (SString v))
| sc_int g st v z : core_name rd g (str "int") -> core_int v z -> i64_range z ->
    (rd <> Standard -> st = Plain /\ signed dec_digit 10 v z) -> scalar_means rd (Some g) st v (YScalar (SInt z))
| sc_float g st v f : core_name rd g (str "float") -> denotes_float v f -> (rd <> Standard -> st = Plain) ->
    scalar_means rd (Some g) st v (YScalar (SFloat f))
| sc_bool g st v b : core_name rd g (str "bool") -> bool_spelling v b ->
    (rd <> Standard -> st = Plain /\ v = if b then str "true" else str "false") -> scalar_means rd (Some g) st v (YScalar (SBool b))
| sc_null g st v : core_name rd g (str "null") -> null_spelling v ->
    (rd <> Standard -> st = Plain /\ In v [str "~"; str "null"]) -> scalar_means rd (Some g) st v (YScalar SNull)
| sc_other g st v y : other_name g -> scalar_means rd None st v y -> scalar_means rd (Some g) st v (YTagged g y)
| sc_plainly g st v : rd = Standard -> whole_tag g = str "!" -> scalar_means rd (Some g) st v (YScalar (SString v)).
(** A node that is not there, but has properties. *)
Inductive empty_means (rd : reading) : option tag -> yaml -> Prop :=
| ey_none y : missing rd y -> empty_means rd None y
| ey_str g : core_name rd g (str "str") -> empty_means rd (Some g) (YScalar (SString []))
| ey_null g : core_name rd g (str "null") -> empty_means rd (Some g) (YScalar SNull)
| ey_other g y : missing rd y -> other_name g -> empty_means rd (Some g) (YTagged g y).
(** A collection: [name] is its core tag, [y] its value without tag. *)
Inductive coll_means (rd : reading) (name : text) : option tag -> yaml -> yaml -> Prop :=
| cm_none y : coll_means rd name None y y
| cm_core g y : core_name rd g name -> coll_means rd name (Some g) y y
| cm_other g y : other_name g -> coll_means rd name (Some g) y (YTagged g y)
| cm_plainly g y : rd = Standard -> whole_tag g = str "!" -> coll_means rd name (Some g) y y.

(** ** Anchors *)
(** The anchors before a node, in document order, each with the value of its node if that is complete. *)
Definition anchors := list (text * option yaml).
Definition anchored (pr : props) (o : option yaml) : anchors :=
  match pr_anchor pr with Some n => [(n, o)] | None => [] end.
(** An alias stands for the last node anchored by that name before it. *)
Definition alias_means (E : anchors) (n : text) (y : yaml) : Prop :=
  exists E1 E2, E = E1 ++ (n, Some y) :: E2 /\ ~ In n (map fst E2).
(** Parts one after the other: each sees the anchors of those before it.  [D] are the anchors in them. *)
Inductive list_means {A B : Type} (part_means : anchors -> A -> B -> anchors -> Prop) : anchors -> list A -> list B -> anchors -> Prop :=
| lm_nil E : list_means part_means E [] [] []
| lm_cons E x y D l ys D' : part_means E x y D -> list_means part_means (E ++ D) l ys D' ->
    list_means part_means E (x :: l) (y :: ys) (D ++ D').

(** ** Trees *)
(** The loader forgets keys with tags. *)
Definition untagged (y : yaml) : Prop := match y with YTagged _ _ => False | _ => True end.
(** [tree_means rd tg E t y D]: behind the anchors [E] the tree [t] means [y]; [D] are the anchors in it. *)
Inductive tree_means (rd : reading) (tg : list (text * text)) : anchors -> tree -> yaml -> anchors -> Prop :=
| tm_scalar E pr o st v y : tagged_as tg pr o -> scalar_means rd o st v y -> tree_means rd tg E (TrScalar pr st v) y (anchored pr (Some y))
| tm_alias E n y : alias_means E n y -> tree_means rd tg E (TrAlias n) y []
| tm_empty E pr o y : tagged_as tg pr o -> empty_means rd o y -> tree_means rd tg E (TrEmpty pr) y (anchored pr (Some y))
| tm_flow_seq E pr o l b ys y D : tagged_as tg pr o -> list_means (item_means rd tg) (E ++ anchored pr None) l ys D ->
    coll_means rd (str "seq") o (YSeq ys) y -> tree_means rd tg E (TrFlowSeq pr l b) y (anchored pr (Some y) ++ D)
| tm_flow_map E pr o l b ys y D : tagged_as tg pr o -> list_means (pair_means rd tg) (E ++ anchored pr None) l ys D ->
    coll_means rd (str "map") o (YMap ys) y -> tree_means rd tg E (TrFlowMap pr l b) y (anchored pr (Some y) ++ D)
| tm_seq E pr o l ys y D : tagged_as tg pr o -> list_means (opt_means rd tg) (E ++ anchored pr None) l ys D ->
    coll_means rd (str "seq") o (YSeq ys) y -> tree_means rd tg E (TrBlockSeq pr l) y (anchored pr (Some y) ++ D)
| tm_dashes E pr o l ys y D : tagged_as tg pr o -> list_means (opt_means rd tg) (E ++ anchored pr None) l ys D ->
    coll_means rd (str "seq") o (YSeq ys) y -> tree_means rd tg E (TrIndentless pr l) y (anchored pr (Some y) ++ D)
| tm_map E pr o l ys y D : tagged_as tg pr o -> list_means (pair_means rd tg) (E ++ anchored pr None) l ys D ->
    coll_means rd (str "map") o (YMap ys) y -> tree_means rd tg E (TrBlockMap pr l) y (anchored pr (Some y) ++ D)
with opt_means (rd : reading) (tg : list (text * text)) : anchors -> option tree -> yaml -> anchors -> Prop :=
| om_node E t y D : tree_means rd tg E t y D -> opt_means rd tg E (Some t) y D
| om_none E y : missing rd y -> opt_means rd tg E None y []
with key_means (rd : reading) (tg : list (text * text)) : anchors -> key tree -> yaml -> anchors -> Prop :=
| km_node E t y D : tree_means rd tg E t y D -> (rd <> Standard -> untagged y) -> key_means rd tg E (KNode t) y D
| km_bare E t y D : tree_means rd tg E t y D -> (rd <> Standard -> untagged y) -> key_means rd tg E (KBare t) y D
| km_empty E y : missing rd y -> key_means rd tg E KEmpty y []
| km_none E y : missing rd y -> key_means rd tg E KNone y []
with value_means (rd : reading) (tg : list (text * text)) : anchors -> value tree -> yaml -> anchors -> Prop :=
| vm_node E t y D : tree_means rd tg E t y D -> value_means rd tg E (VNode t) y D
| vm_empty E y : missing rd y -> value_means rd tg E VEmpty y []
| vm_absent E y : missing rd y -> value_means rd tg E VAbsent y []
with pair_means (rd : reading) (tg : list (text * text)) : anchors -> key tree * value tree -> yaml * yaml -> anchors -> Prop :=
| pr_pair E k v y D y' D' : key_means rd tg E k y D -> value_means rd tg (E ++ D) v y' D' -> pair_means rd tg E (k, v) (y, y') (D ++ D')
(** A single pair in a flow sequence is a mapping. *)
with item_means (rd : reading) (tg : list (text * text)) : anchors -> item tree -> yaml -> anchors -> Prop :=
| im_node E t y D : tree_means rd tg E t y D -> item_means rd tg E (INode t) y D
| im_pair E t v y D y' D' : tree_means rd tg E t y D -> (rd <> Standard -> untagged y) -> value_means rd tg (E ++ D) v y' D' ->
    item_means rd tg E (IPair t v) (YMap [(y, y')]) (D ++ D').
(** A document: its own directives count, its anchors are its own. *)
Definition doc_means (rd : reading) (d : doc) (y : yaml) : Prop := exists D, opt_means rd (dirs_table (d_dirs d)) [] (d_root d) y D.
(** A tree in a document without directives. *)
Definition alone_means (rd : reading) (t : tree) (y : yaml) : Prop := exists D, tree_means rd [] [] t y D.
