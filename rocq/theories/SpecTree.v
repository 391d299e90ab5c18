(** Specification of documents as trees: how a tree is written as tokens (flow and block notation)
    and which events it denotes. Independent of the parser. *)
From Verif Require Import Base Tokens SpecEvents.
From Coq Require Import String.

(** ** Tags *)
(** Meaning of a tag [handle suffix] under the declarations [tg] (YAML 1.2, 6.8.2.2). [None]: the
    handle is a named one and undeclared. *)
Definition named_handle (h : text) : Prop := exists x, h = (33%N :: x) ++ [33%N].
Definition declared (tg : list (text * text)) (h : text) : option text := map_get h tg.

Definition core_prefix : text := str "tag:yaml.org,2002:".
Inductive tag_means (tg : list (text * text)) : text -> text -> option tag -> Prop :=
| TM_declared h s p : declared tg h = Some p -> tag_means tg h s (Some (Tag p s))
| TM_core s : declared tg (str "!!") = None -> tag_means tg (str "!!") s (Some (Tag core_prefix s))
| TM_undeclared h s : declared tg h = None -> h <> str "!!" -> named_handle h -> tag_means tg h s None
| TM_other h s : declared tg h = None -> ~ named_handle h -> tag_means tg h s (Some (Tag h s)).

(** ** Trees *)
(** Properties of a node: anchor and tag, in either order. *)
Record props := Props { pr_anchor : option text; pr_tag : option (text * text); pr_tag_first : bool }.
Definition no_props : props := Props None None false.

(** The value part of a pair: nothing at all, [:] and nothing, or [:] and a node. *)
Inductive value (A : Type) := VAbsent | VEmpty | VNode (a : A).
Arguments VAbsent {A}. Arguments VEmpty {A}. Arguments VNode {A} a.
(** The key part: no key indicator and no node; an indicator and no node; an indicator and a node;
    a node without indicator (flow mappings only). *)
Inductive key (A : Type) := KNone | KEmpty | KNode (a : A) | KBare (a : A).
Arguments KNone {A}. Arguments KEmpty {A}. Arguments KNode {A} a. Arguments KBare {A} a.
(** An entry of a flow sequence: a node or a single pair. *)
Inductive item (A : Type) := INode (a : A) | IPair (k : A) (v : value A).
Arguments INode {A} a. Arguments IPair {A} k v.

Inductive tree :=
| TrScalar (pr : props) (st : scalar_type) (v : text)
| TrAlias (n : text)
| TrEmpty (pr : props)                                       (* properties without content *)
| TrFlowSeq (pr : props) (l : list (item tree)) (trailing : bool)
| TrFlowMap (pr : props) (l : list (key tree * value tree)) (trailing : bool)
| TrBlockSeq (pr : props) (l : list (option tree))
| TrBlockMap (pr : props) (l : list (key tree * value tree))
| TrIndentless (pr : props) (l : list (option tree)).        (* dashes without extra indentation *)

(** ** Tokens of a tree (spans are irrelevant here: all empty) *)
Definition opt_list {A B} (f : A -> list B) (o : option A) : list B :=
  match o with Some a => f a | None => [] end.
Definition props_toks (pr : props) : list token_type :=
  let a := opt_list (fun n => [TAnchor n]) (pr_anchor pr) in
  let t := opt_list (fun x => [TTag (fst x) (snd x)]) (pr_tag pr) in
  if pr_tag_first pr then t ++ a else a ++ t.
Definition value_toks {A} (f : A -> list token_type) (v : value A) : list token_type :=
  match v with VAbsent => [] | VEmpty => [TValue] | VNode a => TValue :: f a end.
Definition key_toks {A} (f : A -> list token_type) (k : key A) : list token_type :=
  match k with KNone => [] | KEmpty => [TKey] | KNode a => TKey :: f a | KBare a => f a end.
Definition item_toks {A} (f : A -> list token_type) (i : item A) : list token_type :=
  match i with INode a => f a | IPair k v => TKey :: f k ++ value_toks f v end.
Definition pair_toks {A} (f : A -> list token_type) (x : key A * value A) : list token_type :=
  let '(k, v) := x in key_toks f k ++ value_toks f v.
(** Entries separated by commas. *)
Definition commas {A} (f : A -> list token_type) : list A -> list token_type :=
  fix go l := match l with
              | [] => []
              | [x] => f x
              | x :: r => f x ++ TFlowEntry :: go r
              end.
Definition trail (b : bool) : list token_type := if b then [TFlowEntry] else [].

Fixpoint tree_toks (t : tree) : list token_type :=
  match t with
  | TrScalar pr st v => props_toks pr ++ [TScalar st v]
  | TrAlias n => [TAlias n]
  | TrEmpty pr => props_toks pr
  | TrFlowSeq pr l b =>
      props_toks pr ++ TFlowSequenceStart :: commas (item_toks tree_toks) l ++ trail b ++ [TFlowSequenceEnd]
  | TrFlowMap pr l b =>
      props_toks pr ++ TFlowMappingStart :: commas (pair_toks tree_toks) l ++ trail b ++ [TFlowMappingEnd]
  | TrBlockSeq pr l =>
      props_toks pr ++ TBlockSequenceStart ::
        flat_map (fun o => TBlockEntry :: opt_list tree_toks o) l ++ [TBlockEnd]
  | TrBlockMap pr l =>
      props_toks pr ++ TBlockMappingStart :: flat_map (pair_toks tree_toks) l ++ [TBlockEnd]
  | TrIndentless pr l =>
      props_toks pr ++ flat_map (fun o => TBlockEntry :: opt_list tree_toks o) l
  end.

(** ** Names anchored inside a tree, in order *)
Fixpoint names_of (l : list token_type) : list text :=
  match l with [] => [] | TAnchor n :: r => n :: names_of r | _ :: r => names_of r end.

(** ** Events of a tree *)
(** [tags]: which tag a written tag stands for ([None]: not allowed). [before]: the names
    anchored before the node. The result is [None] if an alias or a tag has no meaning. *)
Definition obind {A B} (o : option A) (f : A -> option B) : option B :=
  match o with Some a => f a | None => None end.
Definition empty_event : event := EScalar (ScalarValue [] Plain 0 None).

(** The events of a list of parts; each part sees the names anchored before it. *)
Definition list_events {A} (f : list text -> A -> option (list event)) (toks : A -> list token_type)
  : list text -> list A -> option (list event) :=
  fix go before l :=
  match l with
  | [] => Some []
  | x :: r => obind (f before x) (fun e =>
              obind (go (before ++ names_of (toks x)) r) (fun e' => Some (e ++ e')))
  end.
Definition value_events {A} (f : list text -> A -> option (list event)) (before : list text)
  (v : value A) : option (list event) :=
  match v with VNode a => f before a | _ => Some [empty_event] end.
Definition key_events {A} (f : list text -> A -> option (list event)) (before : list text)
  (k : key A) : option (list event) :=
  match k with KNode a | KBare a => f before a | _ => Some [empty_event] end.
Definition pair_events {A} (f : list text -> A -> option (list event)) (toks : A -> list token_type)
  (before : list text) (x : key A * value A) : option (list event) :=
  let '(k, v) := x in
  obind (key_events f before k) (fun e =>
  obind (value_events f (before ++ names_of (key_toks toks k)) v) (fun e' => Some (e ++ e'))).
Definition item_events {A} (f : list text -> A -> option (list event)) (toks : A -> list token_type)
  (before : list text) (i : item A) : option (list event) :=
  match i with
  | INode a => f before a
  | IPair k v =>
      obind (f before k) (fun e =>
      obind (value_events f (before ++ names_of (toks k)) v) (fun e' =>
      Some (EMappingStart 0 None :: e ++ e' ++ [EMappingEnd])))
  end.
Definition opt_events {A} (f : list text -> A -> option (list event)) (before : list text)
  (o : option A) : option (list event) :=
  match o with Some a => f before a | None => Some [empty_event] end.

Definition props_id (before : list text) (pr : props) : nat :=
  match pr_anchor pr with Some _ => S (List.length before) | None => 0 end.
Definition props_tag (tags : text -> text -> option tag) (pr : props) : option (option tag) :=
  match pr_tag pr with
  | None => Some None
  | Some (h, s) => match tags h s with Some t => Some (Some t) | None => None end
  end.
Definition enclose (a b : event) (o : option (list event)) : option (list event) :=
  obind o (fun e => Some (a :: e ++ [b])).

Fixpoint tree_events (tags : text -> text -> option tag) (before : list text) (t : tree)
  : option (list event) :=
  let f := tree_events tags in
  let inner pr := before ++ names_of (props_toks pr) in
  let seq pr o := obind (props_tag tags pr) (fun tg =>
                  enclose (ESequenceStart (props_id before pr) tg) ESequenceEnd o) in
  let map_ pr o := obind (props_tag tags pr) (fun tg =>
                   enclose (EMappingStart (props_id before pr) tg) EMappingEnd o) in
  match t with
  | TrScalar pr st v => obind (props_tag tags pr) (fun tg =>
                        Some [EScalar (ScalarValue v st (props_id before pr) tg)])
  | TrAlias n => obind (last_index n before) (fun id => Some [EAlias id])
  | TrEmpty pr => obind (props_tag tags pr) (fun tg =>
                  Some [EScalar (ScalarValue [] Plain (props_id before pr) tg)])
  | TrFlowSeq pr l _ => seq pr (list_events (item_events f tree_toks) (item_toks tree_toks) (inner pr) l)
  | TrFlowMap pr l _ => map_ pr (list_events (pair_events f tree_toks) (pair_toks tree_toks) (inner pr) l)
  | TrBlockSeq pr l => seq pr (list_events (opt_events f) (opt_list tree_toks) (inner pr) l)
  | TrBlockMap pr l => map_ pr (list_events (pair_events f tree_toks) (pair_toks tree_toks) (inner pr) l)
  | TrIndentless pr l => seq pr (list_events (opt_events f) (opt_list tree_toks) (inner pr) l)
  end.

(** ** Which trees may be written where *)
Definition has_props (pr : props) : Prop := pr_anchor pr <> None \/ pr_tag pr <> None.
Definition all_of {A} (P : A -> Prop) : list A -> Prop :=
  fix go l := match l with [] => True | x :: r => P x /\ go r end.
Definition value_all {A} (P : A -> Prop) (v : value A) : Prop :=
  match v with VNode a => P a | _ => True end.
Definition key_all {A} (P : A -> Prop) (k : key A) : Prop :=
  match k with KNode a | KBare a => P a | _ => True end.
Definition item_all {A} (P : A -> Prop) (i : item A) : Prop :=
  match i with INode a => P a | IPair k v => P k /\ value_all P v end.
(** A pair of a flow mapping: something must be written; a bare node has no value part. *)
Definition flow_pair {A} (x : key A * value A) : Prop :=
  match x with (KNone, VAbsent) => False | (KBare _, VAbsent) => True | (KBare _, _) => False | _ => True end.
(** A pair of a block mapping: something must be written; no bare nodes. *)
Definition block_pair {A} (x : key A * value A) : Prop :=
  match x with (KNone, VAbsent) => False | (KBare _, _) => False | _ => True end.
(** A pair without key part cannot come right after a pair without value part: the two would read
    as one pair. *)
Definition no_gap {A} : list (key A * value A) -> Prop :=
  fix go l := match l with
              | x :: r => match x, r with (_, VAbsent), (KNone, _) :: _ => False | _, _ => True end /\ go r
              | [] => True
              end.

(** Only flow notation. *)
Fixpoint flow_tree (t : tree) : Prop :=
  match t with
  | TrScalar _ _ _ | TrAlias _ => True
  | TrEmpty pr => has_props pr
  | TrFlowSeq _ l b => all_of (item_all flow_tree) l /\ (l = [] -> b = false)
  | TrFlowMap _ l b =>
      all_of (fun x => flow_pair x /\ let '(k, v) := x in key_all flow_tree k /\ value_all flow_tree v) l /\
      (l = [] -> b = false)
  | _ => False
  end.
(** Block notation, with flow collections inside; [indentless]: whether dashes without extra
    indentation are allowed here (values and keys of block mappings). *)
Fixpoint block_tree (indentless : bool) (t : tree) : Prop :=
  match t with
  | TrBlockSeq _ l => all_of (fun o => match o with Some t => block_tree false t | None => True end) l
  | TrBlockMap _ l => all_of (fun x => block_pair x /\ let '(k, v) := x in
                            key_all (block_tree true) k /\ value_all (block_tree true) v) l /\ no_gap l
  | TrIndentless _ l => indentless = true /\ l <> [] /\
      all_of (fun o => match o with Some t => block_tree false t | None => True end) l
  | t => flow_tree t
  end.
