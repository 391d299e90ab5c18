(** Specification of event streams, independent of the parser: the YAML event grammar, and what
    the anchor and alias tokens of a token stream mean. *)
From Verif Require Import Base Tokens.

(** ** The grammar of event sequences *)
(** A node is one scalar, one alias, or a collection of nodes; a mapping holds pairs of nodes. *)
Inductive node_events : list event -> Prop :=
| NE_scalar v : node_events [EScalar v]
| NE_alias id : node_events [EAlias id]
| NE_seq a t l : nodes_events l -> node_events (ESequenceStart a t :: l ++ [ESequenceEnd])
| NE_map a t l : pairs_events l -> node_events (EMappingStart a t :: l ++ [EMappingEnd])
with nodes_events : list event -> Prop :=
| NS_nil : nodes_events []
| NS_cons n l : node_events n -> nodes_events l -> nodes_events (n ++ l)
with pairs_events : list event -> Prop :=
| PE_nil : pairs_events []
| PE_cons k v l : node_events k -> node_events v -> pairs_events l -> pairs_events (k ++ v ++ l).

Inductive docs_events : list event -> Prop :=
| DE_nil : docs_events []
| DE_cons b n l : node_events n -> docs_events l ->
    docs_events (EDocumentStart b :: n ++ EDocumentEnd :: l).

(** A complete stream. *)
Definition stream_events (l : list event) : Prop :=
  exists d, docs_events d /\ l = EStreamStart :: d ++ [EStreamEnd].

(** ** Anchors and aliases *)
(** The anchor id an event carries (0: none). *)
Definition event_anchor (e : event) : nat :=
  match e with
  | EScalar v => sv_anchor v
  | ESequenceStart a _ => a
  | EMappingStart a _ => a
  | _ => 0
  end.
(** The ids of the anchored nodes, in order. *)
Fixpoint anchored_ids (l : list event) : list nat :=
  match l with
  | [] => []
  | e :: r => if Nat.eqb (event_anchor e) 0 then anchored_ids r else event_anchor e :: anchored_ids r
  end.
(** The targets of the alias events, in order. *)
Fixpoint alias_ids (l : list event) : list nat :=
  match l with
  | [] => []
  | EAlias id :: r => id :: alias_ids r
  | _ :: r => alias_ids r
  end.

(** The names anchored by a token sequence, in order. *)
Fixpoint anchor_names (l : list token) : list text :=
  match l with
  | [] => []
  | t :: r => match k_type t with TAnchor n => n :: anchor_names r | _ => anchor_names r end
  end.
(** The position (from 1) of the last occurrence of a name in a list of names. *)
Fixpoint last_index_from (i : nat) (n : text) (l : list text) : option nat :=
  match l with
  | [] => None
  | m :: r => match last_index_from (S i) n r with
              | Some j => Some j
              | None => if text_eqb n m then Some i else None
              end
  end.
Definition last_index (n : text) (l : list text) : option nat := last_index_from 1 n l.

(** The meaning of each alias token, in order: the number of the latest anchor of that name
    among the anchors before it, if there is one. [before] lists the names anchored so far. *)
Fixpoint alias_targets (before : list text) (l : list token) : list (option nat) :=
  match l with
  | [] => []
  | t :: r =>
      match k_type t with
      | TAnchor n => alias_targets (before ++ [n]) r
      | TAlias n => last_index n before :: alias_targets before r
      | _ => alias_targets before r
      end
  end.
