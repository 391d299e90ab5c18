(** The value a document denotes, stated over document trees and without the loader's stacks:
    nodes are evaluated in document order; an anchored node is remembered when it is complete, and
    an alias stands for a copy of what is remembered. *)
From Verif Require Import Base Tokens SpecEvents Scalar Yaml.
From Coq Require Import String.

(** A document node; [a] is the anchor number (0: none). *)
Inductive node :=
| NdScalar (v : scalar_value)
| NdAlias (id : nat)
| NdSeq (a : nat) (t : option tag) (l : list node)
| NdMap (a : nat) (t : option tag) (l : list (node * node)).

(** The events of a node, of documents and of a stream. *)
Fixpoint node_evs (n : node) : list event :=
  match n with
  | NdScalar v => [EScalar v]
  | NdAlias id => [EAlias id]
  | NdSeq a t l => ESequenceStart a t :: flat_map node_evs l ++ [ESequenceEnd]
  | NdMap a t l =>
      EMappingStart a t :: flat_map (fun x => let '(k, v) := x in node_evs k ++ node_evs v) l
        ++ [EMappingEnd]
  end.
Definition doc_evs (d : bool * node) : list event :=
  EDocumentStart (fst d) :: node_evs (snd d) ++ [EDocumentEnd].
Definition docs_evs (ds : list (bool * node)) : list event :=
  EStreamStart :: flat_map doc_evs ds ++ [EStreamEnd].

(** What is known about anchors: the latest binding of a number counts. *)
Definition env := list (nat * yaml).
Fixpoint lookup (e : env) (id : nat) : option yaml :=
  match e with
  | [] => None
  | (i, y) :: r => if Nat.eqb id i then Some y else lookup r id
  end.
Definition remember (a : nat) (y : yaml) (e : env) : env :=
  match a with O => e | _ => (a, y) :: e end.

(** A tag outside the core schema stays around the value. *)
Definition with_tag (t : option tag) (y : yaml) : yaml :=
  match t with
  | Some g => if text_eqb (t_handle g) (str "tag:yaml.org,2002:") then y else YTagged g y
  | None => y
  end.

(** Threading the environment through a list. *)
Definition thread {A B} (f : env -> A -> B * env) : env -> list A -> list B * env :=
  fix go e l := match l with
                | [] => ([], e)
                | x :: r => let '(y, e1) := f e x in let '(ys, e2) := go e1 r in (y :: ys, e2)
                end.

(** [value_of pf e n]: the value of [n] and the environment after it. [pf] says which pairs of a
    mapping are kept; the denoted value keeps all ([pf] is the identity). *)
Fixpoint value_of (pf : list (yaml * yaml) -> list (yaml * yaml)) (e : env) (n : node) : yaml * env :=
  match n with
  | NdScalar v =>
      let y := value_from_cow_and_metadata (sv_value v) (sv_type v) (sv_tag v) in
      (y, remember (sv_anchor v) y e)
  | NdAlias id => (match lookup e id with Some y => y | None => YBad end, e)
  | NdSeq a t l =>
      let '(ys, e') := thread (value_of pf) e l in
      let y := with_tag t (YSeq ys) in (y, remember a y e')
  | NdMap a t l =>
      let '(ys, e') :=
        thread (fun e x => let '(k, v) := x in
                           let '(yk, e1) := value_of pf e k in
                           let '(yv, e2) := value_of pf e1 v in ((yk, yv), e2)) e l in
      let y := with_tag t (YMap (pf ys)) in (y, remember a y e')
  end.
Definition all_pairs (l : list (yaml * yaml)) : list (yaml * yaml) := l.
Definition denotes (e : env) (n : node) : yaml * env := value_of all_pairs e n.
(** The values of the documents of a stream, in order. *)
Definition docs_values (pf : list (yaml * yaml) -> list (yaml * yaml)) (e : env)
  (ds : list (bool * node)) : list yaml * env :=
  thread (fun e d => value_of pf e (snd d)) e ds.

(** Keys the loader can tell from a missing key: neither bad nor tagged. *)
Definition good_key (y : yaml) : Prop :=
  match y with YBad | YTagged _ _ => False | _ => True end.
(** All keys written in a node are good. *)
Definition each {A B} (P : env -> A -> Prop) (f : env -> A -> B * env) : env -> list A -> Prop :=
  fix go e l := match l with
                | [] => True
                | x :: r => P e x /\ go (snd (f e x)) r
                end.
Fixpoint good_keys (e : env) (n : node) : Prop :=
  match n with
  | NdScalar _ | NdAlias _ => True
  | NdSeq _ _ l => each good_keys denotes e l
  | NdMap _ _ l =>
      each (fun e x => let '(k, v) := x in
                       good_keys e k /\ good_key (fst (denotes e k)) /\
                       good_keys (snd (denotes e k)) v)
           (fun e x => let '(k, v) := x in denotes (snd (denotes e k)) v) e l
  end.
Definition docs_good_keys (e : env) (ds : list (bool * node)) : Prop :=
  each (fun e d => good_keys e (snd d)) (fun e d => denotes e (snd d)) e ds.

(** What the loader does with the nodes of a mapping when keys are bad or tagged: such a key is
    forgotten when the next node arrives, which becomes the key; a last key without value is
    dropped. *)
Fixpoint pair_up (key : yaml) (l : list yaml) : list (yaml * yaml) :=
  match l with
  | [] => []
  | y :: r => match key with
              | YBad | YTagged _ _ => pair_up y r
              | _ => (key, y) :: pair_up YBad r
              end
  end.
Definition kept_pairs (l : list (yaml * yaml)) : list (yaml * yaml) :=
  pair_up YBad (flat_map (fun x => [fst x; snd x]) l).

(** ** Positions in documents and values *)
(** One step down: to an element of a sequence, to a key or a value of a mapping. *)
Inductive step := Elem (i : nat) | Key (i : nat) | Val (i : nat).
(** Document order of the children of a node. *)
Definition rank (s : step) : nat := match s with Elem i => i | Key i => 2 * i | Val i => 2 * i + 1 end.

Definition node_child (n : node) (s : step) : option node :=
  match n, s with
  | NdSeq _ _ l, Elem i => nth_error l i
  | NdMap _ _ l, Key i => option_map fst (nth_error l i)
  | NdMap _ _ l, Val i => option_map snd (nth_error l i)
  | _, _ => None
  end.
Fixpoint node_at (n : node) (p : list step) : option node :=
  match p with
  | [] => Some n
  | s :: p' => match node_child n s with Some c => node_at c p' | None => None end
  end.
(** The same step in a value; a tag around a collection is looked through. *)
Definition untag (y : yaml) : yaml := match y with YTagged _ z => z | _ => y end.
Definition value_child (y : yaml) (s : step) : option yaml :=
  match untag y, s with
  | YSeq l, Elem i => nth_error l i
  | YMap l, Key i => option_map fst (nth_error l i)
  | YMap l, Val i => option_map snd (nth_error l i)
  | _, _ => None
  end.
Fixpoint value_at (y : yaml) (p : list step) : option yaml :=
  match p with
  | [] => Some y
  | s :: p' => match value_child y s with Some c => value_at c p' | None => None end
  end.
(** The node at [p] is complete before the node at [q] begins. *)
Definition complete_before (p q : list step) : Prop :=
  exists c s1 p' s2 q', p = c ++ s1 :: p' /\ q = c ++ s2 :: q' /\ rank s1 < rank s2.

Definition anchor_of (n : node) : nat :=
  match n with NdScalar v => sv_anchor v | NdAlias _ => 0 | NdSeq a _ _ => a | NdMap a _ _ => a end.

(** The value computed for the node at a position, whether or not its pair is kept: the children
    before it have been evaluated. *)
Definition flat {A} (l : list (A * A)) : list A := flat_map (fun x => [fst x; snd x]) l.
Definition children (n : node) : list node :=
  match n with
  | NdSeq _ _ l => l
  | NdMap _ _ l => flat l
  | _ => []
  end.
Definition env_at (pf : list (yaml * yaml) -> list (yaml * yaml)) (e : env) (n : node) (s : step) : env :=
  snd (thread (value_of pf) e (firstn (rank s) (children n))).
Fixpoint eval_at (pf : list (yaml * yaml) -> list (yaml * yaml)) (e : env) (n : node) (p : list step)
  : option yaml :=
  match p with
  | [] => Some (fst (value_of pf e n))
  | s :: p' => match node_child n s with
               | Some c => eval_at pf (env_at pf e n s) c p'
               | None => None
               end
  end.
