(** Base definitions shared by every model file: bytes, texts, outcomes, association maps. *)
From Coq Require Export List NArith ZArith Bool Arith.
From Coq Require Import Ascii String.
Export ListNotations.

(** A byte ([u8]); bytes of real inputs are below 256 (see [is_byte]). *)
Definition byte := N.
(** A text: the bytes of a Rust [str]/[String]/[Vec<u8>]. *)
Definition text := list N.

(** The values a Rust [u8] can take. *)
Definition is_byte (c : N) : Prop := (c < 256)%N.

(** Byte-string literal: models Rust literals such as ["null"] or [b"..."] (ASCII only). *)
Definition str (s : string) : text := map N_of_ascii (list_ascii_of_string s).
(** Byte literal: models Rust literals such as [b'-']. *)
Definition chr (c : ascii) : N := N_of_ascii c.

(** Equality of texts: models [==] on Rust [str]/[String]/[Cow<str>]. *)
Fixpoint text_eqb (a b : text) : bool :=
  match a, b with
  | [], [] => true
  | x :: a', y :: b' => N.eqb x y && text_eqb a' b'
  | _, _ => false
  end.

(** [yam-core/src/prelude/mod.rs:31-40] [Marker]; [u32]/[usize] counters are unbounded. *)
Record marker := Marker { m_pos : N; m_col : N; m_line : N }.
(** [yam-core/src/prelude/mod.rs:44-49] [Span]. *)
Record span := Span { s_start : marker; s_end : marker }.
(** [prelude/mod.rs] [Span::empty]: both ends at the same marker. *)
Definition span_empty (m : marker) : span := Span m m.

(** [yam-core/src/prelude/mod.rs:93-] [YamlError]. Only the variants the modelled code builds;
    the message strings are kept verbatim. *)
Inductive yerr : Type :=
| ScannerErr (mark : marker) (info : string)
| UnexpectedEventErr (expected found : string)
| UnexpectedEof
| NoDocument.

(** Outcome of a Rust computation. [Ok]/[Err] are the two [Result] constructors; [Panic] is an
    [unwrap]/[expect]/[unreachable!]/slice panic; [Ub] is an unchecked out-of-bounds access;
    [Fuel] says the model's recursion bound was exhausted (never a normal value). *)
Inductive out (A : Type) : Type :=
| Ok (a : A)
| Err (e : yerr)
| Panic
| Ub
| Fuel.
Arguments Ok {A} a.
Arguments Err {A} e.
Arguments Panic {A}.
Arguments Ub {A}.
Arguments Fuel {A}.

(** A method with [&mut self]: it returns the new state together with its outcome; the state
    changes made before an error persist, as in Rust. *)
Definition M (S A : Type) : Type := S -> S * out A.
Definition ret {S A} (a : A) : M S A := fun s => (s, Ok a).
Definition fail {S A} (e : yerr) : M S A := fun s => (s, Err e).
Definition panic {S A} : M S A := fun s => (s, Panic).
Definition bind {S A B} (m : M S A) (k : A -> M S B) : M S B :=
  fun s => match m s with
           | (s', Ok a) => k a s'
           | (s', Err e) => (s', Err e)
           | (s', Panic) => (s', Panic)
           | (s', Ub) => (s', Ub)
           | (s', Fuel) => (s', Fuel)
           end.
Definition gets {S A} (f : S -> A) : M S A := fun s => (s, Ok (f s)).
Definition modify {S} (f : S -> S) : M S unit := fun s => (f s, Ok tt).

Declare Scope m_scope.
Delimit Scope m_scope with m.
Notation "'let*' x ':=' m 'in' k" := (bind m (fun x => k))
  (at level 61, x pattern, m at next level, right associativity) : m_scope.
Notation "m ';;;' k" := (bind m (fun _ => k)) (at level 61, right associativity) : m_scope.

(** Maps with text keys: models Rust [BTreeMap<String, _>] as used here (point lookups,
    insertion that replaces, [clear]); the most recent insertion comes first. *)
Fixpoint map_get {V} (k : text) (m : list (text * V)) : option V :=
  match m with
  | [] => None
  | (k', v) :: r => if text_eqb k k' then Some v else map_get k r
  end.
Fixpoint map_remove {V} (k : text) (m : list (text * V)) : list (text * V) :=
  match m with
  | [] => []
  | (k', v) :: r => if text_eqb k k' then map_remove k r else (k', v) :: map_remove k r
  end.
Definition map_insert {V} (k : text) (v : V) (m : list (text * V)) : list (text * V) :=
  (k, v) :: map_remove k m.
