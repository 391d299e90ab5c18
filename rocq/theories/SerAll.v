(** Model of the rest of [yam-serde/src/ser.rs]: escaping for single quotes, and the serialisers of all
    kinds of Rust values. *)
From Verif Require Import Base Chars Scalar Yaml Emitter SerdeSer.
From Coq Require Import String.
Local Open Scope N_scope.
Local Open Scope list_scope.

(** [ser.rs:163-208] the loop of [escape_single_quotes] on the bytes from [pos] on: what is written for
    them.  The pieces [old_pos..pos] that are copied are appended byte by byte. *)
Fixpoint escape_sq_loop (fuel : nat) (t : text) : out text :=
  match fuel with
  | O => Fuel
  | S fuel =>
      let next (written rest : text) : out text :=
        match escape_sq_loop fuel rest with Ok o => Ok (written ++ o) | e => e end in
      match t with
      | [] => Ok []
      | b :: r =>
          let peek := peekz_byte t 1 in
          if b =? 39 then next (str "''") r
          else if b =? 9 then next (str "\t") r
          else if (b =? 13) && (peek =? 10) then next (str "\n") (skipn 1 r)
          else if b =? 10 then next (str "\n") r
          else next [b] r
      end
  end.
(** [ser.rs:163-208] [escape_single_quotes]. *)
Definition ser_escape_single_quotes (t : text) : out text := escape_sq_loop (S (List.length t)) t.

(** The values of serde's data model (serde 1.0), as the methods of [Serializer] a [Serialize]
    implementation calls for them (ser.rs:317-511); names and lengths are left out, and 128-bit integers, which the
    default methods of serde refuse. *)
Inductive rust_value :=
| RBase (v : ser_value)
| RBytes (b : text)
| RSome (v : rust_value)
| RUnitStruct
| RUnitVariant (name : text)
| RNewtypeStruct (v : rust_value)
| RNewtypeVariant (name : text) (v : rust_value)
| RSeq (l : list rust_value)
| RTuple (l : list rust_value)
| RTupleStruct (l : list rust_value)
| RTupleVariant (name : text) (l : list rust_value)
| RMap (l : list (rust_value * rust_value))
| RStruct (l : list (text * rust_value))
| RStructVariant (name : text) (l : list (text * rust_value)).
(** [ser.rs:330-511] the methods of [Serializer]: [todo!()] panics before an element is looked at. *)
Fixpoint serialize_value (f : formatter) (v : rust_value) : out text :=
  match v with
  | RBase v => serialize f v
  | RBytes _ => Panic
  | RSome v => serialize_value f v
  | RUnitStruct => Panic
  | RUnitVariant _ => Panic
  | RNewtypeStruct _ => Panic
  | RNewtypeVariant _ _ => Panic
  | RSeq _ => Panic
  | RTuple _ => Panic
  | RTupleStruct _ => Panic
  | RTupleVariant _ _ => Panic
  | RMap _ => Panic
  | RStruct _ => Panic
  | RStructVariant _ _ => Panic
  end.
