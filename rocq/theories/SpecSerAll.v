(** What becomes of a text escaped for single quotes, and which Rust values have a serialiser. *)
From Verif Require Import Base SerdeSer SerAll.
Local Open Scope N_scope.
Local Open Scope list_scope.

(** Carriage returns stand only in front of line feeds. *)
Definition returns_paired (t : text) : Prop := forall a b, t = a ++ 13 :: b -> exists c, b = 10 :: c.
(** The text with a backslash and a letter in place of every tab and every line break. *)
Inductive spelled_out : text -> text -> Prop :=
| so_nil : spelled_out [] []
| so_tab t u : spelled_out t u -> spelled_out (9 :: t) (92 :: 116 :: u)
| so_crlf t u : spelled_out t u -> spelled_out (13 :: 10 :: t) (92 :: 110 :: u)
| so_lf t u : spelled_out t u -> spelled_out (10 :: t) (92 :: 110 :: u)
| so_other c t u : c <> 9 -> c <> 10 -> c <> 13 -> spelled_out t u -> spelled_out (c :: t) (c :: u).

(** Truth values, numbers, characters, strings, the unit and options of these. *)
Inductive has_serialiser : rust_value -> Prop :=
| hs_base v : has_serialiser (RBase v)
| hs_some v : has_serialiser v -> has_serialiser (RSome v).
