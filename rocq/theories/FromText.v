(** Deserialising a text: scanner, parser, event iterator and deserialiser together. *)
From Verif Require Import Base Tokens Cursor Scanner Parser Pipeline ParserIter Serde.
Local Open Scope list_scope.

(** [parser_iter.rs:83-102] [next], called by de.rs:36-45 until it answers [None]: what the iterator
    delivers in at most [n] calls.  In the code the iterator is asked as the deserialiser goes; its
    answers do not depend on the deserialiser.  What the code would get by asking again after a
    [None] is left out. *)
Fixpoint delivered (fuel n : nat) (i : parser_iter) : out (list yam_event) :=
  match n with
  | O => Fuel
  | S n =>
      match iter_next fuel i with
      | (i', Ok (Some y)) =>
          match delivered fuel n i' with
          | Ok l => Ok (y :: l)
          | e => e
          end
      | (_, Ok None) => Ok []
      | (_, Err e) => Err e
      | (_, Panic) => Panic
      | (_, Ub) => Ub
      | (_, Fuel) => Fuel
      end
  end.
(** [yam-serde/src/lib.rs:64-72] [from_str] with [de.rs:22-30] [new]: the scanner over the text feeds the
    parser, the parser the iterator, the iterator the deserialiser; a scan that ends neither with a
    token stream nor with an error is passed on. *)
Definition from_text (fuel : nat) (t : target) (input : text) : out (dout value) :=
  let go (z : scanner) (toks : list token) : out (dout value) :=
    match delivered fuel fuel (new_iter (new_parser toks (scan_error z) (c_mark (z_cur z)) false)) with
    | Ok evs => Ok (from_events fuel t evs)
    | Err e => Err e
    | Panic => Panic
    | Ub => Ub
    | Fuel => Fuel
    end in
  match scan fuel input with
  | (toks, (z, Ok _)) => go z toks
  | (toks, (z, Err _)) => go z toks
  | (_, (_, Panic)) => Panic
  | (_, (_, Ub)) => Ub
  | (_, (_, Fuel)) => Fuel
  end.
