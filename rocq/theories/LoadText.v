(** Loading a text: scanner, parser and loader together. *)
From Verif Require Import Base Tokens Cursor Scanner Pipeline Yaml Loader.

(** [prelude/loader.rs:236-241] [load_from] on a text: the scanner over the text feeds the parser,
    whose events feed the loader; a scan that does not end with a token stream or an error is
    passed on. *)
Definition load_text (fuel : nat) (input : text) : out (list yaml) :=
  match scan fuel input with
  | (toks, (z, Ok _)) => load_from fuel toks (scan_error z) (c_mark (z_cur z))
  | (toks, (z, Err _)) => load_from fuel toks (scan_error z) (c_mark (z_cur z))
  | (_, (_, Panic)) => Panic
  | (_, (_, Ub)) => Ub
  | (_, (_, Fuel)) => Fuel
  end.
