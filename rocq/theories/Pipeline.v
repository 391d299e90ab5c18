(** The scanner feeding the parser: [Parser::new_from_str] (parser.rs:427-440) over [StrSource]. *)
From Verif Require Import Base Tokens Source Cursor Scanner Parser.
From Coq Require Import String.

(** [parser.rs:569-578] [scan_next_token]: the error once the scanner delivers nothing more. *)
Definition scan_error (z : scanner) : yerr :=
  match z_error z with
  | Some e => e
  | None => ScannerErr (c_mark (z_cur z)) "unexpected eof"
  end.
(** A parser over a text (parser.rs:410-440): all tokens of the text are scanned beforehand, so this
    stands for the code when the scan ends without panic, undefined access or endless loop (in the
    code the scanner runs only as far as the parser asks). *)
Definition parser_of_text (fuel : nat) (input : text) (keep : bool) : parser :=
  let '(toks, (z, _)) := scan fuel input in
  new_parser toks (scan_error z) (c_mark (z_cur z)) keep.
