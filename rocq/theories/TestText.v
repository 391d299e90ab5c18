(** Model of [unescape_text] in [yam-test-bench/src/lib.rs], which reads the notation the test cases
    are written in. *)
From Verif Require Import Base.
Local Open Scope N_scope.

(** [yam-test-bench/src/lib.rs:157-161] [EscapeState]. *)
Inductive escape_state := EscDefault | EscSlash.
(** [yam-test-bench/src/lib.rs:168-204] [unescape_text]: the loop over the bytes.  [String::from_utf8]
    succeeds for an input in UTF-8, since only ASCII bytes are dropped or exchanged. *)
Fixpoint unescape_loop (state : escape_state) (t : text) : text :=
  match t with
  | [] => []
  | c :: r =>
      match state with
      | EscDefault =>
          if c =? 92 then unescape_loop EscSlash r else c :: unescape_loop EscDefault r
      | EscSlash =>
          if c =? 110 then 10 :: unescape_loop EscDefault r
          else if c =? 114 then 13 :: unescape_loop EscDefault r
          else if c =? 116 then 9 :: unescape_loop EscDefault r
          else if c =? 98 then 8 :: unescape_loop EscDefault r
          else if c =? 92 then 92 :: unescape_loop EscDefault r
          else c :: unescape_loop EscSlash r
      end
  end.
(** [yam-test-bench/src/lib.rs:168-204] [unescape_text]. *)
Definition unescape_text (t : text) : text := unescape_loop EscDefault t.
