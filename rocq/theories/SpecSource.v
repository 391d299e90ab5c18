(** Specifications about sources, in terms of the bytes of the text alone. *)
From Verif Require Import Base Source Buffered.

(** A byte skipped as white space: a space, or a tab where tabs are allowed. *)
Definition blank_for (tabs : bool) (c : N) : Prop := c = 32%N \/ (tabs = true /\ c = 9%N).
(** A text whose first byte exists and satisfies [P]. *)
Definition starts (P : N -> Prop) (t : text) : Prop := match t with [] => False | c :: _ => P c end.
(** A line ends here: at a line break, at a NUL, or at the end of the text. *)
Definition line_end (t : text) : Prop :=
  t = [] \/ starts (fun c => c = 10%N \/ c = 13%N \/ c = 0%N) t.
(** Not a byte that ends a line. *)
Definition in_line (c : N) : Prop := c <> 10%N /\ c <> 13%N /\ c <> 0%N.
(** A line break byte. *)
Definition break_byte (c : N) : Prop := c = 10%N \/ c = 13%N.
(** A token is separated here: end of text, NUL, blank or line break. *)
Definition separated (t : text) : Prop :=
  t = [] \/ starts (fun c => c = 0 \/ c = 32 \/ c = 9 \/ c = 10 \/ c = 13)%N t.
(** A byte that has a meaning of its own inside flow collections. *)
Definition flow_byte (c : N) : Prop := (c = 44 \/ c = 91 \/ c = 93 \/ c = 123 \/ c = 125)%N.

(** The string source still delivers exactly the text [t]. *)
Definition str_view (s : strsrc) (t : text) : Prop := skipn (ss_pos s) (ss_input s) = t.
(** The buffered source still delivers exactly the text [t], and its buffer is full unless the text
    is shorter than the buffer. *)
Definition buf_view (s : bufsrc) (t : text) : Prop :=
  b_buf s ++ b_input s = t /\ List.length (b_buf s) <= 32 /\ (List.length (b_buf s) = 32 \/ b_input s = []).
