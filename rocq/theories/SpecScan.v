(** Specifications about scanning, in terms of the bytes of the text alone. *)
From Verif Require Import Base Tokens.

(** [m] is where a reader stands who has read [l]: its position is the number of bytes, its line
    is one more than the number of line feeds, its column one more than the number of bytes after
    the last line feed. *)
Definition reads_to (l : text) (m : marker) : Prop :=
  m_pos m = N.of_nat (List.length l) /\
  m_line m = N.of_nat (1 + count_occ N.eq_dec l 10%N) /\
  exists before line,
    l = before ++ line /\ ~ In 10%N line /\ (before = [] \/ exists b, before = b ++ [10%N]) /\
    m_col m = N.of_nat (1 + List.length line).
(** [m] is the place of the byte with index [n] in the text [i]. *)
Definition place (i : text) (n : nat) (m : marker) : Prop :=
  n <= List.length i /\ reads_to (firstn n i) m.

(** No carriage return stands alone. *)
Definition crlf_only (i : text) : Prop :=
  forall n, nth_error i n = Some 13%N -> nth_error i (S n) = Some 10%N.
(** No line begins with more than [k] spaces. *)
Definition indents_within (k : nat) (i : text) : Prop :=
  forall before n after, i = before ++ repeat 32%N n ++ after -> before = [] \/ (exists b, before = b ++ [10%N]) -> n <= k.
(** No header of a block scalar stands behind more than [k] bytes of its line.  A header is a bar or an angle bracket with
    nothing but signs, digits, spaces and tabs up to a comment, the end of the line or the end of the text. *)
Definition headers_within (k : nat) (i : text) : Prop :=
  forall before line sign marks after, i = before ++ line ++ sign :: marks ++ after -> ~ In 10%N line ->
    In sign [124; 62]%N -> Forall (fun b => In b [43; 45; 32; 9]%N \/ (48 <= b <= 57)%N) marks -> In (nth 0 after 10%N) [35; 10; 13]%N ->
    List.length line <= k.

(** Three decimal digits in a row. *)
Definition three_digits (i : text) : Prop :=
  exists before a b c after, i = before ++ a :: b :: c :: after /\
    Forall (fun d => (48 <= d <= 57)%N) [a; b; c].

(** Change of the number of open block collections made by a token. *)
Definition block_change (t : token) : Z :=
  match k_type t with
  | TBlockSequenceStart | TBlockMappingStart => 1
  | TBlockEnd => -1
  | _ => 0
  end%Z.
(** The number of block collections open after the tokens [l]. *)
Definition block_depth (l : list token) : Z := fold_right (fun t n => (block_change t + n)%Z) 0%Z l.
(** Strictly decreasing along the list. *)
Fixpoint decreasing (l : list N) : Prop :=
  match l with
  | a :: ((b :: _) as r) => (b < a)%N /\ decreasing r
  | _ => True
  end.

(** A percent sign, an at sign or a grave accent among the last three bytes. *)
Definition reserved_near_end (i : text) : Prop :=
  exists n b, nth_error i n = Some b /\ (b = 37 \/ b = 64 \/ b = 96)%N /\ List.length i < n + 4.

(** [m] is one line below the end of the text, in the first column. *)
Definition below_end (i : text) (m : marker) : Prop :=
  m_pos m = N.of_nat (List.length i) /\ m_col m = 1%N /\
  m_line m = N.of_nat (2 + count_occ N.eq_dec i 10%N).
(** The token lies between two places of the text, neither behind the byte with index [n]. *)
Definition spans (i : text) (n : nat) (t : token) : Prop :=
  exists a b, a <= b <= n /\ place i a (s_start (k_span t)) /\ place i b (s_end (k_span t)).
(** A token made at the end of the stream. *)
Definition closing_token (i : text) (t : token) : Prop :=
  (k_type t = TBlockEnd \/ k_type t = TStreamEnd) /\
  below_end i (s_start (k_span t)) /\ s_end (k_span t) = s_start (k_span t).
(** No token closes a block collection that is not open. *)
Definition never_negative (l : list token) : Prop :=
  forall before after, l = before ++ after -> (0 <= block_depth before)%Z.
