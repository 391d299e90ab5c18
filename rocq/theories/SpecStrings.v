(** Quoted scalars in full (YAML 1.2.2, sections 5.7, 7.3.1 and 7.3.2), stated without the scanner. *)
From Verif Require Import Base SpecScalar SpecJson SpecBlock SpecQuoted SpecPlain.
From Coq Require Import String.
Local Open Scope list_scope.

(** ** Characters *)
Definition quote_byte (single : bool) : N := if single then 39%N else 34%N.
(** The letter behind the backslash and the code point that is meant. *)
Definition escapes : list (N * N) :=
  [(48, 0); (97, 7); (98, 8); (116, 9); (9, 9); (110, 10); (118, 11); (102, 12); (114, 13); (101, 27);
   (32, 32); (34, 34); (47, 47); (92, 92); (78, 133); (95, 160); (76, 8232); (80, 8233)]%N.
(** The letter behind the backslash and the number of hexadecimal digits that follow. *)
Definition code_escapes : list (N * nat) := [(120%N, 2); (117%N, 4); (85%N, 8)].
(** One character, as it is written and as it is meant: a byte that stands for itself, a doubled
    single quote, an escaped character, or a character given by its code. *)
Inductive piece (single : bool) : text -> text -> Prop :=
| pc_byte b : ~ In b [32; 9; 10; 13; 0]%N -> b <> quote_byte single -> (single = false -> b <> 92%N) ->
    piece single [b] [b]
| pc_doubled : single = true -> piece single [39; 39]%N [39]%N
| pc_escape c v u : single = false -> In (c, v) escapes -> utf8_of v u -> piece single [92%N; c] u
| pc_code c n h v u : single = false -> In (c, n) code_escapes -> List.length h = n -> Forall hex_digit h ->
    number 16 h = Z.of_N v -> (v <= 1114111)%N -> ~ surrogate v -> utf8_of v u ->
    piece single (92%N :: c :: h) u.
(** Characters one after the other. *)
Inductive chars (single : bool) : text -> text -> Prop :=
| ch_none : chars single [] []
| ch_more p v t u : piece single p v -> chars single t u -> chars single (p ++ t) (v ++ u).

(** ** White space *)
(** What stands between two words: white space in the line; a line break, with white space in front
    of it, empty lines behind it and the indentation of the next line; the same with a backslash in
    front of the line break. *)
Inductive quote_gap :=
| QBlanks (bs : text)
| QBreak (trailing : text) (crlf : bool) (empty : list (text * bool)) (spaces : nat) (more : text)
| QJoin (trailing : text) (crlf : bool) (empty : list (text * bool)) (spaces : nat) (more : text).
Definition lines_text (crlf : bool) (e : list (text * bool)) (i : nat) (more : text) : text :=
  eol crlf ++ empty_text e ++ repeat 32%N i ++ more.
Definition quote_gap_text (g : quote_gap) : text :=
  match g with
  | QBlanks bs => bs
  | QBreak tr b e i more => tr ++ lines_text b e i more
  | QJoin tr b e i more => tr ++ [92%N] ++ lines_text b e i more
  end.
(** White space in a line stays; a line break is a space; with [n] empty lines it is [n] line feeds.
    An escaped line break is nothing and keeps the white space in front of it. *)
Definition quote_gap_value (g : quote_gap) : text :=
  match g with
  | QBlanks bs => bs
  | QBreak _ _ [] _ _ => [32%N]
  | QBreak _ _ e _ _ => repeat 10%N (List.length e)
  | QJoin tr _ e _ _ => tr ++ repeat 10%N (List.length e)
  end.
(** White space at the start of a line: tabs stand only behind [n] spaces. *)
Definition line_start (n : nat) (x : text) : Prop :=
  exists k more, x = repeat 32%N k ++ more /\ Forall white_byte more /\ (more <> [] -> n <= k).
Definition lines_ok (n : nat) (tr : text) (e : list (text * bool)) (i : nat) (more : text) : Prop :=
  Forall white_byte tr /\ Forall (fun x => line_start n (fst x)) e /\ n <= i /\ Forall white_byte more.
Definition quote_gap_ok (single : bool) (n : nat) (g : quote_gap) : Prop :=
  match g with
  | QBlanks bs => bs <> [] /\ Forall white_byte bs
  | QBreak tr _ e i more => lines_ok n tr e i more
  | QJoin tr _ e i more => single = false /\ lines_ok n tr e i more
  end.
(** The next line starts at the margin. *)
Definition at_margin (g : quote_gap) : Prop :=
  match g with QBlanks _ => False | QBreak _ _ _ i more | QJoin _ _ _ i more => i = 0 /\ more = [] end.

(** ** Scalars *)
(** The words behind the first one: only the last may be empty, and none starts a line with a document
    marker. *)
Inductive quoted_words (single : bool) (n : nat) : text -> text -> Prop :=
| mw_none : quoted_words single n [] []
| mw_more g t u r v : quote_gap_ok single n g -> chars single t u -> (r <> [] -> t <> []) ->
    (at_margin g -> ~ doc_mark (t ++ r ++ [quote_byte single])) -> quoted_words single n r v ->
    quoted_words single n (quote_gap_text g ++ t ++ r) (quote_gap_value g ++ u ++ v).
(** A scalar between quotes whose further lines are indented by [n] spaces or more. *)
Inductive quoted_scalar (single : bool) (n : nat) : text -> text -> Prop :=
| qt_words t u r v : chars single t u -> quoted_words single n r v ->
    quoted_scalar single n (quote_byte single :: t ++ r ++ [quote_byte single]) (u ++ v).
(** What stands behind the scalar and the spaces and the comment that follow it: nothing, the end of
    the line, inside a flow collection one of its signs, otherwise the colon behind a key of one line. *)
Definition may_follow (in_flow : bool) (q : text) (after : text) : Prop :=
  match after with
  | [] => True
  | c :: _ => In c [10; 13; 0]%N \/ (in_flow = true /\ In c (str ",}]:")) \/ (in_flow = false /\ c = 58%N /\ ~ In 10%N q)
  end.
