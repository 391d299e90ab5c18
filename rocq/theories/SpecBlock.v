(** Literal and folded block scalars (YAML 1.2.2, section 8.1), stated without the scanner. *)
From Verif Require Import Base.
From Coq Require Import String.
Local Open Scope list_scope.

(** ** The header *)
(** What becomes of the last line break and the blank lines after it. *)
Inductive ending := Stripped | Clipped | Kept.
Inductive chomp_sign : N -> ending -> Prop :=
| cs_minus : chomp_sign 45 Stripped
| cs_plus : chomp_sign 43 Kept.
(** The indicators after [|] or [>]: chomping, and the number of spaces the content is indented
    deeper than the surrounding node. *)
Inductive indicators : text -> ending -> option N -> Prop :=
| in_none : indicators [] Clipped None
| in_chomp c e : chomp_sign c e -> indicators [c] e None
| in_digit d : (1 <= d <= 9)%N -> indicators [48 + d]%N Clipped (Some d)
| in_chomp_digit c e d : chomp_sign c e -> (1 <= d <= 9)%N -> indicators [c; 48 + d]%N e (Some d)
| in_digit_chomp c e d : chomp_sign c e -> (1 <= d <= 9)%N -> indicators [48 + d; c]%N e (Some d).
(** The rest of the first line: white space, then perhaps a comment. *)
Definition white_byte (b : N) : Prop := b = 32%N \/ b = 9%N.
Inductive header_rest : text -> Prop :=
| hr_blanks g : Forall white_byte g -> header_rest g
| hr_comment g c : g <> [] -> Forall white_byte g -> Forall (fun b => ~ In b [0; 10; 13]%N) c -> header_rest (g ++ 35%N :: c).

(** ** The lines *)
(** Line feed, or carriage return and line feed. *)
Definition eol (crlf : bool) : text := if crlf then [13; 10]%N else [10%N].
(** A line of content with the blank lines before it; of a blank line only its spaces count. *)
Record line := Line { before : list (nat * bool); words : text; crlf : bool }.
Definition blank_lines (l : list (nat * bool)) : text := flat_map (fun x => repeat 32%N (fst x) ++ eol (snd x)) l.
(** The lines, indented by [n] spaces. *)
Definition line_text (n : nat) (x : line) : text := blank_lines (before x) ++ repeat 32%N n ++ words x ++ eol (crlf x).
(** [---] or [...] at the start of a line, alone or before white space or NUL. *)
Definition marker_first (t : text) : Prop :=
  exists c r, (c = 45 \/ c = 46)%N /\ t = c :: c :: c :: r /\ In (nth 0 r 32%N) [32; 9; 0]%N.
Definition good_line (n : nat) (x : line) : Prop :=
  Forall (fun b => fst b <= n) (before x) /\ words x <> [] /\ ~ In 10%N (words x) /\ ~ In 13%N (words x) /\
  (n = 0 -> ~ marker_first (words x)).
(** [col]: the column, counted from one, of the surrounding block collection, zero if there is none.
    Without indentation indicator the first line of content decides. *)
Definition indentation (col : N) (digit : option N) (n : nat) (first : line) : Prop :=
  match digit with
  | Some d => N.of_nat n + 1 = col + d
  | None => col <= N.of_nat n /\ nth 0 (words first) 0 <> 32
  end%N.
(** What follows: the end of the text, or a line that is indented less, or the end of the document. *)
Definition block_ends (n s : nat) (after : text) : Prop :=
  (s <= n /\ after = []) \/
  (s < n /\ after <> [] /\ ~ In (nth 0 after 0%N) [32; 10; 13]%N) \/
  (n = 0 /\ s = 0 /\ exists r, after = (46 :: 46 :: 46 :: r)%N /\ In (nth 0 r 32%N) [32; 9; 10; 13]%N).

(** ** The value *)
(** What stands between two lines of content with [k] blank lines between them. *)
Definition blank_first (t : text) : bool := match t with b :: _ => (b =? 32)%N || (b =? 9)%N | [] => false end.
Definition joint (literal : bool) (a : text) (k : nat) (b : text) : text :=
  if literal || blank_first a || blank_first b then repeat 10%N (S k)
  else match k with O => [32%N] | _ => repeat 10%N k end.
Fixpoint joined (literal : bool) (a : text) (l : list line) : text :=
  match l with
  | [] => []
  | x :: r => joint literal a (List.length (before x)) (words x) ++ words x ++ joined literal (words x) r
  end.
Definition block_value (literal : bool) (e : ending) (first : line) (more : list line) (tail : list (nat * bool)) : text :=
  repeat 10%N (List.length (before first)) ++ words first ++ joined literal (words first) more ++
  match e with Stripped => [] | Clipped => [10%N] | Kept => repeat 10%N (S (List.length tail)) end.

(** ** Documents *)
Definition block_sign (literal : bool) : N := if literal then 124%N else 62%N.
(** A document that is one block scalar, and its value.  Without content only the kept line breaks
    are left. *)
Inductive block_document (literal : bool) : text -> text -> Prop :=
| bd_lines h e digit ht b first more tail n s :
    indicators h e digit -> header_rest ht -> indentation 0 digit n first -> Forall (good_line n) (first :: more) ->
    Forall (fun x => fst x <= n) tail -> s <= n ->
    block_document literal (block_sign literal :: h ++ ht ++ eol b ++ flat_map (line_text n) (first :: more) ++ blank_lines tail ++ repeat 32%N s)
      (block_value literal e first more tail)
| bd_empty h e digit ht b tail :
    indicators h e digit -> header_rest ht -> Forall (fun x => fst x = 0) tail ->
    block_document literal (block_sign literal :: h ++ ht ++ eol b ++ blank_lines tail)
      (match e with Kept => repeat 10%N (List.length tail) | _ => [] end).
(** The last line of content cut off by the end of the text: without a line break there is none to
    keep (rule [b-chomped-last]). *)
Definition cut_lines (n : nat) (l : list line) (last : line) : text :=
  flat_map (line_text n) l ++ blank_lines (before last) ++ repeat 32%N n ++ words last.
Definition block_text (literal : bool) (l : list line) : text :=
  match l with
  | [] => []
  | first :: more => repeat 10%N (List.length (before first)) ++ words first ++ joined literal (words first) more
  end.
Inductive cut_document (literal : bool) : text -> text -> Prop :=
| cd_lines h e digit ht b l last n :
    indicators h e digit -> header_rest ht -> indentation 0 digit n (hd last l) -> Forall (good_line n) l -> good_line n last ->
    cut_document literal (block_sign literal :: h ++ ht ++ eol b ++ cut_lines n l last) (block_text literal (l ++ [last])).

(** ** Strings as literal scalars *)
(** Strings that can be written as literal scalars without an indentation indicator: the first line
    that is not empty does not start with a space, the last line is not empty, no carriage returns. *)
Definition first_words (ls : list text) : text := hd [] (filter (fun x => match x with [] => false | _ => true end) ls).
Definition literal_lines (ls : list text) (last : text) : Prop :=
  Forall (fun x => ~ In 10%N x /\ ~ In 13%N x) (ls ++ [last]) /\ last <> [] /\ nth 0 (first_words (ls ++ [last])) 0%N <> 32%N.
Definition lines_text (ls : list text) (last : text) (ended : bool) : text :=
  flat_map (fun x => x ++ [10%N]) ls ++ last ++ (if ended then [10%N] else []).
Definition literal_string (t : text) : Prop := exists ls last ended, t = lines_text ls last ended /\ literal_lines ls last.
(** Without indentation the lines must not look like markers, and a tab cannot come first. *)
Definition literal_document (t : text) : Prop := exists ls last ended, t = lines_text ls last ended /\ literal_lines ls last /\
  Forall (fun x => ~ marker_first x) (ls ++ [last]) /\ nth 0 (hd last ls) 0%N <> 9%N.
(** Comments. *)
Definition comment_byte (b : N) : Prop := ~ In b [10; 13; 0]%N.
