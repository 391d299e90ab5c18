(** Plain scalars over several lines (YAML 1.2.2, sections 7.3.3 and 6.5), stated without the scanner. *)
From Verif Require Import Base SpecBlock SpecQuoted.
From Coq Require Import String.
Local Open Scope list_scope.

(** ** Words and what stands between them *)
(** What stands between two words: white space, or white space at the end of a line, its line break,
    empty lines of white space, and then spaces and perhaps further white space at the start of the
    next line.  Line breaks are [\n] or [\r\n]. *)
Inductive fold_gap :=
| Inline (bs : text)
| NewLines (trailing : text) (crlf : bool) (empty : list (text * bool)) (spaces : nat) (more : text).
Definition empty_text (e : list (text * bool)) : text := flat_map (fun x => fst x ++ eol (snd x)) e.
Definition fold_text (g : fold_gap) : text :=
  match g with
  | Inline bs => bs
  | NewLines tr b e i more => tr ++ eol b ++ empty_text e ++ repeat 32%N i ++ more
  end.
(** White space in a line stays; a line break is a space; with [n] empty lines it is [n] line feeds. *)
Definition fold_value (g : fold_gap) : text :=
  match g with
  | Inline bs => bs
  | NewLines _ _ [] _ _ => [32%N]
  | NewLines _ _ e _ _ => repeat 10%N (List.length e)
  end.
Definition breaks (g : fold_gap) : bool := match g with Inline _ => false | NewLines _ _ _ _ _ => true end.
(** White space only. *)
Definition white_gap (g : fold_gap) : Prop :=
  match g with
  | Inline bs => Forall white_byte bs
  | NewLines tr _ e _ more => Forall white_byte tr /\ Forall (fun x => Forall white_byte (fst x)) e /\ Forall white_byte more
  end.
(** Tabs stand only behind an indentation of [n] spaces or in empty lines. *)
Definition tabs_behind (n : N) (g : fold_gap) : Prop :=
  match g with Inline _ => True | NewLines _ _ _ i more => more <> [] -> (n <= N.of_nat i)%N end.
(** The next line is indented by [n] spaces. *)
Definition indented (n : N) (g : fold_gap) : Prop :=
  match g with Inline _ => True | NewLines _ _ _ i _ => (n <= N.of_nat i)%N end.

(** The next line starts at the margin. *)
Definition own_line (g : fold_gap) : Prop :=
  match g with Inline _ => False | NewLines _ _ _ i more => i = 0 /\ more = [] end.

(** ** Words *)
Definition flow_sign (b : N) : Prop := In b (str ",[]{}").
(** Behind a colon: white space, the end of the text, and inside flow collections their signs. *)
Definition ends_colon (in_flow : bool) (b : N) : Prop := In b [32; 9; 10; 13; 0]%N \/ (in_flow = true /\ flow_sign b).
Definition word_char (in_flow : bool) (b : N) : Prop := ~ In b [32; 9; 10; 13; 0]%N /\ (in_flow = true -> ~ flow_sign b).
(** A word, [next] being the byte behind it: it does not start a comment, and no colon in it ends the
    scalar. *)
Definition plain_word (in_flow : bool) (w : text) (next : N) : Prop :=
  w <> [] /\ Forall (word_char in_flow) w /\ nth 0 w 0%N <> 35%N /\ (last w 0%N = 58%N -> ~ ends_colon in_flow next).
Definition more_text (ws : list (fold_gap * text)) : text := flat_map (fun x => fold_text (fst x) ++ snd x) ws.
Definition more_value (ws : list (fold_gap * text)) : text := flat_map (fun x => fold_value (fst x) ++ snd x) ws.
(** The words after the first one; [after] follows the scalar. *)
Fixpoint plain_words (in_flow : bool) (n : N) (ws : list (fold_gap * text)) (after : text) : Prop :=
  match ws with
  | [] => True
  | (g, w) :: r =>
      white_gap g /\ fold_text g <> [] /\ indented n g /\
      (own_line g -> ~ doc_mark (w ++ more_text r ++ after)) /\
      plain_word in_flow w (nth 0 (more_text r ++ after) 0%N) /\ plain_words in_flow n r after
  end.

(** ** The end *)
(** What ends a scalar behind white space [g]: the end of the text, a comment, a colon before white
    space, signs of flow collections in them; outside of them a line that is indented less; a
    document marker on a line of its own. *)
Inductive plain_stop (in_flow : bool) (n : N) : fold_gap -> text -> Prop :=
| ps_end g : white_gap g -> plain_stop in_flow n g []
| ps_comment g r : white_gap g -> fold_text g <> [] -> plain_stop in_flow n g (35%N :: r)
| ps_colon g r : white_gap g -> tabs_behind n g -> ends_colon in_flow (nth 0 r 0%N) -> plain_stop in_flow n g (58%N :: r)
| ps_flow g c r : white_gap g -> tabs_behind n g -> in_flow = true -> flow_sign c -> plain_stop in_flow n g (c :: r)
| ps_less tr b e i c r : white_gap (NewLines tr b e i []) -> in_flow = false -> (N.of_nat i < n)%N ->
    ~ In c [32; 9; 10; 13]%N -> plain_stop in_flow n (NewLines tr b e i []) (c :: r)
| ps_mark tr b e r : white_gap (NewLines tr b e 0 []) -> doc_mark r -> plain_stop in_flow n (NewLines tr b e 0 []) r.

(** ** What is left out *)
(** Before a comment on a line of its own the indentation is of spaces: *)
Definition comment_behind (n : N) (g : fold_gap) (after : text) : Prop := nth 0 after 0%N = 35%N -> tabs_behind n g.
(** An indented line does not look like a document marker, and in a flow collection no word is a dash
    before one of its signs. *)
Definition no_dash (in_flow : bool) (w : text) (next : N) : Prop := ~ (in_flow = true /\ w = [45%N] /\ flow_sign next).
Fixpoint no_look_alikes (in_flow : bool) (ws : list (fold_gap * text)) (after : text) : Prop :=
  match ws with
  | [] => True
  | (g, w) :: r => (breaks g = true -> ~ doc_mark (w ++ more_text r ++ after)) /\
      no_dash in_flow w (nth 0 (more_text r ++ after) 0%N) /\ no_look_alikes in_flow r after
  end.

(** ** Documents *)
(** First bytes of plain scalars: no sign of YAML, or [-], [?] or [:] before another byte of a word. *)
Definition plain_start (w : text) : Prop :=
  ~ In (nth 0 w 0%N) (str "-?:,[]{}#&*!|>'""%@`") \/
  (In (nth 0 w 0%N) (str "-?:") /\ 2 <= List.length w).
(** ** Scalars *)
(** The scalar of the words [w], [ws] stands before [after]; lines are indented by [n]. *)
Definition plain_scalar (in_flow : bool) (n : N) (w : text) (ws : list (fold_gap * text)) (g : fold_gap) (after : text) : Prop :=
  plain_word in_flow w (nth 0 (more_text ws ++ fold_text g ++ after) 0%N) /\
  plain_words in_flow n ws (fold_text g ++ after) /\ plain_stop in_flow n g after.
(** It starts at [m]: behind the indentation, and not as a document marker at the margin. *)
Definition plain_place (in_flow : bool) (n : N) (m : marker) (t : text) : Prop :=
  (n <= m_col m)%N /\ (in_flow = true -> n < m_col m)%N /\ (m_col m = 1%N -> ~ doc_mark t).
