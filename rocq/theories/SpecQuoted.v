(** Quoted scalars over several lines: how they are written and what they mean. *)
From Verif Require Import Base.
From Coq Require Import String.
Local Open Scope list_scope.

(** What stands between two words: blanks, or a line break with blanks in front of it, then empty lines
    (with that many spaces each), then the indentation of the next line. *)
Inductive word_gap :=
| Blanks (bs : text)
| Break (trailing : text) (empty : list nat) (indent : nat).
Definition gap_written (g : word_gap) : text :=
  match g with
  | Blanks bs => bs
  | Break tr e i => tr ++ [10%N] ++ flat_map (fun n => repeat 32%N n ++ [10%N]) e ++ repeat 32%N i
  end.
(** Blanks stay; a line break is a space; with [n] empty lines it is [n] line feeds. *)
Definition gap_read (g : word_gap) : text :=
  match g with
  | Blanks bs => bs
  | Break _ [] _ => [32%N]
  | Break _ e _ => repeat 10%N (List.length e)
  end.
(** A byte is written by [enc]. *)
Fixpoint words_written (enc : N -> text) (ws : list (word_gap * text)) : text :=
  match ws with
  | [] => []
  | (g, w) :: r => gap_written g ++ flat_map enc w ++ words_written enc r
  end.
Fixpoint words_read (ws : list (word_gap * text)) : text :=
  match ws with
  | [] => []
  | (g, w) :: r => gap_read g ++ w ++ words_read r
  end.
Definition blank (b : N) : Prop := b = 32%N \/ b = 9%N.
(** A line that starts with a document marker. *)
Definition doc_mark (t : text) : Prop :=
  exists r, (t = str "---" ++ r \/ t = str "..." ++ r) /\
    match r with [] => True | b :: _ => In b [32; 9; 10; 13; 0]%N end.
(** The words fit: only the last may be empty; lines are indented by at least [indent] (columns are
    counted from 1) and do not start with a document marker.  [q] is the closing quote. *)
Fixpoint words_fit (enc : N -> text) (q : N) (indent : N) (ws : list (word_gap * text)) : Prop :=
  match ws with
  | [] => True
  | (g, w) :: r =>
      match g with
      | Blanks bs => bs <> [] /\ Forall blank bs
      | Break tr _ i =>
          Forall blank tr /\ (indent <= N.of_nat i + 1)%N /\
          (i = 0 -> ~ doc_mark (flat_map enc w ++ words_written enc r ++ [q]))
      end /\ (r <> [] -> w <> []) /\ words_fit enc q indent r
  end.
(** Bytes of words inside double quotes that are written as they are. *)
Definition double_word (w : text) : Prop :=
  Forall (fun b => ~ In b [34; 92; 32; 9; 10; 13; 0]%N) w.
(** Bytes of words inside single quotes, where a single quote is doubled. *)
Definition single_word (w : text) : Prop := Forall (fun b => ~ In b [32; 9; 10; 13; 0]%N) w.
Definition as_is (b : N) : text := [b].
Definition quote_doubled (b : N) : text := if (b =? 39)%N then [39%N; 39%N] else [b].
(** The position after a text. *)
Fixpoint marker_after (t : text) (m : marker) : marker :=
  match t with
  | [] => m
  | 10%N :: r => marker_after r (Marker (m_pos m + 1) 1 (m_line m + 1))
  | _ :: r => marker_after r (Marker (m_pos m + 1) (m_col m + 1) (m_line m))
  end.
(** What stands behind a quoted scalar of several lines (nothing, or the first byte of the rest). *)
Definition may_follow_lines (in_flow : bool) (after : text) : Prop :=
  match after with
  | [] => True
  | c :: _ => In c [10; 13; 0]%N \/ (in_flow = true /\ In c (str ",}]:"))
  end.
(** A scalar that starts with word [w], between quotes [q]. *)
Definition in_quotes (enc : N -> text) (q : N) (w : text) (ws : list (word_gap * text)) : text :=
  q :: flat_map enc w ++ words_written enc ws ++ [q].
