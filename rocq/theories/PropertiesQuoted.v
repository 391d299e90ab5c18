(** Property theorems about quoted scalars over several lines: C52. *)
From Verif Require Import Base Tokens Chars Source Cursor SpecQuoted.
From Verif Require Import FoldedQuotes.
From Coq Require Import String Lia.
Local Open Scope list_scope.

(** C52.  The scalar stands in a document after [before] and in front of [after]; blanks inside lines are
    kept, a line break with the blanks around it is one space, with [n] empty lines it is [n] line feeds.
    The end of the token is where a reader counting lines and columns sees it. *)
Theorem C52_double_quoted_lines :
  forall (w : text) (ws : list (word_gap * text)) (before after : text) (in_flow : bool) (indent : N)
         (m : marker) (lead ska : bool) (fuel : nat),
  double_word w -> Forall (fun x => double_word (snd x)) ws -> words_fit as_is 34%N indent ws ->
  may_follow_lines in_flow after -> (0 < m_col m)%N -> (indent <= m_col m + 1)%N ->
  let written := in_quotes as_is 34%N w ws in
  List.length written < fuel ->
  let doc := before ++ written ++ after in
  let m' := marker_after written m in
  scan_flow_scalar fuel false indent in_flow (Cur (StrSrc doc (List.length before)) m lead ska)
  = (Cur (StrSrc doc (List.length before + List.length written)) m' false ska,
     Ok (Token (Span m m') (TScalar DoubleQuote (w ++ words_read ws)))).
Proof. exact folded_double. Qed.
Print Assumptions C52_double_quoted_lines.
Theorem C52_single_quoted_lines :
  forall (w : text) (ws : list (word_gap * text)) (before after : text) (in_flow : bool) (indent : N)
         (m : marker) (lead ska : bool) (fuel : nat),
  single_word w -> Forall (fun x => single_word (snd x)) ws -> words_fit quote_doubled 39%N indent ws ->
  may_follow_lines in_flow after -> (0 < m_col m)%N -> (indent <= m_col m + 1)%N ->
  let written := in_quotes quote_doubled 39%N w ws in
  List.length written < fuel ->
  let doc := before ++ written ++ after in
  let m' := marker_after written m in
  scan_flow_scalar fuel true indent in_flow (Cur (StrSrc doc (List.length before)) m lead ska)
  = (Cur (StrSrc doc (List.length before + List.length written)) m' false ska,
     Ok (Token (Span m m') (TScalar SingleQuote (w ++ words_read ws)))).
Proof. exact folded_single. Qed.
Print Assumptions C52_single_quoted_lines.

(** [a  b <LF>   c <LF> <LF> <LF>  d <LF> ]: blanks, a fold, a fold with two empty lines, a fold in front of the quote. *)
Definition C52_words : list (word_gap * text) :=
  [(Blanks (str "  "), str "b"); (Break (str " ") [] 3, str "c");
   (Break [] [0; 1] 2, str "it's"); (Break [] [] 1, [])].
Example C52_example :
  words_fit as_is 34%N 2 C52_words /\ words_fit quote_doubled 39%N 2 C52_words /\
  double_word (str "a") /\ Forall (fun x => double_word (snd x)) C52_words /\
  single_word (str "a") /\ Forall (fun x => single_word (snd x)) C52_words /\
  str "a" ++ words_read C52_words = str "a  b c" ++ [10; 10]%N ++ str "it's ".
Proof.
  repeat match goal with |- _ /\ _ => split end; try reflexivity;
    cbn [C52_words words_fit]; unfold double_word, single_word, blank.
  1-2: repeat split; try discriminate; try lia; try (intros E; discriminate E); try tauto;
       repeat constructor; auto.
  all: repeat constructor; cbn [snd In]; intuition discriminate.
Qed.
Example C52_example_scan :
  let w := in_quotes quote_doubled 39%N (str "a") C52_words in
  snd (scan_flow_scalar 60 true 2 false (Cur (StrSrc (str "- " ++ w ++ [10%N]) 2) (Marker 2 3 1) true true))
  = Ok (Token (Span (Marker 2 3 1) (Marker 27 3 6))
         (TScalar SingleQuote (str "a  b c" ++ [10; 10]%N ++ str "it's "))).
Proof. vm_compute. reflexivity. Qed.
