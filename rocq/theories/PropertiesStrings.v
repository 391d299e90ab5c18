(** Quoted scalars with escapes and over several lines: C61. *)
From Verif Require Import Base Tokens Scalar Chars Source Cursor Yaml LoadText SpecScalar SpecJson SpecQuoted SpecBlock SpecPlain SpecStrings SpecLayout.
From Verif Require Import StringDocs.
From Coq Require Import String.
Local Open Scope list_scope.

(** ** C61 *)
(** A quoted scalar [q] with the value [v] stands behind [before]; [r] are spaces and a comment behind it,
    and [after] the rest of the text.  The scanner reads [q ++ r] and has a token with [v]; it stands where a
    reader counting lines and columns sees it.  [indent] is the column further lines must reach, counted
    from 1. *)
Theorem C61_quoted_scalars : forall (single : bool) (n : nat) (q v before r after : text) (in_flow : bool) (indent : N)
    (m : marker) (lead ska : bool) (fuel : nat),
  quoted_scalar single n q v -> (indent <= N.of_nat n + 1)%N -> line_rest r -> may_follow in_flow q after ->
  (In 35%N r -> In (nth 0 after 0%N) [10; 13; 0]%N) -> (0 < m_col m)%N -> (indent <= m_col m + 1)%N ->
  List.length (q ++ r) + 2 < fuel ->
  let doc := before ++ q ++ r ++ after in
  let m' := marker_after (q ++ r) m in
  scan_flow_scalar fuel single indent in_flow (Cur (StrSrc doc (List.length before)) m lead ska)
  = (Cur (StrSrc doc (List.length (before ++ q ++ r))) m' false ska,
     Ok (Token (Span m m') (TScalar (if single then SingleQuote else DoubleQuote) v))).
Proof. exact quoted_scanned. Qed.
Print Assumptions C61_quoted_scalars.
(** A text that is a quoted scalar, with spaces, empty lines and comments behind it, is loaded as its
    value. *)
Theorem C61_quoted_documents : forall (single : bool) (q v g : text) (fuel : nat),
  quoted_scalar single 0 q v -> to_end g -> 64 * List.length (q ++ g) + 64 <= fuel ->
  load_text fuel (q ++ g) = Ok [YScalar (SString v)].
Proof. exact quoted_loads. Qed.
Print Assumptions C61_quoted_documents.
(** [a\tb \<CR><LF><LF>  c<LF><TAB>d\u00e9''\<LF>]: escapes, an escaped line break with an empty line, a
    folded one with a tab, and an escaped one in front of the closing quote. *)
Example C61_meets : quoted_scalar false 0 string_sample (str "a" ++ [9%N] ++ str "b " ++ [10%N] ++ str "c d" ++ [195; 169]%N ++ str "''") /\
  string_sample = str """a\tb \" ++ [13; 10; 10]%N ++ str "  c" ++ [10; 9]%N ++ str "d\u00e9''\" ++ [10%N] ++ str """" /\
  to_end (str " # end" ++ [10%N]) /\ line_rest (str " # end").
Proof. exact string_sample_quoted. Qed.
Example C61_loads : load_text 3000 (string_sample ++ str " # end" ++ [10%N]) = Ok [YScalar (SString (str "a" ++ [9%N] ++ str "b " ++ [10%N] ++ str "c d" ++ [195; 169]%N ++ str "''"))].
Proof. vm_compute. reflexivity. Qed.
