(** Property theorems about serialised strings: C39. *)
From Verif Require Import Base Tokens Chars Source Cursor SerdeSer SpecQuoted SpecSer.
From Verif Require Import SerProofs.
From Coq Require Import String.
Local Open Scope list_scope.

(** C39 at full strength: whatever the words are that a string [t] consists of, what is written is a
    double-quoted scalar read back as [t]. *)
Definition reads_back (f : formatter) (ws : list word) (t : text) : Prop :=
  exists written,
    serialize f (SerStr ws) = Ok written /\
    forall (before after : text) (in_flow : bool) (indent : N) (m : marker) (lead ska : bool) (fuel : nat),
      may_follow_lines in_flow after -> (0 < m_col m)%N -> (indent <= 1)%N -> List.length written < fuel ->
      let doc := before ++ written ++ after in
      let m' := marker_after written m in
      scan_flow_scalar fuel false indent in_flow (Cur (StrSrc doc (List.length before)) m lead ska)
      = (Cur (StrSrc doc (List.length before + List.length written)) m' false ska,
         Ok (Token (Span m m') (TScalar DoubleQuote t))).
(** The part that holds: strings without double quote, backslash, line break and NUL, without two
    blanks in a row and without a word [---] or [...]; for every formatter and every division into
    words.  Missing: the other strings (see below). *)
Theorem C39_plain_strings_partial : forall (f : formatter) (ws : list word) (t : text),
  Forall (fun w => fst w <> []) ws -> t = List.concat (map fst ws) ->
  plain_content t -> single_blanks t -> no_marker_word t -> reads_back f ws t.
Proof. exact serialized_reads_back. Qed.
Print Assumptions C39_plain_strings_partial.
(** The words of "One quick --brown fox", split at 10 columns. *)
Definition fox : list word :=
  [(str "One", 3%N); (str " ", 1%N); (str "quick", 5%N); (str " ", 1%N); (str "-", 1%N); (str "-", 1%N);
   (str "brown", 5%N); (str " ", 1%N); (str "fox", 3%N)].
Example C39_example :
  Forall (fun w => fst w <> []) fox /\ plain_content (List.concat (map fst fox)) /\
  serialize (Formatter 10 10 (str "  ") (str "null")) (SerStr fox)
  = Ok (str """One quick" ++ [10%N] ++ str "--brown" ++ [10%N] ++ str "fox""").
Proof.
  split; [repeat constructor; discriminate|]. split; [|vm_compute; reflexivity].
  vm_compute. repeat constructor; intuition discriminate.
Qed.
Example C39_example_blanks : single_blanks (str "a b") /\ no_marker_word (str "a b").
Proof.
  split.
  - intros a x y b E BX BY. destruct a as [|a0 [|a1 [|a2 [|a3 a]]]]; try discriminate E; injection E; intros; subst;
      destruct BX, BY; discriminate.
  - intros a r E (q & [H|H] & _); destruct a as [|a0 [|a1 [|a2 [|a3 a]]]]; try discriminate E; injection E; intros; subst; discriminate.
Qed.

(** C39 is false.  A string made of one word; what is read back, if anything. *)
Definition read_back (f : formatter) (ws : list word) : option text :=
  match serialize f (SerStr ws) with
  | Ok written =>
      match scan_flow_scalar 100 false 0 false (Cur (StrSrc written 0) (Marker 0 1 1) true true) with
      | (_, Ok (Token _ (TScalar DoubleQuote t))) => Some t
      | _ => None
      end
  | _ => None
  end.
(** A double quote is not escaped: the text is not valid. *)
Theorem C39_refuted : exists ws, List.concat (map fst ws) = [34%N] /\
  serialize formatter_pretty (SerStr ws) = Ok [34; 34; 34]%N /\ read_back formatter_pretty ws = None.
Proof. exists [([34%N], 1%N)]. vm_compute. auto. Qed.
Print Assumptions C39_refuted.
(** A backslash is not escaped: [\n] (two characters) is read back as a line feed. *)
Theorem C39_backslash_refuted : exists ws, List.concat (map fst ws) = str "\n" /\
  read_back formatter_pretty ws = Some [10%N].
Proof. exists [(str "\", 1%N); (str "n", 1%N)]. vm_compute. auto. Qed.
Print Assumptions C39_backslash_refuted.
(** A line feed is read back as a space. *)
Theorem C39_line_feed_refuted : exists ws, List.concat (map fst ws) = [97; 10; 98]%N /\
  read_back formatter_pretty ws = Some (str "a b").
Proof. exists [(str "a", 1%N); ([10%N], 1%N); (str "b", 1%N)]. vm_compute. auto. Qed.
Print Assumptions C39_line_feed_refuted.
(** Splitting a line at one of two spaces loses the other. *)
Theorem C39_two_spaces_refuted : exists ws, List.concat (map fst ws) = str "abc  d" /\
  read_back (Formatter 10 5 (str "  ") (str "null")) ws = Some (str "abc d").
Proof. exists [(str "abc", 3%N); (str "  ", 2%N); (str "d", 1%N)]. vm_compute. auto. Qed.
Print Assumptions C39_two_spaces_refuted.
(** A word [---] moved to the start of a line ends the document: the text is not valid. *)
Theorem C39_marker_refuted : exists ws, List.concat (map fst ws) = str "abc --- d" /\
  read_back (Formatter 10 4 (str "  ") (str "null")) ws = None.
Proof.
  exists [(str "abc", 3%N); (str " ", 1%N); (str "-", 1%N); (str "-", 1%N); (str "-", 1%N); (str " ", 1%N); (str "d", 1%N)].
  vm_compute. auto.
Qed.
Print Assumptions C39_marker_refuted.
(** [escape_double_quotes], used by the code only for a depth that is never reached, panics on a
    truncated escape and leaves double quotes as they are. *)
Theorem C39_escape_refuted :
  (exists t, t = str "\x4" /\ escape_double_quotes t = Panic) /\
  (exists t, t = [34%N] /\ escape_double_quotes t = Ok [34%N]).
Proof. split; eexists; split; try reflexivity; vm_compute; reflexivity. Qed.
Print Assumptions C39_escape_refuted.
