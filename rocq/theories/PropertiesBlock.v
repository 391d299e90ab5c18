(** Block scalars (C57) and a block scalar on which the scanner never ends (C27). *)
From Verif Require Import Base Tokens Scalar Source Cursor Scanner Yaml LoadText SpecBlock BlockHang BlockLoad.
From Coq Require Import String.
Local Open Scope list_scope.

(** ** C57 *)
(** Full statement: whenever [block_document literal w v] or [cut_document literal w v], loading [w]
    gives the string [v].  It is false: see [C57_refuted] and [C57_cut_refuted].
    Proved: it holds of every block scalar with at least one line of content, unless the first line
    is not indented and starts with a tab, or the content is indented by 125 columns and more and
    the text ends in a line that is indented less. *)
Theorem C57_block_document_partial literal h e digit ht b first more tail n s fuel :
  indicators h e digit -> header_rest ht -> indentation 0 digit n first -> Forall (good_line n) (first :: more) ->
  Forall (fun x => fst x <= n) tail -> s <= n ->
  s = n \/ n < 125 -> nth 0 (words first) 0%N <> 9%N \/ n <> 0 \/ before first <> [] ->
  let w := block_sign literal :: h ++ ht ++ eol b ++ flat_map (line_text n) (first :: more) ++ blank_lines tail ++ repeat 32%N s in
  List.length w + 200 <= fuel ->
  load_text fuel w = Ok [YScalar (SString (block_value literal e first more tail))].
Proof. exact (block_document_loads literal h e digit ht b first more tail n s fuel). Qed.
Print Assumptions C57_block_document_partial.
(** The same wherever a block scalar stands: [col] is the column of the surrounding collection, the
    scanner stands behind the sign, and [after] follows. *)
Theorem C57_block_scalar_partial literal h e digit ht b first more tail n s after col start pre m l a fuel :
  indicators h e digit -> header_rest ht -> indentation col digit n first -> Forall (good_line n) (first :: more) ->
  Forall (fun x => fst x <= n) tail -> block_ends n s after -> (after = [] -> s = n \/ n < 125) ->
  nth 0 (words first) 0%N <> 9%N \/ n <> 0 \/ before first <> [] ->
  let w := h ++ ht ++ eol b ++ flat_map (line_text n) (first :: more) ++ blank_lines tail ++ repeat 32%N s in
  List.length w + 5 < fuel ->
  exists m' sp, scan_block_scalar_body fuel literal col start (Cur (StrSrc (pre ++ w ++ after) (List.length pre)) m l a)
    = (Cur (StrSrc (pre ++ w ++ after) (List.length pre + List.length w)) m' true a,
       Ok (Token sp (TScalar (if literal then Literal else Folded) (block_value literal e first more tail)))) /\ m_col m' = (N.of_nat s + 1)%N.
Proof. exact (block_scalar_scans literal h e digit ht b first more tail n s after col start pre m l a fuel). Qed.
Print Assumptions C57_block_scalar_partial.
(** The last line is cut off by the end of the text: the text of the lines, followed by a line feed
    unless line breaks are stripped. *)
Theorem C57_cut_partial literal h e digit ht b l last n fuel :
  indicators h e digit -> header_rest ht -> indentation 0 digit n (hd last l) -> Forall (good_line n) l -> good_line n last ->
  nth 0 (words (hd last l)) 0%N <> 9%N \/ n <> 0 \/ before (hd last l) <> [] ->
  let w := block_sign literal :: h ++ ht ++ eol b ++ cut_lines n l last in
  List.length w + 200 <= fuel ->
  load_text fuel w = Ok [YScalar (SString (block_text literal (l ++ [last]) ++ match e with Stripped => [] | _ => [10%N] end))].
Proof. exact (cut_document_loads literal h e digit ht b l last n fuel). Qed.
Print Assumptions C57_cut_partial.
(** That line feed is not in the text. *)
Theorem C57_cut_refuted : exists w v, cut_document true w v /\ forall fuel, load_text fuel w <> Ok [YScalar (SString v)].
Proof. exact (ex_intro _ _ (ex_intro _ _ (conj cut_clipped cut_not_loaded))). Qed.
Print Assumptions C57_cut_refuted.
(** A scalar without content, one whose first line starts with a tab, one that is indented by 125
    columns before a last line without indentation. *)
Theorem C57_refuted : exists w1 v1 w2 v2 w3 v3,
  (block_document true w1 v1 /\ forall fuel, load_text fuel w1 <> Ok [YScalar (SString v1)]) /\
  (block_document true w2 v2 /\ forall fuel y, load_text fuel w2 <> Ok y) /\
  (block_document true w3 v3 /\ forall fuel, load_text fuel w3 = Fuel).
Proof.
  exact (ex_intro _ _ (ex_intro _ _ (ex_intro _ _ (ex_intro _ _ (ex_intro _ _ (ex_intro _ _
    (conj (conj empty_document empty_not_loaded) (conj (conj tab_document tab_first_not_loaded) (conj wide_document wide_not_loaded))))))))).
Qed.
Print Assumptions C57_refuted.
(** A line [---] ends the document, but here it is read as content. *)
Theorem C57_marker_refuted : exists x, marker_first (words x) /\
  load_text 300 ([124; 10; 97; 10]%N ++ line_text 0 x ++ [98; 10]%N)
  = Ok [YScalar (SString (block_value true Clipped (Line [] [97%N] false) [x; Line [] [98%N] false] []))].
Proof.
  exists (Line [] (str "---") false). split; [|vm_compute; reflexivity].
  exact (ex_intro _ 45%N (ex_intro _ [] (conj (or_introl eq_refl) (conj eq_refl (or_introl eq_refl))))).
Qed.
Print Assumptions C57_marker_refuted.

(** A folded scalar, more indented and blank lines, kept line breaks, a comment behind the header. *)
Definition lines1 : line := Line [(1, false)] (str "ab") true.
Definition lines2 : list line :=
  [Line [] (str "cd") false; Line [(0, false); (2, true)] (str "ef") false; Line [] (str " gh") false; Line [(1, false)] (str "ij") false].
Example C57_example : let w := block_sign false :: str "+" ++ str " # x" ++ eol false ++ flat_map (line_text 2) (lines1 :: lines2) ++ blank_lines [(2, false)] ++ repeat 32%N 1 in
  indicators (str "+") Kept None /\ header_rest (str " # x") /\ indentation 0 None 2 lines1 /\ Forall (good_line 2) (lines1 :: lines2) /\
  load_text 300 w = Ok [YScalar (SString ([10] ++ str "ab cd" ++ [10; 10] ++ str "ef" ++ [10] ++ str " gh" ++ [10; 10] ++ str "ij" ++ [10; 10]))%N] /\
  block_value false Kept lines1 lines2 [(2, false)] = ([10] ++ str "ab cd" ++ [10; 10] ++ str "ef" ++ [10] ++ str " gh" ++ [10; 10] ++ str "ij" ++ [10; 10])%N.
Proof.
  assert (G : forall x, Forall (fun b => fst b <= 2) (before x) -> words x <> [] -> forallb (fun b => negb (N.eqb b 10) && negb (N.eqb b 13)) (words x) = true -> good_line 2 x).
  { intros x A B C. rewrite forallb_forall in C. split; [exact A|]. split; [exact B|]. split; [|split; [|discriminate]]; intros K; specialize (C _ K); discriminate. }
  split; [repeat constructor|]. split.
  { refine (hr_comment [32%N] (str " x") _ _ _); [discriminate|repeat constructor|]. repeat (apply Forall_cons; [cbn; intuition discriminate|]). constructor. }
  split; [split; vm_compute; discriminate|]. split.
  { repeat (apply Forall_cons; [apply G; [repeat constructor|discriminate|reflexivity]|]). constructor. }
  split; vm_compute; reflexivity.
Qed.
(** Stripped and folded, the last line cut off. *)
Example C57_cut_example : let l := [Line [] (str "ab") false; Line [(0, true)] (str "cd") true] in let last := Line [] (str "ef") false in
  indicators (str "-") Stripped None /\ header_rest [] /\ indentation 0 None 1 (hd last l) /\ Forall (good_line 1) l /\ good_line 1 last /\
  load_text 300 (block_sign false :: str "-" ++ [] ++ eol false ++ cut_lines 1 l last) = Ok [YScalar (SString (str "ab" ++ [10%N] ++ str "cd ef"))].
Proof.
  assert (G : forall x, Forall (fun b => fst b <= 1) (before x) -> words x <> [] -> forallb (fun b => negb (N.eqb b 10) && negb (N.eqb b 13)) (words x) = true -> good_line 1 x).
  { intros x A B C. rewrite forallb_forall in C. split; [exact A|]. split; [exact B|]. split; [|split; [|discriminate]]; intros K; specialize (C _ K); discriminate. }
  cbv zeta. split; [repeat constructor|]. split; [exact (hr_blanks [] (Forall_nil _))|]. split; [split; vm_compute; discriminate|]. split.
  { repeat (apply Forall_cons; [apply G; [repeat constructor|discriminate|reflexivity]|]). constructor. }
  split; [apply G; [repeat constructor|discriminate|reflexivity]|]. vm_compute; reflexivity.
Qed.
(** A literal scalar with an indentation indicator inside a sequence at column 3, before a less
    indented line. *)
Example C57_example_inner : let first := Line [] (str " x") false in
  indicators (str "2-") Stripped (Some 2%N) /\ indentation 3 (Some 2%N) 4 first /\ good_line 4 first /\
  block_ends 4 2 (str "- y") /\
  match snd (scan_block_scalar_body 50 true 3 (Marker 0 1 1) (Cur (StrSrc (str "2-" ++ [10] ++ str "     x" ++ [10] ++ str "  - y")%N 0) (Marker 0 1 1) true true)) with
  | Ok t => k_type t = TScalar Literal (str " x")
  | _ => False
  end.
Proof.
  split; [|split; [|split; [|split]]].
  - refine (in_digit_chomp 45 Stripped 2 _ _); [constructor|]. split; vm_compute; discriminate.
  - reflexivity.
  - split; [constructor|]. split; [discriminate|]. split; [|split; [|discriminate]]; cbn; intuition discriminate.
  - right. left. split; [repeat constructor|]. split; [discriminate|]. cbn. intuition discriminate.
  - vm_compute. reflexivity.
Qed.

(** ** C27 *)
(** A block scalar that is indented by 125 columns before the end of the text, without a carriage
    return or a NUL byte: the scanner never ends. *)
Theorem C27_wide_block_refuted : exists i, ~ In 13%N i /\ ~ In 0%N i /\ forall fuel, snd (snd (scan fuel i)) = Fuel.
Proof. exact (ex_intro _ _ wide_hangs_plain). Qed.
Print Assumptions C27_wide_block_refuted.
