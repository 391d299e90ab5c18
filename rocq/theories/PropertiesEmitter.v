(** Property theorems about the emitter and about quoted scalars: C23, C24, C26, C29. *)
From Verif Require Import Base Tokens Chars Scalar Source Cursor Yaml SpecScalar SpecEmit Emitter.
From Verif Require Import EmitterPlain EmitterProofs EmitterLayout EmitterStated.
From Coq Require Import String.
Local Open Scope list_scope.

(** C23.  [written] is what the emitter writes for the text [t]; it stands in a document after
    [before] and in front of [after], which begins with what may follow a quoted scalar.  The marker is
    anywhere on a line, the scalar not left of the indentation. *)
Theorem C23_escaped_text_reads_back :
  forall (t : text) (level : Z) (out : text),
  exists written,
    escape_str any_writer t (Emitter.Emitter level out)
      = (Emitter.Emitter level (out ++ written), EmitOk) /\
    forall (before after : text) (in_flow : bool) (indent : N) (m : marker) (lead ska : bool) (fuel : nat),
      may_follow_quotes in_flow after -> (0 < m_col m)%N -> (indent <= m_col m + 1)%N ->
      List.length t + 1 < fuel ->
      let doc := before ++ written ++ after in
      let m' := Marker (m_pos m + N.of_nat (List.length written)) (m_col m + N.of_nat (List.length written)) (m_line m) in
      scan_flow_scalar fuel false indent in_flow (Cur (StrSrc doc (List.length before)) m lead ska)
      = (Cur (StrSrc doc (List.length before + List.length written)) m' false ska,
         Ok (Token (Span m m') (TScalar DoubleQuote t))).
Proof. exact escaped_text_reads_back. Qed.
Print Assumptions C23_escaped_text_reads_back.
Example C23_example :
  let t := 0%N :: 10%N :: 32%N :: 34%N :: 92%N :: 127%N :: 195%N :: 169%N :: [32%N] in
  let w := e_out (fst (escape_str any_writer t (Emitter.Emitter 0 []))) in
  List.length w = 24 /\ may_follow_quotes false (58%N :: str " x") /\
  snd (scan_flow_scalar 20 false 0 false (Cur (StrSrc (str "- " ++ w ++ str ": x") 2) (Marker 2 3 1) true true))
  = Ok (Token (Span (Marker 2 3 1) (Marker 26 27 1)) (TScalar DoubleQuote t)).
Proof. vm_compute. intuition. Qed.

(** C29. *)
Theorem C29_single_quoted_text_reads_back :
  forall (t before after : text) (in_flow : bool) (indent : N) (m : marker) (lead ska : bool) (fuel : nat),
  ~ In 10%N t -> ~ In 13%N t -> ~ In 0%N t ->
  may_follow_quotes in_flow after -> (0 < m_col m)%N -> (indent <= m_col m + 1)%N ->
  List.length t + 1 < fuel ->
  let written := in_single_quotes t in
  let doc := before ++ written ++ after in
  let m' := Marker (m_pos m + N.of_nat (List.length written)) (m_col m + N.of_nat (List.length written)) (m_line m) in
  scan_flow_scalar fuel true indent in_flow (Cur (StrSrc doc (List.length before)) m lead ska)
  = (Cur (StrSrc doc (List.length before + List.length written)) m' false ska,
     Ok (Token (Span m m') (TScalar SingleQuote t))).
Proof. exact single_quoted_text_reads_back. Qed.
Print Assumptions C29_single_quoted_text_reads_back.
Example C29_example :
  let t := str " it's ''a'' \n	 " in
  in_single_quotes t = str "' it''s ''''a'''' \n	 '" /\
  ~ In 10%N t /\ ~ In 13%N t /\ ~ In 0%N t /\ may_follow_quotes true (str ", 1]") /\
  snd (scan_flow_scalar 20 true 0 true (Cur (StrSrc (str "[" ++ in_single_quotes t ++ str ", 1]") 1) (Marker 1 2 1) true true))
  = Ok (Token (Span (Marker 1 2 1) (Marker 24 25 1)) (TScalar SingleQuote t)).
Proof. vm_compute. intuition discriminate. Qed.

(** C24 is false of the code: some strings left without quotes are read as numbers. *)
Theorem C24_refuted : exists t, need_quotes t = false /\
  parse_from_cow_and_metadata t Plain None <> Some (SString t).
Proof. exists (str "0o17"). vm_compute. split; [reflexivity|discriminate]. Qed.
Print Assumptions C24_refuted.
(** Exactly these: octal numbers, decimal numbers behind two signs, infinity with a plus sign. *)
Theorem C24_unquoted_strings_partial : forall t, need_quotes t = false ->
  (parse_from_cow_and_metadata t Plain None = Some (SString t) <-> ~ misread t).
Proof. exact EmitterPlain.unquoted_iff. Qed.
Print Assumptions C24_unquoted_strings_partial.
Example C24_example :
  need_quotes (str "a b-c~") = false /\ need_quotes (str "1_000") = false /\
  need_quotes (str "-1") = true /\ need_quotes (str "1e3") = true /\
  need_quotes (str "++5") = false /\ parse_from_cow (str "++5") = SInt 5 /\
  need_quotes (str "+.inf") = false /\ parse_from_cow (str "+.inf") = SFloat (FInf false).
Proof. vm_compute. repeat split. Qed.

(** C26.  Whatever the writer does: [s] includes which pieces it accepts. *)
Theorem C26_level_kept : forall (s : settings) (y : yaml) (e : emitter),
  (e_level e <= e_level (fst (emit_node s y e)))%Z /\
  (snd (emit_node s y e) = EmitOk -> e_level (fst (emit_node s y e)) = e_level e).
Proof. exact EmitterProofs.keeps_node. Qed.
Print Assumptions C26_level_kept.
(** Into a writer that takes everything: the lines have exactly the levels [line_levels], with
    [best_indent] spaces for each level (none for a level below one). *)
Theorem C26_lines_indented : forall (s : settings) (y : yaml) (level : Z) (out : text),
  accepts s = any_writer -> multiline_strings s = false -> tags_fit y ->
  exists t, emit_node s y (Emitter.Emitter level out) = (Emitter.Emitter level (out ++ t), EmitOk) /\
    lined (best_indent s) t (line_levels (compact s) level y).
Proof. exact EmitterLayout.node_layout. Qed.
Print Assumptions C26_lines_indented.
Example C26_example :
  let y := YMap [(YScalar (SString (str "a")), YSeq [YScalar SNull; YSeq [YScalar (SInt 1); YScalar (SInt 2)]]);
                 (YSeq [YScalar SNull], YTagged (Tag [33%N] (str "t")) (YMap [(YScalar SNull, YAlias 0)]))] in
  tags_fit y /\
  line_levels true (-1) y = [1; 1; 2; 0; 0; 1]%Z /\ line_levels false (-1) y = [1; 1; 2; 2; 0; 1; 0; 1]%Z /\
  e_out (fst (emit_node (Settings 4 false false any_writer) y (Emitter.Emitter (-1) [])))
  = str "a:" ++ [10%N] ++ str "    - ~" ++ [10%N] ++ str "    -" ++ [10%N] ++ str "        - 1" ++ [10%N]
    ++ str "        - 2" ++ [10%N] ++ str "?" ++ [10%N] ++ str "    - ~" ++ [10%N] ++ str ": !t " ++ [10%N]
    ++ str "    ~: ".
Proof. vm_compute. intuition (try discriminate). Qed.
