(** Plain scalars over several lines (C58). *)
From Verif Require Import Base Tokens Scalar Source Cursor Scanner Yaml LoadText SpecBlock SpecQuoted SpecPlain PlainDocs.
From Coq Require Import String.
Local Open Scope list_scope.

(** ** C58 *)
(** Full statement: wherever a plain scalar stands ([plain_scalar], [plain_place]), it is scanned as
    the words joined by folded white space, and the scanner goes on behind the white space after it.
    It is false: see [C58_refuted].  Proved: it holds unless a line begins like a document marker
    behind an indentation, a word in a flow collection is a dash before one of its signs, or the
    scalar ends before a comment whose line is indented by tabs. *)
Theorem C58_plain_scalar_partial fuel n in_flow w ws g after pre m l s :
  let t := w ++ more_text ws in
  plain_scalar in_flow n w ws g after -> plain_place in_flow n m (t ++ fold_text g ++ after) ->
  comment_behind n g after -> no_dash in_flow w (nth 0 (more_text ws ++ fold_text g ++ after) 0%N) ->
  no_look_alikes in_flow ws (fold_text g ++ after) -> (l = true -> ~ doc_mark (t ++ fold_text g ++ after)) ->
  List.length (t ++ fold_text g) + 5 < fuel ->
  let doc := pre ++ t ++ fold_text g ++ after in
  scan_plain_scalar fuel n in_flow (Cur (StrSrc doc (List.length pre)) m l s)
  = (Cur (StrSrc doc (List.length pre + List.length (t ++ fold_text g))) (marker_after (t ++ fold_text g) m) (breaks g) (s || breaks g),
     Ok (Token (Span m (marker_after t m)) (TScalar Plain (w ++ more_value ws)))).
Proof. exact (plain_scalar_scans fuel n in_flow w ws g after pre m l s). Qed.
Print Assumptions C58_plain_scalar_partial.
(** A document that is a plain scalar of at least two words loads as that string. *)
Theorem C58_plain_document_partial fuel w ws g :
  plain_start w -> plain_word false w (nth 0 (more_text ws ++ fold_text g) 0%N) -> plain_words false 0 ws (fold_text g) -> ws <> [] ->
  white_gap g -> no_look_alikes false ws (fold_text g) -> ~ doc_mark (w ++ more_text ws ++ fold_text g) ->
  let t := w ++ more_text ws ++ fold_text g in List.length t + 200 <= fuel ->
  load_text fuel t = Ok [YScalar (SString (w ++ more_value ws))].
Proof. exact (folded_plain_loads fuel w ws g). Qed.
Print Assumptions C58_plain_document_partial.
(** An indented line [---], a dash before [ ] ], a comment behind a tab. *)
Theorem C58_refuted :
  (exists w ws, plain_scalar false 0 w ws (Inline []) [] /\ ~ doc_mark (w ++ more_text ws) /\
     ~ scanned_as false 0 (Marker 0 1 1) (w ++ more_text ws) (w ++ more_value ws) /\
     forall fuel y, load_text fuel (w ++ more_text ws) <> Ok y) /\
  (exists w ws, plain_scalar true 0 w ws (Inline []) (str "]") /\
     ~ scanned_as true 0 (Marker 0 2 1) (w ++ more_text ws ++ str "]") (w ++ more_value ws) /\
     forall fuel y, load_text fuel (str "[" ++ w ++ more_text ws ++ str "]") <> Ok y) /\
  (exists w g after, plain_scalar false 1 w [] g after /\
     ~ scanned_as false 1 (Marker 0 3 1) (w ++ fold_text g ++ after) w /\
     exists v, v <> w /\ load_text 200 (str "- " ++ w ++ fold_text g ++ after) = Ok [YSeq [YScalar (SString v)]]).
Proof.
  split; [|split].
  - exact (ex_intro _ _ (ex_intro _ _ (conj indented_marker_scalar (conj no_marker_a (conj indented_marker_scan indented_marker_fails))))).
  - exact (ex_intro _ _ (ex_intro _ _ (conj lone_dash_scalar (conj lone_dash_scan lone_dash_fails)))).
  - exact (ex_intro _ _ (ex_intro _ _ (ex_intro _ _ (conj tab_comment_scalar (conj tab_comment_scan (ex_intro _ _ (conj joined_not_a tab_comment_loads))))))).
Qed.
Print Assumptions C58_refuted.
(** Words with colons and number signs in them, blanks, empty lines with a tab and with [\r\n], and a
    line that is indented less at the end. *)
Example C58_meets : let ws := [(Inline [32; 9]%N, str "b:c#"); (NewLines [32%N] true [([9%N], false); ([], true)] 2 [9%N], str "-"); (NewLines [] false [] 3 [], str "-e")] in
  let g := NewLines [9%N] false [] 0 [] in let after := str "k: v" in
  plain_scalar false 2 (str "?a") ws g after /\ plain_place false 2 (Marker 4 4 1) (str "?a" ++ more_text ws ++ fold_text g ++ after) /\
  comment_behind 2 g after /\ no_look_alikes false ws (fold_text g ++ after) /\
  str "?a" ++ more_value ws = str "?a " ++ [9%N] ++ str "b:c#" ++ [10; 10]%N ++ str "- -e".
Proof. exact words_meet. Qed.
Example C58_flow_meets : let ws := [(NewLines [] false [] 1 [9%N], str "::-")] in let g := Inline [32%N] in let after := str ",b]" in
  plain_scalar true 1 (str "a") ws g after /\ plain_place true 1 (Marker 3 3 1) (str "a" ++ more_text ws ++ fold_text g ++ after) /\
  comment_behind 1 g after /\ no_dash true (str "a") 10 /\ no_look_alikes true ws (fold_text g ++ after) /\
  str "a" ++ more_value ws = str "a ::-".
Proof. exact flow_meets. Qed.
Example C58_document_meets : let ws := [(NewLines [] false [] 0 [], str "---b"); (Inline [32%N], str "---")] in let g := NewLines [] false [([9%N], false)] 0 [9%N] in
  plain_start (str "1") /\ plain_word false (str "1") 10 /\ plain_words false 0 ws (fold_text g) /\ white_gap g /\
  no_look_alikes false ws (fold_text g) /\ ~ doc_mark (str "1" ++ more_text ws ++ fold_text g) /\ str "1" ++ more_value ws = str "1 ---b ---".
Proof. exact document_meets. Qed.
Example C58_loads :
  load_text 400 (str "- - x" ++ [10%N] ++ str "    y z # c" ++ [10%N] ++ str "  - {k: a" ++ [13; 10; 13; 10]%N ++ str "   b, [c" ++ [10; 32; 32; 32; 9]%N ++ str " d]: e::f}")
  = Ok [YSeq [YSeq [YScalar (SString (str "x y z")); YMap [(YScalar (SString (str "k")), YScalar (SString (str "a" ++ [10%N] ++ str "b")));
      (YSeq [YScalar (SString (str "c d"))], YScalar (SString (str "e::f")))]]]].
Proof. vm_compute. reflexivity. Qed.
