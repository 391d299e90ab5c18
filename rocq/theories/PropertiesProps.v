(** Anchors, aliases and tags (C63), directives (C64). *)
From Verif Require Import Base Tokens Scalar Source Cursor SpecBlock SpecStream SpecFlow SpecQuoted SpecProps PropsDocs.
From Coq Require Import String.
Local Open Scope list_scope.

(** ** C63 *)
(** An anchor or alias is scanned as its whole name; the scanner goes on behind it. *)
Theorem C63_anchors fuel alias sign n after pre m l s : anchor_name n -> ~ anchor_byte (nth 0 after 0%N) -> List.length n < fuel ->
  let doc := pre ++ sign :: n ++ after in let m' := mark_add (1 + List.length n) m in
  scan_anchor fuel alias (Cur (StrSrc doc (List.length pre)) m l s)
  = (Cur (StrSrc doc (List.length pre + (1 + List.length n))) m' false s, Ok (Token (Span m m') (if alias then TAlias n else TAnchor n))).
Proof. exact (anchor_scans fuel alias sign n after pre m l s). Qed.
Print Assumptions C63_anchors.
(** Full statement: a tag ([tag_text true]) is scanned as its handle and its suffix, escaped characters
    decoded.  It is false: see [C63_refuted].  Proved: it holds without escaped characters beyond ASCII. *)
Theorem C63_tags_partial fuel in_flow w h v after pre m l s : tag_text false w h v -> tag_stop in_flow after -> List.length w + 2 < fuel ->
  let doc := pre ++ w ++ after in let m' := mark_add (List.length w) m in
  scan_tag fuel in_flow (Cur (StrSrc doc (List.length pre)) m l s)
  = (Cur (StrSrc doc (List.length pre + List.length w)) m' false s, Ok (Token (Span m m') (TTag h v))).
Proof. exact (tag_scans fuel in_flow w h v after pre m l s). Qed.
Print Assumptions C63_tags_partial.
(** An escaped character of two bytes, and one of three. *)
Theorem C63_refuted :
  (tag_text true (str "!%C3%A9") (str "!") [195; 169]%N /\ tag_lost (str "!%C3%A9") (str "!") [195; 169]%N) /\
  (tag_text true (str "!<%E6%97%A5>") [] [230; 151; 165]%N /\ tag_lost (str "!<%E6%97%A5>") [] [230; 151; 165]%N).
Proof. exact (conj (conj accent_tag accent_lost) (conj kanji_tag kanji_lost)). Qed.
Print Assumptions C63_refuted.
(** What they are scanned as. *)
Example C63_wrong_character : (exists c sp, scan_tag 20 false (Cur (StrSrc (str "!%C3%A9 ") 0) (Marker 0 1 1) false true) = (c, Ok (Token sp (TTag (str "!") [236; 142; 169]%N)))) /\
  exists c e, scan_tag 20 false (Cur (StrSrc (str "!<%E6%97%A5> ") 0) (Marker 0 1 1) false true) = (c, Err e).
Proof. split; repeat eexists; vm_compute; reflexivity. Qed.
Example C63_meets : (anchor_name (str "a:b*#&!") /\ ~ anchor_byte (nth 0 (str ", x") 0%N)) /\
  tag_text false (str "!my-app!a%2Fb") (str "!my-app!") (str "a/b") /\
  tag_text false (str "!<tag:yaml.org,2002:%21[x]>") [] (str "tag:yaml.org,2002:![x]") /\
  tag_text false (str "!a-1:%7Eb") (str "!") (str "a-1:~b") /\ tag_text false (str "!") [] (str "!").
Proof. exact (conj anchor_case (conj named_case (conj verbatim_case (conj local_case (tt_none false))))). Qed.

(** ** C64 *)
(** Full statement: a directive ([directive_text true]) and the rest of its line are scanned as that
    directive.  It is false: see [C64_refuted].  Proved: it holds for versions whose numbers are below 256
    and of at most nine digits, and without escaped characters beyond ASCII. *)
Theorem C64_directives_partial fuel w d r b after pre m l s : directive_text false w d -> line_rest r -> List.length w + List.length r + 3 < fuel ->
  let t := w ++ r ++ eol b in let doc := pre ++ t ++ after in
  exists e, scan_directive fuel (Cur (StrSrc doc (List.length pre)) m l s)
  = (Cur (StrSrc doc (List.length pre + List.length t)) (marker_after t m) true s, Ok (Token (Span m e) (dir_tok d))).
Proof. exact (directive_scans fuel w d r b after pre m l s). Qed.
Print Assumptions C64_directives_partial.
(** A minor version of 256: the sum overflows. *)
Theorem C64_refuted : exists w d, directive_text true w d /\
  forall fuel c sp, scan_directive fuel (Cur (StrSrc (w ++ [10%N]) 0) (Marker 0 1 1) false true) <> (c, Ok (Token sp (dir_tok d))).
Proof. exact (ex_intro _ _ (ex_intro _ _ (conj big_version big_version_lost))). Qed.
Print Assumptions C64_refuted.
Example C64_meets : directive_text false (str "%YAML 1.02") (DVersion 1 2) /\
  directive_text false (str "%TAG !e!  tag:example.com,2000:%41/") (DTag (str "!e!") (str "tag:example.com,2000:A/")) /\
  directive_text false (str "%FOO  bar #baz") (DTag [] []) /\ line_rest (repeat 32%N 1 ++ 35%N :: str "c").
Proof. exact (conj version_case (conj tag_case (conj reserved_case (lr_comment 0 (str "c") ltac:(each ltac:(unfold comment_byte; cbn; intuition discriminate)))))). Qed.
