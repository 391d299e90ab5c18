(** C65, C66 and C67: what the scanner accepts. *)
From Verif Require Import Base Tokens Source Cursor Scanner SpecScan SpecScalar SpecJson SpecQuoted SpecBlock SpecPlain SpecStrings SpecProps SpecAccept
  QuotedOnly PropsOnly Stands Covers AcceptCases.
From Coq Require Import String.
Local Open Scope list_scope.

(** ** C65 *)
(** Every token that is delivered for a text, to whatever end the scan comes, stands in it ([stands]): it is written
    at its place in the form of its kind, with the value of that form; or it is one of the tokens that are implied, and empty. *)
Theorem C65_tokens_stand i fuel : Forall (stands i) (fst (scan fuel i)).
Proof. exact (all_stand i fuel). Qed.
Print Assumptions C65_tokens_stand.
Definition C65_text : text :=
  str "%YAML 1.2" ++ [10%N] ++ str "--- !t &a {k: [*a, 'x''y']}" ++ [10%N] ++ str "..." ++ [10%N] ++
  str "? |-" ++ [10%N] ++ str "  b" ++ [10%N] ++ str ": - c d # e" ++ [10%N] ++ str "  - ""x""" ++ [10%N].
Example C65_example : map (fun t => (m_pos (s_start (k_span t)), k_type t)) (fst (scan 200 C65_text)) =
  [(0, TStreamStart); (0, TVersionDirective 1 2); (10, TDocumentStart); (14, TTag (str "!") (str "t")); (17, TAnchor (str "a"));
   (20, TFlowMappingStart); (21, TKey); (21, TScalar Plain (str "k")); (22, TValue); (24, TFlowSequenceStart); (25, TAlias (str "a"));
   (27, TFlowEntry); (29, TScalar SingleQuote (str "x'y")); (35, TFlowSequenceEnd); (36, TFlowMappingEnd); (38, TDocumentEnd);
   (42, TBlockMappingStart); (42, TKey); (49, TScalar Literal (str "b")); (51, TValue); (53, TBlockSequenceStart); (53, TBlockEntry);
   (55, TScalar Plain (str "c d")); (65, TBlockEntry); (67, TScalar DoubleQuote (str "x")); (71, TBlockEnd); (71, TBlockEnd); (71, TStreamEnd)]%N.
Proof. vm_compute. reflexivity. Qed.
(** The description tells texts apart: a plain scalar does not hold a comment, an anchor ends at its end, nothing is at the wrong place. *)
Example C65_tells : ~ stands (str "a b") (Token (Span (Marker 0 1 1) (Marker 1 2 1)) (TScalar SingleQuote (str "a"))) /\
  ~ stands (str "a b") (Token (Span (Marker 0 1 1) (Marker 1 2 1)) TBlockEntry).
Proof. exact (conj no_single no_dash). Qed.

(** ** C66 *)
(** Full statement: whatever is accepted as a quoted scalar, as an anchor or alias, as a tag or as a directive is one
    ([quoted_scalar], [anchor_name], [tag_text true], [directive_text true]).  It is false: see [C66_refuted].  Proved:
    single quotes, anchors and aliases in full; *)
Theorem C66_single_quotes indent in_flow fuel pre rest m l s c' tok : (0 < m_col m)%N ->
  scan_flow_scalar fuel true indent in_flow (Cur (StrSrc (pre ++ 39%N :: rest) (List.length pre)) m l s) = (c', Ok tok) ->
  exists q v r after, 39%N :: rest = q ++ r ++ after /\ quoted_scalar true (N.to_nat (indent - 1)) q v /\ header_rest r /\ may_follow in_flow q after /\
    (In 35%N r -> In (nth 0 after 0%N) [10; 13; 0]%N) /\
    c' = Cur (StrSrc ((pre ++ q ++ r) ++ after) (List.length (pre ++ q ++ r))) (marker_after (q ++ r) m) false s /\
    tok = Token (Span m (marker_after (q ++ r) m)) (TScalar SingleQuote v).
Proof. exact (fun C H => single_only indent in_flow fuel pre rest m l s c' tok H C). Qed.
Print Assumptions C66_single_quotes.
Theorem C66_anchors alias sign fuel pre rest m l s c' tok :
  scan_anchor fuel alias (Cur (StrSrc (pre ++ sign :: rest) (List.length pre)) m l s) = (c', Ok tok) ->
  exists n after, rest = n ++ after /\ anchor_name n /\ ~ anchor_byte (nth 0 after 0%N) /\
    c_src c' = StrSrc ((pre ++ sign :: n) ++ after) (List.length (pre ++ sign :: n)) /\
    tok = Token (Span m (mark_add (1 + List.length n) m)) (if alias then TAlias n else TAnchor n).
Proof. exact (anchor_only alias sign fuel pre rest m l s c' tok). Qed.
Print Assumptions C66_anchors.
(** of double quotes, tags and directives, that nothing else is accepted than what [taken_scalar], [taken_tag] and
    [taken_directive] describe. *)
Theorem C66_quotes_partial single indent in_flow fuel pre rest m l s c' tok : (0 < m_col m)%N ->
  scan_flow_scalar fuel single indent in_flow (Cur (StrSrc (pre ++ quote_byte single :: rest) (List.length pre)) m l s) = (c', Ok tok) ->
  exists q v r after, quote_byte single :: rest = q ++ r ++ after /\ taken_scalar single (N.to_nat (indent - 1)) q v /\ header_rest r /\ may_follow in_flow q after /\
    (In 35%N r -> In (nth 0 after 0%N) [10; 13; 0]%N) /\ (indent <= m_col m + 1)%N /\
    c' = Cur (StrSrc ((pre ++ q ++ r) ++ after) (List.length (pre ++ q ++ r))) (marker_after (q ++ r) m) false s /\
    tok = Token (Span m (marker_after (q ++ r) m)) (TScalar (if single then SingleQuote else DoubleQuote) v).
Proof. exact (fun C H => quoted_only single indent in_flow fuel pre rest m l s c' tok H C). Qed.
Print Assumptions C66_quotes_partial.
Theorem C66_tags_partial fuel in_flow pre rest m l s c' tok :
  scan_tag fuel in_flow (Cur (StrSrc (pre ++ 33%N :: rest) (List.length pre)) m l s) = (c', Ok tok) ->
  exists q after h v, 33%N :: rest = q ++ after /\ taken_tag q h v /\ tag_stop in_flow after /\
    c_src c' = StrSrc ((pre ++ q) ++ after) (List.length (pre ++ q)) /\ tok = Token (Span m (mark_add (List.length q) m)) (TTag h v).
Proof. exact (tag_only fuel in_flow pre rest m l s c' tok). Qed.
Print Assumptions C66_tags_partial.
Theorem C66_directives_partial fuel pre rest m l s c' tok :
  scan_directive fuel (Cur (StrSrc (pre ++ 37%N :: rest) (List.length pre)) m l s) = (c', Ok tok) ->
  exists q after, 37%N :: rest = q ++ after /\ taken_directive q (k_type tok) /\ line_done after /\
    (exists g rest', after = g ++ rest' /\ gap rest' g /\ c_src c' = StrSrc (((pre ++ q) ++ g) ++ rest') (List.length ((pre ++ q) ++ g))) /\
    k_span tok = Span m (mark_add (List.length q) m).
Proof. exact (directive_only fuel pre rest m l s c' tok). Qed.
Print Assumptions C66_directives_partial.
(** A line of a double-quoted scalar that starts with an escaped line break, the tag [!<>], and a handle with an underscore. *)
Theorem C66_refuted :
  (exists c, scan_flow_scalar 30 false 0 false (Cur (StrSrc odd_lines 0) (Marker 0 1 1) false true) = (c, Ok (Token (Span (Marker 0 1 1) (Marker 5 2 3)) (TScalar DoubleQuote [32%N]))) /\
     forall n v, ~ quoted_scalar false n odd_lines v) /\
  (exists c, scan_tag 30 false (Cur (StrSrc (str "!<> a") 0) (Marker 0 1 1) false true) = (c, Ok (Token (Span (Marker 0 1 1) (Marker 3 4 1)) (TTag [] []))) /\
     forall h v, ~ tag_text true (str "!<>") h v) /\
  (exists c, scan_tag 30 false (Cur (StrSrc (str "!x_y!z a") 0) (Marker 0 1 1) false true) = (c, Ok (Token (Span (Marker 0 1 1) (Marker 6 7 1)) (TTag (str "!x_y!") (str "z")))) /\
     ~ tag_text true (str "!x_y!z") (str "!x_y!") (str "z")).
Proof. exact accepted_anyway. Qed.
Print Assumptions C66_refuted.
Example C66_meets :
  (exists c tok, scan_flow_scalar 30 true 3 true (Cur (StrSrc (str "[ 'it''s' , b]") 2) (Marker 2 3 1) false true) = (c, Ok tok) /\ k_type tok = TScalar SingleQuote (str "it's")) /\
  (exists c tok, scan_anchor 30 false (Cur (StrSrc (str "- &a:b c") 2) (Marker 2 3 1) false true) = (c, Ok tok) /\ k_type tok = TAnchor (str "a:b")) /\
  (exists c tok, scan_tag 30 false (Cur (StrSrc (str "- !e!%41 c") 2) (Marker 2 3 1) false true) = (c, Ok tok) /\ k_type tok = TTag (str "!e!") (str "A")) /\
  (exists c tok, scan_directive 30 (Cur (StrSrc (str "%TAG !e! x:" ++ [10%N]) 0) (Marker 0 1 1) false true) = (c, Ok tok) /\ k_type tok = TTagDirective (str "!e!") (str "x:")).
Proof.
  split; [|split; [|split]]; eexists; eexists; (split; [vm_compute; reflexivity|reflexivity]).
Qed.

(** ** C67 *)
(** When a scan comes to its end without an error, the whole text is made of what is written for the delivered tokens, in their
    order, with nothing but white space and comments in between ([covers]). *)
Theorem C67_text_is_covered i fuel l z : scan fuel i = (l, (z, Ok tt)) -> z_error z = None -> covers i i l.
Proof. exact (whole_covered i fuel l z). Qed.
Print Assumptions C67_text_is_covered.
(** However a scan ends, the delivered tokens and those that were waiting to be delivered cover the text up to some place. *)
Theorem C67_read_is_covered i fuel : exists x rest waiting, i = x ++ rest /\ covers i x (fst (scan fuel i) ++ waiting).
Proof. exact (some_covered i fuel). Qed.
Print Assumptions C67_read_is_covered.
Example C67_example : exists l z, scan 200 C65_text = (l, (z, Ok tt)) /\ z_error z = None /\ covers C65_text C65_text l /\ List.length l = 28.
Proof.
  destruct (scan 200 C65_text) as [l [z o]] eqn:E. exists l, z. assert (E1 : z_error (fst (snd (scan 200 C65_text))) = None) by (vm_compute; reflexivity). assert (E2 : snd (snd (scan 200 C65_text)) = Ok tt) by (vm_compute; reflexivity).
  assert (E3 : List.length (fst (scan 200 C65_text)) = 28) by (vm_compute; reflexivity). rewrite E in E1, E2, E3. cbn [fst snd] in E1, E2, E3. subst o. repeat split; try assumption. exact (whole_covered _ _ _ _ E E1).
Qed.
(** Nothing that matters can be passed over: a comma is not covered without its token. *)
Example C67_tells : ~ covers (str ",") (str ",") [].
Proof. exact no_cover. Qed.
