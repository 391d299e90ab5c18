(** Anchors, tags and directives: the statements of the properties about them, and witnesses. *)
From Verif Require Import Base Tokens Scalar Source Cursor ExactCursor SpecScalar SpecJson SpecBlock SpecStream SpecFlow SpecQuoted SpecProps PropsScan.
From Coq Require Import String Lia ZifyBool ZifyNat ZifyN.
Local Open Scope list_scope.

Lemma anchor_scans fuel alias sign n after pre m l s : anchor_name n -> ~ anchor_byte (nth 0 after 0%N) -> List.length n < fuel ->
  let doc := pre ++ sign :: n ++ after in let m' := mark_add (1 + List.length n) m in
  scan_anchor fuel alias (Cur (StrSrc doc (List.length pre)) m l s)
  = (Cur (StrSrc doc (List.length pre + (1 + List.length n))) m' false s, Ok (Token (Span m m') (if alias then TAlias n else TAnchor n))).
Proof.
  intros A B F doc m'. pose proof (e_scan_anchor alias sign n fuel pre after m l s A B F) as E. cbv zeta in E. unfold cur in E. fold doc in E.
  replace ((pre ++ sign :: n) ++ after) with doc in E by (unfold doc; now rewrite <- app_assoc). rewrite app_length in E. exact E.
Qed.
Lemma tag_scans fuel in_flow w h v after pre m l s : tag_text false w h v -> tag_stop in_flow after -> List.length w + 2 < fuel ->
  let doc := pre ++ w ++ after in let m' := mark_add (List.length w) m in
  scan_tag fuel in_flow (Cur (StrSrc doc (List.length pre)) m l s)
  = (Cur (StrSrc doc (List.length pre + List.length w)) m' false s, Ok (Token (Span m m') (TTag h v))).
Proof.
  intros A B F doc m'. pose proof (e_scan_tag w h v in_flow fuel pre after m l s A B F) as E. cbv zeta in E. unfold cur in E. fold doc in E.
  replace ((pre ++ w) ++ after) with doc in E by (unfold doc; now rewrite <- app_assoc). rewrite app_length in E. exact E.
Qed.
Lemma directive_scans fuel w d r b after pre m l s : directive_text false w d -> line_rest r -> List.length w + List.length r + 3 < fuel ->
  let t := w ++ r ++ eol b in let doc := pre ++ t ++ after in
  exists e, scan_directive fuel (Cur (StrSrc doc (List.length pre)) m l s)
  = (Cur (StrSrc doc (List.length pre + List.length t)) (marker_after t m) true s, Ok (Token (Span m e) (dir_tok d))).
Proof.
  intros A B F t doc. destruct (e_scan_directive w d r b fuel pre after m l s A B F) as [e E]. exists e. unfold cur in E.
  replace (pre ++ w ++ r ++ eol b ++ after) with doc in E by (unfold doc, t; now rewrite <- !app_assoc).
  replace ((pre ++ w ++ r ++ eol b) ++ after) with doc in E by (unfold doc, t; now rewrite <- !app_assoc). rewrite app_length in E. exact E.
Qed.

(** ** Witnesses *)
Lemma percent_by b x y : Forall hex_digit [x; y] -> number 16 [x; y] = Z.of_N b -> percent b [37%N; x; y].
Proof. intros H1 H2. exists [x; y]. auto. Qed.
(** [Forall] element by element. *)
Ltac each t := match goal with |- Forall ?p ?l => let l' := eval vm_compute in l in change (Forall p l') end; repeat (apply Forall_cons; [t|]); apply Forall_nil.
Ltac hexes := each ltac:(unfold hex_digit; lia).
Lemma accent_tag : tag_text true (str "!%C3%A9") (str "!") [195; 169]%N.
Proof.
  apply (tt_local true (str "%C3%A9")); [discriminate|]. apply (ut_escape true tag_byte 233 [195; 169]%N [[37; 67; 51]%N; [37; 65; 57]%N] [] []).
  - apply (u8_two 3 41); lia.
  - discriminate.
  - repeat (apply Forall2_cons; [apply percent_by; [hexes|reflexivity]|]). apply Forall2_nil.
  - constructor.
Qed.
Lemma kanji_tag : tag_text true (str "!<%E6%97%A5>") [] [230; 151; 165]%N.
Proof.
  apply (tt_verbatim true (str "%E6%97%A5")); [discriminate|]. apply (ut_escape true uri_byte 26085 [230; 151; 165]%N [[37; 69; 54]%N; [37; 57; 55]%N; [37; 65; 53]%N] [] []).
  - apply (u8_three 6 23 37); lia.
  - discriminate.
  - repeat (apply Forall2_cons; [apply percent_by; [hexes|reflexivity]|]). apply Forall2_nil.
  - constructor.
Qed.
(** The tag [w] in front of a space is not scanned as [h] and [v]. *)
Definition tag_lost (w h v : text) : Prop := forall fuel c sp, scan_tag fuel false (Cur (StrSrc (w ++ [32%N]) 0) (Marker 0 1 1) false true) <> (c, Ok (Token sp (TTag h v))).
Lemma accent_lost : tag_lost (str "!%C3%A9") (str "!") [195; 169]%N.
Proof. intros fuel c sp. do 20 (destruct fuel as [|fuel]; [vm_compute; discriminate|]). vm_compute. discriminate. Qed.
Lemma kanji_lost : tag_lost (str "!<%E6%97%A5>") [] [230; 151; 165]%N.
Proof. intros fuel c sp. do 20 (destruct fuel as [|fuel]; [vm_compute; discriminate|]). vm_compute. discriminate. Qed.
Lemma big_version : directive_text true (str "%YAML 1.256") (DVersion 1 256).
Proof.
  apply (dt_version true [32%N] (str "1") 1 (str "256") 256).
  - split; [discriminate|]. constructor; [now left|constructor].
  - split; [discriminate|]. split; [each ltac:(unfold SpecProps.digit_byte; lia)|]. split; [reflexivity|discriminate].
  - split; [discriminate|]. split; [each ltac:(unfold SpecProps.digit_byte; lia)|]. split; [reflexivity|discriminate].
Qed.
Lemma big_version_lost fuel c sp : scan_directive fuel (Cur (StrSrc (str "%YAML 1.256" ++ [10%N]) 0) (Marker 0 1 1) false true) <> (c, Ok (Token sp (TVersionDirective 1 256))).
Proof. do 20 (destruct fuel as [|fuel]; [vm_compute; discriminate|]). vm_compute. discriminate. Qed.

(** ** Cases *)
Ltac uris := lazymatch goal with
  | |- uri_text _ _ [] _ => apply ut_end
  | |- uri_text _ _ (37%N :: ?x :: ?y :: ?w) (?b :: ?v) => apply (ut_escape _ _ b [b] [[37%N; x; y]] w v);
      [apply u8_one; reflexivity|intros _; reflexivity|constructor; [apply percent_by; [hexes|reflexivity]|constructor]|uris]
  | |- uri_text _ _ (_ :: _) (_ :: _) => apply ut_byte; [first [left; unfold word_byte; lia|right; vm_compute; tauto|
      split; [first [left; unfold word_byte; lia|right; vm_compute; tauto]|vm_compute; intuition discriminate]]|uris]
  end.
Ltac plainly := match goal with |- uri_text ?f ?p ?w ?v => let w' := eval vm_compute in w in let v' := eval vm_compute in v in change (uri_text f p w' v') end.
Lemma named_case : tag_text false (str "!my-app!a%2Fb") (str "!my-app!") (str "a/b").
Proof. apply (tt_named false (str "my-app") (str "a%2Fb")); [each ltac:(unfold word_byte; lia)|discriminate|]. plainly; uris. Qed.
Lemma verbatim_case : tag_text false (str "!<tag:yaml.org,2002:%21[x]>") [] (str "tag:yaml.org,2002:![x]").
Proof. apply (tt_verbatim false (str "tag:yaml.org,2002:%21[x]")); [discriminate|]. plainly; uris. Qed.
Lemma local_case : tag_text false (str "!a-1:%7Eb") (str "!") (str "a-1:~b").
Proof. apply (tt_local false (str "a-1:%7Eb")); [discriminate|]. plainly; uris. Qed.
Lemma one_blank : blanks [32%N].
Proof. split; [discriminate|]. constructor; [now left|constructor]. Qed.
Lemma version_case : directive_text false (str "%YAML 1.02") (DVersion 1 2).
Proof.
  apply (dt_version false [32%N] (str "1") 1 (str "02") 2); [exact one_blank| |];
    (split; [discriminate|]; split; [each ltac:(unfold SpecProps.digit_byte; lia)|]; split; [reflexivity|]; intros _; split; [lia|cbn; lia]).
Qed.
Lemma tag_case : directive_text false (str "%TAG !e!  tag:example.com,2000:%41/") (DTag (str "!e!") (str "tag:example.com,2000:A/")).
Proof.
  apply (dt_tag false [32%N] (str "!e!") [32; 32]%N (str "tag:example.com,2000:%41/")); [exact one_blank| | |].
  - apply (th_named (str "e")). each ltac:(unfold word_byte; lia).
  - split; [discriminate|]. each ltac:(now left).
  - apply (tp_global false 116 (str "ag:example.com,2000:%41/") (str "ag:example.com,2000:A/")); [split; [left; unfold word_byte; lia|vm_compute; intuition discriminate]|]. plainly; uris.
Qed.
Lemma reserved_case : directive_text false (str "%FOO  bar #baz") (DTag [] []).
Proof.
  apply (dt_reserved false (str "FOO") (str "  bar #baz")); [discriminate|each ltac:(unfold word_byte; lia)|discriminate|discriminate|]. right.
  split; [now left|]. each ltac:(unfold comment_byte; cbn; intuition discriminate).
Qed.
Lemma anchor_case : anchor_name (str "a:b*#&!") /\ ~ anchor_byte (nth 0 (str ", x") 0%N).
Proof. split; [split; [discriminate|each ltac:(unfold anchor_byte; vm_compute; intuition discriminate)]|]. unfold anchor_byte. vm_compute. tauto. Qed.
