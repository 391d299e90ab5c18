(** Properties of the small modules: C38 (base64), C41 (escaper), C42 (expansion limits). *)
From Verif Require Import Base Tokens Base64 SpecBase64 Base64Proofs Escaper SpecEscaper EscaperProofs
  Lazy SpecLazy.
From Coq Require Import String.
Local Open Scope list_scope.

(** C38: the encoding is RFC 4648 base64. *)
Theorem C38_encodes_base64 : forall l, Forall is_byte l -> encode_as_base64 l = b64 l.
Proof. exact encode_is_b64. Qed.
Print Assumptions C38_encodes_base64.
Theorem C38_roundtrip : forall l, Forall is_byte l -> decode_as_base64 (encode_as_base64 l) = l.
Proof. exact base64_roundtrip. Qed.
Print Assumptions C38_roundtrip.
Theorem C38_length : forall l, Forall is_byte l ->
  List.length (encode_as_base64 l) = 4 * ((List.length l + 2) / 3).
Proof. intros l H. rewrite encode_is_b64 by exact H. apply b64_length. Qed.
Print Assumptions C38_length.
(** Only alphabet characters, then at most two padding characters. *)
Theorem C38_alphabet : forall l, Forall is_byte l ->
  exists body k, encode_as_base64 l = body ++ repeat 61%N k /\ k <= 2 /\ Forall b64_alphabet body.
Proof. intros l H. rewrite encode_is_b64 by exact H. apply b64_shape, H. Qed.
Print Assumptions C38_alphabet.
(** Spaces and line breaks anywhere in the encoded text are ignored. *)
Theorem C38_spaces_ignored : forall t u,
  filter (fun c => negb (b64_space c)) t = filter (fun c => negb (b64_space c)) u ->
  decode_as_base64 t = decode_as_base64 u.
Proof. intros t u H. unfold decode_as_base64. rewrite (decode_spaces t), (decode_spaces u), H. reflexivity. Qed.
Print Assumptions C38_spaces_ignored.
(** Both together: an encoding broken into lines decodes to the bytes. *)
Theorem C38_roundtrip_with_breaks : forall l t, Forall is_byte l ->
  filter (fun c => negb (b64_space c)) t = encode_as_base64 l -> decode_as_base64 t = l.
Proof.
  intros l t H E. rewrite <- (base64_roundtrip l H), <- E. unfold decode_as_base64. apply decode_spaces.
Qed.
Print Assumptions C38_roundtrip_with_breaks.
Example C38_example :
  encode_as_base64 (str "Many hands") = str "TWFueSBoYW5kcw==" /\
  decode_as_base64 (str "TWFu eSBo" ++ [13; 10]%N ++ str "YW5kcw==") = str "Many hands" /\
  Forall is_byte (str "Many hands").
Proof.
  split; [vm_compute; reflexivity|]. split; [vm_compute; reflexivity|].
  apply Forall_forall. intros x Hx. vm_compute in Hx. unfold is_byte.
  repeat (destruct Hx as [<-|Hx]; [reflexivity|]). destruct Hx.
Qed.

(** C41, unchanged texts; the escaper never panics and never runs out of fuel. *)
Theorem C41_plain_unchanged : forall t, Forall (fun c => ~ special_plain c) t -> escape_plain t = Ok t.
Proof. intros t H. rewrite plain_escape, plain_unchanged by exact H. reflexivity. Qed.
Print Assumptions C41_plain_unchanged.
Theorem C41_single_unchanged : forall t, Forall (fun c => ~ special_single c) t -> escape_single_quotes t = Ok t.
Proof. intros t H. rewrite single_escape, single_unchanged by exact H. reflexivity. Qed.
Print Assumptions C41_single_unchanged.
(** What the escaped forms are, for all texts. *)
Theorem C41_what_is_escaped : forall t,
  escape_plain t = Ok (plain_spec t) /\ escape_single_quotes t = Ok (single_spec t).
Proof. intros t. split; [apply plain_escape|apply single_escape]. Qed.
Print Assumptions C41_what_is_escaped.
(** Reversibility in single-quote mode. *)
Theorem C41_single_injective : forall t1 t2, escape_single_quotes t1 = escape_single_quotes t2 -> t1 = t2.
Proof. intros t1 t2. rewrite !single_escape. intros H. apply single_injective. congruence. Qed.
Print Assumptions C41_single_injective.
(** Reversibility in plain mode, for texts without the byte pairs backslash-[t] and backslash-[r].
    Missing: the other texts (see [C41_refuted]). *)
Theorem C41_plain_injective_partial : forall t1 t2, ~ has_escape_pair t1 -> ~ has_escape_pair t2 ->
  escape_plain t1 = escape_plain t2 -> t1 = t2.
Proof. intros t1 t2 H1 H2. rewrite !plain_escape. intros H. apply plain_injective; congruence. Qed.
Print Assumptions C41_plain_injective_partial.
(** C41 is false in plain mode: a tab and the two characters backslash-[t] get the same form. *)
Theorem C41_refuted : exists t1 t2, t1 <> t2 /\ escape_plain t1 = escape_plain t2.
Proof. exists [9%N], [92; 116]%N. split; [discriminate|]. vm_compute. reflexivity. Qed.
Print Assumptions C41_refuted.
Example C41_example :
  escape_plain (str "say ""hi"" 'now'") = Ok (str "say ""hi"" 'now'") /\
  escape_plain [97; 10; 98; 92; 99]%N = Ok (str "a\nb\\c") /\
  ~ has_escape_pair [97; 10; 98; 92; 99]%N /\
  escape_single_quotes [97; 13; 10; 98]%N = Ok (str "a\r\nb").
Proof.
  split; [vm_compute; reflexivity|]. split; [vm_compute; reflexivity|]. split; [|vm_compute; reflexivity].
  intros (a & b & c & E & Hc).
  do 5 (destruct a as [|? a]; [cbn in E; injection E; intros; subst; destruct Hc; discriminate|];
        cbn [app] in E; injection E; clear E; intros E ?; subst).
  destruct a; discriminate.
Qed.

(** C42: the size is the number of scalar leaves. *)
Theorem C42_limit_counts_leaves : forall x, calculate_limit x = List.length (leaves x).
Proof. exact limit_counts. Qed.
Print Assumptions C42_limit_counts_leaves.
Theorem C42_expansion_permitted : forall x limit,
  can_expand x limit = true <-> List.length (leaves x) < limit.
Proof. exact can_expand_iff. Qed.
Print Assumptions C42_expansion_permitted.
Example C42_example :
  let s (t : string) := LScalar (ScalarValue (str t) Plain 0 None) in
  let x := LVector [s "a"%string; LMap [(s "k"%string, LVector [s "b"%string; s "c"%string])]; LVector []] in
  calculate_limit x = 4 /\ can_expand x 5 = true /\ can_expand x 4 = false.
Proof. vm_compute. auto. Qed.
