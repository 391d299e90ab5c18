(** Strings the emitter leaves unquoted. *)
From Verif Require Import Base Tokens Scalar SpecScalar ScalarProofs Yaml SpecEmit Emitter.
From Coq Require Import String Lia ZifyBool ZifyNat ZifyN.
Local Open Scope list_scope.

Lemma unquoted_facts t : need_quotes t = false ->
  exists c r, t = c :: r /\ c <> 32%N /\ ends_with 32 t = false /\ is_leading_indicator c = false /\
    existsb needs_quotes_byte t = false /\ one_of t quoted_words = false /\ c <> 46%N /\
    starts_with (str "0x") t = false /\ parse_i64 t = None /\ parses_as_f64 t = false.
Proof.
  unfold need_quotes. destruct t as [|c r]; [discriminate|]. intros H.
  repeat (apply orb_false_elim in H; destruct H as [H ?]). exists c, r.
  repeat split; auto; try lia. now destruct (parse_i64 (c :: r)).
Qed.
Lemma misread_not_string t : misread t -> parse_from_cow t <> SString t.
Proof.
  intros M E. inversion M as [ds z S I X|ds z S I R X|u I X]; subst.
  - assert (P : parse_from_cow (str "0o" ++ ds) = SInt z); [|congruence].
    unfold parse_from_cow. change (str "0o" ++ ds) with (48%N :: 111%N :: ds). cbn [prefixed_int].
    change ((48 =? 48)%N && (111 =? 120)%N) with false. change ((48 =? 48)%N && (111 =? 111)%N) with true. cbv iota.
    assert (F : from_str_radix 8 ds = Some z) by (apply from_str_radix_iff; auto).
    now rewrite F.
  - assert (P : parse_from_cow (plus ++ ds) = SInt z); [|congruence].
    apply parse_int_iff. split; [right; now constructor|exact I].
  - cbn [In] in I. destruct I as [<-|[<-|[<-|[]]]]; vm_compute in E; discriminate.
Qed.
Lemma unquoted_cases t : need_quotes t = false -> parse_from_cow t = SString t \/ misread t.
Proof.
  intros Q. destruct (unquoted_facts t Q) as (c & r & E & C & EN & IL & B & W & D & X & I & F).
  unfold parse_from_cow.
  destruct (prefixed_int t) as [z|] eqn:P.
  { right. subst t. destruct r as [|b r]; [discriminate|]. cbn [prefixed_int] in P.
    destruct ((c =? 48)%N && (b =? 120)%N) eqn:H1.
    { assert (c = 48%N /\ b = 120%N) as [-> ->] by lia. exfalso. discriminate. }
    destruct ((c =? 48)%N && (b =? 111)%N) eqn:H2.
    { assert (c = 48%N /\ b = 111%N) as [-> ->] by lia.
      apply from_str_radix_iff in P; [|auto]. destruct P as [S R]. exact (misread_octal r z S R). }
    destruct (N.eqb_spec c 43) as [->|]; [|exfalso; discriminate].
    apply from_str_radix_iff in P; [|auto]. destruct P as [S R].
    assert (K : (exists r', b :: r = plus ++ r' \/ b :: r = minus ++ r') \/ all_digits dec_digit (b :: r) /\ z = number 10 (b :: r)).
    { change (digit_of 10) with dec_digit in S. inversion S as [ds A BB|ds A BB|ds A BB]; [right; split; [exact A|reflexivity]|left; exists r; left; reflexivity|left; exists r; right; reflexivity]. }
    destruct K as [K|[K ->]].
    - exact (misread_signs (b :: r) z S R K).
    - exfalso. assert (parse_i64 (43%N :: b :: r) = Some (number 10 (b :: r))); [|congruence].
      apply from_str_radix_iff; [auto|]. split; [|exact R]. exact (signed_plus _ 10 (b :: r) K). }
  destruct (keyword t) as [k|] eqn:K.
  { exfalso. apply keyword_iff in K.
    assert (one_of t quoted_words = true); [|congruence]. apply one_of_iff.
    destruct K as [[_ K]|[b [_ K]]]; [|destruct b]; unfold null_spelling, bool_spelling in K; cbn [In] in K;
      unfold quoted_words; cbn [In]; intuition auto 30. }
  rewrite I.
  destruct (parse_core_schema_fp t) as [f|] eqn:G; [|left; reflexivity].
  unfold parse_core_schema_fp in G.
  destruct (one_of t [str ".inf"; str ".Inf"; str ".INF"; str "+.inf"; str "+.Inf"; str "+.INF"]) eqn:G1.
  { apply one_of_iff in G1. cbn [In] in G1.
    destruct G1 as [G1|[G1|[G1|G1]]]; try (exfalso; rewrite <- G1 in E; injection E as <- _; now apply D).
    right. apply misread_inf. cbn [In]. tauto. }
  exfalso.
  destruct (one_of t [str "-.inf"; str "-.Inf"; str "-.INF"]) eqn:G2.
  { apply one_of_iff in G2. cbn [In] in G2.
    destruct G2 as [G2|[G2|[G2|[]]]]; rewrite <- G2 in E; injection E as <- _; discriminate. }
  destruct (one_of t [str ".nan"; str ".NaN"; str ".NAN"]) eqn:G3.
  { apply one_of_iff in G3. cbn [In] in G3.
    destruct G3 as [G3|[G3|[G3|[]]]]; rewrite <- G3 in E; injection E as <- _; now apply D. }
  destruct (existsb is_ascii_digit t); [|discriminate].
  unfold parses_as_f64 in F. now rewrite G in F.
Qed.
Lemma unquoted_string t : need_quotes t = false -> ~ misread t -> parse_from_cow t = SString t.
Proof. intros Q M. destruct (unquoted_cases t Q); tauto. Qed.
Lemma unquoted_iff t : need_quotes t = false ->
  (parse_from_cow_and_metadata t Plain None = Some (SString t) <-> ~ misread t).
Proof.
  intros Q. split.
  - intros E M. apply (misread_not_string t M). injection E as E. exact E.
  - intros M. cbn. now rewrite unquoted_string.
Qed.
