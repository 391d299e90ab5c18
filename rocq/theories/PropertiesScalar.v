(** Properties of scalar resolution: C16-C20, C48. *)
From Verif Require Import Base Tokens Scalar SpecScalar Yaml ScalarProofs ScalarTags.
From Coq Require Import String.
Local Open Scope list_scope.

(** C16. *)
Theorem C16_quoted_is_string : forall t style, style <> Plain ->
  value_from_cow_and_metadata t style None = YScalar (SString t).
Proof. exact quoted_is_string. Qed.
Print Assumptions C16_quoted_is_string.
Example C16_example :
  value_from_cow_and_metadata (str "true") DoubleQuote None = YScalar (SString (str "true")) /\
  value_from_cow_and_metadata (str "12") SingleQuote None = YScalar (SString (str "12")) /\
  value_from_cow_and_metadata (str "12") Plain None = YScalar (SInt 12).
Proof. vm_compute. auto. Qed.

(** C17: the printed form of every 64-bit integer is a decimal notation of it and resolves to it... *)
Theorem C17_integers_survive : forall z, i64_range z ->
  signed dec_digit 10 (show_Z z) z /\
  value_from_cow_and_metadata (show_Z z) Plain None = YScalar (SInt z).
Proof. exact integers_survive. Qed.
Print Assumptions C17_integers_survive.
(** ... as does every other decimal notation of it, leading zeros and a plus sign included; and a
    decimal notation of a number outside the range is no integer. *)
Theorem C17_decimal_notations : forall t z, signed dec_digit 10 t z ->
  (i64_range z -> value_from_cow_and_metadata t Plain None = YScalar (SInt z)) /\
  (~ i64_range z -> forall z', value_from_cow_and_metadata t Plain None <> YScalar (SInt z')).
Proof. exact decimal_notations. Qed.
Print Assumptions C17_decimal_notations.
Example C17_example :
  i64_range (-9223372036854775808) /\ ~ i64_range 9223372036854775808 /\
  show_Z (-9223372036854775808) = str "-9223372036854775808" /\
  value_from_cow_and_metadata (str "9223372036854775808") Plain None
    = YScalar (SFloat (FNum false 9223372036854775808 0)).
Proof. vm_compute. intuition congruence. Qed.

(** C18. *)
Theorem C18_hexadecimal : forall ds, all_digits hex_digit ds ->
  (i64_range (number 16 ds) ->
   value_from_cow_and_metadata (str "0x" ++ ds) Plain None = YScalar (SInt (number 16 ds))) /\
  (~ i64_range (number 16 ds) ->
   forall z, value_from_cow_and_metadata (str "0x" ++ ds) Plain None <> YScalar (SInt z)).
Proof. exact hexadecimal. Qed.
Print Assumptions C18_hexadecimal.
Theorem C18_octal : forall ds, all_digits oct_digit ds ->
  (i64_range (number 8 ds) ->
   value_from_cow_and_metadata (str "0o" ++ ds) Plain None = YScalar (SInt (number 8 ds))) /\
  (~ i64_range (number 8 ds) ->
   forall z, value_from_cow_and_metadata (str "0o" ++ ds) Plain None <> YScalar (SInt z)).
Proof. exact octal. Qed.
Print Assumptions C18_octal.
Example C18_example :
  all_digits hex_digit (str "1fF") /\ number 16 (str "1fF") = 511%Z /\
  number 8 (str "17") = 15%Z /\
  value_from_cow_and_metadata (str "0x8000000000000000") Plain None
    = YScalar (SString (str "0x8000000000000000")).
Proof.
  split; [|vm_compute; auto]. split; [discriminate|].
  repeat constructor; unfold hex_digit; vm_compute; intuition discriminate.
Qed.

(** C19 for null and booleans: exactly the core-schema spellings. *)
Theorem C19_null_spellings : forall t,
  value_from_cow_and_metadata t Plain None = YScalar SNull <-> null_spelling t.
Proof. exact null_spellings. Qed.
Print Assumptions C19_null_spellings.
Theorem C19_bool_spellings : forall t b,
  value_from_cow_and_metadata t Plain None = YScalar (SBool b) <-> bool_spelling t b.
Proof. exact bool_spellings. Qed.
Print Assumptions C19_bool_spellings.
(** C19 for integers, the part that holds: the core-schema forms, or three further forms that have
    a sign where the core schema has none. Missing: the exclusion of those forms (see below). *)
Theorem C19_integer_spellings_partial : forall t z,
  value_from_cow_and_metadata t Plain None = YScalar (SInt z) <->
  (core_int t z \/ extra_int t z) /\ i64_range z.
Proof. exact integer_spellings. Qed.
Print Assumptions C19_integer_spellings_partial.
(** C19 is false for integers: [++5], [+-5] and [0x-5]. *)
Theorem C19_refuted :
  exists t z, value_from_cow_and_metadata t Plain None = YScalar (SInt z) /\ forall z', ~ core_int t z'.
Proof. exact plus_plus_is_integer. Qed.
Print Assumptions C19_refuted.
Example C19_example :
  value_from_cow_and_metadata (str "+-5") Plain None = YScalar (SInt (-5)) /\
  value_from_cow_and_metadata (str "0x-5") Plain None = YScalar (SInt (-5)) /\
  value_from_cow_and_metadata (str "yes") Plain None = YScalar (SString (str "yes")) /\
  value_from_cow_and_metadata (str "nULL") Plain None = YScalar (SString (str "nULL")).
Proof. vm_compute. auto. Qed.

(** C20 for plain scalars: a core-schema tag gives a value of its type or the bad value; which
    texts fit is said exactly. *)
Theorem C20_int_tag_partial : forall t g, core_tag g (str "int") ->
  let y := value_from_cow_and_metadata t Plain (Some g) in
  (forall z, y = YScalar (SInt z) <-> signed dec_digit 10 t z /\ i64_range z) /\
  (y = YBad \/ exists z, y = YScalar (SInt z)).
Proof. exact int_tag. Qed.
Print Assumptions C20_int_tag_partial.
Theorem C20_float_tag_partial : forall t g, core_tag g (str "float") ->
  let y := value_from_cow_and_metadata t Plain (Some g) in
  (forall f, y = YScalar (SFloat f) <-> denotes_float t f) /\
  (y = YBad \/ exists f, y = YScalar (SFloat f)).
Proof. exact float_tag. Qed.
Print Assumptions C20_float_tag_partial.
Theorem C20_bool_tag_partial : forall t g, core_tag g (str "bool") ->
  let y := value_from_cow_and_metadata t Plain (Some g) in
  (forall b, y = YScalar (SBool b) <-> t = (if b then str "true" else str "false")) /\
  (y = YBad \/ exists b, y = YScalar (SBool b)).
Proof. exact bool_tag. Qed.
Print Assumptions C20_bool_tag_partial.
Theorem C20_null_tag_partial : forall t g, core_tag g (str "null") ->
  let y := value_from_cow_and_metadata t Plain (Some g) in
  (y = YScalar SNull <-> In t [[]; str "null"; str "~"]) /\ (y = YBad \/ y = YScalar SNull).
Proof. exact null_tag. Qed.
Print Assumptions C20_null_tag_partial.
(** [!!str] in every style, and any other core-schema name on a plain scalar. *)
Theorem C20_str_tag : forall t style g, core_tag g (str "str") ->
  value_from_cow_and_metadata t style (Some g) = YScalar (SString t).
Proof. exact str_tag. Qed.
Print Assumptions C20_str_tag.
Theorem C20_unknown_core_tag_partial : forall t g name, core_tag g name ->
  ~ In name [str "int"; str "float"; str "bool"; str "null"; str "str"] ->
  value_from_cow_and_metadata t Plain (Some g) = YBad.
Proof. exact unknown_core_tag. Qed.
Print Assumptions C20_unknown_core_tag_partial.
(** A tag outside the core schema stays around the untagged resolution. *)
Theorem C20_other_tag : forall t style g, t_handle g <> str "tag:yaml.org,2002:" ->
  value_from_cow_and_metadata t style (Some g) =
  YTagged g (value_from_cow_and_metadata t style None).
Proof. exact other_tag. Qed.
Print Assumptions C20_other_tag.
(** C20 is false for quoted scalars: [!!int "12"] is a string. *)
Theorem C20_refuted : exists t style g s, core_tag g (str "int") /\
  value_from_cow_and_metadata t style (Some g) = YScalar (SString s).
Proof.
  exists (str "12"), DoubleQuote, (Tag (str "tag:yaml.org,2002:") (str "int")), (str "12").
  split; [split; reflexivity|reflexivity].
Qed.
Print Assumptions C20_refuted.
Example C20_example :
  let core n := Some (Tag (str "tag:yaml.org,2002:") (str n)) in
  value_from_cow_and_metadata (str "0x1f") Plain (core "int"%string) = YBad /\
  value_from_cow_and_metadata (str "-12") Plain (core "int"%string) = YScalar (SInt (-12)) /\
  value_from_cow_and_metadata (str "12") Plain (core "float"%string) = YScalar (SFloat (FNum false 12 0)) /\
  value_from_cow_and_metadata (str "12") Plain (core "str"%string) = YScalar (SString (str "12")) /\
  value_from_cow_and_metadata (str "12") Plain (Some (Tag (str "!") (str "foo")))
    = YTagged (Tag (str "!") (str "foo")) (YScalar (SInt 12)).
Proof. vm_compute. auto. Qed.

(** C48: floats are exactly the core-schema float spellings that are not 64-bit decimal integers,
    with the decimal number the text denotes. *)
Theorem C48_float_spellings : forall t f,
  value_from_cow_and_metadata t Plain None = YScalar (SFloat f) <->
  denotes_float t f /\ ~ (exists z, signed dec_digit 10 t z /\ i64_range z).
Proof. exact float_spellings. Qed.
Print Assumptions C48_float_spellings.
(** Whatever is none of these is the string itself. *)
Theorem C48_everything_else_is_string : forall t,
  (~ null_spelling t) -> (forall b, ~ bool_spelling t b) -> (forall z, ~ core_int t z /\ ~ extra_int t z) ->
  (forall f, ~ denotes_float t f) ->
  value_from_cow_and_metadata t Plain None = YScalar (SString t).
Proof. exact everything_else. Qed.
Print Assumptions C48_everything_else_is_string.
Example C48_example :
  value_from_cow_and_metadata (str "-1.5e3") Plain None = YScalar (SFloat (FNum true 15 2)) /\
  value_from_cow_and_metadata (str "+.inf") Plain None = YScalar (SFloat (FInf false)) /\
  value_from_cow_and_metadata (str "1.") Plain None = YScalar (SFloat (FNum false 1 0)) /\
  value_from_cow_and_metadata (str "nan") Plain None = YScalar (SString (str "nan")) /\
  value_from_cow_and_metadata (str "1e") Plain None = YScalar (SString (str "1e")).
Proof. vm_compute. auto. Qed.
