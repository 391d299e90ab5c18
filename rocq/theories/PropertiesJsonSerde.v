(** JSON texts deserialised (C75). *)
From Verif Require Import Base Tokens Scalar Yaml SpecScalar Serde SpecSerde FromText SpecJson SpecJsonSerde JsonSerde.
From Coq Require Import String Lia.
Local Open Scope list_scope.

(** Full statement: for every [w], [y], [t] and [x] with [json_text true w y] and [json_is true t y x],
    deserialising [w] as a [t] gives [x].  It is false: see [C75_refuted].
    Proved: it holds of the JSON texts of C56 ([json_text false]), the types of C40 ([reads]), and all values but
    zero as an unsigned integer and the strings that an [Option] takes for null ([json_is false]). *)
Theorem C75_json_deserialises_partial w y t x fuel : json_text false w y -> (N.of_nat (List.length w) < 4294967295)%N ->
  reads false t = true -> json_is false t y x -> 12 * List.length w + 20 < fuel -> from_text fuel t w = Ok (DOk x).
Proof. exact (json_deserialises w y t x fuel). Qed.
Print Assumptions C75_json_deserialises_partial.

(** Both exceptions are needed: ["null"] in quotes is no value of an [Option<String>], and [-0] is not
    read as an unsigned integer. *)
Theorem C75_refuted : exists w1 y1 t1 x1 w2 y2 t2 x2,
  (json_text false w1 y1 /\ reads false t1 = true /\ json_is true t1 y1 x1 /\ forall fuel, from_text fuel t1 w1 <> Ok (DOk x1)) /\
  (json_text false w2 y2 /\ reads false t2 = true /\ json_is true t2 y2 x2 /\ forall fuel, from_text fuel t2 w2 <> Ok (DOk x2)).
Proof.
  exists (str """null"""), (YScalar (SString (str "null"))), (DOption DString), (VSome (VString (str "null"))),
    (str "-0"), (YScalar (SInt 0)), (DInt 0 255), (VInt 0). split; (split; [|split; [reflexivity|split]]).
  - exact null_string_json.
  - right. split; [discriminate|]. split; [now left|]. eexists. split; [reflexivity|]. eexists. split; reflexivity.
  - exact null_string_refutes.
  - exact minus_zero_json.
  - exists 0%Z. split; [reflexivity|]. split; [reflexivity|]. split; [lia|now left].
  - exact minus_zero_refutes.
Qed.
Print Assumptions C75_refuted.

(** An object with an array, a null and a nested object, as a struct whose fields are in another order and one
    of which is not there. *)
Example C75_meets : json_text false person person_value /\ (N.of_nat (List.length person) < 4294967295)%N /\
  reads false person_type = true /\ json_is false person_type person_value person_read.
Proof. exact (conj person_json (conj eq_refl (conj eq_refl person_is))). Qed.
Example C75_reads : from_text (12 * List.length person + 21) person_type person = Ok (DOk person_read).
Proof. vm_compute. reflexivity. Qed.
Example C75_person : person = str "{""tags"":[1,-2], ""note"": null,""in"":{""x"":true}}".
Proof. reflexivity. Qed.
