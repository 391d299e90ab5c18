(** JSON texts are deserialised as nothing else than what they are (C79). *)
From Verif Require Import Base Tokens Scalar Yaml SpecScalar Serde SpecSerde FromText SpecJson SpecJsonOnly JsonSerde JsonOnly.
From Coq Require Import String Lia.
Local Open Scope list_scope.

(** Full statement: for every [w], [y], [t] and [x] with [json_text true w y], if deserialising [w] as a [t] gives
    [x] then [json_given true t y x].  It is false: see [C79_refuted].
    Proved: of the JSON texts of C56, the types of C40 and objects without unknown members, up to
    strings of digits given as integers, strings taken for null and scalars taken for variants
    ([json_given false]). *)
Theorem C79_json_only_partial w y t x fuel : json_text false w y -> (N.of_nat (List.length w) < 4294967295)%N ->
  reads false t = true -> members_known t y -> 12 * List.length w + 20 < fuel -> from_text fuel t w = Ok (DOk x) -> json_given false t y x.
Proof. exact (json_only w y t x fuel). Qed.
Print Assumptions C79_json_only_partial.

(** A string in quotes is given as an integer. *)
Theorem C79_refuted : exists w y t x fuel, json_text false w y /\ (N.of_nat (List.length w) < 4294967295)%N /\ reads false t = true /\ members_known t y /\
  12 * List.length w + 20 < fuel /\ from_text fuel t w = Ok (DOk x) /\ ~ json_given true t y x.
Proof.
  exists (str """7"""), (YScalar (SString (str "7"))), (DInt 0 255), (VInt 7), 60.
  refine (conj digits_json (conj eq_refl (conj eq_refl (conj I (conj _ (conj _ digits_no_integer)))))); [cbn; lia|vm_compute; reflexivity].
Qed.
Print Assumptions C79_refuted.

Example C79_meets : json_text false person person_value /\ (N.of_nat (List.length person) < 4294967295)%N /\
  reads false person_type = true /\ members_known person_type person_value /\
  from_text (12 * List.length person + 21) person_type person = Ok (DOk person_read).
Proof. refine (conj person_json (conj eq_refl (conj eq_refl (conj person_known _)))). vm_compute. reflexivity. Qed.
(** What it says of some texts: neither a fraction, nor a value out of range, nor an array too long, nor a string is given. *)
Example C79_not_given : (forall x, ~ json_given false (DInt 0 255) (YScalar (SInt 256)) x) /\
  (forall x, ~ json_given false DBool (YScalar (SString (str "true"))) x) /\
  (forall x, ~ json_given false (DTuple [DBool]) (YSeq [YScalar (SBool true); YScalar (SBool true)]) x) /\
  (forall x, ~ json_given false DString (YScalar (SInt 7)) x) /\
  ~ json_given false (DOption DString) (YScalar (SString [])) (VSome (VString [])).
Proof.
  split; [|split; [|split; [|split]]].
  - intros x (z & _ & B & [[= <-]|[(neg & m & H & _)|(_ & s & H & _)]]); [lia|discriminate H..].
  - intros x (b & H & _). discriminate H.
  - intros x (l & xs & [= <-] & _ & H). destruct xs as [|x1 [|x2 xs]]; [contradiction H|..]; destruct H as [_ H]; contradiction H.
  - intros x (s & H & _). discriminate H.
  - intros [(_ & H)|(_ & [H|H] & _)]; [discriminate H|discriminate H|]. apply H. right. now left.
Qed.
