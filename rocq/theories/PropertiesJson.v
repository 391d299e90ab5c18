(** JSON texts (C56). *)
From Verif Require Import Base Tokens Scalar Yaml SpecScalar LoadText SpecJson JsonLoad.
From Coq Require Import String Lia ZifyN.
Local Open Scope list_scope.

(** Full statement: for every [w] and [y] with [json_text true w y], loading [w] gives the one
    document [y].  It is false: see [C56_refuted].
    Proved: it holds of every JSON text, of any nesting and any length below [2^32 - 1], without a
    carriage return on its own, without pairs of surrogate escapes, and without a number or literal
    name separated from its colon by tabs only ([json_text false]). *)
Theorem C56_json_loads_partial w y fuel : json_text false w y -> (N.of_nat (List.length w) < 4294967295)%N ->
  32 * List.length w + 200 <= fuel -> load_text fuel w = Ok [y].
Proof. exact (json_loads w y fuel). Qed.
Print Assumptions C56_json_loads_partial.

(** Each of the three exceptions is needed: these JSON texts are loaded with no amount of fuel. *)
Theorem C56_refuted : exists cr tab pair y1 y2 y3,
  (json_text true cr y1 /\ forall fuel, load_text fuel cr = Fuel) /\
  (json_text true tab y2 /\ forall fuel y, load_text fuel tab <> Ok y) /\
  (json_text true pair y3 /\ forall fuel y, load_text fuel pair <> Ok y).
Proof.
  exact (ex_intro _ _ (ex_intro _ _ (ex_intro _ _ (ex_intro _ _ (ex_intro _ _ (ex_intro _ _
    (conj (conj cr_json cr_not_loaded) (conj (conj tab_json tab_not_loaded) (conj pair_json pair_not_loaded))))))))).
Qed.
Print Assumptions C56_refuted.

(** A text with all kinds of values. *)
Definition sample : text :=
  str "{""a"" : [1, -2.5e3,null , ""x" ++ 92%N :: str "u00e9" ++ 92%N :: str "n""],""b"":{}," ++ 10%N :: str " ""c"":12345678901234567890}" ++ [13; 10]%N.
Definition sample_value : yaml :=
  YMap [(YScalar (SString (str "a")),
         YSeq [YScalar (SInt 1); YScalar (SFloat (FNum true 25 2)); YScalar SNull; YScalar (SString [120; 195; 169; 10]%N)]);
        (YScalar (SString (str "b")), YMap []);
        (YScalar (SString (str "c")), YScalar (SFloat (FNum false 12345678901234567890 0)))].
Example C56_example : json_text false sample sample_value /\ (N.of_nat (List.length sample) < 4294967295)%N /\
  load_text (32 * List.length sample + 200) sample = Ok [sample_value].
Proof.
  assert (J : json_text false sample sample_value).
  { assert (SP : json_white false [32%N]) by (apply jw_byte; [cbn; auto|constructor]).
    refine (jt_intro false [] (str "{""a"" : [1, -2.5e3,null , ""x" ++ 92%N :: str "u00e9" ++ 92%N :: str "n""],""b"":{}," ++ 10%N :: str " ""c"":12345678901234567890}") _
      [13; 10]%N (jw_none _) _ (jw_crlf _ _ (jw_none _))).
    refine (j_object false (str """a"" : [1, -2.5e3,null , ""x" ++ 92%N :: str "u00e9" ++ 92%N :: str "n""],""b"":{}," ++ 10%N :: str " ""c"":12345678901234567890") _ _).
    assert (CH : forall b, (97 <= b <= 122)%N -> json_chars false [b] [b]) by (intros b H; apply jc_byte; try lia; constructor).
    refine (jm_more false [] (str "a") (str "a") [32%N] [32%N] (str "[1, -2.5e3,null , ""x" ++ 92%N :: str "u00e9" ++ 92%N :: str "n""]") _ []
      (str """b"":{}," ++ 10%N :: str " ""c"":12345678901234567890") _ (jw_none _) (CH 97%N ltac:(lia)) SP SP _ _ (jw_none _) _).
    - right. right. right. cbn. auto.
    - refine (j_array false (str "1, -2.5e3,null , ""x" ++ 92%N :: str "u00e9" ++ 92%N :: str "n""") _ _).
      refine (je_more false [] (str "1") _ [] (str " -2.5e3,null , ""x" ++ 92%N :: str "u00e9" ++ 92%N :: str "n""") _ (jw_none _) _ (jw_none _) _).
      { apply j_number. refine (jn_integer [] false (str "1") jsg_none _ _); [apply jnat_more; [cbn; lia|constructor]|]. unfold i64_range. cbn. lia. }
      refine (je_more false [32%N] (str "-2.5e3") _ [] (str "null , ""x" ++ 92%N :: str "u00e9" ++ 92%N :: str "n""") _ SP _ (jw_none _) _).
      { apply j_number. refine (jn_other minus true (str "2") (str ".5") (str "5") (str "e3") 3 25 jsg_minus _ _ _ _ eq_refl).
        - apply jnat_more; [cbn; lia|constructor].
        - apply jfr_some. split; [discriminate|]. repeat constructor; unfold dec_digit; cbn; lia.
        - refine (ex_some 101 [] false (str "3") _ os_none _); [now left|]. split; [discriminate|]. repeat constructor; unfold dec_digit; cbn; lia.
        - left. discriminate. }
      refine (je_more false [] (str "null") _ [32%N] (str " ""x" ++ 92%N :: str "u00e9" ++ 92%N :: str "n""") _ (jw_none _) (j_null _) SP _).
      refine (je_last false [32%N] (str """x" ++ 92%N :: str "u00e9" ++ 92%N :: str "n""") _ [] SP _ (jw_none _)).
      refine (j_string false (str "x" ++ 92%N :: str "u00e9" ++ 92%N :: str "n") _ _).
      refine (jc_byte _ 120 _ _ _ _ _ _); try (cbn; lia).
      refine (jc_unicode false (str "00e9") 233 [195; 169]%N (92%N :: str "n") [10%N] _ _ _ _).
      + split; [reflexivity|]. split; [|reflexivity]. repeat constructor; unfold hex_digit; cbn; lia.
      + unfold surrogate. lia.
      + refine (u8_two 3 41 _ _); lia.
      + apply jc_escape; [|constructor]. cbn. auto 10.
    - refine (jm_more false [] (str "b") (str "b") [] [] (str "{}") _ [] (10%N :: str " ""c"":12345678901234567890") _
        (jw_none _) (CH 98%N ltac:(lia)) (jw_none _) (jw_none _) _ _ (jw_none _) _).
      + right. now left.
      + exact (j_empty_object false [] (jw_none _)).
      + refine (jm_last false [10; 32]%N (str "c") (str "c") [] [] (str "12345678901234567890") _ []
          _ (CH 99%N ltac:(lia)) (jw_none _) (jw_none _) _ _ (jw_none _)).
        * apply jw_byte; [cbn; auto|exact SP].
        * right. now left.
        * apply j_number. refine (jn_other [] false (str "12345678901234567890") [] [] [] 0 12345678901234567890 jsg_none _ jfr_none ex_none _ eq_refl).
          -- apply jnat_more; [cbn; lia|]. repeat constructor; unfold dec_digit; cbn; lia.
          -- right. unfold i64_range. vm_compute. intros [_ H]. discriminate. }
  split; [exact J|]. split; [vm_compute; reflexivity|]. vm_compute. reflexivity.
Qed.
