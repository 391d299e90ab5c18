(** Only what a node denotes is deserialised (C76). *)
From Verif Require Import Base Tokens Scalar ParserIter SpecTree SpecStream Serde SpecSerde FromText SpecLayout SpecLayoutSerde SpecSerdeOnly LayoutSerde SerdeOnly OnlyText.
From Coq Require Import String Lia.
Local Open Scope list_scope.

(** Full statement: for every [t], [n] and [x], if deserialising [n] as a [t] gives [x] then [n] denotes [x],
    [denotes yaml_null (fun n => ~ yaml_null n) t n x].  It is false: see [C76_refuted].
    Proved: with the nulls that the deserialiser takes for nulls, and of the types of C40 where the members of
    structs are known, a value is given exactly if the node denotes it; every other node, type or number of
    elements is an error.  An integer is, in [denotes], any scalar of decimal digits, in quotes or not. *)
Theorem C76_only_denoted_partial t (n : SpecSerde.node) x fuel rest last :
  reads false t = true -> known_fields t n -> List.length (node_yams n) < fuel ->
  (snd (de fuel t (Des (YDocStart :: node_yams n ++ rest) last false)) = DOk x <-> denotes taken_for_null (fun n => ~ taken_for_null n) t n x).
Proof. exact (exactly t n x fuel rest last). Qed.
Print Assumptions C76_only_denoted_partial.

(** No bound on the fuel is needed for what is given to be right, and where the deserialiser stands then is
    behind the node. *)
Theorem C76_stands_behind_partial t (n : SpecSerde.node) x fuel rest last d :
  reads false t = true -> known_fields t n ->
  de fuel t (Des (node_yams n ++ rest) last false) = (d, DOk x) ->
  denotes taken_for_null (fun n => ~ taken_for_null n) t n x /\ d_rest d = rest /\ d_peeked d = false.
Proof. exact (stands_behind t n x fuel rest last d). Qed.
Print Assumptions C76_stands_behind_partial.

(** The same from the text of a document in block layout. *)
Theorem C76_texts_partial fuel w lead ds b o e (n : SpecSerde.node) t x :
  stream w lead [Doc ds b o e] -> List.length ds <= 1 -> part_is o n -> reads false t = true -> known_fields t n -> 12 * List.length w + 12 < fuel ->
  (from_text fuel t w = Ok (DOk x) <-> denotes taken_for_null (fun n => ~ taken_for_null n) t n x).
Proof. exact (layout_exactly fuel w lead ds b o e n t x). Qed.
Print Assumptions C76_texts_partial.

(** Types without structs need no condition on the node. *)
Theorem C76_without_structs t (n : SpecSerde.node) : no_structs t = true -> known_fields t n.
Proof. exact (no_structs_known t n). Qed.
Print Assumptions C76_without_structs.

(** A string in quotes is given as the [None] of an [Option<String>], which it is not; and a string of digits in
    quotes, which is the string and no integer, is given as an integer. *)
Theorem C76_refuted :
  (exists t (n : SpecSerde.node) x, reads false t = true /\ known_fields t n /\
    (forall fuel rest last, 0 < fuel -> snd (de fuel t (Des (YDocStart :: node_yams n ++ rest) last false)) = DOk x) /\
    ~ denotes yaml_null (fun n => ~ yaml_null n) t n x) /\
  (exists lo hi v x, resolves v (SString (sv_value v)) /\ (forall z, ~ resolves v (SInt z)) /\
    forall fuel rest last, 0 < fuel -> snd (de fuel (DInt lo hi) (Des (YDocStart :: node_yams (NScalar v) ++ rest) last false)) = DOk x).
Proof.
  split.
  - exists (DOption DString), quoted_null, VNone. split; [reflexivity|]. split; [exact I|]. split; [exact quoted_null_none|].
    intros D. exact (quoted_null_is_none VNone (conj eq_refl D)).
  - exists 0%Z, 255%Z, (ScalarValue (str "5") DoubleQuote 0 None), (VInt 5). split; [reflexivity|]. split; [intros z H; discriminate H|]. intros fuel rest last _. reflexivity.
Qed.
Print Assumptions C76_refuted.

(** A mapping of optional sequences of bytes; as sequences of numbers up to eight it is an error. *)
Example C76_meets : stream sizes 0 [Doc [] false (Some sizes_tree) 0] /\ part_is (Some sizes_tree) sizes_node /\
  (forall hi, reads false (sizes_type hi) = true /\ no_structs (sizes_type hi) = true).
Proof. exact (conj sizes_stream (conj sizes_is (fun hi => conj eq_refl eq_refl))). Qed.
(** A struct. *)
Example C76_meets_struct : stream config 0 [Doc [] false (Some config_tree) 0] /\ part_is (Some config_tree) config_node /\
  reads false config_type = true /\ known_fields config_type config_node.
Proof. exact (conj config_stream (conj config_is (conj eq_refl config_known))). Qed.
Example C76_given : from_text 500 (sizes_type 255) sizes
  = Ok (DOk (VMap [(VString (str "sizes"), VSome (VSeq [VInt 7; VInt 9])); (VString (str "note"), VNone)])).
Proof. vm_compute. reflexivity. Qed.
Example C76_not_given : from_text 500 (sizes_type 8) sizes = Ok (DErr DCustom).
Proof. vm_compute. reflexivity. Qed.
(** A member that is no field is skipped. *)
Example C76_skipped : snd (de 8 (DStruct [(str "b", DInt 0 255)]) (Des (YDocStart :: node_yams
    (NMap 0 None [(scalar_node Plain (str "a"), scalar_node Plain (str "x")); (scalar_node Plain (str "b"), scalar_node Plain (str "1"))])) YDocStart false))
  = DOk (VStruct [(str "b", VInt 1)]).
Proof. vm_compute. reflexivity. Qed.
