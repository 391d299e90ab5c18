(** Properties of deserialisation: C40, C51. *)
From Verif Require Import Base Tokens Scalar ParserIter SpecScalar Serde SpecSerde SerdeProofs SerdeWitness SerdeTotal.
From Coq Require Import String.
Local Open Scope list_scope.

(** C40 for the types [t] of [reads false] and values whose nulls are spelled [null] or empty: reading
    [n] in front of any further events gives the value that [n] denotes and leaves exactly the further
    events; also at the start of a document.  Missing: the types and nulls of [C40_refuted]. *)
Theorem C40_nested_values_partial :
  forall (t : target) (n : node) (x : value) (fuel : nat) (rest : list yam_event) (last : yam_event),
  reads false t = true ->
  denotes (fun n => yaml_null n /\ seen_as_null n) seen_as_value t n x ->
  List.length (node_yams n) < fuel ->
  denotes yaml_null (fun n => ~ yaml_null n) t n x /\
  (exists d, de fuel t (Des (node_yams n ++ rest) last false) = (d, DOk x) /\ d_rest d = rest /\ d_peeked d = false) /\
  (exists d, de fuel t (Des (YDocStart :: node_yams n ++ rest) last false) = (d, DOk x) /\ d_rest d = rest /\ d_peeked d = false).
Proof. exact nested_values. Qed.
Print Assumptions C40_nested_values_partial.

(** [{a: [[1, -2], []], c: {x: 2.5}}] as a struct with a missing option. *)
Example C40_example :
  let t := DStruct [(str "a", DVec (DVec i32)); (str "b", DOption DString); (str "c", DMap DString DFloat)] in
  let n := mapping [(p "a", seq [seq [p "1"; p "-2"]; seq []]); (q "c", mapping [(p "x", p "2.5")])] in
  let x := VStruct [(str "a", VSeq [VSeq [VInt 1; VInt (-2)]; VSeq []]); (str "b", VNone);
                    (str "c", VMap [(VString (str "x"), VFloat (FNum false 25 (-1)))])] in
  reads false t = true /\
  denotes (fun n => yaml_null n /\ seen_as_null n) seen_as_value t n x /\
  from_events 40 t (YDocStart :: node_yams n ++ [YDocEnd]) = DOk x.
Proof.
  cbv zeta. split; [reflexivity|]. split; [|reflexivity].
  exists 0, None.
  exists [(p "a", seq [seq [p "1"; p "-2"]; seq []]); (q "c", mapping [(p "x", p "2.5")])].
  exists [(str "a", VSeq [VSeq [VInt 1; VInt (-2)]; VSeq []]); (str "b", VNone);
          (str "c", VMap [(VString (str "x"), VFloat (FNum false 25 (-1)))])].
  split; [reflexivity|]. split; [reflexivity|]. split; [|split; [|split]].
  - repeat constructor; vm_compute; intuition discriminate.
  - repeat constructor.
    + exists (str "a"). split; [|vm_compute; auto]. now exists (ScalarValue (str "a") Plain 0 None).
    + exists (str "c"). split; [|vm_compute; auto]. now exists (ScalarValue (str "c") DoubleQuote 0 None).
  - assert (A : forall name, key_is name (p "a", seq [seq [p "1"; p "-2"]; seq []]) -> name = str "a").
    { intros name (v & E & R). injection E as <-. vm_compute in R. injection R as <-. reflexivity. }
    assert (C : forall name, key_is name (q "c", mapping [(p "x", p "2.5")]) -> name = str "c").
    { intros name (v & E & R). injection E as <-. vm_compute in R. injection R as <-. reflexivity. }
    intros [|e1 [|e2 l1]] e l2 name E K.
    + injection E as <- <-. apply A in K. subst. repeat constructor. intros K. apply C in K. discriminate.
    + injection E as <- <- <-. apply C in K. subst. repeat constructor. intros K. apply A in K. discriminate.
    + injection E as _ _ E. now destruct l1.
  - repeat split.
    + left. exists (p "a", seq [seq [p "1"; p "-2"]; seq []]). split; [now left|]. split.
      { now exists (ScalarValue (str "a") Plain 0 None). }
      exists 0, None. eexists. eexists. split; [reflexivity|]. split; [reflexivity|]. repeat constructor.
      * exists 0, None. eexists. eexists. split; [reflexivity|]. split; [reflexivity|]. repeat constructor.
        -- exists (ScalarValue (str "1") Plain 0 None), 1%Z. split; [reflexivity|]. split; [reflexivity|]. split.
           { apply (signed_none dec_digit 10 (str "1")). split; [discriminate|]. repeat constructor; vm_compute; intuition discriminate. }
           split; [now vm_compute|]. intros _. reflexivity.
        -- exists (ScalarValue (str "-2") Plain 0 None), (-2)%Z. split; [reflexivity|]. split; [reflexivity|]. split.
           { apply (signed_minus dec_digit 10 (str "2")). split; [discriminate|]. repeat constructor; vm_compute; intuition discriminate. }
           split; [now vm_compute|]. intros _. reflexivity.
      * exists 0, None. eexists. eexists. split; [reflexivity|]. split; [reflexivity|]. constructor.
    + right. split; [|split; [now exists DString|reflexivity]]. repeat constructor.
      * intros (v & E & R). injection E as <-. vm_compute in R. discriminate.
      * intros (v & E & R). injection E as <-. vm_compute in R. discriminate.
    + left. exists (q "c", mapping [(p "x", p "2.5")]). split; [right; now left|]. split.
      { now exists (ScalarValue (str "c") DoubleQuote 0 None). }
      exists 0, None. eexists. eexists. split; [reflexivity|]. split; [reflexivity|]. constructor; [|constructor]. split.
      * exists (ScalarValue (str "x") Plain 0 None), (str "x"). now vm_compute.
      * exists (ScalarValue (str "2.5") Plain 0 None), (FNum false 25 (-1)). split; [reflexivity|]. split; [reflexivity|].
        left. now vm_compute.
Qed.

(** C40 is false as stated.  [[1, 2]] as a [Vec<Option<i32>>] loses an element: *)
Theorem C40_refuted :
  exists (t : target) (n : node) (x y : value),
  denotes yaml_null (fun n => ~ yaml_null n) t n x /\ x <> y /\
  forall k, from_events (6 + k) t (document n) = DOk y.
Proof.
  exists (DVec (DOption i32)), w_options, (VSeq [VSome (VInt 1); VSome (VInt 2)]), (VSeq [VSome (VInt 2)]).
  split; [exact options_denote|]. split; [discriminate|exact options_read].
Qed.
Print Assumptions C40_refuted.
(** [{x: {Newtype: 1}, y: Unit}] as a map of enums loses an entry: *)
Theorem C40_enum_values_refuted :
  exists (t : target) (n : node) (x y : value),
  denotes yaml_null (fun n => ~ yaml_null n) t n x /\ x <> y /\
  t = DMap DString an_enum /\ forall k, from_events (20 + k) t (document n) = DOk y.
Proof.
  exists (DMap DString an_enum), w_enums,
    (VMap [(VString (str "x"), VEnum (str "Newtype") (VInt 1)); (VString (str "y"), VEnum (str "Unit") VUnit)]),
    (VMap [(VString (str "x"), VEnum (str "Newtype") (VInt 1))]).
  split; [apply enums_denote|]. split; [discriminate|]. split; [reflexivity|exact enums_read].
Qed.
Print Assumptions C40_enum_values_refuted.
(** Sequences of tuples and of structs are errors: *)
Theorem C40_tuple_elements_refuted :
  exists (n : node) (x : value) (e : derr),
  denotes yaml_null (fun n => ~ yaml_null n) (DVec (DTuple [i32; i32])) n x /\
  forall k, from_events (9 + k) (DVec (DTuple [i32; i32])) (document n) = DErr e.
Proof.
  exists w_pairs, (VSeq [VSeq [VInt 1; VInt 2]]), (DUnexpected "SeqStart").
  split; [apply pairs_denote|exact pairs_read].
Qed.
Print Assumptions C40_tuple_elements_refuted.
Theorem C40_struct_elements_refuted :
  exists (n : node) (x : value) (e : derr),
  denotes yaml_null (fun n => ~ yaml_null n) (DVec (DStruct [(str "a", i32)])) n x /\
  forall k, from_events (9 + k) (DVec (DStruct [(str "a", i32)])) (document n) = DErr e.
Proof.
  exists w_structs, (VSeq [VStruct [(str "a", VInt 1)]]), (DUnexpected "MapStart").
  split; [apply structs_denote|exact structs_read].
Qed.
Print Assumptions C40_struct_elements_refuted.
(** A tuple that ends with a list does not consume its own end: *)
Theorem C40_last_list_refuted :
  exists (n : node) (x : value) (e : derr),
  denotes yaml_null (fun n => ~ yaml_null n) (DMap DString (DTuple [i32; DVec i32])) n x /\
  forall k, from_events (20 + k) (DMap DString (DTuple [i32; DVec i32])) (document n) = DErr e.
Proof.
  exists w_last_list,
    (VMap [(VString (str "a"), VSeq [VInt 1; VSeq [VInt 2]]); (VString (str "b"), VSeq [VInt 2; VSeq []])]), DCustom.
  split; [apply last_list_denotes|exact last_list_read].
Qed.
Print Assumptions C40_last_list_refuted.
Example C40_last_list_left : forall k rest last,
  de (6 + k) (DTuple [i32; DVec i32]) (Des (node_yams (seq [p "1"; seq [p "2"]]) ++ rest) last false)
  = (Des (YSeqEnd :: rest) YSeqEnd false, DOk (VSeq [VInt 1; VSeq [VInt 2]])).
Proof. exact last_list_rest. Qed.
(** [~] is not seen as a null, a quoted ["null"] is: *)
Theorem C40_nulls_refuted :
  (exists (n : node) (e : derr), denotes yaml_null (fun n => ~ yaml_null n) (DOption i32) n VNone /\
     forall k, from_events k (DOption i32) (document n) = DErr e) /\
  (exists (n : node) (x : value), denotes yaml_null (fun n => ~ yaml_null n) (DOption DString) n (VSome x) /\
     forall k, from_events k (DOption DString) (document n) = DOk VNone).
Proof.
  refine (conj (ex_intro _ (p "~") (ex_intro _ DCustom (conj tilde_denotes tilde_read))) _).
  exact (ex_intro _ (q "null") (ex_intro _ (VString (str "null")) (conj quoted_denotes quoted_read))).
Qed.
Print Assumptions C40_nulls_refuted.

(** C51: whatever the events (also of broken documents) and the type, deserialising returns; the number
    of steps of each loop is bounded by twice the number of events. *)
Theorem C51_deserialising_returns :
  forall (t : target) (evs : list yam_event) (fuel : nat), 2 * List.length evs + 2 <= fuel ->
  from_events fuel t evs <> DFuel.
Proof. exact (fun t evs fuel B => proj1 (deserialising_returns t evs fuel B)). Qed.
Print Assumptions C51_deserialising_returns.
(** It does not panic if no enum has a unit variant.  Missing: [C51_refuted]. *)
Theorem C51_no_panic_partial :
  forall (t : target) (evs : list yam_event) (fuel : nat), 2 * List.length evs + 2 <= fuel ->
  no_unit_variants t = true -> from_events fuel t evs <> DPanic.
Proof. exact (fun t evs fuel B => proj2 (deserialising_returns t evs fuel B)). Qed.
Print Assumptions C51_no_panic_partial.
Example C51_example :
  let t := DVec (DOption (DTuple [i32; DEnum [(str "a", (KStruct, DStruct [(str "x", DIgnored)]))]])) in
  let evs := [YDocStart; YSeqStart 0 None; YMapEnd; YSeqStart 0 None; YDocEnd] in
  no_unit_variants t = true /\ from_events 12 t evs = DErr (DUnexpected "SeqEnd").
Proof. vm_compute. auto. Qed.
(** A unit variant written as a mapping reaches [todo!()]. *)
Theorem C51_refuted : exists (t : target) (n : node), forall k, from_events k t (document n) = DPanic.
Proof. exists an_enum, (mapping [(p "Unit", p "null")]). intros k. reflexivity. Qed.
Print Assumptions C51_refuted.
