(** Whole texts that are flow collections (C62). *)
From Verif Require Import Base Tokens Scalar Yaml LoadText SpecTree SpecFlow SpecLayout LayoutLoad FlowLoad.
From Coq Require Import String.
Local Open Scope list_scope.

(** ** C62 *)
(** Full statement: a text that is a flow collection of YAML ([flow_node true]) is loaded as the value
    YAML gives it ([alone_means Standard]).  It is false: see [C62_refuted].
    Proved: it holds for the collections of [flow_node false] shorter than 4 GB without missing nodes
    (and plain scalars like [++5]), with spaces, empty lines and comments behind them. *)
Theorem C62_flow_loads_partial fuel w t y g : flow_node false 0 true w t -> collection t = true -> (N.of_nat (List.length w) < 4294967294)%N ->
  to_end g -> alone_means Narrow t y -> 64 * List.length (w ++ g) + 64 <= fuel -> load_text fuel (w ++ g) = Ok [y].
Proof. exact (flow_loads fuel w t y g). Qed.
Print Assumptions C62_flow_loads_partial.
(** [w] means [y], but is not loaded as it. *)
Definition misread (w : text) : Prop :=
  exists t y, flow_node true 0 true w t /\ collection t = true /\ alone_means Narrow t y /\ forall fuel, load_text fuel w <> Ok [y].
(** A comma in a mapping that is the value of a single pair; a collection directly behind the colon of a
    plain key; a line break between a collection and its colon; a plain scalar that ends with a dash. *)
Theorem C62_refuted : misread (str "[a: {b: c, d: e}]") /\ misread (str "{a:[b]}") /\ misread (str "{[a]" ++ [10%N] ++ str ":b}") /\ misread (str "[a -]").
Proof.
  exact (conj (ex_intro _ _ (ex_intro _ _ (conj pair_node (conj eq_refl (conj pair_value_means pair_fails)))))
        (conj (ex_intro _ _ (ex_intro _ _ (conj close_node (conj eq_refl (conj close_means close_fails)))))
        (conj (ex_intro _ _ (ex_intro _ _ (conj apart_node (conj eq_refl (conj apart_means apart_fails)))))
              (ex_intro _ _ (ex_intro _ _ (conj dash_node (conj eq_refl (conj dash_means dash_fails)))))))).
Qed.
Print Assumptions C62_refuted.
(** What the first is loaded as. *)
Example C62_misread : load_text 2000 (str "[a: {b: c, d: e}]") =
  Ok [YSeq [YMap [(a_value 97, YMap [(a_value 98, a_value 99)]); (YMap [(a_value 100, a_value 101)], YScalar (SString []))]]].
Proof. vm_compute. reflexivity. Qed.
(** Nested collections over two lines, with a comment, a comma at the end and a single pair. *)
Example C62_meets : flow_node false 0 true flow_sample flow_sample_tree /\ collection flow_sample_tree = true /\
  (N.of_nat (List.length flow_sample) < 4294967294)%N /\ alone_means Narrow flow_sample_tree
  (YSeq [YScalar (SString (str "x")); YMap [(YScalar (SString (str "k")), YSeq [YScalar (SString (str "a"))])]; YMap [(YScalar (SString (str "z")), YScalar (SInt 1))]]).
Proof. split; [exact (flow_sample_node 0 (Nat.le_0_l 6))|]. split; [reflexivity|]. split; [reflexivity|exact (ex_intro _ _ (flow_sample_means [] []))]. Qed.
Example C62_sample : flow_sample = str "[x, # c" ++ [10%N] ++ str "      {k: [a], }, z: 1]".
Proof. reflexivity. Qed.
Example C62_loads : load_text (64 * List.length flow_sample + 64) flow_sample = Ok [YSeq [YScalar (SString (str "x")); YMap [(YScalar (SString (str "k")), YSeq [YScalar (SString (str "a"))])]; YMap [(YScalar (SString (str "z")), YScalar (SInt 1))]]].
Proof. vm_compute. reflexivity. Qed.
