(** Properties of values: C21, C22. *)
From Verif Require Import Base Tokens Scalar Yaml SpecYaml YamlProofs.
From Coq Require Import String.
Local Open Scope list_scope.

(** C21 for untagged values: exactly the predicate of its kind holds. Missing: tagged values (see
    [C21_refuted]). *)
Theorem C21_one_type_partial : forall y k, untagged y -> (predicate k y = true <-> kind_of y = k).
Proof. intros y k; destruct y as [|s| | | |]; try destruct s; destruct k; cbn; intuition (try discriminate; auto). Qed.
Print Assumptions C21_one_type_partial.
Theorem C21_exactly_one_predicate : forall y, exists! k, predicate k y = true.
Proof.
  intros y. destruct y as [|s| | | |]; try destruct s;
  first [ exists KBad; split; [reflexivity|intros k' H; destruct k'; cbn in H; congruence]
        | exists KNull; split; [reflexivity|intros k' H; destruct k'; cbn in H; congruence]
        | exists KString; split; [reflexivity|intros k' H; destruct k'; cbn in H; congruence]
        | exists KBool; split; [reflexivity|intros k' H; destruct k'; cbn in H; congruence]
        | exists KFloat; split; [reflexivity|intros k' H; destruct k'; cbn in H; congruence]
        | exists KInt; split; [reflexivity|intros k' H; destruct k'; cbn in H; congruence]
        | exists KAlias; split; [reflexivity|intros k' H; destruct k'; cbn in H; congruence]
        | exists KMap; split; [reflexivity|intros k' H; destruct k'; cbn in H; congruence]
        | exists KSeq; split; [reflexivity|intros k' H; destruct k'; cbn in H; congruence] ].
Qed.
Print Assumptions C21_exactly_one_predicate.
(** The accessors answer exactly when the predicate holds, with the content. *)
Theorem C21_accessors_agree : forall y,
  (is_bool y = true <-> exists b, as_bool y = Some b /\ y = YScalar (SBool b)) /\
  (is_integer y = true <-> exists z, as_i64 y = Some z /\ y = YScalar (SInt z)) /\
  (is_floating_point y = true <-> exists f, as_f64 y = Some f /\ y = YScalar (SFloat f)) /\
  (is_string y = true <-> exists t, as_str y = Some t /\ y = YScalar (SString t)) /\
  (is_sequence y = true <-> exists l, as_sequence y = Some l /\ sequence y = Ok l /\ y = YSeq l) /\
  (is_mapping y = true <-> exists l, as_mapping y = Some l /\ mapping y = Ok l /\ y = YMap l) /\
  (is_collection y = true <-> is_sequence y = true \/ is_mapping y = true) /\
  (is_non_empty_collection y = true <->
     exists n, (exists l, y = YSeq l /\ List.length l = S n) \/ (exists l, y = YMap l /\ List.length l = S n)).
Proof.
  intros y. destruct y as [|s|l|l| |]; try destruct s; cbn;
  repeat split; intros H;
  repeat match goal with
         | H : exists _, _ |- _ => destruct H
         | H : _ /\ _ |- _ => destruct H
         | H : _ \/ _ |- _ => destruct H
         end; try discriminate; eauto; subst; try discriminate;
  try (injection H; intros ->; destruct x0; [discriminate|reflexivity]).
  - destruct l as [|a l]; [discriminate|]. exists (List.length l). left. exists (a :: l). auto.
  - destruct l as [|a l]; [discriminate|]. exists (List.length l). right. exists (a :: l). auto.
Qed.
Print Assumptions C21_accessors_agree.
(** C21 is false for tagged values: they report the bad type whatever they contain. *)
Theorem C21_refuted : exists y, kind_of y = KString /\ is_string y = false /\ is_bad_value y = true.
Proof. exists (YTagged (Tag (str "!") (str "foo")) (YScalar (SString (str "a")))). vm_compute. auto. Qed.
Print Assumptions C21_refuted.
Example C21_example :
  untagged (YScalar (SInt 5)) /\ kind_of (YScalar (SInt 5)) = KInt /\ as_i64 (YScalar (SInt 5)) = Some 5%Z
  /\ as_str (YScalar (SInt 5)) = None.
Proof. vm_compute. auto. Qed.

(** C22 for sequences by position. *)
Theorem C22_sequence_write_read : forall l i v y', index_mut_usize (YSeq l) i v = Ok y' ->
  index_usize y' i = Ok v /\
  (forall j, j <> i -> index_usize y' j = index_usize (YSeq l) j) /\
  exists l1 w l2, l = l1 ++ w :: l2 /\ N.of_nat (List.length l1) = i /\ y' = YSeq (l1 ++ v :: l2).
Proof. exact write_seq. Qed.
Print Assumptions C22_sequence_write_read.
(** C22 for mappings by string key: the first entry with that key. *)
Theorem C22_mapping_write_read : forall l k v y', index_mut_str (YMap l) k v = Ok y' ->
  index_str y' k = Ok v /\
  (forall k', k' <> k -> index_str y' k' = index_str (YMap l) k') /\
  exists l1 w l2, l = l1 ++ (YScalar (SString k), w) :: l2 /\
    y' = YMap (l1 ++ (YScalar (SString k), v) :: l2) /\
    index_str (YMap l) k = Ok w.
Proof. exact write_str. Qed.
Print Assumptions C22_mapping_write_read.
(** Writing is possible exactly where reading is. *)
Theorem C22_write_where_read : forall y k v l i,
  ((exists y', index_mut_str y k v = Ok y') <-> (exists w, index_str y k = Ok w)) /\
  ((exists y', index_mut_usize (YSeq l) i v = Ok y') <-> (exists w, index_usize (YSeq l) i = Ok w)).
Proof. intros. split; [apply write_str_defined|apply write_seq_defined]. Qed.
Print Assumptions C22_write_where_read.
(** Reading a mapping by an integer below [2^63] finds the first entry with that integer key. *)
Theorem C22_mapping_read_by_integer_partial : forall l i w, (Z.of_N i < 2 ^ 63)%Z ->
  (index_usize (YMap l) i = Ok w <->
   exists l1 l2, l = l1 ++ (YScalar (SInt (Z.of_N i)), w) :: l2 /\
     forall w', ~ In (YScalar (SInt (Z.of_N i)), w') l1).
Proof. exact read_map_usize. Qed.
Print Assumptions C22_mapping_read_by_integer_partial.
(** C22 is false for writing to a mapping by integer: the key is overwritten, the value stays. *)
Theorem C22_refuted : exists y i v y', index_mut_usize y i v = Ok y' /\ index_usize y' i = Panic.
Proof.
  exists (YMap [(YScalar (SInt 0), YScalar (SString (str "a")))]), 0%N, (YScalar (SString (str "b"))),
         (YMap [(YScalar (SString (str "b")), YScalar (SString (str "a")))]).
  vm_compute. auto.
Qed.
Print Assumptions C22_refuted.
Example C22_example :
  index_mut_str (YMap [(YScalar (SString (str "x")), YScalar (SInt 1)); (YScalar (SString (str "y")), YScalar (SInt 2))])
    (str "y") YBad
  = Ok (YMap [(YScalar (SString (str "x")), YScalar (SInt 1)); (YScalar (SString (str "y")), YBad)]) /\
  index_mut_usize (YSeq [YBad; YScalar (SInt 1)]) 1 (YScalar (SInt 7)) = Ok (YSeq [YBad; YScalar (SInt 7)]).
Proof. vm_compute. auto. Qed.
