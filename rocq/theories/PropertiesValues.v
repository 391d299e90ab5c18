(** Properties of values: comparing (C68), nodes with their place (C69), converting, copying and
    writing in place (C70). *)
From Verif Require Import Base Tokens Scalar Yaml Values SpecEqual ValuesProofs.
From Coq Require Import String Permutation.
Local Open Scope list_scope.

(** C68: values compare equal exactly if they are the same tree, whatever the comparison of floating
    point numbers. Missing: mappings with the same pairs in another order (see [C68_order_refuted]). *)
Theorem C68_equal_is_same_partial : forall feq a b,
  yaml_eqb feq a b = true <-> same (fun f g => feq f g = true) a b.
Proof. exact equal_same. Qed.
Print Assumptions C68_equal_is_same_partial.
(** Comparing is symmetric and transitive if it is for floating point numbers. *)
Theorem C68_symmetric : forall feq, (forall f g, feq f g = true -> feq g f = true) ->
  forall a b, yaml_eqb feq a b = true -> yaml_eqb feq b a = true.
Proof. intros feq S a b. rewrite !equal_same. now apply same_symmetric. Qed.
Print Assumptions C68_symmetric.
Theorem C68_transitive : forall feq,
  (forall f g h, feq f g = true -> feq g h = true -> feq f h = true) ->
  forall a b c, yaml_eqb feq a b = true -> yaml_eqb feq b c = true -> yaml_eqb feq a c = true.
Proof. intros feq T a b c. rewrite !equal_same. now apply same_transitive. Qed.
Print Assumptions C68_transitive.
(** A copy is equal to the value exactly if every floating point number inside equals itself. Missing:
    values with a NaN inside (see [C68_nan_refuted]). *)
Theorem C68_copy_is_equal_partial : forall feq y,
  yaml_eqb feq (clone y) y = true <-> floats (fun f => feq f f = true) y.
Proof. intros feq y. rewrite clone_id, equal_same. apply same_reflexive. Qed.
Print Assumptions C68_copy_is_equal_partial.
(** Looking up a key in a mapping is by this comparison. *)
Theorem C68_lookup_compares : forall feq x i k,
  key_eqb x (key_from_usize i) = yaml_eqb feq x (key_from_usize i) /\
  key_eqb x (key_from_str k) = yaml_eqb feq x (key_from_str k).
Proof. intros. split; apply key_eqb_same; [left|right]; eexists; reflexivity. Qed.
Print Assumptions C68_lookup_compares.
(** C68 is false for mappings: the order of the pairs counts. *)
Theorem C68_order_refuted : exists l m, Permutation l m /\
  forall feq, yaml_eqb feq (YMap l) (YMap m) = false.
Proof.
  exists [(YScalar (SString (str "a")), YScalar (SInt 1)); (YScalar (SString (str "b")), YScalar (SInt 2))],
         [(YScalar (SString (str "b")), YScalar (SInt 2)); (YScalar (SString (str "a")), YScalar (SInt 1))].
  split; [apply perm_swap|reflexivity].
Qed.
Print Assumptions C68_order_refuted.
(** C68 is false for NaN, which does not equal its copy if NaN is compared as in IEEE 754. *)
Theorem C68_nan_refuted : exists y, forall feq, feq FNan FNan = false -> yaml_eqb feq (clone y) y = false.
Proof. exists (YSeq [YScalar (SFloat FNan)]). intros feq H. cbn. now rewrite H. Qed.
Print Assumptions C68_nan_refuted.
Example C68_example :
  let y := YMap [(YScalar (SString (str "a")), YSeq [YScalar (SInt 1); YScalar SNull]);
                 (YScalar (SString (str "b")), YTagged (Tag (str "!") (str "t")) (YScalar (SFloat (FInf true))))] in
  yaml_eqb (fun f g => match f, g with FInf a, FInf b => Bool.eqb a b | _, _ => false end) y y = true /\
  yaml_eqb (fun _ _ => true) y (YMap []) = false /\
  yaml_eqb (fun _ _ => true) (YScalar (SString (str "1"))) (YScalar (SInt 1)) = false /\
  floats (fun f => f <> FNan) y.
Proof.
  cbv zeta. split; [reflexivity|]. split; [reflexivity|]. split; [reflexivity|].
  repeat (constructor; cbn); intros; congruence.
Qed.

(** C69: a node with its place answers as the value it carries. *)
Theorem C69_reads_as_its_value : forall n,
  sn_get_type n = get_type (forget n) /\
  sn_is_non_empty_collection n = is_non_empty_collection (forget n) /\
  sn_as_bool n = as_bool (forget n) /\
  sn_as_i64 n = as_i64 (forget n) /\
  sn_as_f64 n = as_f64 (forget n) /\
  sn_as_str n = as_str (forget n) /\
  option_map (map forget) (sn_as_sequence n) = as_sequence (forget n) /\
  option_map forget_pairs (sn_as_mapping n) = as_mapping (forget n) /\
  sn_into_sequence n = sn_as_sequence n /\
  sn_into_mapping n = sn_as_mapping n /\
  (forall l, sn_sequence n = Ok l <-> sn_as_sequence n = Some l) /\
  (forall l, sn_mapping n = Ok l <-> sn_as_mapping n = Some l) /\
  (sn_sequence n = Panic <-> sn_as_sequence n = None) /\
  (sn_mapping n = Panic <-> sn_as_mapping n = None) /\
  sn_get_tag n = get_tag (forget n).
Proof. exact spanned_reads. Qed.
Print Assumptions C69_reads_as_its_value.
(** What is made from it, and its place. *)
Theorem C69_makes_its_value : forall n t,
  forget (sn_into_tagged n t) = into_tagged (forget n) t /\ sn_span (sn_into_tagged n t) = sn_span n /\
  (forall i, forget (sn_key_from_usize i) = key_from_usize i) /\
  (forall k, forget (sn_key_from_str k) = key_from_str k) /\
  forget sn_null = YScalar SNull /\
  (forall sp, forget (sn_bad_span_value sp) = YBad /\ sn_span (sn_bad_span_value sp) = sp) /\
  sn_clone n = n /\
  fst (sn_take n) = n /\ forget (snd (sn_take n)) = YBad.
Proof. exact spanned_makes. Qed.
Print Assumptions C69_makes_its_value.
(** Writing in place writes the value and keeps the place. *)
Theorem C69_writes_its_value : forall n n',
  (forall b, sn_set_bool n b = Some n' -> sn_span n' = sn_span n /\ set_bool (forget n) b = Some (forget n')) /\
  (forall z, sn_set_i64 n z = Some n' -> sn_span n' = sn_span n /\ set_i64 (forget n) z = Some (forget n')) /\
  (forall f, sn_set_f64 n f = Some n' -> sn_span n' = sn_span n /\ set_f64 (forget n) f = Some (forget n')) /\
  (forall l, sn_set_sequence n l = Some n' ->
     sn_span n' = sn_span n /\ set_sequence (forget n) (map forget l) = Some (forget n')) /\
  (forall l, sn_set_mapping n l = Some n' ->
     sn_span n' = sn_span n /\ set_mapping (forget n) (forget_pairs l) = Some (forget n')).
Proof. exact spanned_writes. Qed.
Print Assumptions C69_writes_its_value.
(** C69 is false for setting the place: a node given a place keeps the one it had. *)
Theorem C69_refuted : exists (n : snode) (m : marker) (sp : span),
  s_start (sn_span (sn_with_start n m)) <> m /\ s_end (sn_span (sn_with_end n m)) <> m /\
  sn_span (sn_with_span n sp) <> sp.
Proof.
  exists sn_null, (Marker 4 5 1), (Span (Marker 4 5 1) (Marker 7 8 1)).
  vm_compute. repeat split; discriminate.
Qed.
Print Assumptions C69_refuted.
Example C69_example :
  let at_ a b := Span (Marker a (a + 1) 1) (Marker b (b + 1) 1) in
  let n := SNode (at_ 0 8)%N (DSeq [SNode (at_ 1 2)%N (DScalar (SInt 1));
                                  SNode (at_ 4 7)%N (DMap [(SNode (at_ 5 5)%N DBad, SNode (at_ 6 6)%N (DAlias 3))])]) in
  forget n = YSeq [YScalar (SInt 1); YMap [(YBad, YAlias 3)]] /\
  sn_with_span n (at_ 9 9)%N = n /\ sn_span n <> at_ 9%N 9%N.
Proof. vm_compute. repeat split. discriminate. Qed.

(** C70: what is made from a Rust value is converted back to it. *)
Theorem C70_there_and_back :
  (forall t, into_string (from_str t) = Some t /\ as_str (from_str t) = Some t) /\
  (forall b, into_bool (from_bool b) = Some b) /\
  (forall f, into_f64 (from_float f) = Some f) /\
  (forall z, into_i64 (from_int z) = Some z) /\
  (forall l, into_sequence (from_vec l) = Some l /\ sequence (from_vec l) = Ok l).
Proof. exact conversions. Qed.
Print Assumptions C70_there_and_back.
(** Only what could have been made from such a value is converted. *)
Theorem C70_back_and_there : forall y,
  (forall t, into_string y = Some t <-> y = from_str t) /\
  (forall b, into_bool y = Some b <-> y = from_bool b) /\
  (forall f, into_f64 y = Some f <-> y = from_float f) /\
  (forall z, into_i64 y = Some z <-> y = from_int z) /\
  (forall l, into_sequence y = Some l <-> y = from_vec l) /\
  (forall l, into_mapping y = Some l <-> y = YMap l).
Proof. exact conversions_back. Qed.
Print Assumptions C70_back_and_there.
(** A value can be written in place exactly where it can be read, and is then what was written. *)
Theorem C70_written_where_read : forall y y',
  (forall b, set_bool y b = Some y' <-> (exists c, as_bool y = Some c) /\ y' = YScalar (SBool b)) /\
  (forall z, set_i64 y z = Some y' <-> (exists c, as_i64 y = Some c) /\ y' = YScalar (SInt z)) /\
  (forall f, set_f64 y f = Some y' <-> (exists c, as_f64 y = Some c) /\ y' = YScalar (SFloat f)) /\
  (forall t, set_str y t = Some y' <->
     (exists s, as_str y = Some s /\ List.length s = List.length t) /\ y' = YScalar (SString t)) /\
  (forall l, set_sequence y l = Some y' <-> (exists c, as_sequence y = Some c) /\ y' = YSeq l) /\
  (forall l, set_mapping y l = Some y' <-> (exists c, as_mapping y = Some c) /\ y' = YMap l).
Proof. exact writes. Qed.
Print Assumptions C70_written_where_read.
(** A copy is the value; taking returns the value and leaves the bad value behind. *)
Theorem C70_copied_and_taken : forall y, clone y = y /\ take y = (y, YBad).
Proof. intros y. split; [apply clone_id|reflexivity]. Qed.
Print Assumptions C70_copied_and_taken.
Example C70_example :
  into_i64 (from_int (-7)) = Some (-7)%Z /\ into_string (from_int 7) = None /\
  set_i64 (from_int 1) 2 = Some (from_int 2) /\ set_bool (from_int 1) true = None /\
  set_str (from_str (str "abc")) (str "xyz") = Some (from_str (str "xyz")) /\
  clone (from_vec [from_bool true; YAlias 2]) = from_vec [from_bool true; YAlias 2].
Proof. vm_compute. repeat split. Qed.
