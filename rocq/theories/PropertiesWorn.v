(** Documents with anchors and tags deserialise as what they stand for (C78). *)
From Verif Require Import Base Tokens Scalar ParserIter SpecTree SpecStream Serde SpecSerde FromText SpecLayout SpecSerdeOnly SpecWorn LayoutLoad WornDocs.
From Coq Require Import String Lia.
Local Open Scope list_scope.

(** Full statement: a text that is one document standing for the node [n], [doc_worn true], deserialises as a
    type [t] as exactly the values that [n] denotes, [denotes yaml_null (fun n => ~ yaml_null n)].  It is false: see
    [C78_refuted], and C60 and C76.  Proved: it holds without aliases, for the types and nulls of C40. *)
Theorem C78_worn_deserialises_partial fuel w lead ds b o e (n : SpecSerde.node) t x :
  stream w lead [Doc ds b o e] -> List.length ds <= 1 -> doc_worn false ds o n -> reads false t = true ->
  denotes (fun n => yaml_null n /\ seen_as_null n) seen_as_value t n x -> 12 * List.length w + 12 < fuel ->
  from_text fuel t w = Ok (DOk x).
Proof. exact (worn_deserialises fuel w lead ds b o e n t x). Qed.
Print Assumptions C78_worn_deserialises_partial.

(** With the nulls that the deserialiser takes for nulls, and known members of structs: as nothing else. *)
Theorem C78_worn_exactly_partial fuel w lead ds b o e (n : SpecSerde.node) t x :
  stream w lead [Doc ds b o e] -> List.length ds <= 1 -> doc_worn false ds o n -> reads false t = true -> known_fields t n ->
  12 * List.length w + 12 < fuel ->
  (from_text fuel t w = Ok (DOk x) <-> denotes taken_for_null (fun n => ~ taken_for_null n) t n x).
Proof. exact (worn_exactly fuel w lead ds b o e n t x). Qed.
Print Assumptions C78_worn_exactly_partial.

(** Aliases get lost. *)
Theorem C78_refuted : exists w lead b o e (n : SpecSerde.node) t x,
  stream w lead [Doc [] b o e] /\ doc_worn true [] o n /\ reads false t = true /\ denotes yaml_null (fun n => ~ yaml_null n) t n x /\
  forall fuel, from_text fuel t w <> Ok (DOk x).
Proof.
  exists aliased, 0, false, (Some aliased_tree), 0, aliased_node, (DVec (DInt 0 255)), (VSeq [VInt 7; VInt 7]).
  exact (conj aliased_stream (conj aliased_is (conj eq_refl (conj (aliased_denotes _ _) aliased_fails)))).
Qed.
Print Assumptions C78_refuted.
Example C78_lost : from_text 60 (DVec (DInt 0 255)) (str "- &a 7" ++ lf ++ str "- *a") = Ok (DOk (VSeq [VInt 7])).
Proof. vm_compute. reflexivity. Qed.

(** A number that is tagged as a string by way of a declared handle. *)
Example C78_meets : stream worn_text 0 [Doc worn_dirs true (Some worn_tree) 0] /\ List.length worn_dirs <= 1 /\ doc_worn false worn_dirs (Some worn_tree) worn_node /\
  reads false worn_type = true /\ known_fields worn_type worn_node /\ denotes (fun n => yaml_null n /\ seen_as_null n) seen_as_value worn_type worn_node worn_value.
Proof.
  refine (conj worn_stream (conj _ (conj worn_is (conj eq_refl (conj _ (worn_denotes _ _)))))); [cbn; lia|].
  intros a g l [= <- <- <-]. repeat constructor.
Qed.
Example C78_text : worn_text = str "%TAG !e! tag:yaml.org,2002:" ++ lf ++ str "---" ++ lf ++ str "- &a !e!str 1" ++ lf ++ str "- &b x".
Proof. reflexivity. Qed.
Example C78_reads : from_text (12 * List.length worn_text + 13) worn_type worn_text = Ok (DOk worn_value) /\
  from_text 400 worn_type (str "- 1" ++ lf ++ str "- x") <> Ok (DOk worn_value).
Proof. split; [vm_compute; reflexivity|vm_compute; discriminate]. Qed.
