(** Properties of loading one document: C80. *)
From Verif Require Import Base Tokens Parser SpecEvents SpecTree SpecStream Scalar Yaml Loader SpecValue SpecSingle.
From Verif Require Import ParserExamples SingleLoad.
From Coq Require Import String List.
Import ListNotations.
Local Open Scope list_scope.

(** C80: loading one document gives the value of the first document, whatever tokens stand behind
    it, and however the scanner ends ([e], [mk])... *)
Theorem C80_rest_is_ignored : forall fuel d tags n lead more toks e mk,
  one_version d -> doc_ok true d ->
  (forall h s t, tags h s = Some t -> tag_means (doc_table last_table false [] d) h s (Some t)) ->
  opt_events (tree_events tags) [] (d_root d) = Some (node_evs n) ->
  behind d more ->
  map k_type toks = TStreamStart :: repeat TDocumentEnd lead ++ doc_toks d ++ more ->
  List.length (node_evs n) <= fuel ->
  load_single fuel toks e mk = Ok (fst (value_of kept_pairs [] n)).
Proof. exact single_document. Qed.
Print Assumptions C80_rest_is_ignored.
(** ... also where loading all documents fails. *)
Example C80_example :
  doc_ok true first_doc /\ one_version first_doc /\ behind first_doc unreadable /\
  opt_events (tree_events (fun _ _ => None)) [] (d_root first_doc) = Some (node_evs first_node) /\
  load_single 50 first_toks eof_err mk0 = Ok (YSeq [YScalar (SInt 12)]) /\
  (exists er, load_from 200 first_toks eof_err mk0 = Err er).
Proof.
  split; [split; [intros X; exfalso; apply X; reflexivity|split; [intros _; split; [discriminate|reflexivity]|]]|].
  { vm_compute. repeat split; auto. }
  split; [vm_compute; auto|]. split; [discriminate|].
  split; [reflexivity|]. split; [vm_compute; reflexivity|]. eexists. vm_compute. reflexivity.
Qed.
