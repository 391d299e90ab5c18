(** Properties of serialisation: escaping for single quotes (C71), which values have a serialiser
    (C72). *)
From Verif Require Import Base Chars Scalar Yaml LoadText Emitter SpecEmit SerdeSer SerAll SpecSerAll SerAllProofs.
From Verif Require Import PropertiesFromText.
From Coq Require Import String Lia.
Local Open Scope list_scope.

(** C71: what is written between single quotes reads back with tabs and line breaks spelled out as a
    backslash and a letter. *)
Theorem C71_what_reads_back : forall t u fuel,
  spelled_out t u -> ~ In 0%N t -> 4 * List.length t + 202 <= fuel ->
  exists e, ser_escape_single_quotes t = Ok e /\
    load_text fuel ([39%N] ++ e ++ [39%N]) = Ok [YScalar (SString u)].
Proof.
  intros t u fuel U Z F. exists (double_quotes u). split.
  - unfold ser_escape_single_quotes. apply escape_spelled; [exact U|lia].
  - destruct (spelled_clean t u U) as (_ & L & R & N). apply (C29_single_quoted_documents_load u fuel L R (N Z)).
    pose proof (doubled_size u) as D. pose proof (spelled_size t u U) as S.
    unfold in_single_quotes. rewrite !app_length. cbn [List.length]. lia.
Qed.
Print Assumptions C71_what_reads_back.
(** So a text reads back as itself exactly if it has no tab and no line break. Missing: the other texts
    (see [C71_refuted]); texts with a NUL or a lone carriage return. *)
Theorem C71_reads_back_partial : forall t fuel,
  returns_paired t -> ~ In 0%N t -> 4 * List.length t + 202 <= fuel ->
  exists e, ser_escape_single_quotes t = Ok e /\
    (load_text fuel ([39%N] ++ e ++ [39%N]) = Ok [YScalar (SString t)] <-> ~ In 9%N t /\ ~ In 10%N t).
Proof.
  intros t fuel P Z F. destruct (spelled_exists t P) as [u U].
  destruct (C71_what_reads_back t u fuel U Z F) as [e [E L]]. exists e. split; [exact E|].
  rewrite L. split.
  - intros H. injection H; intros <-. destruct (spelled_clean _ _ U) as (A & B & _). now split.
  - intros [A B]. now rewrite (spelled_same t u U A B).
Qed.
Print Assumptions C71_reads_back_partial.
(** C71 is false: a tab comes back as a backslash and the letter t. *)
Theorem C71_refuted : exists t e, ser_escape_single_quotes t = Ok e /\
  load_text 300 ([39%N] ++ e ++ [39%N]) = Ok [YScalar (SString (str "a\tb"))] /\ t <> str "a\tb".
Proof.
  exists [97; 9; 98]%N. eexists. split; [vm_compute; reflexivity|].
  split; [vm_compute; reflexivity|discriminate].
Qed.
Print Assumptions C71_refuted.
Example C71_example :
  let t := str "it's 'so'" in
  returns_paired t /\ ~ In 0%N t /\ ~ In 9%N t /\ ~ In 10%N t /\
  ser_escape_single_quotes t = Ok (str "it''s ''so''") /\
  load_text 300 (str "'it''s ''so'''") = Ok [YScalar (SString t)] /\
  spelled_out [97; 13; 10; 98]%N (str "a\nb").
Proof.
  cbv zeta. split.
  { intros a b E. exfalso. assert (I : In 13%N (str "it's 'so'")) by (rewrite E; apply in_elt).
    vm_compute in I. intuition discriminate. }
  do 3 (split; [vm_compute; intuition discriminate|]).
  split; [vm_compute; reflexivity|]. split; [vm_compute; reflexivity|].
  apply so_other; try discriminate. apply so_crlf. apply so_other; try discriminate. apply so_nil.
Qed.

(** C72: exactly truth values, numbers, characters, strings, the unit and options of these are
    serialised, by every formatter; for every other value the serialiser panics. Missing: the other values
    (see [C72_refuted]). *)
Theorem C72_serialisable_partial : forall f v,
  (has_serialiser v -> exists w, serialize_value f v = Ok w) /\
  (~ has_serialiser v -> serialize_value f v = Panic).
Proof. exact serialisers. Qed.
Print Assumptions C72_serialisable_partial.
(** C72 is false: a list panics. *)
Theorem C72_refuted : exists v, forall f, serialize_value f v = Panic.
Proof. exists (RSeq [RBase (SerInt 1)]). reflexivity. Qed.
Print Assumptions C72_refuted.
Example C72_example :
  has_serialiser (RSome (RBase (SerBool true))) /\
  serialize_value formatter_pretty (RSome (RBase (SerBool true))) = Ok (str "true") /\
  ~ has_serialiser (RSome (RStruct [(str "a", RBase SerUnit)])) /\
  serialize_value formatter_pretty (RSome (RStruct [(str "a", RBase SerUnit)])) = Panic.
Proof.
  split; [repeat constructor|]. split; [reflexivity|]. split; [|reflexivity].
  intros H. inversion H as [|v K E]. inversion K.
Qed.
