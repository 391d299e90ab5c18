(** Test cases and the events they are compared with (C77). *)
From Verif Require Import Base Tokens Parser Pipeline TestText TestEvents SpecTestEvents TestEventsProofs.
From Coq Require Import String.
Local Open Scope list_scope.

(** Full statement: if two texts pass the same test case, the parser reads the same events from them (kinds, names of
    anchors, tags, styles and values), [reads_events].  It is false: see [C77_refuted].
    Proved: it holds if the expected events do not end with [ERR] and the events are on one line each ([one_line]: no
    line feeds in values, no blanks in names of anchors, no [>] in tags). *)
Theorem C77_cases_tell_apart_partial n n' i i' events xs ys :
  assert_eq_event_case YamlFormat n i events = true -> assert_eq_event_case YamlFormat n' i' events = true ->
  ends_with events (str "ERR") = false ->
  reads_events (parser_of_text n i false) xs -> reads_events (parser_of_text n' i' false) ys ->
  Forall one_line xs -> Forall one_line ys -> xs = ys.
Proof. exact (cases_tell_apart n n' i i' events xs ys). Qed.
Print Assumptions C77_cases_tell_apart_partial.

(** A value with a line feed looks like two scalars, and of a case that expects an error nothing is compared. *)
Theorem C77_refuted :
  (exists n i i' events xs ys,
    assert_eq_event_case YamlFormat n i events = true /\ assert_eq_event_case YamlFormat n i' events = true /\
    ends_with events (str "ERR") = false /\
    reads_events (parser_of_text n i false) xs /\ reads_events (parser_of_text n i' false) ys /\ xs <> ys) /\
  (exists n events, assert_eq_event_case YamlFormat n (str "a") events = true /\
    assert_eq_event_case YamlFormat n (str "[b]") events = true /\ assert_eq_event_case YamlFormat n (str "]") events = true).
Proof.
  split.
  - exists 200, (str "[""a\n=VAL \""b""]"), (str "[""a"",""b""]"),
      (str "+STR\n+DOC\n+SEQ\n=VAL ""a\n=VAL ""b\n-SEQ\n-DOC\n-STR\n").
    eexists _, _. split; [vm_compute; reflexivity|]. split; [vm_compute; reflexivity|]. split; [vm_compute; reflexivity|].
    split; [run_events|]. split; [run_events|]. vm_compute. discriminate.
  - exists 200, (str "+STR\n+DOC\n=VAL :x ERR"). vm_compute. auto.
Qed.
Print Assumptions C77_refuted.

(** A mapping with an anchor, a tag and an alias: the case, the events, and a text that fails it. *)
Example C77_meets : assert_eq_event_case YamlFormat 300 case_text case_events = true /\ ends_with case_events (str "ERR") = false /\
  reads_events (parser_of_text 300 case_text false) case_noted /\ Forall one_line case_noted.
Proof.
  split; [vm_compute; reflexivity|]. split; [vm_compute; reflexivity|]. split; [run_events|].
  unfold case_noted. repeat match goal with |- Forall _ (_ :: _) => apply Forall_cons | |- Forall _ [] => apply Forall_nil end;
    cbn [one_line]; unfold name_ok, tag_ok; repeat match goal with |- _ /\ _ => split end; try exact I; try (intros t E; try discriminate E; injection E as <-; split); cbn; intuition discriminate.
Qed.
Example C77_fails : assert_eq_event_case YamlFormat 300 (str "k: &a !t 'v'" ++ [10%N] ++ str "l: *a") case_events = false.
Proof. vm_compute. reflexivity. Qed.
Example C77_case : case_text = str "k: &a !t ""v""" ++ [10%N] ++ str "l: *a".
Proof. reflexivity. Qed.
