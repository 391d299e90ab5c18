(** Properties of the notation the test cases are written in (C74). *)
From Verif Require Import Base TestText SpecTestText TestTextProofs.
Local Open Scope list_scope.

(** C74: every text with only known escapes is read as its notation says. Missing: a backslash in front of
    another byte (see [C74_refuted]). *)
Theorem C74_read_as_written_partial : forall t u, notation false t u -> unescape_text t = u.
Proof. exact read_as_written. Qed.
Print Assumptions C74_read_as_written_partial.
(** Every text can be written so that it is read back. *)
Theorem C74_there_and_back : forall t, notation false (in_notation t) t /\ unescape_text (in_notation t) = t.
Proof. exact there_and_back. Qed.
Print Assumptions C74_there_and_back.
(** C74 is false for a backslash in front of another byte: the letters behind that byte are read as
    escapes, too. *)
Theorem C74_refuted : exists t u, notation true t u /\ unescape_text t <> u.
Proof.
  exists [92; 120; 110]%N, [120; 110]%N. split; [|vm_compute; discriminate].
  apply nt_other; [reflexivity| |].
  - intros d [H|[H|[H|[H|H]]]]; destruct H; discriminate.
  - apply nt_plain; [discriminate|constructor].
Qed.
Print Assumptions C74_refuted.
Example C74_example :
  notation false [97; 92; 110; 92; 92; 110]%N [97; 10; 92; 110]%N /\
  unescape_text [97; 92; 110; 92; 92; 110]%N = [97; 10; 92; 110]%N /\
  unescape_text [92; 120; 110]%N = [120; 10]%N.
Proof.
  split; [|split; reflexivity]. apply nt_plain; [discriminate|]. apply nt_escape; [left; auto|].
  apply nt_escape; [right; right; right; right; auto|]. apply nt_plain; [discriminate|constructor].
Qed.
