(** Proofs about [unescape_text]. *)
From Verif Require Import Base TestText SpecTestText.
Local Open Scope list_scope.

Lemma read_as_written : forall t u, notation false t u -> unescape_text t = u.
Proof.
  unfold unescape_text. induction 1 as [|c t u N _ IH|l c t u L _ IH|c t u A]; [reflexivity| | |discriminate].
  - cbn [unescape_loop]. rewrite (proj2 (N.eqb_neq c 92) N), IH. reflexivity.
  - destruct L as [[-> ->]|[[-> ->]|[[-> ->]|[[-> ->]|[-> ->]]]]]; cbn; now rewrite IH.
Qed.
Lemma there_and_back : forall t, notation false (in_notation t) t /\ unescape_text (in_notation t) = t.
Proof.
  assert (W : forall t, notation false (in_notation t) t).
  { induction t as [|c t IH]; [constructor|]. cbn [in_notation].
    destruct (N.eqb_spec c 10) as [->|A]; [apply nt_escape; [left|]; auto|].
    destruct (N.eqb_spec c 13) as [->|B]; [apply nt_escape; [right; left|]; auto|].
    destruct (N.eqb_spec c 9) as [->|C]; [apply nt_escape; [right; right; left|]; auto|].
    destruct (N.eqb_spec c 8) as [->|D]; [apply nt_escape; [right; right; right; left|]; auto|].
    destruct (N.eqb_spec c 92) as [->|E]; [apply nt_escape; [right; right; right; right|]; auto|].
    apply nt_plain; assumption. }
  intros t. split; [apply W|]. apply read_as_written, W.
Qed.
