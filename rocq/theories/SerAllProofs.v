(** Escaping for single quotes and serialising every kind of value. *)
From Verif Require Import Base Chars SpecEmit SerdeSer SerAll SpecSerAll.
From Coq Require Import Lia.
Local Open Scope list_scope.

Lemma step_sq fuel c r : c <> 9%N -> c <> 10%N -> c <> 13%N ->
  escape_sq_loop (S fuel) (c :: r)
  = match escape_sq_loop fuel r with
    | Ok o => Ok ((if (c =? 39)%N then [39; 39]%N else [c]) ++ o)
    | e => e
    end.
Proof.
  intros A B C. cbn [escape_sq_loop].
  rewrite (proj2 (N.eqb_neq c 9) A), (proj2 (N.eqb_neq c 10) B), (proj2 (N.eqb_neq c 13) C).
  cbn [andb]. destruct (c =? 39)%N; reflexivity.
Qed.
Lemma escape_spelled t u : spelled_out t u -> forall fuel, List.length t < fuel ->
  escape_sq_loop fuel t = Ok (double_quotes u).
Proof.
  induction 1 as [|t u _ IH|t u _ IH|t u _ IH|c t u A B C _ IH]; intros [|fuel] F; cbn [List.length] in F; try lia.
  - reflexivity.
  - cbn -[double_quotes]. rewrite IH by lia. reflexivity.
  - cbn -[double_quotes]. rewrite IH by lia. reflexivity.
  - cbn -[double_quotes]. rewrite IH by lia. reflexivity.
  - rewrite (step_sq fuel c t A B C), IH by lia. reflexivity.
Qed.
Lemma spelled_exists t : returns_paired t -> exists u, spelled_out t u.
Proof.
  assert (G : forall n t, List.length t <= n -> returns_paired t -> exists u, spelled_out t u).
  { clear t. induction n as [|n IH]; intros [|c t] L R; try (exists []; constructor).
    - cbn in L. lia.
    - cbn [List.length] in L.
      destruct (N.eq_dec c 13) as [->|C].
      + destruct (R [] t eq_refl) as [t' ->]. cbn [List.length] in L.
        destruct (IH t') as [u U]; [lia| |].
        * intros a b ->. apply (R (13 :: 10 :: a)%N b). reflexivity.
        * eexists. apply so_crlf, U.
      + assert (R' : returns_paired t).
        { intros a b ->. apply (R (c :: a) b). reflexivity. }
        destruct (IH t) as [u U]; [lia|exact R'|].
        destruct (N.eq_dec c 9) as [->|A]; [eexists; apply so_tab, U|].
        destruct (N.eq_dec c 10) as [->|B]; [eexists; apply so_lf, U|].
        eexists. apply so_other; eauto. }
  apply (G (List.length t)). lia.
Qed.
Lemma spelled_clean t u : spelled_out t u ->
  ~ In 9%N u /\ ~ In 10%N u /\ ~ In 13%N u /\ (~ In 0%N t -> ~ In 0%N u).
Proof.
  induction 1 as [|t u _ IH|t u _ IH|t u _ IH|c t u A B C _ IH]; cbn [In].
  - tauto.
  - destruct IH as (P & Q & R & S). repeat split; intros; intuition discriminate.
  - destruct IH as (P & Q & R & S). repeat split; intros; intuition discriminate.
  - destruct IH as (P & Q & R & S). repeat split; intros; intuition discriminate.
  - destruct IH as (P & Q & R & S). repeat split; intros; intuition congruence.
Qed.
Lemma spelled_same t u : spelled_out t u -> ~ In 9%N t -> ~ In 10%N t -> u = t.
Proof.
  induction 1 as [|t u _ IH|t u _ IH|t u _ IH|c t u A B C _ IH]; cbn [In]; intros P Q; try tauto.
  f_equal. apply IH; tauto.
Qed.
Lemma spelled_size t u : spelled_out t u -> List.length u <= 2 * List.length t.
Proof. induction 1; cbn [List.length]; lia. Qed.
Lemma doubled_size u : List.length (double_quotes u) <= 2 * List.length u.
Proof.
  induction u as [|c u IH]; [apply le_n|]. cbn [double_quotes List.length]. rewrite app_length.
  destruct (c =? 39)%N; cbn [List.length]; lia.
Qed.

Lemma serialisers f v :
  (has_serialiser v -> exists w, serialize_value f v = Ok w) /\
  (~ has_serialiser v -> serialize_value f v = Panic).
Proof.
  assert (B : forall v, exists w, serialize f v = Ok w).
  { induction v0; cbn [serialize]; eauto.
    unfold serialize_str, use_complex_form.
    replace (N.of_nat 0 <=? depth_limit f)%N with true by (symmetry; apply N.leb_le; lia).
    cbn [negb]. eauto. }
  split.
  - induction 1; cbn [serialize_value]; auto.
  - induction v; cbn [serialize_value]; intros H; try reflexivity.
    + destruct H. constructor.
    + apply IHv. intros K. apply H. constructor. exact K.
Qed.
