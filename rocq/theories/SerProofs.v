(** Serialised strings read back. *)
From Verif Require Import Base Tokens Chars Scalar Source Cursor Emitter SerdeSer SpecQuoted SpecSer.
From Verif Require Import FoldedQuotes ScalarProofs.
From Coq Require Import String Lia ZifyBool ZifyNat ZifyN.
Local Open Scope list_scope.

(** ** What is written *)
Lemma folds_refl t : folds_to t t.
Proof. induction t; constructor; auto. Qed.
Lemma folds_app a a' b b' : folds_to a a' -> folds_to b b' -> folds_to (a ++ b) (a' ++ b').
Proof. apply Forall2_app. Qed.
Lemma plain_app a b : plain_content (a ++ b) <-> plain_content a /\ plain_content b.
Proof. apply Forall_app. Qed.
Lemma blanks_suffix a b : single_blanks (a ++ b) -> single_blanks b.
Proof. intros H c x y d E B1 B2. apply (H (a ++ c) x y d); auto. rewrite E. now rewrite app_assoc. Qed.
Lemma blanks_prefix a b : single_blanks (a ++ b) -> single_blanks a.
Proof. intros H c x y d E B1 B2. apply (H c x y (d ++ b)); auto. rewrite E. rewrite <- app_assoc. reflexivity. Qed.
Lemma split_word (w : text) : w <> [] -> plain_content w -> single_blanks w -> is_splittable_ws w = true -> w = [32%N].
Proof.
  intros NE P B S. unfold is_splittable_ws in S. rewrite forallb_forall in S. unfold plain_content in P. rewrite Forall_forall in P.
  assert (A : forall x, In x w -> x = 32%N).
  { intros x I. specialize (S x I). specialize (P x I). cbn [In] in P. lia. }
  destruct w as [|x [|y w]]; [congruence| |].
  - rewrite (A x) by now left. reflexivity.
  - exfalso. apply (B [] x y w eq_refl); left; apply A; cbn [In]; auto.
Qed.
Lemma last_space (l : text) : plain_content l -> is_last_char_splittable_ws l = true ->
  l = removelast l ++ [32%N] /\ last l 0%N = 32%N.
Proof.
  intros P H. destruct (exists_last (l := l)) as (r & x & E); [intros ->; discriminate|]. subst l.
  unfold is_last_char_splittable_ws in H. rewrite rev_app_distr in H. cbn [rev app] in H.
  apply plain_app in P. destruct P as [_ P]. inversion_clear P as [|? ? PX _]. cbn [In] in PX.
  rewrite removelast_last, last_last. replace x with 32%N by lia. auto.
Qed.
Lemma multi_folds f (ws : list word) : forall lb n,
  Forall (fun w => fst w <> []) ws ->
  let t := lb ++ List.concat (map fst ws) in plain_content t -> single_blanks t ->
  let '(o, l) := multi_loop f 0 ws lb n in folds_to t (o ++ l).
Proof.
  induction ws as [|[w k] ws IH]; intros lb n NE; cbn [map List.concat multi_loop fst]; cbv zeta; intros P B.
  - rewrite app_nil_r. apply folds_refl.
  - inversion_clear NE as [|? ? NW NWS]. cbn [fst] in NW.
    assert (IH' : let '(o, l) := multi_loop f 0 ws (lb ++ w) (n + k) in
                  folds_to (lb ++ w ++ List.concat (map fst ws)) (o ++ l)).
    { rewrite app_assoc in *. apply (IH (lb ++ w) (n + k)%N NWS); auto. }
    destruct (is_time_to_split f n k); [|exact IH'].
    destruct (is_last_char_splittable_ws lb) eqn:L.
    + apply plain_app in P. destruct P as [PL PR]. destruct (last_space lb PL L) as [E1 E2].
      specialize (IH w k NWS PR (blanks_suffix _ _ B)). destruct (multi_loop f 0 ws w k) as [o l].
      unfold line_split_at, write_indentors. cbn [repeat List.concat]. rewrite E2. cbn [text_eqb]. cbn [N.eqb Pos.eqb andb].
      rewrite !app_nil_r. rewrite <- app_assoc. apply folds_app; [|exact IH].
      rewrite E1 at 1. apply folds_app; [apply folds_refl|]. constructor; [auto|constructor].
    + destruct (is_splittable_ws w) eqn:S; [|exact IH'].
      apply plain_app in P. destruct P as [PL PR]. apply plain_app in PR. destruct PR as [PW PR].
      pose proof (blanks_suffix _ _ B) as B1. pose proof (blanks_prefix _ _ B1) as BW. pose proof (blanks_suffix _ _ B1) as BR.
      pose proof (split_word w NW PW BW S) as E. subst w.
      specialize (IH [] 0%N NWS PR BR). destruct (multi_loop f 0 ws [] 0) as [o l]. cbn [app] in IH.
      unfold line_split_at, write_indentors. cbn [repeat List.concat]. cbn [text_eqb]. cbn [N.eqb Pos.eqb andb].
      rewrite !app_nil_r. rewrite <- !app_assoc. apply folds_app; [apply folds_refl|].
      cbn [app]. constructor; [auto|exact IH].
Qed.

(** ** Reading folded text *)
Lemma mark_folds r : forall r', folds_to r r' -> doc_mark (r' ++ [34%N]) -> doc_mark (r ++ [34%N]).
Proof.
  intros r' F (x & E & X).
  assert (G : forall a b c, (a = 45%N \/ a = 46%N) -> b = a -> c = a -> r' ++ [34%N] = a :: b :: c :: x ->
              exists z, r ++ [34%N] = a :: b :: c :: z /\ match z with [] => True | y :: _ => In y [32; 9; 10; 13; 0]%N end).
  { intros a b c A -> -> E'.
    destruct F as [|r0 r0' t0 t0' F0 F]; [injection E' as <- ?; lia|]. cbn [app] in E'. injection E' as E0 E'.
    destruct F as [|r1 r1' t1 t1' F1 F]; [injection E' as <- ?; lia|]. cbn [app] in E'. injection E' as E1 E'.
    destruct F as [|r2 r2' t2 t2' F2 F]; [injection E' as <- ?; lia|]. cbn [app] in E'. injection E' as E2 E'.
    exists (t2 ++ [34%N]). split; [cbn [app]; repeat f_equal; lia|]. subst x.
    destruct F as [|r3 r3' t3 t3' F3 F]; [exact X|]. cbn [app] in *. cbn [In] in *. lia. }
  destruct E as [E|E].
  - destruct (G 45%N 45%N 45%N (or_introl eq_refl) eq_refl eq_refl E) as (z & Z & Q). exists z. split; auto.
  - destruct (G 46%N 46%N 46%N (or_intror eq_refl) eq_refl eq_refl E) as (z & Z & Q). exists z. split; auto.
Qed.
Lemma split_folded t : forall t' indent, folds_to t t' -> plain_content t -> single_blanks t -> no_marker_word t ->
  (indent <= 1)%N ->
  exists w ws, flat_map as_is w ++ words_written as_is ws = t' /\ w ++ words_read ws = t /\
    double_word w /\ Forall (fun x => double_word (snd x)) ws /\ words_fit as_is 34%N indent ws /\
    (ws <> [] -> w = [] -> match t with b :: _ => blank b | [] => False end).
Proof.
  induction t as [|c r IH]; intros t' indent F P B M I; inversion F as [|? c' ? r' FC FR]; subst.
  - exists [], []. repeat split; try constructor. congruence.
  - inversion_clear P as [|? ? PC PR].
    destruct (IH r' indent FR PR (blanks_suffix [c] r B)) as (w & ws & E1 & E2 & D1 & D2 & FIT & ST); auto.
    { intros a b E. apply (M (c :: a) b). rewrite E. reflexivity. }
    assert (NB : blank c -> ws <> [] -> w <> []).
    { intros BC NW EW. specialize (ST NW EW). destruct r as [|b r1]; [exact ST|]. exact (B [] c b r1 eq_refl BC ST). }
    destruct (N.eq_dec c 32) as [->|NS].
    + assert (BC : blank 32%N) by now left. destruct FC as [->|[_ ->]].
      * exists [], ((Blanks [32%N], w) :: ws). cbn [flat_map app words_written words_read gap_written gap_read].
        rewrite E1, E2. split; [reflexivity|]. split; [reflexivity|]. split; [constructor|]. split; [constructor; auto|].
        split; [|intros _ _; exact BC]. cbn [words_fit]. split; [split; [discriminate|repeat constructor]|]. auto.
      * exists [], ((Break [] [] 0, w) :: ws). cbn [flat_map app words_written words_read gap_written gap_read repeat].
        rewrite E1, E2. split; [reflexivity|]. split; [reflexivity|]. split; [constructor|]. split; [constructor; auto|].
        split; [|intros _ _; exact BC]. cbn [words_fit]. split.
        { split; [constructor|]. split; [lia|]. intros _ K. rewrite app_assoc, E1 in K.
          apply (M [] r eq_refl). eapply mark_folds; eauto. }
        auto.
    + destruct FC as [->|[? _]]; [|contradiction]. destruct (N.eq_dec c 9) as [->|NT].
      * assert (BC : blank 9%N) by now right.
        exists [], ((Blanks [9%N], w) :: ws). cbn [flat_map app words_written words_read gap_written gap_read].
        rewrite E1, E2. split; [reflexivity|]. split; [reflexivity|]. split; [constructor|]. split; [constructor; auto|].
        split; [|intros _ _; exact BC]. cbn [words_fit]. split; [split; [discriminate|repeat constructor; exact BC]|]. auto.
      * exists (c :: w), ws. cbn [flat_map app]. unfold as_is at 1. cbn [app]. rewrite E1, E2.
        split; [reflexivity|]. split; [reflexivity|]. split; [constructor; [cbn [In] in *; intuition|exact D1]|].
        split; [exact D2|]. split; [exact FIT|]. discriminate.
Qed.
Lemma serialized_reads_back f (ws : list word) (t : text) :
  Forall (fun w => fst w <> []) ws -> t = List.concat (map fst ws) ->
  plain_content t -> single_blanks t -> no_marker_word t ->
  exists written,
    serialize f (SerStr ws) = Ok written /\
    forall (before after : text) (in_flow : bool) (indent : N) (m : marker) (lead ska : bool) (fuel : nat),
      may_follow_lines in_flow after -> (0 < m_col m)%N -> (indent <= 1)%N -> List.length written < fuel ->
      let doc := before ++ written ++ after in
      let m' := marker_after written m in
      scan_flow_scalar fuel false indent in_flow (Cur (StrSrc doc (List.length before)) m lead ska)
      = (Cur (StrSrc doc (List.length before + List.length written)) m' false ska,
         Ok (Token (Span m m') (TScalar DoubleQuote t))).
Proof.
  intros NE -> P B M. cbn [serialize]. unfold serialize_str, use_complex_form.
  replace (N.of_nat 0 <=? depth_limit f)%N with true by lia. cbn [negb].
  pose proof (multi_folds f ws [] 0%N NE P B) as F. unfold write_double_quote_multi.
  destruct (multi_loop f 0 ws [] 0) as [o l]. cbn [app] in F. eexists. split; [reflexivity|].
  intros before after in_flow indent m lead ska fuel A C I FU.
  destruct (split_folded _ _ indent F P B M I) as (w & xs & E1 & E2 & D1 & D2 & FIT & _).
  assert (W : [34%N] ++ o ++ l ++ [34%N] = in_quotes as_is 34%N w xs).
  { unfold in_quotes. cbn [app]. rewrite (app_assoc (flat_map as_is w)), E1, <- app_assoc. reflexivity. }
  rewrite W in *. cbn [app] in E2. rewrite <- E2. cbv zeta.
  apply folded_double; auto. lia.
Qed.
