(** What follows for the tokens delivered by the scanner. *)
From Verif Require Import Base Tokens Scalar Chars Source SourceProofs Cursor Scanner SpecScan
  CursorProofs CursorRuns CursorScalars ScannerInv ScannerFetch ScannerRun.
From Coq Require Import Lia ZifyBool ZifyNat ZifyN String.

(** [delivered fuel z l z']: calls of [next] (scanner.rs:2227-2238) from the state [z] on have
    answered with the tokens [l] and left the state [z']. *)
Inductive delivered (fuel : nat) : scanner -> list token -> scanner -> Prop :=
| delivered_none z : delivered fuel z [] z
| delivered_more z z1 z2 t l : next fuel z = (z1, Ok (Some t)) -> delivered fuel z1 l z2 ->
    delivered fuel z (t :: l) z2.

Lemma over_next i D z fuel : over i D z -> next fuel z = (z, Ok None).
Proof. intros [_ _ _ _ _ _ (F1 & F2)]. unfold next. rewrite F2, F1. reflexivity. Qed.
Lemma delivered_inv i fuel : forall z l z', delivered fuel z l z' -> forall D p, ready i D p z ->
  (exists q, q + List.length l <= p /\ ready i (D ++ l) q z') \/ over i (D ++ l) z'.
Proof.
  induction 1 as [z|z z1 z2 t l N1 D1 IH]; intros D p R.
  - left. exists p. rewrite app_nil_r. cbn [List.length]. split; [lia|auto].
  - assert (P := next_ok i D p fuel z R). rewrite N1 in P. destruct P as (_ & [(q & Q & R1)|O]).
    + destruct (IH _ _ R1) as [(q' & Q' & R2)|O].
      * left. exists q'. cbn [List.length]. rewrite <- app_assoc in R2. split; [lia|exact R2].
      * right. rewrite <- app_assoc in O. exact O.
    + inversion D1; subst.
      * right. exact O.
      * match goal with H : next fuel z1 = _ |- _ => rewrite (over_next _ _ _ _ O) in H; discriminate end.
Qed.
Definition start_budget (i : text) : nat := 6 * List.length i + 4.
Lemma ready_new i : ready i [] (start_budget i) (scanner_new i).
Proof. split; [reflexivity|]. left. split; [reflexivity|]. split; [reflexivity|]. unfold start_budget. lia. Qed.
Lemma delivered_new i fuel l z : delivered fuel (scanner_new i) l z ->
  (exists q, q + List.length l <= start_budget i /\ ready i l q z) \/ over i l z.
Proof. intros H. exact (delivered_inv i fuel _ _ _ H [] _ (ready_new i)). Qed.

(** ** The whole run *)
Lemma scan_run_delivered fuel : forall n z l z' o, scan_run n fuel z = (l, (z', o)) ->
  exists z1, delivered fuel z l z1 /\
    ((o = Fuel /\ z' = z1 /\ List.length l = n) \/
     (List.length l < n /\
      next fuel z1 = (z', match o with Ok _ => Ok None | Err e => Err e | Panic => Panic | Ub => Ub | Fuel => Fuel end))).
Proof.
  induction n as [|n IH]; intros z l z' o H; cbn [scan_run] in H.
  - injection H as <- <- <-. exists z. split; [constructor|]. left. auto.
  - destruct (next fuel z) as [z1 [[t|]|e| | |]] eqn:E.
    + destruct (scan_run n fuel z1) as [l1 [z2 o2]] eqn:E1. injection H as <- <- <-.
      destruct (IH _ _ _ _ E1) as (z3 & D3 & H3). exists z3. split; [econstructor; eauto|].
      cbn [List.length]. destruct H3 as [(H3 & H4 & H5)|(H3 & H4)]; [left|right]; auto with arith.
    + injection H as <- <- <-. exists z. split; [constructor|]. right. split; [cbn; lia|]. auto.
    + injection H as <- <- <-. exists z. split; [constructor|]. right. split; [cbn; lia|]. auto.
    + injection H as <- <- <-. exists z. split; [constructor|]. right. split; [cbn; lia|]. auto.
    + injection H as <- <- <-. exists z. split; [constructor|]. right. split; [cbn; lia|]. auto.
    + injection H as <- <- <-. exists z. split; [constructor|]. right. split; [cbn; lia|]. auto.
Qed.
(** How a run can end. *)
Definition run_end (i : text) (fuel n : nat) (l : list token) (z : scanner) (o : out unit) : Prop :=
  (o = Fuel /\ ((exists q, ready i l q z /\ q + List.length l <= start_budget i /\ List.length l = n) \/
                (over i l z /\ List.length l = n) \/ fs i fuel)) \/
  (o = Ok tt /\ (over i l z \/ exists e, z_error z = Some e /\ failure i (z_cur z) e)) \/
  (o = Panic /\ big i) \/
  (o = Ub /\ reserved_near_end i).
Lemma over_length i l z : over i l z -> 0 < List.length l.
Proof. intros [_ _ _ _ _ (q & -> & _) _]. rewrite app_length. cbn [List.length]. lia. Qed.
Lemma run_ok i fuel n l z o : scan_run n fuel (scanner_new i) = (l, (z, o)) ->
  curs i (z_cur z) /\ run_end i fuel n l z o.
Proof.
  intros H. destruct (scan_run_delivered _ _ _ _ _ _ H) as (z1 & D1 & H1).
  assert (R := delivered_new i fuel l z1 D1).
  destruct H1 as [(-> & -> & E)|(LT & N1)].
  - destruct R as [(q & Q & R)|O].
    + split.
      * destruct R as (_ & [(-> & _)|[(L & _)|(E1 & _)]]); [left; apply new_cok|left; apply L|right; apply E1].
      * left. split; auto. left. exists q. auto.
    + split; [right; apply O|]. left. split; auto.
  - destruct R as [(q & Q & R)|O].
    + assert (P := next_ok i l q fuel z1 R). rewrite N1 in P. destruct P as (C & P).
      split; [exact C|]. destruct o as [[]| | | |].
      * right. left. auto.
      * destruct P.
      * right. right. left. auto.
      * right. right. right. auto.
      * left. auto.
    + rewrite (over_next _ _ _ _ O) in N1. split.
      * injection N1 as <- _. right. apply O.
      * injection N1 as <- E. destruct o as [[]| | | |]; try discriminate. right. left. auto.
Qed.

(** ** Termination *)
Lemma over_budget i fuel l z : delivered fuel (scanner_new i) l z -> List.length l <= start_budget i + 1.
Proof.
  assert (G : forall z l z', delivered fuel z l z' -> forall D p, ready i D p z -> List.length l <= p + 1).
  { clear l z. induction 1 as [z|z z1 z2 t l N1 D1 IH]; intros D p R; [cbn; lia|].
    assert (P := next_ok i D p fuel z R). rewrite N1 in P. destruct P as (_ & [(q & Q & R1)|O]).
    - specialize (IH _ _ R1). cbn [List.length]. lia.
    - inversion D1; subst; [cbn; lia|].
      match goal with H : next fuel z1 = _ |- _ => rewrite (over_next _ _ _ _ O) in H; discriminate end. }
  intros H. exact (G _ _ _ H [] _ (ready_new i)).
Qed.
Lemma scan_ends i fuel : good i -> 6 * List.length i + 6 <= fuel ->
  snd (snd (scan fuel i)) <> Fuel.
Proof.
  intros G F. unfold scan. destruct (scan_run fuel fuel (scanner_new i)) as [l [z o]] eqn:E. cbn [snd].
  destruct (run_ok _ _ _ _ _ _ E) as (_ & R).
  destruct (scan_run_delivered _ _ _ _ _ _ E) as (z1 & D1 & _).
  assert (B := over_budget i fuel l z1 D1). unfold start_budget in *.
  destruct R as [(-> & R)|[(-> & _)|[(-> & _)|(-> & _)]]]; try discriminate. intros _.
  destruct R as [(q & _ & Q & E1)|[(_ & E1)|S]]; try lia.
  specialize (S G). lia.
Qed.
(** ** Positions *)
Lemma below_end_mark i : below_end i (end_mark i).
Proof.
  destruct (at_pos_place i (List.length i) (Nat.le_refl _)) as (_ & P1 & P2 & _).
  rewrite firstn_all in *. unfold end_mark. split; [cbn [m_pos]; exact P1|]. split; [reflexivity|].
  cbn [m_line]. lia.
Qed.
Lemma tok_in_spans i n t : n <= List.length i -> tok_in i 0 n t -> spans i n t.
Proof.
  intros L (s & e & H1 & H2 & H3). exists s, e. rewrite H3. cbn [s_start s_end].
  split; [lia|]. split; apply at_pos_place; lia.
Qed.
Lemma end_tok_spans i t : end_tok i t -> spans i (List.length i) t \/ closing_token i t.
Proof.
  intros [T|(T1 & T2)]; [left; apply tok_in_spans; auto|right]. split; [auto|].
  rewrite T2. cbn [span_empty s_start s_end]. split; [apply below_end_mark|auto].
Qed.
Lemma the_end_closing i : closing_token i (the_end i).
Proof. split; [right; reflexivity|]. split; [apply below_end_mark|reflexivity]. Qed.
Definition position_ok (i : text) (z : scanner) : Prop :=
  place i (ss_pos (c_src (z_cur z))) (c_mark (z_cur z)) \/
  (ss_pos (c_src (z_cur z)) = List.length i /\ below_end i (c_mark (z_cur z))).
Lemma curs_position i z : curs i (z_cur z) -> position_ok i z.
Proof.
  intros [(C1 & C2 & C3)|(C1 & C2 & C3)].
  - left. rewrite C3. apply at_pos_place. exact C2.
  - right. split; [exact C2|]. rewrite C3. apply below_end_mark.
Qed.
Lemma run_tokens i fuel n l z o : scan_run n fuel (scanner_new i) = (l, (z, o)) ->
  Forall (fun t => spans i (List.length i) t \/ closing_token i t) l.
Proof.
  intros H. destruct (scan_run_delivered _ _ _ _ _ _ H) as (z1 & D1 & _).
  destruct (delivered_new i fuel l z1 D1) as [(q & _ & (_ & [(_ & -> & _)|[(L & _)|(E & _)]]))|O].
  - constructor.
  - assert (T := l_toks _ _ _ L). apply Forall_app in T as [T _].
    eapply Forall_impl; [|exact T]. intros t Ht. left. apply tok_in_spans; auto.
    eapply tok_in_le; [exact Ht|apply (l_cur _ _ _ L)].
  - destruct (e_toks _ _ _ E) as (q0 & _ & _ & T). apply Forall_app in T as [T _].
    eapply Forall_impl; [|exact T]. intros t Ht. apply end_tok_spans; auto.
  - destruct (o_toks _ _ _ O) as (q0 & -> & _ & T). apply Forall_app. split.
    + eapply Forall_impl; [|exact T]. intros t Ht. apply end_tok_spans; auto.
    + constructor; [|auto]. right. apply the_end_closing.
Qed.
Lemma run_error i fuel n l z : scan_run n fuel (scanner_new i) = (l, (z, Ok tt)) ->
  match z_error z with
  | None => True
  | Some (ScannerErr m _) => (exists k, k <= ss_pos (c_src (z_cur z)) /\ place i k m) \/ below_end i m
  | Some _ => False
  end.
Proof.
  intros H. destruct (run_ok _ _ _ _ _ _ H) as (_ & R).
  destruct R as [(E & _)|[(_ & [O|(e & E & F)])|[(E & _)|(E & _)]]]; try discriminate.
  - rewrite (proj2 (o_flags _ _ _ O)). auto.
  - rewrite E. destruct e as [m msg| | |]; [|destruct F as [(_ & [])|(_ & [])]..].
    destruct F as [(C & k & K & ->)|(C & F)].
    + left. exists k. split; [exact K|]. apply at_pos_place. destruct C as (_ & C & _). unfold cpos in *. lia.
    + right. cbn [end_err] in F. subst m. apply below_end_mark.
Qed.

(** ** Blocks *)
Lemma chain_decreasing K : forall l ind, chain K ind l -> decreasing (ind :: map fst l).
Proof.
  induction l as [|[j b] l IH]; intros ind H; cbn [chain map fst decreasing] in *; [auto|].
  destruct H as (H1 & H2 & H3). split; [auto|]. apply IH. auto.
Qed.
Lemma delivered_blocks i fuel l z : delivered fuel (scanner_new i) l z ->
  never_negative l /\ decreasing (z_indent z :: map fst (z_indents z)).
Proof.
  intros H. destruct (delivered_new i fuel l z H) as [(q & _ & (_ & [(-> & -> & _)|[(L & _)|(E & _)]]))|O].
  - split; [intros a b E; destruct a; [cbn; lia|discriminate]|]. cbn. auto.
  - split; [apply (nonneg_app_l _ _ (l_nonneg _ _ _ L))|]. eapply chain_decreasing. apply (l_chain _ _ _ L).
  - split; [apply (nonneg_app_l _ _ (e_nonneg _ _ _ E))|]. eapply chain_decreasing. apply (e_chain _ _ _ E).
  - split; [apply (o_nonneg _ _ _ O)|]. eapply chain_decreasing. apply (o_chain _ _ _ O).
Qed.
Lemma run_blocks i fuel l z : scan fuel i = (l, (z, Ok tt)) -> z_error z = None ->
  never_negative l /\ block_depth l = opens (z_indents z) /\ (z_flow z = 0%N -> z_indents z = []) /\
  exists q, l = q ++ [the_end i] /\ Forall (fun t => k_type t <> TStreamEnd) q.
Proof.
  intros H N. destruct (run_ok _ _ _ _ _ _ H) as (_ & R).
  destruct R as [(E & _)|[(_ & [O|(e & E & F)])|[(E & _)|(E & _)]]]; try discriminate; [|congruence].
  destruct O as [_ _ O1 O2 O3 (q & Q1 & Q2 & _) _]. split; [exact O1|]. split; [auto|]. split; [auto|].
  exists q. auto.
Qed.
