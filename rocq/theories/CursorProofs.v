(** Lemmas about the reading methods of the scanner: positions, bounds and termination. *)
From Verif Require Import Base Tokens Scalar Chars Source SourceProofs Cursor SpecScan.
From Coq Require Import Lia ZifyBool ZifyNat ZifyN String.

(** The marker reached after reading [l]. *)
Fixpoint to_lf (l : text) : nat :=
  match l with c :: r => if (c =? 10)%N then 0 else S (to_lf r) | [] => 0 end.
Definition mark_of (l : text) : marker :=
  Marker (N.of_nat (List.length l)) (N.of_nat (1 + to_lf (rev l)))
         (N.of_nat (1 + count_occ N.eq_dec l 10%N)).
Definition at_pos (i : text) (n : nat) : marker := mark_of (firstn n i).

Lemma mark_of_snoc l c :
  mark_of (l ++ [c]) = if (c =? 10)%N then mark_newline 1 (mark_of l) else mark_add 1 (mark_of l).
Proof.
  unfold mark_of, mark_newline, mark_add. rewrite rev_app_distr, app_length, count_occ_app.
  change (rev [c] ++ rev l) with (c :: rev l). cbn [to_lf m_pos m_col m_line List.length count_occ].
  destruct (N.eqb_spec c 10) as [->|Hc].
  - destruct (N.eq_dec 10 10); [|congruence]. f_equal; lia.
  - destruct (N.eq_dec c 10); [congruence|]. f_equal; lia.
Qed.
Lemma firstn_snoc {A} (l : list A) n c : nth_error l n = Some c -> firstn (S n) l = firstn n l ++ [c].
Proof.
  revert n; induction l as [|x l IH]; intros [|n] H; try discriminate.
  - injection H as ->. reflexivity.
  - cbn [nth_error] in H. change (firstn (S (S n)) (x :: l)) with (x :: firstn (S n) l).
    rewrite (IH n H). reflexivity.
Qed.
Lemma at_pos_step i n c : nth_error i n = Some c ->
  at_pos i (S n) = if (c =? 10)%N then mark_newline 1 (at_pos i n) else mark_add 1 (at_pos i n).
Proof. intros H. unfold at_pos. rewrite (firstn_snoc _ _ _ H). apply mark_of_snoc. Qed.

(** The bytes from [a] up to [b] exist and are not line feeds. *)
Definition walk (i : text) (a b : nat) : Prop :=
  forall n, a <= n < b -> exists c, nth_error i n = Some c /\ c <> 10%N.
Lemma walk_mark i a n : walk i a (a + n) -> at_pos i (a + n) = mark_add n (at_pos i a).
Proof.
  induction n as [|n IH]; intros H.
  - rewrite Nat.add_0_r. unfold mark_add. destruct (at_pos i a); cbn; f_equal; lia.
  - destruct (H (a + n) ltac:(lia)) as (c & E & Hc).
    replace (a + S n) with (S (a + n)) by lia. rewrite (at_pos_step _ _ _ E).
    destruct (N.eqb_spec c 10); [contradiction|]. rewrite IH by (intros k Hk; apply H; lia).
    unfold mark_add; cbn [m_pos m_col m_line]. f_equal; lia.
Qed.
Lemma walk_len i a b : walk i a b -> a <= b -> a <= List.length i -> b <= List.length i.
Proof.
  intros H Hab Ha. destruct (Nat.le_gt_cases b (List.length i)) as [|Hb]; auto.
  destruct (H (b - 1) ltac:(lia)) as (c & E & _).
  assert (b - 1 < List.length i) by (apply nth_error_Some; rewrite E; discriminate). lia.
Qed.
Lemma walk_trans i a b c : walk i a b -> walk i b c -> walk i a c.
Proof. intros H1 H2 n Hn. destruct (Nat.lt_ge_cases n b); [apply H1|apply H2]; lia. Qed.
Lemma walk_refl i a : walk i a a.
Proof. intros n Hn. lia. Qed.

Lemma mark_of_place l : reads_to l (mark_of l).
Proof.
  unfold reads_to, mark_of. cbn [m_pos m_line m_col]. split; [reflexivity|]. split; [reflexivity|].
  induction l as [|c l IH] using rev_ind.
  - exists [], []. repeat split; auto.
  - rewrite rev_app_distr. change (rev [c] ++ rev l) with (c :: rev l). cbn [to_lf].
    destruct (N.eqb_spec c 10) as [->|Hc].
    + exists (l ++ [10%N]), []. rewrite app_nil_r. split; [reflexivity|].
      split; [intros []|]. split; [right; exists l; reflexivity|reflexivity].
    + destruct IH as (b & ln & -> & Hn & Hb & Hc'). exists b, (ln ++ [c]). rewrite app_assoc.
      split; [reflexivity|]. split.
      { intros X. apply in_app_or in X as [X|[X|[]]]; auto. }
      split; [exact Hb|]. rewrite app_length. cbn [List.length].
      assert (1 + to_lf (rev (b ++ ln)) = 1 + List.length ln) by lia. lia.
Qed.
Lemma at_pos_place i n : n <= List.length i -> place i n (at_pos i n).
Proof. intros H. split; [exact H|apply mark_of_place]. Qed.

(** ** Cursors that agree with the text *)
Definition cpos (c : cursor) : nat := ss_pos (c_src c).
Definition cok (i : text) (c : cursor) : Prop :=
  ss_input (c_src c) = i /\ cpos c <= List.length i /\ c_mark c = at_pos i (cpos c).
(** A marker inside the part of the text up to [n]. *)
Definition mark_in (i : text) (n : nat) (m : marker) : Prop := exists k, k <= n /\ m = at_pos i k.
Definition err_in (i : text) (n : nat) (e : yerr) : Prop :=
  match e with ScannerErr m _ => mark_in i n m | _ => False end.

Lemma mark_in_le i n n' m : mark_in i n m -> n <= n' -> mark_in i n' m.
Proof. intros (k & Hk & ->) H. exists k. split; [lia|reflexivity]. Qed.
Lemma mark_in_self i c : cok i c -> mark_in i (cpos c) (c_mark c).
Proof. intros (_ & _ & H). exists (cpos c). auto. Qed.
#[global] Hint Resolve mark_in_self : scan.

(** [runs i m c P F X]: started at [c], the method [m] keeps to the text, goes forward, answers as
    described by [P]; it may only exhaust its fuel when [F], and only panic when [X]. *)
Definition runs {A} (i : text) (m : CM A) (c : cursor) (P : cursor -> A -> Prop) (F X : Prop) : Prop :=
  let (c', o) := m c in
  cok i c' /\ cpos c <= cpos c' /\
  match o with
  | Ok a => P c' a
  | Err e => err_in i (cpos c') e
  | Panic => X
  | Ub => False
  | Fuel => F
  end.

Lemma runs_ret {A} i (a : A) c (P : cursor -> A -> Prop) F X : cok i c -> P c a -> runs i (ret a) c P F X.
Proof. intros H HP. unfold runs, ret. auto. Qed.
Lemma runs_err {A} i m msg c (P : cursor -> A -> Prop) F X :
  cok i c -> mark_in i (cpos c) m -> runs i (err m msg) c P F X.
Proof. intros H HP. unfold runs, err, fail. auto. Qed.
Lemma runs_bind {A B} i (m : CM A) (k : A -> CM B) c P F1 X1 Q (F X : Prop) :
  runs i m c P F1 X1 -> (F1 -> F) -> (X1 -> X) ->
  (forall c' a, cok i c' -> cpos c <= cpos c' -> P c' a -> runs i (k a) c' Q F X) ->
  runs i (bind m k) c Q F X.
Proof.
  unfold runs, bind. intros H HF HX Hk. destruct (m c) as [c' o].
  destruct H as (H1 & H2 & H3). destruct o; auto.
  specialize (Hk _ _ H1 H2 H3). destruct (k a c') as [c'' o''].
  destruct Hk as (K1 & K2 & K3). split; [auto|split; [lia|auto]].
Qed.
Lemma runs_weaken {A} i (m : CM A) c (P P' : cursor -> A -> Prop) (F F' X X' : Prop) :
  runs i m c P F X -> (forall c' a, cok i c' -> cpos c <= cpos c' -> P c' a -> P' c' a) ->
  (F -> F') -> (X -> X') -> runs i m c P' F' X'.
Proof.
  unfold runs. intros H HP HF HX. destruct (m c) as [c' o].
  destruct H as (H1 & H2 & H3). split; [auto|split; [auto|]]. destruct o; auto.
Qed.
(** Reading a field or peeking: the state does not change. *)
Lemma runs_gets {A B} i (f : cursor -> A) (k : A -> CM B) c Q F X :
  runs i (k (f c)) c Q F X -> runs i (bind (gets f) k) c Q F X.
Proof. exact (fun H => H). Qed.
Lemma runs_assoc {A B C} i (m : CM A) (f : A -> CM B) (g : B -> CM C) c Q F X :
  runs i (bind m (fun x => bind (f x) g)) c Q F X -> runs i (bind (bind m f) g) c Q F X.
Proof. unfold runs, bind. destruct (m c) as [c' []]; auto. Qed.
Lemma runs_ret_bind {A B} i (a : A) (k : A -> CM B) c Q F X :
  runs i (k a) c Q F X -> runs i (bind (ret a) k) c Q F X.
Proof. exact (fun H => H). Qed.
Lemma runs_err_bind {A B} i m msg (k : A -> CM B) c (Q : cursor -> B -> Prop) F X :
  cok i c -> mark_in i (cpos c) m -> runs i (bind (err m msg) k) c Q F X.
Proof. intros. unfold runs, bind, err, fail. auto. Qed.
(** Assignments to the two flags. *)
Lemma runs_set_lead {B} i b (k : unit -> CM B) c Q F X : cok i c ->
  (forall c', cok i c' -> cpos c' = cpos c -> c_lead c' = b -> c_ska c' = c_ska c ->
     runs i (k tt) c' Q F X) ->
  runs i (bind (set_lead b) k) c Q F X.
Proof.
  intros H Hk. assert (R := Hk (Cur (c_src c) (c_mark c) b (c_ska c)) H eq_refl eq_refl eq_refl).
  exact R.
Qed.
Lemma runs_set_ska {B} i b (k : unit -> CM B) c Q F X : cok i c ->
  (forall c', cok i c' -> cpos c' = cpos c -> c_lead c' = c_lead c -> c_ska c' = b ->
     runs i (k tt) c' Q F X) ->
  runs i (bind (set_ska b) k) c Q F X.
Proof.
  intros H Hk. assert (R := Hk (Cur (c_src c) (c_mark c) (c_lead c) b) H eq_refl eq_refl eq_refl).
  exact R.
Qed.

(** ** Bytes at the cursor *)
Definition here (i : text) (c : cursor) (n : nat) : option N := nth_error i (cpos c + n).
Lemma peekz_here i c n : cok i c ->
  peekz str_ops (c_src c) n = match nth_error i (cpos c + n) with Some b => b | None => 0%N end.
Proof. intros (E & _). unfold peekz. cbn [str_ops o_peek]. unfold str_peek. rewrite E. reflexivity. Qed.
Lemma peekz_some i c n b : cok i c -> peekz str_ops (c_src c) n = b -> b <> 0%N ->
  nth_error i (cpos c + n) = Some b.
Proof. intros H E Hb. rewrite (peekz_here i) in E by auto. destruct (nth_error i (cpos c + n)); congruence. Qed.
Lemma str_peek_here i c n : cok i c -> str_peek (c_src c) n = nth_error i (cpos c + n).
Proof. intros (E & _). unfold str_peek. rewrite E. reflexivity. Qed.
Lemma nth_some_lt {A} (l : list A) n x : nth_error l n = Some x -> n < List.length l.
Proof. intros E. apply nth_error_Some. rewrite E. discriminate. Qed.
Lemma empty_here i c : cok i c -> str_buf_is_empty (c_src c) = Nat.leb (List.length i) (cpos c).
Proof. intros (E & _). unfold str_buf_is_empty. rewrite E. reflexivity. Qed.

(** Moving over [n] bytes that are not line feeds. *)
Lemma cok_move i c n lead ska : cok i c -> walk i (cpos c) (cpos c + n) ->
  cok i (Cur (str_skip n (c_src c)) (mark_add n (c_mark c)) lead ska).
Proof.
  intros (E & L & M) W. unfold cok, cpos. cbn [c_src c_mark str_skip ss_input ss_pos].
  fold (cpos c). split; [exact E|]. split; [eapply walk_len; eauto; lia|].
  rewrite M. symmetry. apply walk_mark. exact W.
Qed.
Lemma runs_skip_n {B} i n (k : unit -> CM B) c Q F X : cok i c -> walk i (cpos c) (cpos c + n) ->
  (forall c', cok i c' -> cpos c' = cpos c + n -> c_lead c' = false -> c_ska c' = c_ska c ->
     runs i (k tt) c' Q F X) ->
  runs i (bind (skip_n_non_blank n) k) c Q F X.
Proof.
  intros H W Hk.
  assert (R := Hk _ (cok_move _ _ _ false (c_ska c) H W) eq_refl eq_refl eq_refl).
  revert R. unfold runs, bind, skip_n_non_blank, modify.
  change (cpos (Cur (str_skip n (c_src c)) (mark_add n (c_mark c)) false (c_ska c))) with (cpos c + n).
  destruct (k tt _) as [c' o]. intros (R1 & R2 & R3). split; [auto|split; [lia|auto]].
Qed.
Lemma runs_skip_blank {B} i (k : unit -> CM B) c Q F X : cok i c -> walk i (cpos c) (cpos c + 1) ->
  (forall c', cok i c' -> cpos c' = cpos c + 1 -> c_lead c' = c_lead c -> c_ska c' = c_ska c ->
     runs i (k tt) c' Q F X) ->
  runs i (bind skip_blank k) c Q F X.
Proof.
  intros H W Hk.
  assert (R := Hk _ (cok_move _ _ _ (c_lead c) (c_ska c) H W) eq_refl eq_refl eq_refl).
  revert R. unfold runs, bind, skip_blank, modify.
  change (cpos (Cur (str_skip 1 (c_src c)) (mark_add 1 (c_mark c)) (c_lead c) (c_ska c))) with (cpos c + 1).
  destruct (k tt _) as [c' o]. intros (R1 & R2 & R3). split; [auto|split; [lia|auto]].
Qed.
Lemma walk1 i c b : cok i c -> peekz str_ops (c_src c) 0 = b -> b <> 0%N -> b <> 10%N ->
  walk i (cpos c) (cpos c + 1).
Proof.
  intros H E H0 H1 n Hn. assert (n = cpos c) by lia. subst n. exists b. split; auto.
  rewrite <- (Nat.add_0_r (cpos c)). eapply peekz_some; eauto.
Qed.
(** A line break: it is passed unless it is a carriage return alone. *)
Lemma runs_linebreak {B} i (k : unit -> CM B) c Q F X : cok i c ->
  (forall c', cok i c' -> cpos c <= cpos c' ->
     (is_break (peekz str_ops (c_src c) 0) = true -> crlf_only i -> cpos c < cpos c') ->
     c_ska c' = c_ska c ->
     runs i (k tt) c' Q F X) ->
  runs i (bind skip_linebreak k) c Q F X.
Proof.
  intros H Hk.
  set (b := peekz str_ops (c_src c) 0) in *. set (nb := peekz str_ops (c_src c) 1) in *.
  assert (E : skip_linebreak c =
    (if (b =? 13)%N && (nb =? 10)%N then
      Cur (str_skip 2 (c_src c)) (mark_newline 2 (c_mark c)) true (c_ska c)
    else if (b =? 10)%N then
      Cur (str_skip 1 (c_src c)) (mark_newline 1 (c_mark c)) true (c_ska c)
    else c, Ok tt)) by reflexivity.
  assert (G : forall c', cok i c' -> cpos c <= cpos c' ->
    (is_break b = true -> crlf_only i -> cpos c < cpos c') -> c_ska c' = c_ska c ->
    skip_linebreak c = (c', Ok tt) -> runs i (bind skip_linebreak k) c Q F X).
  { intros c' C1 C2 C3 C4 C5. specialize (Hk c' C1 C2 C3 C4). unfold runs, bind in *. rewrite C5.
    destruct (k tt c') as [c'' o]. destruct Hk as (K1 & K2 & K3). split; [auto|split; [lia|auto]]. }
  destruct H as (EI & EL & EM).
  destruct ((b =? 13)%N && (nb =? 10)%N) eqn:E1.
  - assert (B0 : nth_error i (cpos c) = Some 13%N).
    { rewrite <- (Nat.add_0_r (cpos c)). eapply peekz_some; [split; eauto| |discriminate]. fold b. lia. }
    assert (B1 : nth_error i (cpos c + 1) = Some 10%N).
    { eapply peekz_some; [split; eauto| |discriminate]. fold nb. lia. }
    eapply G; [| | | |exact E].
    + unfold cok, cpos. cbn [c_src c_mark str_skip ss_input ss_pos]. fold (cpos c).
      split; [auto|]. split; [apply nth_some_lt in B1; lia|].
      replace (cpos c + 2) with (S (cpos c + 1)) by lia. rewrite (at_pos_step _ _ _ B1).
      replace (cpos c + 1) with (S (cpos c)) by lia. rewrite (at_pos_step _ _ _ B0).
      cbn [N.eqb Pos.eqb]. rewrite EM. unfold mark_newline, mark_add. cbn [m_pos m_line]. f_equal; lia.
    + unfold cpos. cbn. lia.
    + unfold cpos. cbn. lia.
    + reflexivity.
  - destruct (b =? 10)%N eqn:E2.
    + assert (B0 : nth_error i (cpos c) = Some 10%N).
      { rewrite <- (Nat.add_0_r (cpos c)). eapply peekz_some; [split; eauto| |discriminate]. fold b. lia. }
      eapply G; [| | | |exact E].
      * unfold cok, cpos. cbn [c_src c_mark str_skip ss_input ss_pos]. fold (cpos c).
        split; [auto|]. split; [apply nth_some_lt in B0; lia|].
        replace (cpos c + 1) with (S (cpos c)) by lia. rewrite (at_pos_step _ _ _ B0).
        cbn [N.eqb Pos.eqb]. rewrite EM. reflexivity.
      * unfold cpos. cbn. lia.
      * unfold cpos. cbn. lia.
      * reflexivity.
    + eapply G; [| | | |exact E]; auto.
      * split; auto.
      * intros Hb Hcr. exfalso. unfold is_break in Hb.
        assert (B0 : nth_error i (cpos c) = Some 13%N).
        { rewrite <- (Nat.add_0_r (cpos c)). eapply peekz_some; [split; eauto| |discriminate]. fold b. lia. }
        apply Hcr in B0. replace (S (cpos c)) with (cpos c + 1) in B0 by lia.
        unfold nb in E1. rewrite (peekz_here i) in E1 by (split; auto). rewrite B0 in E1. lia.
Qed.

(** A text on which the loops make progress: no carriage return alone, no NUL. *)
Definition nice (i : text) : Prop := crlf_only i /\ ~ In 0%N i.
(** The fuel is less than the rest of the text and [k] steps. *)
Definition short (fuel : nat) (i : text) (c : cursor) (k : nat) : Prop :=
  nice i -> fuel < List.length i - cpos c + k.

Lemma runs_peek {B} i n (k : N -> CM B) c Q F X :
  runs i (k (peekz str_ops (c_src c) n)) c Q F X -> runs i (bind (peek n) k) c Q F X.
Proof. exact (fun H => H). Qed.
Lemma runs_mark {B} i (k : marker -> CM B) c Q F X :
  runs i (k (c_mark c)) c Q F X -> runs i (bind get_mark k) c Q F X.
Proof. exact (fun H => H). Qed.
Lemma runs_checked {B} i n (k : option N -> CM B) c Q F X : cok i c ->
  runs i (k (nth_error i (cpos c + n))) c Q F X -> runs i (bind (peek_checked n) k) c Q F X.
Proof. intros H R. rewrite <- (str_peek_here i) in R by auto. exact R. Qed.
Lemma runs_empty {B} i (k : bool -> CM B) c Q F X : cok i c ->
  runs i (k (Nat.leb (List.length i) (cpos c))) c Q F X -> runs i (bind buf_is_empty k) c Q F X.
Proof. intros H R. rewrite <- (empty_here i) in R by auto. exact R. Qed.
Lemma runs_fuel {A} i c (P : cursor -> A -> Prop) (F X : Prop) : cok i c -> F -> runs i out_of_fuel c P F X.
Proof. intros H HF. unfold runs, out_of_fuel. auto. Qed.
Lemma runs_panic {A} i c (P : cursor -> A -> Prop) (F X : Prop) : cok i c -> X -> runs i panic c P F X.
Proof. intros H HF. unfold runs, panic. auto. Qed.

Lemma take_while_walk i p : (forall b, p b = true -> b <> 0%N /\ b <> 10%N) ->
  forall fuel s, ss_input s = i -> ss_pos s <= List.length i ->
  match take_while str_ops p fuel s with
  | Some (l, s') =>
      ss_input s' = i /\ ss_pos s' = ss_pos s + List.length l /\ walk i (ss_pos s) (ss_pos s') /\
      Forall (fun b => p b = true) l /\ p (peekz str_ops s' 0) = false /\
      firstn (List.length l) (skipn (ss_pos s) i) = l
  | None => fuel < List.length i - ss_pos s + 1
  end.
Proof.
  intros Hp; induction fuel as [|fuel IH]; intros s E L.
  - cbn [take_while]. lia.
  - cbn [take_while]. destruct (p (peekz str_ops s 0)) eqn:Ep.
    + destruct (Hp _ Ep) as [H0 H10].
      assert (N0 : nth_error i (ss_pos s) = Some (peekz str_ops s 0)).
      { unfold peekz in *. cbn [str_ops o_peek] in *. unfold str_peek in *. rewrite E, Nat.add_0_r in *.
        destruct (nth_error i (ss_pos s)); congruence. }
      assert (LT := nth_some_lt _ _ _ N0).
      specialize (IH (o_skip str_ops 1 s) E). cbn [str_ops o_skip str_skip ss_pos ss_input] in IH.
      specialize (IH ltac:(lia)). cbn [str_ops o_skip].
      change (StrSrc (ss_input s) (ss_pos s + 1)) with (str_skip 1 s) in IH.
      destruct (take_while str_ops p fuel (str_skip 1 s)) as [[l s']|]; [|lia].
      destruct IH as (I1 & I2 & I3 & I4 & I5 & I6).
      split; [auto|]. split; [cbn [List.length]; lia|]. split.
      { intros n Hn. destruct (Nat.eq_dec n (ss_pos s)) as [->|]; [eauto|].
        apply I3. unfold str_skip; cbn [ss_pos]. lia. }
      split; [constructor; auto|]. split; [auto|]. cbn [List.length].
      assert (SK : skipn (ss_pos s) i = peekz str_ops s 0 :: skipn (ss_pos s + 1) i).
      { clear - N0. revert N0. generalize (peekz str_ops s 0) (ss_pos s). intros b n. revert i.
        induction n as [|n IH]; intros [|x i] H; try discriminate.
        - injection H as ->. reflexivity.
        - cbn [Nat.add]. apply IH. exact H. }
      rewrite SK. cbn [firstn]. f_equal. exact I6.
    + split; [auto|]. cbn [List.length]. split; [lia|]. split; [apply walk_refl|]. auto.
Qed.

Lemma runs_while i p fuel c : (forall b, p b = true -> b <> 0%N /\ b <> 10%N) -> cok i c ->
  runs i (run_while p fuel) c
    (fun c' l => cpos c' = cpos c + List.length l /\ c_lead c' = c_lead c /\ c_ska c' = c_ska c /\
                 Forall (fun b => p b = true) l /\ p (peekz str_ops (c_src c') 0) = false)
    (fuel < List.length i - cpos c + 1) False.
Proof.
  intros Hp H. destruct H as (E & L & M).
  assert (T := take_while_walk i p Hp fuel (c_src c) E L). unfold runs, run_while.
  destruct (take_while str_ops p fuel (c_src c)) as [[l s']|].
  - destruct T as (T1 & T2 & T3 & T4 & T5 & T6).
    unfold cok, cpos. cbn [c_src c_mark c_lead c_ska].
    assert (walk i (cpos c) (cpos c + List.length l)) by (unfold cpos; rewrite <- T2; exact T3).
    split; [split; [auto|split; [eapply walk_len; eauto; rewrite T2; lia|]]|].
    + rewrite M, T2. symmetry. apply walk_mark. auto.
    + split; [rewrite T2; unfold cpos; lia|]. rewrite T2. auto.
  - split; [split; auto|]. split; [lia|]. exact T.
Qed.

Lemma shared_walk i tabs : forall fuel s bytes any has, ss_input s = i -> ss_pos s <= List.length i ->
  match shared_skip_ws_to_eol str_ops fuel s tabs bytes any has with
  | Some (s', (n, r)) =>
      ss_input s' = i /\ ss_pos s <= ss_pos s' /\ n = bytes + (ss_pos s' - ss_pos s) /\
      walk i (ss_pos s) (ss_pos s') /\
      match r with
      | SkipOk _ _ => peekz str_ops s' 0 <> 32%N /\ (tabs = true -> peekz str_ops s' 0 <> 9%N) /\ peekz str_ops s' 0 <> 35%N
      | SkipErr _ => True
      end
  | None => fuel < List.length i - ss_pos s + 1
  end.
Proof.
  assert (P0 : forall s, ss_input s = i -> peekz str_ops s 0 <> 0%N ->
    nth_error i (ss_pos s) = Some (peekz str_ops s 0)).
  { intros s E Hb. unfold peekz in *. cbn [str_ops o_peek] in *. unfold str_peek in *.
    rewrite E, Nat.add_0_r in *. destruct (nth_error i (ss_pos s)); congruence. }
  induction fuel as [|fuel IH]; intros s bytes any has E L.
  - cbn [shared_skip_ws_to_eol]. lia.
  - cbn [shared_skip_ws_to_eol]. cbv zeta.
    assert (STEP : forall bytes' any' has', (peekz str_ops s 0 <> 0)%N -> (peekz str_ops s 0 <> 10)%N ->
      bytes' = bytes + 1 ->
      match shared_skip_ws_to_eol str_ops fuel (o_skip str_ops 1 s) tabs bytes' any' has' with
      | Some (s', (n, r)) =>
        ss_input s' = i /\ ss_pos s <= ss_pos s' /\ n = bytes + (ss_pos s' - ss_pos s) /\
        walk i (ss_pos s) (ss_pos s') /\
        match r with
        | SkipOk _ _ => peekz str_ops s' 0 <> 32%N /\ (tabs = true -> peekz str_ops s' 0 <> 9%N) /\ peekz str_ops s' 0 <> 35%N
        | SkipErr _ => True
        end
      | None => S fuel < List.length i - ss_pos s + 1
      end).
    { intros bytes' any' has' H0 H10 ->. assert (N0 := P0 s E H0). assert (LT := nth_some_lt _ _ _ N0).
      specialize (IH (o_skip str_ops 1 s) (bytes + 1) any' has' E).
      cbn [str_ops o_skip str_skip ss_pos ss_input] in IH |- *. specialize (IH ltac:(lia)).
      destruct (shared_skip_ws_to_eol _ fuel _ tabs (bytes + 1) any' has') as [[s' [n r]]|]; [|lia].
      destruct IH as (I1 & I2 & I3 & I4 & I5). split; [auto|]. split; [lia|]. split; [lia|]. split; [|auto].
      intros m Hm. destruct (Nat.eq_dec m (ss_pos s)) as [->|]; [eauto|]. apply I4. lia. }
    destruct (N.eqb_spec (peekz str_ops s 0) 32) as [E32|N32].
    { apply STEP; lia. }
    destruct ((peekz str_ops s 0 =? 9)%N && tabs) eqn:E9.
    { apply STEP; lia. }
    destruct ((peekz str_ops s 0 =? 35)%N && negb any && negb has) eqn:E35.
    { split; [auto|]. split; [lia|]. split; [lia|]. split; [apply walk_refl|]. exact I. }
    destruct (N.eqb_spec (peekz str_ops s 0) 35) as [H35|N35].
    + assert (H0 : peekz str_ops s 0 <> 0%N) by lia. assert (N0 := P0 s E H0). assert (LT := nth_some_lt _ _ _ N0).
      assert (T := take_while_walk i (fun c => negb (is_breakz c))
        ltac:(intros b Hb; unfold is_breakz in Hb; lia) fuel (o_skip str_ops 1 s) E).
      cbn [str_ops o_skip str_skip ss_pos] in T. specialize (T ltac:(lia)).
      unfold skip_while_non_breakz.
      change (Ops str_peek str_skip) with str_ops in T |- *.
      cbn [str_ops o_skip]. unfold str_skip at 1.
      unfold str_skip in T. 
      destruct (take_while str_ops (fun c => negb (is_breakz c)) fuel (StrSrc (ss_input s) (ss_pos s + 1)))
        as [[l s1]|]; [|cbn [ss_pos] in T; lia].
      destruct T as (T1 & T2 & T3 & T4 & T5 & T6). cbn [ss_pos] in T2, T3.
      specialize (IH s1 (bytes + List.length l + 1) any has T1).
      assert (LEN : ss_pos s1 <= List.length i) by (eapply walk_len; [exact T3|lia|lia]).
      specialize (IH LEN).
      destruct (shared_skip_ws_to_eol _ fuel s1 tabs (bytes + List.length l + 1) any has) as [[s' [n r]]|]; [|lia].
      destruct IH as (I1 & I2 & I3 & I4 & I5). split; [auto|]. split; [lia|]. split; [lia|]. split; [|auto].
      intros m Hm. destruct (Nat.eq_dec m (ss_pos s)) as [->|]; [exists (peekz str_ops s 0); split; [auto|lia]|].
      destruct (Nat.lt_ge_cases m (ss_pos s1)); [apply T3|apply I4]; lia.
    + split; [auto|]. split; [lia|]. split; [lia|]. split; [apply walk_refl|]. split; [auto|]. split; [|auto].
      intros ->. rewrite andb_true_r in E9. lia.
Qed.

Lemma runs_ws i fuel tabs prev c : cok i c ->
  runs i (skip_ws_to_eol fuel tabs prev) c
    (fun c' _ => c_lead c' = c_lead c /\ c_ska c' = c_ska c /\ walk i (cpos c) (cpos c') /\
                 peekz str_ops (c_src c') 0 <> 32%N /\ (tabs = true -> peekz str_ops (c_src c') 0 <> 9%N) /\
                 peekz str_ops (c_src c') 0 <> 35%N)
    (fuel < List.length i - cpos c + 1) False.
Proof.
  intros (E & L & M). assert (T := shared_walk i tabs fuel (c_src c) 0 false prev E L).
  unfold runs, skip_ws_to_eol, str_skip_ws_to_eol.
  destruct (shared_skip_ws_to_eol str_ops fuel (c_src c) tabs 0 false prev) as [[s' [n r]]|].
  - destruct T as (T1 & T2 & T3 & T4 & T5). fold (cpos c) in *.
    assert (EP : ss_pos s' = cpos c + n) by lia. rewrite EP in *.
    assert (OK : forall l k, cok i (Cur s' (mark_add n (c_mark c)) l k)).
    { intros l k. unfold cok, cpos. cbn [c_src c_mark]. rewrite EP. split; [auto|].
      split; [eapply walk_len; eauto|]. rewrite M. symmetry. apply walk_mark. exact T4. }
    assert (CP : forall l k, cpos (Cur s' (mark_add n (c_mark c)) l k) = cpos c + n) by (intros; exact EP).
    destruct r.
    + rewrite CP. split; [apply OK|]. split; [lia|]. cbn [c_lead c_ska c_src]. auto.
    + rewrite CP. split; [apply OK|]. split; [lia|]. cbn [err_in]. rewrite <- (CP (c_lead c) (c_ska c)).
      apply mark_in_self. apply OK.
  - split; [split; auto|]. split; [lia|]. exact T.
Qed.
