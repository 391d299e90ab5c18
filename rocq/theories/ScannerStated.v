(** The theorems on scanning in the form they are stated. *)
From Verif Require Import Base Tokens Scalar Chars Source SourceProofs Cursor Scanner SpecScan
  CursorProofs CursorRuns CursorScalars ScannerInv ScannerFetch ScannerRun ScannerTheorems ScannerHang.
From Coq Require Import Lia ZifyBool ZifyNat ZifyN String.

Lemma nul_hangs_without_cr : exists i, ~ In 13%N i /\ forall fuel, snd (snd (scan fuel i)) = Fuel.
Proof. exists [34%N; 0%N]. split; [cbn; intuition discriminate|exact nul_hangs]. Qed.
Lemma scan_ends_stated i fuel :
  crlf_only i -> ~ In 0%N i -> (indents_within 124 i /\ headers_within 115 i) \/ (~ In 124%N i /\ ~ In 62%N i) ->
  6 * List.length i + 6 <= fuel -> snd (snd (scan fuel i)) <> Fuel.
Proof. intros H1 H2 H3. apply scan_ends. split; [split; auto|auto]. Qed.
Lemma positions_stated n fuel i l z o : scan_run n fuel (scanner_new i) = (l, (z, o)) ->
  (place i (ss_pos (c_src (z_cur z))) (c_mark (z_cur z)) \/
   (ss_pos (c_src (z_cur z)) = List.length i /\ below_end i (c_mark (z_cur z)))) /\
  Forall (fun t => spans i (List.length i) t \/ closing_token i t) l.
Proof.
  intros H. split; [|eapply run_tokens; eauto]. destruct (run_ok _ _ _ _ _ _ H) as (C & _).
  exact (curs_position i z C).
Qed.
Lemma position_refuted : exists n fuel i l z o,
  scan_run n fuel (scanner_new i) = (l, (z, o)) /\
  ~ place i (ss_pos (c_src (z_cur z))) (c_mark (z_cur z)).
Proof.
  exists 20, 20, [97%N], (fst (scan 20 [97%N])), (fst (snd (scan 20 [97%N]))), (snd (snd (scan 20 [97%N]))).
  split; [unfold scan; destruct (scan_run 20 20 (scanner_new [97%N])) as [l [z o]]; reflexivity|].
  assert (X : c_mark (z_cur (fst (snd (scan 20 [97%N])))) = Marker 1 1 2 /\
    ss_pos (c_src (z_cur (fst (snd (scan 20 [97%N]))))) = 1) by (vm_compute; auto).
  destruct X as [X1 X2]. rewrite X1, X2.
  intros (_ & _ & L & _). vm_compute in L. discriminate.
Qed.
Lemma blocks_refuted : exists fuel i l z,
  scan fuel i = (l, (z, Ok tt)) /\ z_error z = None /\ block_depth l <> 0%Z /\ z_indents z <> [].
Proof.
  exists 30, (str "- ["), (fst (scan 30 (str "- ["))), (fst (snd (scan 30 (str "- [")))).
  split; [|split; [|split]].
  - assert (X : snd (snd (scan 30 (str "- ["))) = Ok tt) by (vm_compute; reflexivity).
    destruct (scan 30 (str "- [")) as [l [z o]]. cbn [fst snd] in *. congruence.
  - vm_compute. reflexivity.
  - vm_compute. discriminate.
  - vm_compute. discriminate.
Qed.
Lemma opens_nil : opens [] = 0%Z.
Proof. reflexivity. Qed.
Lemma balanced_stated fuel i l z :
  scan fuel i = (l, (z, Ok tt)) -> z_error z = None -> z_flow z = 0%N ->
  never_negative l /\ block_depth l = 0%Z /\ z_indents z = [].
Proof.
  intros H N F. destruct (run_blocks _ _ _ _ H N) as (B1 & B2 & B3 & _). specialize (B3 F).
  rewrite B3 in B2. auto.
Qed.
Lemma one_end_stated fuel i l z : scan fuel i = (l, (z, Ok tt)) -> z_error z = None ->
  exists q t, l = q ++ [t] /\ k_type t = TStreamEnd /\ Forall (fun t => k_type t <> TStreamEnd) q.
Proof.
  intros H N. destruct (run_blocks _ _ _ _ H N) as (_ & _ & _ & q & E & Q). exists q, (the_end i). auto.
Qed.
Lemma peek_refuted : exists fuel i, snd (snd (scan fuel i)) = Ub.
Proof. exists 10, (str "@"). vm_compute. reflexivity. Qed.
Lemma panic_refuted : exists fuel i, snd (snd (scan fuel i)) = Panic.
Proof. exists 30, (str "%YAML 256.0"). vm_compute. reflexivity. Qed.
Lemma scan_outcomes fuel i : run_end i fuel fuel (fst (scan fuel i)) (fst (snd (scan fuel i))) (snd (snd (scan fuel i))).
Proof.
  destruct (scan fuel i) as [l [z o]] eqn:E. exact (proj2 (run_ok _ _ _ _ _ _ E)).
Qed.
Lemma reads_inside_stated fuel i : ~ reserved_near_end i -> snd (snd (scan fuel i)) <> Ub.
Proof. intros N E. assert (X := scan_outcomes fuel i). unfold run_end in X. rewrite E in X. intuition discriminate. Qed.
Lemma no_panic_stated fuel i : ~ (In 37%N i /\ three_digits i) -> snd (snd (scan fuel i)) <> Panic.
Proof. intros N E. assert (X := scan_outcomes fuel i). unfold run_end in X. rewrite E in X. intuition discriminate. Qed.
(** Every outcome. *)
Lemma outcomes_stated fuel i :
  crlf_only i -> ~ In 0%N i -> (indents_within 124 i /\ headers_within 115 i) \/ (~ In 124%N i /\ ~ In 62%N i) ->
  ~ In 37%N i -> ~ In 64%N i -> ~ In 96%N i -> 6 * List.length i + 6 <= fuel ->
  exists l z, scan fuel i = (l, (z, Ok tt)) /\
    ((exists m msg, z_error z = Some (ScannerErr m msg)) \/
     (z_error z = None /\ exists q t, l = q ++ [t] /\ k_type t = TStreamEnd)).
Proof.
  intros H1 H2 H3 N1 N2 N3 F.
  destruct (scan fuel i) as [l [z o]] eqn:E.
  assert (T := scan_ends_stated i fuel H1 H2 H3 F). rewrite E in T. cbn [snd] in T.
  destruct (run_ok _ _ _ _ _ _ E) as (_ & R).
  destruct R as [(-> & _)|[(-> & R)|[(-> & B & _)|(-> & n & b & B & B1 & _)]]]; try tauto.
  - exists l, z. split; auto. destruct R as [O|(e & E1 & F1)].
    + right. split; [apply (o_flags _ _ _ O)|]. destruct (o_toks _ _ _ O) as (q & -> & _). exists q, (the_end i). auto.
    + left. destruct e as [m msg| | |]; [eauto|destruct F1 as [(_ & [])|(_ & [])]..].
  - apply nth_error_In in B. destruct B1 as [->|[->| ->]]; tauto.
Qed.

(** ** Checking the hypotheses on a given text *)
(** Leading spaces, with the number read so far at the start of a line. *)
Fixpoint indents_check (k : nat) (st : option nat) (i : text) : bool :=
  match i with
  | [] => true
  | b :: r =>
      if (b =? 10)%N then indents_check k (Some 0) r
      else match st with
           | Some n => if (b =? 32)%N then (S n <=? k) && indents_check k (Some (S n)) r else indents_check k None r
           | None => indents_check k None r
           end
  end.
Lemma indents_check_start k : forall before st r, indents_check k st (before ++ 10%N :: r) = true -> indents_check k (Some 0) r = true.
Proof.
  induction before as [|b before IH]; intros st r H; cbn [app indents_check] in H; [exact H|].
  destruct (b =? 10)%N; [eapply IH; exact H|]. destruct st as [n|]; [|eapply IH; exact H].
  destruct (b =? 32)%N; [apply andb_true_iff in H as [_ H]|]; eapply IH; exact H.
Qed.
Lemma indents_check_run k : forall n m r, indents_check k (Some m) (repeat 32%N n ++ r) = true -> n = 0 \/ m + n <= k.
Proof.
  induction n as [|n IH]; intros m r H; [auto|]. right. cbn [repeat app indents_check] in H. change (32 =? 10)%N with false in H. change (32 =? 32)%N with true in H. cbv iota in H.
  apply andb_true_iff in H as [H1 H2]. apply IH in H2. lia.
Qed.
Lemma indents_checked k i : indents_check k (Some 0) i = true -> indents_within k i.
Proof.
  intros H before n after -> [->|(b & ->)].
  - cbn [app] in H. apply indents_check_run in H. lia.
  - rewrite <- app_assoc in H. cbn [app] in H. apply indents_check_start in H. apply indents_check_run in H. lia.
Qed.
(** Bars and angle brackets. *)
Fixpoint signs_check (k n : nat) (i : text) : bool :=
  match i with
  | [] => true
  | b :: r => if (b =? 10)%N then signs_check k 0 r else (negb ((b =? 124)%N || (b =? 62)%N) || (n <=? k)) && signs_check k (S n) r
  end.
Lemma signs_check_line k sign r : sign = 124%N \/ sign = 62%N -> forall line n, ~ In 10%N line -> signs_check k n (line ++ sign :: r) = true -> n + List.length line <= k.
Proof.
  intros IS. induction line as [|b line IH]; intros n NI H; cbn [app signs_check List.length] in *.
  - destruct IS as [-> | ->]; cbn [N.eqb Pos.eqb orb negb] in H; apply andb_true_iff in H as [H _]; lia.
  - destruct (N.eqb_spec b 10) as [->|NB]; [destruct NI; left; reflexivity|]. apply andb_true_iff in H as [_ H]. apply IH in H; [lia|]. intros X. apply NI. right. exact X.
Qed.
Lemma signs_check_later k l : forall before n, signs_check k n (before ++ l) = true -> exists m, signs_check k m l = true.
Proof.
  induction before as [|b bs IH]; intros n E; [exists n; exact E|]. cbn [app signs_check] in E. destruct (b =? 10)%N; [eapply IH; exact E|]. apply andb_true_iff in E as [_ E]. eapply IH; exact E.
Qed.
Lemma signs_checked k i : signs_check k 0 i = true -> headers_within k i.
Proof.
  intros H before line sign marks after -> NI IS _ _. assert (S : sign = 124%N \/ sign = 62%N) by (cbn [In] in IS; lia).
  apply signs_check_later in H. destruct H as (m & H). apply (signs_check_line k sign _ S) in H; [lia|exact NI].
Qed.
Definition no_byte (b : N) (i : text) : bool := forallb (fun c => negb (c =? b)%N) i.
Lemma no_byte_ok b i : no_byte b i = true -> ~ In b i.
Proof. unfold no_byte. rewrite forallb_forall. intros H IN. specialize (H b IN). lia. Qed.
Lemma no_cr i : no_byte 13 i = true -> crlf_only i.
Proof. intros H n E. apply nth_error_In in E. destruct (no_byte_ok _ _ H E). Qed.

Lemma moment_example : exists l z, delivered 60 (scanner_new (str "- a: b")) l z /\
  block_depth l = 2%Z /\ map fst (z_indents z) = [3; 1; 0]%N.
Proof.
  destruct (scan_run_delivered 60 5 (scanner_new (str "- a: b")) (fst (scan_run 5 60 (scanner_new (str "- a: b"))))
    (fst (snd (scan_run 5 60 (scanner_new (str "- a: b"))))) (snd (snd (scan_run 5 60 (scanner_new (str "- a: b"))))))
    as (z1 & D & H).
  { destruct (scan_run 5 60 (scanner_new (str "- a: b"))) as [l [z o]]. reflexivity. }
  assert (L : List.length (fst (scan_run 5 60 (scanner_new (str "- a: b")))) = 5) by (vm_compute; reflexivity).
  destruct H as [(_ & <- & _)|(H & _)]; [|lia].
  eexists. eexists. split; [exact D|]. split; vm_compute; reflexivity.
Qed.
Lemma reserved_example : ~ reserved_near_end (str "@abc") /\ snd (snd (scan 60 (str "@abc"))) = Ok tt.
Proof.
  split; [|vm_compute; reflexivity]. intros (n & b & E & B & L).
  change (List.length (str "@abc")) with 4 in L. change (str "@abc") with [64; 97; 98; 99]%N in E.
  destruct n as [|[|[|[|n]]]]; cbn in E; [lia|injection E as <-; intuition discriminate..|].
  destruct n; discriminate.
Qed.
Lemma panic_example : ~ (In 37%N (str "a: 123") /\ three_digits (str "a: 123")) /\
  snd (snd (scan 60 (str "a: 123"))) = Ok tt /\ snd (snd (scan 60 (str "%YAML 1.2"))) = Ok tt.
Proof.
  split; [|split; vm_compute; reflexivity]. intros (H & _). revert H. apply no_byte_ok. reflexivity.
Qed.
