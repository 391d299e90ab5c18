(** Lemmas about the byte vectors. *)
From Verif Require Import Base Simd.
From Coq Require Import Lia ZifyBool ZifyNat ZifyN.

Lemma testbit_fold l k : N.testbit (fold_right N.lor 0%N l) k = existsb (fun x => N.testbit x k) l.
Proof.
  induction l as [|x l IH]; [apply N.bits_0|]. cbn [fold_right existsb]. rewrite N.lor_spec, IH. reflexivity.
Qed.

Lemma testbit_shift1 (b : bool) i k :
  N.testbit (N.shiftl (if b then 1 else 0) (N.of_nat i)) (N.of_nat k) = b && Nat.eqb i k.
Proof.
  destruct b; cbn [andb].
  - destruct (Nat.eqb_spec i k) as [->|N].
    + rewrite N.shiftl_spec_high' by lia. rewrite N.sub_diag. reflexivity.
    + destruct (Nat.lt_ge_cases k i).
      * apply N.shiftl_spec_low. lia.
      * rewrite N.shiftl_spec_high' by lia. replace (N.of_nat k - N.of_nat i)%N with (N.pos (Pos.of_nat (k - i))) by lia.
        destruct (Pos.of_nat (k - i)); reflexivity.
  - rewrite N.shiftl_0_l, N.bits_0. reflexivity.
Qed.

Lemma or_lanes_bit n t (P : nat -> bool) k :
  (forall i j, i < n -> N.testbit (t i) (N.of_nat j) = P i && Nat.eqb i j) ->
  N.testbit (or_lanes n t) (N.of_nat k) = Nat.ltb k n && P k.
Proof.
  intros H. unfold or_lanes. rewrite testbit_fold.
  apply eq_true_iff_eq. rewrite existsb_exists. split.
  - intros (x & Hx & Hb). apply in_map_iff in Hx as (i & <- & Hi). apply in_seq in Hi.
    rewrite H in Hb by lia. apply andb_true_iff in Hb as [Hp He]. apply Nat.eqb_eq in He. subst.
    rewrite Hp. destruct (Nat.ltb_spec k n); [reflexivity|lia].
  - intros Hb. apply andb_true_iff in Hb as [Hl Hp]. apply Nat.ltb_lt in Hl.
    exists (t k). split; [apply in_map; apply in_seq; lia|]. rewrite H by lia. rewrite Hp, Nat.eqb_refl. reflexivity.
Qed.

(** A mask of [n] lanes described lane by lane. *)
Definition mask_of (n : nat) (P : nat -> bool) (m : N) : Prop :=
  forall k, N.testbit m (N.of_nat k) = Nat.ltb k n && P k.

Lemma comp_bitmask_mask n v c : mask_of n (fun i => N.eqb (lane v i) c) (or_lanes n (gen_u8_cmp v c)).
Proof.
  intros k. apply (or_lanes_bit n _ (fun i => N.eqb (lane v i) c)). intros i j Hi. unfold gen_u8_cmp.
  rewrite <- testbit_shift1. destruct (N.eqb (lane v i) c); [reflexivity|].
  rewrite N.shiftl_0_l. reflexivity.
Qed.

Lemma lane_map f n i : i < n -> lane (map f (seq 0 n)) i = f i.
Proof.
  intros H. unfold lane. rewrite (nth_indep _ 0%N (f 0)) by (rewrite map_length, seq_length; auto).
  rewrite map_nth. rewrite seq_nth; auto.
Qed.

Lemma to_bitmask_mask v : mask_of 32 (fun i => negb (N.eqb (N.land (lane v i) 128) 0)) (to_bitmask32 v).
Proof.
  intros k. apply (or_lanes_bit 32 _ (fun i => negb (N.eqb (N.land (lane v i) 128) 0))). intros i j Hi. unfold bitmask. rewrite <- testbit_shift1.
  destruct (N.eqb (N.land (lane v i) 128) 0); reflexivity.
Qed.

Lemma comp_to_mask v c : mask_of 32 (fun i => N.eqb (lane v i) c) (to_bitmask32 (comp32 v c)).
Proof.
  intros k. rewrite to_bitmask_mask. destruct (Nat.ltb_spec k 32); [|reflexivity]. cbn [andb].
  unfold comp32. rewrite lane_map by auto. unfold gen_u8_cmp_all. destruct (N.eqb (lane v k) c); reflexivity.
Qed.

Lemma mask_ext n P m m' : mask_of n P m -> mask_of n P m' -> m = m'.
Proof.
  intros H H'. apply N.bits_inj. intros k. specialize (H (N.to_nat k)). specialize (H' (N.to_nat k)).
  rewrite N2Nat.id in *. congruence.
Qed.

Lemma mask_zero n P m : mask_of n P m -> (forall i, i < n -> P i = false) -> m = 0%N.
Proof.
  intros H HP. apply N.bits_inj. intros k. specialize (H (N.to_nat k)). rewrite N2Nat.id in H.
  rewrite H, N.bits_0. destruct (Nat.ltb_spec (N.to_nat k) n); [|reflexivity]. rewrite HP; auto.
Qed.
Lemma mask_nonzero n P m i : mask_of n P m -> i < n -> P i = true -> m <> 0%N.
Proof.
  intros H Hi HP ->. specialize (H i). rewrite N.bits_0, HP in H.
  destruct (Nat.ltb_spec i n); [discriminate|lia].
Qed.

Lemma find_seq (P : nat -> bool) n k : forall s, s <= k -> k < s + n -> P k = true ->
  (forall i, s <= i -> i < k -> P i = false) -> find P (seq s n) = Some k.
Proof.
  induction n as [|n IH]; intros s Hs Hk HP Hlt; [lia|]. cbn [seq find].
  destruct (Nat.eq_dec s k) as [->|N].
  - rewrite HP. reflexivity.
  - rewrite Hlt by lia. apply IH; auto; try lia. intros; apply Hlt; lia.
Qed.

Lemma mask_trailing n P m i : n <= 32 -> mask_of n P m -> i < n -> P i = true ->
  (forall j, j < i -> P j = false) -> trailing_zeros m = i.
Proof.
  intros Hn H Hi HP Hlt. unfold trailing_zeros. rewrite (find_seq _ 32 i 0); auto; try lia.
  - rewrite H, HP. destruct (Nat.ltb_spec i n); [reflexivity|lia].
  - intros j _ Hj. rewrite H, Hlt by auto. apply andb_false_r.
Qed.

Lemma mask_lor n P Q a b : mask_of n P a -> mask_of n Q b -> mask_of n (fun i => P i || Q i) (N.lor a b).
Proof.
  intros HA HB k. rewrite N.lor_spec, HA, HB. destruct (Nat.ltb k n); reflexivity.
Qed.
Lemma mask_land n P Q a b : mask_of n P a -> mask_of n Q b -> mask_of n (fun i => P i && Q i) (N.land a b).
Proof.
  intros HA HB k. rewrite N.land_spec, HA, HB. destruct (Nat.ltb k n); [reflexivity|]. reflexivity.
Qed.
Lemma u32_max_bits k : N.testbit u32_max (N.of_nat k) = Nat.ltb k 32.
Proof.
  change u32_max with (N.ones 32). destruct (Nat.ltb_spec k 32).
  - apply N.ones_spec_low. lia.
  - apply N.ones_spec_high. lia.
Qed.
Lemma mask_not P a : mask_of 32 P a -> mask_of 32 (fun i => negb (P i)) (not32 a).
Proof.
  intros HA k. unfold not32. rewrite N.lxor_spec, HA, u32_max_bits.
  destruct (Nat.ltb k 32), (P k); reflexivity.
Qed.

(** The masks of comparisons, in terms of the lanes. *)
Lemma mask_lanes n (v : vec) c m : List.length v = n ->
  mask_of n (fun i => N.eqb (lane v i) c) m ->
  forall i, N.testbit m (N.of_nat i) = true <-> nth_error v i = Some c.
Proof.
  intros L H i. rewrite H. unfold lane. destruct (Nat.ltb_spec i n) as [Hi|Hi]; cbn [andb].
  - rewrite N.eqb_eq. rewrite (nth_error_nth' v 0%N) by lia. split; congruence.
  - split; [discriminate|]. intros E. (assert (nth_error v i <> None) as X by congruence; apply nth_error_Some in X; lia).
Qed.

Lemma first_split (c : N) (v : list N) : In c v -> exists l r, v = l ++ c :: r /\ ~ In c l.
Proof.
  induction v as [|x v IH]; [intros []|]. intros H. destruct (N.eq_dec x c) as [->|NE].
  - exists [], v. split; auto.
  - destruct H as [H|H]; [contradiction|]. destruct (IH H) as (l & r & -> & Hn).
    exists (x :: l), r. split; auto. intros [->|]; contradiction.
Qed.

Lemma mask_first n (v : vec) c m : n <= 32 -> List.length v = n ->
  mask_of n (fun i => N.eqb (lane v i) c) m ->
  (forall l r, v = l ++ c :: r -> ~ In c l -> trailing_zeros m = List.length l) /\
  (~ In c v -> m = 0%N).
Proof.
  intros Hn L H. split.
  - intros l r -> Hl. rewrite app_length in L. cbn [List.length] in L.
    apply (mask_trailing n (fun i => N.eqb (lane (l ++ c :: r) i) c)); auto; try lia.
    + unfold lane. rewrite app_nth2, Nat.sub_diag by lia. cbn. apply N.eqb_refl.
    + intros j Hj. unfold lane. rewrite app_nth1 by auto. apply N.eqb_neq. intros E. apply Hl.
      rewrite <- E. apply nth_In. auto.
  - intros Hni. eapply mask_zero; [exact H|]. intros i Hi. cbn. apply N.eqb_neq. intros E. apply Hni.
    rewrite <- E. apply nth_In. lia.
Qed.

Lemma comp32_masks (v : vec) c : List.length v = 32 ->
  to_bitmask32 (comp32 v c) = comp_to_bitmask32 v c.
Proof. intros _. eapply mask_ext; [apply comp_to_mask|apply comp_bitmask_mask]. Qed.

(** The classification of the bytes. *)
Definition class_of (b : N) : N :=
  if N.eqb b 32 then 4 else if N.eqb b 9 then 1 else if N.eqb b 10 then 2 else if N.eqb b 13 then 2 else 0.

Lemma class_byte b : is_byte b ->
  N.land (if (15 <? N.land b 15)%N then 0 else lane LOW_NIBBLE_WS (N.to_nat (N.land (N.land b 15) 15)))
         (if (15 <? N.land (N.shiftr b 4) 127)%N then 0 else lane HIGH_NIBBLE_WS (N.to_nat (N.land (N.land (N.shiftr b 4) 127) 15)))
  = class_of b.
Proof.
  intros H. unfold is_byte in H.
  assert (K : forall n, n < 256 -> (fun b =>
    N.land (if (15 <? N.land b 15)%N then 0 else lane LOW_NIBBLE_WS (N.to_nat (N.land (N.land b 15) 15)))
         (if (15 <? N.land (N.shiftr b 4) 127)%N then 0 else lane HIGH_NIBBLE_WS (N.to_nat (N.land (N.land (N.shiftr b 4) 127) 15)))
    = class_of b) (N.of_nat n)).
  { assert (C : forallb (fun n => let b := N.of_nat n in N.eqb (
    N.land (if (15 <? N.land b 15)%N then 0 else lane LOW_NIBBLE_WS (N.to_nat (N.land (N.land b 15) 15)))
         (if (15 <? N.land (N.shiftr b 4) 127)%N then 0 else lane HIGH_NIBBLE_WS (N.to_nat (N.land (N.land (N.shiftr b 4) 127) 15))))
     (class_of b)) (seq 0 256) = true) by (vm_compute; reflexivity).
    rewrite forallb_forall in C. intros n Hn. apply N.eqb_eq. apply (C n). apply in_seq. lia. }
  specialize (K (N.to_nat b) ltac:(lia)). rewrite N2Nat.id in K. exact K.
Qed.
