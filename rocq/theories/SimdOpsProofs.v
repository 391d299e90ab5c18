(** The vector operations, lane by lane and in halves. *)
From Verif Require Import Base Simd SimdOps.
From Coq Require Import Lia.
Local Open Scope list_scope.

Definition small_dec (x y : N) : {(x < y)%N} + {~ (x < y)%N}.
Proof. destruct (x <? y)%N eqn:E; [left; now apply N.ltb_lt|right; now apply N.nlt_ge, N.ltb_ge]. Defined.
Lemma lane_map n f i : i < n -> lane (map f (seq 0 n)) i = f i.
Proof.
  intros L. unfold lane. rewrite (nth_indep _ 0%N (f 0)) by now rewrite map_length, seq_length.
  rewrite map_nth, seq_nth by exact L. reflexivity.
Qed.
Lemma lane_low a b i : i < 16 -> lane (merge32 a b) i = lane a i.
Proof.
  intros L. unfold merge32. unfold lane at 1. rewrite app_nth1 by (rewrite map_length, seq_length; exact L).
  apply (lane_map 16 (lane a) i L).
Qed.
Lemma lane_high a b i : i < 16 -> lane (merge32 a b) (16 + i) = lane b i.
Proof.
  intros L. unfold merge32. unfold lane at 1. rewrite app_nth2; rewrite map_length, seq_length; [|lia].
  replace (16 + i - 16) with i by lia. apply (lane_map 16 (lane b) i L).
Qed.
Lemma seq_halves {A} (f : nat -> A) :
  map f (seq 0 32) = map f (seq 0 16) ++ map (fun i => f (16 + i)) (seq 0 16).
Proof. reflexivity. Qed.
Lemma map_lanes {A} (f g : nat -> A) : (forall i, i < 16 -> f i = g i) -> map f (seq 0 16) = map g (seq 0 16).
Proof. intros E. apply map_ext_in. intros i I. apply E. apply in_seq in I. lia. Qed.
Lemma merge_lanes f g : merge32 (map f (seq 0 16)) (map g (seq 0 16)) = map f (seq 0 16) ++ map g (seq 0 16).
Proof. unfold merge32. f_equal; apply map_lanes; intros i L; now apply lane_map. Qed.

Lemma and_halves a b c d : and32 (merge32 a b) (merge32 c d) = merge32 (and16 a c) (and16 b d).
Proof.
  unfold and32, and16. rewrite seq_halves, merge_lanes. apply f_equal2; apply map_lanes; intros i L; [rewrite !lane_low by exact L|rewrite !lane_high by exact L]; reflexivity.
Qed.
Lemma comp_halves a b c : comp32 (merge32 a b) c = merge32 (comp16 a c) (comp16 b c).
Proof.
  unfold comp32, comp16. rewrite seq_halves, merge_lanes. unfold gen_u8_cmp_all.
  apply f_equal2; apply map_lanes; intros i L; [rewrite !lane_low by exact L|rewrite !lane_high by exact L]; reflexivity.
Qed.
Lemma shift_halves a b k :
  shift_right32 (merge32 a b) k
  = match shift_right16 a k, shift_right16 b k with Ok x, Ok y => Ok (merge32 x y) | _, _ => Panic end.
Proof.
  unfold shift_right32, shift_right16, shift_lanes. destruct (k <? 8)%N; [|reflexivity].
  rewrite seq_halves, merge_lanes. apply (f_equal (@Ok vec)). apply f_equal2; apply map_lanes; intros i L; [rewrite !lane_low by exact L|rewrite !lane_high by exact L]; reflexivity.
Qed.
Lemma add_app a b is js :
  add_lanes a b (is ++ js)
  = match add_lanes a b is with
    | Ok x => match add_lanes a b js with Ok y => Ok (x ++ y) | e => e end
    | e => e
    end.
Proof.
  induction is as [|i is IH]; cbn [add_lanes app].
  - now destruct (add_lanes a b js).
  - destruct (lane a i + lane b i <? 256)%N; [|reflexivity]. rewrite IH.
    destruct (add_lanes a b is); try reflexivity. now destruct (add_lanes a b js).
Qed.
Lemma add_shift a b c d (h : nat -> nat) is :
  (forall i, In i is -> lane a (h i) = lane c i /\ lane b (h i) = lane d i) ->
  add_lanes a b (map h is) = add_lanes c d is.
Proof.
  induction is as [|i is IH]; intros E; cbn [add_lanes map]; [reflexivity|].
  destruct (E i) as [-> ->]; [now left|]. rewrite IH; [reflexivity|]. intros j J. apply E. now right.
Qed.
(** What is added, if no lane overflows. *)
Lemma add_ok a b is :
  (Forall (fun i => (lane a i + lane b i < 256)%N) is ->
     add_lanes a b is = Ok (map (fun i => (lane a i + lane b i)%N) is)) /\
  (~ Forall (fun i => (lane a i + lane b i < 256)%N) is -> add_lanes a b is = Panic).
Proof.
  induction is as [|i is [P Q]]; cbn [add_lanes map].
  - split; [reflexivity|intros H; destruct H; constructor].
  - destruct (N.ltb_spec (lane a i + lane b i) 256) as [L|L]; split; intros H.
    + inversion H; subst. now rewrite P.
    + rewrite Q; [reflexivity|]. intros K. apply H. now constructor.
    + inversion H; subst. lia.
    + reflexivity.
Qed.
Lemma add_lane a b n v (i : nat) : add_lanes a b (seq 0 n) = Ok v -> i < n ->
  lane v i = (lane a i + lane b i)%N /\ (lane v i < 256)%N.
Proof.
  intros E L. destruct (add_ok a b (seq 0 n)) as [P Q].
  destruct (Forall_dec _ (fun i => small_dec (lane a i + lane b i) 256) (seq 0 n)) as [F|F].
  - rewrite (P F) in E. injection E; intros <-. rewrite (lane_map n (fun i => (lane a i + lane b i)%N) i L). split; [reflexivity|].
    rewrite Forall_forall in F. apply F. apply in_seq. lia.
  - rewrite (Q F) in E. discriminate.
Qed.
Lemma add_halves a b c d :
  add_other32 (merge32 a b) (merge32 c d)
  = match add_other16 a c, add_other16 b d with Ok x, Ok y => Ok (merge32 x y) | _, _ => Panic end.
Proof.
  unfold add_other32, add_other16.
  change (seq 0 32) with (map (fun i => i) (seq 0 16) ++ map (fun i => 16 + i) (seq 0 16)).
  rewrite add_app, (add_shift _ _ a c), (add_shift _ _ b d).
  - destruct (add_ok a c (seq 0 16)) as [P Q], (add_ok b d (seq 0 16)) as [P' Q'].
    destruct (Forall_dec _ (fun i => small_dec (lane a i + lane c i) 256) (seq 0 16)) as [F|F];
      [rewrite (P F)|rewrite (Q F); reflexivity].
    destruct (Forall_dec _ (fun i => small_dec (lane b i + lane d i) 256) (seq 0 16)) as [G|G];
      [rewrite (P' G)|rewrite (Q' G); reflexivity].
    now rewrite merge_lanes.
  - intros i I. apply in_seq in I. rewrite !lane_high by lia. auto.
  - intros i I. apply in_seq in I. rewrite !lane_low by lia. auto.
Qed.
Lemma swizzle_index c i : (N.land (lane c i) 15 <= 15)%N.
Proof.
  change 15%N with (N.ones 4) at 1. rewrite N.land_ones. pose proof (N.mod_lt (lane c i) (2 ^ 4)). lia.
Qed.
(** Both halves look at the first sixteen lanes. *)
Lemma swizzle_halves a b c d :
  swizzle32 (merge32 a b) (merge32 c d) = merge32 (swizzle16 a c) (swizzle16 a d).
Proof.
  unfold swizzle32, swizzle16. rewrite seq_halves, merge_lanes. unfold swizzle_lane.
  apply f_equal2; apply map_lanes; intros i L.
  - rewrite (lane_low c d) by exact L.
    rewrite (lane_low a b) by (pose proof (swizzle_index c i); lia). reflexivity.
  - rewrite (lane_high c d) by exact L.
    rewrite (lane_low a b) by (pose proof (swizzle_index d i); lia). reflexivity.
Qed.
Lemma swizzle_picks mask idx i : i < 16 ->
  lane (swizzle16 mask idx) i
  = (if (lane idx i <? 16)%N then lane mask (N.to_nat (lane idx i)) else 0%N).
Proof.
  intros L. unfold swizzle16. rewrite lane_map by exact L. unfold swizzle_lane.
  destruct (N.ltb_spec 15 (lane idx i)) as [H|H], (N.ltb_spec (lane idx i) 16) as [K|K]; try lia.
  replace (N.land (lane idx i) 15) with (lane idx i); [reflexivity|].
  change 15%N with (N.ones 4). rewrite N.land_ones. symmetry. apply N.mod_small. exact K.
Qed.
Lemma shift_lane n v k w i : shift_lanes n v k = Ok w -> i < n ->
  lane w i = (lane v i / 2 ^ k)%N.
Proof.
  unfold shift_lanes. destruct (k <? 8)%N; [|discriminate]. intros E L. injection E; intros <-.
  rewrite (lane_map n (fun i => N.shiftr (lane v i) k) i L). apply N.shiftr_div_pow2.
Qed.
Lemma add_panics a b n :
  add_lanes a b (seq 0 n) = Panic <-> exists i, i < n /\ (256 <= lane a i + lane b i)%N.
Proof.
  destruct (add_ok a b (seq 0 n)) as [P Q].
  destruct (Forall_dec _ (fun i => small_dec (lane a i + lane b i) 256) (seq 0 n)) as [F|F].
  - rewrite (P F). split; [discriminate|]. intros [i [L H]]. rewrite Forall_forall in F.
    specialize (F i). rewrite in_seq in F. lia.
  - rewrite (Q F). split; [intros _|reflexivity].
    apply neg_Forall_Exists_neg in F; [|intros i; apply small_dec].
    apply Exists_exists in F. destruct F as [i [I H]]. apply in_seq in I. exists i. lia.
Qed.
Lemma panics a b k :
  (add_other16 a b = Panic <-> exists i, i < 16 /\ (256 <= lane a i + lane b i)%N) /\
  (add_other32 a b = Panic <-> exists i, i < 32 /\ (256 <= lane a i + lane b i)%N) /\
  (shift_right16 a k = Panic <-> (8 <= k)%N) /\ (shift_right32 a k = Panic <-> (8 <= k)%N).
Proof.
  split; [apply add_panics|]. split; [apply add_panics|].
  unfold shift_right16, shift_right32, shift_lanes.
  split; destruct (N.ltb_spec k 8); (split; [intros E|intros H']); try discriminate; try lia; reflexivity.
Qed.
Lemma splats c i :
  List.length (splat16 c) = 16 /\ List.length (splat32 c) = 32 /\
  (i < 16 -> lane (splat16 c) i = c) /\ (i < 32 -> lane (splat32 c) i = c).
Proof.
  split; [reflexivity|]. split; [reflexivity|]. split; intros L; unfold lane, splat16, splat32.
  - do 16 (destruct i as [|i]; [reflexivity|]). lia.
  - do 32 (destruct i as [|i]; [reflexivity|]). lia.
Qed.
