(** Properties of the vector operations (C73). *)
From Verif Require Import Base Simd SimdOps SimdOpsProofs.
From Coq Require Import Lia.
Local Open Scope list_scope.

(** C73: every lane of the result is computed from the lanes at its place. *)
Theorem C73_lane_by_lane : forall a b k c i,
  (i < 16 -> lane (and16 a b) i = N.land (lane a i) (lane b i)) /\
  (i < 32 -> lane (and32 a b) i = N.land (lane a i) (lane b i)) /\
  (forall v, shift_right16 a k = Ok v -> i < 16 -> lane v i = (lane a i / 2 ^ k)%N) /\
  (forall v, shift_right32 a k = Ok v -> i < 32 -> lane v i = (lane a i / 2 ^ k)%N) /\
  (forall v, add_other16 a b = Ok v -> i < 16 -> lane v i = (lane a i + lane b i)%N /\ (lane v i < 256)%N) /\
  (forall v, add_other32 a b = Ok v -> i < 32 -> lane v i = (lane a i + lane b i)%N /\ (lane v i < 256)%N) /\
  (i < List.length a -> lane (and_byte a c) i = N.land (lane a i) c /\ lane (and_byte32 a c) i = N.land (lane a i) c).
Proof.
  intros a b k c i. split; [apply (lane_map 16 (fun i => N.land (lane a i) (lane b i)))|].
  split; [apply (lane_map 32 (fun i => N.land (lane a i) (lane b i)))|].
  split; [intros v; apply shift_lane|]. split; [intros v; apply shift_lane|].
  split; [intros v; apply add_lane|]. split; [intros v; apply add_lane|].
  intros L. split; unfold and_byte, and_byte32, lane;
    rewrite (nth_indep _ 0%N (N.land 0 c)) by (rewrite map_length; exact L);
    apply (map_nth (fun x => N.land x c)).
Qed.
Print Assumptions C73_lane_by_lane.
(** A vector of one byte has it in each of its lanes. *)
Theorem C73_splat : forall c i,
  List.length (splat16 c) = 16 /\ List.length (splat32 c) = 32 /\
  (i < 16 -> lane (splat16 c) i = c) /\ (i < 32 -> lane (splat32 c) i = c).
Proof. exact splats. Qed.
Print Assumptions C73_splat.
(** Sums panic exactly if a lane overflows, shifts exactly from eight on. *)
Theorem C73_panics : forall a b k,
  (add_other16 a b = Panic <-> exists i, i < 16 /\ (256 <= lane a i + lane b i)%N) /\
  (add_other32 a b = Panic <-> exists i, i < 32 /\ (256 <= lane a i + lane b i)%N) /\
  (shift_right16 a k = Panic <-> (8 <= k)%N) /\ (shift_right32 a k = Panic <-> (8 <= k)%N).
Proof. exact panics. Qed.
Print Assumptions C73_panics.
(** Thirty-two lanes are treated as two halves of sixteen. Missing: [swizzle] (see [C73_refuted]). *)
Theorem C73_in_halves_partial : forall a b c d k,
  and32 (merge32 a b) (merge32 c d) = merge32 (and16 a c) (and16 b d) /\
  comp32 (merge32 a b) k = merge32 (comp16 a k) (comp16 b k) /\
  shift_right32 (merge32 a b) k
    = match shift_right16 a k, shift_right16 b k with Ok x, Ok y => Ok (merge32 x y) | _, _ => Panic end /\
  add_other32 (merge32 a b) (merge32 c d)
    = match add_other16 a c, add_other16 b d with Ok x, Ok y => Ok (merge32 x y) | _, _ => Panic end.
Proof.
  intros. split; [apply and_halves|]. split; [apply comp_halves|]. split; [apply shift_halves|apply add_halves].
Qed.
Print Assumptions C73_in_halves_partial.
(** [swizzle] picks lanes by their numbers and gives zero for numbers from sixteen on; of thirty-two lanes
    both halves pick from the first half. *)
Theorem C73_swizzle : forall a b c d i,
  (i < 16 -> lane (swizzle16 a c) i = (if (lane c i <? 16)%N then lane a (N.to_nat (lane c i)) else 0%N)) /\
  swizzle32 (merge32 a b) (merge32 c d) = merge32 (swizzle16 a c) (swizzle16 a d).
Proof. intros. split; [apply swizzle_picks|apply swizzle_halves]. Qed.
Print Assumptions C73_swizzle.
(** C73 is false for [swizzle]: the lanes of the second half are never picked. *)
Theorem C73_refuted : exists a b c d,
  List.length a = 16 /\ List.length b = 16 /\ List.length c = 16 /\ List.length d = 16 /\
  swizzle32 (merge32 a b) (merge32 c d) <> merge32 (swizzle16 a c) (swizzle16 b d).
Proof.
  exists (repeat 1%N 16), (repeat 2%N 16), (repeat 0%N 16), (repeat 0%N 16).
  repeat (split; [reflexivity|]). vm_compute. discriminate.
Qed.
Print Assumptions C73_refuted.
Example C73_example :
  and16 (repeat 12%N 16) (repeat 10%N 16) = repeat 8%N 16 /\
  shift_right16 (repeat 200%N 16) 4 = Ok (repeat 12%N 16) /\ shift_right16 (repeat 1%N 16) 8 = Panic /\
  add_other16 (repeat 200%N 16) (repeat 55%N 16) = Ok (repeat 255%N 16) /\
  add_other32 (repeat 200%N 32) (repeat 56%N 32) = Panic /\
  swizzle16 (map N.of_nat (seq 100 16)) (map N.of_nat (seq 3 16))
  = map N.of_nat (seq 103 13) ++ [0; 0; 0]%N.
Proof. vm_compute. repeat split. Qed.
