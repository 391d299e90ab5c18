(** Model of [yam-core/src/util/mod.rs], [u8x16.rs] and [u8x32.rs]: byte vectors as lists of lanes.
    The unrolled expressions of the code, one term per literal lane index, are written as a map or a
    bitwise-or over the same list of lane indices. *)
From Verif Require Import Base.
Local Open Scope N_scope.

(** A vector [U8X16] / [U8X32] (u8x16.rs:6, u8x32.rs:6): its lanes. *)
Definition vec := list N.
(** [Index::index] (u8x16.rs:8-14, u8x32.rs:38-44) at a literal index below the lane count. *)
Definition lane (v : vec) (i : nat) : N := nth i v 0.

(** [t(0) | t(1) | ... | t(n-1)]: the unrolled disjunctions of [comp_to_bitmask] and [to_bitmask]. *)
Definition or_lanes (n : nat) (t : nat -> N) : N := fold_right N.lor 0 (map t (seq 0 n)).

(** [util/mod.rs:43-47] macro [gen_u8_cmp]; lane 0 is [u32::from(self[0] == cmp)]. *)
Definition gen_u8_cmp (v : vec) (c : N) (i : nat) : N :=
  if lane v i =? c then N.shiftl 1 (N.of_nat i) else 0.
(** [u8x16.rs:29-46] [U8X16::comp_to_bitmask]. *)
Definition comp_to_bitmask16 (v : vec) (c : N) : N := or_lanes 16 (gen_u8_cmp v c).
(** [u8x32.rs:47-80] [U8X32::comp_to_bitmask]. *)
Definition comp_to_bitmask32 (v : vec) (c : N) : N := or_lanes 32 (gen_u8_cmp v c).

(** [util/mod.rs:49-53] macro [gen_u8_cmp_all]. *)
Definition gen_u8_cmp_all (v : vec) (c : N) (i : nat) : N := if lane v i =? c then 255 else 0.
(** [u8x16.rs:64-83] [U8X16::comp]. *)
Definition comp16 (v : vec) (c : N) : vec := map (gen_u8_cmp_all v c) (seq 0 16).
(** [u8x32.rs:82-117] [U8X32::comp]. *)
Definition comp32 (v : vec) (c : N) : vec := map (gen_u8_cmp_all v c) (seq 0 32).

(** [util/mod.rs:65-69] macro [bitmask]. *)
Definition bitmask (v : vec) (i : nat) : N :=
  N.shiftl (if N.land (lane v i) 128 =? 0 then 0 else 1) (N.of_nat i).
(** [u8x32.rs:119-152] [U8X32::to_bitmask]. *)
Definition to_bitmask32 (v : vec) : N := or_lanes 32 (bitmask v).
(** [u8x16.rs:85-118] [U8X16::to_bitmask]: the terms for lanes 16 to 31 index out of bounds, which
    panics. *)
Definition to_bitmask16 (v : vec) : out N :=
  if Nat.leb 32 (List.length v) then Ok (or_lanes 32 (bitmask v)) else Panic.

(** [util/mod.rs:55-63] macro [swizzle]. *)
Definition swizzle_lane (mask idx : vec) (i : nat) : N :=
  if 15 <? lane idx i then 0 else lane mask (N.to_nat (N.land (lane idx i) 15)).
(** [u8x16.rs:120-139] [U8X16::swizzle]. *)
Definition swizzle16 (mask idx : vec) : vec := map (swizzle_lane mask idx) (seq 0 16).
(** [u8x16.rs:141-160] [U8X16::and]. *)
Definition and16 (a b : vec) : vec := map (fun i => N.land (lane a i) (lane b i)) (seq 0 16).
(** [u8x16.rs:203-205] [U8X16::and_byte]. *)
Definition and_byte (v : vec) (b : N) : vec := map (fun x => N.land x b) v.
(** [u8x16.rs:162-181] [U8X16::shift_right]. *)
Definition shr16 (v : vec) (k : N) : vec := map (fun i => N.shiftr (lane v i) k) (seq 0 16).
(** [u8x16.rs:17-19] [U8X16::splat]. *)
Definition splat16 (b : N) : vec := repeat b 16.
(** [u8x32.rs:18-23] [U8X32::split]. *)
Definition split32 (v : vec) : vec * vec := (firstn 16 v, skipn 16 v).
(** [u8x32.rs:25-33] [U8X32::merge]. *)
Definition merge32 (low high : vec) : vec :=
  map (lane low) (seq 0 16) ++ map (lane high) (seq 0 16).

(** [util/mod.rs:7-9] [LOW_NIBBLE_WS]. *)
Definition LOW_NIBBLE_WS : vec := [4; 0; 0; 0; 0; 0; 0; 0; 0; 1; 2; 0; 0; 2; 0; 0].
(** [util/mod.rs:10-12] [HIGH_NIBBLE_WS]. *)
Definition HIGH_NIBBLE_WS : vec := [3; 0; 12; 0; 0; 0; 0; 0; 0; 0; 0; 0; 0; 0; 0; 0].

(** [u32::MAX] (Rust core). *)
Definition u32_max : N := 4294967295.
(** [!x] on [u32] (Rust core). *)
Definition not32 (x : N) : N := N.lxor x u32_max.
(** [x << k] on [u32] (Rust core): bits shifted out are lost. *)
Definition shl32 (x k : N) : N := N.land (N.shiftl x k) u32_max.
(** [u32::trailing_zeros] (Rust core). *)
Definition trailing_zeros (x : N) : nat :=
  match find (fun i => N.testbit x (N.of_nat i)) (seq 0 32) with Some i => i | None => 32%nat end.
