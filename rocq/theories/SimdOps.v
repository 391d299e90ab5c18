(** Model of the remaining vector operations of [yam-core/src/util/u8x16.rs] and [u8x32.rs]. *)
From Verif Require Import Base Simd.
Local Open Scope N_scope.

(** [u8x32.rs:10-12] [U8X32::splat]. *)
Definition splat32 (b : N) : vec := repeat b 32.
(** [u8x32.rs:154-189] [U8X32::swizzle]: the macro (util/mod.rs:55-63) looks at the first sixteen lanes
    of [self] only. *)
Definition swizzle32 (mask idx : vec) : vec := map (swizzle_lane mask idx) (seq 0 32).
(** [u8x32.rs:191-226] [U8X32::and], [310-312] [BitAnd]. *)
Definition and32 (a b : vec) : vec := map (fun i => N.land (lane a i) (lane b i)) (seq 0 32).
(** [u8x32.rs:228-230] [U8X32::and_byte]. *)
Definition and_byte32 (v : vec) (b : N) : vec := map (fun x => N.land x b) v.
(** [>>] on [u8] by a [usize] (Rust core): shifting by the width or more panics (overflow checks are on
    in the debug profile). *)
Definition shift_lanes (n : nat) (v : vec) (k : N) : out vec :=
  if k <? 8 then Ok (map (fun i => N.shiftr (lane v i) k) (seq 0 n)) else Panic.
(** [u8x16.rs:162-181] [U8X16::shift_right], [235-237] [Shr]. *)
Definition shift_right16 (v : vec) (k : N) : out vec := shift_lanes 16 v k.
(** [u8x32.rs:232-267] [U8X32::shift_right], [326-328] [Shr]. *)
Definition shift_right32 (v : vec) (k : N) : out vec := shift_lanes 32 v k.
(** [+] on [u8] (Rust core), lane by lane: an overflow panics. *)
Fixpoint add_lanes (a b : vec) (is : list nat) : out vec :=
  match is with
  | [] => Ok []
  | i :: r =>
      let s := lane a i + lane b i in
      if s <? 256 then match add_lanes a b r with Ok l => Ok (s :: l) | e => e end else Panic
  end.
(** [u8x16.rs:183-202] [U8X16::add_other], [227-229] [Add]. *)
Definition add_other16 (a b : vec) : out vec := add_lanes a b (seq 0 16).
(** [u8x32.rs:269-304] [U8X32::add_other], [318-320] [Add]. *)
Definition add_other32 (a b : vec) : out vec := add_lanes a b (seq 0 32).
