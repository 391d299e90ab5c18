(** Model of [yam-core/src/parsing/buffered_source.rs]: the source with a 32-byte buffer. *)
From Verif Require Import Base Chars Escaper Source Simd.

(** [buffered_source.rs:12] [MAX_LEN]. *)
Definition MAX_LEN : nat := 32.

(** [buffered_source.rs:15-19] [BufferedBytesSource]: [b_input] are the bytes the iterator will still
    deliver, [b_buf] the initialised part [buf[..len]] of the buffer. *)
Record bufsrc := BufSrc { b_input : text; b_buf : text }.

(** [buffered_source.rs:33-46] [fill_buf_to_max]. *)
Definition fill_buf_to_max (s : bufsrc) : bufsrc :=
  let k := MAX_LEN - List.length (b_buf s) in
  BufSrc (skipn k (b_input s)) (b_buf s ++ firstn k (b_input s)).
(** [buffered_source.rs:23-31] [new] (and [from_bytes] 67-75, [from_str] 77-79). *)
Definition buf_new (input : text) : bufsrc := fill_buf_to_max (BufSrc input []).
(** [buffered_source.rs:48-54] [get_max_buf]. *)
Definition get_max_buf (s : bufsrc) : option text :=
  if Nat.ltb (List.length (b_buf s)) MAX_LEN then None else Some (b_buf s).
(** [buffered_source.rs:86-92] [peek_checked]; the [debug_assert!] that [n < 32] is left out (the
    scanner peeks at most eight bytes ahead). *)
Definition buf_peek (s : bufsrc) (n : nat) : option N := nth_error (b_buf s) n.
(** [buffered_source.rs:137-154] [skip]; [Iterator::nth(k)] drops [k + 1] items. *)
Definition buf_skip (n : nat) (s : bufsrc) : bufsrc :=
  if Nat.eqb n 0 then s
  else
    let consume := Nat.min n (List.length (b_buf s)) in
    let sk := n - (MAX_LEN + 1) in
    let input := if Nat.ltb 0 sk then skipn (S sk) (b_input s) else b_input s in
    fill_buf_to_max (BufSrc input (skipn consume (b_buf s))).
(** [buffered_source.rs:81-211] [impl Source for BufferedBytesSource]. *)
Definition buf_ops : ops bufsrc := Ops buf_peek buf_skip.
(** [buffered_source.rs:94-103] [peek_char]: [unwrap] panics on an empty buffer. *)
Definition buf_peek_char (s : bufsrc) : out N :=
  match first_char (firstn 4 (b_buf s)) with Some c => Ok c | None => Panic end.
(** [buffered_source.rs:109-111] [buf_is_empty]. *)
Definition buf_is_empty (s : bufsrc) : bool := Nat.eqb (List.length (b_buf s)) 0.

(** [buffered_source.rs:113-135] [push_non_breakz_chr]: [acc] are the bytes appended so far. *)
Fixpoint buf_push_loop (fuel : nat) (s : bufsrc) (acc : text) : option (bufsrc * text) :=
  match fuel with
  | O => None
  | S fuel =>
      match get_max_buf s with
      | Some x =>
          let mask := N.lor (comp_to_bitmask32 x 13) (comp_to_bitmask32 x 10) in
          if N.eqb mask 0 then buf_push_loop fuel (buf_skip MAX_LEN s) (acc ++ x)
          else
            let p := trailing_zeros mask in
            Some (buf_skip p s, acc ++ firstn p (b_buf s))
      | None =>
          let p := match position is_break (b_buf s) with Some p => p | None => 0 end in
          Some (buf_skip p s, acc ++ firstn p (b_buf s))
      end
  end.
(** [buffered_source.rs:113-135] [push_non_breakz_chr]. *)
Definition buf_push_non_breakz_chr (fuel : nat) (s : bufsrc) : option (bufsrc * text) :=
  buf_push_loop fuel s [].

(** [buffered_source.rs:175-178]: the class bits of the bytes of a 16-byte vector. *)
Definition ws_class (v : vec) : vec :=
  and16 (swizzle16 LOW_NIBBLE_WS (and16 v (splat16 15)))
        (swizzle16 HIGH_NIBBLE_WS (and16 (shr16 v 4) (splat16 127))).
(** [buffered_source.rs:180-184]: the mask of the lanes having one of the class bits [flag]. *)
Definition ws_mask (x : vec) (flag : N) : N :=
  let '(v0, v1) := split32 x in
  not32 (to_bitmask32 (comp32 (merge32 (and_byte (ws_class v0) flag) (and_byte (ws_class v1) flag)) 0)).

(** [buffered_source.rs:157-209] [skip_ws_to_eol], from the [while let] loop (171) on. *)
Fixpoint buf_skip_loop (fuel : nat) (s : bufsrc) (skip_tab has_ws : bool) (consumed : nat)
  : option (bufsrc * (nat * skip_res)) :=
  match fuel with
  | O => None
  | S fuel' =>
      match get_max_buf s with
      | Some x =>
          let sp := ws_mask x (4 + (if skip_tab then 1 else 0)) in
          let nl := ws_mask x 2 in
          let hash := ws_mask x 8 in
          let end_of_line := N.lor (N.land hash (not32 (shl32 sp 1))) nl in
          let has_ws := has_ws || negb (N.eqb sp 0) in
          if N.eqb end_of_line 0 then
            buf_skip_loop fuel' (buf_skip MAX_LEN s) skip_tab has_ws (consumed + MAX_LEN)
          else
            let consume := trailing_zeros end_of_line in
            Some (buf_skip consume s, (consumed + consume, SkipOk false has_ws))
      | None => shared_skip_ws_to_eol buf_ops fuel s skip_tab consumed false has_ws
      end
  end.
(** [buffered_source.rs:157-210] [skip_ws_to_eol]. *)
Definition buf_skip_ws_to_eol (fuel : nat) (s : bufsrc) (skip_tab has_ws : bool)
  : option (bufsrc * (nat * skip_res)) := buf_skip_loop fuel s skip_tab has_ws 0.
