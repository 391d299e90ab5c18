(** Model of base64 coding: [yam-serde/src/binary.rs]. *)
From Verif Require Import Base.
From Coq Require Import String.
Local Open Scope N_scope.

(** [binary.rs:4-5] [BASE64_CHARSET]. *)
Definition charset : text := str "ABCDEFGHIJKLMNOPQRSTUVWXYZabcdefghijklmnopqrstuvwxyz0123456789+/".

(** [BASE64_CHARSET.iter().position] ([binary.rs:19]). *)
Fixpoint charset_position (c : N) (l : text) (i : N) : option N :=
  match l with
  | [] => None
  | x :: r => if c =? x then Some i else charset_position c r (i + 1)
  end.

(** A [u32]: bits above are shifted out. *)
Definition u32 (x : N) : N := x mod 4294967296.

(** [binary.rs:13-27] the loop of [decode_as_base64]; [as u8] keeps the low eight bits. *)
Fixpoint decode_loop (input : text) (buffer bits : N) : text :=
  match input with
  | [] => []
  | byte :: r =>
      if byte =? 61 then []
      else if (byte =? 32) || (byte =? 10) || (byte =? 13) then decode_loop r buffer bits
      else match charset_position byte charset 0 with
           | Some p =>
               let buffer := u32 (N.lor (N.shiftl buffer 6) p) in
               let bits := bits + 6 in
               if 8 <=? bits then
                 let bits := bits - 8 in
                 (N.shiftr buffer bits mod 256) :: decode_loop r buffer bits
               else decode_loop r buffer bits
           | None => decode_loop r buffer bits
           end
  end.
(** [binary.rs:7-30] [decode_as_base64]. *)
Definition decode_as_base64 (input : text) : text := decode_loop input 0 0.

(** [BASE64_CHARSET[index]] with [index & 0x3F]. *)
Definition charset_at (x : N) : N := nth (N.to_nat (N.land x 63)) charset 0.

(** [binary.rs:40-44] the inner [while] loop: with at most 13 bits collected it runs at most twice. *)
Fixpoint flush (fuel : nat) (buffer bits : N) : text * N :=
  match fuel with
  | O => ([], bits)
  | S f => if 6 <=? bits then
             let bits := bits - 6 in
             let '(t, b) := flush f buffer bits in (charset_at (N.shiftr buffer bits) :: t, b)
           else ([], bits)
  end.

(** [binary.rs:37-45] the outer loop of [encode_as_base64], with the output so far. *)
Fixpoint encode_loop (input : text) (buffer bits : N) (output : text) : text * N * N :=
  match input with
  | [] => (output, buffer, bits)
  | byte :: r =>
      let buffer := u32 (N.lor (N.shiftl buffer 8) byte) in
      let '(t, bits) := flush 4 buffer (bits + 8) in
      encode_loop r buffer bits (output ++ t)
  end.

(** [binary.rs:50-52]: padding until the length is a multiple of four (at most three steps). *)
Fixpoint pad (fuel : nat) (output : text) : text :=
  match fuel with
  | O => output
  | S f => if Nat.eqb (Nat.modulo (List.length output) 4) 0 then output else pad f (output ++ [61])
  end.

(** [binary.rs:32-56] [encode_as_base64]. *)
Definition encode_as_base64 (input : text) : text :=
  let '(output, buffer, bits) := encode_loop input 0 0 [] in
  if 0 <? bits then pad 4 (output ++ [charset_at (u32 (N.shiftl buffer (6 - bits)))])
  else output.
