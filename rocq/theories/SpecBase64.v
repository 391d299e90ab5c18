(** Base64 by groups of three bytes (RFC 4648, section 4). *)
From Verif Require Import Base.
Local Open Scope N_scope.

(** The character for a number below 64. *)
Definition b64_char (n : N) : N :=
  if n <? 26 then 65 + n
  else if n <? 52 then 97 + (n - 26)
  else if n <? 62 then 48 + (n - 52)
  else if n =? 62 then 43 else 47.

(** Three bytes make a 24-bit number, written as four 6-bit numbers, most significant first; one
    or two bytes at the end are filled up with zero bits and padded with [=]. *)
Fixpoint b64 (l : text) : text :=
  match l with
  | [] => []
  | [a] => [b64_char (a / 4); b64_char (a mod 4 * 16); 61; 61]
  | [a; b] => let v := (a * 256 + b) * 4 in
              [b64_char (v / 4096); b64_char (v / 64 mod 64); b64_char (v mod 64); 61]
  | a :: b :: c :: r =>
      let v := (a * 256 + b) * 256 + c in
      b64_char (v / 262144) :: b64_char (v / 4096 mod 64) :: b64_char (v / 64 mod 64) :: b64_char (v mod 64)
        :: b64 r
  end.

(** The bytes decoding skips anywhere. *)
Definition b64_space (c : N) : bool := (c =? 32) || (c =? 10) || (c =? 13).

(** The sixty-four characters of the alphabet. *)
Definition b64_alphabet (c : N) : Prop :=
  65 <= c <= 90 \/ 97 <= c <= 122 \/ 48 <= c <= 57 \/ c = 43 \/ c = 47.
