(** Model of [yam-core/src/parsing/char_utils.rs]: predicates on bytes. *)
From Verif Require Import Base Scalar.
From Coq Require Import String.
Local Open Scope N_scope.

(** [char_utils.rs:40-42] [is_blank]: space or tab. *)
Definition is_blank (c : N) : bool := (c =? 32) || (c =? 9).
(** [char_utils.rs:32-34] [is_break]: CR or LF. *)
Definition is_break (c : N) : bool := (c =? 13) || (c =? 10).
(** [char_utils.rs:36-38] [is_breakz]: CR, LF or NUL. *)
Definition is_breakz (c : N) : bool := (c =? 13) || (c =? 10) || (c =? 0).
(** [char_utils.rs:1-3] [is_blank_or_break]. *)
Definition is_blank_or_break (c : N) : bool := (c =? 32) || (c =? 9) || (c =? 13) || (c =? 10).
(** [char_utils.rs:21-23] [is_blank_or_breakz]. *)
Definition is_blank_or_breakz (c : N) : bool := (c =? 0) || is_blank c || is_break c.
(** [char_utils.rs:44-46] [is_flow]: one of [,[]{}]. *)
Definition is_flow (c : N) : bool :=
  (c =? 44) || (c =? 91) || (c =? 93) || (c =? 123) || (c =? 125).
(** [char_utils.rs:9-11] [is_yaml_non_space]. *)
Definition is_yaml_non_space (c : N) : bool := negb (is_blank c) && negb (is_break c).
(** [char_utils.rs:5-7] [is_anchor_char]. *)
Definition is_anchor_char (c : N) : bool := is_yaml_non_space c && negb (is_flow c) && negb (c =? 0).
(** [u8::is_ascii_alphanumeric] (Rust core). *)
Definition is_ascii_alphanumeric (c : N) : bool :=
  is_ascii_digit c || ((65 <=? c) && (c <=? 90)) || ((97 <=? c) && (c <=? 122)).
(** [char_utils.rs:15-17] [is_word_char]. *)
Definition is_word_char (c : N) : bool := is_ascii_alphanumeric c || (c =? 45).
(** [char_utils.rs:28-30] [is_uri_char]. *)
Definition is_uri_char (c : N) : bool :=
  is_word_char c || existsb (N.eqb c) (str "#;/?:@&=+$,_.!~*'()[]%").
(** [char_utils.rs:59-61] [is_tag_char]. *)
Definition is_tag_char (c : N) : bool := is_uri_char c && negb (is_flow c) && negb (c =? 33).
(** [char_utils.rs:65-67] [is_alpha]. *)
Definition is_alpha (c : N) : bool := is_ascii_alphanumeric c || (c =? 95) || (c =? 45).
(** [u8::is_ascii_hexdigit] (Rust core). *)
Definition is_ascii_hexdigit (c : N) : bool :=
  is_ascii_digit c || ((65 <=? c) && (c <=? 70)) || ((97 <=? c) && (c <=? 102)).
(** [char_utils.rs:50-57] [as_hex]; [None] is the [unreachable!]. *)
Definition as_hex (c : N) : option N :=
  if is_ascii_digit c then Some (c - 48)
  else if (97 <=? c) && (c <=? 102) then Some (c - 97 + 10)
  else if (65 <=? c) && (c <=? 70) then Some (c - 65 + 10)
  else None.

(** [char::from_u32] (Rust core): the Unicode scalar values. *)
Definition char_from_u32 (v : N) : option N :=
  if (v <? 55296) || ((57344 <=? v) && (v <? 1114112)) then Some v else None.

(** UTF-8 encoding of a character: [char::to_string().as_bytes()] (Rust core). *)
Definition utf8 (c : N) : text :=
  if c <? 128 then [c]
  else if c <? 2048 then [192 + c / 64; 128 + c mod 64]
  else if c <? 65536 then [224 + c / 4096; 128 + (c / 64) mod 64; 128 + c mod 64]
  else [240 + c / 262144; 128 + (c / 4096) mod 64; 128 + (c / 64) mod 64; 128 + c mod 64].
