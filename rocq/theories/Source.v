(** Model of [yam-core/src/parsing/source.rs]: the trait [Source] with its default methods,
    [shared_skip_ws_to_eol] and the string source.  Code under the feature [comment] is left out. *)
From Verif Require Import Base Chars Escaper.
From Coq Require Import String.

(** [source.rs:48-159] the required methods of the trait [Source] that its default methods use:
    [peek_checked] and [skip]. *)
Record ops (S : Type) := Ops { o_peek : S -> nat -> option N; o_skip : nat -> S -> S }.
Arguments Ops {S}.
Arguments o_peek {S}.
Arguments o_skip {S}.

(** [source.rs:50-52] [peekz]. *)
Definition peekz {S} (o : ops S) (s : S) (n : nat) : N :=
  match o_peek o s n with Some b => b | None => 0%N end.

(** The loop [while p(self.peekz(0)) { n += 1; self.skip(1); }] of [skip_while_blank]
    (source.rs:105-112), [skip_while_non_breakz] (120-127) and [fetch_while_is_alpha] (91-99): the
    bytes passed over, and the source after them; [None] when the fuel is exhausted. *)
Fixpoint take_while {S} (o : ops S) (p : N -> bool) (fuel : nat) (s : S) : option (text * S) :=
  match fuel with
  | O => None
  | Datatypes.S fuel =>
      if p (peekz o s 0) then
        match take_while o p fuel (o_skip o 1 s) with
        | Some (l, s') => Some (peekz o s 0 :: l, s')
        | None => None
        end
      else Some ([], s)
  end.

(** [source.rs:91-99] [fetch_while_is_alpha]: the bytes appended to [out]; their number is returned. *)
Definition fetch_while_is_alpha {S} (o : ops S) (fuel : nat) (s : S) : option (text * S) :=
  take_while o is_alpha fuel s.
(** [source.rs:105-112] [skip_while_blank]: the bytes skipped; their number is returned. *)
Definition skip_while_blank {S} (o : ops S) (fuel : nat) (s : S) : option (text * S) :=
  take_while o is_blank fuel s.
(** [source.rs:120-127] [skip_while_non_breakz]: the bytes skipped; their number is returned. *)
Definition skip_while_non_breakz {S} (o : ops S) (fuel : nat) (s : S) : option (text * S) :=
  take_while o (fun c => negb (is_breakz c)) fuel s.

(** [source.rs:138-140] [next_next_byte_is]. *)
Definition next_next_byte_is {S} (o : ops S) (s : S) (c : N) : bool := N.eqb (peekz o s 1) c.
(** [source.rs:142-144] [next_is_three]. *)
Definition next_is_three {S} (o : ops S) (s : S) (c : N) : bool :=
  N.eqb (peekz o s 0) c && N.eqb (peekz o s 1) c && N.eqb (peekz o s 2) c.
(** [source.rs:146-154] [next_can_be_plain_scalar]. *)
Definition next_can_be_plain_scalar {S} (o : ops S) (s : S) (in_flow : bool) : bool :=
  let nc := peekz o s 1 in
  let c := peekz o s 0 in
  if N.eqb c 58 && (is_blank_or_breakz nc || (in_flow && is_flow nc)) then false
  else if in_flow && is_flow c then false
  else true.
(** [source.rs:156-158] [next_is_document_indicator]. *)
Definition next_is_document_indicator {S} (o : ops S) (s : S) : bool :=
  (next_is_three o s 45 || next_is_three o s 46) && is_blank_or_breakz (peekz o s 3).

(** The answer of [skip_ws_to_eol]: [SkipTabs::Result { any_tabs, has_yaml_ws }] (scanner.rs:15-20)
    or a message. *)
Inductive skip_res := SkipOk (any_tabs has_yaml_ws : bool) | SkipErr (msg : string).

(** [source.rs:162-209] [shared_skip_ws_to_eol]: source, bytes consumed, answer; [None] when the
    fuel is exhausted. *)
Fixpoint shared_skip_ws_to_eol {S} (o : ops S) (fuel : nat) (s : S) (skip_tabs : bool) (bytes : nat)
    (any_tabs has_ws : bool) : option (S * (nat * skip_res)) :=
  match fuel with
  | O => None
  | Datatypes.S fuel =>
      let c := peekz o s 0 in
      if N.eqb c 32 then
        shared_skip_ws_to_eol o fuel (o_skip o 1 s) skip_tabs (bytes + 1) any_tabs true
      else if N.eqb c 9 && skip_tabs then
        shared_skip_ws_to_eol o fuel (o_skip o 1 s) skip_tabs (bytes + 1) true has_ws
      else if N.eqb c 35 && negb any_tabs && negb has_ws then
        Some (s, (bytes, SkipErr "comments must be separated from other tokens by whitespace"))
      else if N.eqb c 35 then
        match skip_while_non_breakz o fuel (o_skip o 1 s) with
        | Some (l, s') =>
            shared_skip_ws_to_eol o fuel s' skip_tabs (bytes + List.length l + 1) any_tabs has_ws
        | None => None
        end
      else Some (s, (bytes, SkipOk any_tabs has_ws))
  end.

(** [source.rs:228-233] [StrSource]. *)
Record strsrc := StrSrc { ss_input : text; ss_pos : nat }.
(** [source.rs:257-262] [StrSource::new]. *)
Definition str_new (input : text) : strsrc := StrSrc input 0.
(** [source.rs:270-272] [peek_checked]. *)
Definition str_peek (s : strsrc) (n : nat) : option N := nth_error (ss_input s) (ss_pos s + n).
(** [source.rs:296-298] [skip]. *)
Definition str_skip (n : nat) (s : strsrc) : strsrc := StrSrc (ss_input s) (ss_pos s + n).
(** [source.rs:265-307] [impl Source for StrSource]. *)
Definition str_ops : ops strsrc := Ops str_peek str_skip.
(** [source.rs:266-268] [peek_unsafe]: reading past the input is undefined. *)
Definition str_peek_unsafe (s : strsrc) (n : nat) : out N :=
  match str_peek s n with Some b => Ok b | None => Ub end.
(** First character of a UTF-8 text ([str::chars().next()], Rust core; the text is assumed valid
    from its first byte on). *)
Definition first_char (l : text) : option N :=
  match l with
  | [] => None
  | a :: r =>
      if (a <? 128)%N then Some a
      else
        let b := nth 0 r 0%N in let c := nth 1 r 0%N in let d := nth 2 r 0%N in
        if (a <? 224)%N then Some (N.land a 31 * 64 + N.land b 63)%N
        else if (a <? 240)%N then Some (N.land a 15 * 4096 + N.land b 63 * 64 + N.land c 63)%N
        else Some (N.land a 7 * 262144 + N.land b 63 * 4096 + N.land c 63 * 64 + N.land d 63)%N
  end.
(** [source.rs:274-280] [peek_char]: [get_unchecked(pos..pos + 4)] is undefined unless four bytes
    are left. *)
Definition str_peek_char (s : strsrc) : out N :=
  if Nat.leb (ss_pos s + 4) (List.length (ss_input s)) then
    Ok (match first_char (firstn 4 (skipn (ss_pos s) (ss_input s))) with
        | Some c => c
        | None => 65533%N
        end)
  else Ub.
(** [source.rs:282-284] [buf_is_empty]. *)
Definition str_buf_is_empty (s : strsrc) : bool := Nat.leb (List.length (ss_input s)) (ss_pos s).
(** [source.rs:286-294] [push_non_breakz_chr]: the bytes appended to [vec]; slicing from a position
    past the end panics. *)
Definition str_push_non_breakz_chr (s : strsrc) : strsrc * out text :=
  if Nat.ltb (List.length (ss_input s)) (ss_pos s) then (s, Panic)
  else
    let rest := skipn (ss_pos s) (ss_input s) in
    let len := match position is_break rest with Some n => n | None => 0 end in
    (str_skip len s, Ok (firstn len rest)).
(** [source.rs:300-306] [skip_ws_to_eol]. *)
Definition str_skip_ws_to_eol (fuel : nat) (s : strsrc) (skip_tabs has_ws : bool)
  : option (strsrc * (nat * skip_res)) :=
  shared_skip_ws_to_eol str_ops fuel s skip_tabs 0 false has_ws.
