(** Model of the byte escaper: [yam-core/src/escaper.rs]. *)
From Verif Require Import Base.
From Coq Require Import String.

(** [escaper.rs:22-26] [EscapeControl]; the array of [Append] is split into its step (byte 0) and
    the first [len] (byte 1) of the replacement bytes. *)
Inductive control := Skip (n : nat) | Append (step : nat) (bytes : text) | Break.

(** [Iterator::position] (Rust core). *)
Fixpoint position (p : N -> bool) (l : text) : option nat :=
  match l with
  | [] => None
  | c :: r => if p c then Some 0 else option_map S (position p r)
  end.

(** [escaper.rs:42-66] [Escape::next], the [while let] loop: the new position of the iterator and
    the answer (position, step, bytes of [NewPos]). [self.iter[self.pos..]] panics past the end. *)
Fixpoint escape_next (fuel : nat) (f : N -> bool) (m : text -> control) (raw : text) (pos : nat)
  : out (nat * option (nat * nat * text)) :=
  match fuel with
  | O => Fuel
  | S fuel =>
      if Nat.ltb (List.length raw) pos then Panic else
      match position f (skipn pos raw) with
      | None => Ok (pos, None)
      | Some find_pos =>
          match m (skipn (pos + find_pos) raw) with
          | Append step bytes =>
              Ok (pos + find_pos + step, Some (pos + find_pos, step, bytes))
          | Skip x => escape_next fuel f m raw (pos + (x + find_pos))
          | Break => Ok (pos, None)
          end
      end
  end.

(** Slicing [raw[a..b]] (Rust core): panics unless [a <= b <= len]. *)
Definition slice (raw : text) (a b : nat) : out text :=
  if Nat.leb a b && Nat.leb b (List.length raw) then Ok (firstn (b - a) (skipn a raw)) else Panic.

(** [escaper.rs:101-135] [escape], the [for] loop: [escaped] is [None] until the first answer. *)
Fixpoint escape_loop (fuel : nat) (f : N -> bool) (m : text -> control) (raw : text)
  (pos old_pos : nat) (escaped : option text) : out (nat * option text) :=
  match fuel with
  | O => Fuel
  | S fuel =>
      match escape_next (S (List.length raw)) f m raw pos with
      | Ok (_, None) => Ok (old_pos, escaped)
      | Ok (pos', Some (p, step, bytes)) =>
          match slice raw old_pos p with
          | Ok before =>
              let e := match escaped with Some e => e | None => [] end in
              escape_loop fuel f m raw pos' (p + step) (Some (e ++ before ++ bytes))
          | Err e => Err e | Panic => Panic | Ub => Ub | Fuel => Fuel
          end
      | Err e => Err e | Panic => Panic | Ub => Ub | Fuel => Fuel
      end
  end.
Definition escape (raw : text) (f : N -> bool) (m : text -> control) : out text :=
  match escape_loop (S (List.length raw)) f m raw 0 0 None with
  | Ok (old_pos, Some e) =>
      (* [raw.get(old_pos..)]: nothing past the end *)
      Ok (e ++ skipn old_pos raw)
  | Ok (_, None) => Ok raw
  | Err e => Err e | Panic => Panic | Ub => Ub | Fuel => Fuel
  end.

(** [escaper.rs:73] and [escaper.rs:74-81]. *)
Definition plain_find (c : N) : bool := (N.eqb c 9 || N.eqb c 92 || N.eqb c 10)%bool.
Definition plain_match (t : text) : control :=
  match t with
  | a :: r =>
      let second := match r with b :: _ => N.eqb b 116 || N.eqb b 114 | [] => false end in
      if (N.eqb a 92 && second)%bool then Skip 2
      else if N.eqb a 13 then Append 1 [92; 114]%N
      else if N.eqb a 9 then Append 1 [92; 116]%N
      else if N.eqb a 10 then Append 1 [92; 110]%N
      else if N.eqb a 92 then Append 1 [92; 92]%N
      else Break
  | [] => Break
  end.
(** [escaper.rs:70-83] [escape_plain]. *)
Definition escape_plain (t : text) : out text := escape t plain_find plain_match.

(** [escaper.rs:89] and [escaper.rs:90-97]. *)
Definition single_find (c : N) : bool := (N.eqb c 9 || N.eqb c 92 || N.eqb c 10 || N.eqb c 13)%bool.
Definition single_match (t : text) : control :=
  match t with
  | a :: _ =>
      if N.eqb a 13 then Append 1 [92; 114]%N
      else if N.eqb a 9 then Append 1 [92; 116]%N
      else if N.eqb a 10 then Append 1 [92; 110]%N
      else if N.eqb a 92 then Append 1 [92; 92]%N
      else if N.eqb a 39 then Append 1 [92; 39]%N
      else Break
  | [] => Break
  end.
(** [escaper.rs:86-99] [escape_single_quotes]. *)
Definition escape_single_quotes (t : text) : out text := escape t single_find single_match.
