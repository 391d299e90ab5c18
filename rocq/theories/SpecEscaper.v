(** What escaping means, stated byte by byte on the text. *)
From Verif Require Import Base.

(** Two-byte escapes. *)
Definition esc_byte (c : N) : text :=
  if N.eqb c 9 then [92; 116]%N        (* tab *)
  else if N.eqb c 10 then [92; 110]%N  (* line feed *)
  else if N.eqb c 13 then [92; 114]%N  (* carriage return *)
  else if N.eqb c 92 then [92; 92]%N   (* backslash *)
  else [c].
(** Single-quote mode escapes every special byte. *)
Definition single_spec (t : text) : text := flat_map esc_byte t.
(** Plain mode leaves carriage returns alone and also the byte pairs backslash-[t] and
    backslash-[r]. *)
Fixpoint plain_spec (t : text) : text :=
  match t with
  | [] => []
  | a :: r =>
      match r with
      | b :: r' =>
          if (N.eqb a 92 && (N.eqb b 116 || N.eqb b 114))%bool then a :: b :: plain_spec r'
          else (if N.eqb a 13 then [a] else esc_byte a) ++ plain_spec r
      | [] => if N.eqb a 13 then [a] else esc_byte a
      end
  end.

Definition special_plain (c : N) : Prop := c = 9%N \/ c = 10%N \/ c = 92%N.
Definition special_single (c : N) : Prop := special_plain c \/ c = 13%N.
(** A backslash followed by [t] or [r] somewhere in the text. *)
Definition has_escape_pair (t : text) : Prop :=
  exists a b c, t = a ++ 92%N :: c :: b /\ (c = 116%N \/ c = 114%N).
