(** Runs of the parser: sequences of [next_event] / [peek] requests and their answers. *)
From Verif Require Import Base Tokens Parser.

(** The events delivered by at most [n] calls of [next_event], up to the first answer that is
    not an event (parser.rs:481-491, the iterator protocol of parser.rs:1666-1672). *)
Fixpoint events_of (n : nat) (p : parser) : list event :=
  match n with
  | O => []
  | S n => match next_event p with
           | (p', Some (Ok (e, _))) => e :: events_of n p'
           | _ => []
           end
  end.

(** The two requests a client can make (parser.rs:462-491). *)
Inductive request := RPeek | RNext.
Definition do_request (r : request) (p : parser) : parser * answer :=
  match r with RPeek => peek p | RNext => next_event p end.
(** All answers to a sequence of requests, and the parser afterwards; errors do not stop it. *)
Fixpoint run_requests (rs : list request) (p : parser) : parser * list answer :=
  match rs with
  | [] => (p, [])
  | r :: rs => let '(p1, a) := do_request r p in
               let '(p2, l) := run_requests rs p1 in (p2, a :: l)
  end.
