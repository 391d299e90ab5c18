(** What may stand behind the first document of a stream. *)
From Verif Require Import Base Tokens SpecTree SpecStream.
From Coq Require Import List.
Import ListNotations.

(** A document without [...] ends where [---] or the end of the input stands; behind [...] there
    may be anything, and nothing. *)
Definition behind (d : doc) (more : list token_type) : Prop :=
  d_ends d = 0 -> exists r, more = TDocumentStart :: r \/ more = TStreamEnd :: r.
