(** What the notation of the test cases tells about events. *)
From Verif Require Import Base Tokens Parser Pipeline.
From Coq Require Import String.
Local Open Scope list_scope.

(** What is compared: kinds, names of anchors, tags as one text, styles and values. *)
Inductive noted_event :=
| NtStreamStart | NtStreamEnd | NtDocStart | NtDocEnd
| NtAlias (name : text)
| NtScalar (anchor tag : option text) (style : scalar_type) (value : text)
| NtSeqStart (anchor tag : option text) | NtSeqEnd
| NtMapStart (anchor tag : option text) | NtMapEnd.
Definition tag_name (t : option tag) : option text := option_map (fun t => t_handle t ++ t_suffix t) t.
(** The event with the names its anchors have. *)
Inductive noted_as (name : nat -> option text) : event -> noted_event -> Prop :=
| na_stream : noted_as name EStreamStart NtStreamStart
| na_stream_end : noted_as name EStreamEnd NtStreamEnd
| na_doc b : noted_as name (EDocumentStart b) NtDocStart
| na_doc_end : noted_as name EDocumentEnd NtDocEnd
| na_alias id a : name id = Some a -> noted_as name (EAlias id) (NtAlias a)
| na_lost id : name id = None -> noted_as name (EAlias id) (NtAlias [])
| na_scalar v : noted_as name (EScalar v) (NtScalar (name (sv_anchor v)) (tag_name (sv_tag v)) (sv_type v) (sv_value v))
| na_seq a t : noted_as name (ESequenceStart a t) (NtSeqStart (name a) (tag_name t))
| na_seq_end : noted_as name ESequenceEnd NtSeqEnd
| na_map a t : noted_as name (EMappingStart a t) (NtMapStart (name a) (tag_name t))
| na_map_end : noted_as name EMappingEnd NtMapEnd.

(** Names of anchors have no spaces and line feeds, tags no [>] and line feeds. *)
Definition name_ok (a : option text) : Prop := forall t, a = Some t -> ~ In 32%N t /\ ~ In 10%N t.
Definition tag_ok (a : option text) : Prop := forall t, a = Some t -> ~ In 62%N t /\ ~ In 10%N t.
(** Such events whose values have no line feed. *)
Definition one_line (x : noted_event) : Prop :=
  match x with
  | NtAlias a => name_ok (Some a)
  | NtScalar a t _ v => name_ok a /\ tag_ok t /\ ~ In 10%N v
  | NtSeqStart a t | NtMapStart a t => name_ok a /\ tag_ok t
  | _ => True
  end.

(** [has_events n input xs]: the parser reads [xs] from the text before it ends or fails; each event is noted with
    the anchors known when it is read, of which the last of a name counts. *)
Inductive reads_events : parser -> list noted_event -> Prop :=
| re_end p p' r : next_event p = (p', r) -> (forall x, r <> Some (Ok x)) -> reads_events p []
| re_event p p' e s x xs : next_event p = (p', Some (Ok (e, s))) ->
    noted_as (fun id => option_map fst (find (fun a => Nat.eqb (snd a) id) (p_anchors p'))) e x ->
    reads_events p' xs -> reads_events p (x :: xs).
