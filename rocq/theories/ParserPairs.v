(** Single pairs without a key in flow sequences, [[? : b]]: what the parser makes of them. *)
From Verif Require Import Base Tokens Scalar Parser ParserRun SpecTree.

(** The parser just behind the question mark of an entry of a flow sequence. *)
Definition behind_question_mark (p : parser) : Prop :=
  p_state p = StFlowSequenceEntryMappingKey /\ p_token p = None /\ p_current p = None /\ p_stream_end_emitted p = false.
(** The parser in front of the comma or bracket behind an entry of a flow sequence. *)
Definition behind_entry (t : token) (r : list token) (p p' : parser) : Prop :=
  p_state p' = StFlowSequenceEntry /\ p_token p' = Some t /\ p_toks p' = r /\ p_states p' = p_states p /\ p_current p' = None /\
  p_stream_end_emitted p' = false /\ p_anchors p' = p_anchors p /\ p_tags p' = p_tags p.
Definition ends_entry (t : token) : Prop := k_type t = TFlowEntry \/ k_type t = TFlowSequenceEnd.

Lemma empty_pair p tv t r : behind_question_mark p -> p_toks p = tv :: t :: r -> k_type tv = TValue -> ends_entry t ->
  exists p', behind_entry t r p p' /\ forall n, events_of (3 + n) p = [empty_event; empty_event; EMappingEnd] ++ events_of n p'.
Proof.
  destruct p as [toks er mk sts st tok cur an ac tg ee kt]. intros (H1 & H2 & H3 & H4) HT KV KE. cbn in H1, H2, H3, H4, HT. subst.
  destruct tv as [sv tv], t as [s t]. cbn in KV. subst tv.
  destruct KE as [KE|KE]; cbn in KE; subst t; (eexists; split; [|intros n; cbn; reflexivity]; repeat split; reflexivity).
Qed.
(** Whatever value is written, it is not read: the pair comes out without it, and then there is an error. *)
Lemma value_lost p tv t r : behind_question_mark p -> p_toks p = tv :: t :: r -> k_type tv = TValue -> ~ ends_entry t -> k_type t <> TValue ->
  forall n, events_of (4 + n) p = [empty_event; empty_event; EMappingEnd].
Proof.
  destruct p as [toks er mk sts st tok cur an ac tg ee kt]. intros (H1 & H2 & H3 & H4) HT KV KE NV n. cbn in H1, H2, H3, H4, HT. subst.
  destruct tv as [sv tv], t as [s t]. cbn in KV, NV. subst tv. unfold ends_entry in KE. cbn in KE.
  destruct t; try (elim KE; tauto); try (elim NV; reflexivity); reflexivity.
Qed.
