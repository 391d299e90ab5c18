(** [load] sends exactly the events of the iterator: clearing the anchors between documents can
    only turn an alias into an error. *)
From Verif Require Import Base Tokens Parser ParserRun SpecEvents SpecLoad.
From Verif Require Import ParserProofs ParserStep ParserStates ParserTheorems ParserTerm ParserLoad.
From Coq Require Import Lia String List.
Local Open Scope list_scope.

(** [q] is [p] with a larger anchor table. *)
Definition sim_p (p q : parser) : Prop :=
  exists a, q = set_anchors a (p_anchor_id_count p) p /\
            forall nm id, map_get nm (p_anchors p) = Some id -> map_get nm a = Some id.
Definition sim {A} (m : PM A) : Prop := forall p q, sim_p p q ->
  (exists e, snd (m p) = Err e) \/ (snd (m q) = snd (m p) /\ sim_p (fst (m p)) (fst (m q))).

Lemma sim_bind {A B} (m : PM A) (f : A -> PM B) : sim m -> (forall a, sim (f a)) -> sim (bind m f).
Proof.
  intros Hm Hf p q H. unfold bind. destruct (Hm p q H) as [[e He]|[H1 H2]].
  - left. exists e. destruct (m p) as [p' o]; cbn in *; subst o. reflexivity.
  - destruct (m p) as [p' o], (m q) as [q' o']; cbn in *; subst o'.
    destruct o; try (right; cbn; auto; fail). apply Hf, H2.
Qed.
Lemma sim_ret {A} (a : A) : sim (ret a).
Proof. intros p q H; right; auto. Qed.
Lemma sim_fail {A} e : sim (@fail parser A e).
Proof. intros p q H; left; exists e; reflexivity. Qed.
Lemma sim_panic {A} : sim (@panic parser A).
Proof. intros p q H; right; auto. Qed.
Lemma sim_modify f : (forall p a c, f (set_anchors a c p) = set_anchors a c (f p)) ->
  (forall p, p_anchors (f p) = p_anchors p /\ p_anchor_id_count (f p) = p_anchor_id_count p) ->
  sim (modify f).
Proof.
  intros Hf Ha p q (a & -> & H). right. split; [reflexivity|]. cbn [modify fst].
  destruct (Ha p) as [H1 H2]. exists a. rewrite Hf, H2, H1. auto.
Qed.
Lemma sim_skip : sim skip.
Proof. apply sim_modify; intros; split || idtac; reflexivity. Qed.
Lemma sim_goto s : sim (goto s).
Proof. apply sim_modify; intros; split || idtac; reflexivity. Qed.
Lemma sim_push s : sim (push_state s).
Proof. apply sim_modify; intros; split || idtac; reflexivity. Qed.
Lemma sim_tags f : sim (modify (set_tags f)).
Proof. apply sim_modify; intros; split || idtac; reflexivity. Qed.
Lemma sim_keep : sim (modify (fun p => if p_keep_tags p then p else set_tags [] p)).
Proof.
  apply sim_modify; intros p; [intros a c; cbn|]; destruct (p_keep_tags p); split || idtac; reflexivity.
Qed.
Lemma sim_peek : sim peek_token.
Proof.
  intros p q (a & -> & H). unfold peek_token. cbn [p_token set_anchors].
  destruct (p_token p); cbn; [right; split; [reflexivity|exists a; auto]|].
  unfold bind, scan_next_token. cbn [p_toks set_anchors].
  destruct (p_toks p); cbn; [left; eexists; reflexivity|right].
  split; [reflexivity|]. exists a; auto.
Qed.
Lemma sim_fetch : sim fetch_token.
Proof.
  intros p q (a & -> & H). unfold fetch_token. cbn [p_token set_anchors].
  destruct (p_token p); cbn; right; (split; [reflexivity|exists a; auto]).
Qed.
Lemma sim_pop : sim pop_state.
Proof.
  intros p q (a & -> & H). unfold pop_state. cbn [p_states set_anchors].
  destruct (p_states p); cbn; right; (split; [reflexivity|exists a; auto]).
Qed.
Lemma sim_resolve sp h s : sim (resolve_tag sp h s).
Proof. intros p q (a & -> & H). right. cbn. split; [reflexivity|exists a; auto]. Qed.
Lemma sim_register n : sim (register_anchor n).
Proof.
  intros p q (a & -> & H). right. cbn. split; [reflexivity|]. eexists. split; [reflexivity|].
  cbn [p_anchors set_anchors p_anchor_id_count]. intros nm id. rewrite !map_get_insert.
  destruct (text_eqb nm n); [auto|apply H].
Qed.
(** The only place where the table is read. *)
Lemma sim_lookup {A} name (f : nat -> PM A) e : (forall id, sim (f id)) ->
  sim (let* o := gets (fun p => map_get name (p_anchors p)) in
       match o with None => fail e | Some id => f id end)%m.
Proof.
  intros Hf p q Hs. pose proof Hs as (a & Hq & H). unfold bind, gets.
  destruct (map_get name (p_anchors p)) as [id|] eqn:E; [|left; exists e; reflexivity].
  subst q. cbn [p_anchors set_anchors]. rewrite (H _ _ E). apply Hf, Hs.
Qed.

Ltac sim1 :=
  match goal with
  | |- sim (bind (gets _) _) => apply sim_lookup; intros
  | |- sim (bind _ _) => apply sim_bind; [|intros]
  | |- sim (ret _) => apply sim_ret
  | |- sim (perr _ _) => apply sim_fail
  | |- sim (fail _) => apply sim_fail
  | |- sim panic => apply sim_panic
  | |- sim skip => apply sim_skip
  | |- sim (goto _) => apply sim_goto
  | |- sim (push_state _) => apply sim_push
  | |- sim (modify (set_tags _)) => apply sim_tags
  | |- sim (modify (fun p => if p_keep_tags p then _ else _)) => apply sim_keep
  | |- sim peek_token => apply sim_peek
  | |- sim fetch_token => apply sim_fetch
  | |- sim pop_state => apply sim_pop
  | |- sim (resolve_tag _ _ _) => apply sim_resolve
  | |- sim (register_anchor _) => apply sim_register
  | |- sim (match k_type ?t with _ => _ end) => destruct (k_type t)
  | |- sim (if ?b then _ else _) => destruct b
  | |- sim (match ?x with (_, _) => _ end) => destruct x
  end.
Lemma sim_props : sim parse_properties.
Proof. unfold parse_properties; repeat sim1. Qed.
Lemma sim_content b i a t : sim (parse_content b i a t).
Proof. unfold parse_content; repeat (cbv zeta; sim1). Qed.
Lemma sim_node b i : sim (parse_node b i).
Proof.
  unfold parse_node. apply sim_bind; [apply sim_peek|intros tk].
  destruct (k_type tk); repeat first [apply sim_props | apply sim_content | sim1].
Qed.
Lemma sim_fuel (f : nat -> PM unit) : (forall n, sim (f n)) ->
  sim (fun p => f (S (S (List.length (p_toks p)))) p : parser * out unit).
Proof. intros H p q Hs. pose proof Hs as (a & -> & _). cbn [p_toks set_anchors]. apply H, Hs. Qed.
Lemma sim_directives_loop n : forall b, sim (process_directives_loop n b).
Proof.
  induction n as [|n IH]; intros b; cbn [process_directives_loop]; [intros p q H; right; auto|].
  repeat first [apply IH | sim1].
Qed.
Lemma sim_directives : sim process_directives.
Proof. apply (sim_fuel (fun n => process_directives_loop n false)). intros; apply sim_directives_loop. Qed.
Lemma sim_doc_ends n : sim (skip_document_ends n).
Proof.
  induction n as [|n IH]; cbn [skip_document_ends]; [intros p q H; right; auto|].
  repeat first [apply IH | sim1].
Qed.
Lemma sim_explicit : sim explicit_document_start.
Proof. unfold explicit_document_start. repeat first [apply sim_directives | sim1]. Qed.
Lemma sim_machine : sim state_machine.
Proof.
  assert (H : forall f : PM (event * span), sim f -> forall p q, sim_p p q ->
     (exists e, snd (f p) = Err e) \/ (snd (f q) = snd (f p) /\ sim_p (fst (f p)) (fst (f q))))
    by (intros f Hf; exact Hf).
  intros p q Hs. pose proof Hs as (a & Hq & _). unfold state_machine.
  assert (Est : p_state q = p_state p) by (subst q; reflexivity). rewrite Est.
  destruct (p_state p); try (apply H; [|exact Hs]).
  - unfold stream_start; repeat sim1.
  - unfold document_start. apply sim_bind; [apply sim_fuel, sim_doc_ends|intros].
    repeat first [apply sim_explicit | apply sim_directives | sim1].
  - unfold document_start. apply sim_bind; [apply sim_fuel, sim_doc_ends|intros].
    repeat first [apply sim_explicit | apply sim_directives | sim1].
  - unfold document_content; repeat first [apply sim_node | sim1].
  - unfold document_end; repeat first [apply sim_node | cbv zeta; sim1].
  - apply sim_node.
  - unfold block_sequence_entry; repeat first [apply sim_node | sim1].
  - unfold block_sequence_entry; repeat first [apply sim_node | sim1].
  - unfold indentless_sequence_entry; repeat first [apply sim_node | sim1].
  - unfold block_mapping_key; repeat first [apply sim_node | sim1].
  - unfold block_mapping_key; repeat first [apply sim_node | sim1].
  - unfold block_mapping_value; repeat first [apply sim_node | cbv zeta; sim1].
  - unfold flow_sequence_entry; repeat first [apply sim_node | cbv zeta; sim1].
  - unfold flow_sequence_entry; repeat first [apply sim_node | cbv zeta; sim1].
  - unfold flow_sequence_entry_mapping_key; repeat first [apply sim_node | sim1].
  - unfold flow_sequence_entry_mapping_value; repeat first [apply sim_node | cbv zeta; sim1].
  - unfold flow_sequence_entry_mapping_end; repeat sim1.
  - unfold flow_mapping_key, flow_mapping_close; repeat first [apply sim_node | sim1].
  - unfold flow_mapping_key, flow_mapping_close; repeat first [apply sim_node | sim1].
  - unfold flow_mapping_value; repeat first [apply sim_node | sim1].
  - unfold flow_mapping_value; repeat first [apply sim_node | sim1].
  - right; auto.
  - unfold flow_mapping_key, flow_mapping_close; repeat first [apply sim_node | sim1].
  - unfold block_mapping_value; repeat first [apply sim_node | cbv zeta; sim1].
Qed.
Lemma sim_impl : sim next_event_impl.
Proof.
  intros p q Hs. pose proof Hs as (a & -> & H). unfold next_event_impl.
  cbn [p_current set_anchors]. destruct (p_current p) as [v|].
  - right. split; [reflexivity|]. exists a; auto.
  - unfold parse. cbn [p_state set_anchors]. destruct (p_state p) eqn:E; try apply sim_machine; auto.
Qed.

(** A chain of pulled events. *)
Inductive trace : parser -> list (event * span) -> parser -> Prop :=
| trace_nil p : trace p [] p
| trace_cons p q r e l : next_event_impl p = (q, Ok e) -> trace q l r -> trace p (e :: l) r.
Lemma trace_app p a q b r : trace p a q -> trace q b r -> trace p (a ++ b) r.
Proof. induction 1; cbn; auto. intros; econstructor; eauto. Qed.
Lemma sim_pull p q p' e : sim_p p q -> next_event_impl p = (p', Ok e) ->
  exists q', next_event_impl q = (q', Ok e) /\ sim_p p' q'.
Proof.
  intros Hs H. destruct (sim_impl p q Hs) as [[e' X]|[H1 H2]]; rewrite H in *; [discriminate|].
  cbn in *. destruct (next_event_impl q) as [q' o]; cbn in *; subst o. eauto.
Qed.

Lemma bind_inv {A B} (m : PM A) (f : A -> PM B) p p' b :
  bind m f p = (p', Ok b) -> exists q a, m p = (q, Ok a) /\ f a q = (p', Ok b).
Proof. unfold bind. destruct (m p) as [q [a|e| | |]]; intros H; try discriminate. eauto. Qed.

Lemma load_node_trace fuel : forall m r p p' r' q, sim_p p q ->
  load_node_f fuel m r p = (p', Ok r') ->
  exists new q', r' = r ++ (match m with LNode e => [e] | _ => [] end) ++ new /\
                 sim_p p' q' /\ trace q new q'.
Proof.
  induction fuel as [|fuel IH]; intros m r p p' r' q Hs H; [discriminate|].
  cbn [load_node_f] in H. destruct m as [[e sp]| |].
  - cbn [fst] in H. destruct e; try discriminate.
    + inversion H; subst. exists [], q. repeat split; auto. constructor.
    + inversion H; subst. exists [], q. repeat split; auto. constructor.
    + destruct (IH _ _ _ _ _ _ Hs H) as (new & q' & -> & H1 & H2). exists new, q'.
      unfold on_event. rewrite <- app_assoc. auto.
    + destruct (IH _ _ _ _ _ _ Hs H) as (new & q' & -> & H1 & H2). exists new, q'.
      unfold on_event. rewrite <- app_assoc. auto.
  - apply bind_inv in H as (p1 & [e sp] & H1 & H). destruct (sim_pull _ _ _ _ Hs H1) as (q1 & Q1 & S1).
    cbn [fst] in H.
    assert (Hcase : (e = EMappingEnd /\ ret (on_event (e, sp) r) p1 = (p', Ok r')) \/
       (let* r := load_node_f fuel (LNode (e, sp)) r in
              let* e2 := next_event_impl in
              let* r := load_node_f fuel (LNode e2) r in
              load_node_f fuel LMapping r)%m p1 = (p', Ok r')) by (destruct e; auto).
    clear H. destruct Hcase as [[-> H]|H].
    + inversion H; subst. exists [(EMappingEnd, sp)], q1. repeat split; auto.
      econstructor; [eassumption|constructor].
    + apply bind_inv in H as (p2 & r2 & H2 & H). apply bind_inv in H as (p3 & e3 & H3 & H).
      apply bind_inv in H as (p4 & r4 & H4 & H).
      destruct (IH _ _ _ _ _ _ S1 H2) as (n2 & q2 & -> & S2 & T2).
      destruct (sim_pull _ _ _ _ S2 H3) as (q3 & Q3 & S3).
      destruct (IH _ _ _ _ _ _ S3 H4) as (n4 & q4 & -> & S4 & T4).
      destruct (IH _ _ _ _ _ _ S4 H) as (n5 & q5 & -> & S5 & T5).
      exists ((e, sp) :: n2 ++ e3 :: n4 ++ n5), q5. cbn. rewrite <- !app_assoc. cbn.
      try (rewrite <- !app_assoc; cbn). split; [reflexivity|]. split; [exact S5|].
      econstructor; [eassumption|]. eapply trace_app; [eassumption|].
      econstructor; [eassumption|]. eapply trace_app; eassumption.
  - apply bind_inv in H as (p1 & [e sp] & H1 & H). destruct (sim_pull _ _ _ _ Hs H1) as (q1 & Q1 & S1).
    cbn [fst] in H.
    assert (Hcase : (e = ESequenceEnd /\ ret (on_event (e, sp) r) p1 = (p', Ok r')) \/
       (let* r := load_node_f fuel (LNode (e, sp)) r in
              load_node_f fuel LSequence r)%m p1 = (p', Ok r')) by (destruct e; auto).
    clear H. destruct Hcase as [[-> H]|H].
    + inversion H; subst. exists [(ESequenceEnd, sp)], q1. repeat split; auto.
      econstructor; [eassumption|constructor].
    + apply bind_inv in H as (p2 & r2 & H2 & H).
      destruct (IH _ _ _ _ _ _ S1 H2) as (n2 & q2 & -> & S2 & T2).
      destruct (IH _ _ _ _ _ _ S2 H) as (n5 & q5 & -> & S5 & T5).
      exists ((e, sp) :: n2 ++ n5), q5. cbn. rewrite <- !app_assoc. cbn.
      split; [reflexivity|]. split; [exact S5|].
      econstructor; [eassumption|]. eapply trace_app; eassumption.
Qed.

Lemma sim_clear p q : sim_p p q -> sim_p (clear_anchors p) q.
Proof. intros (a & -> & _). exists a. split; [reflexivity|]. intros nm id H; discriminate. Qed.

Lemma load_docs_trace fuel multi : forall r p p' r' q, sim_p p q ->
  load_docs fuel multi r p = (p', Ok r') ->
  exists new q', r' = r ++ new /\ sim_p p' q' /\ trace q new q'.
Proof.
  induction fuel as [|fuel IH]; intros r p p' r' q Hs H; [discriminate|].
  cbn [load_docs] in H. apply bind_inv in H as (p1 & [e sp] & H1 & H).
  destruct (sim_pull _ _ _ _ Hs H1) as (q1 & Q1 & S1). cbn [fst] in H.
  assert (Hcase : (e = EStreamEnd /\ ret (on_event (e, sp) r) p1 = (p', Ok r')) \/
     (modify (fun p => set_anchors [] (p_anchor_id_count p) p) ;;;
          let* r := load_document (S fuel) (e, sp) r in
          if multi then load_docs fuel multi r else ret r)%m p1 = (p', Ok r')) by (destruct e; auto).
  clear H. destruct Hcase as [[-> H]|H].
  - inversion H; subst. exists [(EStreamEnd, sp)], q1. repeat split; auto.
    econstructor; [eassumption|constructor].
  - apply bind_inv in H as (p2 & [] & H2 & H). inversion H2; subst p2. fold (clear_anchors p1) in H.
    apply bind_inv in H as (p3 & r3 & H3 & H).
    unfold load_document in H3. cbn [fst] in H3. destruct e; try discriminate.
    apply bind_inv in H3 as (p4 & e4 & H4 & H3). apply bind_inv in H3 as (p5 & r5 & H5 & H3).
    apply bind_inv in H3 as (p6 & e6 & H6 & H3).
    destruct (sim_pull _ _ _ _ (sim_clear _ _ S1) H4) as (q4 & Q4 & S4).
    destruct (load_node_trace _ _ _ _ _ _ _ S4 H5) as (n5 & q5 & -> & S5 & T5).
    destruct (sim_pull _ _ _ _ S5 H6) as (q6 & Q6 & S6).
    destruct e6 as [[] sp6]; cbn [fst] in H3; try discriminate. inversion H3; subst p3 r3.
    assert (T : trace q ((EDocumentStart explicit, sp) :: e4 :: n5 ++ [(EDocumentEnd, sp6)]) q6).
    { econstructor; [eassumption|]. econstructor; [eassumption|]. eapply trace_app; [eassumption|].
      econstructor; [eassumption|constructor]. }
    unfold on_event in H. destruct multi.
    + destruct (IH _ _ _ _ _ S6 H) as (new & q' & -> & S7 & T7).
      eexists; exists q'. split; [|split; [exact S7|eapply trace_app; [exact T|exact T7]]].
      rewrite <- !app_assoc. cbn. rewrite <- !app_assoc. reflexivity.
    + inversion H; subst. eexists; exists q6. split; [|split; [exact S6|exact T]].
      rewrite <- !app_assoc. reflexivity.
Qed.

(** ** From traces to the iterator *)
Lemma impl_frame p q e : good p -> p_current p = None -> next_event_impl p = (q, Ok e) ->
  good q /\ p_current q = None /\ p_stream_end_emitted q = p_stream_end_emitted p.
Proof.
  intros Hg Hc H. destruct (next_event_impl_good p Hg) as [G _].
  destruct (next_event_impl_frame p Hg) as [F1 F2]. rewrite H in *. auto.
Qed.
Lemma trace_events l : forall p q n, trace p l q -> good p -> p_current p = None ->
  p_stream_end_emitted p = false ->
  (exists u, map fst l = u ++ [EStreamEnd] /\ ~ In EStreamEnd u) ->
  List.length l <= n -> events_of n p = map fst l.
Proof.
  induction l as [|[e sp] l IH]; intros p q n HT Hg Hc He (u & Hu & Hn) Hlen.
  { destruct u; discriminate. }
  inversion HT as [|? q1 ? ? ? H1 H2]; subst. destruct n as [|n]; [cbn in Hlen; lia|].
  destruct (impl_frame _ _ _ Hg Hc H1) as (G1 & C1 & E1). cbn [events_of].
  unfold next_event. rewrite He, H1.
  assert (Hcase : (e = EStreamEnd /\ l = []) \/ (e <> EStreamEnd /\ exists u', map fst l = u' ++ [EStreamEnd] /\ ~ In EStreamEnd u')).
  { destruct u as [|x u]; cbn in Hu; inversion Hu; subst.
    - left. split; [reflexivity|]. destruct l; [reflexivity|discriminate].
    - right. cbn in Hn. split; [intros ->; tauto|]. exists u; tauto. }
  destruct Hcase as [[-> ->]|[Hne Hu']].
  - cbn. rewrite events_ended by reflexivity. reflexivity.
  - assert (HI : events_of n q1 = map fst l) by (apply (IH q1 q n); auto; [congruence|cbn in Hlen; lia]).
    destruct e; try congruence; cbn; rewrite HI; reflexivity.
Qed.

Lemma stream_tail d : stream_events d -> exists u, d = u ++ [EStreamEnd] /\ ~ In EStreamEnd u.
Proof.
  intros (d' & Hd & ->). exists (EStreamStart :: d'). split; [reflexivity|].
  cbn. intros [X|X]; [discriminate|]. eapply no_stream_end_docs; eassumption.
Qed.

Theorem load_is_iteration fuel toks e mk keep p' r n :
  load fuel true (new_parser toks e mk keep) = (p', Ok r) ->
  List.length r <= n ->
  events_of n (new_parser toks e mk keep) = map fst r.
Proof.
  intros H Hn. pose proof (load_ok fuel true toks e mk keep) as HL. rewrite H in HL.
  destruct HL as (_ & tail & H1 & H2 & _). rewrite (H2 eq_refl), app_nil_r in H1.
  set (p0 := new_parser toks e mk keep) in *.
  assert (S0 : sim_p p0 p0) by (exists []; split; auto).
  unfold load in H. apply bind_inv in H as (p1 & [ev sp] & E1 & H).
  destruct (sim_pull _ _ _ _ S0 E1) as (q1 & Q1 & S1). cbn [fst] in H.
  destruct ev; try discriminate.
  destruct (load_docs_trace _ _ _ _ _ _ _ S1 H) as (new & q' & -> & S2 & T).
  eapply trace_events; try reflexivity; [|apply stream_tail; exact H1|exact Hn].
  econstructor; [exact Q1|exact T].
Qed.
