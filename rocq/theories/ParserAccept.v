(** [load] accepts every stream the iterator reads to its end when all aliases stay inside their
    documents: the converse of the simulation of ParserSim.v. *)
From Verif Require Import Base Tokens Parser ParserRun SpecEvents SpecLoad.
From Verif Require Import ParserProofs ParserStep ParserStates ParserTheorems ParserTerm ParserLoad ParserSim.
From Coq Require Import Lia String List.
Local Open Scope list_scope.

(** [q] is [p] with the anchors of earlier documents, whose numbers are below [start]. *)
Definition back (start : nat) (p q : parser) : Prop :=
  exists a, q = set_anchors a (p_anchor_id_count p) p /\ start <= p_anchor_id_count p /\
    forall nm id, map_get nm a = Some id ->
      id < p_anchor_id_count p /\ (start <= id -> map_get nm (p_anchors p) = Some id).
Definition back_sim (start : nat) {A} (bad : A -> Prop) (m : PM A) : Prop := forall p q, back start p q ->
  forall q' x, m q = (q', Ok x) -> bad x \/ exists p', m p = (p', Ok x) /\ back start p' q'.
Definition never {A} : A -> Prop := fun _ => False.

Lemma bs_bind {A B} start bad (m : PM A) (f : A -> PM B) :
  back_sim start never m -> (forall a, back_sim start bad (f a)) -> back_sim start bad (bind m f).
Proof.
  intros Hm Hf p q H q' x E. apply bind_inv in E as (q1 & a & E1 & E2).
  destruct (Hm p q H _ _ E1) as [[]|(p1 & P1 & B1)]. destruct (Hf a p1 q1 B1 _ _ E2) as [X|(p2 & P2 & B2)]; [auto|].
  right. exists p2. split; [|exact B2]. unfold bind. rewrite P1. exact P2.
Qed.
Lemma bs_ret {A} start bad (a : A) : back_sim start bad (ret a).
Proof. intros p q H q' x E. inversion E; subst. right. exists p. auto. Qed.
Lemma bs_fail {A} start bad e : back_sim start bad (@fail parser A e).
Proof. intros p q H q' x E. discriminate. Qed.
Lemma bs_panic {A} start bad : back_sim start bad (@panic parser A).
Proof. intros p q H q' x E. discriminate. Qed.
Lemma bs_modify start bad f : (forall p a c, f (set_anchors a c p) = set_anchors a c (f p)) ->
  (forall p, p_anchors (f p) = p_anchors p /\ p_anchor_id_count (f p) = p_anchor_id_count p) ->
  back_sim start bad (modify f).
Proof.
  intros Hf Ha p q (a & -> & H1 & H2) q' x E. inversion E; subst. right. eexists. split; [reflexivity|].
  destruct (Ha p) as [A1 A2]. exists a. rewrite Hf, A2, A1. auto.
Qed.
Lemma bs_skip start bad : back_sim start bad skip.
Proof. apply bs_modify; intros; split || idtac; reflexivity. Qed.
Lemma bs_goto start bad s : back_sim start bad (goto s).
Proof. apply bs_modify; intros; split || idtac; reflexivity. Qed.
Lemma bs_push start bad s : back_sim start bad (push_state s).
Proof. apply bs_modify; intros; split || idtac; reflexivity. Qed.
Lemma bs_tags start bad f : back_sim start bad (modify (set_tags f)).
Proof. apply bs_modify; intros; split || idtac; reflexivity. Qed.
Lemma bs_keep start bad : back_sim start bad (modify (fun p => if p_keep_tags p then p else set_tags [] p)).
Proof.
  apply bs_modify; intros p; [intros a c; cbn|]; destruct (p_keep_tags p); split || idtac; reflexivity.
Qed.
Lemma bs_peek start bad : back_sim start bad peek_token.
Proof.
  intros p q (a & -> & H1 & H2) q' x. unfold peek_token. cbn [p_token set_anchors].
  destruct (p_token p) as [t|]; [intros E; inversion E; subst; right; eexists; split; [reflexivity|]; exists a; auto|].
  unfold bind, scan_next_token. cbn [p_toks set_anchors].
  destruct (p_toks p); [discriminate|]. cbn. intros E; inversion E; subst. right. eexists. split; [reflexivity|].
  exists a; auto.
Qed.
Lemma bs_fetch start bad : back_sim start bad fetch_token.
Proof.
  intros p q (a & -> & H1 & H2) q' x. unfold fetch_token. cbn [p_token set_anchors].
  destruct (p_token p); [|discriminate]. intros E; inversion E; subst. right. eexists. split; [reflexivity|].
  exists a; auto.
Qed.
Lemma bs_pop start bad : back_sim start bad pop_state.
Proof.
  intros p q (a & -> & H1 & H2) q' x. unfold pop_state. cbn [p_states set_anchors].
  destruct (p_states p); [discriminate|]. intros E; inversion E; subst. right. eexists. split; [reflexivity|].
  exists a; auto.
Qed.
Lemma bs_resolve start bad sp h s : back_sim start bad (resolve_tag sp h s).
Proof.
  intros p q (a & -> & H1 & H2) q' x. unfold resolve_tag. cbn [p_tags set_anchors].
  intros E; inversion E; subst. right. eexists. split; [reflexivity|]. exists a; auto.
Qed.
Lemma bs_register start bad n : back_sim start bad (register_anchor n).
Proof.
  intros p q (a & -> & H1 & H2) q' x. cbn. intros E; inversion E; subst. right. eexists. split; [reflexivity|].
  eexists. split; [reflexivity|]. cbn [p_anchors set_anchors p_anchor_id_count]. split; [lia|].
  intros nm id. rewrite !map_get_insert. destruct (text_eqb nm n).
  - intros E'; inversion E'; subst. split; [lia|auto].
  - intros E'. destruct (H2 _ _ E'). split; [lia|auto].
Qed.

(** An alias to an earlier document. *)
Definition foreign (start : nat) (x : event * span) : Prop :=
  match fst x with EAlias id => id < start | _ => False end.
(** The only place where the table is read. *)
Lemma bs_lookup start name (f : nat -> PM (event * span)) e :
  (forall id, start <= id -> back_sim start (foreign start) (f id)) ->
  (forall id q q' x, f id q = (q', Ok x) -> fst x = EAlias id) ->
  back_sim start (foreign start)
      (let* o := gets (fun p => map_get name (p_anchors p)) in
       match o with None => fail e | Some id => f id end)%m.
Proof.
  intros Hf Hx p q Hs q' x. pose proof Hs as (a & Hq & H1 & H2). unfold bind, gets.
  subst q. cbn [p_anchors set_anchors]. destruct (map_get name a) as [id|] eqn:E; [|discriminate].
  intros EE. destruct (Nat.lt_ge_cases id start) as [L|L].
  - left. unfold foreign. rewrite (Hx _ _ _ _ EE). exact L.
  - destruct (H2 _ _ E) as [_ H3]. rewrite (H3 L). eapply Hf; eauto.
Qed.

Ltac bs1 :=
  match goal with
  | |- back_sim _ _ (bind (gets _) _) => apply bs_lookup; [intros|intros ? ? ? ? EE]
  | |- back_sim _ _ (bind _ _) => apply bs_bind; [|intros]
  | |- back_sim _ _ (ret _) => apply bs_ret
  | |- back_sim _ _ (perr _ _) => apply bs_fail
  | |- back_sim _ _ (fail _) => apply bs_fail
  | |- back_sim _ _ panic => apply bs_panic
  | |- back_sim _ _ skip => apply bs_skip
  | |- back_sim _ _ (goto _) => apply bs_goto
  | |- back_sim _ _ (push_state _) => apply bs_push
  | |- back_sim _ _ (modify (set_tags _)) => apply bs_tags
  | |- back_sim _ _ (modify (fun p => if p_keep_tags p then _ else _)) => apply bs_keep
  | |- back_sim _ _ peek_token => apply bs_peek
  | |- back_sim _ _ fetch_token => apply bs_fetch
  | |- back_sim _ _ pop_state => apply bs_pop
  | |- back_sim _ _ (resolve_tag _ _ _) => apply bs_resolve
  | |- back_sim _ _ (register_anchor _) => apply bs_register
  | |- back_sim _ _ (match k_type ?t with _ => _ end) => destruct (k_type t)
  | |- back_sim _ _ (if ?b then _ else _) => destruct b
  | |- back_sim _ _ (match ?x with (_, _) => _ end) => destruct x
  end.
Lemma bs_props start bad : back_sim start bad parse_properties.
Proof. unfold parse_properties; repeat bs1. Qed.
Lemma bs_content start b i a t : back_sim start (foreign start) (parse_content b i a t).
Proof. unfold parse_content; repeat (cbv zeta; bs1). Qed.
Lemma bs_node start b i : back_sim start (foreign start) (parse_node b i).
Proof.
  unfold parse_node. apply bs_bind; [apply bs_peek|intros tk].
  destruct (k_type tk); repeat first [apply bs_props | apply bs_content | bs1].
  all: inversion EE; reflexivity.
Qed.
Lemma bs_fuel start bad (f : nat -> PM unit) : (forall n, back_sim start bad (f n)) ->
  back_sim start bad (fun p => f (S (S (List.length (p_toks p)))) p : parser * out unit).
Proof.
  intros H p q Hs q' x. pose proof Hs as (a & E & _).
  assert (Et : p_toks q = p_toks p) by (rewrite E; reflexivity). rewrite Et. apply H, Hs.
Qed.
Lemma bs_directives_loop start bad n : forall b, back_sim start bad (process_directives_loop n b).
Proof.
  induction n as [|n IH]; intros b; cbn [process_directives_loop]; [intros p q H q' x E; discriminate|].
  repeat first [apply IH | bs1].
Qed.
Lemma bs_directives start bad : back_sim start bad process_directives.
Proof. apply (bs_fuel start bad (fun n => process_directives_loop n false)). intros; apply bs_directives_loop. Qed.
Lemma bs_doc_ends start bad n : back_sim start bad (skip_document_ends n).
Proof.
  induction n as [|n IH]; cbn [skip_document_ends]; [intros p q H q' x E; discriminate|].
  repeat first [apply IH | bs1].
Qed.
Lemma bs_explicit start : back_sim start (foreign start) explicit_document_start.
Proof. unfold explicit_document_start. repeat first [apply bs_directives | bs1]. Qed.
Lemma bs_machine start : back_sim start (foreign start) state_machine.
Proof.
  assert (H : forall f : PM (event * span), back_sim start (foreign start) f -> forall p q, back start p q ->
     forall q' x, f q = (q', Ok x) -> foreign start x \/ exists p', f p = (p', Ok x) /\ back start p' q')
    by (intros f Hf; exact Hf).
  intros p q Hs. pose proof Hs as (a & Hq & _). unfold state_machine.
  assert (Est : p_state q = p_state p) by (subst q; reflexivity). rewrite Est.
  destruct (p_state p); try (apply H; [|exact Hs]).
  - unfold stream_start; repeat bs1.
  - unfold document_start. apply bs_bind; [apply bs_fuel; intros; apply bs_doc_ends|intros].
    repeat first [apply bs_explicit | apply bs_directives | bs1].
  - unfold document_start. apply bs_bind; [apply bs_fuel; intros; apply bs_doc_ends|intros].
    repeat first [apply bs_explicit | apply bs_directives | bs1].
  - unfold document_content; repeat first [apply bs_node | bs1].
  - unfold document_end; repeat first [apply bs_node | cbv zeta; bs1].
  - apply bs_node.
  - unfold block_sequence_entry; repeat first [apply bs_node | bs1].
  - unfold block_sequence_entry; repeat first [apply bs_node | bs1].
  - unfold indentless_sequence_entry; repeat first [apply bs_node | bs1].
  - unfold block_mapping_key; repeat first [apply bs_node | bs1].
  - unfold block_mapping_key; repeat first [apply bs_node | bs1].
  - unfold block_mapping_value; repeat first [apply bs_node | cbv zeta; bs1].
  - unfold flow_sequence_entry; repeat first [apply bs_node | cbv zeta; bs1].
  - unfold flow_sequence_entry; repeat first [apply bs_node | cbv zeta; bs1].
  - unfold flow_sequence_entry_mapping_key; repeat first [apply bs_node | bs1].
  - unfold flow_sequence_entry_mapping_value; repeat first [apply bs_node | cbv zeta; bs1].
  - unfold flow_sequence_entry_mapping_end; repeat bs1.
  - unfold flow_mapping_key, flow_mapping_close; repeat first [apply bs_node | bs1].
  - unfold flow_mapping_key, flow_mapping_close; repeat first [apply bs_node | bs1].
  - unfold flow_mapping_value; repeat first [apply bs_node | bs1].
  - unfold flow_mapping_value; repeat first [apply bs_node | bs1].
  - intros q' x E; discriminate.
  - unfold flow_mapping_key, flow_mapping_close; repeat first [apply bs_node | bs1].
  - unfold block_mapping_value; repeat first [apply bs_node | cbv zeta; bs1].
Qed.
Lemma bs_impl start : back_sim start (foreign start) next_event_impl.
Proof.
  intros p q Hs. pose proof Hs as (a & Hq & Hc & Ht). unfold next_event_impl.
  assert (Ec : p_current q = p_current p) by (subst q; reflexivity). rewrite Ec.
  destruct (p_current p) as [v|].
  - intros q' x E. inversion E; subst. right. eexists. split; [reflexivity|]. exists a; auto.
  - unfold parse. assert (Est : p_state q = p_state p) by (subst q; reflexivity). rewrite Est.
    destruct (p_state p) eqn:E; try (apply bs_machine; exact Hs).
    intros q' x EE. inversion EE; subst. right. eexists. split; [reflexivity|]. exact Hs.
Qed.

(** ** Following the events of the iterator *)
Lemma impl_effect q q' e sp : linv q -> next_event_impl q = (q', Ok (e, sp)) -> e <> EStreamEnd ->
  linv q' /\ exists cs, eats q q' cs /\ anchor_effect e cs (p_anchors q) (p_anchor_id_count q).
Proof.
  intros Hl H Hne. destruct (pst_end_dec (p_state q)) as [E|E].
  { exfalso. destruct Hl as [_ _ Hc _]. unfold next_event_impl in H. rewrite Hc in H. unfold parse in H.
    rewrite E in H. inversion H; congruence. }
  destruct Hl as [Hg Hc Hcur Hcnt]. unfold next_event_impl in H. rewrite Hcur in H.
  assert (Hp : parse q = state_machine q) by (unfold parse; destruct (p_state q); congruence).
  rewrite Hp in H. pose proof (state_machine_ok q Hg E) as HO. unfold wp in HO. rewrite H in HO.
  cbn [fst snd] in HO. destruct HO as ((F1 & _) & Hcfg & Hca & HL & He).
  destruct (He Hc) as (cs & H1 & H2).
  split; [split; [exact Hcfg|exact Hca|congruence|pose proof (eats_count _ _ _ H1); lia]|].
  exists cs; auto.
Qed.

(** Events up to the end of the stream. *)
Fixpoint to_end (l : list (event * span)) : Prop :=
  match l with
  | [] => False
  | (e, _) :: r => (e = EStreamEnd /\ r = []) \/ (e <> EStreamEnd /\ to_end r)
  end.
(** [p] has the events [l] ahead, and they name only anchors of this document. *)
Definition ahead (start : nat) (p : parser) (l : list (event * span)) : Prop :=
  exists q qe ids, back start p q /\ linv q /\ trace q l qe /\ to_end l /\
    (forall i, In i ids -> start <= i) /\ aliases_local ids (map fst l).

Lemma local_not_foreign start ids e sp l : (forall i, In i ids -> start <= i) ->
  aliases_local ids (map fst ((e, sp) :: l)) -> ~ foreign start (e, sp).
Proof.
  intros Hi H. unfold foreign. cbn [fst map] in *. destruct e; auto. cbn [aliases_local] in H.
  destruct H as [H _]. apply Hi in H. lia.
Qed.
Lemma back_clear start p q : back start p q -> back (p_anchor_id_count p) (clear_anchors p) q.
Proof.
  intros (a & -> & H1 & H2). exists a. split; [reflexivity|]. cbn [clear_anchors p_anchor_id_count set_anchors].
  split; [lia|]. intros nm id E. destruct (H2 _ _ E). split; [exact H|]. lia.
Qed.

Lemma ahead_pull start p l : ahead start p l ->
  exists e sp l' p', l = (e, sp) :: l' /\ next_event_impl p = (p', Ok (e, sp)) /\
    (e <> EStreamEnd -> (forall b, e <> EDocumentStart b) -> ahead start p' l') /\
    (forall b, e = EDocumentStart b -> ahead (p_anchor_id_count p') (clear_anchors p') l').
Proof.
  intros (q & qe & ids & HB & HL & HT & HE & HI & HA). destruct l as [|[e sp] l]; [destruct HE|].
  inversion HT as [|? q1 ? ? ? H1 H2]; subst.
  destruct (bs_impl start p q HB _ _ H1) as [F|(p' & P & B)].
  { exfalso. exact (local_not_foreign _ _ _ _ _ HI HA F). }
  exists e, sp, l, p'. split; [reflexivity|]. split; [exact P|]. cbn [to_end] in HE.
  split.
  - intros N1 N2. destruct HE as [[X _]|[_ HE]]; [congruence|].
    destruct (impl_effect _ _ _ _ HL H1 N1) as (L1 & cs & C1 & C2).
    assert (Hc : p_anchor_id_count q = p_anchor_id_count p) by (destruct HB as (a & -> & _); reflexivity).
    assert (Hs : start <= p_anchor_id_count p) by (destruct HB as (a & _ & X & _); exact X).
    exists q1, qe, (ids_after ids [e]). split; [exact B|]. split; [exact L1|]. split; [exact H2|]. split; [exact HE|].
    change (map fst ((e, sp) :: l)) with ([e] ++ map fst l) in HA. rewrite local_app in HA.
    split; [|apply HA]. intros i.
    assert (Hcase : ids_after ids [e] = ids \/
       (ids_after ids [e] = anchored_ids [e] ++ ids /\ (event_anchor e = 0 \/ event_anchor e = p_anchor_id_count q))).
    { destruct e; cbn [anchor_effect] in C2; try (left; reflexivity); try (exfalso; eapply N2; reflexivity);
        right; (split; [reflexivity|]); destruct C2 as (_ & [[X _]|[X _]]); auto. }
    destruct Hcase as [->|[-> X]]; [apply HI|]. intros Hin. apply in_app_iff in Hin. destruct Hin as [Hin|Hin]; [|auto].
    cbn [anchored_ids] in Hin. destruct X as [X|X]; rewrite X in Hin; cbn [Nat.eqb] in Hin; [destruct Hin|].
    destruct (Nat.eqb (p_anchor_id_count q) 0); cbn [In] in Hin; [tauto|]. destruct Hin as [<-|[]]. lia.
  - intros b ->. destruct HE as [[X _]|[_ HE]]; [congruence|].
    destruct (impl_effect _ _ _ _ HL H1 ltac:(discriminate)) as (L1 & cs & C1 & C2).
    exists q1, qe, []. split; [exact (back_clear _ _ _ B)|]. split; [exact L1|]. split; [exact H2|]. split; [exact HE|].
    split; [intros i []|]. exact HA.
Qed.

Lemma load_node_follows start fuel : forall m r p l, ahead start p l ->
  match load_node_f fuel m r p with
  | (p', Ok _) => exists l', ahead start p' l'
  | (_, Err _) => False
  | _ => True
  end.
Proof.
  induction fuel as [|fuel IH]; intros m r p l H; [exact I|]. cbn [load_node_f]. destruct m as [[e sp]| |].
  - cbn [fst]. destruct e; try exact I; try (exists l; exact H); eapply IH; exact H.
  - destruct (ahead_pull _ _ _ H) as (e & sp & l1 & p1 & -> & P1 & A1 & _).
    unfold bind at 1. rewrite P1. cbn [fst].
    assert (Hgo : e <> EStreamEnd -> (forall b, e <> EDocumentStart b) ->
      match (let* r := load_node_f fuel (LNode (e, sp)) r in
              let* e2 := next_event_impl in
              let* r := load_node_f fuel (LNode e2) r in
              load_node_f fuel LMapping r)%m p1 with
      | (p', Ok _) => exists l', ahead start p' l'
      | (_, Err _) => False
      | _ => True
      end).
    { intros N1 N2. unfold bind at 1. specialize (IH (LNode (e, sp)) r p1 l1 (A1 N1 N2)) as I1.
      destruct (load_node_f fuel (LNode (e, sp)) r p1) as [p2 [r2|er| | |]]; auto. destruct I1 as [l2 A2].
      destruct (ahead_pull _ _ _ A2) as (e3 & sp3 & l3 & p3 & -> & P3 & A3 & _).
      unfold bind at 1. rewrite P3. unfold bind at 1.
      assert (Hstop : (e3 = EStreamEnd \/ exists b, e3 = EDocumentStart b) \/
         (e3 <> EStreamEnd /\ forall b, e3 <> EDocumentStart b)).
      { destruct e3; try (left; eauto; fail); right; split; discriminate. }
      destruct Hstop as [Hstop|[N3 N4]].
      { destruct fuel; [exact I|]. cbn [load_node_f]. destruct Hstop as [->|[b ->]]; exact I. }
      specialize (IH (LNode (e3, sp3)) r2 p3 l3 (A3 N3 N4)) as I3.
      destruct (load_node_f fuel (LNode (e3, sp3)) r2 p3) as [p4 [r4|er| | |]]; auto. destruct I3 as [l4 A4].
      eapply IH; exact A4. }
    assert (Hstop : (e = EStreamEnd \/ exists b, e = EDocumentStart b) \/
         (e <> EStreamEnd /\ forall b, e <> EDocumentStart b)).
    { destruct e; try (left; eauto; fail); right; split; discriminate. }
    destruct Hstop as [Hstop|[N3 N4]].
    { assert (X : snd (load_node_f fuel (LNode (e, sp)) r p1) = Fuel \/ snd (load_node_f fuel (LNode (e, sp)) r p1) = Panic).
      { destruct fuel; [left; reflexivity|right]. cbn [load_node_f]. destruct Hstop as [->|[b ->]]; reflexivity. }
      destruct Hstop as [->|[b ->]]; unfold bind at 1;
        destruct (load_node_f fuel _ r p1) as [? [| | | |]]; destruct X; try discriminate; exact I. }
    destruct e; try exact (Hgo N3 N4). exists l1. apply A1; discriminate.
  - destruct (ahead_pull _ _ _ H) as (e & sp & l1 & p1 & -> & P1 & A1 & _).
    unfold bind at 1. rewrite P1. cbn [fst].
    assert (Hgo : e <> EStreamEnd -> (forall b, e <> EDocumentStart b) ->
      match (let* r := load_node_f fuel (LNode (e, sp)) r in
              load_node_f fuel LSequence r)%m p1 with
      | (p', Ok _) => exists l', ahead start p' l'
      | (_, Err _) => False
      | _ => True
      end).
    { intros N1 N2. unfold bind at 1. specialize (IH (LNode (e, sp)) r p1 l1 (A1 N1 N2)) as I1.
      destruct (load_node_f fuel (LNode (e, sp)) r p1) as [p2 [r2|er| | |]]; auto. destruct I1 as [l2 A2].
      eapply IH; exact A2. }
    assert (Hstop : (e = EStreamEnd \/ exists b, e = EDocumentStart b) \/
         (e <> EStreamEnd /\ forall b, e <> EDocumentStart b)).
    { destruct e; try (left; eauto; fail); right; split; discriminate. }
    destruct Hstop as [Hstop|[N3 N4]].
    { assert (X : snd (load_node_f fuel (LNode (e, sp)) r p1) = Fuel \/ snd (load_node_f fuel (LNode (e, sp)) r p1) = Panic).
      { destruct fuel; [left; reflexivity|right]. cbn [load_node_f]. destruct Hstop as [->|[b ->]]; reflexivity. }
      destruct Hstop as [->|[b ->]]; unfold bind at 1;
        destruct (load_node_f fuel _ r p1) as [? [| | | |]]; destruct X; try discriminate; exact I. }
    destruct e; try exact (Hgo N3 N4). exists l1. apply A1; discriminate.
Qed.

Lemma load_document_follows fuel b sp r start p l : ahead start p l ->
  match load_document fuel (EDocumentStart b, sp) r p with
  | (p', Ok _) => exists l', ahead start p' l'
  | (_, Err _) => False
  | _ => True
  end.
Proof.
  intros H. unfold load_document. cbn [fst].
  destruct (ahead_pull _ _ _ H) as (e1 & sp1 & l1 & p1 & -> & P1 & A1 & _).
  unfold bind at 1. rewrite P1. unfold bind at 1.
  assert (Hstop : (e1 = EStreamEnd \/ exists b, e1 = EDocumentStart b) \/
         (e1 <> EStreamEnd /\ forall b, e1 <> EDocumentStart b)).
  { destruct e1; try (left; eauto; fail); right; split; discriminate. }
  destruct Hstop as [Hstop|[N3 N4]].
  { destruct fuel; [exact I|]. cbn [load_node_f]. destruct Hstop as [->|[b' ->]]; exact I. }
  match goal with |- context [load_node_f fuel (LNode (e1, sp1)) ?r p1] =>
    pose proof (load_node_follows start fuel (LNode (e1, sp1)) r p1 l1 (A1 N3 N4)) as H2;
    destruct (load_node_f fuel (LNode (e1, sp1)) r p1) as [p2 [r2|er| | |]]; auto end.
  destruct H2 as [l2 A2].
  destruct (ahead_pull _ _ _ A2) as (e3 & sp3 & l3 & p3 & -> & P3 & A3 & _).
  unfold bind at 1. rewrite P3. cbn [fst]. destruct e3; try exact I. exists l3. apply A3; discriminate.
Qed.

Lemma load_docs_follows multi fuel : forall r start p l, linv p -> within p docs_lang -> ahead start p l ->
  forall er, snd (load_docs fuel multi r p) <> Err er.
Proof.
  induction fuel as [|fuel IH]; intros r start p l Hp Hw HA er; [discriminate|].
  cbn [load_docs]. unfold bind at 1. pose proof (impl_step p _ Hp Hw docs_nonempty) as HS.
  destruct (ahead_pull _ _ _ HA) as (e & sp & l1 & p1 & -> & P1 & _ & A1). rewrite P1 in *.
  destruct HS as (Hp1 & HL1 & _).
  destruct (L_inhab _ _ (l_good _ Hp1)) as [w0 Hw0].
  destruct (docs_inv _ _ (Hw _ (HL1 w0 Hw0))) as [[-> ->]|(b & -> & _)]; cbn [fst]; [discriminate|].
  specialize (A1 b eq_refl).
  assert (Hw1 : within p1 (node_k (ev_k EDocumentEnd docs_lang))).
  { intros w X. destruct (docs_inv _ _ (Hw _ (HL1 w X))) as [[Y _]|(b' & _ & Y)]; [discriminate|exact Y]. }
  unfold bind at 1, modify. fold (clear_anchors p1).
  pose proof (load_document_ok (S fuel) b sp r (clear_anchors p1) (clear_linv _ Hp1) Hw1) as H2.
  pose proof (load_document_follows (S fuel) b sp r _ _ _ A1) as H3.
  unfold bind at 1.
  destruct (load_document (S fuel) (EDocumentStart b, sp) r (clear_anchors p1)) as [p2 [r2|er'| | |]];
    try (cbn; discriminate); [|contradiction].
  destruct H3 as [l3 A3]. destruct H2 as (Hp2 & Hw2 & _); [intros ? ? Y; discriminate|].
  destruct multi; [|discriminate]. eapply IH; eauto.
Qed.

(** The events of the iterator, as a chain. *)
Lemma events_trace n : forall p, linv p -> p_stream_end_emitted p = false ->
  In EStreamEnd (events_of n p) -> exists l q, trace p l q /\ to_end l /\ map fst l = events_of n p.
Proof.
  induction n as [|n IH]; intros p Hl He Hin; [destruct Hin|]. cbn [events_of] in Hin |- *.
  unfold next_event in Hin |- *. rewrite He in Hin |- *.
  destruct (next_event_impl p) as [p1 [[e sp]|er| | |]] eqn:E; try destruct Hin.
  assert (Hcase : e = EStreamEnd \/ e <> EStreamEnd) by (destruct e; auto; right; discriminate).
  destruct Hcase as [->|Hne].
  - exists [(EStreamEnd, sp)], p1. split; [econstructor; [exact E|constructor]|]. split; [left; auto|].
    rewrite events_ended by reflexivity. reflexivity.
  - destruct (impl_effect _ _ _ _ Hl E Hne) as [Hl1 _].
    destruct (impl_frame _ _ _ (l_good _ Hl) (l_current _ Hl) E) as (_ & _ & F). rewrite He in F.
    assert (Hin' : In EStreamEnd (events_of n p1)).
    { destruct e; try congruence; destruct Hin as [X|X]; try discriminate; exact X. }
    destruct (IH _ Hl1 F Hin') as (l & q & T & TE & M).
    exists ((e, sp) :: l), q. split; [econstructor; eassumption|]. split; [right; auto|].
    cbn [map fst]. rewrite M. destruct e; try reflexivity. congruence.
Qed.

Theorem load_accepts fuel toks e mk keep n :
  let p0 := new_parser toks e mk keep in
  In EStreamEnd (events_of n p0) -> aliases_local [] (events_of n p0) ->
  16 * List.length toks + 1 <= fuel ->
  exists p' r, load fuel true p0 = (p', Ok r) /\ map fst r = events_of n p0.
Proof.
  intros p0 Hin Hal Hf.
  assert (Hp0 : linv p0) by (split; cbn; auto; reflexivity).
  destruct (events_trace n p0 Hp0 eq_refl Hin) as (l & q & T & TE & M).
  assert (HA : ahead 0 p0 l).
  { exists p0, q, []. split; [exists []; split; [reflexivity|split; [cbn; lia|intros ? ? X; discriminate]]|].
    split; [exact Hp0|]. split; [exact T|]. split; [exact TE|]. split; [intros i []|]. rewrite M. exact Hal. }
  pose proof (load_ok fuel true toks e mk keep) as HL. fold p0 in HL.
  assert (HN : forall er, snd (load fuel true p0) <> Err er).
  { assert (Hw0 : within p0 stream_events) by (intros w Hw; apply (Lp_new toks e mk keep), Hw).
    assert (Hne : ~ stream_events []) by (intros (d & _ & X); discriminate).
    intros er. unfold load. unfold bind at 1. pose proof (impl_step p0 _ Hp0 Hw0 Hne) as HS.
    destruct (ahead_pull _ _ _ HA) as (e1 & sp1 & l1 & p1 & -> & P1 & A1 & _). rewrite P1 in *.
    destruct HS as (Hp1 & HL1 & _).
    destruct (L_inhab _ _ (l_good _ Hp1)) as [w1 Hw1].
    destruct (Hw0 _ (HL1 _ Hw1)) as (d & _ & X). inversion X; subst e1. cbn [fst].
    assert (Hw : within p1 docs_lang).
    { intros w Y. destruct (Hw0 _ (HL1 _ Y)) as (d' & Hd' & Z). inversion Z. exists d'; auto. }
    eapply load_docs_follows; eauto. apply A1; discriminate. }
  destruct (load fuel true p0) as [p' [r|er| | |]] eqn:E; try contradiction; try lia;
    [|exfalso; exact (HN er eq_refl)].
  exists p', r. split; [reflexivity|].
  pose proof (load_is_iteration fuel toks e mk keep p' r (n + List.length r) E ltac:(lia)) as H1.
  fold p0 in H1. rewrite <- H1, <- M.
  assert (Hlen : List.length (events_of n p0) <= n).
  { clear. generalize p0. induction n as [|n IH]; intros p; cbn [events_of List.length]; [lia|].
    destruct (next_event p) as [p1 [[[x sp]|er| | |]|]]; cbn [List.length]; try lia. specialize (IH p1). lia. }
  assert (HU : exists u, map fst l = u ++ [EStreamEnd] /\ ~ In EStreamEnd u).
  { clear -TE. induction l as [|[x sp] l IH]; [destruct TE|]. destruct TE as [[-> ->]|[Hne TE]].
    + exists []. split; [reflexivity|intros []].
    + destruct (IH TE) as (u & U1 & U2). exists (x :: u). cbn [map fst]. rewrite U1. split; [reflexivity|].
      intros [X|X]; auto. }
  rewrite <- M, map_length in Hlen.
  apply (trace_events l p0 q); auto; [exact (l_good _ Hp0)|lia].
Qed.

Theorem load_accepts_iff fuel toks e mk keep : 16 * List.length toks + 1 <= fuel ->
  let p0 := new_parser toks e mk keep in
  (exists p' r, load fuel true p0 = (p', Ok r)) <->
  (exists n, In EStreamEnd (events_of n p0) /\ aliases_local [] (events_of n p0)).
Proof.
  intros F p0. split.
  - intros (p' & r & E). exists (List.length r).
    pose proof (load_is_iteration fuel toks e mk keep p' r (List.length r) E (le_n _)) as X0. fold p0 in X0. rewrite X0.
    pose proof (load_ok fuel true toks e mk keep) as HL. fold p0 in HL. rewrite E in HL.
    destruct HL as (A & tail & (d & _ & X) & T & _). rewrite (T eq_refl), app_nil_r in X. rewrite X in *.
    split; [|exact A]. right. apply in_app_iff. right. now left.
  - intros (n & I & A). destruct (load_accepts fuel toks e mk keep n I A F) as (p' & r & E & _). eauto.
Qed.
