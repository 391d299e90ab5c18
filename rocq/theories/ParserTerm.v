(** The parser makes progress: a potential that every delivered event decreases. *)
From Verif Require Import Base Tokens Parser ParserRun SpecEvents ParserProofs ParserStep ParserStates ParserTheorems.
From Coq Require Import Lia String List.
Local Open Scope list_scope.

Definition ok_post {A} (m : PM A) (p : parser) (Q : parser -> A -> Prop) : Prop :=
  match m p with (p', Ok a) => Q p' a | _ => True end.

Lemma ok_bind {A B} (m : PM A) (k : A -> PM B) p Q :
  ok_post m p (fun p' a => ok_post (k a) p' Q) -> ok_post (bind m k) p Q.
Proof. unfold ok_post, bind. destruct (m p) as [p' [a|e| | |]]; auto. Qed.
Lemma ok_conseq {A} (m : PM A) p (Q Q' : parser -> A -> Prop) :
  ok_post m p Q -> (forall p' a, Q p' a -> Q' p' a) -> ok_post m p Q'.
Proof. unfold ok_post. destruct (m p) as [p' [a|e| | |]]; auto. Qed.
Lemma ok_peek p (Q : _ -> _ -> Prop) : (forall t r, view p = t :: r -> Q (cached t r p) t) -> ok_post peek_token p Q.
Proof.
  destruct p as [toks er mk sts st tk cur an cnt tags ee keep].
  unfold ok_post, peek_token, view, cached; cbn. destruct tk as [t|]; cbn.
  - intros H. apply (H t toks eq_refl).
  - destruct toks as [|t r]; cbn; intros H; [exact I|]. apply (H t r eq_refl).
Qed.
Lemma ok_fetch p t (Q : _ -> _ -> Prop) : p_token p = Some t -> Q (set_token None p) t -> ok_post fetch_token p Q.
Proof. unfold ok_post, fetch_token. intros ->; auto. Qed.
Lemma ok_pop p (Q : _ -> _ -> Prop) : (forall s r, p_states p = s :: r -> Q (set_states r (set_state s p)) tt) ->
  ok_post pop_state p Q.
Proof. unfold ok_post, pop_state. destruct (p_states p); auto. Qed.
Lemma ok_resolve sp h s p (Q : _ -> _ -> Prop) : (forall t, Q p t) -> ok_post (resolve_tag sp h s) p Q.
Proof. unfold ok_post, resolve_tag. intros H. destruct (resolve_tag_in _ _ _ _); auto. Qed.
Lemma ok_perr {A} sp m p (Q : parser -> A -> Prop) : ok_post (perr sp m) p Q.
Proof. exact I. Qed.

Lemma ok_ret {A} (a : A) p (Q : _ -> _ -> Prop) : Q p a -> ok_post (ret a) p Q.
Proof. auto. Qed.
Lemma ok_modify f p (Q : _ -> _ -> Prop) : Q (f p) tt -> ok_post (modify f) p Q.
Proof. auto. Qed.
Lemma ok_gets {A} (f : parser -> A) p (Q : _ -> _ -> Prop) : Q p (f p) -> ok_post (gets f) p Q.
Proof. auto. Qed.
Lemma ok_register n p (Q : _ -> _ -> Prop) :
  Q (set_anchors (map_insert n (p_anchor_id_count p) (p_anchors p)) (S (p_anchor_id_count p)) p)
    (p_anchor_id_count p) -> ok_post (register_anchor n) p Q.
Proof. auto. Qed.

(** Largest weight of a state. *)
Definition wmax (s : pst) : nat :=
  match s with
  | StStreamStart => 0 | StImplicitDocumentStart => 5 | StDocumentStart => 0
  | StDocumentContent => 3 | StDocumentEnd => 1 | StBlockNode => 3
  | StBlockSequenceFirstEntry => 2 | StBlockSequenceEntry => 0 | StIndentlessSequenceEntry => 2
  | StBlockMappingFirstKey => 2 | StBlockMappingKey => 1 | StBlockMappingValue => 2
  | StFlowSequenceFirstEntry => 2 | StFlowSequenceEntry => 0 | StFlowSequenceEntryMappingKey => 5
  | StFlowSequenceEntryMappingValue => 2 | StFlowSequenceEntryMappingEnd _ => 1
  | StFlowMappingFirstKey => 2 | StFlowMappingKey => 0 | StFlowMappingValue => 1
  | StFlowMappingEmptyValue => 1 | StEnd => 0 | StFlowMappingFirstKeyCont => 4
  | StBlockMappingValueCont => 4
  end.
(** Weight in front of the remaining tokens [v]. *)
Definition wcur (s : pst) (v : list token) : nat :=
  match s, v with
  | StBlockMappingValue, t :: _ => match k_type t with TValue => 0 | _ => 2 end
  | _, _ => wmax s
  end.
Lemma wcur_max s v : wcur s v <= wmax s.
Proof. destruct s, v as [|t v]; cbn; try lia. destruct (k_type t); lia. Qed.

Fixpoint wstack (l : list pst) : nat := match l with [] => 0 | s :: r => wmax s + wstack r end.
Definition potential (p : parser) : nat :=
  8 * List.length (view p) + wcur (p_state p) (view p) + wstack (p_states p).

Ltac ok1 :=
  match goal with
  | |- ok_post (bind _ _) _ _ => apply ok_bind
  | |- ok_post peek_token _ _ =>
      let t := fresh "t" in let r := fresh "r" in let H := fresh "Hv" in apply ok_peek; intros t r H
  | |- ok_post pop_state _ _ =>
      let s := fresh "s" in let r := fresh "rs" in let H := fresh "Hst" in apply ok_pop; intros s r H
  | |- ok_post fetch_token _ _ => eapply ok_fetch; [reflexivity|]
  | |- ok_post (resolve_tag _ _ _) _ _ => apply ok_resolve; intros
  | |- ok_post (perr _ _) _ _ => apply ok_perr
  | |- ok_post panic _ _ => exact I
  | |- ok_post (ret _) _ _ => apply ok_ret
  | |- ok_post (goto _) _ _ => apply ok_modify
  | |- ok_post (push_state _) _ _ => apply ok_modify
  | |- ok_post (modify _) _ _ => apply ok_modify
  | |- ok_post skip _ _ => apply ok_modify
  | |- ok_post (register_anchor _) _ _ => apply ok_register
  | |- ok_post (gets _) _ _ => apply ok_gets
  | |- ok_post (match k_type ?t with _ => _ end) _ _ => let E := fresh "Et" in destruct (k_type t) eqn:E
  | |- ok_post (if ?b then _ else _) _ _ => let E := fresh "Eb" in destruct b eqn:E
  end.

Lemma parse_properties_len p : ok_post parse_properties p (fun p' x =>
  p_states p' = p_states p /\
  List.length (view p') <= List.length (view p) /\
  (0 < fst x \/ snd x <> None -> List.length (view p') < List.length (view p))).
Proof.
  unfold parse_properties. ok1. ok1. rewrite Hv.
  assert (H0 : ok_post (ret (0, None)) (cached t r p) (fun p' (x : nat * option tag) =>
    p_states p' = p_states p /\ List.length (view p') <= List.length (t :: r) /\
    (0 < fst x \/ snd x <> None -> List.length (view p') < List.length (t :: r)))).
  { split; [reflexivity|]. split; [cbn; lia|]. cbn. intros [H|H]; [lia|congruence]. }
  destruct (k_type t) eqn:Et; try exact H0; clear H0.
  - ok1. ok1. rewrite Et. ok1. ok1. ok1. ok1.
    change (view _) with r in Hv0. subst r.
    assert (H0 : forall a, ok_post (ret (a, None)) (cached t0 r0 (set_anchors
       (map_insert name (p_anchor_id_count (set_token None (cached t (t0 :: r0) p)))
            (p_anchors (set_token None (cached t (t0 :: r0) p))))
         (S (p_anchor_id_count (set_token None (cached t (t0 :: r0) p))))
         (set_token None (cached t (t0 :: r0) p)))) (fun p' (x : nat * option tag) =>
      p_states p' = p_states p /\ List.length (view p') <= List.length (t :: t0 :: r0) /\
      (0 < fst x \/ snd x <> None -> List.length (view p') < List.length (t :: t0 :: r0)))).
    { intros a. split; [reflexivity|]. split; cbn; lia. }
    destruct (k_type t0) eqn:Et0; try apply H0. clear H0.
    ok1. ok1. rewrite Et0. ok1. ok1. ok1. split; [reflexivity|]. split; cbn; lia.
  - ok1. ok1. rewrite Et. ok1. ok1. ok1. ok1.
    change (view _) with r in Hv0. subst r.
    assert (H0 : forall a, ok_post (ret (0, Some a)) (cached t1 r0 (set_token None (cached t (t1 :: r0) p)))
     (fun p' (x : nat * option tag) =>
      p_states p' = p_states p /\ List.length (view p') <= List.length (t :: t1 :: r0) /\
      (0 < fst x \/ snd x <> None -> List.length (view p') < List.length (t :: t1 :: r0)))).
    { intros a. split; [reflexivity|]. split; cbn; lia. }
    destruct (k_type t1) eqn:Et0; try apply H0. clear H0.
    ok1. ok1. rewrite Et0. ok1. ok1. ok1. split; [reflexivity|]. split; cbn; lia.
Qed.

Lemma view_of p l : view p = l ->
  potential p = 8 * List.length l + wcur (p_state p) l + wstack (p_states p).
Proof. intros <-; reflexivity. Qed.

(** Reading a node costs nothing but lets the potential grow by at most the weight of a
    collection that was just opened. *)
Lemma parse_node_pot b i p : ok_post (parse_node b i) p (fun p' _ =>
  potential p' <= 8 * List.length (view p) + wstack (p_states p) + 2).
Proof.
  unfold parse_node. ok1. ok1.
  assert (Hp : ok_post (bind parse_properties (fun x => let (a, t) := x in parse_content b i a t))
    (cached t r p) (fun p' _ => potential p' <= 8 * List.length (view p) + wstack (p_states p) + 2)).
  { ok1. eapply ok_conseq; [apply parse_properties_len|]. intros q [a tg] (H1 & H2 & H3).
    cbn [fst snd] in H3. change (view (cached t r p)) with (t :: r) in *. rewrite <- Hv in *.
    change (p_states (cached t r p)) with (p_states p) in *. rewrite <- H1.
    unfold parse_content. ok1. ok1.
    assert (Ho : ok_post (if is_some tg || Nat.ltb 0 a
      then bind pop_state (fun _ => ret (EScalar (empty_scalar_with_anchor a tg), k_span t0))
      else perr (k_span t0) "while parsing a node, did not find expected node content")
      (cached t0 r0 q) (fun p' _ => potential p' <=
        8 * List.length (view p) + wstack (p_states q) + 2)).
    { ok1; [|exact I]. ok1. ok1. ok1. cbn in Hst.
      rewrite (view_of _ (view q)) by (rewrite Hv0; reflexivity).
      cbn [p_state p_states set_state set_states]. rewrite Hst.
      pose proof (wcur_max s (view q)). cbn [wstack].
      assert (H0 : 0 < a \/ tg <> None).
      { destruct tg; [right; discriminate|left]. destruct a; [discriminate Eb|lia]. }
      specialize (H3 H0). lia. }
    destruct (k_type t0) eqn:Et0; try exact Ho; try (destruct b); try (destruct i); try exact Ho;
      try (ok1; ok1; ok1; rewrite (view_of _ (view q)) by (rewrite Hv0; reflexivity);
           cbn [p_state p_states set_state set_states cached set_token set_toks wcur wmax]; lia).
    all: ok1; ok1; ok1; ok1; rewrite Et0; ok1; cbn in Hst.
    all: rewrite (view_of _ r0) by reflexivity; cbn [p_state p_states set_state set_states set_token];
         rewrite Hst; rewrite Hv0 in H2; cbn [List.length] in H2.
    all: pose proof (wcur_max s r0); cbn [wstack]; lia. }
  destruct (k_type t) eqn:Et; try exact Hp. clear Hp.
  ok1. ok1. ok1. ok1. rewrite Et. ok1. ok1. destruct (map_get _ _); [|exact I].
  ok1. rewrite (view_of _ r) by reflexivity. rewrite Hv. cbn in Hst.
  cbn [p_state p_states set_state set_states set_token List.length]. rewrite Hst. cbn [wstack].
  pose proof (wcur_max s r). lia.
Qed.

(** ** Every state *)
Definition smaller (p : parser) : parser -> event * span -> Prop :=
  fun p' x => fst x = EStreamEnd \/ potential p' < potential p.

(** [q] came out of [p] by reading [n] tokens. *)
Definition at_least (n : nat) (p q : parser) : Prop :=
  n + List.length (view q) <= List.length (view p) /\ p_states q = p_states p.

Lemma a_peek n p q t r : at_least n p q -> view q = t :: r -> at_least n p (cached t r q).
Proof. intros [H1 H2] Hv. split; [|exact H2]. change (view (cached t r q)) with (t :: r). congruence. Qed.
Lemma a_skip n p q t : at_least n p q -> p_token q = Some t -> at_least (S n) p (set_token None q).
Proof.
  intros [H1 H2] Ht. split; [|exact H2]. unfold view in *; rewrite Ht in H1; cbn in *. lia.
Qed.

Ltac ostep :=
  match goal with
  | H : at_least ?n ?p ?q |- ok_post (bind peek_token _) ?q _ =>
      let t := fresh "t" in let r := fresh "r" in let Hv := fresh "Hv" in let H' := fresh "HA" in
      apply ok_bind, ok_peek; intros t r Hv; pose proof (a_peek _ _ _ _ _ H Hv) as H'; cbn beta
  | H : at_least ?n ?p ?q |- ok_post (bind skip _) ?q _ =>
      let H' := fresh "HA" in
      apply ok_bind, ok_modify; pose proof (a_skip _ _ _ _ H eq_refl) as H'; cbn beta
  | |- ok_post (bind (ret _) _) _ _ => apply ok_bind, ok_ret
  | |- ok_post (perr _ _) _ _ => exact I
  | |- ok_post (match k_type ?t with _ => _ end) _ _ => let E := fresh "Et" in destruct (k_type t) eqn:E
  end.

(** Going to a state with an event and no push. *)
Lemma o_goto n p q s x : at_least n p q ->
  wcur s (view q) < 8 * n + wcur (p_state p) (view p) ->
  ok_post (bind (goto s) (fun _ => ret x)) q (smaller p).
Proof.
  intros [H1 H2] Hw. apply ok_bind, ok_modify, ok_ret. right. unfold potential.
  change (view (set_state s q)) with (view q). cbn [p_state p_states set_state]. rewrite H2. lia.
Qed.
Lemma o_node n p q s b i : at_least n p q ->
  wmax s + 2 < 8 * n + wcur (p_state p) (view p) ->
  ok_post (bind (push_state s) (fun _ => parse_node b i)) q (smaller p).
Proof.
  intros [H1 H2] Hw. apply ok_bind, ok_modify. eapply ok_conseq; [apply parse_node_pot|].
  intros p' x Hp. right. cbn [p_states set_states wstack] in Hp.
  change (view (set_states _ q)) with (view q) in Hp. unfold potential at 2. rewrite H2 in Hp. lia.
Qed.
Lemma o_pop n p q x (k : PM (event * span)) : at_least n p q ->
  0 < 8 * n + wcur (p_state p) (view p) ->
  (k = ret x) ->
  ok_post (bind pop_state (fun _ => k)) q (smaller p).
Proof.
  intros [H1 H2] Hw ->. apply ok_bind, ok_pop. intros s r Hst. apply ok_ret. right. unfold potential.
  change (view _) with (view q) at 1 2. cbn [p_state p_states set_state set_states].
  rewrite <- H2, Hst. cbn [wstack]. pose proof (wcur_max s (view q)). lia.
Qed.
Lemma o_pop_skip n p q x t : at_least n p q -> p_token q = Some t ->
  ok_post (bind pop_state (fun _ => bind skip (fun _ => ret x))) q (smaller p).
Proof.
  intros [H1 H2] Ht. apply ok_bind, ok_pop. intros s r Hst. apply ok_bind, ok_modify, ok_ret. right.
  unfold potential. cbn [p_state p_states set_state set_states set_token].
  rewrite <- H2, Hst. cbn [wstack].
  assert (S (List.length (view (set_token None (set_states r (set_state s q))))) = List.length (view q)).
  { unfold view; cbn. rewrite Ht. reflexivity. }
  pose proof (wcur_max s (view (set_token None (set_states r (set_state s q))))). lia.
Qed.

Ltac oend :=
  match goal with
  | H : at_least ?n ?p ?q |- ok_post (bind (goto _) (fun _ => ret _)) ?q (smaller ?p) =>
      apply (o_goto n p q); [exact H|]
  | H : at_least ?n ?p ?q |- ok_post (bind (push_state _) (fun _ => parse_node _ _)) ?q (smaller ?p) =>
      apply (o_node n p q); [exact H|]
  | H : at_least ?n ?p ?q |- ok_post (bind pop_state (fun _ => ret _)) ?q (smaller ?p) =>
      eapply (o_pop n p q); [exact H| |reflexivity]
  | H : at_least ?n ?p ?q |- ok_post (bind pop_state (fun _ => bind skip _)) ?q (smaller ?p) =>
      eapply (o_pop_skip n p q); [exact H|reflexivity]
  end.
Ltac wt :=
  match goal with
  | E : p_state ?p = _ |- _ =>
     rewrite ?E;
     repeat match goal with |- context [wcur ?s ?v] =>
       lazymatch v with
       | view _ => let H := fresh in pose proof (wcur_max s v) as H; cbn [wmax] in H
       end; generalize dependent (wcur s v); intros end;
     cbn [wmax]; try lia
  end.
Ltac wt2 :=
  match goal with
  | E : p_state ?p = _ |- _ => rewrite ?E; cbn [wcur wmax]; try lia
  end.

Lemma a_refl p : at_least 0 p p.
Proof. split; [cbn; lia|reflexivity]. Qed.

Lemma o_open p (b : bool) (k : unit -> PM (event * span)) (Q : parser -> event * span -> Prop) :
  (forall q, at_least (if b then 1 else 0) p q -> ok_post (k tt) q Q) ->
  ok_post (bind (if b then bind peek_token (fun _ => skip) else ret tt) k) p Q.
Proof.
  intros H. destruct b.
  - apply ok_bind, ok_bind, ok_peek. intros t r Hv. apply ok_modify, H.
    eapply a_skip; [|reflexivity]. eapply a_peek; [apply a_refl|exact Hv].
  - apply ok_bind, ok_ret, H, a_refl.
Qed.
Lemma wcur_plain s v : s <> StBlockMappingValue -> wcur s v = wmax s.
Proof. destruct s; cbn; auto; congruence. Qed.
Ltac wfin :=
  repeat match goal with
  | |- context [wcur ?s ?v] => rewrite (wcur_plain s v) by discriminate
  end; cbn [wmax];
  try match goal with |- context [wcur ?s ?v] => pose proof (wcur_max s v); cbn [wmax] in * end; lia.

Lemma t_block_mapping_key p (b : bool) :
  p_state p = (if b then StBlockMappingFirstKey else StBlockMappingKey) ->
  ok_post (block_mapping_key b) p (smaller p).
Proof.
  intros E. unfold block_mapping_key. apply o_open. intros q HA.
  ostep. ostep; try ostep.
  - oend.
  - ostep. ostep; oend; rewrite E; destruct b; wfin.
  - oend. rewrite E. destruct b; [wfin|].
    change (view (cached t r q)) with (t :: r). cbn [wcur]. rewrite Et. cbn. lia.
Qed.
Lemma t_block_mapping_value p (b : bool) :
  p_state p = (if b then StBlockMappingValue else StBlockMappingValueCont) ->
  ok_post (block_mapping_value b) p (smaller p).
Proof.
  intros E. unfold block_mapping_value. pose proof (a_refl p) as HA. ostep.
  destruct (k_type t) eqn:Et; cbv iota beta zeta.
  all: try (ostep; rewrite orb_false_r; destruct b; cbn [negb];
    [ apply ok_bind, ok_modify, ok_bind, ok_peek; intros t2 r2 Hv2; apply ok_ret; right;
      unfold potential; change (view (set_state _ _)) with (t :: r) in Hv2;
      change (view (cached t2 _ _)) with (t2 :: r2); rewrite <- Hv2, Hv, E; cbn; rewrite Et; lia
    | ostep; ostep; oend; rewrite E; wfin ]).
  ostep. rewrite orb_true_r. ostep. ostep; oend; rewrite E; destruct b; wfin.
Qed.
Lemma t_block_sequence_entry p (b : bool) :
  p_state p = (if b then StBlockSequenceFirstEntry else StBlockSequenceEntry) ->
  ok_post (block_sequence_entry b) p (smaller p).
Proof.
  intros E. unfold block_sequence_entry. apply o_open. intros q HA.
  ostep. ostep; try ostep; try oend.
  ostep. ostep; oend; rewrite E; destruct b; wfin.
Qed.
Lemma t_indentless p : p_state p = StIndentlessSequenceEntry ->
  ok_post indentless_sequence_entry p (smaller p).
Proof.
  intros E. unfold indentless_sequence_entry. pose proof (a_refl p) as HA. ostep.
  ostep; try (oend; rewrite E; wfin). ostep. ostep. ostep; oend; rewrite E; wfin.
Qed.
Lemma t_flow_sequence_entry p (b : bool) :
  p_state p = (if b then StFlowSequenceFirstEntry else StFlowSequenceEntry) ->
  ok_post (flow_sequence_entry b) p (smaller p).
Proof.
  intros E. unfold flow_sequence_entry. apply o_open. intros q HA. ostep. cbv zeta.
  assert (Hnext : forall q', at_least 1 p q' -> ok_post (let* tk2 := peek_token in
    match k_type tk2 with
    | TFlowSequenceEnd => pop_state ;;; skip ;;; ret (ESequenceEnd, k_span tk2)
    | TKey => goto StFlowSequenceEntryMappingKey ;;; skip ;;; ret (EMappingStart 0 None, k_span tk2)
    | _ => push_state StFlowSequenceEntry ;;; parse_node false false
    end)%m q' (smaller p)).
  { clear HA HA0. intros q' HA. ostep. ostep; try oend; try (rewrite E; destruct b; wfin).
    apply ok_bind, ok_modify, ok_bind, ok_modify, ok_ret. right.
    pose proof (a_skip _ _ _ _ HA0 eq_refl) as [H1 H2]. unfold potential.
    cbn [p_state p_states set_state set_token]. rewrite E.
    change (view (set_token None (set_state _ (cached t0 r0 q')))) with (view (set_token None (cached t0 r0 q'))).
    change (p_states (set_token None (cached t0 r0 q'))) with (p_states (cached t0 r0 q')) in H2.
    rewrite H2. destruct b; wfin. }
  destruct b.
  - destruct (k_type t) eqn:Et; try (apply Hnext; assumption). oend.
  - ostep; try ostep; try oend. apply Hnext; assumption.
Qed.
Lemma t_flow_mapping_value p (b : bool) :
  p_state p = (if b then StFlowMappingEmptyValue else StFlowMappingValue) ->
  ok_post (flow_mapping_value b) p (smaller p).
Proof.
  intros E. unfold flow_mapping_value. pose proof (a_refl p) as HA. ostep.
  destruct b; [oend; rewrite E; wfin|].
  ostep; try (oend; rewrite E; wfin). ostep. ostep. ostep; oend; rewrite E; wfin.
Qed.
Lemma t_fsem_key p : p_state p = StFlowSequenceEntryMappingKey ->
  ok_post flow_sequence_entry_mapping_key p (smaller p).
Proof.
  intros E. unfold flow_sequence_entry_mapping_key. pose proof (a_refl p) as HA. ostep.
  ostep; try ostep; oend; rewrite E; wfin.
Qed.
Lemma t_fsem_value p : p_state p = StFlowSequenceEntryMappingValue ->
  ok_post flow_sequence_entry_mapping_value p (smaller p).
Proof.
  intros E. unfold flow_sequence_entry_mapping_value. pose proof (a_refl p) as HA. ostep.
  ostep; try (oend; rewrite E; wfin). ostep.
  apply ok_bind, ok_modify. 
  assert (HA2 : at_least 1 p (set_state StFlowSequenceEntryMappingValue (set_token None (cached t r p)))) by exact HA1.
  ostep. cbv zeta. ostep; oend; rewrite E; wfin.
Qed.
Lemma t_fsem_end p m : p_state p = StFlowSequenceEntryMappingEnd m ->
  ok_post (flow_sequence_entry_mapping_end m) p (smaller p).
Proof.
  intros E. unfold flow_sequence_entry_mapping_end. pose proof (a_refl p) as HA. oend. rewrite E; wfin.
Qed.

Lemma a_mono n m p q : at_least n p q -> m <= n -> at_least m p q.
Proof. intros [H1 H2] H; split; [lia|exact H2]. Qed.

Lemma t_flow_mapping_key p kf :
  p_state p = match kf with FirstKey => StFlowMappingFirstKey | NonFirstKey => StFlowMappingKey
              | FirstKeyContinue => StFlowMappingFirstKeyCont end ->
  ok_post (flow_mapping_key kf) p (smaller p).
Proof.
  intros E. unfold flow_mapping_key. apply o_open. intros q HA. ostep.
  destruct (k_type t) eqn:Et; try (unfold flow_mapping_close; oend).
  all: clear HA.
  all: set (n := match kf with FirstKeyContinue => 0 | _ => 1 end).
  all: assert (Hmain : forall q0, at_least n p q0 ->
       ok_post (let* is_key := (if kf_is_cont kf then ret true
                      else let* tk2 := peek_token in
                           ret (match k_type tk2 with TKey => true | _ => false end)) in
      if is_key then
        (if kf_is_cont kf then ret tt else skip) ;;;
        let* tk3 := peek_token in
        match k_type tk3 with
        | TValue | TFlowEntry | TFlowMappingEnd =>
            goto StFlowMappingValue ;;; ret (ev_empty_scalar, k_span tk3)
        | _ => push_state StFlowMappingValue ;;; parse_node false false
        end
      else
        let* tk3 := peek_token in
        match k_type tk3 with
        | TValue => goto StFlowMappingValue ;;; ret (ev_empty_scalar, k_span tk3)
        | TFlowMappingEnd => flow_mapping_close (k_span t)
        | _ => push_state StFlowMappingEmptyValue ;;; parse_node false false
        end)%m q0 (smaller p)).
  all: try (
    clear HA0; intros q0 HA;
    destruct kf; cbn [kf_is_cont];
    [ apply ok_bind, ok_bind, ok_peek; intros t1 r1 Hv1; apply ok_ret;
      pose proof (a_peek _ _ _ _ _ HA Hv1) as HA1; cbn [n] in *;
      destruct (k_type t1); try (ostep; ostep; try (unfold flow_mapping_close); oend; rewrite E; subst n; wfin);
      ostep; ostep; ostep; oend; rewrite E; subst n; wfin
    | ostep; ostep; ostep; ostep; oend; rewrite E; subst n; wfin
    | apply ok_bind, ok_bind, ok_peek; intros t1 r1 Hv1; apply ok_ret;
      pose proof (a_peek _ _ _ _ _ HA Hv1) as HA1; cbn [n] in *;
      destruct (k_type t1); try (ostep; ostep; try (unfold flow_mapping_close); oend; rewrite E; subst n; wfin);
      ostep; ostep; ostep; oend; rewrite E; subst n; wfin ]; fail).
  all: destruct kf; cbn [kf_is_non_first kf_is_first] in *;
    try (ostep; apply Hmain; exact HA0);
    apply ok_bind, ok_bind, ok_peek; intros t1 r1 Hv1;
    pose proof (a_peek _ _ _ _ _ HA0 Hv1) as HA1;
    destruct (k_type t1); try exact I;
    apply ok_modify; apply Hmain; apply (a_skip _ _ _ _ HA1 eq_refl).
Qed.

(** ** Document level *)
Lemma t_directives n : forall b p, ok_post (process_directives_loop n b) p (fun q _ => at_least 0 p q).
Proof.
  induction n as [|n IH]; intros b p; [exact I|]. cbn [process_directives_loop].
  pose proof (a_refl p) as HA. ostep. ostep; try (apply ok_ret; exact HA0).
  - destruct b; [exact I|]. apply ok_bind, ok_modify, ok_bind, ok_modify.
    eapply ok_conseq; [apply IH|]. intros q _ [H1 H2].
    pose proof (a_skip _ _ _ _ HA0 eq_refl) as [H3 H4].
    change (view (set_token None (set_tags [] (cached t r p)))) with r in H1.
    change (view (set_token None (cached t r p))) with r in H3.
    split; [lia|exact H2].
  - cbn [map_get is_some]. apply ok_bind, ok_modify, ok_bind, ok_modify.
    eapply ok_conseq; [apply IH|]. intros q _ [H1 H2].
    pose proof (a_skip _ _ _ _ HA0 eq_refl) as [H3 H4].
    change (view (set_token None (set_tags _ (cached t r p)))) with r in H1.
    change (view (set_token None (cached t r p))) with r in H3.
    split; [lia|exact H2].
Qed.
Lemma t_doc_ends n : forall p, ok_post (skip_document_ends n) p (fun q _ => at_least 0 p q).
Proof.
  induction n as [|n IH]; intros p; [exact I|]. cbn [skip_document_ends].
  pose proof (a_refl p) as HA. ostep. ostep; try (apply ok_ret; exact HA0).
  apply ok_bind, ok_modify. eapply ok_conseq; [apply IH|]. intros q _ [H1 H2].
  pose proof (a_skip _ _ _ _ HA0 eq_refl) as [H3 H4]. split; [lia|exact H2].
Qed.
Lemma a_trans n m p q r : at_least n p q -> at_least m q r -> at_least (n + m) p r.
Proof. intros [H1 H2] [H3 H4]; split; [lia|congruence]. Qed.

Lemma t_explicit p q : at_least 0 p q -> ok_post explicit_document_start q (smaller p).
Proof.
  intros HA. unfold explicit_document_start. apply ok_bind. unfold process_directives.
  eapply ok_conseq; [apply t_directives|]. intros q' u HA'. cbn beta in HA'.
  pose proof (a_trans _ _ _ _ _ HA HA') as HA2. cbn in HA2. clear HA HA'.
  ostep. ostep; try exact I.
  apply ok_bind, ok_modify, ok_bind, ok_modify, ok_bind, ok_modify, ok_ret. right.
  pose proof (a_skip _ _ _ _ HA eq_refl) as [H3 H4].
  change (view (set_token None (cached t r q'))) with r in H3.
  rewrite (view_of _ r) by reflexivity.
  change (p_states (set_token None (cached t r q'))) with (p_states q') in H4.
  cbn [p_state p_states set_states set_state set_token wstack wcur wmax cached set_toks]. rewrite H4.
  unfold potential. lia.
Qed.
Lemma t_document_start p (b : bool) :
  p_state p = (if b then StImplicitDocumentStart else StDocumentStart) ->
  ok_post (document_start b) p (smaller p).
Proof.
  intros E. unfold document_start. apply ok_bind. 
  eapply ok_conseq; [apply (t_doc_ends (S (S (List.length (p_toks p)))) p)|].
  intros q u HA. cbn beta in HA. ostep.
  assert (Hi : ok_post (if b then
        process_directives ;;; push_state StDocumentEnd ;;; goto StBlockNode ;;;
        ret (EDocumentStart false, k_span t)
      else explicit_document_start)%m (cached t r q) (smaller p)).
  { destruct b; [|apply t_explicit; exact HA0]. apply ok_bind. unfold process_directives.
    eapply ok_conseq; [apply t_directives|]. intros q' u' HA'. cbn beta in HA'.
    pose proof (a_trans _ _ _ _ _ HA0 HA') as [H1 H2]. cbn in H1.
    apply ok_bind, ok_modify, ok_bind, ok_modify, ok_ret. right.
    rewrite (view_of _ (view q')) by reflexivity.
    cbn [p_state p_states set_states set_state wstack wcur wmax]. rewrite H2.
    unfold potential. rewrite E. cbn [wcur wmax]. lia. }
  destruct (k_type t) eqn:Et; try exact Hi; try (apply t_explicit; exact HA0).
  apply ok_bind, ok_modify, ok_bind, ok_modify, ok_ret. left; reflexivity.
Qed.
Lemma t_document_content p : p_state p = StDocumentContent -> ok_post document_content p (smaller p).
Proof.
  intros E. unfold document_content. pose proof (a_refl p) as HA. ostep.
  assert (Hn : ok_post (parse_node true false) (cached t r p) (smaller p)).
  { eapply ok_conseq; [apply parse_node_pot|]. intros p' x H. cbn beta in H. right. destruct HA0 as [H1 H2].
    rewrite H2 in H. unfold potential at 2. rewrite E. cbn [wcur wmax]. lia. }
  destruct (k_type t) eqn:Et; try exact Hn; oend; rewrite E; wfin.
Qed.
Lemma t_block_node p : p_state p = StBlockNode -> ok_post (parse_node true false) p (smaller p).
Proof.
  intros E. eapply ok_conseq; [apply parse_node_pot|]. intros p' x H. cbn beta in H. right.
  unfold potential at 2. rewrite E. cbn [wcur wmax]. lia.
Qed.
Lemma a_tags n p q : at_least n p q -> at_least n p (if p_keep_tags q then q else set_tags [] q).
Proof. destruct (p_keep_tags q); auto. Qed.
Lemma t_document_end p : p_state p = StDocumentEnd -> ok_post document_end p (smaller p).
Proof.
  intros E. unfold document_end. pose proof (a_refl p) as HA. ostep.
  destruct (k_type t) eqn:Et; cbv iota beta zeta.
  all: try (ostep; apply ok_bind, ok_modify; apply a_tags in HA0;
    set (q := if p_keep_tags _ then _ else _) in *; clearbody q;
    ostep; ostep; try exact I; oend; rewrite E; wfin).
  ostep; apply ok_bind, ok_modify; apply a_tags in HA1.
  set (q := if p_keep_tags _ then _ else _) in *; clearbody q.
  oend; rewrite E; wfin.
Qed.
Lemma t_stream_start p : p_state p = StStreamStart -> ok_post stream_start p (smaller p).
Proof.
  intros E. unfold stream_start. pose proof (a_refl p) as HA. ostep. ostep; try exact I.
  apply ok_bind, ok_modify, ok_bind, ok_modify, ok_ret. right.
  pose proof (a_skip _ _ _ _ HA0 eq_refl) as [H3 H4].
  change (view (set_token None (cached t r p))) with r in H3.
  change (p_states (set_token None (cached t r p))) with (p_states p) in H4.
  rewrite (view_of _ r) by reflexivity.
  cbn [p_state p_states set_states set_state set_token wstack wcur wmax cached set_toks].
  unfold potential. lia.
Qed.

Theorem state_machine_progress p : ok_post state_machine p (smaller p).
Proof.
  assert (H : forall f, state_machine p = f p -> ok_post f p (smaller p) ->
                ok_post state_machine p (smaller p)).
  { intros f H1 H2. unfold ok_post in *. rewrite H1. exact H2. }
  destruct (p_state p) eqn:E.
  all: try (unfold ok_post, state_machine; rewrite E; exact I).
  all: eapply H; [unfold state_machine; rewrite E; reflexivity|].
  all: auto using t_stream_start, t_document_content, t_block_node, t_document_end, t_indentless,
    t_fsem_key, t_fsem_value, t_fsem_end.
  all: try (apply t_document_start; exact E).
  all: try (apply t_block_sequence_entry; exact E).
  all: try (apply t_block_mapping_key; exact E).
  all: try (apply t_block_mapping_value; exact E).
  all: try (apply t_flow_sequence_entry; exact E).
  all: try (apply t_flow_mapping_key; exact E).
  all: try (apply t_flow_mapping_value; exact E).
Qed.

(** ** Runs end *)
Definition final_answer (a : answer) : Prop :=
  (exists sp, a = Some (Ok (EStreamEnd, sp))) \/ (exists e, a = Some (Err e)).

Lemma run_final n : forall p, good p -> p_current p = None -> p_stream_end_emitted p = false ->
  potential p < n -> Exists final_answer (snd (run_requests (repeat RNext n) p)).
Proof.
  induction n as [|n IH]; intros p Hg Hc He Hn; [lia|]. cbn [repeat run_requests].
  destruct (do_request RNext p) as [p1 a] eqn:Er.
  destruct (run_requests (repeat RNext n) p1) as [p2 l] eqn:E2. cbn [snd].
  destruct (do_request_good RNext p Hg) as [G1 G2]. rewrite Er in G1, G2. cbn [fst snd] in G1, G2.
  cbn [do_request] in Er. unfold next_event, next_event_impl in Er. rewrite He, Hc in Er.
  destruct (pst_end_dec (p_state p)) as [E|E].
  { unfold parse in Er. rewrite E in Er. inversion Er; subst. left. left. eexists; reflexivity. }
  assert (Hp : parse p = state_machine p) by (unfold parse; destruct (p_state p); congruence).
  rewrite Hp in Er. pose proof (state_machine_progress p) as HS. unfold ok_post in HS.
  pose proof (state_machine_ok p Hg E) as (F & _).
  destruct (state_machine p) as [p' o]. cbn [fst] in F.
  destruct o as [[e sp]|e| | |].
  - destruct HS as [HS|HS]; [cbn in HS; subst e; inversion Er; subst; left; left; eexists; reflexivity|].
    assert (Hcase : e = EStreamEnd \/ p1 = p') by (destruct e; inversion Er; auto).
    destruct Hcase as [->| ->]; [inversion Er; subst; left; left; eexists; reflexivity|].
    right. change l with (snd (p2, l)). rewrite <- E2. destruct F as (F1 & _ & _ & _ & F5).
    apply IH; [exact G1|congruence|congruence|lia].
  - inversion Er; subst. left; right; eexists; reflexivity.
  - inversion Er; subst; contradiction.
  - inversion Er; subst; contradiction.
  - inversion Er; subst; contradiction.
Qed.

Theorem parser_terminates toks e mk keep n :
  8 * List.length toks < n ->
  Exists final_answer (snd (run_requests (repeat RNext n) (new_parser toks e mk keep))).
Proof.
  intros H. apply run_final; try reflexivity. unfold potential; cbn. lia.
Qed.

(** ** The end of the stream is announced only after its token was read *)
Definition ends_post (p : parser) : parser -> event * span -> Prop :=
  fun p' x => fst x = EStreamEnd -> exists cs t, view p = cs ++ t :: view p' /\ k_type t = TStreamEnd.

Lemma explicit_not_end p q : ok_post explicit_document_start p (ends_post q).
Proof.
  unfold explicit_document_start. apply ok_bind. unfold ok_post at 1.
  destruct (process_directives p) as [p1 [u|e| | |]]; try exact I.
  apply ok_bind, ok_peek. intros t r Hv. destruct (k_type t); try exact I.
  apply ok_bind, ok_modify, ok_bind, ok_modify, ok_bind, ok_modify, ok_ret. intros H; discriminate H.
Qed.
Lemma document_start_end p b : ok_post (document_start b) p (ends_post p).
Proof.
  unfold document_start. apply ok_bind. pose proof (skip_document_ends_ok p) as H.
  unfold wp in H. unfold ok_post at 1.
  destruct (skip_document_ends (S (S (List.length (p_toks p)))) p) as [q [u|e| | |]]; try exact I.
  cbn [fst snd] in H. destruct H as (_ & _ & _ & (cs & [Hv _] & _) & _).
  apply ok_bind, ok_peek. intros t r Hv2.
  assert (Hi : ok_post (if b then
        process_directives ;;; push_state StDocumentEnd ;;; goto StBlockNode ;;;
        ret (EDocumentStart false, k_span t)
      else explicit_document_start)%m (cached t r q) (ends_post p)).
  { destruct b; [|apply explicit_not_end]. apply ok_bind. unfold ok_post at 1.
    destruct (process_directives _) as [p1 [u'|e| | |]]; try exact I.
    apply ok_bind, ok_modify, ok_bind, ok_modify, ok_ret. intros H; discriminate H. }
  destruct (k_type t) eqn:Et; try exact Hi; try apply explicit_not_end.
  apply ok_bind, ok_modify, ok_bind, ok_modify, ok_ret. intros _.
  exists cs, t. split; [|exact Et]. rewrite Hv, Hv2. reflexivity.
Qed.

Lemma node_k_not_end k w : ~ node_k k (EStreamEnd :: w).
Proof.
  intros (n & r & Hn & H & _). destruct Hn; cbn in H; discriminate.
Qed.
Lemma node_events_nonempty n : node_events n -> exists e r, n = e :: r /\ e <> EStreamEnd.
Proof. intros H; destruct H; cbn; eexists; eexists; (split; [reflexivity|discriminate]). Qed.
Lemma nodes_k_not_end e k w : e <> EStreamEnd -> ~ nodes_k (ev_k e k) (EStreamEnd :: w).
Proof.
  intros He (n & r & Hn & H & r' & -> & _). destruct Hn as [|n l Hn Hl].
  - cbn in H; congruence.
  - destruct (node_events_nonempty _ Hn) as (x & y & -> & Hx). cbn in H. congruence.
Qed.
Lemma pairs_k_not_end e k w : e <> EStreamEnd -> ~ pairs_k (ev_k e k) (EStreamEnd :: w).
Proof.
  intros He (n & r & Hn & H & r' & -> & _). destruct Hn as [|n v l Hn Hv Hl].
  - cbn in H; congruence.
  - destruct (node_events_nonempty _ Hn) as (x & y & -> & Hx). cbn in H. congruence.
Qed.

Lemma stream_end_read p p' sp cs : good p -> p_state p <> StEnd ->
  state_machine p = (p', Ok (EStreamEnd, sp)) -> view p = cs ++ view p' ->
  exists t, In t cs /\ k_type t = TStreamEnd.
Proof.
  intros Hg Hne Hs Hv. pose proof (state_machine_ok p Hg Hne) as H. unfold wp in H. rewrite Hs in H.
  cbn [fst snd] in H. destruct H as (_ & Hcfg & _ & HL & _).
  destruct (L_inhab _ _ Hcfg) as [w Hw]. specialize (HL w Hw). unfold Lp, L in HL.
  assert (Hds : exists b, state_machine p = document_start b p).
  { unfold state_machine in *. destruct (p_state p); cbn in HL;
      try (exfalso; revert HL; first [apply node_k_not_end | apply nodes_k_not_end; discriminate
            | apply pairs_k_not_end; discriminate]);
      try (destruct HL as (r & HL & _); discriminate); eauto; discriminate. }
  destruct Hds as [b Hb]. pose proof (document_start_end p b) as H. unfold ok_post in H.
  rewrite <- Hb, Hs in H. destruct (H eq_refl) as (cs' & t & Hv' & Et).
  exists t. split; [|exact Et].
  replace (cs' ++ t :: view p') with ((cs' ++ [t]) ++ view p') in Hv' by (rewrite <- app_assoc; reflexivity).
  rewrite Hv in Hv'. apply app_inv_tail in Hv'. subst cs. apply in_or_app; right; left; reflexivity.
Qed.

Lemma next_event_state_machine p : inv p -> forall p' o,
  next_event p = ((match o with Ok (EStreamEnd, _) => set_end_emitted true p' | _ => p' end), Some o) ->
  exists q, state_machine p = (q, o) /\ view q = view p'.
Proof.
  intros [Hg Hc Hcur Hrun Hend] p' o. unfold next_event, next_event_impl. rewrite Hend, Hcur.
  assert (Hp : parse p = state_machine p) by (unfold parse; destruct (p_state p); congruence).
  rewrite Hp. destruct (state_machine p) as [q o']. intros H. exists q.
  destruct o' as [[e sp]|e| | |]; [destruct e|..]; inversion H; subst; split; auto.
  match goal with H : set_end_emitted true q = _ |- _ => apply (f_equal view) in H; exact H end.
Qed.

Lemma events_anchors_end n : forall p before, inv p -> table_ok before p ->
  exists cs rest, view p = cs ++ rest /\
    anchored_ids (events_of n p) = seq (S (List.length before)) (List.length (anchor_names cs)) /\
    alias_targets before cs = map Some (alias_ids (events_of n p)) /\
    (In EStreamEnd (events_of n p) -> exists t, In t cs /\ k_type t = TStreamEnd).
Proof.
  induction n as [|n IH]; intros p before Hi Ht; cbn [events_of].
  - exists [], (view p). repeat split. intros [].
  - destruct (next_running p Hi) as (p' & o & Hnx & Hs & Hend). rewrite Hnx.
    destruct o as [[e sp]|e| | |].
    2,3,4,5: exists [], (view p); repeat split; intros [].
    pose proof Hs as (_ & Hcfg & _ & HL & He).
    destruct (He (inv_cache _ Hi)) as (cs & Heat & Hae).
    destruct (effect_step _ _ _ _ _ Ht Heat Hae) as (S1 & S2 & S3). destruct Heat as [V _].
    destruct (pst_end_dec (p_state p')) as [E|E].
    + apply Hend in E as E'; subst e. rewrite events_ended by reflexivity.
      exists cs, (view p'). repeat split; auto. intros _.
      destruct (next_event_state_machine p Hi p' (Ok (EStreamEnd, sp)) Hnx) as (q & Hq & Hqv).
      eapply stream_end_read; [apply Hi|apply Hi|exact Hq|]. rewrite Hqv. exact V.
    + assert (Hne : e <> EStreamEnd) by (intros X; apply E, Hend, X).
      assert (Hi' : inv p') by (eapply inv_step; eassumption).
      replace (match e with EStreamEnd => set_end_emitted true p' | _ => p' end) with p'
        by (destruct e; congruence).
      destruct (IH p' _ Hi' S1) as (cs' & rest & V' & I1 & I2 & I3).
      exists (cs ++ cs'), rest. split; [rewrite V, V'; apply app_assoc|].
      rewrite anchored_ids_cons, alias_ids_cons, anchor_names_app, alias_targets_app, S2, S3, I1, I2.
      rewrite map_app, !app_length, seq_app. split; [reflexivity|]. split; [reflexivity|].
      intros [A|A]; [congruence|]. destruct (I3 A) as (t & T1 & T2). exists t; split; [|exact T2].
      apply in_or_app; right; exact T1.
Qed.

Theorem anchors_and_aliases_end toks e mk keep n :
  let evs := events_of n (new_parser toks e mk keep) in
  exists cs rest, toks = cs ++ rest /\
    anchored_ids evs = seq 1 (List.length (anchor_names cs)) /\
    alias_targets [] cs = map Some (alias_ids evs) /\
    (In EStreamEnd evs -> exists t, In t cs /\ k_type t = TStreamEnd).
Proof.
  cbn zeta. apply (events_anchors_end n (new_parser toks e mk keep) [] (inv_new toks e mk keep)).
  split; reflexivity.
Qed.

Definition err_answer (a : answer) : Prop := exists e, a = Some (Err e).
Lemma final_cases n : forall p, good p -> ended_ok p ->
  Exists final_answer (snd (run_requests (repeat RNext n) p)) ->
  In EStreamEnd (events_of n p) \/ Exists err_answer (snd (run_requests (repeat RNext n) p)).
Proof.
  induction n as [|n IH]; intros p Hg He H; cbn in *; [inversion H|].
  destruct (do_request_good RNext p Hg) as [G1 G2].
  destruct (do_request_ended RNext p Hg He) as (D1 & D2 & _).
  cbn [do_request] in *. destruct (next_event p) as [p1 a] eqn:En.
  destruct (run_requests (repeat RNext n) p1) as [p2 l] eqn:E2. cbn [fst snd] in *.
  assert (Hl : l = snd (run_requests (repeat RNext n) p1)) by (rewrite E2; reflexivity).
  destruct a as [[[e sp]|e| | |]|]; try contradiction.
  - inversion H as [? ? Hf|? ? Hf]; subst.
    + destruct Hf as [[sp' Hf]|[e' Hf]]; [|discriminate]. inversion Hf; subst. left; left; reflexivity.
    + destruct (IH p1 G1 D1 Hf) as [X|X]; [left; right; exact X|right; right; exact X].
  - right; left; exists e; reflexivity.
  - assert (Hend : p_stream_end_emitted p = true /\ p1 = p).
    { unfold next_event in En. destruct (p_stream_end_emitted p); [inversion En; auto|].
      destruct (next_event_impl p) as [q [[[] ?]|?| | |]]; discriminate. }
    destruct Hend as [Hend ->]. specialize (He Hend).
    rewrite (run_ended (repeat RNext n) p Hend He) in Hl. cbn in Hl.
    exfalso. inversion H as [? ? Hf|? ? Hf]; subst.
    + destruct Hf as [[? ?]|[? ?]]; discriminate.
    + apply Exists_exists in Hf as (x & Hx & Hf). apply repeat_spec in Hx; subst x.
      destruct Hf as [[? ?]|[? ?]]; discriminate.
Qed.

Lemma prefix_compare {A} (a b c d : list A) : a ++ b = c ++ d ->
  (exists x, c = a ++ x) \/ (exists x, a = c ++ x).
Proof.
  revert c; induction a as [|x a IH]; intros c H; [left; exists c; reflexivity|].
  destruct c as [|y c]; [right; exists (x :: a); reflexivity|].
  inversion H; subst. destruct (IH c H2) as [[z ->]|[z ->]]; [left|right]; exists z; reflexivity.
Qed.

Theorem unknown_alias_is_error toks rest e mk keep n :
  (forall t, In t toks -> k_type t <> TStreamEnd) ->
  In None (alias_targets [] toks) ->
  8 * List.length (toks ++ rest) < n ->
  Exists err_answer (snd (run_requests (repeat RNext n) (new_parser (toks ++ rest) e mk keep))).
Proof.
  intros Hns Hnone Hn.
  destruct (final_cases n (new_parser (toks ++ rest) e mk keep)) as [H|H]; auto.
  - reflexivity.
  - intros X; discriminate X.
  - apply parser_terminates, Hn.
  - exfalso. destruct (anchors_and_aliases_end (toks ++ rest) e mk keep n) as (cs & r & Hcs & _ & Ha & He).
    destruct (He H) as (t & Ht & Et).
    destruct (prefix_compare _ _ _ _ Hcs) as [[x ->]|[x ->]].
    + rewrite alias_targets_app in Ha.
      assert (X : In None (map Some (alias_ids (events_of n (new_parser (toks ++ rest) e mk keep))))).
      { rewrite <- Ha. apply in_or_app; left; exact Hnone. }
      apply in_map_iff in X as (y & Y & _); discriminate.
    + apply (Hns t); [apply in_or_app; left; exact Ht|exact Et].
Qed.

(** ** The forms quoted by the property file *)
Lemma new_good toks e mk keep : good (new_parser toks e mk keep).
Proof. reflexivity. Qed.
Lemma new_ended toks e mk keep : ended_ok (new_parser toks e mk keep).
Proof. intros X; discriminate X. Qed.

Lemma peek_then_next_reached toks e mk keep rs v :
  let p := fst (run_requests rs (new_parser toks e mk keep)) in
  snd (peek p) = Some (Ok v) ->
  snd (next_event (fst (peek p))) = Some (Ok v) /\ peek (fst (peek p)) = peek p.
Proof.
  cbn zeta. destruct (run_reach rs _ (new_good toks e mk keep) (new_ended toks e mk keep)) as (H1 & H2 & _).
  apply peek_then_next; assumption.
Qed.
Lemma peeks_transparent_new toks e mk keep rs :
  let p0 := new_parser toks e mk keep in
  existsb is_err_answer (snd (run_requests rs p0)) = false ->
  nexts (log rs p0) = snd (run_requests (repeat RNext (count_next rs)) p0).
Proof.
  cbn zeta. apply peeks_transparent; auto using new_good, new_ended.
Qed.
Lemma peeks_same_events_new toks e mk keep rs :
  let p0 := new_parser toks e mk keep in
  exists m, events_in (nexts (log rs p0)) = events_in (snd (run_requests (repeat RNext m) p0)).
Proof. cbn zeta. apply peeks_same_events; auto using new_good. Qed.
Lemma anchor_ids_count_up toks e mk keep n :
  let evs := events_of n (new_parser toks e mk keep) in
  exists cs rest, toks = cs ++ rest /\ anchored_ids evs = seq 1 (List.length (anchor_names cs)).
Proof.
  cbn zeta. destruct (anchors_and_aliases toks e mk keep n) as (cs & rest & H1 & H2 & _).
  exists cs, rest; auto.
Qed.
