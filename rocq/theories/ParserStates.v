(** Every state of the parser keeps the invariants. *)
From Verif Require Import Base Tokens Parser ParserRun SpecEvents ParserProofs ParserStep.
From Coq Require Import Lia String.
Local Open Scope list_scope.

Definition Lp (p : parser) : lang := L (p_state p) (p_states p).

Lemma lang_leaf_pairs (k : lang) e w : (exists v, e = EScalar v) ->
  node_k (pairs_k k) w -> pairs_k k (e :: w).
Proof. intros H Hw. apply pairs_k_cons, node_k_leaf; [left; exact H|exact Hw]. Qed.
Lemma lang_leaf_nodes (k : lang) e w : (exists v, e = EScalar v) ->
  nodes_k k w -> nodes_k k (e :: w).
Proof. intros H Hw. apply nodes_k_cons, node_k_leaf; [left; exact H|exact Hw]. Qed.
Lemma lang_leaf (k : lang) e w : (exists v, e = EScalar v) -> k w -> node_k k (e :: w).
Proof. intros H Hw. apply node_k_leaf; [left; exact H|exact Hw]. Qed.
Lemma lang_end_pairs (k : lang) e w : k w -> pairs_k (ev_k e k) (e :: w).
Proof. intros Hw. apply pairs_k_nil. exists w; auto. Qed.
Lemma lang_end_nodes (k : lang) e w : k w -> nodes_k (ev_k e k) (e :: w).
Proof. intros Hw. apply nodes_k_nil. exists w; auto. Qed.
Lemma lang_pair_entry (k : lang) a t w :
  node_k (node_k (ev_k EMappingEnd (nodes_k k))) w -> nodes_k k (EMappingStart a t :: w).
Proof.
  intros H. apply nodes_k_cons, node_k_map, pairs_k_cons.
  revert H; apply node_k_impl; intros x; apply node_k_impl; intros y. apply pairs_k_nil.
Qed.
#[local] Hint Resolve lang_leaf_pairs lang_leaf_nodes lang_leaf lang_end_pairs lang_end_nodes
  pairs_k_cons nodes_k_cons lang_pair_entry : lang.

Ltac solve_lang :=
  let w := fresh "w" in let Hw := fresh "Hw" in
  intros w Hw; cbn in Hw |- *;
  repeat match goal with H : p_states _ = _ :: _ |- _ => cbn in H; rewrite H in * end;
  cbn in Hw |- *;
  solve [eauto 6 with lang
        | apply lang_leaf_pairs; [eexists; reflexivity|exact Hw]
        | apply lang_leaf_nodes; [eexists; reflexivity|exact Hw]
        | apply lang_leaf; [eexists; reflexivity|exact Hw]
        | eexists; split; [reflexivity|exact Hw] ].
Ltac cfg2 :=
  unfold cfg_ok; cbn -[stack_ok];
  repeat match goal with |- stack_ok (_ :: _) = true => rewrite stack_ok_cons by reflexivity end;
  first [reflexivity | assumption].
Ltac wend :=
  match goal with
  | HP : Pre ?p ?q |- wp (ret (_, _)) ?q (step_ok ?p _) =>
      eapply (w_ret p q); [exact HP|cfg2|first [exact I|apply cache_ok_pop; assumption]
                          |reflexivity|discriminate|]; solve_lang
  | HP : Pre ?p ?q |- wp (parse_node _ _) ?q (step_ok ?p _) =>
      apply (w_node p q); [exact HP|cbn; first [reflexivity|assumption]|cfg2|solve_lang]
  end.
Ltac wretx := match goal with HP : Pre ?p ?q |- wp (ret _) ?q (step_ok ?p _) =>
  eapply (w_ret p q); [exact HP|..] end.
Ltac wgo := repeat (first [wend | wstep]).
Ltac wcase :=
  match goal with
  | |- wp (match k_type ?t with _ => _ end) _ _ =>
      let E := fresh "Et" in destruct (k_type t) eqn:E
  end.
Ltac winit H :=
  match goal with
  | Hs : stack_ok (p_states ?p) = true |- _ =>
    assert (Hcfg : cfg_ok (p_state p) (p_states p)) by (unfold cfg_ok; rewrite H; exact Hs);
    assert (Hdl : doc_level (p_state p) = false) by (rewrite H; reflexivity)
  end.

Lemma stream_start_ok p : p_state p = StStreamStart -> good p ->
  wp stream_start p (step_ok p (Lp p)).
Proof.
  intros E Hg. unfold stream_start. pose proof (Pre_refl p) as HP.
  unfold good in Hg. wstep.
  destruct (k_type t) eqn:Et; try (wstep; fail).
  wstep. wstep. eapply w_ret; [exact HP2| |exact I|reflexivity|discriminate|].
  - unfold cfg_ok in *; rewrite E in Hg; cbn in *; exact Hg.
  - intros w Hw. unfold Lp; rewrite E. exists w; split; [reflexivity|exact Hw].
Qed.

Lemma block_mapping_value_ok p (b : bool) : stack_ok (p_states p) = true ->
  p_state p = (if b then StBlockMappingValue else StBlockMappingValueCont) ->
  wp (block_mapping_value b) p (step_ok p (node_k (pairs_k (ev_k EMappingEnd (K (p_states p)))))).
Proof.
  intros Hs E. assert (Hcfg : cfg_ok (p_state p) (p_states p))
    by (unfold cfg_ok; rewrite E; destruct b; exact Hs).
  assert (Hdl : doc_level (p_state p) = false) by (rewrite E; destruct b; reflexivity).
  pose proof (Pre_refl p) as HP. unfold block_mapping_value. wstep.
  destruct (k_type t) eqn:Et;
    try (cbv iota beta zeta; wstep; rewrite orb_false_r; destruct b; cbn [negb]; [wgo|wstep; wcase; wgo]; fail).
  cbv iota beta zeta. wstep. rewrite orb_true_r. wstep. wcase; wgo.
Qed.

Lemma block_mapping_key_ok p (b : bool) : stack_ok (p_states p) = true ->
  p_state p = (if b then StBlockMappingFirstKey else StBlockMappingKey) ->
  wp (block_mapping_key b) p (step_ok p (pairs_k (ev_k EMappingEnd (K (p_states p))))).
Proof.
  intros Hs E. assert (Hcfg : cfg_ok (p_state p) (p_states p))
    by (unfold cfg_ok; rewrite E; destruct b; exact Hs).
  assert (Hdl : doc_level (p_state p) = false) by (rewrite E; destruct b; reflexivity).
  unfold block_mapping_key. eapply w_open with (ty := TBlockMappingStart); [exact Hcfg| | |].
  - intros -> Hc. unfold cache_ok in Hc. rewrite E in Hc. exact Hc.
  - intros t Et. neu.
  - intros q HP E1 E2. rewrite <- E2 in *. rewrite <- E1 in *. clear E1 E2.
    wstep. wcase; try (wgo; fail). wstep. wstep. wcase; wgo.
Qed.

Lemma block_sequence_entry_ok p (b : bool) : stack_ok (p_states p) = true ->
  p_state p = (if b then StBlockSequenceFirstEntry else StBlockSequenceEntry) ->
  wp (block_sequence_entry b) p (step_ok p (nodes_k (ev_k ESequenceEnd (K (p_states p))))).
Proof.
  intros Hs E. assert (Hcfg : cfg_ok (p_state p) (p_states p))
    by (unfold cfg_ok; rewrite E; destruct b; exact Hs).
  assert (Hdl : doc_level (p_state p) = false) by (rewrite E; destruct b; reflexivity).
  unfold block_sequence_entry. eapply w_open with (ty := TBlockSequenceStart); [exact Hcfg| | |].
  - intros -> Hc. unfold cache_ok in Hc. rewrite E in Hc. exact Hc.
  - intros t Et. neu.
  - intros q HP E1 E2. rewrite <- E2 in *. rewrite <- E1 in *. clear E1 E2.
    wstep. wcase; try (wgo; fail). wstep. wstep. wcase; wgo.
Qed.

Lemma indentless_sequence_entry_ok p : stack_ok (p_states p) = true ->
  p_state p = StIndentlessSequenceEntry ->
  wp indentless_sequence_entry p (step_ok p (nodes_k (ev_k ESequenceEnd (K (p_states p))))).
Proof.
  intros Hs E. winit E. pose proof (Pre_refl p) as HP.
  unfold indentless_sequence_entry. wstep. wcase; try (wgo; fail). wstep. wstep. wcase; wgo.
Qed.

Lemma flow_sequence_entry_ok p (b : bool) : stack_ok (p_states p) = true ->
  p_state p = (if b then StFlowSequenceFirstEntry else StFlowSequenceEntry) ->
  wp (flow_sequence_entry b) p (step_ok p (nodes_k (ev_k ESequenceEnd (K (p_states p))))).
Proof.
  intros Hs E. assert (Hcfg : cfg_ok (p_state p) (p_states p))
    by (unfold cfg_ok; rewrite E; destruct b; exact Hs).
  assert (Hdl : doc_level (p_state p) = false) by (rewrite E; destruct b; reflexivity).
  unfold flow_sequence_entry. eapply w_open with (ty := TFlowSequenceStart); [exact Hcfg| | |].
  - intros -> Hc. unfold cache_ok in Hc. rewrite E in Hc. exact Hc.
  - intros t Et. neu.
  - intros q HP E1 E2. rewrite <- E2 in *. rewrite <- E1 in *. clear E1 E2.
    wstep. cbv zeta. destruct b; wcase; try (wgo; fail); wgo; wcase; wgo.
Qed.

Lemma flow_mapping_value_ok p (b : bool) : stack_ok (p_states p) = true ->
  p_state p = (if b then StFlowMappingEmptyValue else StFlowMappingValue) ->
  wp (flow_mapping_value b) p (step_ok p (node_k (pairs_k (ev_k EMappingEnd (K (p_states p)))))).
Proof.
  intros Hs E. assert (Hcfg : cfg_ok (p_state p) (p_states p))
    by (unfold cfg_ok; rewrite E; destruct b; exact Hs).
  assert (Hdl : doc_level (p_state p) = false) by (rewrite E; destruct b; reflexivity).
  pose proof (Pre_refl p) as HP. unfold flow_mapping_value. wstep.
  destruct b; [wgo|]. wcase; try (wgo; fail). wstep. wstep. wcase; wgo.
Qed.

Lemma flow_sequence_entry_mapping_key_ok p : stack_ok (p_states p) = true ->
  p_state p = StFlowSequenceEntryMappingKey ->
  wp flow_sequence_entry_mapping_key p (step_ok p
    (node_k (node_k (ev_k EMappingEnd (nodes_k (ev_k ESequenceEnd (K (p_states p)))))))).
Proof.
  intros Hs E. winit E. pose proof (Pre_refl p) as HP.
  unfold flow_sequence_entry_mapping_key. wstep. wcase; wgo.
Qed.
Lemma flow_sequence_entry_mapping_value_ok p : stack_ok (p_states p) = true ->
  p_state p = StFlowSequenceEntryMappingValue ->
  wp flow_sequence_entry_mapping_value p (step_ok p
    (node_k (ev_k EMappingEnd (nodes_k (ev_k ESequenceEnd (K (p_states p))))))).
Proof.
  intros Hs E. winit E. pose proof (Pre_refl p) as HP.
  unfold flow_sequence_entry_mapping_value. wstep. wcase; try (wgo; fail). wgo. wcase; wgo.
Qed.
Lemma flow_sequence_entry_mapping_end_ok p m : stack_ok (p_states p) = true ->
  wp (flow_sequence_entry_mapping_end m) p (step_ok p
    (ev_k EMappingEnd (nodes_k (ev_k ESequenceEnd (K (p_states p)))))).
Proof.
  intros Hs. pose proof (Pre_refl p) as HP. unfold flow_sequence_entry_mapping_end. wgo.
Qed.

Lemma flow_mapping_key_ok p kf : stack_ok (p_states p) = true ->
  p_state p = match kf with FirstKey => StFlowMappingFirstKey | NonFirstKey => StFlowMappingKey
              | FirstKeyContinue => StFlowMappingFirstKeyCont end ->
  wp (flow_mapping_key kf) p (step_ok p (pairs_k (ev_k EMappingEnd (K (p_states p))))).
Proof.
  intros Hs E. assert (Hcfg : cfg_ok (p_state p) (p_states p))
    by (unfold cfg_ok; rewrite E; destruct kf; exact Hs).
  assert (Hdl : doc_level (p_state p) = false) by (rewrite E; destruct kf; reflexivity).
  unfold flow_mapping_key. eapply w_open with (ty := TFlowMappingStart); [exact Hcfg| | |].
  - intros H Hc. destruct kf; try discriminate. unfold cache_ok in Hc. rewrite E in Hc. exact Hc.
  - intros t Et. neu.
  - intros q HP E1 E2. rewrite <- E2 in *. rewrite <- E1 in *. clear E1 E2.
    wstep.
    assert (Hclose : forall q0, Pre p q0 -> (exists t0, p_token q0 = Some t0 /\ k_type t0 = TFlowMappingEnd) ->
       p_state q0 = p_state q -> p_states q0 = p_states q -> forall sp,
       wp (flow_mapping_close sp) q0 (step_ok p (pairs_k (ev_k EMappingEnd (K (p_states q)))))).
    { clear HP HP0. intros q0 HP (t0 & Et0 & Et) E1 E2 sp. rewrite <- E2 in *. rewrite <- E1 in *. clear E1 E2.
      unfold flow_mapping_close. wstep.
      eapply (w_skip p _ t0); [exact HP0|exact Et0|neu|]. intros HP1. wgo. }
    assert (Hkey : forall q0, Pre p q0 -> p_state q0 = p_state q -> p_states q0 = p_states q ->
       wp (bind peek_token (fun tk3 => match k_type tk3 with
        | TValue | TFlowEntry | TFlowMappingEnd =>
            bind (goto StFlowMappingValue) (fun _ => ret (ev_empty_scalar, k_span tk3))
        | _ => bind (push_state StFlowMappingValue) (fun _ => parse_node false false)
        end)) q0 (step_ok p (pairs_k (ev_k EMappingEnd (K (p_states q)))))).
    { clear HP HP0. intros q0 HP E1 E2. rewrite <- E2 in *. rewrite <- E1 in *. clear E1 E2.
      wstep. wcase; wgo. }
    assert (Hnokey : forall q0, Pre p q0 -> p_state q0 = p_state q -> p_states q0 = p_states q ->
       wp (bind peek_token (fun tk3 => match k_type tk3 with
        | TValue => bind (goto StFlowMappingValue) (fun _ => ret (ev_empty_scalar, k_span tk3))
        | TFlowMappingEnd => flow_mapping_close (k_span t)
        | _ => bind (push_state StFlowMappingEmptyValue) (fun _ => parse_node false false)
        end)) q0 (step_ok p (pairs_k (ev_k EMappingEnd (K (p_states q)))))).
    { clear HP HP0. intros q0 HP E1 E2. rewrite <- E2 in *. rewrite <- E1 in *.
      wstep. wcase; try (wgo; fail). apply Hclose; auto. eexists; split; [reflexivity|exact Et]. }
    assert (Hmain : forall q0, Pre p q0 -> p_state q0 = p_state q -> p_states q0 = p_states q ->
       wp (let* is_key := (if kf_is_cont kf then ret true
                      else let* tk2 := peek_token in
                           ret (match k_type tk2 with TKey => true | _ => false end)) in
      if is_key then
        (if kf_is_cont kf then ret tt else skip) ;;;
        let* tk3 := peek_token in
        match k_type tk3 with
        | TValue | TFlowEntry | TFlowMappingEnd =>
            goto StFlowMappingValue ;;; ret (ev_empty_scalar, k_span tk3)
        | _ => push_state StFlowMappingValue ;;; parse_node false false
        end
      else
        let* tk3 := peek_token in
        match k_type tk3 with
        | TValue => goto StFlowMappingValue ;;; ret (ev_empty_scalar, k_span tk3)
        | TFlowMappingEnd => flow_mapping_close (k_span t)
        | _ => push_state StFlowMappingEmptyValue ;;; parse_node false false
        end)%m q0 (step_ok p (pairs_k (ev_k EMappingEnd (K (p_states q)))))).
    { intros q0 HPq E1 E2. destruct (kf_is_cont kf) eqn:Ekf.
      - wstep. wstep. apply Hkey; auto.
      - apply wp_bind, wp_bind, wp_peek.
        + intros t0 r0 Hv0. apply wp_ret. clear HP HP0.
          assert (HP : Pre p (cached t0 r0 q0)).
          { eapply Pre_same; [exact HPq|repeat split|..]; auto. }
          destruct (k_type t0) eqn:Et0; try (apply Hnokey; auto; fail).
          wstep. apply Hkey; auto.
        + intros _. destruct HPq as [Hf Hp]. split; [exact Hf|].
          split; [rewrite E1, E2; exact Hcfg|]. intros Hca. destruct (Hp Hca) as (cs & He & Hn).
          exists cs; split; [exact He|left; apply Hn]. }
    assert (Hbody : wp (bind (if kf_is_non_first kf then
         let* tk := peek_token in
         match k_type tk with
         | TFlowEntry => skip
         | _ => perr (k_span tk) "while parsing a flow mapping, did not find expected ',' or '}'"
         end
       else ret tt)%m (fun _ => let* is_key := (if kf_is_cont kf then ret true
                      else let* tk2 := peek_token in
                           ret (match k_type tk2 with TKey => true | _ => false end)) in
      if is_key then
        (if kf_is_cont kf then ret tt else skip) ;;;
        let* tk3 := peek_token in
        match k_type tk3 with
        | TValue | TFlowEntry | TFlowMappingEnd =>
            goto StFlowMappingValue ;;; ret (ev_empty_scalar, k_span tk3)
        | _ => push_state StFlowMappingValue ;;; parse_node false false
        end
      else
        let* tk3 := peek_token in
        match k_type tk3 with
        | TValue => goto StFlowMappingValue ;;; ret (ev_empty_scalar, k_span tk3)
        | TFlowMappingEnd => flow_mapping_close (k_span t)
        | _ => push_state StFlowMappingEmptyValue ;;; parse_node false false
        end)%m) (cached t r q) (step_ok p (pairs_k (ev_k EMappingEnd (K (p_states q)))))).
    { destruct (kf_is_non_first kf).
      2:{ wstep. apply Hmain; auto. }
      assert (Herr : forall q0 e, Pre p q0 -> p_state q0 = p_state q -> p_states q0 = p_states q ->
        step_ok p (pairs_k (ev_k EMappingEnd (K (p_states q)))) q0 (Err e)).
      { intros q0 e [Hf Hp] E1 E2. split; [exact Hf|]. split; [rewrite E1, E2; exact Hcfg|].
        intros Hca. destruct (Hp Hca) as (cs & He & Hn).
        exists cs; split; [exact He|left; apply Hn]. }
      apply wp_bind, wp_bind, wp_peek; [|intros _; apply Herr; auto].
      intros t0 r0 Hv0. assert (HP1 : Pre p (cached t0 r0 (cached t r q))).
      { eapply Pre_same; [exact HP0|repeat split|..]; auto. }
      destruct (k_type t0) eqn:Et0; try (apply wp_fail, Herr; auto; fail).
      apply wp_modify. apply Hmain; try reflexivity.
      eapply Pre_drop; [exact HP1|repeat split|reflexivity|reflexivity|neu|reflexivity|reflexivity]. }
    destruct (k_type t) eqn:Et; try exact Hbody.
    apply Hclose; auto. eexists; split; [reflexivity|exact Et].
Qed.

(** ** Document level *)
Definition loop_post (p p' : parser) (o : out unit) : Prop :=
  frame p p' /\ p_state p' = p_state p /\ p_states p' = p_states p /\
  (exists cs, eats p p' cs /\ neutral cs) /\
  match o with Ok _ | Err _ => True | _ => False end.

Lemma loop_post_trans p q p' o :
  frame p q -> p_state q = p_state p -> p_states q = p_states p ->
  (exists cs, eats p q cs /\ neutral cs) -> loop_post q p' o -> loop_post p p' o.
Proof.
  intros H1 H2 H3 (cs & H4 & H5) (G1 & G2 & G3 & (cs' & G4 & G5) & G6).
  split; [eapply frame_trans; eassumption|]. split; [congruence|]. split; [congruence|].
  split; [|exact G6]. exists (cs ++ cs'); split; [eapply eats_trans; eassumption|].
  apply neutral_app; assumption.
Qed.
Lemma loop_stop p o : match o with Ok _ | Err _ => True | _ => False end -> loop_post p p o.
Proof.
  intros H. split; [apply frame_refl|]. repeat split; [|exact H].
  exists []; split; [apply eats_refl|split; reflexivity].
Qed.
Lemma loop_peeked p t r o : view p = t :: r ->
  match o with Ok _ | Err _ => True | _ => False end -> loop_post p (cached t r p) o.
Proof.
  intros Hv H. split; [repeat split|]. repeat split; [|exact H].
  exists []; split; [apply eats_none; auto|split; reflexivity].
Qed.

Lemma process_directives_loop_ok n : forall b p, (List.length (view p) < n)%nat ->
  wp (process_directives_loop n b) p (loop_post p).
Proof.
  induction n as [|n IH]; intros b p Hn; [lia|]. cbn [process_directives_loop].
  apply wp_bind, wp_peek; [intros t r Hv|intros _; apply loop_stop; exact I].
  rewrite Hv in Hn; cbn in Hn.
  destruct (k_type t) eqn:Et; try (apply wp_ret; apply loop_peeked; auto; fail).
  - destruct b; [apply wp_fail, loop_peeked; auto|].
    apply wp_bind, wp_modify, wp_bind, wp_modify.
    eapply wp_conseq; [apply IH; unfold view; cbn; lia|]. intros p' o H.
    eapply loop_post_trans; [| | | |exact H]; try reflexivity; try (repeat split; fail).
    exists [t]; split; [eapply eats_one; try eassumption; try reflexivity; intros; congruence|].
    split; cbn; rewrite Et; reflexivity.
  - cbn [map_get is_some].
    apply wp_bind, wp_modify, wp_bind, wp_modify.
    eapply wp_conseq; [apply IH; unfold view; cbn; lia|]. intros p' o H.
    eapply loop_post_trans; [| | | |exact H]; try reflexivity; try (repeat split; fail).
    exists [t]; split; [eapply eats_one; try eassumption; try reflexivity; intros; congruence|].
    split; cbn; rewrite Et; reflexivity.
Qed.
Lemma view_fuel p : (List.length (view p) < S (S (List.length (p_toks p))))%nat.
Proof. unfold view. destruct (p_token p); cbn; lia. Qed.
Lemma process_directives_ok p : wp process_directives p (loop_post p).
Proof. apply (process_directives_loop_ok _ false p), view_fuel. Qed.
Lemma skip_document_ends_loop_ok n : forall p, (List.length (view p) < n)%nat ->
  wp (skip_document_ends n) p (loop_post p).
Proof.
  induction n as [|n IH]; intros p Hn; [lia|]. cbn [skip_document_ends].
  apply wp_bind, wp_peek; [intros t r Hv|intros _; apply loop_stop; exact I].
  rewrite Hv in Hn; cbn in Hn.
  destruct (k_type t) eqn:Et; try (apply wp_ret; apply loop_peeked; auto; fail).
  apply wp_bind, wp_modify.
  eapply wp_conseq; [apply IH; unfold view; cbn; lia|]. intros p' o H.
  eapply loop_post_trans; [| | | |exact H]; try reflexivity; try (repeat split; fail).
  exists [t]; split; [eapply eats_one; try eassumption; try reflexivity; intros; congruence|].
  split; cbn; rewrite Et; reflexivity.
Qed.
Lemma skip_document_ends_ok p :
  wp (fun p => skip_document_ends (S (S (List.length (p_toks p)))) p) p (loop_post p).
Proof. apply (skip_document_ends_loop_ok _ p), view_fuel. Qed.

(** Sequencing a loop with the rest of a request. *)
Lemma w_loop p q (lg : lang) (m : PM unit) (k : unit -> PM (event * span)) :
  Pre p q -> cfg_ok (p_state q) (p_states q) -> wp m q (loop_post q) ->
  (forall q', Pre p q' -> p_state q' = p_state q -> p_states q' = p_states q ->
     wp (k tt) q' (step_ok p lg)) ->
  wp (bind m k) q (step_ok p lg).
Proof.
  intros [Hf Hp] Hc Hm Hk. apply wp_bind. eapply wp_conseq; [exact Hm|].
  intros q' o (G1 & G2 & G3 & (cs & G4 & G5) & G6).
  assert (HP : Pre p q').
  { split; [eapply frame_trans; eassumption|]. intros Hca. destruct (Hp Hca) as (cs0 & He & Hn).
    exists (cs0 ++ cs); split; [eapply eats_trans; eassumption|apply neutral_app; assumption]. }
  destruct o as [[]|e| | |]; try contradiction.
  - apply Hk; auto.
  - destruct HP as [Hf' Hp']. split; [exact Hf'|]. split; [rewrite G2, G3; exact Hc|].
    intros Hca. destruct (Hp' Hca) as (cs0 & He & Hn). exists cs0; split; [exact He|left; apply Hn].
Qed.

Lemma lang_doc_start b w : node_k (ev_k EDocumentEnd docs_lang) w -> docs_lang (EDocumentStart b :: w).
Proof.
  intros (n & r & Hn & -> & r' & -> & d & Hd & ->).
  exists (EDocumentStart b :: n ++ EDocumentEnd :: d). split; [constructor; assumption|].
  cbn. rewrite <- app_assoc. reflexivity.
Qed.

Lemma explicit_document_start_ok p q : Pre p q -> doc_level (p_state q) = true -> p_states q = [] ->
  wp explicit_document_start q (step_ok p docs_lang).
Proof.
  intros HP Hd He. unfold explicit_document_start.
  assert (Hcfg : cfg_ok (p_state q) (p_states q)) by (unfold cfg_ok; rewrite Hd; exact He).
  apply w_loop; [exact HP|exact Hcfg|apply process_directives_ok|].
  intros q' HP' E1 E2. clear HP. rewrite <- E2 in *. rewrite <- E1 in *. clear E1 E2.
  wstep. wcase; try (wgo; fail). wstep. wstep. wstep.
  wretx; try exact I; cbn; try reflexivity; try discriminate.
  - unfold cfg_ok; cbn. rewrite He; reflexivity.
  - apply lang_doc_start.
Qed.

Lemma document_start_ok p (b : bool) : p_states p = [] ->
  p_state p = (if b then StImplicitDocumentStart else StDocumentStart) ->
  wp (document_start b) p (step_ok p docs_lang).
Proof.
  intros Hs E. unfold document_start.
  assert (Hdl : doc_level (p_state p) = true) by (rewrite E; destruct b; reflexivity).
  assert (Hcfg : cfg_ok (p_state p) (p_states p)) by (unfold cfg_ok; rewrite Hdl; exact Hs).
  apply w_loop; [apply Pre_refl|exact Hcfg|apply skip_document_ends_ok|].
  intros q HP E1 E2. rewrite <- E2 in *. rewrite <- E1 in *. clear E1 E2.
  wstep.
  assert (Hex : wp explicit_document_start (cached t r q) (step_ok p docs_lang)).
  { apply explicit_document_start_ok; auto. }
  assert (Him : wp (if b then
        process_directives ;;; push_state StDocumentEnd ;;; goto StBlockNode ;;;
        ret (EDocumentStart false, k_span t)
      else explicit_document_start)%m (cached t r q) (step_ok p docs_lang)).
  { destruct b; [|exact Hex]. apply w_loop; [exact HP0|cfg|apply process_directives_ok|].
    clear HP HP0. intros q' HP E1 E2. cbn in E1, E2.
    wstep. wstep. wretx; try exact I; cbn; try reflexivity; try discriminate.
    - unfold cfg_ok; cbn. rewrite E2, Hs; reflexivity.
    - apply lang_doc_start. }
  destruct (k_type t) eqn:Et; try exact Hex; try exact Him.
  wstep. wstep. wretx; try exact I; cbn; try reflexivity; try discriminate.
  - unfold cfg_ok; cbn. exact Hs.
  - intros w ->. exists []; split; [constructor|reflexivity].
Qed.

Lemma document_content_ok p : stack_ok (p_states p) = true -> p_state p = StDocumentContent ->
  wp document_content p (step_ok p (node_k (K (p_states p)))).
Proof.
  intros Hs E. winit E. pose proof (Pre_refl p) as HP. unfold document_content.
  wstep. wcase; wgo.
Qed.

Lemma w_modify p q f (lg : lang) (k : unit -> PM (event * span)) :
  Pre p q -> Pre p (f q) -> wp (k tt) (f q) (step_ok p lg) ->
  wp (bind (modify f) k) q (step_ok p lg).
Proof. intros _ _ H. apply wp_bind, wp_modify, H. Qed.

Lemma document_end_ok p : p_states p = [] -> p_state p = StDocumentEnd ->
  wp document_end p (step_ok p (ev_k EDocumentEnd docs_lang)).
Proof.
  intros Hs E. unfold document_end.
  assert (Hdl : doc_level (p_state p) = true) by (rewrite E; reflexivity).
  assert (Hcfg : cfg_ok (p_state p) (p_states p)) by (unfold cfg_ok; rewrite Hdl; exact Hs).
  pose proof (Pre_refl p) as HP. wstep.
  assert (Htags : forall q, Pre p q -> Pre p (if p_keep_tags q then q else set_tags [] q)).
  { intros q HPq. destruct (p_keep_tags q); [exact HPq|].
    eapply Pre_same; [exact HPq|repeat split|..]; reflexivity. }
  assert (Hts : forall q, p_state (if p_keep_tags q then q else set_tags [] q) = p_state q /\
                p_states (if p_keep_tags q then q else set_tags [] q) = p_states q).
  { intros q; destruct (p_keep_tags q); split; reflexivity. }
  assert (Hlang : forall q e sp, Pre p q -> e = EDocumentEnd ->
     p_states q = [] -> p_state q = StDocumentStart \/ p_state q = StImplicitDocumentStart ->
     wp (ret (e, sp)) q (step_ok p (ev_k EDocumentEnd docs_lang))).
  { intros q e sp HPq -> Hsq Hst. eapply w_ret; [exact HPq| | |reflexivity|discriminate|].
    - unfold cfg_ok. destruct Hst as [->| ->]; exact Hsq.
    - unfold cache_ok; destruct Hst as [->| ->]; exact I.
    - intros w Hw. exists w; split; [reflexivity|]. destruct Hst as [E'|E']; rewrite E' in Hw; exact Hw. }
  assert (Hother : wp
      (bind (ret tt) (fun _ => bind (modify (fun p => if p_keep_tags p then p else set_tags [] p)) (fun _ =>
         let* tk2 := peek_token in
         match k_type tk2 with
         | TVersionDirective _ _ | TTagDirective _ _ =>
             perr (k_span tk2) "missing explicit document end marker before directive"
         | _ => goto StDocumentStart ;;; ret (EDocumentEnd, k_span t)
         end)))%m (cached t r p) (step_ok p (ev_k EDocumentEnd docs_lang))).
  { wstep. apply w_modify; [exact HP0|apply Htags, HP0|].
    destruct (Hts (cached t r p)) as [T1 T2]. specialize (Htags _ HP0).
    set (q := if p_keep_tags _ then _ else _) in *. clearbody q. cbn in T1, T2.
    rewrite <- T1, <- T2 in Hcfg. wstep.
    wcase; try (wgo; fail); wstep; apply Hlang; auto; cbn; congruence. }
  destruct (k_type t) eqn:Et; try exact Hother.
  cbv iota beta zeta. wstep. apply w_modify; [exact HP1|apply Htags, HP1|].
  destruct (Hts (set_token None (cached t r p))) as [T1 T2]. specialize (Htags _ HP1).
  set (q := if p_keep_tags _ then _ else _) in *. clearbody q. cbn in T1, T2.
  wstep. apply Hlang; auto. cbn; congruence.
Qed.

Theorem state_machine_ok p : good p -> p_state p <> StEnd ->
  wp state_machine p (step_ok p (Lp p)).
Proof.
  intros Hg Hne. unfold good, cfg_ok in Hg.
  assert (H : forall f lg, (p_state p <> StEnd -> state_machine p = f p) ->
     wp f p (step_ok p lg) -> (forall w, lg w <-> Lp p w) -> wp state_machine p (step_ok p (Lp p))).
  { intros f lg H1 H2 H3. unfold wp in *. rewrite (H1 Hne). destruct H2 as (A & B & C).
    split; [exact A|]. split; [exact B|].
    destruct (snd (f p)) as [[e sp]|e| | |]; try contradiction; [|exact C].
    destruct C as (C1 & C2 & C3). split; [exact C1|]. split; [|exact C3].
    intros w Hw. apply H3, C2, Hw. }
  destruct (p_state p) eqn:E; cbn [doc_level] in Hg; try congruence.
  all: eapply H; [intros _; unfold state_machine; rewrite E; reflexivity| |unfold Lp, L; rewrite E; cbn; reflexivity].
  - pose proof (stream_start_ok p E) as H'. unfold Lp, L in H'. rewrite E in H'. cbn in H'. apply H'.
    unfold good, cfg_ok; rewrite E; exact Hg.
  - apply document_start_ok; assumption.
  - apply document_start_ok; assumption.
  - apply document_content_ok; assumption.
  - apply document_end_ok; assumption.
  - pose proof (Pre_refl p) as HP. apply w_node; auto. rewrite E; reflexivity.
  - apply block_sequence_entry_ok; assumption.
  - apply block_sequence_entry_ok; assumption.
  - apply indentless_sequence_entry_ok; assumption.
  - apply block_mapping_key_ok; assumption.
  - apply block_mapping_key_ok; assumption.
  - apply block_mapping_value_ok; assumption.
  - apply flow_sequence_entry_ok; assumption.
  - apply flow_sequence_entry_ok; assumption.
  - apply flow_sequence_entry_mapping_key_ok; assumption.
  - apply flow_sequence_entry_mapping_value_ok; assumption.
  - apply flow_sequence_entry_mapping_end_ok; assumption.
  - apply flow_mapping_key_ok; assumption.
  - apply flow_mapping_key_ok; assumption.
  - apply flow_mapping_value_ok; assumption.
  - apply flow_mapping_value_ok; assumption.
  - apply flow_mapping_key_ok; assumption.
  - apply block_mapping_value_ok; assumption.
Qed.
