(** Proof that one request to the parser keeps the invariants. *)
From Verif Require Import Base Tokens Parser ParserRun SpecEvents ParserProofs.
From Coq Require Import Lia String.
Local Open Scope list_scope.

Lemma eats_one p p' t r :
  view p = t :: r -> view p' = r ->
  p_anchors p' = p_anchors p -> p_anchor_id_count p' = p_anchor_id_count p ->
  (forall n, k_type t <> TAnchor n) ->
  eats p p' [t].
Proof.
  intros H1 H2 H3 H4 H5. split; [cbn; congruence|]. cbn.
  destruct (k_type t) eqn:E; try (rewrite H3, H4; reflexivity). exfalso; eapply H5; reflexivity.
Qed.
Lemma eats_anchor p p' t r n :
  view p = t :: r -> view p' = r -> k_type t = TAnchor n ->
  p_anchors p' = map_insert n (p_anchor_id_count p) (p_anchors p) ->
  p_anchor_id_count p' = S (p_anchor_id_count p) ->
  eats p p' [t].
Proof.
  intros H1 H2 H3 H4 H5. split; [cbn; congruence|]. cbn. rewrite H3, H4, H5; reflexivity.
Qed.
Lemma eats_none p p' : view p' = view p -> p_anchors p' = p_anchors p ->
  p_anchor_id_count p' = p_anchor_id_count p -> eats p p' [].
Proof. intros H1 H2 H3; split; cbn; congruence. Qed.

Lemma parse_properties_ok p : wp parse_properties p (props_post p).
Proof.
  unfold parse_properties. wp1. apply wp_peek; [intros t r Hv|intros Hv].
  2:{ split; [apply frame_refl|]. repeat split. exists []. repeat split. }
  assert (Hno : props_post p (cached t r p) (Ok (0, None))).
  { split; [repeat split|]. repeat split. exists []. split; [apply eats_none; auto|].
    split; [reflexivity|]. left; split; reflexivity. }
  destruct (k_type t) eqn:Et; try exact Hno.
  - (* anchor *)
    wp1. apply (wp_fetch _ t); [reflexivity|]. rewrite Et.
    wp1. apply wp_register. wp1. apply wp_peek; [intros t2 r2 Hv2|intros Hv2].
    2:{ split; [repeat split|]. repeat split. exists [t]. split.
        { eapply eats_anchor; try eassumption; reflexivity. }
        split; [cbn; rewrite Et; reflexivity|exact I]. }
    assert (Hno2 : props_post p (cached t2 r2 (set_anchors
         (map_insert name (p_anchor_id_count (set_token None (cached t r p)))
            (p_anchors (set_token None (cached t r p))))
         (S (p_anchor_id_count (set_token None (cached t r p))))
         (set_token None (cached t r p)))) (Ok (p_anchor_id_count p, None))).
    { split; [repeat split|]. repeat split. exists [t]. split.
      { eapply eats_anchor; try eassumption; try reflexivity.
        unfold view in Hv2; cbn in Hv2. unfold view; cbn. congruence. }
      split; [cbn; rewrite Et; reflexivity|]. right. split; [reflexivity|].
      exists name; cbn; rewrite Et; reflexivity. }
    destruct (k_type t2) eqn:Et2; try exact Hno2.
    wp1. apply (wp_fetch _ t2); [reflexivity|]. rewrite Et2. wp1. apply wp_resolve.
    + intros tg. apply wp_ret. split; [repeat split|]. repeat split. exists [t; t2].
      unfold view in Hv2; cbn in Hv2. split.
      { split; [unfold view at 2; cbn; congruence|]. cbn. rewrite Et, Et2. reflexivity. }
      cbn. rewrite Et, Et2. split; [reflexivity|]. right. split; [reflexivity|].
      exists name; reflexivity.
    + intros e. split; [repeat split|]. repeat split. exists [t; t2].
      unfold view in Hv2; cbn in Hv2. split.
      { split; [unfold view at 2; cbn; congruence|]. cbn. rewrite Et, Et2. reflexivity. }
      cbn. rewrite Et, Et2. split; [reflexivity|exact I].
  - (* tag *)
    wp1. apply (wp_fetch _ t); [reflexivity|]. rewrite Et. wp1. apply wp_resolve.
    2:{ intros e. split; [repeat split|]. repeat split. exists [t]. split.
        { eapply eats_one; try eassumption; try reflexivity. intros n; congruence. }
        cbn; rewrite Et; split; [reflexivity|exact I]. }
    intros tg. wp1. apply wp_peek; [intros t2 r2 Hv2|intros Hv2].
    2:{ split; [repeat split|]. repeat split. exists [t]. split.
        { eapply eats_one; try eassumption; try reflexivity. intros n; congruence. }
        cbn; rewrite Et; split; [reflexivity|exact I]. }
    assert (Hno2 : props_post p (cached t2 r2 (set_token None (cached t r p))) (Ok (0, Some tg))).
    { split; [repeat split|]. repeat split. exists [t]. split.
      { eapply eats_one; try eassumption; try reflexivity.
        - unfold view in Hv2; cbn in Hv2. unfold view; cbn. congruence.
        - intros n; congruence. }
      cbn; rewrite Et; split; [reflexivity|]. left; split; reflexivity. }
    destruct (k_type t2) eqn:Et2; try exact Hno2.
    wp1. apply (wp_fetch _ t2); [reflexivity|]. rewrite Et2. wp1. apply wp_register.
    apply wp_ret. split; [repeat split|]. repeat split. exists [t; t2].
    unfold view in Hv2; cbn in Hv2. split.
    { split; [unfold view at 2; cbn; congruence|]. cbn. rewrite Et, Et2. reflexivity. }
    cbn. rewrite Et, Et2. split; [reflexivity|]. right. split; [reflexivity|].
    exists name; reflexivity.
Qed.

(** Content of a node whose properties are already read: [p0] is the parser before the
    properties, [cs] the property tokens. *)
Lemma parse_content_ok p0 p cs b i a t :
  doc_level (p_state p) = false -> stack_ok (p_states p) = true ->
  frame p0 p -> p_states p = p_states p0 -> eats p0 p cs -> alias_names cs = [] ->
  (a = 0 /\ anchor_names cs = []) \/ (a = p_anchor_id_count p0 /\ exists n, anchor_names cs = [n]) ->
  wp (parse_content b i a t) p (step_post p0 (node_k (K (p_states p0)))).
Proof.
  intros Hd Hs Hf Hst He Hal Han. unfold parse_content. wp1.
  assert (Hcfg : cfg_ok (p_state p) (p_states p)) by (unfold cfg_ok; rewrite Hd; exact Hs).
  apply wp_peek; [intros tk r Hv|intros Hv].
  2:{ split; [exact Hf|]. split; [exact Hcfg|]. exists cs; split; [exact He|].
      left; exact Hal. }
  assert (He0 : forall p', view p' = view p -> p_anchors p' = p_anchors p ->
                 p_anchor_id_count p' = p_anchor_id_count p -> eats p0 p' cs).
  { intros p' H1 H2 H3. rewrite <- (app_nil_r cs). eapply eats_trans; [exact He|].
    apply eats_none; assumption. }
  assert (Hother : wp (if is_some t || Nat.ltb 0 a
     then bind pop_state (fun _ => ret (EScalar (empty_scalar_with_anchor a t), k_span tk))
     else perr (k_span tk) "while parsing a node, did not find expected node content")
       (cached tk r p) (step_post p0 (node_k (K (p_states p0))))).
  { destruct (is_some t || Nat.ltb 0 a).
    - wp1. apply wp_pop; [exact Hs|]. intros s rs Hr Hok Hnf. wp1. split; [exact Hf|].
      split; [exact Hok|]. split; [apply cache_ok_pop; exact Hnf|]. split.
      { intros w Hw. rewrite <- Hst. eapply leaf_lang; try eassumption; try reflexivity.
        left; eexists; reflexivity. }
      exists cs; split; [apply He0; [unfold view; cbn|..]; auto|].
      split; [exact Hal|exact Han].
    - wp1. split; [exact Hf|]. split; [exact Hcfg|]. exists cs; split; [apply He0; auto|].
      left; exact Hal. }
  assert (Hstart : forall st e, st <> StEnd -> doc_level st = false -> event_anchor e = a ->
     (forall i, e <> EAlias i) ->
     cache_ok (set_state st (cached tk r p)) ->
     (forall w, L1 st (K (p_states p)) w -> node_k (K (p_states p)) (e :: w)) ->
     wp (bind (goto st) (fun _ => ret (e, k_span tk))) (cached tk r p)
        (step_post p0 (node_k (K (p_states p0))))).
  { intros st e _ Hdl Hea Hna Hc Hl. wp1. wp1. wp1. split; [exact Hf|]. split.
    { unfold cfg_ok; cbn. rewrite Hdl. exact Hs. }
    split; [exact Hc|]. split.
    { intros w Hw. rewrite <- Hst. apply Hl, Hw. }
    exists cs; split; [apply He0; auto|].
    unfold anchor_effect. rewrite Hea.
    destruct e; try (split; [exact Hal|exact Han]). exfalso; eapply Hna; reflexivity. }
  destruct (k_type tk) eqn:Etk; try exact Hother.
  - (* block sequence *)
    destruct b; [|exact Hother]. apply Hstart; try discriminate; try reflexivity.
    + cbn. eexists; split; [reflexivity|exact Etk].
    + intros w. apply node_k_seq.
  - destruct b; [|exact Hother]. apply Hstart; try discriminate; try reflexivity.
    + cbn. eexists; split; [reflexivity|exact Etk].
    + intros w. apply node_k_map.
  - destruct i; [|exact Hother]. apply Hstart; try discriminate; try reflexivity.
    intros w. apply node_k_seq.
  - apply Hstart; try discriminate; try reflexivity.
    + cbn. eexists; split; [reflexivity|exact Etk].
    + intros w. apply node_k_seq.
  - apply Hstart; try discriminate; try reflexivity.
    + cbn. eexists; split; [reflexivity|exact Etk].
    + intros w. apply node_k_map.
  - (* scalar *)
    wp1. apply wp_pop; [exact Hs|]. intros s rs Hr Hok Hnf. wp1.
    apply (wp_fetch _ tk); [reflexivity|]. rewrite Etk. wp1. split; [exact Hf|].
    split; [exact Hok|]. split; [apply cache_ok_pop; exact Hnf|]. split.
    { intros w Hw. rewrite <- Hst. eapply leaf_lang; try eassumption; try reflexivity.
      left; eexists; reflexivity. }
    exists (cs ++ [tk]); split.
    { eapply eats_trans; [exact He|]. eapply eats_one; try eassumption; try reflexivity.
      intros n; congruence. }
    unfold anchor_effect. cbn [event_anchor sv_anchor].
    rewrite alias_names_app, anchor_names_app. cbn. rewrite Etk, !app_nil_r.
    split; [exact Hal|exact Han].
Qed.

Lemma parse_node_ok p b i :
  doc_level (p_state p) = false -> stack_ok (p_states p) = true ->
  wp (parse_node b i) p (step_post p (node_k (K (p_states p)))).
Proof.
  intros Hd Hs. unfold parse_node. wp1.
  assert (Hcfg : cfg_ok (p_state p) (p_states p)) by (unfold cfg_ok; rewrite Hd; exact Hs).
  apply wp_peek; [intros tk r Hv|intros Hv].
  2:{ split; [apply frame_refl|]. split; [exact Hcfg|]. exists []; split; [apply eats_refl|].
      left; reflexivity. }
  assert (Hprops : wp (bind parse_properties (fun x => let (a, t) := x in parse_content b i a t))
     (cached tk r p) (step_post p (node_k (K (p_states p))))).
  { wp1. eapply wp_conseq; [apply parse_properties_ok|].
    intros p' o (Hf & H1 & H2 & cs & He & Hal & Ho).
    assert (He' : eats p p' cs).
    { change cs with ([] ++ cs). eapply eats_trans; [|exact He]. apply eats_none; auto. }
    assert (Hf' : frame p p') by exact Hf.
    destruct o as [[a t]|e| | |]; try contradiction.
    - apply parse_content_ok with (cs := cs); try assumption.
      + rewrite H1; exact Hd.
      + rewrite H2; exact Hs.
    - split; [exact Hf'|]. split; [rewrite H1, H2; exact Hcfg|]. exists cs; split; [exact He'|].
      left; exact Hal. }
  destruct (k_type tk) eqn:Etk; try exact Hprops.
  wp1. apply wp_pop; [exact Hs|]. intros s rs Hr Hok Hnf. wp1.
  apply (wp_fetch _ tk); [reflexivity|]. rewrite Etk. wp1. wp1.
  assert (Heats : eats p (set_token None (set_states rs (set_state s (cached tk r p)))) [tk]).
  { eapply eats_one; try eassumption; try reflexivity. intros n; congruence. }
  cbn [p_anchors cached set_token set_states set_state set_toks].
  destruct (map_get name (p_anchors p)) as [id|] eqn:Eg; wp1.
  - split; [repeat split|]. split; [exact Hok|]. split; [apply cache_ok_pop; exact Hnf|]. split.
    { intros w Hw. eapply leaf_lang; try eassumption; try reflexivity.
      right; eexists; reflexivity. }
    exists [tk]; split; [exact Heats|]. cbn. rewrite Etk. split; [reflexivity|].
    exists name; split; [reflexivity|exact Eg].
  - split; [repeat split|]. split; [exact Hok|]. exists [tk]; split; [exact Heats|].
    right; cbn; rewrite Etk. split; [reflexivity|]. exists name; split; [reflexivity|exact Eg].
Qed.

(** ** Walking through one request *)
(** Tokens that carry neither an anchor nor an alias. *)
Definition neutral (cs : list token) : Prop := anchor_names cs = [] /\ alias_names cs = [].
Definition neutral1 (t : token) : Prop := neutral [t].

Lemma neutral_app a b : neutral a -> neutral b -> neutral (a ++ b).
Proof.
  intros [H1 H2] [H3 H4]; split; [rewrite anchor_names_app, H1, H3|rewrite alias_names_app, H2, H4];
    reflexivity.
Qed.
Lemma anchors_after_neutral cs m c : anchor_names cs = [] -> anchors_after cs m c = (m, c).
Proof.
  revert m c; induction cs as [|t r IH]; intros m c H; cbn in *; [reflexivity|].
  destruct (k_type t); try (apply IH, H). discriminate.
Qed.

(** [p] became [q] by reading tokens without anchors and aliases. *)
Definition Pre0 (p q : parser) : Prop := frame p q /\ exists cs, eats p q cs /\ neutral cs.
Definition Pre (p q : parser) : Prop :=
  frame p q /\ (cache_ok p -> exists cs, eats p q cs /\ neutral cs).

Definition step_ok (p : parser) (lg : lang) (p' : parser) (o : out (event * span)) : Prop :=
  frame p p' /\ cfg_ok (p_state p') (p_states p') /\
  match o with
  | Ok (e, _) =>
      cache_ok p' /\
      (forall w, L (p_state p') (p_states p') w -> lg (e :: w)) /\
      (cache_ok p -> exists cs, eats p p' cs /\ anchor_effect e cs (p_anchors p) (p_anchor_id_count p))
  | Err _ => cache_ok p -> exists cs, eats p p' cs /\ err_effect cs (p_anchors p)
  | _ => False
  end.

Lemma frame_trans p q r : frame p q -> frame q r -> frame p r.
Proof. unfold frame; intuition congruence. Qed.

Lemma eats_neutral_env p q cs : eats p q cs -> neutral cs ->
  p_anchors q = p_anchors p /\ p_anchor_id_count q = p_anchor_id_count p.
Proof.
  intros [_ H] [H1 _]. rewrite anchors_after_neutral in H by exact H1. inversion H; auto.
Qed.

Lemma step_compose p q (lg lg' : lang) p' o :
  Pre p q -> (forall w, lg w -> lg' w) -> step_post q lg p' o -> step_ok p lg' p' o.
Proof.
  intros [Hf Hp] Hl (Hf' & Hc & Ho). split; [eapply frame_trans; eassumption|]. split; [exact Hc|].
  destruct o as [[e sp]|e| | |]; try contradiction.
  - destruct Ho as (Hca & Hw & cs & He & Ha). split; [exact Hca|]. split; [auto|].
    intros Hcp. destruct (Hp Hcp) as (cs0 & He0 & Hn). destruct (eats_neutral_env _ _ _ He0 Hn) as [E1 E2].
    exists (cs0 ++ cs). split; [eapply eats_trans; eassumption|].
    rewrite E1, E2 in Ha. destruct Hn as [N1 N2].
    destruct e; cbn [anchor_effect] in *; rewrite anchor_names_app, alias_names_app, N1, N2; exact Ha.
  - destruct Ho as (cs & He & Ha). intros Hcp.
    destruct (Hp Hcp) as (cs0 & He0 & Hn). destruct (eats_neutral_env _ _ _ He0 Hn) as [E1 E2].
    exists (cs0 ++ cs). split; [eapply eats_trans; eassumption|].
    rewrite E1 in Ha. destruct Hn as [N1 N2]. unfold err_effect in *.
    rewrite anchor_names_app, alias_names_app, N1, N2. exact Ha.
Qed.

Lemma Pre_refl p : Pre p p.
Proof. split; [apply frame_refl|]. intros _; exists []; split; [apply eats_refl|split; reflexivity]. Qed.

Lemma Pre_same p q q' : Pre p q -> frame q q' -> view q' = view q -> p_anchors q' = p_anchors q ->
  p_anchor_id_count q' = p_anchor_id_count q -> Pre p q'.
Proof.
  intros [Hf Hp] H1 H2 H3 H4. split; [eapply frame_trans; eassumption|].
  intros Hc. destruct (Hp Hc) as (cs & [E1 E2] & Hn). exists cs; split; [|exact Hn].
  split; congruence.
Qed.
Lemma Pre_drop p q q' t : Pre p q -> frame q q' -> p_token q = Some t -> view q = t :: view q' ->
  neutral1 t -> p_anchors q' = p_anchors q -> p_anchor_id_count q' = p_anchor_id_count q -> Pre p q'.
Proof.
  intros [Hf Hp] H1 H2 H3 H4 H5 H6. split; [eapply frame_trans; eassumption|].
  intros Hc. destruct (Hp Hc) as (cs & He & Hn). exists (cs ++ [t]); split; [|apply neutral_app; assumption].
  eapply eats_trans; [exact He|]. eapply eats_one; try eassumption; auto.
  intros n E. destruct H4 as [H4 _]. cbn in H4. rewrite E in H4. discriminate.
Qed.

Lemma w_peek p q (lg : lang) (k : token -> PM (event * span)) :
  Pre p q -> cfg_ok (p_state q) (p_states q) ->
  (forall t r, view q = t :: r -> Pre p (cached t r q) -> wp (k t) (cached t r q) (step_ok p lg)) ->
  wp (bind peek_token k) q (step_ok p lg).
Proof.
  intros HP Hc Hk. apply wp_bind. apply wp_peek.
  - intros t r Hv. apply Hk; [exact Hv|]. eapply Pre_same; [exact HP|repeat split|..]; auto.
  - intros _. destruct HP as [Hf Hp]. split; [exact Hf|]. split; [exact Hc|].
    intros Hca. destruct (Hp Hca) as (cs & He & Hn). exists cs; split; [exact He|left; apply Hn].
Qed.
Lemma w_skip p q t (lg : lang) (k : unit -> PM (event * span)) :
  Pre p q -> p_token q = Some t -> neutral1 t ->
  (Pre p (set_token None q) -> wp (k tt) (set_token None q) (step_ok p lg)) ->
  wp (bind skip k) q (step_ok p lg).
Proof.
  intros HP Ht Hn Hk. apply wp_bind, wp_modify, Hk.
  eapply Pre_drop; [exact HP|repeat split|exact Ht| |exact Hn|reflexivity|reflexivity].
  unfold view; cbn. rewrite Ht. reflexivity.
Qed.
Lemma w_goto p q s (lg : lang) (k : unit -> PM (event * span)) :
  Pre p q -> (Pre p (set_state s q) -> wp (k tt) (set_state s q) (step_ok p lg)) ->
  wp (bind (goto s) k) q (step_ok p lg).
Proof.
  intros HP Hk. apply wp_bind, wp_modify, Hk. eapply Pre_same; [exact HP|repeat split|..]; auto.
Qed.
Lemma w_push p q s (lg : lang) (k : unit -> PM (event * span)) :
  Pre p q -> (Pre p (set_states (s :: p_states q) q) ->
              wp (k tt) (set_states (s :: p_states q) q) (step_ok p lg)) ->
  wp (bind (push_state s) k) q (step_ok p lg).
Proof.
  intros HP Hk. apply wp_bind, wp_modify, Hk. eapply Pre_same; [exact HP|repeat split|..]; auto.
Qed.
Lemma w_pop p q (lg : lang) (k : unit -> PM (event * span)) :
  Pre p q -> stack_ok (p_states q) = true ->
  (forall s r, p_states q = s :: r -> cfg_ok s r -> not_first s = true ->
     Pre p (set_states r (set_state s q)) ->
     wp (k tt) (set_states r (set_state s q)) (step_ok p lg)) ->
  wp (bind pop_state k) q (step_ok p lg).
Proof.
  intros HP Hs Hk. apply wp_bind, wp_pop; [exact Hs|]. intros s r H1 H2 H3. apply Hk; assumption.
Qed.
Lemma w_err p q (lg : lang) sp m : Pre p q -> cfg_ok (p_state q) (p_states q) ->
  wp (perr sp m) q (step_ok p lg).
Proof.
  intros [Hf Hp] Hc. apply wp_fail. split; [exact Hf|]. split; [exact Hc|].
  intros Hca. destruct (Hp Hca) as (cs & He & Hn). exists cs; split; [exact He|left; apply Hn].
Qed.
(** Returning an event that carries no anchor and is not an alias. *)
Lemma w_ret p q (lg : lang) e sp :
  Pre p q -> cfg_ok (p_state q) (p_states q) -> cache_ok q ->
  event_anchor e = 0 -> (forall i, e <> EAlias i) ->
  (forall w, L (p_state q) (p_states q) w -> lg (e :: w)) ->
  wp (ret (e, sp)) q (step_ok p lg).
Proof.
  intros [Hf Hp] Hc Hca H0 Hna Hl. apply wp_ret. split; [exact Hf|]. split; [exact Hc|].
  split; [exact Hca|]. split; [exact Hl|]. intros Hcp.
  destruct (Hp Hcp) as (cs & He & N1 & N2). exists cs; split; [exact He|].
  destruct e; cbn [anchor_effect]; try (split; [exact N2|left; split; [exact H0|exact N1]]).
  exfalso; eapply Hna; reflexivity.
Qed.
Lemma w_node p q b i (lg : lang) :
  Pre p q -> doc_level (p_state q) = false -> stack_ok (p_states q) = true ->
  (forall w, node_k (K (p_states q)) w -> lg w) ->
  wp (parse_node b i) q (step_ok p lg).
Proof.
  intros HP Hd Hs Hl. eapply wp_conseq; [apply parse_node_ok; assumption|].
  intros p' o H. eapply step_compose; eassumption.
Qed.

(** Dropping the token that opened a collection. *)
Lemma w_open p (b : bool) ty (lg : lang) (k : unit -> PM (event * span)) :
  cfg_ok (p_state p) (p_states p) ->
  (b = true -> cache_ok p -> exists t, p_token p = Some t /\ k_type t = ty) ->
  (forall t, k_type t = ty -> neutral1 t) ->
  (forall q, Pre p q -> p_state q = p_state p -> p_states q = p_states p ->
     wp (k tt) q (step_ok p lg)) ->
  wp (bind (if b then bind peek_token (fun _ => skip) else ret tt) k) p (step_ok p lg).
Proof.
  intros Hc Hcache Hn Hk. destruct b; [|apply wp_bind, wp_ret, Hk; auto using Pre_refl].
  apply wp_bind, wp_bind, wp_peek.
  - intros t r Hv. apply wp_modify. apply Hk; try reflexivity. split; [repeat split|].
    intros Hca. destruct (Hcache eq_refl Hca) as (t' & Ht & Hty).
    assert (t' = t) as -> by (unfold view in Hv; rewrite Ht in Hv; congruence).
    exists [t]; split; [|apply Hn, Hty]. eapply eats_one; try eassumption; try reflexivity.
    intros n E. apply Hn in Hty as [Hty _]; cbn in Hty; rewrite E in Hty; discriminate.
  - intros _. split; [apply frame_refl|]. split; [exact Hc|]. intros _.
    exists []; split; [apply eats_refl|left; reflexivity].
Qed.

Ltac neu := match goal with E : k_type ?t = _ |- neutral1 ?t => split; cbn; rewrite E; reflexivity end.
Ltac cfg := unfold cfg_ok in *; cbn in *; (assumption || reflexivity || auto).
Ltac wstep :=
  match goal with
  | HP : Pre ?p ?q |- wp (bind peek_token _) ?q (step_ok ?p _) =>
      apply (w_peek p q); [exact HP|cfg|];
      let t := fresh "t" in let r := fresh "r" in let Hv := fresh "Hv" in let H := fresh "HP" in
      intros t r Hv H; cbn beta
  | HP : Pre ?p ?q |- wp (bind skip _) ?q (step_ok ?p _) =>
      eapply (w_skip p q); [exact HP|reflexivity|neu|];
      let H := fresh "HP" in intros H; cbn beta
  | HP : Pre ?p ?q |- wp (bind (goto _) _) ?q (step_ok ?p _) =>
      apply (w_goto p q); [exact HP|]; let H := fresh "HP" in intros H; cbn beta
  | HP : Pre ?p ?q |- wp (bind (push_state _) _) ?q (step_ok ?p _) =>
      apply (w_push p q); [exact HP|]; let H := fresh "HP" in intros H; cbn beta
  | HP : Pre ?p ?q |- wp (bind pop_state _) ?q (step_ok ?p _) =>
      apply (w_pop p q); [exact HP|cfg|];
      let s := fresh "s" in let r := fresh "r" in let E := fresh "Es" in
      let Hc := fresh "Hc" in let Hn := fresh "Hnf" in let H := fresh "HP" in
      intros s r E Hc Hn H; cbn beta
  | HP : Pre ?p ?q |- wp (perr _ _) ?q (step_ok ?p _) => apply (w_err p q); [exact HP|cfg]
  | |- wp (bind (ret _) _) _ _ => apply wp_bind, wp_ret
  end.

Definition good (p : parser) : Prop := cfg_ok (p_state p) (p_states p).
