(** Proofs about the parser: language inclusion, absence of panics, anchors and aliases. *)
From Verif Require Import Base Tokens Parser ParserRun SpecEvents.
From Coq Require Import Lia String.
Local Open Scope list_scope.

(** ** Basic facts *)
Lemma text_eqb_refl a : text_eqb a a = true.
Proof. induction a as [|x a IH]; cbn; [reflexivity|]. rewrite N.eqb_refl, IH; reflexivity. Qed.

Lemma text_eqb_eq a b : text_eqb a b = true <-> a = b.
Proof.
  split; [|intros ->; apply text_eqb_refl].
  revert b; induction a as [|x a IH]; intros [|y b]; cbn; try discriminate; [reflexivity|].
  intros H; apply andb_true_iff in H as [H1 H2]. apply N.eqb_eq in H1.
  f_equal; [exact H1|]. apply IH, H2.
Qed.

Lemma text_eqb_neq a b : text_eqb a b = false <-> a <> b.
Proof.
  split; intros H.
  - intros ->; rewrite text_eqb_refl in H; discriminate.
  - destruct (text_eqb a b) eqn:E; [|reflexivity]. apply text_eqb_eq in E; contradiction.
Qed.

Lemma text_eqb_sym a b : text_eqb a b = text_eqb b a.
Proof.
  destruct (text_eqb a b) eqn:E.
  - apply text_eqb_eq in E; subst; symmetry; apply text_eqb_refl.
  - symmetry; apply text_eqb_neq; apply text_eqb_neq in E; congruence.
Qed.

Lemma map_get_remove {V} k k' (m : list (text * V)) :
  map_get k (map_remove k' m) = if text_eqb k k' then None else map_get k m.
Proof.
  induction m as [|[k1 v1] m IH]; cbn.
  - destruct (text_eqb k k'); reflexivity.
  - destruct (text_eqb k' k1) eqn:E.
    + apply text_eqb_eq in E; subst k1. rewrite IH. destruct (text_eqb k k'); reflexivity.
    + cbn. destruct (text_eqb k k1) eqn:E1.
      * apply text_eqb_eq in E1; subst k1. rewrite text_eqb_sym, E. reflexivity.
      * exact IH.
Qed.

Lemma map_get_insert {V} k k' (v : V) m :
  map_get k (map_insert k' v m) = if text_eqb k k' then Some v else map_get k m.
Proof.
  unfold map_insert; cbn. destruct (text_eqb k k') eqn:E; [reflexivity|].
  rewrite map_get_remove, E; reflexivity.
Qed.

(** ** Weakest preconditions for the parser monad *)
Definition wp {A} (m : PM A) (p : parser) (Q : parser -> out A -> Prop) : Prop :=
  Q (fst (m p)) (snd (m p)).

Lemma wp_bind {A B} (m : PM A) (k : A -> PM B) p Q :
  wp m p (fun p' o => match o with
                      | Ok a => wp (k a) p' Q
                      | Err e => Q p' (Err e)
                      | Panic => Q p' Panic
                      | Ub => Q p' Ub
                      | Fuel => Q p' Fuel
                      end) -> wp (bind m k) p Q.
Proof. unfold wp, bind. destruct (m p) as [p' [a|e| | |]]; cbn; auto. Qed.

Lemma wp_ret {A} (a : A) p (Q : _ -> _ -> Prop) : Q p (Ok a) -> wp (ret a) p Q.
Proof. auto. Qed.
Lemma wp_fail {A} e p (Q : _ -> _ -> Prop) : Q p (Err e) -> wp (@fail parser A e) p Q.
Proof. auto. Qed.
Lemma wp_modify f p (Q : _ -> _ -> Prop) : Q (f p) (Ok tt) -> wp (modify f) p Q.
Proof. auto. Qed.
Lemma wp_gets {A} (f : parser -> A) p (Q : _ -> _ -> Prop) : Q p (Ok (f p)) -> wp (gets f) p Q.
Proof. auto. Qed.
Lemma wp_conseq {A} (m : PM A) p (Q Q' : _ -> _ -> Prop) :
  wp m p Q -> (forall p' o, Q p' o -> Q' p' o) -> wp m p Q'.
Proof. unfold wp; auto. Qed.

(** The tokens not consumed yet. *)
Definition view (p : parser) : list token :=
  match p_token p with Some t => t :: p_toks p | None => p_toks p end.

Definition cached (t : token) (r : list token) (p : parser) : parser :=
  set_token (Some t) (set_toks r p).

Lemma wp_peek p (Q : _ -> _ -> Prop) :
  (forall t r, view p = t :: r -> Q (cached t r p) (Ok t)) ->
  (view p = [] -> Q p (Err (p_scan_err p))) ->
  wp peek_token p Q.
Proof.
  destruct p as [toks er mk sts st tk cur an cnt tags ee keep].
  unfold wp, peek_token, view, cached; cbn. destruct tk as [t|]; cbn.
  - intros H _. apply (H t toks eq_refl).
  - destruct toks as [|t r]; cbn; intros H1 H2; [apply H2; reflexivity|].
    apply (H1 t r eq_refl).
Qed.

Lemma wp_fetch p t (Q : _ -> _ -> Prop) :
  p_token p = Some t -> Q (set_token None p) (Ok t) -> wp fetch_token p Q.
Proof. unfold wp, fetch_token; intros ->; auto. Qed.

(** ** Languages of continuations *)
Definition lang := list event -> Prop.
Definition node_k (k : lang) : lang := fun w => exists n r, node_events n /\ w = n ++ r /\ k r.
Definition nodes_k (k : lang) : lang := fun w => exists n r, nodes_events n /\ w = n ++ r /\ k r.
Definition pairs_k (k : lang) : lang := fun w => exists n r, pairs_events n /\ w = n ++ r /\ k r.
Definition ev_k (e : event) (k : lang) : lang := fun w => exists r, w = e :: r /\ k r.
Definition docs_lang : lang := fun w => exists d, docs_events d /\ w = d ++ [EStreamEnd].

Definition L1 (s : pst) (k : lang) : lang :=
  match s with
  | StStreamStart => ev_k EStreamStart docs_lang
  | StImplicitDocumentStart | StDocumentStart => docs_lang
  | StDocumentEnd => ev_k EDocumentEnd docs_lang
  | StEnd => fun w => w = []
  | StDocumentContent | StBlockNode => node_k k
  | StBlockSequenceFirstEntry | StBlockSequenceEntry | StIndentlessSequenceEntry
  | StFlowSequenceFirstEntry | StFlowSequenceEntry => nodes_k (ev_k ESequenceEnd k)
  | StBlockMappingFirstKey | StBlockMappingKey | StFlowMappingFirstKey | StFlowMappingKey
  | StFlowMappingFirstKeyCont =>
      pairs_k (ev_k EMappingEnd k)
  
  | StBlockMappingValue | StFlowMappingValue | StFlowMappingEmptyValue | StBlockMappingValueCont =>
      node_k (pairs_k (ev_k EMappingEnd k))
  | StFlowSequenceEntryMappingKey =>
      node_k (node_k (ev_k EMappingEnd (nodes_k (ev_k ESequenceEnd k))))
  | StFlowSequenceEntryMappingValue => node_k (ev_k EMappingEnd (nodes_k (ev_k ESequenceEnd k)))
  | StFlowSequenceEntryMappingEnd _ => ev_k EMappingEnd (nodes_k (ev_k ESequenceEnd k))
  end.

Fixpoint K (stk : list pst) : lang :=
  match stk with
  | [] => fun _ => False
  | s :: r => L1 s (K r)
  end.
Definition L (s : pst) (stk : list pst) : lang := L1 s (K stk).

Lemma node_k_leaf (k : lang) e w : (exists v, e = EScalar v) \/ (exists i, e = EAlias i) ->
  k w -> node_k k (e :: w).
Proof.
  intros [[v ->]|[i ->]] H.
  - exists [EScalar v], w; repeat split; [constructor|exact H].
  - exists [EAlias i], w; repeat split; [constructor|exact H].
Qed.
Lemma node_k_seq (k : lang) a t w : nodes_k (ev_k ESequenceEnd k) w -> node_k k (ESequenceStart a t :: w).
Proof.
  intros (n & r & Hn & -> & r' & -> & Hk).
  exists (ESequenceStart a t :: n ++ [ESequenceEnd]), r'.
  split; [constructor; exact Hn|]. split; [|exact Hk]. cbn. rewrite <- app_assoc; reflexivity.
Qed.
Lemma node_k_map (k : lang) a t w : pairs_k (ev_k EMappingEnd k) w -> node_k k (EMappingStart a t :: w).
Proof.
  intros (n & r & Hn & -> & r' & -> & Hk).
  exists (EMappingStart a t :: n ++ [EMappingEnd]), r'.
  split; [constructor; exact Hn|]. split; [|exact Hk]. cbn. rewrite <- app_assoc; reflexivity.
Qed.
Lemma nodes_k_nil (k : lang) w : k w -> nodes_k k w.
Proof. intros H; exists [], w; repeat split; [constructor|exact H]. Qed.
Lemma pairs_k_nil (k : lang) w : k w -> pairs_k k w.
Proof. intros H; exists [], w; repeat split; [constructor|exact H]. Qed.
Lemma nodes_k_cons (k : lang) w : node_k (nodes_k k) w -> nodes_k k w.
Proof.
  intros (n & r & Hn & -> & n' & r' & Hn' & -> & H).
  exists (n ++ n'), r'. split; [constructor; assumption|]. split; [apply app_assoc|exact H].
Qed.
Lemma pairs_k_cons (k : lang) w : node_k (node_k (pairs_k k)) w -> pairs_k k w.
Proof.
  intros (n & r & Hn & -> & n' & r' & Hn' & -> & n2 & r2 & Hn2 & -> & H).
  exists (n ++ n' ++ n2), r2. split; [constructor; assumption|].
  split; [rewrite <- !app_assoc; reflexivity|exact H].
Qed.
Lemma node_k_impl (k k' : lang) w : (forall x, k x -> k' x) -> node_k k w -> node_k k' w.
Proof. intros H (n & r & Hn & -> & Hr). exists n, r; auto. Qed.

(** ** The state/stack invariant *)
Definition doc_level (s : pst) : bool :=
  match s with
  | StStreamStart | StImplicitDocumentStart | StDocumentStart | StDocumentEnd | StEnd => true
  | _ => false
  end.
(** The states that are ever pushed inside a document. *)
Definition pushable (s : pst) : bool :=
  match s with
  | StBlockSequenceEntry | StIndentlessSequenceEntry | StBlockMappingKey | StBlockMappingValue
  | StFlowSequenceEntry | StFlowSequenceEntryMappingValue | StFlowSequenceEntryMappingEnd _
  | StFlowMappingKey | StFlowMappingValue | StFlowMappingEmptyValue => true
  | _ => false
  end.
Fixpoint stack_ok (l : list pst) : bool :=
  match l with
  | [] => false
  | [s] => match s with StDocumentEnd => true | _ => false end
  | s :: r => pushable s && stack_ok r
  end.
Definition cfg_ok (s : pst) (stk : list pst) : Prop :=
  if doc_level s then stk = [] else stack_ok stk = true.

Lemma stack_ok_cons s r : pushable s = true -> stack_ok (s :: r) = stack_ok r.
Proof. intros H. destruct r; destruct s; cbn in *; try reflexivity; discriminate. Qed.
Definition not_first (s : pst) : bool :=
  match s with
  | StBlockSequenceFirstEntry | StBlockMappingFirstKey | StFlowSequenceFirstEntry
  | StFlowMappingFirstKey => false
  | _ => true
  end.
Lemma stack_ok_pop_first s r : stack_ok (s :: r) = true -> not_first s = true.
Proof.
  destruct r as [|s2 r]; cbn; [destruct s; try discriminate; reflexivity|].
  intros H; apply andb_true_iff in H as [H _]; destruct s; try discriminate; reflexivity.
Qed.

Lemma stack_ok_pop s r : stack_ok (s :: r) = true -> cfg_ok s r.
Proof.
  unfold cfg_ok. destruct r as [|s2 r]; cbn.
  - destruct s; try discriminate; reflexivity.
  - intros H; apply andb_true_iff in H as [H1 H2]. destruct s; try discriminate H1; exact H2.
Qed.

Lemma node_k_inhab (k : lang) : (exists w, k w) -> exists w, node_k k w.
Proof.
  intros [w H]. exists (ev_empty_scalar :: w). apply node_k_leaf; [|exact H].
  left; eexists; reflexivity.
Qed.
Lemma nodes_k_inhab (k : lang) : (exists w, k w) -> exists w, nodes_k k w.
Proof. intros [w H]; exists w; apply nodes_k_nil, H. Qed.
Lemma pairs_k_inhab (k : lang) : (exists w, k w) -> exists w, pairs_k k w.
Proof. intros [w H]; exists w; apply pairs_k_nil, H. Qed.
Lemma ev_k_inhab e (k : lang) : (exists w, k w) -> exists w, ev_k e k w.
Proof. intros [w H]; exists (e :: w), w; auto. Qed.
Lemma docs_inhab : exists w, docs_lang w.
Proof. exists [EStreamEnd], []; split; [constructor|reflexivity]. Qed.

#[local] Hint Resolve node_k_inhab nodes_k_inhab pairs_k_inhab ev_k_inhab docs_inhab : inhab.

Lemma L1_inhab s (k : lang) : doc_level s = true \/ (exists w, k w) -> exists w, L1 s k w.
Proof.
  intros [H|H]; destruct s; try discriminate H; cbn; eauto 10 with inhab.
Qed.
Lemma K_inhab stk : stack_ok stk = true -> exists w, K stk w.
Proof.
  induction stk as [|s r IH]; [discriminate|]. intros H. cbn. apply L1_inhab.
  destruct r as [|s2 r].
  - destruct s; try discriminate H; left; reflexivity.
  - right. apply IH. cbn in H. apply andb_true_iff in H; apply H.
Qed.
Lemma L_inhab s stk : cfg_ok s stk -> exists w, L s stk w.
Proof.
  unfold cfg_ok, L; intros H. apply L1_inhab. destruct (doc_level s); [left; reflexivity|].
  right; apply K_inhab, H.
Qed.

(** ** Effect of consuming tokens on the anchor table *)
Fixpoint anchors_after (cs : list token) (m : list (text * nat)) (cnt : nat) : list (text * nat) * nat :=
  match cs with
  | [] => (m, cnt)
  | t :: r => match k_type t with
              | TAnchor n => anchors_after r (map_insert n cnt m) (S cnt)
              | _ => anchors_after r m cnt
              end
  end.
Fixpoint alias_names (l : list token) : list text :=
  match l with
  | [] => []
  | t :: r => match k_type t with TAlias n => n :: alias_names r | _ => alias_names r end
  end.

(** What consuming [cs] while emitting [e] must satisfy. *)
Definition anchor_effect (e : event) (cs : list token) (m : list (text * nat)) (cnt : nat) : Prop :=
  match e with
  | EAlias id => anchor_names cs = [] /\ exists n, alias_names cs = [n] /\ map_get n m = Some id
  | _ => alias_names cs = [] /\
         ((event_anchor e = 0 /\ anchor_names cs = []) \/
          (event_anchor e = cnt /\ exists n, anchor_names cs = [n]))
  end.

(** When a step fails, the tokens consumed hold at most an alias without a target. *)
Definition err_effect (cs : list token) (m : list (text * nat)) : Prop :=
  alias_names cs = [] \/
  (anchor_names cs = [] /\ exists n, alias_names cs = [n] /\ map_get n m = None).

(** A state whose first action is to drop the cached token that opened the collection. *)
Definition cache_ok (p : parser) : Prop :=
  match p_state p with
  | StBlockSequenceFirstEntry => exists t, p_token p = Some t /\ k_type t = TBlockSequenceStart
  | StBlockMappingFirstKey => exists t, p_token p = Some t /\ k_type t = TBlockMappingStart
  | StFlowSequenceFirstEntry => exists t, p_token p = Some t /\ k_type t = TFlowSequenceStart
  | StFlowMappingFirstKey => exists t, p_token p = Some t /\ k_type t = TFlowMappingStart
  | _ => True
  end.

Lemma cache_ok_pop p : not_first (p_state p) = true -> cache_ok p.
Proof. unfold cache_ok. destruct (p_state p); try discriminate; intros _; exact I. Qed.

(** What every request leaves alone. *)
Definition frame (p p' : parser) : Prop :=
  p_current p' = p_current p /\ p_mark p' = p_mark p /\ p_scan_err p' = p_scan_err p /\
  p_keep_tags p' = p_keep_tags p /\ p_stream_end_emitted p' = p_stream_end_emitted p.

(** Consumption of tokens, with the anchors registered. *)
Definition eats (p p' : parser) (cs : list token) : Prop :=
  view p = cs ++ view p' /\
  anchors_after cs (p_anchors p) (p_anchor_id_count p) = (p_anchors p', p_anchor_id_count p').

Lemma anchors_after_app cs cs' m c :
  anchors_after (cs ++ cs') m c = let '(m1, c1) := anchors_after cs m c in anchors_after cs' m1 c1.
Proof.
  revert m c; induction cs as [|t r IH]; intros m c; cbn; [reflexivity|].
  destruct (k_type t); apply IH.
Qed.
Lemma anchor_names_app a b : anchor_names (a ++ b) = anchor_names a ++ anchor_names b.
Proof. induction a as [|t r IH]; cbn; [reflexivity|]. destruct (k_type t); rewrite IH; reflexivity. Qed.
Lemma alias_names_app a b : alias_names (a ++ b) = alias_names a ++ alias_names b.
Proof. induction a as [|t r IH]; cbn; [reflexivity|]. destruct (k_type t); rewrite IH; reflexivity. Qed.

Lemma eats_refl p : eats p p [].
Proof. split; reflexivity. Qed.
Lemma eats_trans p1 p2 p3 a b : eats p1 p2 a -> eats p2 p3 b -> eats p1 p3 (a ++ b).
Proof.
  intros [H1 H2] [H3 H4]; split.
  - rewrite H1, H3; apply app_assoc.
  - rewrite anchors_after_app, H2; exact H4.
Qed.

(** ** One request *)
Definition step_post (p : parser) (lg : lang) (p' : parser) (o : out (event * span)) : Prop :=
  frame p p' /\ cfg_ok (p_state p') (p_states p') /\
  match o with
  | Ok (e, _) =>
      cache_ok p' /\
      (forall w, L (p_state p') (p_states p') w -> lg (e :: w)) /\
      exists cs, eats p p' cs /\ anchor_effect e cs (p_anchors p) (p_anchor_id_count p)
  | Err _ => exists cs, eats p p' cs /\ err_effect cs (p_anchors p)
  | _ => False
  end.

Lemma wp_pop p (Q : _ -> _ -> Prop) :
  stack_ok (p_states p) = true ->
  (forall s r, p_states p = s :: r -> cfg_ok s r -> not_first s = true ->
    Q (set_states r (set_state s p)) (Ok tt)) ->
  wp pop_state p Q.
Proof.
  unfold wp, pop_state. destruct (p_states p) as [|s r] eqn:E; [discriminate|].
  intros H1 H2. cbn. apply H2; [reflexivity|apply stack_ok_pop, H1|eapply stack_ok_pop_first, H1].
Qed.
Lemma wp_resolve sp h s p (Q : _ -> _ -> Prop) :
  (forall t, Q p (Ok t)) -> (forall e, Q p (Err e)) -> wp (resolve_tag sp h s) p Q.
Proof.
  unfold wp, resolve_tag, resolve_tag_in; cbn [fst snd]. intros H1 H2.
  destruct (text_eqb h (str "!!")); [apply H1|].
  destruct (text_eqb h [] && text_eqb s (str "!")); [destruct (map_get [] (p_tags p)); apply H1|].
  destruct (map_get h (p_tags p)); [apply H1|].
  destruct (_ && _)%bool; [apply H2|apply H1].
Qed.
Lemma wp_register n p (Q : _ -> _ -> Prop) :
  Q (set_anchors (map_insert n (p_anchor_id_count p) (p_anchors p)) (S (p_anchor_id_count p)) p)
    (Ok (p_anchor_id_count p)) -> wp (register_anchor n) p Q.
Proof. auto. Qed.

Lemma frame_refl p : frame p p.
Proof. repeat split. Qed.

(** A leaf event together with the popped state is a word of the node language. *)
Lemma leaf_lang p' (p : parser) s r e w :
  p_states p = s :: r -> p_state p' = s -> p_states p' = r ->
  (exists v, e = EScalar v) \/ (exists i, e = EAlias i) ->
  L (p_state p') (p_states p') w -> node_k (K (p_states p)) (e :: w).
Proof. intros H -> -> He Hw. rewrite H. apply node_k_leaf; [exact He|exact Hw]. Qed.

Ltac eat cs := exists cs; split; [split; [unfold view in *; cbn in *; congruence|]|].
Ltac wp1 :=
  match goal with
  | |- wp (bind _ _) _ _ => apply wp_bind
  | |- wp (ret _) _ _ => apply wp_ret
  | |- wp (perr _ _) _ _ => apply wp_fail
  | |- wp (goto _) _ _ => apply wp_modify
  | |- wp skip _ _ => apply wp_modify
  | |- wp (modify _) _ _ => apply wp_modify
  | |- wp (push_state _) _ _ => apply wp_modify
  | |- wp (gets _) _ _ => apply wp_gets
  end.

(** The properties of a node: [cs] are the property tokens. *)
Definition props_post (p p' : parser) (o : out (nat * option tag)) : Prop :=
  frame p p' /\ p_state p' = p_state p /\ p_states p' = p_states p /\
  exists cs, eats p p' cs /\ alias_names cs = [] /\
  match o with
  | Ok (a, t) => (a = 0 /\ anchor_names cs = []) \/
                 (a = p_anchor_id_count p /\ exists n, anchor_names cs = [n])
  | Err _ => True
  | _ => False
  end.
