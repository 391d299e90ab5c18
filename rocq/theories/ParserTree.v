(** The parser reads back every tree (C07, C09, C10). *)
From Verif Require Import Base Tokens Parser ParserRun SpecEvents SpecTree.
From Verif Require Import ParserProofs ParserStep ParserStates ParserTheorems ParserTerm ParserLoad ParserSim.
From Coq Require Import Lia String List.
Local Open Scope list_scope.

(** ** Tags *)
Lemma named_handle_dec h : (Nat.leb 2 (List.length h) && starts_with 33 h && ends_with 33 h)%bool = true <->
  named_handle h.
Proof.
  unfold named_handle, ends_with. split.
  - intros H. apply andb_true_iff in H as [H H3]. apply andb_true_iff in H as [H1 H2].
    apply Nat.leb_le in H1. destruct h as [|a h]; [discriminate|]. cbn in H2. apply N.eqb_eq in H2. subst a.
    destruct h as [|b h] using rev_ind; [cbn in H1; lia|]. clear IHh.
    rewrite app_comm_cons, rev_app_distr in H3. cbn in H3. apply N.eqb_eq in H3. subst b.
    exists h. reflexivity.
  - intros [x ->]. rewrite rev_app_distr. cbn. rewrite app_length. cbn.
    replace (List.length x + 1) with (S (List.length x)) by lia. reflexivity.
Qed.
Lemma bang_bang_named : named_handle (str "!!").
Proof. exists []; reflexivity. Qed.

Lemma resolve_tag_means tg sp h s :
  match resolve_tag_in tg sp h s with
  | Ok t => tag_means tg h s (Some t)
  | Err e => tag_means tg h s None
  | _ => False
  end.
Proof.
  unfold resolve_tag_in. destruct (text_eqb h (str "!!")) eqn:E1.
  { apply text_eqb_eq in E1; subst h. destruct (map_get (str "!!") tg) as [p|] eqn:E.
    - apply TM_declared, E.
    - apply TM_core, E. }
  apply text_eqb_neq in E1. match goal with |- context [if ?b then _ else _] => destruct b eqn:E2 end.
  { apply andb_true_iff in E2 as [E2 E3]. apply text_eqb_eq in E2, E3. subst.
    destruct (map_get [] tg) as [p|] eqn:E; [apply TM_declared, E|].
    apply TM_other; [exact E|]. intros [x H]; discriminate. }
  destruct (map_get h tg) as [p|] eqn:E; [apply TM_declared, E|].
  match goal with |- context [if ?b then _ else _] => destruct b eqn:E3 end.
  - apply named_handle_dec in E3. apply TM_undeclared; auto.
  - apply TM_other; [exact E|]. intros X. apply named_handle_dec in X. congruence.
Qed.
Lemma tag_means_det tg h s o1 o2 : tag_means tg h s o1 -> tag_means tg h s o2 -> o1 = o2.
Proof.
  assert (B := bang_bang_named).
  intros H1 H2. destruct H1; inversion H2; subst; try congruence; try contradiction; tauto.
Qed.
Lemma tag_means_resolve tg sp h s t : tag_means tg h s (Some t) -> resolve_tag_in tg sp h s = Ok t.
Proof.
  intros H. pose proof (resolve_tag_means tg sp h s) as R.
  destruct (resolve_tag_in tg sp h s) as [t'|e| | |]; try contradiction.
  - assert (X := tag_means_det _ _ _ _ _ H R). congruence.
  - assert (X := tag_means_det _ _ _ _ _ H R). congruence.
Qed.

(** ** Exact runs *)
Definition must {A} (m : PM A) (p : parser) (Q : parser -> A -> Prop) : Prop :=
  exists p' a, m p = (p', Ok a) /\ Q p' a.
Lemma must_bind {A B} (m : PM A) (f : A -> PM B) p Q :
  must m p (fun p' a => must (f a) p' Q) -> must (bind m f) p Q.
Proof. intros (p' & a & H1 & q & b & H2 & H3). exists q, b. unfold bind. rewrite H1. auto. Qed.
Lemma must_ret {A} (a : A) p (Q : _ -> _ -> Prop) : Q p a -> must (ret a) p Q.
Proof. intros H; exists p, a; auto. Qed.
Lemma must_modify f p (Q : _ -> _ -> Prop) : Q (f p) tt -> must (modify f) p Q.
Proof. intros H; exists (f p), tt; auto. Qed.
Lemma must_gets {A} (f : parser -> A) p (Q : _ -> _ -> Prop) : Q p (f p) -> must (gets f) p Q.
Proof. intros H; exists p, (f p); auto. Qed.
Lemma must_conseq {A} (m : PM A) p (Q Q' : parser -> A -> Prop) :
  must m p Q -> (forall p' a, Q p' a -> Q' p' a) -> must m p Q'.
Proof. intros (p' & a & H1 & H2) H. exists p', a; auto. Qed.

Definition vt (p : parser) : list token_type := map k_type (view p).
Lemma must_peek p ty v (Q : parser -> token -> Prop) : vt p = ty :: v ->
  (forall t r, k_type t = ty -> map k_type r = v -> Q (cached t r p) t) -> must peek_token p Q.
Proof.
  intros H HQ. unfold vt in H. destruct (view p) as [|t r] eqn:E; [discriminate|].
  cbn in H. inversion H; subst. exists (cached t r p), t. split; [|apply HQ; reflexivity].
  destruct p as [toks er mk sts st tk cur an cnt tags ee keep]. unfold view in E; cbn in E.
  unfold peek_token; cbn. destruct tk as [t'|].
  - inversion E; subst. reflexivity.
  - cbn in E; subst toks. reflexivity.
Qed.
Lemma must_fetch p t (Q : parser -> token -> Prop) : p_token p = Some t ->
  Q (set_token None p) t -> must fetch_token p Q.
Proof. intros H HQ. exists (set_token None p), t. unfold fetch_token. rewrite H. auto. Qed.
Lemma must_pop p s r (Q : parser -> unit -> Prop) : p_states p = s :: r ->
  Q (set_states r (set_state s p)) tt -> must pop_state p Q.
Proof. intros H HQ. eexists; exists tt. unfold pop_state. rewrite H. auto. Qed.
Lemma must_resolve sp h s p t (Q : parser -> tag -> Prop) :
  resolve_tag_in (p_tags p) sp h s = Ok t -> Q p t -> must (resolve_tag sp h s) p Q.
Proof. intros H HQ. exists p, t. unfold resolve_tag. rewrite H. auto. Qed.
Lemma must_register n p (Q : parser -> nat -> Prop) :
  Q (set_anchors (map_insert n (p_anchor_id_count p) (p_anchors p)) (S (p_anchor_id_count p)) p)
    (p_anchor_id_count p) -> must (register_anchor n) p Q.
Proof. intros H. eexists; eexists; split; [reflexivity|exact H]. Qed.

(** What a parser looks like between two requests. *)
Record at_ (p : parser) (st : pst) (stk : list pst) (v : list token_type) (before : list text)
  (tg : list (text * text)) : Prop := At {
  at_state : p_state p = st; at_states : p_states p = stk; at_vt : vt p = v;
  at_table : table_ok before p; at_tags : p_tags p = tg; at_current : p_current p = None }.

(** A run delivering exactly the events [es] and ending in a parser satisfying [Q]. *)
Definition runs (p : parser) (es : list event) (Q : parser -> Prop) : Prop :=
  exists l q, trace p l q /\ map fst l = es /\ Q q.
Lemma runs_nil p (Q : parser -> Prop) : Q p -> runs p [] Q.
Proof. intros H; exists [], p; repeat split; [constructor|exact H]. Qed.
Lemma runs_cons p e es (Q : parser -> Prop) : p_current p = None -> p_state p <> StEnd ->
  must state_machine p (fun q x => fst x = e /\ runs q es Q) -> runs p (e :: es) Q.
Proof.
  intros Hc He (p' & x & H & Hx & l & q & Ht & Hl & HQ). exists (x :: l), q.
  split; [econstructor; [|exact Ht]|]. 2: cbn; subst; auto.
  unfold next_event_impl. rewrite Hc. unfold parse. destruct (p_state p); try exact H. congruence.
Qed.
Lemma runs_app p a b (Q : parser -> Prop) : runs p a (fun q => runs q b Q) -> runs p (a ++ b) Q.
Proof.
  intros (l & q & Ht & <- & l' & q' & Ht' & <- & HQ). exists (l ++ l'), q'.
  rewrite map_app. split; [eapply trace_app; eassumption|auto].
Qed.
Lemma runs_conseq p a (Q Q' : parser -> Prop) : runs p a Q -> (forall q, Q q -> Q' q) -> runs p a Q'.
Proof. intros (l & q & H1 & H2 & H3) H. exists l, q; auto. Qed.

(** ** Names *)
Lemma names_of_app a b : names_of (a ++ b) = names_of a ++ names_of b.
Proof. induction a as [|t a IH]; cbn; [reflexivity|]. destruct t; rewrite IH; reflexivity. Qed.

Lemma table_register n before p : table_ok before p ->
  table_ok (before ++ [n])
    (set_anchors (map_insert n (p_anchor_id_count p) (p_anchors p)) (S (p_anchor_id_count p)) p).
Proof.
  intros [H1 H2]. split; cbn [p_anchors p_anchor_id_count set_anchors].
  - rewrite app_length; cbn. lia.
  - intros m. rewrite map_get_insert. unfold last_index. rewrite last_index_from_app, H1.
    destruct (text_eqb m n); [f_equal; lia|apply H2].
Qed.

(** ** The tags allowed *)
Definition tags_ok (tags : text -> text -> option tag) (tg : list (text * text)) : Prop :=
  forall h s t, tags h s = Some t -> tag_means tg h s (Some t).

(** A token that does not start or continue the properties of a node. *)
Definition not_prop (t : token_type) : bool :=
  match t with TAnchor _ | TTag _ _ => false | _ => true end.

Definition same (p q : parser) : Prop :=
  p_state q = p_state p /\ p_states q = p_states p /\ p_tags q = p_tags p /\ p_current q = p_current p.
Lemma same_refl p : same p p.
Proof. repeat split. Qed.
Lemma same_trans p q r : same p q -> same q r -> same p r.
Proof. unfold same; intuition congruence. Qed.

Ltac mpeek H := 
  let t := fresh "t" in let r := fresh "r" in let Et := fresh "Et" in let Er := fresh "Er" in
  eapply must_peek; [exact H|intros t r Et Er].

Lemma props_ok tags pr p c rest before tg :
  tags_ok tags (p_tags p) -> props_tag tags pr = Some tg ->
  vt p = props_toks pr ++ c :: rest -> not_prop c = true -> table_ok before p ->
  must parse_properties p (fun q x => x = (props_id before pr, tg) /\ vt q = c :: rest /\ same p q /\
     table_ok (before ++ names_of (props_toks pr)) q).
Proof.
  intros Htags Htg Hv Hc Ht. destruct pr as [an tgp tf]. unfold props_toks in *. cbn in *.
  assert (Hid : p_anchor_id_count p = S (List.length before)) by apply Ht.
  assert (HR : forall h s, tgp = Some (h, s) -> exists t, tg = Some t /\
             forall sp, resolve_tag_in (p_tags p) sp h s = Ok t).
  { intros h s ->. unfold props_tag in Htg. cbn in Htg. destruct (tags h s) as [t|] eqn:E; [|discriminate].
    inversion Htg; subst. exists t. split; [reflexivity|]. intros sp. apply tag_means_resolve, Htags, E. }
  unfold parse_properties, props_id. apply must_bind. cbn [pr_anchor].
  destruct an as [n|], tgp as [[h s]|].
  - destruct (HR h s eq_refl) as (t0 & -> & HRt). destruct tf; cbn in Hv.
    + mpeek Hv. rewrite Et. apply must_bind. eapply must_fetch; [reflexivity|]. rewrite Et.
      apply must_bind. eapply must_resolve; [apply HRt|]. apply must_bind.
      eapply must_peek; [exact Er|]. intros t2 r2 Et2 Er2. rewrite Et2.
      apply must_bind. eapply must_fetch; [reflexivity|]. rewrite Et2. apply must_bind.
      apply must_register. apply must_ret. split; [rewrite <- Hid; reflexivity|].
      split; [exact Er2|]. split; [repeat split|]. cbn [names_of app].
      apply (table_register n before p Ht).
    + mpeek Hv. rewrite Et. apply must_bind. eapply must_fetch; [reflexivity|]. rewrite Et.
      apply must_bind. apply must_register. apply must_bind.
      eapply must_peek; [exact Er|]. intros t2 r2 Et2 Er2. rewrite Et2.
      apply must_bind. eapply must_fetch; [reflexivity|]. rewrite Et2.
      apply must_bind. eapply must_resolve; [apply HRt|]. apply must_ret.
      split; [rewrite <- Hid; reflexivity|].
      split; [exact Er2|]. split; [repeat split|]. cbn [names_of app].
      apply (table_register n before p Ht).
  - assert (Hv' : vt p = TAnchor n :: c :: rest) by (destruct tf; exact Hv). clear Hv.
    unfold props_tag in Htg; cbn in Htg. inversion Htg; subst tg.
    mpeek Hv'. rewrite Et. apply must_bind. eapply must_fetch; [reflexivity|]. rewrite Et.
    apply must_bind. apply must_register. apply must_bind.
    eapply must_peek; [exact Er|]. intros t2 r2 Et2 Er2. rewrite Et2.
    assert (E : forall A (x y : A), match c with TTag _ _ => x | _ => y end = y)
      by (intros; destruct c; try reflexivity; discriminate).
    rewrite E. apply must_ret. split; [rewrite <- Hid; reflexivity|].
    split; [cbn; unfold vt; cbn; rewrite Et2, Er2; reflexivity|]. split; [repeat split|].
    replace (names_of _) with [n] by (destruct tf; reflexivity).
    apply (table_register n before p Ht).
  - destruct (HR h s eq_refl) as (t0 & -> & HRt).
    assert (Hv' : vt p = TTag h s :: c :: rest) by (destruct tf; exact Hv). clear Hv.
    mpeek Hv'. rewrite Et. apply must_bind. eapply must_fetch; [reflexivity|]. rewrite Et.
    apply must_bind. eapply must_resolve; [apply HRt|]. apply must_bind.
    eapply must_peek; [exact Er|]. intros t2 r2 Et2 Er2. rewrite Et2.
    assert (E : forall A (x y : A), match c with TAnchor _ => x | _ => y end = y)
      by (intros; destruct c; try reflexivity; discriminate).
    rewrite E. apply must_ret. split; [reflexivity|].
    split; [cbn; unfold vt; cbn; rewrite Et2, Er2; reflexivity|]. split; [repeat split|].
    replace (names_of _) with (@nil text) by (destruct tf; reflexivity). rewrite app_nil_r. exact Ht.
  - assert (Hv' : vt p = c :: rest) by (destruct tf; exact Hv). clear Hv.
    unfold props_tag in Htg; cbn in Htg. inversion Htg; subst tg.
    mpeek Hv'. rewrite Et.
    assert (E : forall A (x y z : A), match c with TAnchor _ => x | TTag _ _ => y | _ => z end = z)
      by (intros; destruct c; try reflexivity; discriminate).
    rewrite E. apply must_ret. split; [reflexivity|].
    split; [unfold vt; cbn; rewrite Et, Er; reflexivity|]. split; [repeat split|].
    replace (names_of _) with (@nil text) by (destruct tf; reflexivity). rewrite app_nil_r. exact Ht.
Qed.

(** ** Induction over trees *)
Lemma tree_ind' (P : tree -> Prop) :
  (forall pr st v, P (TrScalar pr st v)) -> (forall n, P (TrAlias n)) -> (forall pr, P (TrEmpty pr)) ->
  (forall pr l b, all_of (item_all P) l -> P (TrFlowSeq pr l b)) ->
  (forall pr l b, all_of (fun x => key_all P (fst x) /\ value_all P (snd x)) l -> P (TrFlowMap pr l b)) ->
  (forall pr l, all_of (fun o => match o with Some t => P t | None => True end) l -> P (TrBlockSeq pr l)) ->
  (forall pr l, all_of (fun x => key_all P (fst x) /\ value_all P (snd x)) l -> P (TrBlockMap pr l)) ->
  (forall pr l, all_of (fun o => match o with Some t => P t | None => True end) l -> P (TrIndentless pr l)) ->
  forall t, P t.
Proof.
  intros H1 H2 H3 H4 H5 H6 H7 H8.
  fix IH 1. intros t.
  assert (HV : forall v : value tree, match v with VNode a => P a | _ => True end -> value_all P v)
    by (intros v H; exact H).
  destruct t as [pr st v|n|pr|pr l b|pr l b|pr l|pr l|pr l].
  - apply H1.
  - apply H2.
  - apply H3.
  - apply H4. revert l. fix go 1. intros [|x r]; [exact I|]. split; [|apply go].
    destruct x as [a|k v]; [apply IH|]. split; [apply IH|]. destruct v as [| |a]; cbn; auto.
  - apply H5. revert l. fix go 1. intros [|x r]; [exact I|]. split; [|apply go].
    destruct x as [k v]. split; cbn; [destruct k as [| |a|a]|destruct v as [| |a]]; cbn; auto.
  - apply H6. revert l. fix go 1. intros [|x r]; [exact I|]. split; [|apply go].
    destruct x as [a|]; auto.
  - apply H7. revert l. fix go 1. intros [|x r]; [exact I|]. split; [|apply go].
    destruct x as [k v]. split; cbn; [destruct k as [| |a|a]|destruct v as [| |a]]; cbn; auto.
  - apply H8. revert l. fix go 1. intros [|x r]; [exact I|]. split; [|apply go].
    destruct x as [a|]; auto.
Qed.

(** ** First tokens *)
Definition head_tok (t : token_type) : bool :=
  match t with
  | TAnchor _ | TTag _ _ | TAlias _ | TScalar _ _ | TFlowSequenceStart | TFlowMappingStart
  | TBlockSequenceStart | TBlockMappingStart | TBlockEntry => true
  | _ => false
  end.
Definition starts (P : token_type -> bool) (v : list token_type) : Prop :=
  match v with t :: _ => P t = true | [] => False end.
Lemma props_head pr v : starts head_tok v -> starts head_tok (props_toks pr ++ v).
Proof.
  destruct pr as [[n|] [[h s]|] []]; cbn; auto.
Qed.
Lemma tree_head i t : flow_tree t \/ block_tree i t -> starts head_tok (tree_toks t).
Proof.
  intros H. destruct t as [pr st v|n|pr|pr l b|pr l b|pr l|pr l|pr l]; cbn [tree_toks];
    try (apply props_head; reflexivity); try reflexivity.
  - assert (Hp : has_props pr) by (destruct H; exact H).
    destruct pr as [[n|] [[h s]|] []]; cbn; auto; destruct Hp as [X|X]; cbn in X; congruence.
  - assert (Hl : l <> []) by (destruct H as [[]|H]; apply H). destruct l; [congruence|].
    apply props_head; reflexivity.
Qed.
Lemma starts_app P a b : starts P a -> starts P (a ++ b).
Proof. destruct a; cbn; [tauto|auto]. Qed.

(** Tokens that can follow a node. *)
Definition stop_tok (i : bool) (t : token_type) : bool :=
  match t with
  | TValue | TKey | TBlockEnd => true
  | TFlowEntry | TFlowSequenceEnd | TFlowMappingEnd | TDocumentStart | TDocumentEnd | TStreamEnd
  | TBlockEntry => negb i
  | _ => false
  end.

(** What reading a tree means. *)
Definition reads (t : tree) : Prop := forall tags (b i : bool) p S stk rest before evs,
  (if b then block_tree i t else flow_tree t) ->
  p_states p = S :: stk -> vt p = tree_toks t ++ rest -> starts (stop_tok i) rest ->
  table_ok before p -> tags_ok tags (p_tags p) -> p_current p = None ->
  tree_events tags before t = Some evs ->
  must (parse_node b i) p (fun p1 x => exists es, evs = fst x :: es /\
    runs p1 es (fun q => at_ q S stk rest (before ++ names_of (tree_toks t)) (p_tags p))).

(** From the properties to the content. *)
Lemma node_start tags (b i : bool) p pr c rest before tg (Q : parser -> event * span -> Prop) :
  tags_ok tags (p_tags p) -> props_tag tags pr = Some tg ->
  vt p = props_toks pr ++ c :: rest -> not_prop c = true -> (forall n, c <> TAlias n) -> table_ok before p ->
  (forall q, vt q = c :: rest -> same p q -> table_ok (before ++ names_of (props_toks pr)) q ->
     must (parse_content b i (props_id before pr) tg) q Q) ->
  must (parse_node b i) p Q.
Proof.
  intros H1 H2 H3 H4 Hc H5 HQ. unfold parse_node. apply must_bind.
  assert (Hh : exists c0 r0, props_toks pr ++ c :: rest = c0 :: r0 /\ forall n, c0 <> TAlias n).
  { destruct pr as [[n|] [[h s]|] []]; cbn; eexists; eexists; (split; [reflexivity|]); try discriminate; exact Hc. }
  destruct Hh as (c0 & r0 & E0 & Ha). rewrite E0 in H3. mpeek H3. rewrite Et.
  assert (E : forall A (x y : A), match c0 with TAlias _ => x | _ => y end = y)
    by (intros; destruct c0; try reflexivity; exfalso; eapply Ha; reflexivity).
  rewrite E. clear E. apply must_bind.
  eapply must_conseq; [apply (props_ok tags pr (cached t r p) c rest before tg); auto|].
  - unfold vt; cbn. rewrite Et, Er. symmetry; exact E0.
  - intros q x (-> & Hv & Hs & Ht). apply HQ; auto.
Qed.

Lemma not_prop_stop i c : stop_tok i c = true -> not_prop c = true /\ forall n, c <> TAlias n.
Proof. destruct i, c; try discriminate; intros _; split; try reflexivity; discriminate. Qed.

Lemma obind_some {A B} (o : option A) (f : A -> option B) b : obind o f = Some b ->
  exists a, o = Some a /\ f a = Some b.
Proof. destruct o; cbn; [eauto|discriminate]. Qed.

Lemma runs_step p (f : PM (event * span)) evs (Q : parser -> Prop) : p_current p = None ->
  p_state p <> StEnd -> state_machine p = f p ->
  must f p (fun q x => exists es, evs = fst x :: es /\ runs q es Q) -> runs p evs Q.
Proof.
  intros Hc He Hf (p' & x & H & es & -> & HQ). apply runs_cons; auto.
  exists p', x. rewrite Hf. auto.
Qed.

(** Leaves. *)
Lemma reads_scalar pr st v : reads (TrScalar pr st v).
Proof.
  intros tags b i p S stk rest before evs Hwf Hst Hv Hstop Ht Htags Hcur He.
  cbn [tree_events] in He. apply obind_some in He as (tg & Htg & He). inversion He; subst evs. clear He.
  cbn [tree_toks] in *. rewrite <- app_assoc in Hv. cbn in Hv.
  eapply node_start; try eassumption; [reflexivity|discriminate|]. intros q Hq Hs Htq.
  unfold parse_content. apply must_bind. mpeek Hq. rewrite Et. cbv zeta. apply must_bind.
  destruct Hs as (S1 & S2 & S3 & S4).
  eapply must_pop; [cbn; rewrite S2; exact Hst|]. apply must_bind. eapply must_fetch; [reflexivity|].
  rewrite Et. apply must_ret. exists []. split; [reflexivity|]. apply runs_nil.
  rewrite names_of_app. cbn [names_of]. rewrite app_nil_r.
  split; cbn; auto; congruence.
Qed.
Lemma reads_alias n : reads (TrAlias n).
Proof.
  intros tags b i p S stk rest before evs Hwf Hst Hv Hstop Ht Htags Hcur He.
  cbn [tree_events] in He. apply obind_some in He as (id & Hid & He). inversion He; subst evs. clear He.
  cbn in Hv. unfold parse_node. apply must_bind. mpeek Hv. rewrite Et. apply must_bind.
  eapply must_pop; [exact Hst|]. apply must_bind. eapply must_fetch; [reflexivity|]. rewrite Et.
  apply must_bind, must_gets. cbn [p_anchors cached set_token set_toks set_states set_state].
  destruct Ht as [T1 T2]. rewrite T2, Hid. apply must_ret. exists []. split; [reflexivity|].
  apply runs_nil. cbn. rewrite app_nil_r. split; cbn; auto. split; auto.
Qed.
Lemma reads_empty pr : reads (TrEmpty pr).
Proof.
  intros tags b i p S stk rest before evs Hwf Hst Hv Hstop Ht Htags Hcur He.
  cbn [tree_events] in He. apply obind_some in He as (tg & Htg & He). inversion He; subst evs. clear He.
  assert (Hp : has_props pr) by (destruct b; exact Hwf).
  cbn [tree_toks] in *. destruct rest as [|c rest]; [destruct Hstop|]. cbn in Hstop.
  destruct (not_prop_stop _ _ Hstop) as [Hc1 Hc2].
  eapply node_start; try eassumption. intros q Hq Hs Htq.
  unfold parse_content. apply must_bind. mpeek Hq. rewrite Et. cbv zeta.
  destruct Hs as (S1 & S2 & S3 & S4).
  assert (Hpt : (is_some tg || Nat.ltb 0 (props_id before pr))%bool = true).
  { unfold props_id. destruct pr as [[n|] [[h s]|] tf]; cbn in *; try (destruct tg; reflexivity).
    - unfold props_tag in Htg; cbn in Htg. destruct (tags h s); inversion Htg; reflexivity.
    - destruct Hp as [X|X]; cbn in X; congruence. }
  rewrite Hpt.
  assert (HO : must (pop_state ;;; ret (EScalar (empty_scalar_with_anchor (props_id before pr) tg), k_span t))%m
     (cached t r q) (fun p1 x => exists es,
       [EScalar (ScalarValue [] Plain (props_id before pr) tg)] = fst x :: es /\
       runs p1 es (fun q => at_ q S stk (c :: rest) (before ++ names_of (props_toks pr)) (p_tags p)))).
  { apply must_bind. eapply must_pop; [cbn; rewrite S2; exact Hst|]. apply must_ret.
    exists []. split; [reflexivity|]. apply runs_nil. split; cbn; auto; congruence. }
  destruct i, c; try discriminate Hstop; exact HO.
Qed.

(** ** Flow sequences *)
Definition after_ {A} (f : A -> list token_type) (l : list A) : list token_type :=
  match l with [] => [] | _ => TFlowEntry :: commas f l end.
Lemma commas_cons {A} (f : A -> list token_type) x l : commas f (x :: l) = f x ++ after_ f l.
Proof. destruct l; cbn; [rewrite app_nil_r|]; reflexivity. Qed.

Definition seq_end (v : list token_type) : Prop :=
  match v with TFlowEntry :: _ | TFlowSequenceEnd :: _ => True | _ => False end.
Lemma seq_end_stop v : seq_end v -> starts (stop_tok false) v.
Proof. destruct v as [|[] v]; cbn; tauto. Qed.
Lemma after_seq_end {A} (f : A -> list token_type) l b rest :
  seq_end (after_ f l ++ trail b ++ TFlowSequenceEnd :: rest).
Proof. destruct l; [destruct b|]; exact I. Qed.

Definition fse_next : PM (event * span) :=
  (let* tk2 := peek_token in
    match k_type tk2 with
    | TFlowSequenceEnd => pop_state ;;; skip ;;; ret (ESequenceEnd, k_span tk2)
    | TKey => goto StFlowSequenceEntryMappingKey ;;; skip ;;; ret (EMappingStart 0 None, k_span tk2)
    | _ => push_state StFlowSequenceEntry ;;; parse_node false false
    end)%m.

(** Extend a run by a continuation. *)
Lemma node_then (m : PM (event * span)) p evs more (Q1 Q : parser -> Prop) :
  must m p (fun p1 x => exists es, evs = fst x :: es /\ runs p1 es Q1) ->
  (forall q, Q1 q -> runs q more Q) ->
  must m p (fun p1 x => exists es, evs ++ more = fst x :: es /\ runs p1 es Q).
Proof.
  intros H HQ. eapply must_conseq; [exact H|]. intros p1 x (es & -> & Hr).
  exists (es ++ more). split; [reflexivity|]. apply runs_app. eapply runs_conseq; eauto.
Qed.

Lemma push_node (b i : bool) tags t p S stk0 more before evs evs2 tg (Q : parser -> Prop) :
  reads t -> (if b then block_tree i t else flow_tree t) -> p_states p = stk0 ->
  vt p = tree_toks t ++ more -> starts (stop_tok i) more -> table_ok before p ->
  p_tags p = tg -> tags_ok tags tg -> p_current p = None -> tree_events tags before t = Some evs ->
  (forall q, at_ q S stk0 more (before ++ names_of (tree_toks t)) tg -> runs q evs2 Q) ->
  must (push_state S ;;; parse_node b i)%m p (fun p1 x => exists es, evs ++ evs2 = fst x :: es /\
    runs p1 es Q).
Proof.
  intros Hr Hw Hst Hv Hs Ht <- Htags Hc He HQ. apply must_bind, must_modify.
  apply (node_then _ _ _ _ (fun q => at_ q S stk0 more (before ++ names_of (tree_toks t)) (p_tags p))); [|exact HQ].
  refine (Hr tags b i (set_states (S :: p_states p) p) S stk0 more before evs Hw _ Hv Hs Ht Htags Hc He).
  cbn. rewrite Hst. reflexivity.
Qed.

Ltac vtok := unfold vt, view; cbn;
  repeat match goal with
  | H : k_type ?t = _ |- context [k_type ?t] => rewrite H
  | H : map k_type ?r = _ |- context [map k_type ?r] => rewrite H
  | H : tree_toks ?t = _ |- context [tree_toks ?t] => rewrite H
  end; cbn; reflexivity.
Lemma vt_cached t r p ty v : k_type t = ty -> map k_type r = v -> vt (cached t r p) = ty :: v.
Proof. intros <- <-; reflexivity. Qed.
Lemma vt_skip t r p v : map k_type r = v -> vt (set_token None (cached t r p)) = v.
Proof. intros <-; reflexivity. Qed.

(** The value part of a single pair in a flow sequence. *)
Lemma fsem_value tags v p stk0 more before evs tg :
  value_all reads v -> value_all flow_tree v -> seq_end more ->
  tags_ok tags tg ->
  at_ p StFlowSequenceEntryMappingValue stk0 (value_toks tree_toks v ++ more) before tg ->
  value_events (tree_events tags) before v = Some evs ->
  runs p (evs ++ [EMappingEnd])
    (fun q => at_ q StFlowSequenceEntry stk0 more (before ++ names_of (value_toks tree_toks v)) tg).
Proof.
  intros Hr Hw Hm Htags [A1 A2 A3 A4 A5 A6] He.
  (* the last event *)
  assert (Hend : forall q m b2, at_ q (StFlowSequenceEntryMappingEnd m) stk0 more b2 tg ->
    runs q [EMappingEnd] (fun q => at_ q StFlowSequenceEntry stk0 more b2 tg)).
  { intros q m b2 [B1 B2 B3 B4 B5 B6].
    eapply (runs_step _ (flow_sequence_entry_mapping_end m)); [exact B6|congruence|unfold state_machine; rewrite B1; reflexivity|].
    unfold flow_sequence_entry_mapping_end. apply must_bind, must_modify, must_ret.
    exists []. split; [reflexivity|]. apply runs_nil. split; auto. }
  eapply (runs_step _ flow_sequence_entry_mapping_value); [exact A6|congruence|unfold state_machine; rewrite A1; reflexivity|].
  unfold flow_sequence_entry_mapping_value. apply must_bind.
  destruct v as [| |t].
  - cbn in He; inversion He; subst evs. cbn in A3. destruct more as [|c more]; [destruct Hm|].
    mpeek A3. rewrite Et. 
    assert (HO : must (goto (StFlowSequenceEntryMappingEnd (s_end (k_span t))) ;;; ret (ev_empty_scalar, k_span t))%m
      (cached t r p) (fun q x => exists es, [empty_event] ++ [EMappingEnd] = fst x :: es /\
        runs q es (fun q0 => at_ q0 StFlowSequenceEntry stk0 (c :: more)
           (before ++ names_of (value_toks tree_toks VAbsent)) tg))).
    { apply must_bind, must_modify, must_ret. exists [EMappingEnd]. split; [reflexivity|].
      cbn [value_toks names_of]. rewrite app_nil_r. eapply Hend. split; cbn; auto.
      vtok. }
    destruct c; try contradiction; exact HO.
  - cbn in He; inversion He; subst evs. cbn in A3. destruct more as [|c more]; [destruct Hm|].
    mpeek A3. rewrite Et. apply must_bind, must_modify, must_bind, must_modify, must_bind.
    eapply must_peek; [exact Er|]. intros t2 r2 Et2 Er2. cbv zeta. rewrite Et2.
    match goal with |- must _ ?p0 ?Q0 =>
      assert (HO : must (goto (StFlowSequenceEntryMappingEnd (s_end (k_span t2))) ;;;
                         ret (ev_empty_scalar, k_span t2))%m p0 Q0) end.
    { apply must_bind, must_modify, must_ret. exists [EMappingEnd]. split; [reflexivity|].
      cbn [value_toks names_of]. rewrite app_nil_r. eapply Hend. split; cbn; auto.
      unfold vt; cbn. rewrite Et2, Er2. reflexivity. }
    destruct c; try contradiction; exact HO.
  - cbn in He. cbn in A3, Hr, Hw. mpeek A3. rewrite Et.
    apply must_bind, must_modify, must_bind, must_modify, must_bind.
    assert (Hh := tree_head false t (or_introl Hw)).
    destruct (tree_toks t) as [|c0 tt0] eqn:Ett; [destruct Hh|]. cbn in Hh.
    eapply must_peek; [exact Er|]. intros t2 r2 Et2 Er2. cbv zeta. rewrite Et2.
    match goal with |- must _ ?p0 ?Q0 =>
      assert (HO : must (push_state (StFlowSequenceEntryMappingEnd (s_end (k_span t2))) ;;;
                         parse_node false false)%m p0 Q0) end.
    { cbn [value_toks names_of]. apply (push_node false false tags t) with (stk0 := stk0) (more := more) (before := before) (tg := tg); auto.
      - vtok.
      - apply seq_end_stop, Hm.
      - intros q Hq. rewrite Ett in Hq |- *. exact (Hend _ _ _ Hq). }
    destruct c0; try discriminate Hh; exact HO.
Qed.

Lemma fse_item tags x p stk0 more before evs evs2 tg (Q : parser -> Prop) :
  item_all reads x -> item_all flow_tree x -> seq_end more ->
  p_states p = stk0 -> vt p = item_toks tree_toks x ++ more -> table_ok before p ->
  p_tags p = tg -> tags_ok tags tg -> p_current p = None ->
  item_events (tree_events tags) tree_toks before x = Some evs ->
  (forall q, at_ q StFlowSequenceEntry stk0 more (before ++ names_of (item_toks tree_toks x)) tg ->
     runs q evs2 Q) ->
  must fse_next p (fun p1 x' => exists es, evs ++ evs2 = fst x' :: es /\ runs p1 es Q).
Proof.
  intros Hr Hw Hm Hst Hv Ht Htg Htags Hc He HQ. unfold fse_next. apply must_bind. destruct x as [t|k v].
  - cbn in Hr, Hw, Hv, He. assert (Hh := tree_head false t (or_introl Hw)).
    destruct (tree_toks t) as [|c0 tt0] eqn:Ett; [destruct Hh|]. cbn in Hh. mpeek Hv. rewrite Et.
    match goal with |- must _ ?p0 ?Q0 =>
      assert (HO : must (push_state StFlowSequenceEntry ;;; parse_node false false)%m p0 Q0) end.
    { apply (push_node false false tags t) with (stk0 := stk0) (more := more) (before := before) (tg := tg); auto.
      - vtok.
      - apply seq_end_stop, Hm. }
    destruct c0; try discriminate Hh; exact HO.
  - cbn in Hr, Hw. destruct Hr as [Hrk Hrv], Hw as [Hwk Hwv]. cbn [item_events] in He.
    apply obind_some in He as (ek & Hek & He). apply obind_some in He as (ev & Hev & He).
    inversion He; subst evs. clear He. cbn [item_toks app] in Hv.
    mpeek Hv. rewrite Et. apply must_bind, must_modify, must_bind, must_modify, must_ret.
    exists ((ek ++ ev ++ [EMappingEnd]) ++ evs2). split; [reflexivity|].
    rewrite <- app_assoc in Er.
    eapply (runs_step _ flow_sequence_entry_mapping_key); [exact Hc|cbn; congruence|reflexivity|].
    unfold flow_sequence_entry_mapping_key. apply must_bind.
    assert (Hh := tree_head false k (or_introl Hwk)).
    destruct (tree_toks k) as [|c0 tt0] eqn:Ett; [destruct Hh|]. cbn in Hh.
    eapply must_peek; [exact Er|]. intros t2 r2 Et2 Er2. rewrite Et2. rewrite <- app_assoc.
    match goal with |- must _ ?p0 ?Q0 =>
      assert (HO : must (push_state StFlowSequenceEntryMappingValue ;;; parse_node false false)%m p0 Q0) end.
    { apply (push_node false false tags k) with (stk0 := stk0) (more := value_toks tree_toks v ++ more) (before := before) (tg := tg); auto.
      - vtok.
      - destruct v; cbn; [apply seq_end_stop, Hm|reflexivity|reflexivity].
      - intros q Hq. apply runs_app. eapply runs_conseq; [eapply fsem_value; try eassumption|].
        + rewrite Ett. exact Hev.
        + intros q0. cbn beta. rewrite <- app_assoc, <- names_of_app. apply HQ. }
    destruct c0; try discriminate Hh; exact HO.
Qed.

Lemma fse_close p S stk rest before tg (Q : parser -> Prop) t :
  p_states p = S :: stk -> p_token p = Some t -> vt p = TFlowSequenceEnd :: rest ->
  table_ok before p -> p_tags p = tg -> p_current p = None ->
  (forall q, at_ q S stk rest before tg -> Q q) ->
  must (pop_state ;;; skip ;;; ret (ESequenceEnd, k_span t))%m p
    (fun p1 x => exists es, [ESequenceEnd] = fst x :: es /\ runs p1 es Q).
Proof.
  intros H1 Htk H2 H3 H4 H5 HQ. apply must_bind. eapply must_pop; [exact H1|].
  apply must_bind, must_modify, must_ret. exists []. split; [reflexivity|]. apply runs_nil, HQ.
  unfold vt, view in H2. rewrite Htk in H2. cbn in H2. inversion H2.
  split; cbn; auto.
Qed.

Lemma flow_seq_rest tags S stk rest (b : bool) l : all_of (item_all reads) l -> all_of (item_all flow_tree) l ->
  forall p before evs tg,
  at_ p StFlowSequenceEntry (S :: stk)
    (after_ (item_toks tree_toks) l ++ trail b ++ TFlowSequenceEnd :: rest) before tg ->
  tags_ok tags tg ->
  list_events (item_events (tree_events tags) tree_toks) (item_toks tree_toks) before l = Some evs ->
  runs p (evs ++ [ESequenceEnd])
    (fun q => at_ q S stk rest (before ++ names_of (commas (item_toks tree_toks) l)) tg).
Proof.
  induction l as [|x l IH]; intros Hr Hw p before evs tg [A1 A2 A3 A4 A5 A6] Htags He;
    (eapply (runs_step _ (flow_sequence_entry false));
      [exact A6|congruence|unfold state_machine; rewrite A1; reflexivity|]);
    unfold flow_sequence_entry; cbv zeta; apply must_bind, must_ret; apply must_bind.
  - cbn in He; inversion He; subst evs. cbn [commas names_of app]. rewrite app_nil_r.
    cbn in A3. destruct b; cbn in A3.
    + mpeek A3. rewrite Et. apply must_bind, must_modify. apply must_bind.
      eapply must_peek; [exact Er|]. intros t2 r2 Et2 Er2. rewrite Et2.
      apply (fse_close _ S stk rest before tg); auto; vtok.
    + mpeek A3. rewrite Et.
      apply (fse_close _ S stk rest before tg); auto; vtok.
  - cbn in Hr, Hw. destruct Hr as [Hr1 Hr2], Hw as [Hw1 Hw2].
    cbn [list_events] in He. apply obind_some in He as (e1 & He1 & He).
    apply obind_some in He as (e2 & He2 & He). inversion He; subst evs. clear He.
    unfold after_ in A3. rewrite commas_cons in A3. cbn [app] in A3. rewrite <- !app_assoc in A3.
    mpeek A3. rewrite Et. apply must_bind, must_modify. fold fse_next.
    rewrite <- app_assoc.
    eapply (fse_item tags x); try eassumption; try reflexivity.
    + apply after_seq_end.
    + intros q Hq. rewrite commas_cons, names_of_app, app_assoc.
      replace (names_of (after_ (item_toks tree_toks) l)) with (names_of (commas (item_toks tree_toks) l))
        by (destruct l; reflexivity).
      eapply IH; eassumption.
Qed.

Lemma reads_flow_seq pr l (b : bool) : all_of (item_all reads) l -> reads (TrFlowSeq pr l b).
Proof.
  intros Hr tags bb i p S stk rest before evs Hwf Hst Hv Hstop Ht Htags Hcur He.
  assert (Hw : all_of (item_all flow_tree) l /\ (l = [] -> b = false)) by (destruct bb; exact Hwf).
  destruct Hw as [Hw Hb].
  cbn [tree_events] in He. apply obind_some in He as (tg & Htg & He).
  unfold enclose in He. apply obind_some in He as (el & Hel & He). inversion He; subst evs. clear He.
  cbn [tree_toks] in *. rewrite <- app_assoc in Hv. cbn [app] in Hv. rewrite <- !app_assoc in Hv. cbn [app] in Hv.
  eapply node_start; try eassumption; [reflexivity|discriminate|]. intros q Hq Hs Htq.
  destruct Hs as (S1 & S2 & S3 & S4).
  unfold parse_content. apply must_bind. mpeek Hq. rewrite Et. cbv zeta.
  apply must_bind, must_modify, must_ret. exists (el ++ [ESequenceEnd]). split; [reflexivity|].
  rewrite names_of_app, app_assoc. cbn [names_of]. rewrite names_of_app.
  replace (names_of (trail b ++ [TFlowSequenceEnd])) with (@nil text) by (destruct b; reflexivity).
  rewrite app_nil_r.
  eapply (runs_step _ (flow_sequence_entry true)); [cbn; congruence|cbn; congruence|reflexivity|].
  unfold flow_sequence_entry. cbv zeta. apply must_bind.
  assert (Hvq : vt (set_state StFlowSequenceFirstEntry (cached t r q)) =
     TFlowSequenceStart :: commas (item_toks tree_toks) l ++ trail b ++ TFlowSequenceEnd :: rest)
    by (apply (vt_cached t r q); assumption).
  apply must_bind. eapply must_peek; [exact Hvq|]. intros t2 r2 Et2 Er2. apply must_modify. apply must_bind.
  destruct l as [|x l].
  - rewrite (Hb eq_refl) in *. cbn in Er2. cbn in Hel; inversion Hel; subst el.
    eapply must_peek; [exact Er2|]. intros t3 r3 Et3 Er3. rewrite Et3.
    apply (fse_close _ S stk rest (before ++ names_of (props_toks pr)) (p_tags p)); auto; try (cbn; congruence).
    cbn. intros q0. rewrite app_nil_r. auto.
  - cbn in Hr, Hw. destruct Hr as [Hr1 Hr2], Hw as [Hw1 Hw2].
    cbn [list_events] in Hel. apply obind_some in Hel as (e1 & He1 & Hel).
    apply obind_some in Hel as (e2 & He2 & Hel). inversion Hel; subst el. clear Hel.
    rewrite commas_cons in Er2. rewrite <- app_assoc in Er2.
    assert (Hne : exists c0 v0, item_toks tree_toks x = c0 :: v0 /\ (head_tok c0 = true \/ c0 = TKey)).
    { destruct x as [a|k v]; cbn.
      - assert (Hh := tree_head false a (or_introl Hw1)). destruct (tree_toks a); [destruct Hh|].
        eexists; eexists; split; [reflexivity|left; exact Hh].
      - eexists; eexists; split; [reflexivity|right; reflexivity]. }
    destruct Hne as (c0 & v0 & Ex & Hc0).
    assert (Hp3 : forall t3 r3, k_type t3 = c0 ->
       map k_type r3 = v0 ++ after_ (item_toks tree_toks) l ++ trail b ++ TFlowSequenceEnd :: rest ->
       must fse_next (cached t3 r3 (set_token None (cached t2 r2 (set_state StFlowSequenceFirstEntry (cached t r q)))))
         (fun q0 x0 => exists es, (e1 ++ e2) ++ [ESequenceEnd] = fst x0 :: es /\
           runs q0 es (fun q1 => at_ q1 S stk rest
             ((before ++ names_of (props_toks pr)) ++ names_of (commas (item_toks tree_toks) (x :: l))) (p_tags p)))).
    { intros t3 r3 Et3 Er3. rewrite <- app_assoc.
      apply (fse_item tags x) with (stk0 := S :: stk) (more := after_ (item_toks tree_toks) l ++ trail b ++ TFlowSequenceEnd :: rest)
        (before := before ++ names_of (props_toks pr)) (tg := p_tags p); auto; try (cbn; congruence).
      - apply after_seq_end.
      - rewrite Ex. vtok.
      - intros q1 Hq1. rewrite commas_cons, names_of_app, app_assoc.
        replace (names_of (after_ (item_toks tree_toks) l)) with (names_of (commas (item_toks tree_toks) l))
          by (destruct l; reflexivity).
        eapply flow_seq_rest; eassumption. }
    rewrite Ex in Er2. cbn [app] in Er2.
    eapply must_peek; [exact Er2|]. intros t3 r3 Et3 Er3. rewrite Et3. fold fse_next.
    specialize (Hp3 t3 r3 Et3 Er3).
    destruct Hc0 as [Hc0| ->]; [destruct c0; try discriminate Hc0|]; exact Hp3.
Qed.

(** ** Flow mappings *)
Definition map_end (v : list token_type) : Prop :=
  match v with TFlowEntry :: _ | TFlowMappingEnd :: _ => True | _ => False end.
Lemma map_end_stop v : map_end v -> starts (stop_tok false) v.
Proof. destruct v as [|[] v]; cbn; tauto. Qed.
Lemma after_map_end {A} (f : A -> list token_type) l b rest :
  map_end (after_ f l ++ trail b ++ TFlowMappingEnd :: rest).
Proof. destruct l; [destruct b|]; exact I. Qed.

Lemma fm_value tags v p stk0 more before evs tg :
  value_all reads v -> value_all flow_tree v -> map_end more ->
  tags_ok tags tg ->
  at_ p StFlowMappingValue stk0 (value_toks tree_toks v ++ more) before tg ->
  value_events (tree_events tags) before v = Some evs ->
  runs p evs
    (fun q => at_ q StFlowMappingKey stk0 more (before ++ names_of (value_toks tree_toks v)) tg).
Proof.
  intros Hr Hw Hm Htags [A1 A2 A3 A4 A5 A6] He.
  eapply (runs_step _ (flow_mapping_value false)); [exact A6|congruence|unfold state_machine; rewrite A1; reflexivity|].
  unfold flow_mapping_value. apply must_bind.
  destruct v as [| |t].
  - cbn in He; inversion He; subst evs. cbn in A3. destruct more as [|c more]; [destruct Hm|].
    mpeek A3. rewrite Et.
    match goal with |- must _ ?p0 ?Q0 =>
      assert (HO : must (goto StFlowMappingKey ;;; ret (ev_empty_scalar, k_span t))%m p0 Q0) end.
    { apply must_bind, must_modify, must_ret. exists []. split; [reflexivity|].
      cbn [value_toks names_of]. rewrite app_nil_r. apply runs_nil. split; auto. vtok. }
    destruct c; try contradiction; exact HO.
  - cbn in He; inversion He; subst evs. cbn in A3. destruct more as [|c more]; [destruct Hm|].
    mpeek A3. rewrite Et. apply must_bind, must_modify, must_bind.
    eapply must_peek; [exact Er|]. intros t2 r2 Et2 Er2. rewrite Et2.
    match goal with |- must _ ?p0 ?Q0 =>
      assert (HO : must (goto StFlowMappingKey ;;; ret (ev_empty_scalar, k_span t))%m p0 Q0) end.
    { apply must_bind, must_modify, must_ret. exists []. split; [reflexivity|].
      cbn [value_toks names_of]. rewrite app_nil_r. apply runs_nil. split; auto. vtok. }
    destruct c; try contradiction; exact HO.
  - cbn in He. cbn in A3, Hr, Hw. mpeek A3. rewrite Et.
    apply must_bind, must_modify, must_bind.
    assert (Hh := tree_head false t (or_introl Hw)).
    destruct (tree_toks t) as [|c0 tt0] eqn:Ett; [destruct Hh|]. cbn in Hh.
    eapply must_peek; [exact Er|]. intros t2 r2 Et2 Er2. rewrite Et2.
    match goal with |- must _ ?p0 ?Q0 =>
      assert (HO : must (push_state StFlowMappingKey ;;; parse_node false false)%m p0 Q0) end.
    { cbn [value_toks names_of]. rewrite <- (app_nil_r evs).
      apply (push_node false false tags t) with (stk0 := stk0) (more := more) (before := before) (tg := tg); auto.
      - vtok.
      - apply map_end_stop, Hm.
      - intros q Hq. rewrite Ett in Hq |- *. apply runs_nil, Hq. }
    destruct c0; try discriminate Hh; exact HO.
Qed.

Definition fm_next (sp : span) : PM (event * span) :=
  (let* is_key := (let* tk2 := peek_token in
                   ret (match k_type tk2 with TKey => true | _ => false end)) in
   if is_key then
        skip ;;;
        let* tk3 := peek_token in
        match k_type tk3 with
        | TValue | TFlowEntry | TFlowMappingEnd =>
            goto StFlowMappingValue ;;; ret (ev_empty_scalar, k_span tk3)
        | _ => push_state StFlowMappingValue ;;; parse_node false false
        end
   else
        let* tk3 := peek_token in
        match k_type tk3 with
        | TValue => goto StFlowMappingValue ;;; ret (ev_empty_scalar, k_span tk3)
        | TFlowMappingEnd => flow_mapping_close sp
        | _ => push_state StFlowMappingEmptyValue ;;; parse_node false false
        end)%m.

Lemma fm_pair tags sp k v p stk0 more before evs evs2 tg (Q : parser -> Prop) :
  key_all reads k -> value_all reads v -> flow_pair (k, v) ->
  key_all flow_tree k -> value_all flow_tree v -> map_end more ->
  p_states p = stk0 -> vt p = pair_toks tree_toks (k, v) ++ more -> table_ok before p ->
  p_tags p = tg -> tags_ok tags tg -> p_current p = None ->
  pair_events (tree_events tags) tree_toks before (k, v) = Some evs ->
  (forall q, at_ q StFlowMappingKey stk0 more (before ++ names_of (pair_toks tree_toks (k, v))) tg ->
     runs q evs2 Q) ->
  must (fm_next sp) p (fun p1 x' => exists es, evs ++ evs2 = fst x' :: es /\ runs p1 es Q).
Proof.
  intros Hrk Hrv Hfp Hwk Hwv Hm Hst Hv Ht Htg Htags Hc He HQ. unfold fm_next.
  cbn [pair_events] in He. apply obind_some in He as (ek & Hek & He).
  apply obind_some in He as (ev & Hev & He). inversion He; subst evs. clear He.
  cbn [pair_toks] in *. rewrite <- app_assoc in Hv. rewrite <- app_assoc.
  assert (HV : forall q, at_ q StFlowMappingValue stk0 (value_toks tree_toks v ++ more)
                 (before ++ names_of (key_toks tree_toks k)) tg -> runs q (ev ++ evs2) Q).
  { intros q Hq. apply runs_app. eapply runs_conseq; [eapply fm_value; eassumption|].
    intros q0. cbn beta. rewrite <- app_assoc, <- names_of_app. apply HQ. }
  apply must_bind, must_bind. destruct k as [| |k|k].
  - (* no key *)
    cbn in Hek; inversion Hek; subst ek. cbn [key_toks app] in *.
    assert (Hvv : exists y, value_toks tree_toks v ++ more = TValue :: y)
      by (destruct v; [destruct Hfp|eexists; reflexivity|eexists; reflexivity]).
    destruct Hvv as (y & Ey). rewrite Ey in *. mpeek Hv. apply must_ret. rewrite Et. cbv iota.
    apply must_bind. eapply must_peek; [|intros t2 r2 Et2 Er2].
    { instantiate (2 := TValue). instantiate (1 := y). vtok. }
    rewrite Et2. apply must_bind, must_modify, must_ret. exists (ev ++ evs2). split; [reflexivity|].
    apply HV. split; auto. { vtok. } cbn. rewrite app_nil_r. exact Ht.
  - (* the indicator alone *)
    cbn in Hek; inversion Hek; subst ek. cbn [key_toks app] in *. mpeek Hv. apply must_ret. rewrite Et. cbv iota.
    apply must_bind, must_modify, must_bind.
    assert (Hvv : exists c y, value_toks tree_toks v ++ more = c :: y /\
              (c = TValue \/ c = TFlowEntry \/ c = TFlowMappingEnd)).
    { destruct v; cbn; [|eexists; eexists; (split; [reflexivity|tauto])..].
      destruct more as [|[] more]; try contradiction; eexists; eexists; (split; [reflexivity|tauto]). }
    destruct Hvv as (c & y & Ey & Hcc). rewrite Ey in *. 
    eapply must_peek; [exact Er|]. intros t2 r2 Et2 Er2. rewrite Et2.
    match goal with |- must _ ?p0 ?Q0 =>
      assert (HO : must (goto StFlowMappingValue ;;; ret (ev_empty_scalar, k_span t2))%m p0 Q0) end.
    { apply must_bind, must_modify, must_ret. exists (ev ++ evs2). split; [reflexivity|].
      apply HV. split; auto. { vtok. } cbn. rewrite app_nil_r. exact Ht. }
    destruct Hcc as [->|[->| ->]]; exact HO.
  - (* a key *)
    cbn in Hek, Hrk, Hwk. cbn [key_toks app] in *. mpeek Hv. apply must_ret. rewrite Et. cbv iota.
    apply must_bind, must_modify, must_bind.
    assert (Hh := tree_head false k (or_introl Hwk)).
    destruct (tree_toks k) as [|c0 tt0] eqn:Ett; [destruct Hh|]. cbn in Hh.
    eapply must_peek; [exact Er|]. intros t2 r2 Et2 Er2. rewrite Et2.
    match goal with |- must _ ?p0 ?Q0 =>
      assert (HO : must (push_state StFlowMappingValue ;;; parse_node false false)%m p0 Q0) end.
    { apply (push_node false false tags k) with (stk0 := stk0) (more := value_toks tree_toks v ++ more) (before := before) (tg := tg); auto.
      - vtok.
      - destruct v; cbn; [apply map_end_stop, Hm|reflexivity|reflexivity].
      - intros q Hq. apply HV. rewrite Ett in Hq. exact Hq. }
    destruct c0; try discriminate Hh; exact HO.
  - (* a bare node *)
    cbn in Hek, Hrk, Hwk. cbn [key_toks app] in *.
    destruct v; try contradiction. cbn in Hev; inversion Hev; subst ev. cbn [value_toks app] in *.
    assert (Hh := tree_head false k (or_introl Hwk)).
    destruct (tree_toks k) as [|c0 tt0] eqn:Ett; [destruct Hh|]. cbn in Hh. mpeek Hv. apply must_ret.
    match goal with |- must (if ?b0 then ?m1 else ?m2) ?p0 ?Q0 =>
      assert (HB : b0 = false) by (rewrite Et; destruct c0; try discriminate Hh; reflexivity) end.
    rewrite HB. clear HB. apply must_bind.
    eapply must_peek; [|intros t2 r2 Et2 Er2].
    { instantiate (2 := c0). instantiate (1 := tt0 ++ more). vtok. }
    rewrite Et2.
    match goal with |- must _ ?p0 ?Q0 =>
      assert (HO : must (push_state StFlowMappingEmptyValue ;;; parse_node false false)%m p0 Q0) end.
    { apply (push_node false false tags k) with (stk0 := stk0) (more := more) (before := before) (tg := tg); auto.
      - vtok.
      - apply map_end_stop, Hm.
      - intros q [B1 B2 B3 B4 B5 B6].
        eapply (runs_step _ (flow_mapping_value true)); [exact B6|congruence|unfold state_machine; rewrite B1; reflexivity|].
        unfold flow_mapping_value. apply must_bind. destruct more as [|c more]; [destruct Hm|].
        mpeek B3. apply must_bind, must_modify, must_ret. exists evs2. split; [reflexivity|].
        apply HQ. rewrite app_nil_r, <- Ett. split; auto. vtok. }
    destruct c0; try discriminate Hh; exact HO.
Qed.

Lemma fm_close p S stk rest before tg (Q : parser -> Prop) t sp :
  p_states p = S :: stk -> p_token p = Some t -> vt p = TFlowMappingEnd :: rest ->
  table_ok before p -> p_tags p = tg -> p_current p = None ->
  (forall q, at_ q S stk rest before tg -> Q q) ->
  must (flow_mapping_close sp) p
    (fun p1 x => exists es, [EMappingEnd] = fst x :: es /\ runs p1 es Q).
Proof.
  intros H1 Htk H2 H3 H4 H5 HQ. apply must_bind. eapply must_pop; [exact H1|].
  apply must_bind, must_modify, must_ret. exists []. split; [reflexivity|]. apply runs_nil, HQ.
  unfold vt, view in H2. rewrite Htk in H2. cbn in H2. inversion H2.
  split; cbn; auto.
Qed.

Lemma pair_first k v more : flow_pair (k, v) -> key_all flow_tree k ->
  exists c y, pair_toks tree_toks (k, v) ++ more = c :: y /\ c <> TFlowMappingEnd.
Proof.
  intros Hf Hw. cbn [pair_toks]. destruct k as [| |a|a]; cbn [key_toks app].
  - destruct v; [destruct Hf| |]; cbn; eexists; eexists; (split; [reflexivity|discriminate]).
  - eexists; eexists; (split; [reflexivity|discriminate]).
  - eexists; eexists; (split; [reflexivity|discriminate]).
  - assert (Hh := tree_head false a (or_introl Hw)). destruct (tree_toks a); [destruct Hh|].
    cbn. eexists; eexists; (split; [reflexivity|]). intros ->; discriminate.
Qed.

Definition fp_reads (x : key tree * value tree) := key_all reads (fst x) /\ value_all reads (snd x).
Definition fp_wf (x : key tree * value tree) :=
  flow_pair x /\ let '(k, v) := x in key_all flow_tree k /\ value_all flow_tree v.

Lemma flow_map_rest tags S stk rest (b : bool) l : all_of fp_reads l -> all_of fp_wf l ->
  forall p before evs tg,
  at_ p StFlowMappingKey (S :: stk)
    (after_ (pair_toks tree_toks) l ++ trail b ++ TFlowMappingEnd :: rest) before tg ->
  tags_ok tags tg ->
  list_events (pair_events (tree_events tags) tree_toks) (pair_toks tree_toks) before l = Some evs ->
  runs p (evs ++ [EMappingEnd])
    (fun q => at_ q S stk rest (before ++ names_of (commas (pair_toks tree_toks) l)) tg).
Proof.
  induction l as [|x l IH]; intros Hr Hw p before evs tg [A1 A2 A3 A4 A5 A6] Htags He;
    (eapply (runs_step _ (flow_mapping_key NonFirstKey));
      [exact A6|congruence|unfold state_machine; rewrite A1; reflexivity|]);
    unfold flow_mapping_key; cbn [kf_is_first kf_is_non_first kf_is_cont]; apply must_bind, must_ret; apply must_bind.
  - cbn in He; inversion He; subst evs. cbn [commas names_of app]. rewrite app_nil_r.
    cbn in A3. destruct b; cbn in A3.
    + mpeek A3. rewrite Et. apply must_bind. apply must_bind.
      eapply must_peek; [|intros t2 r2 Et2 Er2].
      { instantiate (2 := TFlowEntry). instantiate (1 := TFlowMappingEnd :: rest). vtok. }
      rewrite Et2. apply must_modify. apply must_bind, must_bind.
      eapply must_peek; [exact Er2|]. intros t3 r3 Et3 Er3. apply must_ret. rewrite Et3.
      apply must_bind. eapply must_peek; [|intros t4 r4 Et4 Er4].
      { instantiate (2 := TFlowMappingEnd). instantiate (1 := rest). vtok. }
      rewrite Et4. eapply (fm_close _ S stk rest before tg); [..|auto]; auto; try reflexivity; vtok.
    + mpeek A3. rewrite Et.
      eapply (fm_close _ S stk rest before tg); [..|auto]; auto; try reflexivity; vtok.
  - destruct x as [k v]. cbn in Hr, Hw. destruct Hr as [[Hr1 Hr1'] Hr2], Hw as [(Hw1 & Hw1' & Hw1'') Hw2].
    cbn [list_events] in He. apply obind_some in He as (e1 & He1 & He).
    apply obind_some in He as (e2 & He2 & He). inversion He; subst evs. clear He.
    unfold after_ in A3. rewrite commas_cons in A3. cbn [app] in A3. rewrite <- !app_assoc in A3.
    mpeek A3. rewrite Et. apply must_bind. apply must_bind.
    eapply must_peek; [|intros t2 r2 Et2 Er2].
    { instantiate (2 := TFlowEntry). vtok. }
    rewrite Et2. apply must_modify. fold (fm_next (k_span t)).
    rewrite <- app_assoc.
    eapply (fm_pair tags); try eassumption; try reflexivity.
    + apply after_map_end.
    + intros q Hq. rewrite commas_cons, names_of_app, app_assoc.
      replace (names_of (after_ (pair_toks tree_toks) l)) with (names_of (commas (pair_toks tree_toks) l))
        by (destruct l; reflexivity).
      eapply IH; eassumption.
Qed.

Lemma reads_flow_map pr l (b : bool) : all_of fp_reads l -> reads (TrFlowMap pr l b).
Proof.
  intros Hr tags bb i p S stk rest before evs Hwf Hst Hv Hstop Ht Htags Hcur He.
  assert (Hw : all_of fp_wf l /\ (l = [] -> b = false)) by (destruct bb; exact Hwf).
  destruct Hw as [Hw Hb].
  cbn [tree_events] in He. apply obind_some in He as (tg & Htg & He).
  unfold enclose in He. apply obind_some in He as (el & Hel & He). inversion He; subst evs. clear He.
  cbn [tree_toks] in *. rewrite <- app_assoc in Hv. cbn [app] in Hv. rewrite <- !app_assoc in Hv. cbn [app] in Hv.
  eapply node_start; try eassumption; [reflexivity|discriminate|]. intros q Hq Hs Htq.
  destruct Hs as (S1 & S2 & S3 & S4).
  unfold parse_content. apply must_bind. mpeek Hq. rewrite Et. cbv zeta.
  apply must_bind, must_modify, must_ret. exists (el ++ [EMappingEnd]). split; [reflexivity|].
  rewrite names_of_app, app_assoc. cbn [names_of]. rewrite names_of_app.
  replace (names_of (trail b ++ [TFlowMappingEnd])) with (@nil text) by (destruct b; reflexivity).
  rewrite app_nil_r.
  eapply (runs_step _ (flow_mapping_key FirstKey)); [cbn; congruence|cbn; congruence|reflexivity|].
  unfold flow_mapping_key. cbn [kf_is_first kf_is_non_first kf_is_cont]. apply must_bind.
  assert (Hvq : vt (set_state StFlowMappingFirstKey (cached t r q)) =
     TFlowMappingStart :: commas (pair_toks tree_toks) l ++ trail b ++ TFlowMappingEnd :: rest)
    by (apply (vt_cached t r q); assumption).
  apply must_bind. eapply must_peek; [exact Hvq|]. intros t2 r2 Et2 Er2. apply must_modify. apply must_bind.
  destruct l as [|x l].
  - rewrite (Hb eq_refl) in *. cbn in Er2. cbn in Hel; inversion Hel; subst el.
    eapply must_peek; [exact Er2|]. intros t3 r3 Et3 Er3. rewrite Et3.
    apply (fm_close _ S stk rest (before ++ names_of (props_toks pr)) (p_tags p)) with (t := t3); auto; try (cbn; congruence).
    cbn. intros q0. rewrite app_nil_r. auto.
  - destruct x as [k v]. cbn in Hr, Hw. destruct Hr as [[Hr1 Hr1'] Hr2], Hw as [(Hw1 & Hw1' & Hw1'') Hw2].
    cbn [list_events] in Hel. apply obind_some in Hel as (e1 & He1 & Hel).
    apply obind_some in Hel as (e2 & He2 & Hel). inversion Hel; subst el. clear Hel.
    rewrite commas_cons in Er2. rewrite <- app_assoc in Er2.
    destruct (pair_first k v (after_ (pair_toks tree_toks) l ++ trail b ++ TFlowMappingEnd :: rest) Hw1 Hw1')
      as (c0 & v0 & Ex & Hc0).
    rewrite Ex in Er2.
    eapply must_peek; [exact Er2|]. intros t3 r3 Et3 Er3. rewrite Et3.
    match goal with |- must _ ?p0 ?Q0 =>
      assert (HO : must (ret tt ;;; fm_next (k_span t3))%m p0 Q0) end.
    { apply must_bind, must_ret. rewrite <- app_assoc.
      apply (fm_pair tags) with (k := k) (v := v) (stk0 := S :: stk)
        (more := after_ (pair_toks tree_toks) l ++ trail b ++ TFlowMappingEnd :: rest)
        (before := before ++ names_of (props_toks pr)) (tg := p_tags p); auto; try (cbn; congruence).
      - apply after_map_end.
      - rewrite Ex. vtok.
      - intros q1 Hq1. rewrite commas_cons, names_of_app, app_assoc.
        replace (names_of (after_ (pair_toks tree_toks) l)) with (names_of (commas (pair_toks tree_toks) l))
          by (destruct l; reflexivity).
        eapply flow_map_rest; eassumption. }
    destruct c0; try exact HO. congruence.
Qed.

(** ** Block sequences *)
Definition opt_reads (o : option tree) : Prop := match o with Some t => reads t | None => True end.
Definition opt_block (o : option tree) : Prop := match o with Some t => block_tree false t | None => True end.
Definition dash (o : option tree) : list token_type := TBlockEntry :: opt_list tree_toks o.
Lemma names_dash l : names_of (flat_map dash l) = names_of (flat_map (opt_list tree_toks) l).
Proof. induction l as [|o l IH]; [reflexivity|]. cbn. rewrite !names_of_app, IH. reflexivity. Qed.

(** The tokens that end an entry, and the state after it. *)
Lemma dash_entry tags (i : bool) o p stk0 more before evs evs2 tg (Q : parser -> Prop) :
  let S := if i then StIndentlessSequenceEntry else StBlockSequenceEntry in
  opt_reads o -> opt_block o ->
  starts (fun t => match t with TBlockEntry | TBlockEnd => true | TKey | TValue => i | _ => false end) more ->
  p_states p = stk0 -> vt p = opt_list tree_toks o ++ more -> table_ok before p ->
  p_tags p = tg -> tags_ok tags tg -> p_current p = None ->
  opt_events (tree_events tags) before o = Some evs ->
  (forall q, at_ q S stk0 more (before ++ names_of (opt_list tree_toks o)) tg -> runs q evs2 Q) ->
  forall sp,
  must (let* tk2 := peek_token in
      match k_type tk2 with
      | TBlockEntry | TBlockEnd => goto S ;;; ret (ev_empty_scalar, if i then sp else k_span tk2)
      | TKey | TValue => if i then goto S ;;; ret (ev_empty_scalar, sp)
                         else push_state S ;;; parse_node true false
      | _ => push_state S ;;; parse_node true false
      end)%m p (fun p1 x' => exists es, evs ++ evs2 = fst x' :: es /\ runs p1 es Q).
Proof.
  intros S Hr Hw Hm Hst Hv Ht Htg Htags Hc He HQ sp. apply must_bind. destruct o as [t|].
  - cbn in Hr, Hw, He. cbn [opt_list] in *. assert (Hh := tree_head false t (or_intror Hw)).
    destruct (tree_toks t) as [|c0 tt0] eqn:Ett; [destruct Hh|]. cbn in Hh. mpeek Hv. rewrite Et.
    match goal with |- must _ ?p0 ?Q0 =>
      assert (HO : c0 <> TBlockEntry -> must (push_state S ;;; parse_node true false)%m p0 Q0) end.
    { intros _. apply (push_node true false tags t) with (stk0 := stk0) (more := more) (before := before) (tg := tg); auto.
      - vtok.
      - destruct more as [|[] more]; try discriminate Hm; cbn; auto.
      - rewrite Ett. exact HQ. }
    destruct c0; try discriminate Hh; try (apply HO; discriminate).
    (* a node cannot start with a dash here *)
    exfalso. clear - Ett Hw.
    destruct t as [[[n|] [[h s]|] []] st v|n|[[n|] [[h s]|] []]|[[n|] [[h s]|] []] l b|[[n|] [[h s]|] []] l b|[[n|] [[h s]|] []] l|[[n|] [[h s]|] []] l|pr l];
      cbn in Ett; try discriminate Ett. destruct Hw as [Hw _]; discriminate Hw.
  - cbn in He; inversion He; subst evs. cbn [opt_list app] in *. destruct more as [|c more]; [destruct Hm|].
    mpeek Hv. rewrite Et.
    assert (HO : forall sp1 : span, must (goto S ;;; ret (ev_empty_scalar, sp1))%m (cached t r p)
       (fun p1 x' => exists es, [empty_event] ++ evs2 = fst x' :: es /\ runs p1 es Q)).
    { intros sp1. apply must_bind, must_modify, must_ret. exists evs2. split; [reflexivity|]. apply HQ.
      cbn. rewrite app_nil_r. split; auto. vtok. }
    cbn in Hm. destruct c; try discriminate Hm; try apply HO; subst i; apply HO.
Qed.

Lemma next_dash (i : bool) l rest :
  starts (fun t => match t with TBlockEnd => true | TKey | TValue => i | _ => false end) rest ->
  starts (fun t => match t with TBlockEntry | TBlockEnd => true | TKey | TValue => i | _ => false end)
    (flat_map dash l ++ rest).
Proof.
  destruct l; cbn; [|auto]. destruct rest as [|[] rest]; cbn; auto.
Qed.

(** What a parser has besides its state. *)
Definition in_ (p : parser) (stk : list pst) (v : list token_type) (before : list text)
  (tg : list (text * text)) : Prop :=
  p_states p = stk /\ vt p = v /\ table_ok before p /\ p_tags p = tg /\ p_current p = None.
Lemma at_in p st stk v before tg : at_ p st stk v before tg -> in_ p stk v before tg.
Proof. intros []; repeat split; auto; apply at_table0. Qed.
Lemma runs_state p st stk v before tg (f : PM (event * span)) evs (Q : parser -> Prop) :
  at_ p st stk v before tg -> st <> StEnd -> (forall q, p_state q = st -> state_machine q = f q) ->
  must f p (fun q x => exists es, evs = fst x :: es /\ runs q es Q) -> runs p evs Q.
Proof.
  intros [A1 A2 A3 A4 A5 A6] Hs Hf H. eapply runs_step; [exact A6|congruence|apply Hf, A1|exact H].
Qed.

Definition bse_body : PM (event * span) :=
  (let* tk := peek_token in
  match k_type tk with
  | TBlockEnd => pop_state ;;; skip ;;; ret (ESequenceEnd, k_span tk)
  | TBlockEntry =>
      skip ;;;
      let* tk2 := peek_token in
      match k_type tk2 with
      | TBlockEntry | TBlockEnd => goto StBlockSequenceEntry ;;; ret (ev_empty_scalar, k_span tk2)
      | _ => push_state StBlockSequenceEntry ;;; parse_node true false
      end
  | _ => perr (k_span tk) "while parsing a block collection, did not find expected '-' indicator"
  end)%m.

Lemma block_seq_body tags S stk rest l : all_of opt_reads l -> all_of opt_block l ->
  forall p before evs tg,
  in_ p (S :: stk) (flat_map dash l ++ TBlockEnd :: rest) before tg ->
  tags_ok tags tg ->
  list_events (opt_events (tree_events tags)) (opt_list tree_toks) before l = Some evs ->
  must bse_body p (fun p1 x => exists es, evs ++ [ESequenceEnd] = fst x :: es /\
    runs p1 es (fun q => at_ q S stk rest (before ++ names_of (flat_map dash l)) tg)).
Proof.
  induction l as [|o l IH]; intros Hr Hw p before evs tg (A2 & A3 & A4 & A5 & A6) Htags He;
    unfold bse_body; apply must_bind.
  - cbn in He; inversion He; subst evs. cbn [flat_map names_of app]. rewrite app_nil_r.
    cbn in A3. mpeek A3. rewrite Et. apply must_bind. eapply must_pop; [exact A2|].
    apply must_bind, must_modify, must_ret. exists []. split; [reflexivity|]. apply runs_nil.
    split; auto; vtok.
  - cbn in Hr, Hw. destruct Hr as [Hr1 Hr2], Hw as [Hw1 Hw2].
    cbn [list_events] in He. apply obind_some in He as (e1 & He1 & He).
    apply obind_some in He as (e2 & He2 & He). inversion He; subst evs. clear He.
    cbn [flat_map dash app] in A3. rewrite <- app_assoc in A3.
    mpeek A3. rewrite Et. apply must_bind, must_modify. rewrite <- app_assoc.
    refine (dash_entry tags false o (set_token None (cached t r p)) (S :: stk) (flat_map dash l ++ TBlockEnd :: rest) before e1
        (e2 ++ [ESequenceEnd]) tg _ Hr1 Hw1 _ A2 Er A4 A5 Htags A6 He1 _ (k_span t)).
    { apply next_dash. reflexivity. }
    intros q Hq.
    eapply (runs_state _ _ _ _ _ _ bse_body); [exact Hq|discriminate|intros q0 H; unfold state_machine; rewrite H; reflexivity|].
    cbn [flat_map]. rewrite names_of_app, app_assoc. cbn [dash names_of].
    eapply IH; try eassumption. eapply at_in, Hq.
Qed.

Lemma reads_block_seq pr l : all_of opt_reads l -> reads (TrBlockSeq pr l).
Proof.
  intros Hr tags bb i p S stk rest before evs Hwf Hst Hv Hstop Ht Htags Hcur He.
  destruct bb; [|destruct Hwf]. assert (Hw : all_of opt_block l) by exact Hwf.
  cbn [tree_events] in He. apply obind_some in He as (tg & Htg & He).
  unfold enclose in He. apply obind_some in He as (el & Hel & He). inversion He; subst evs. clear He.
  cbn [tree_toks] in *. rewrite <- app_assoc in Hv. cbn [app] in Hv. rewrite <- !app_assoc in Hv. cbn [app] in Hv.
  fold dash in *.
  eapply node_start; try eassumption; [reflexivity|discriminate|]. intros q Hq Hs Htq.
  destruct Hs as (S1 & S2 & S3 & S4).
  unfold parse_content. apply must_bind. mpeek Hq. rewrite Et. cbv zeta.
  apply must_bind, must_modify, must_ret. exists (el ++ [ESequenceEnd]). split; [reflexivity|].
  rewrite names_of_app, app_assoc. cbn [names_of]. rewrite names_of_app. cbn [names_of].
  rewrite app_nil_r.
  eapply (runs_step _ (block_sequence_entry true)); [cbn; congruence|cbn; congruence|reflexivity|].
  unfold block_sequence_entry. apply must_bind, must_bind.
  eapply must_peek; [apply (vt_cached t r q); eassumption|]. intros t2 r2 Et2 Er2. apply must_modify.
  fold bse_body. eapply block_seq_body; try eassumption.
  repeat split; cbn; try congruence; try apply Htq.
Qed.

(** ** Sequences without extra indentation *)
Lemma indentless_body tags S stk rest l : all_of opt_reads l -> all_of opt_block l ->
  starts (stop_tok true) rest ->
  forall p before evs tg,
  in_ p (S :: stk) (flat_map dash l ++ rest) before tg ->
  tags_ok tags tg ->
  list_events (opt_events (tree_events tags)) (opt_list tree_toks) before l = Some evs ->
  must indentless_sequence_entry p (fun p1 x => exists es, evs ++ [ESequenceEnd] = fst x :: es /\
    runs p1 es (fun q => at_ q S stk rest (before ++ names_of (flat_map dash l)) tg)).
Proof.
  intros Hr Hw Hstop. induction l as [|o l IH]; intros p before evs tg (A2 & A3 & A4 & A5 & A6) Htags He;
    unfold indentless_sequence_entry; apply must_bind.
  - cbn in He; inversion He; subst evs. cbn [flat_map names_of app]. rewrite app_nil_r.
    cbn in A3. destruct rest as [|c rest]; [destruct Hstop|]. mpeek A3. rewrite Et.
    match goal with |- must _ ?p0 ?Q0 =>
      assert (HO : must (pop_state ;;; ret (ESequenceEnd, k_span t))%m p0 Q0) end.
    { apply must_bind. eapply must_pop; [exact A2|].
      apply must_ret. exists []. split; [reflexivity|]. apply runs_nil.
      split; auto; vtok. }
    destruct c; try discriminate Hstop; exact HO.
  - cbn in Hr, Hw. destruct Hr as [Hr1 Hr2], Hw as [Hw1 Hw2].
    cbn [list_events] in He. apply obind_some in He as (e1 & He1 & He).
    apply obind_some in He as (e2 & He2 & He). inversion He; subst evs. clear He.
    cbn [flat_map dash app] in A3. rewrite <- app_assoc in A3.
    mpeek A3. rewrite Et. apply must_bind, must_modify. rewrite <- app_assoc.
    refine (dash_entry tags true o (set_token None (cached t r p)) (S :: stk) (flat_map dash l ++ rest) before e1
        (e2 ++ [ESequenceEnd]) tg _ Hr1 Hw1 _ A2 Er A4 A5 Htags A6 He1 _ (k_span t)).
    { apply next_dash. destruct rest as [|[] rest]; try discriminate Hstop; auto. }
    intros q Hq.
    eapply (runs_state _ _ _ _ _ _ indentless_sequence_entry); [exact Hq|discriminate|intros q0 H; unfold state_machine; rewrite H; reflexivity|].
    cbn [flat_map]. rewrite names_of_app, app_assoc. cbn [dash names_of].
    eapply IH; try eassumption. eapply at_in, Hq.
Qed.

Lemma reads_indentless pr l : all_of opt_reads l -> reads (TrIndentless pr l).
Proof.
  intros Hr tags bb i p S stk rest before evs Hwf Hst Hv Hstop Ht Htags Hcur He.
  destruct bb; [|destruct Hwf]. destruct Hwf as (-> & Hl & Hw). fold opt_block in Hw.
  cbn [tree_events] in He. apply obind_some in He as (tg & Htg & He).
  unfold enclose in He. apply obind_some in He as (el & Hel & He). inversion He; subst evs. clear He.
  cbn [tree_toks] in *. rewrite <- app_assoc in Hv.
  fold dash in *. destruct l as [|o l]; [congruence|].
  cbn [flat_map app dash] in Hv.
  eapply node_start; try eassumption; [reflexivity|discriminate|]. intros q Hq Hs Htq.
  destruct Hs as (S1 & S2 & S3 & S4).
  unfold parse_content. apply must_bind. mpeek Hq. rewrite Et. cbv zeta.
  apply must_bind, must_modify, must_ret. exists (el ++ [ESequenceEnd]). split; [reflexivity|].
  rewrite names_of_app, app_assoc.
  eapply (runs_step _ indentless_sequence_entry); [cbn; congruence|cbn; congruence|reflexivity|].
  eapply indentless_body; try eassumption.
  repeat split; try (cbn; congruence); try apply Htq.
Qed.

(** ** Block mappings *)
Definition bp_reads := fp_reads.
Definition bp_wf (x : key tree * value tree) :=
  block_pair x /\ let '(k, v) := x in key_all (block_tree true) k /\ value_all (block_tree true) v.

Lemma bm_value tags v p stk0 more before evs tg :
  value_all reads v -> value_all (block_tree true) v -> starts (stop_tok true) more ->
  (v = VAbsent -> forall y, more <> TValue :: y) ->
  tags_ok tags tg ->
  at_ p StBlockMappingValue stk0 (value_toks tree_toks v ++ more) before tg ->
  value_events (tree_events tags) before v = Some evs ->
  runs p evs
    (fun q => at_ q StBlockMappingKey stk0 more (before ++ names_of (value_toks tree_toks v)) tg).
Proof.
  intros Hr Hw Hm Hgap Htags [A1 A2 A3 A4 A5 A6] He.
  eapply (runs_step _ (block_mapping_value true)); [exact A6|congruence|unfold state_machine; rewrite A1; reflexivity|].
  unfold block_mapping_value. apply must_bind.
  destruct v as [| |t].
  - cbn in He; inversion He; subst evs. cbn in A3. destruct more as [|c more]; [destruct Hm|].
    mpeek A3. cbv zeta. rewrite Et.
    assert (Hc : c <> TValue) by (intros ->; eapply Hgap; reflexivity).
    assert (E : match c with TValue => true | _ => false end = false) by (destruct c; congruence).
    rewrite E. apply must_bind, must_ret. cbn [negb orb]. apply must_bind, must_modify, must_bind.
    eapply must_peek; [|intros t2 r2 Et2 Er2].
    { instantiate (2 := c). instantiate (1 := more). vtok. }
    apply must_ret. exists []. split; [reflexivity|].
    cbn [value_toks names_of]. rewrite app_nil_r. apply runs_nil. split; auto. vtok.
  - cbn in He; inversion He; subst evs. cbn in A3. destruct more as [|c more]; [destruct Hm|].
    mpeek A3. cbv zeta. rewrite Et. apply must_bind, must_modify. cbn [negb orb]. apply must_bind.
    eapply must_peek; [exact Er|]. intros t2 r2 Et2 Er2. rewrite Et2.
    match goal with |- must _ ?p0 ?Q0 =>
      assert (HO : must (goto StBlockMappingKey ;;; ret (ev_empty_scalar, k_span t2))%m p0 Q0) end.
    { apply must_bind, must_modify, must_ret. exists []. split; [reflexivity|].
      cbn [value_toks names_of]. rewrite app_nil_r. apply runs_nil. split; auto. vtok. }
    destruct c; try discriminate Hm; exact HO.
  - cbn in He. cbn in A3, Hr, Hw. mpeek A3. cbv zeta. rewrite Et.
    apply must_bind, must_modify. cbn [negb orb]. apply must_bind.
    assert (Hh := tree_head true t (or_intror Hw)).
    destruct (tree_toks t) as [|c0 tt0] eqn:Ett; [destruct Hh|]. cbn in Hh.
    eapply must_peek; [exact Er|]. intros t2 r2 Et2 Er2. rewrite Et2.
    match goal with |- must _ ?p0 ?Q0 =>
      assert (HO : must (push_state StBlockMappingKey ;;; parse_node true true)%m p0 Q0) end.
    { cbn [value_toks names_of]. rewrite <- (app_nil_r evs).
      apply (push_node true true tags t) with (stk0 := stk0) (more := more) (before := before) (tg := tg); auto.
      - vtok.
      - intros q Hq. rewrite Ett in Hq |- *. apply runs_nil, Hq. }
    destruct c0; try discriminate Hh; exact HO.
Qed.

Definition bmk_body : PM (event * span) :=
  (let* tk := peek_token in
  match k_type tk with
  | TKey =>
      skip ;;;
      let* tk2 := peek_token in
      match k_type tk2 with
      | TKey | TValue | TBlockEnd =>
          goto StBlockMappingValue ;;; ret (ev_empty_scalar, k_span tk2)
      | _ => push_state StBlockMappingValue ;;; parse_node true true
      end
  | TValue => goto StBlockMappingValue ;;; ret (ev_empty_scalar, k_span tk)
  | TBlockEnd => pop_state ;;; skip ;;; ret (EMappingEnd, k_span tk)
  | _ => perr (k_span tk) "while parsing a block mapping, did not find expected key"
  end)%m.

Lemma bm_pair tags k v p stk0 more before evs evs2 tg (Q : parser -> Prop) :
  key_all reads k -> value_all reads v -> block_pair (k, v) ->
  key_all (block_tree true) k -> value_all (block_tree true) v -> starts (stop_tok true) more ->
  (v = VAbsent -> forall y, more <> TValue :: y) ->
  in_ p stk0 (pair_toks tree_toks (k, v) ++ more) before tg -> tags_ok tags tg ->
  pair_events (tree_events tags) tree_toks before (k, v) = Some evs ->
  (forall q, at_ q StBlockMappingKey stk0 more (before ++ names_of (pair_toks tree_toks (k, v))) tg ->
     runs q evs2 Q) ->
  must bmk_body p (fun p1 x' => exists es, evs ++ evs2 = fst x' :: es /\ runs p1 es Q).
Proof.
  intros Hrk Hrv Hfp Hwk Hwv Hm Hgap (Hst & Hv & Ht & Htg & Hc) Htags He HQ. unfold bmk_body.
  cbn [pair_events] in He. apply obind_some in He as (ek & Hek & He).
  apply obind_some in He as (ev & Hev & He). inversion He; subst evs. clear He.
  cbn [pair_toks] in *. rewrite <- app_assoc in Hv. rewrite <- app_assoc.
  assert (HV : forall q, at_ q StBlockMappingValue stk0 (value_toks tree_toks v ++ more)
                 (before ++ names_of (key_toks tree_toks k)) tg -> runs q (ev ++ evs2) Q).
  { intros q Hq. apply runs_app. eapply runs_conseq; [eapply bm_value; eassumption|].
    intros q0. cbn beta. rewrite <- app_assoc, <- names_of_app. apply HQ. }
  apply must_bind. destruct k as [| |k|k].
  - (* no key *)
    cbn in Hek; inversion Hek; subst ek. cbn [key_toks app] in *.
    assert (Hvv : exists y, value_toks tree_toks v ++ more = TValue :: y)
      by (destruct v; [destruct Hfp|eexists; reflexivity|eexists; reflexivity]).
    destruct Hvv as (y & Ey). rewrite Ey in *. mpeek Hv. rewrite Et. 
    apply must_bind, must_modify, must_ret. exists (ev ++ evs2). split; [reflexivity|].
    apply HV. split; auto. { vtok. } cbn. rewrite app_nil_r. exact Ht.
  - (* the indicator alone *)
    cbn in Hek; inversion Hek; subst ek. cbn [key_toks app] in *. mpeek Hv. rewrite Et.
    apply must_bind, must_modify, must_bind.
    assert (Hvv : exists c y, value_toks tree_toks v ++ more = c :: y /\
              (c = TValue \/ c = TKey \/ c = TBlockEnd)).
    { destruct v; cbn; [|eexists; eexists; (split; [reflexivity|tauto])..].
      destruct more as [|[] more]; try contradiction; try discriminate Hm;
        eexists; eexists; (split; [reflexivity|tauto]). }
    destruct Hvv as (c & y & Ey & Hcc). rewrite Ey in *. 
    eapply must_peek; [exact Er|]. intros t2 r2 Et2 Er2. rewrite Et2.
    match goal with |- must _ ?p0 ?Q0 =>
      assert (HO : must (goto StBlockMappingValue ;;; ret (ev_empty_scalar, k_span t2))%m p0 Q0) end.
    { apply must_bind, must_modify, must_ret. exists (ev ++ evs2). split; [reflexivity|].
      apply HV. split; auto. { vtok. } cbn. rewrite app_nil_r. exact Ht. }
    destruct Hcc as [->|[->| ->]]; exact HO.
  - (* a key *)
    cbn in Hek, Hrk, Hwk. cbn [key_toks app] in *. mpeek Hv. rewrite Et.
    apply must_bind, must_modify, must_bind.
    assert (Hh := tree_head true k (or_intror Hwk)).
    destruct (tree_toks k) as [|c0 tt0] eqn:Ett; [destruct Hh|]. cbn in Hh.
    eapply must_peek; [exact Er|]. intros t2 r2 Et2 Er2. rewrite Et2.
    match goal with |- must _ ?p0 ?Q0 =>
      assert (HO : must (push_state StBlockMappingValue ;;; parse_node true true)%m p0 Q0) end.
    { apply (push_node true true tags k) with (stk0 := stk0) (more := value_toks tree_toks v ++ more) (before := before) (tg := tg); auto.
      - vtok.
      - destruct v; cbn; [exact Hm|reflexivity|reflexivity].
      - intros q Hq. apply HV. rewrite Ett in Hq. exact Hq. }
    destruct c0; try discriminate Hh; exact HO.
  - destruct Hfp.
Qed.

Lemma next_pair k v rest l : all_of bp_wf l -> no_gap ((k, v) :: l) ->
  starts (stop_tok true) (flat_map (pair_toks tree_toks) l ++ TBlockEnd :: rest) /\
  (v = VAbsent -> forall y, flat_map (pair_toks tree_toks) l ++ TBlockEnd :: rest <> TValue :: y).
Proof.
  intros Hw Hg. destruct l as [|[k2 v2] l]; cbn.
  - split; [reflexivity|discriminate].
  - destruct Hw as [(Hp & _) _], Hg as [Hg _].
    destruct k2 as [| |a|a]; cbn in Hp |- *.
    + destruct v2; [destruct Hp| |]; (split; [reflexivity|]); intros ->; destruct Hg.
    + split; [reflexivity|discriminate].
    + split; [reflexivity|discriminate].
    + destruct Hp.
Qed.

Lemma block_map_body tags S stk rest l : all_of bp_reads l -> all_of bp_wf l -> no_gap l ->
  forall p before evs tg,
  in_ p (S :: stk) (flat_map (pair_toks tree_toks) l ++ TBlockEnd :: rest) before tg ->
  tags_ok tags tg ->
  list_events (pair_events (tree_events tags) tree_toks) (pair_toks tree_toks) before l = Some evs ->
  must bmk_body p (fun p1 x => exists es, evs ++ [EMappingEnd] = fst x :: es /\
    runs p1 es (fun q => at_ q S stk rest (before ++ names_of (flat_map (pair_toks tree_toks) l)) tg)).
Proof.
  induction l as [|[k v] l IH]; intros Hr Hw Hg p before evs tg Hin Htags He.
  - destruct Hin as (A2 & A3 & A4 & A5 & A6). unfold bmk_body; apply must_bind.
    cbn in He; inversion He; subst evs. cbn [flat_map names_of app]. rewrite app_nil_r.
    cbn in A3. mpeek A3. rewrite Et. apply must_bind. eapply must_pop; [exact A2|].
    apply must_bind, must_modify, must_ret. exists []. split; [reflexivity|]. apply runs_nil.
    split; auto; vtok.
  - destruct Hr as [[Hr1 Hr1'] Hr2], Hw as [(Hw1 & Hw1' & Hw1'') Hw2].
    cbn [list_events] in He. apply obind_some in He as (e1 & He1 & He).
    apply obind_some in He as (e2 & He2 & He). inversion He; subst evs. clear He.
    destruct (next_pair k v rest l Hw2 Hg) as [Hn1 Hn2]. destruct Hg as [_ Hg].
    cbn [flat_map] in Hin. rewrite <- app_assoc in Hin. rewrite <- app_assoc.
    eapply (bm_pair tags); try eassumption.
    intros q Hq.
    eapply (runs_state _ _ _ _ _ _ bmk_body); [exact Hq|discriminate|intros q0 H; unfold state_machine; rewrite H; reflexivity|].
    cbn [flat_map]. rewrite names_of_app, app_assoc.
    eapply IH; try eassumption. eapply at_in, Hq.
Qed.

Lemma reads_block_map pr l : all_of bp_reads l -> reads (TrBlockMap pr l).
Proof.
  intros Hr tags bb i p S stk rest before evs Hwf Hst Hv Hstop Ht Htags Hcur He.
  destruct bb; [|destruct Hwf]. assert (Hw : all_of bp_wf l /\ no_gap l) by exact Hwf.
  destruct Hw as [Hw Hg].
  cbn [tree_events] in He. apply obind_some in He as (tg & Htg & He).
  unfold enclose in He. apply obind_some in He as (el & Hel & He). inversion He; subst evs. clear He.
  cbn [tree_toks] in *. rewrite <- app_assoc in Hv. cbn [app] in Hv. rewrite <- !app_assoc in Hv. cbn [app] in Hv.
  eapply node_start; try eassumption; [reflexivity|discriminate|]. intros q Hq Hs Htq.
  destruct Hs as (S1 & S2 & S3 & S4).
  unfold parse_content. apply must_bind. mpeek Hq. rewrite Et. cbv zeta.
  apply must_bind, must_modify, must_ret. exists (el ++ [EMappingEnd]). split; [reflexivity|].
  rewrite names_of_app, app_assoc. cbn [names_of]. rewrite names_of_app. cbn [names_of].
  rewrite app_nil_r.
  eapply (runs_step _ (block_mapping_key true)); [cbn; congruence|cbn; congruence|reflexivity|].
  unfold block_mapping_key. apply must_bind, must_bind.
  eapply must_peek; [apply (vt_cached t r q); eassumption|]. intros t2 r2 Et2 Er2. apply must_modify.
  fold bmk_body. eapply block_map_body; try eassumption.
  repeat split; try (cbn; congruence); apply Htq.
Qed.

Lemma reads_all t : reads t.
Proof.
  induction t using tree_ind'; auto using reads_scalar, reads_alias, reads_empty, reads_flow_seq,
    reads_flow_map, reads_block_seq, reads_block_map, reads_indentless.
Qed.
