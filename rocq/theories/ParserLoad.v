(** The push interface [load] (parser.rs:625-748): it cannot panic, ends, sends a complete event
    stream, and keeps anchors local to a document. *)
From Verif Require Import Base Tokens Parser ParserRun SpecEvents SpecLoad.
From Verif Require Import ParserProofs ParserStep ParserStates ParserTheorems ParserTerm.
From Coq Require Import Lia String List.
Local Open Scope list_scope.

(** ** Derivatives of the continuation languages *)
Definition after_node (e : event) (k : lang) : lang :=
  match e with
  | EScalar _ | EAlias _ => k
  | ESequenceStart _ _ => nodes_k (ev_k ESequenceEnd k)
  | EMappingStart _ _ => pairs_k (ev_k EMappingEnd k)
  | _ => fun _ => False
  end.
Lemma node_k_inv e (k : lang) w : node_k k (e :: w) -> after_node e k w.
Proof.
  intros (n & r & Hn & H & Hk). destruct Hn; cbn in H; inversion H; subst; cbn; auto.
  - exists l, (ESequenceEnd :: r). rewrite <- app_assoc. repeat split; auto. exists r; auto.
  - exists l, (EMappingEnd :: r). rewrite <- app_assoc. repeat split; auto. exists r; auto.
Qed.
Lemma nodes_k_inv x (k : lang) e w : nodes_k (ev_k x k) (e :: w) ->
  (e = x /\ k w) \/ node_k (nodes_k (ev_k x k)) (e :: w).
Proof.
  intros (n & r & Hn & H & Hk). destruct Hn as [|n l Hn Hl].
  - cbn in H; subst r. destruct Hk as (r & E & Hr). inversion E; subst. auto.
  - right. exists n, (l ++ r). rewrite app_assoc. repeat split; auto. exists l, r; auto.
Qed.
Lemma pairs_k_inv x (k : lang) e w : pairs_k (ev_k x k) (e :: w) ->
  (e = x /\ k w) \/ node_k (node_k (pairs_k (ev_k x k))) (e :: w).
Proof.
  intros (n & r & Hn & H & Hk). destruct Hn as [|n v l Hn Hv Hl].
  - cbn in H; subst r. destruct Hk as (r & E & Hr). inversion E; subst. auto.
  - right. exists n, (v ++ l ++ r). rewrite H, <- !app_assoc. repeat split; auto.
    exists v, (l ++ r). repeat split; auto. exists l, r; auto.
Qed.
Lemma node_k_nonempty (k : lang) : ~ node_k k [].
Proof. intros (n & r & Hn & H & _). destruct Hn; discriminate. Qed.
Lemma nodes_k_nonempty (k : lang) x : ~ nodes_k (ev_k x k) [].
Proof.
  intros (n & r & Hn & H & r' & -> & _). symmetry in H. apply app_eq_nil in H as [_ H]; discriminate.
Qed.
Lemma pairs_k_nonempty (k : lang) x : ~ pairs_k (ev_k x k) [].
Proof.
  intros (n & r & Hn & H & r' & -> & _). symmetry in H. apply app_eq_nil in H as [_ H]; discriminate.
Qed.
Lemma docs_nonempty : ~ docs_lang [].
Proof. intros (d & _ & H). destruct d; discriminate. Qed.

(** ** The invariant between the events pulled by [load] *)
Record linv (p : parser) : Prop := LInv {
  l_good : good p; l_cache : cache_ok p; l_current : p_current p = None;
  l_count : 0 < p_anchor_id_count p }.
Definition within (p : parser) (k : lang) : Prop := forall w, Lp p w -> k w.
Definition tab (p : parser) (ids : list nat) : Prop :=
  forall nm id, map_get nm (p_anchors p) = Some id -> In id ids.

(** The anchors known after some events. *)
Fixpoint ids_after (ids : list nat) (evs : list event) : list nat :=
  match evs with
  | [] => ids
  | EDocumentStart _ :: r => ids_after [] r
  | EAlias id :: r => ids_after ids r
  | e :: r => ids_after (anchored_ids [e] ++ ids) r
  end.
Lemma ids_after_app a b ids : ids_after ids (a ++ b) = ids_after (ids_after ids a) b.
Proof. revert ids; induction a as [|e a IH]; intros ids; cbn; [reflexivity|]. destruct e; apply IH. Qed.
Lemma local_app a b ids :
  aliases_local ids (a ++ b) <-> aliases_local ids a /\ aliases_local (ids_after ids a) b.
Proof.
  revert ids; induction a as [|e a IH]; intros ids; cbn; [tauto|].
  destruct e; rewrite ?IH; tauto.
Qed.

Lemma tab_step p p' e cs ids : 0 < p_anchor_id_count p -> (forall b, e <> EDocumentStart b) ->
  tab p ids -> eats p p' cs -> anchor_effect e cs (p_anchors p) (p_anchor_id_count p) ->
  aliases_local ids [e] /\ tab p' (ids_after ids [e]).
Proof.
  intros Hcnt Hd Ht [_ He] Ha.
  assert (Hnil : anchor_names cs = [] -> tab p' ids).
  { intros Hn. rewrite anchors_after_neutral in He by exact Hn. inversion He.
    intros nm id H. apply (Ht nm). congruence. }
  assert (Hone : forall nm, anchor_names cs = [nm] -> tab p' (p_anchor_id_count p :: ids)).
  { intros nm Hn. rewrite (anchors_after_one _ _ Hn) in He. inversion He as [[H1 H2]].
    intros n id. try rewrite <- H1. rewrite map_get_insert. destruct (text_eqb n nm).
    - intros E; inversion E; left; reflexivity.
    - intros E; right; apply (Ht n), E. }
  assert (Hids : forall l, tab p' l -> incl l (anchored_ids [e] ++ ids) -> tab p' (anchored_ids [e] ++ ids))
    by (intros l H1 H2 nm id H; apply H2, (H1 nm), H).
  assert (Hcase : (exists id, e = EAlias id) \/
    (aliases_local ids [e] /\ ids_after ids [e] = anchored_ids [e] ++ ids /\
     alias_names cs = [] /\
         ((event_anchor e = 0 /\ anchor_names cs = []) \/
          (event_anchor e = p_anchor_id_count p /\ exists n, anchor_names cs = [n])))).
  { destruct e; eauto; right; cbn; auto. exfalso; eapply Hd; reflexivity. }
  destruct Hcase as [[id ->]|(H1 & H2 & A1 & [[A2 A3]|[A2 [nm A3]]])].
  - destruct Ha as (A1 & n & A2 & A3). cbn. repeat split; auto. eapply Ht; eassumption.
  - split; [exact H1|]. rewrite H2. apply (Hids ids); [auto|apply incl_appr, incl_refl].
  - split; [exact H1|]. rewrite H2. apply (Hids (p_anchor_id_count p :: ids)); [eauto|].
    intros x [<-|Hx]; apply in_or_app; [left|right; exact Hx]. cbn. rewrite A2.
    destruct (Nat.eqb_spec (p_anchor_id_count p) 0); [lia|left; reflexivity].
Qed.

Lemma eats_count p p' cs : eats p p' cs -> p_anchor_id_count p <= p_anchor_id_count p'.
Proof.
  intros [_ H]. revert H. generalize (p_anchors p) (p_anchor_id_count p).
  induction cs as [|t r IH]; cbn; intros m c H; [inversion H; lia|].
  destruct (k_type t); try (apply IH in H; lia).
Qed.

Lemma impl_step p (k : lang) : linv p -> within p k -> ~ k [] ->
  match next_event_impl p with
  | (p', Ok (e, sp)) => linv p' /\ (forall w, Lp p' w -> Lp p (e :: w)) /\
      (e = EStreamEnd \/ potential p' < potential p) /\
      exists cs, eats p p' cs /\ anchor_effect e cs (p_anchors p) (p_anchor_id_count p)
  | (_, Err _) => True
  | _ => False
  end.
Proof.
  intros [Hg Hc Hcur Hcnt] Hw Hk. unfold next_event_impl. rewrite Hcur.
  destruct (pst_end_dec (p_state p)) as [E|E].
  { exfalso. apply Hk, Hw. unfold Lp. rewrite E. reflexivity. }
  assert (Hp : parse p = state_machine p) by (unfold parse; destruct (p_state p); congruence).
  rewrite Hp. pose proof (state_machine_progress p) as HS. unfold ok_post in HS.
  pose proof (state_machine_ok p Hg E) as HO. unfold wp in HO.
  destruct (state_machine p) as [p' [[e sp]|e| | |]]; cbn [fst snd] in HO; try exact I;
    destruct HO as ((F1 & _) & Hcfg & HO); try contradiction.
  destruct HO as (Hca & HL & He). destruct (He Hc) as (cs & H1 & H2).
  split; [split; [exact Hcfg|exact Hca|congruence|pose proof (eats_count _ _ _ H1); lia]|].
  split; [exact HL|]. split; [exact HS|]. exists cs; auto.
Qed.

(** What running a part of [load] from [p] achieves, when the events it sends must be followed by
    a word of [k]. *)
Definition load_post (fuel need bnd : nat) (r : recv) (p : parser) (k : lang)
  (res : parser * out recv) : Prop :=
  match res with
  | (p', Ok r') => linv p' /\ within p' k /\ potential p' <= bnd /\
      exists new, r' = r ++ new /\
        (forall w, Lp p' w -> Lp p (map fst new ++ w)) /\
        (forall ids, tab p ids -> aliases_local ids (map fst new) /\
                                  tab p' (ids_after ids (map fst new)))
  | (_, Err _) => True
  | (_, Fuel) => fuel < need
  | _ => False
  end.

Lemma within_inhab p (k : lang) : linv p -> within p k -> exists w, Lp p w /\ k w.
Proof. intros H1 H2. destruct (L_inhab _ _ (l_good _ H1)) as [w Hw]. exists w; auto. Qed.

Lemma load_ret_one fuel need bnd r p p' (k : lang) e sp :
  linv p' -> within p' k -> potential p' <= bnd ->
  (forall w, Lp p' w -> Lp p (e :: w)) ->
  (forall ids, tab p ids -> aliases_local ids [e] /\ tab p' (ids_after ids [e])) ->
  load_post fuel need bnd r p k (p', Ok (on_event (e, sp) r)).
Proof.
  intros. cbn. split; [assumption|]. split; [assumption|]. split; [assumption|].
  exists [(e, sp)]. cbn. auto.
Qed.

Lemma load_seq fuel fuel' need need' bnd bnd' r p q r1 (k k' : lang) res new :
  linv q -> bnd' <= bnd ->
  r1 = r ++ new ->
  (forall w, Lp q w -> Lp p (map fst new ++ w)) ->
  (forall ids, tab p ids -> aliases_local ids (map fst new) /\ tab q (ids_after ids (map fst new))) ->
  (fuel' < need' -> fuel < need) ->
  (forall w, k' w -> k w) ->
  load_post fuel' need' bnd' r1 q k' res -> load_post fuel need bnd r p k res.
Proof.
  intros Hq Hpot -> Hl Ht Hf Hk H. destruct res as [p' [r'|e| | |]]; cbn in *; auto.
  destruct H as (I' & W' & P' & n2 & -> & L2 & T2).
  split; [exact I'|]. split; [intros w Hw; apply Hk, W', Hw|]. split; [lia|].
  exists (new ++ n2). rewrite map_app, app_assoc. split; [reflexivity|]. split.
  - intros w Hw. rewrite <- app_assoc. auto.
  - intros ids Hids. destruct (Ht ids Hids) as [A1 A2]. destruct (T2 _ A2) as [B1 B2].
    rewrite local_app, ids_after_app. auto.
Qed.

Definition mode_pre (m : lmode) (r : recv) (p : parser) (k : lang) : Prop :=
  match m with
  | LNode e => forall w, Lp p w -> node_k k (fst e :: w)
  | LSequence => within p (nodes_k (ev_k ESequenceEnd k))
  | LMapping => within p (pairs_k (ev_k EMappingEnd k))
  end.
Definition mode_new (m : lmode) : list event := match m with LNode e => [fst e] | _ => [] end.

(** [q]: the parser before the event of an [LNode] was pulled, [r] the events sent up to then. *)
Lemma load_node_ok fuel : forall m r p (k : lang), linv p -> mode_pre m r p k ->
  forall q, (forall w, Lp p w -> Lp q (mode_new m ++ w)) ->
  (forall ids, tab q ids -> aliases_local ids (mode_new m) /\ tab p (ids_after ids (mode_new m))) ->
  load_post fuel (match m with LNode _ => 2 * potential p + 2 | _ => 2 * potential p + 1 end) (potential p) r q k
    (load_node_f fuel m r p).
Proof.
  induction fuel as [|fuel IH]; intros m r p k Hp Hm q Hql Hqt.
  { cbn. destruct m; lia. }
  cbn [load_node_f]. destruct m as [[e sp]| |].
  - (* a node whose first event was pulled *)
    cbn in Hql, Hqt. cbn [mode_pre fst] in Hm.
    destruct (L_inhab _ _ (l_good _ Hp)) as [w0 Hw0].
    pose proof (node_k_inv _ _ _ (Hm w0 Hw0)) as H0.
    destruct e; cbn in H0; try contradiction; cbn [fst].
    + apply load_ret_one; auto. intros w Hw. apply (node_k_inv _ _ _ (Hm w Hw)).
    + apply load_ret_one; auto. intros w Hw. apply (node_k_inv _ _ _ (Hm w Hw)).
    + eapply (load_seq _ fuel _ (2 * potential p + 1) _ (potential p) _ q p _ k k _ [(ESequenceStart anchor t, sp)]);
        auto; try lia.
      eapply IH; auto; [|intros ids Hids; cbn; auto]. intros w Hw. apply (node_k_inv _ _ _ (Hm w Hw)).
    + eapply (load_seq _ fuel _ (2 * potential p + 1) _ (potential p) _ q p _ k k _ [(EMappingStart anchor t, sp)]);
        auto; try lia.
      eapply IH; auto; [|intros ids Hids; cbn; auto]. intros w Hw. apply (node_k_inv _ _ _ (Hm w Hw)).
  - (* pairs of a mapping *)
    cbn [mode_pre] in Hm. cbn [mode_new app] in Hql. cbn in Hqt.
    assert (Hq0 : load_post (S fuel) (2 * potential p + 1) (potential p) r p k
                    ((let* e := next_event_impl in
                      match fst e with
                      | EMappingEnd => ret (on_event e r)
                      | _ => let* r0 := load_node_f fuel (LNode e) r in
                             let* e2 := next_event_impl in
                             let* r1 := load_node_f fuel (LNode e2) r0 in load_node_f fuel LMapping r1
                      end)%m p)).
    2: { eapply (load_seq _ (S fuel) _ (2 * potential p + 1) _ (potential p) _ q p r k k _ []); auto.
         rewrite app_nil_r; reflexivity. }
    clear q Hql Hqt.
    pose proof (impl_step p _ Hp Hm (pairs_k_nonempty _ _)) as HS. unfold bind at 1.
    destruct (next_event_impl p) as [p1 [[e sp]|e| | |]]; try contradiction; [|exact I].
    destruct HS as (Hp1 & HL1 & Hpot1 & cs & He1 & Ha1).
    destruct (L_inhab _ _ (l_good _ Hp1)) as [w0 Hw0].
    pose proof (pairs_k_inv _ _ _ _ (Hm _ (HL1 w0 Hw0))) as H0.
    assert (Hnd : forall b, e <> EDocumentStart b).
    { intros b ->. destruct H0 as [[X _]|X]; [discriminate|]. apply (node_k_inv _ _ _ X). }
    assert (Hpot1' : potential p1 < potential p).
    { destruct Hpot1 as [->|X]; [|exact X]. destruct H0 as [[X _]|X]; [discriminate|].
      apply node_k_not_end in X; contradiction. }
    assert (HT1 : forall ids, tab p ids -> aliases_local ids [e] /\ tab p1 (ids_after ids [e]))
      by (intros ids Hids; exact (tab_step _ _ _ _ _ (l_count _ Hp) Hnd Hids He1 Ha1)).
    destruct (match e with EMappingEnd => true | _ => false end) eqn:Ee.
    + destruct e; try discriminate. cbn [fst]. apply load_ret_one; auto; [|lia].
      intros w Hw. destruct (pairs_k_inv _ _ _ _ (Hm _ (HL1 w Hw))) as [[_ X]|X]; [exact X|].
      apply (node_k_inv _ _ _) in X. contradiction.
    + assert (Hnode : forall w, Lp p1 w -> node_k (node_k (pairs_k (ev_k EMappingEnd k))) (e :: w)).
      { intros w Hw. destruct (pairs_k_inv _ _ _ _ (Hm _ (HL1 w Hw))) as [[-> _]|X]; [discriminate|exact X]. }
      replace (match fst (e, sp) with EMappingEnd => _ | _ => _ end)
        with (let* r0 := load_node_f fuel (LNode (e, sp)) r in
              let* e2 := next_event_impl in
              let* r1 := load_node_f fuel (LNode e2) r0 in load_node_f fuel LMapping r1)%m
        by (destruct e; try reflexivity; discriminate).
      pose proof (IH (LNode (e, sp)) r p1 _ Hp1 Hnode p HL1 HT1) as H1.
      unfold bind at 1. destruct (load_node_f fuel (LNode (e, sp)) r p1) as [p2 [r2|er| | |]];
        cbn [load_post fst] in H1; try contradiction; [|exact I|cbn [load_post]; lia].
      destruct H1 as (Hp2 & Hw2 & Hpot2 & new & -> & HL2 & HT2).
      (* the value *)
      pose proof (impl_step p2 _ Hp2 Hw2 (node_k_nonempty _)) as HS2. unfold bind at 1.
      destruct (next_event_impl p2) as [p3 [[e3 sp3]|e3| | |]]; try contradiction; [|exact I].
      destruct HS2 as (Hp3 & HL3 & Hpot3 & cs3 & He3 & Ha3).
      assert (Hnode3 : forall w, Lp p3 w -> node_k (pairs_k (ev_k EMappingEnd k)) (e3 :: w))
        by (intros w Hw; apply Hw2, HL3, Hw).
      destruct (L_inhab _ _ (l_good _ Hp3)) as [w3 Hw3].
      assert (Hnd3 : forall b, e3 <> EDocumentStart b)
        by (intros b ->; apply (node_k_inv _ _ _ (Hnode3 w3 Hw3))).
      assert (Hpot3' : potential p3 < potential p2).
      { destruct Hpot3 as [->|X]; [|exact X].
        pose proof (Hnode3 w3 Hw3) as X. apply node_k_not_end in X; contradiction. }
      assert (HT3 : forall ids, tab p2 ids -> aliases_local ids [e3] /\ tab p3 (ids_after ids [e3]))
        by (intros ids Hids; exact (tab_step _ _ _ _ _ (l_count _ Hp2) Hnd3 Hids He3 Ha3)).
      eapply (load_seq _ fuel _ (2 * potential p) _ (potential p2) _ p p2 _ k k _ new); auto; try lia.
      pose proof (IH (LNode (e3, sp3)) (r ++ new) p3 _ Hp3 Hnode3 p2 HL3 HT3) as H3.
      unfold bind. destruct (load_node_f fuel (LNode (e3, sp3)) (r ++ new) p3) as [p4 [r4|er| | |]];
        cbn [load_post fst] in H3; try contradiction; [|exact I|cbn [load_post]; lia].
      destruct H3 as (Hp4 & Hw4 & Hpot4 & new4 & -> & HL4 & HT4).
      eapply (load_seq _ fuel _ (2 * potential p4 + 1) _ (potential p4) _ p2 p4 _ k k _ new4); auto; try lia.
      eapply IH; auto. intros ids Hids; cbn; auto.
  - (* entries of a sequence *)
    cbn [mode_pre] in Hm. cbn [mode_new app] in Hql. cbn in Hqt.
    assert (Hq0 : load_post (S fuel) (2 * potential p + 1) (potential p) r p k
                    ((let* e := next_event_impl in
                      match fst e with
                      | ESequenceEnd => ret (on_event e r)
                      | _ => let* r0 := load_node_f fuel (LNode e) r in load_node_f fuel LSequence r0
                      end)%m p)).
    2: { eapply (load_seq _ (S fuel) _ (2 * potential p + 1) _ (potential p) _ q p r k k _ []); auto.
         rewrite app_nil_r; reflexivity. }
    clear q Hql Hqt.
    pose proof (impl_step p _ Hp Hm (nodes_k_nonempty _ _)) as HS. unfold bind at 1.
    destruct (next_event_impl p) as [p1 [[e sp]|e| | |]]; try contradiction; [|exact I].
    destruct HS as (Hp1 & HL1 & Hpot1 & cs & He1 & Ha1).
    destruct (L_inhab _ _ (l_good _ Hp1)) as [w0 Hw0].
    pose proof (nodes_k_inv _ _ _ _ (Hm _ (HL1 w0 Hw0))) as H0.
    assert (Hnd : forall b, e <> EDocumentStart b).
    { intros b ->. destruct H0 as [[X _]|X]; [discriminate|]. apply (node_k_inv _ _ _ X). }
    assert (Hpot1' : potential p1 < potential p).
    { destruct Hpot1 as [->|X]; [|exact X]. destruct H0 as [[X _]|X]; [discriminate|].
      apply node_k_not_end in X; contradiction. }
    assert (HT1 : forall ids, tab p ids -> aliases_local ids [e] /\ tab p1 (ids_after ids [e]))
      by (intros ids Hids; exact (tab_step _ _ _ _ _ (l_count _ Hp) Hnd Hids He1 Ha1)).
    destruct (match e with ESequenceEnd => true | _ => false end) eqn:Ee.
    + destruct e; try discriminate. cbn [fst]. apply load_ret_one; auto; [|lia].
      intros w Hw. destruct (nodes_k_inv _ _ _ _ (Hm _ (HL1 w Hw))) as [[_ X]|X]; [exact X|].
      apply (node_k_inv _ _ _) in X. contradiction.
    + assert (Hnode : forall w, Lp p1 w -> node_k (nodes_k (ev_k ESequenceEnd k)) (e :: w)).
      { intros w Hw. destruct (nodes_k_inv _ _ _ _ (Hm _ (HL1 w Hw))) as [[-> _]|X]; [discriminate|exact X]. }
      replace (match fst (e, sp) with ESequenceEnd => _ | _ => _ end)
        with (let* r0 := load_node_f fuel (LNode (e, sp)) r in load_node_f fuel LSequence r0)%m
        by (destruct e; try reflexivity; discriminate).
      pose proof (IH (LNode (e, sp)) r p1 _ Hp1 Hnode p HL1 HT1) as H1.
      unfold bind at 1. destruct (load_node_f fuel (LNode (e, sp)) r p1) as [p2 [r2|er| | |]];
        cbn [load_post fst] in H1; try contradiction; [|exact I|cbn [load_post]; lia].
      destruct H1 as (Hp2 & Hw2 & Hpot2 & new & -> & HL2 & HT2).
      eapply (load_seq _ fuel _ (2 * potential p2 + 1) _ (potential p2) _ p p2 _ k k _ new); auto; try lia.
      { eapply IH; auto. intros ids Hids; cbn; auto. }
Qed.

Lemma docs_inv e w : docs_lang (e :: w) ->
  (e = EStreamEnd /\ w = []) \/
  (exists b, e = EDocumentStart b /\ node_k (ev_k EDocumentEnd docs_lang) w).
Proof.
  intros (d & Hd & H). destruct Hd as [|b n l Hn Hl]; cbn in H; inversion H; subst; [auto|].
  right. exists b. split; [reflexivity|]. exists n, (EDocumentEnd :: l ++ [EStreamEnd]).
  rewrite <- app_assoc. cbn. repeat split; auto. eexists; split; [reflexivity|]. exists l; auto.
Qed.

Definition clear_anchors (p : parser) : parser := set_anchors [] (p_anchor_id_count p) p.
Lemma clear_linv p : linv p -> linv (clear_anchors p).
Proof. intros [H1 H2 H3 H4]; split; auto. Qed.

Lemma bind_ok {A B} (m : PM A) (f : A -> PM B) p q a : m p = (q, Ok a) -> bind m f p = f a q.
Proof. unfold bind; intros ->; reflexivity. Qed.

(** One document, whose [DocumentStart] was pulled from [q]. *)
Lemma load_document_ok fuel b sp r p : linv p ->
  within p (node_k (ev_k EDocumentEnd docs_lang)) -> tab p [] ->
  match load_document fuel (EDocumentStart b, sp) r p with
  | (p', Ok r') => linv p' /\ within p' docs_lang /\ potential p' < potential p /\
      exists new, r' = r ++ new /\
        (forall w, Lp p' w -> exists w', map fst new ++ w = EDocumentStart b :: w' /\ Lp p w') /\
        (forall ids, aliases_local ids (map fst new))
  | (_, Err _) => True
  | (_, Fuel) => fuel < 2 * potential p + 1
  | _ => False
  end.
Proof.
  intros Hp Hw Ht. unfold load_document. cbn [fst].
  pose proof (impl_step p _ Hp Hw (node_k_nonempty _)) as HS. unfold bind at 1.
  destruct (next_event_impl p) as [p1 [[e sp1]|e| | |]]; try contradiction; [|exact I].
  destruct HS as (Hp1 & HL1 & Hpot1 & cs & He1 & Ha1).
  assert (Hnode : forall w, Lp p1 w -> node_k (ev_k EDocumentEnd docs_lang) (e :: w))
    by (intros w X; apply Hw, HL1, X).
  destruct (L_inhab _ _ (l_good _ Hp1)) as [w0 Hw0].
  assert (Hnd : forall b, e <> EDocumentStart b)
    by (intros b' ->; apply (node_k_inv _ _ _ (Hnode w0 Hw0))).
  assert (Hpot1' : potential p1 < potential p).
  { destruct Hpot1 as [->|X]; [|exact X]. pose proof (Hnode w0 Hw0) as X.
    apply node_k_not_end in X; contradiction. }
  assert (HT1 : forall ids, tab p ids -> aliases_local ids [e] /\ tab p1 (ids_after ids [e]))
    by (intros ids Hids; exact (tab_step _ _ _ _ _ (l_count _ Hp) Hnd Hids He1 Ha1)).
  pose proof (load_node_ok fuel (LNode (e, sp1)) (on_event (EDocumentStart b, sp) r) p1 _ Hp1 Hnode p HL1 HT1)
    as H1.
  unfold bind at 1.
  destruct (load_node_f fuel (LNode (e, sp1)) (on_event (EDocumentStart b, sp) r) p1) as [p2 [r2|er| | |]];
    cbn [load_post fst] in H1; try contradiction; [|exact I|lia].
  destruct H1 as (Hp2 & Hw2 & Hpot2 & new & -> & HL2 & HT2).
  assert (Hne : ~ ev_k EDocumentEnd docs_lang []) by (intros (x & X & _); discriminate).
  pose proof (impl_step p2 _ Hp2 Hw2 Hne) as HS2. unfold bind at 1.
  destruct (next_event_impl p2) as [p3 [[e3 sp3]|e3| | |]]; try contradiction; [|exact I].
  destruct HS2 as (Hp3 & HL3 & Hpot3 & cs3 & He3 & Ha3).
  destruct (L_inhab _ _ (l_good _ Hp3)) as [w3 Hw3].
  destruct (Hw2 _ (HL3 w3 Hw3)) as (r3 & X & _). inversion X; subst e3 r3. cbn [fst].
  unfold ret. split; [exact Hp3|]. split.
  { intros w X'. destruct (Hw2 _ (HL3 w X')) as (r3 & Y & Z). inversion Y; subst. exact Z. }
  split; [destruct Hpot3 as [Y|Y]; [discriminate|lia]|].
  exists ((EDocumentStart b, sp) :: new ++ [(EDocumentEnd, sp3)]). split.
  { unfold on_event. rewrite <- !app_assoc. reflexivity. }
  rewrite map_cons, map_app. cbn [map fst]. split.
  - intros w X'. exists (map fst new ++ EDocumentEnd :: w). split.
    + cbn. rewrite <- app_assoc. reflexivity.
    + apply HL2, HL3, X'.
  - intros ids. cbn [aliases_local]. rewrite local_app. split; [apply HT2, Ht|].
    exact I.
Qed.

Lemma docs_lang_cons b w : node_k (ev_k EDocumentEnd docs_lang) w -> docs_lang (EDocumentStart b :: w).
Proof.
  intros (n & r & Hn & -> & r' & -> & d & Hd & ->).
  exists (EDocumentStart b :: n ++ EDocumentEnd :: d). split; [constructor; assumption|].
  cbn. rewrite <- app_assoc. reflexivity.
Qed.

Lemma load_docs_ok fuel multi : forall r p, linv p -> within p docs_lang ->
  match load_docs fuel multi r p with
  | (p', Ok r') => exists new, r' = r ++ new /\
      (forall ids, aliases_local ids (map fst new)) /\
      exists tail, Lp p (map fst new ++ tail) /\ (multi = true -> tail = []) /\ (tail = [] \/ docs_lang tail)
  | (_, Err _) => True
  | (_, Fuel) => fuel < 2 * potential p + 1
  | _ => False
  end.
Proof.
  induction fuel as [|fuel IH]; intros r p Hp Hw; [cbn; lia|].
  cbn [load_docs]. unfold bind at 1.
  pose proof (impl_step p _ Hp Hw docs_nonempty) as HS.
  destruct (next_event_impl p) as [p1 [[e sp1]|e| | |]]; try contradiction; [|exact I].
  destruct HS as (Hp1 & HL1 & Hpot1 & cs & He1 & Ha1).
  destruct (L_inhab _ _ (l_good _ Hp1)) as [w0 Hw0].
  destruct (docs_inv _ _ (Hw _ (HL1 w0 Hw0))) as [[-> ->]|(b & -> & _)]; cbn [fst].
  { unfold ret. exists [(EStreamEnd, sp1)]. split; [reflexivity|]. split; [intros ids; exact I|].
    exists []. cbn. split; [apply HL1, Hw0|auto]. }
  destruct Hpot1 as [X|Hpot1]; [discriminate|].
  assert (Hw1 : within p1 (node_k (ev_k EDocumentEnd docs_lang))).
  { intros w X. destruct (docs_inv _ _ (Hw _ (HL1 w X))) as [[Y _]|(b' & _ & Y)]; [discriminate|exact Y]. }
  unfold bind at 1, modify. fold (clear_anchors p1).
  pose proof (load_document_ok (S fuel) b sp1 r (clear_anchors p1) (clear_linv _ Hp1) Hw1) as H2.
  unfold bind at 1.
  destruct (load_document (S fuel) (EDocumentStart b, sp1) r (clear_anchors p1)) as [p2 [r2|er| | |]];
    try (apply H2; intros ? ? Y; discriminate); [|].
  2: { change (potential (clear_anchors p1)) with (potential p1) in H2.
       assert (X : S fuel < 2 * potential p1 + 1) by (apply H2; intros ? ? Y; discriminate). lia. }
  destruct H2 as (Hp2 & Hw2 & Hpot2 & new & -> & HL2 & HA2); [intros ? ? Y; discriminate|].
  change (potential (clear_anchors p1)) with (potential p1) in Hpot2.
  change (Lp (clear_anchors p1)) with (Lp p1) in HL2.
  destruct multi.
  - specialize (IH (r ++ new) p2 Hp2 Hw2).
    destruct (load_docs fuel true (r ++ new) p2) as [p3 [r3|er| | |]]; auto; [|lia].
    destruct IH as (new2 & -> & A1 & tail & A2 & A3 & A4).
    exists (new ++ new2). rewrite map_app. split; [symmetry; apply app_assoc|]. split.
    + intros ids. rewrite local_app. auto.
    + exists tail. split; [|auto]. rewrite <- app_assoc. destruct (HL2 _ A2) as (w' & -> & X).
      apply HL1, X.
  - unfold ret. exists new. split; [reflexivity|]. split; [exact HA2|].
    destruct (L_inhab _ _ (l_good _ Hp2)) as [w2 Hw2'].
    exists w2. split; [|split; [discriminate|right; apply Hw2, Hw2']].
    destruct (HL2 _ Hw2') as (w' & -> & X). apply HL1, X.
Qed.

(** [load] on a fresh parser. *)
Theorem load_ok fuel multi toks e mk keep :
  match load fuel multi (new_parser toks e mk keep) with
  | (p', Ok r) => aliases_local [] (map fst r) /\
      exists tail, stream_events (map fst r ++ tail) /\ (multi = true -> tail = []) /\
                   (tail = [] \/ docs_lang tail)
  | (_, Err _) => True
  | (_, Fuel) => fuel < 16 * List.length toks + 1
  | _ => False
  end.
Proof.
  set (p0 := new_parser toks e mk keep).
  assert (Hp0 : linv p0) by (split; cbn; auto; reflexivity).
  assert (Hw0 : within p0 stream_events) by (intros w Hw; apply (Lp_new toks e mk keep), Hw).
  assert (Hne : ~ stream_events []) by (intros (d & _ & X); discriminate).
  unfold load. unfold bind at 1. pose proof (impl_step p0 _ Hp0 Hw0 Hne) as HS.
  assert (Hpot0 : potential p0 = 8 * List.length toks) by (unfold potential, p0; cbn; lia).
  destruct (next_event_impl p0) as [p1 [[ev sp]|er| | |]]; try contradiction; [|exact I].
  destruct HS as (Hp1 & HL1 & Hpot1 & _).
  destruct (L_inhab _ _ (l_good _ Hp1)) as [w1 Hw1].
  destruct (Hw0 _ (HL1 _ Hw1)) as (d & _ & X). inversion X; subst ev. cbn [fst].
  destruct Hpot1 as [Y|Hpot1]; [discriminate|].
  assert (Hw : within p1 docs_lang).
  { intros w Y. destruct (Hw0 _ (HL1 _ Y)) as (d' & Hd' & Z). inversion Z. exists d'; auto. }
  pose proof (load_docs_ok fuel multi (on_event (EStreamStart, sp) []) p1 Hp1 Hw) as H.
  destruct (load_docs fuel multi (on_event (EStreamStart, sp) []) p1) as [p2 [r|er| | |]]; auto; [|lia].
  destruct H as (new & -> & A & tail & B1 & B2 & B3).
  cbn [on_event app map fst]. split; [apply (A [])|]. exists tail. split; [|auto].
  apply Hw0, HL1, B1.
Qed.
