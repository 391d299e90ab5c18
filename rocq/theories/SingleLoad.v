(** Loading one document: what stands behind it is not looked at. *)
From Verif Require Import Base Tokens Parser ParserRun SpecEvents SpecTree SpecStream SpecLoad Scalar Yaml Loader SpecValue SpecSingle.
From Verif Require Import ParserProofs ParserStep ParserStates ParserTheorems ParserTerm ParserLoad ParserSim ParserTree ParserStream.
From Verif Require Import LoaderProofs LoaderAlias ParserExamples.
From Coq Require Import String List Lia.
Import ListNotations.
Local Open Scope list_scope.

Lemma trace_split a : forall p b q, trace p (a ++ b) q -> exists m, trace p a m /\ trace m b q.
Proof.
  induction a as [|x a IH]; intros p b q H.
  - exists p. split; [constructor|exact H].
  - inversion H as [|? q1 ? ? ? H1 H2]; subst. destruct (IH _ _ _ H2) as (m & M1 & M2).
    exists m. split; [econstructor; eassumption|exact M2].
Qed.

(** The events of a node, pulled one after the other, are what [load_node] sends on. *)
Lemma node_first n : exists e es, node_evs n = e :: es /\
  e <> ESequenceEnd /\ e <> EMappingEnd.
Proof. destruct n; cbn; eexists; eexists; (split; [reflexivity|split; discriminate]). Qed.

Lemma load_pulls fuel : forall l p q r, trace p l q ->
  (forall n x, map fst (x :: l) = node_evs n -> S (List.length l) <= fuel ->
     load_node_f fuel (LNode x) r p = (q, Ok (r ++ x :: l))) /\
  (forall ns, map fst l = flat_map node_evs ns ++ [ESequenceEnd] -> List.length l <= fuel ->
     load_node_f fuel LSequence r p = (q, Ok (r ++ l))) /\
  (forall ns, map fst l = flat_map (fun x => let '(k, v) := x in node_evs k ++ node_evs v) ns ++ [EMappingEnd] ->
     List.length l <= fuel ->
     load_node_f fuel LMapping r p = (q, Ok (r ++ l))).
Proof.
  induction fuel as [|fuel IH]; intros l p q r HT.
  { split; [intros; lia|]. split; intros ns E HL; apply (f_equal (@List.length _)) in E;
      rewrite map_length, app_length in E; cbn in E; lia. }
  split; [|split].
  - intros n [e sp] E HL. cbn [load_node_f fst]. destruct n as [v|id|a t ns|a t ns]; cbn [node_evs map fst] in E.
    + injection E; intros E1 ->. destruct l; [|discriminate]. inversion HT; subst. reflexivity.
    + injection E; intros E1 ->. destruct l; [|discriminate]. inversion HT; subst. reflexivity.
    + injection E; intros E1 ->. destruct (IH l p q (on_event (ESequenceStart a t, sp) r) HT) as (_ & H & _).
      rewrite (H ns E1) by lia. unfold on_event. rewrite <- app_assoc. reflexivity.
    + injection E; intros E1 ->. destruct (IH l p q (on_event (EMappingStart a t, sp) r) HT) as (_ & _ & H).
      rewrite (H ns E1) by lia. unfold on_event. rewrite <- app_assoc. reflexivity.
  - intros ns E HL. cbn [load_node_f]. destruct ns as [|n ns]; cbn [flat_map app] in E.
    + destruct l as [|[e sp] [|]]; try discriminate. injection E; intros ->.
      inversion HT as [|? q1 ? ? ? H1 H2]; subst. inversion H2; subst. unfold bind. rewrite H1. reflexivity.
    + rewrite <- app_assoc in E. apply map_eq_app in E as (l1 & l2 & -> & E1 & E2).
      destruct (trace_split _ _ _ _ HT) as (m & T1 & T2).
      destruct (node_first n) as (e0 & es & En & N1 & N2).
      destruct l1 as [|[e sp] l1]; [rewrite En in E1; discriminate|].
      inversion T1 as [|? q1 ? ? ? H1 H2]; subst.
      rewrite app_length in HL. cbn [List.length] in HL.
      assert (He : e = e0) by (rewrite En in E1; injection E1; auto). subst e0.
      assert (H0 : 1 <= List.length l2)
        by (apply (f_equal (@List.length _)) in E2; rewrite map_length, app_length in E2; cbn in E2; lia).
      unfold bind at 1. rewrite H1. cbn [fst].
      destruct (IH l1 q1 m r H2) as (H & _ & _).
      assert (HG : (let* r := load_node_f fuel (LNode (e, sp)) r in load_node_f fuel LSequence r)%m q1
                   = (q, Ok (r ++ ((e, sp) :: l1) ++ l2))).
      { unfold bind. rewrite (H n _ E1) by lia.
        destruct (IH l2 m q (r ++ (e, sp) :: l1) T2) as (_ & H3 & _).
        rewrite (H3 ns E2) by lia. rewrite <- app_assoc. reflexivity. }
      destruct e; try exact HG. congruence.
  - intros ns E HL. cbn [load_node_f]. destruct ns as [|[k v] ns]; cbn [flat_map app] in E.
    + destruct l as [|[e sp] [|]]; try discriminate. injection E; intros ->.
      inversion HT as [|? q1 ? ? ? H1 H2]; subst. inversion H2; subst. unfold bind. rewrite H1. reflexivity.
    + rewrite <- !app_assoc in E. apply map_eq_app in E as (l1 & l2 & -> & E1 & E2).
      apply map_eq_app in E2 as (l3 & l4 & -> & E3 & E4).
      destruct (trace_split _ _ _ _ HT) as (m & T1 & T2).
      destruct (trace_split _ _ _ _ T2) as (m2 & T3 & T4).
      destruct (node_first k) as (e0 & es & En & N1 & N2).
      destruct (node_first v) as (e1 & es1 & En1 & _ & _).
      destruct l1 as [|[e sp] l1]; [rewrite En in E1; discriminate|].
      destruct l3 as [|[e' sp'] l3]; [rewrite En1 in E3; discriminate|].
      inversion T1 as [|? q1 ? ? ? H1 H2]; subst. inversion T3 as [|? q2 ? ? ? H3 H4]; subst.
      rewrite !app_length in HL. cbn [List.length] in HL.
      assert (He : e = e0) by (rewrite En in E1; injection E1; auto). subst e0.
      unfold bind at 1. rewrite H1. cbn [fst].
      destruct (IH l1 q1 m r H2) as (H & _ & _).
      assert (HG : (let* r := load_node_f fuel (LNode (e, sp)) r in
              let* e2 := next_event_impl in
              let* r := load_node_f fuel (LNode e2) r in
              load_node_f fuel LMapping r)%m q1
                   = (q, Ok (r ++ ((e, sp) :: l1) ++ ((e', sp') :: l3) ++ l4))).
      { unfold bind. rewrite (H k _ E1) by lia. rewrite H3.
        destruct (IH l3 q2 m2 (r ++ (e, sp) :: l1) H4) as (H5 & _ & _).
        rewrite (H5 v _ E3) by lia.
        destruct (IH l4 m2 q ((r ++ (e, sp) :: l1) ++ (e', sp') :: l3) T4) as (_ & _ & H6).
        rewrite (H6 ns E4) by lia. rewrite <- !app_assoc. reflexivity. }
      destruct e; try exact HG. congruence.
Qed.

Lemma runs_split p a b (Q : parser -> Prop) : runs p (a ++ b) Q -> runs p a (fun q => runs q b Q).
Proof.
  intros (l & q & T & E & H). apply map_eq_app in E as (l1 & l2 & -> & E1 & E2).
  destruct (trace_split _ _ _ _ T) as (m & T1 & T2).
  exists l1, m. split; [exact T1|]. split; [exact E1|]. exists l2, q. auto.
Qed.

Lemma table_cleared p : table_ok [] p -> table_ok [] (clear_anchors p).
Proof. intros [H1 H2]. split; [exact H1|intros m; reflexivity]. Qed.

Lemma at_cleared p st stk v tg : at_ p st stk v [] tg -> at_ (clear_anchors p) st stk v [] tg.
Proof. intros [A1 A2 A3 A4 A5 A6]. split; auto. apply table_cleared, A4. Qed.

(** The first document, the rest being [v]. *)
Lemma first_document fuel d tags n lead more toks e mk :
  one_version d -> doc_ok true d ->
  (forall h s t, tags h s = Some t -> tag_means (doc_table last_table false [] d) h s (Some t)) ->
  opt_events (tree_events tags) [] (d_root d) = Some (node_evs n) ->
  follows (d_ends d) more ->
  map k_type toks = TStreamStart :: repeat TDocumentEnd lead ++ doc_toks d ++ more ->
  List.length (node_evs n) <= fuel ->
  exists p' r, load fuel false (new_parser toks e mk false) = (p', Ok r) /\
    map fst r = EStreamStart :: doc_evs (d_explicit d, n).
Proof.
  intros Hv (Hdirs & Hexp & Hroot) Htags He Hfl Ht Hf.
  unfold doc_toks in Ht. rewrite <- !app_assoc in Ht.
  assert (HS : runs (new_parser toks e mk false) [EStreamStart]
    (fun q => before_doc q true (repeat TDocumentEnd lead ++ map dir_tok (d_dirs d) ++
       (if d_explicit d then [TDocumentStart] else []) ++ opt_list tree_toks (d_root d) ++
       repeat TDocumentEnd (d_ends d) ++ more) [] false [])).
  { eapply (runs_step _ stream_start); [reflexivity|discriminate|reflexivity|].
    unfold stream_start. apply must_bind.
    eapply must_peek; [exact Ht|]. intros t r Et Er. rewrite Et.
    apply must_bind, must_modify, must_bind, must_modify, must_ret. exists [].
    split; [reflexivity|]. apply runs_nil.
    split; auto. split; [reflexivity|intros m; reflexivity]. }
  destruct HS as (l0 & p1 & T0 & E0 & HB). destruct l0 as [|[e0 sp0] [|]]; try discriminate.
  injection E0; intros ->. inversion T0 as [|? ? ? ? ? N0 T0']; subst. inversion T0'; subst. clear T0 T0' E0.
  assert (Hcur := bd_current _ _ _ _ _ _ HB). assert (Hst := bd_state _ _ _ _ _ _ HB).
  assert (HD : runs p1 [EDocumentStart (d_explicit d)] (fun q =>
    at_ q (if d_explicit d then StDocumentContent else StBlockNode) [StDocumentEnd]
      (opt_list tree_toks (d_root d) ++ repeat TDocumentEnd (d_ends d) ++ more) []
      (doc_table last_table false [] d))).
  { destruct (d_explicit d) eqn:Ex.
    - eapply (runs_step _ (document_start true)); [exact Hcur|rewrite Hst; discriminate|
          unfold state_machine; rewrite Hst; reflexivity|].
      cbn [app] in HB. eapply expl_start; [exact HB|exact Hv|reflexivity|].
      intros q sp Hq. exists []. split; [reflexivity|]. apply runs_nil. exact Hq.
    - destruct (Hexp eq_refl) as [Hne _].
      assert (Hdn : d_dirs d = []).
      { destruct (d_dirs d); [reflexivity|]. destruct Hdirs as [X _]; [discriminate|congruence]. }
      rewrite Hdn in HB. cbn [map app] in HB.
      destruct (d_root d) as [t|] eqn:Ert; [|congruence]. cbn [opt_list] in HB |- *.
      pose proof (tree_head false t (or_intror Hroot)) as Hh.
      destruct (tree_toks t) as [|c r] eqn:Ett; [destruct Hh|]. cbn [app] in HB.
      eapply (runs_step _ (document_start true)); [exact Hcur|rewrite Hst; discriminate|
          unfold state_machine; rewrite Hst; reflexivity|].
      eapply impl_start; [exact HB|exact Hh|exact Hdn|].
      intros q sp Hq. exists []. split; [reflexivity|]. apply runs_nil. exact Hq. }
  destruct HD as (l1 & p2 & T1 & E1 & HA). destruct l1 as [|[e1 sp1] [|]]; try discriminate.
  injection E1; intros ->. inversion T1 as [|? ? ? ? ? N1 T1']; subst. inversion T1'; subst. clear T1 T1' E1.
  apply at_cleared in HA.
  assert (HR := root_runs tags d more (clear_anchors p2) [] (node_evs n) _ (d_explicit d) HA
    (fun X => proj1 (Hexp X)) Hroot Htags He Hfl).
  destruct HR as (l2 & p3 & T2 & E2 & HA3).
  assert (HE := document_end_runs p3 more (d_ends d) _ (p_keep_tags p3) _ HA3 eq_refl Hfl).
  destruct HE as (l3 & p4 & T3 & E3 & _). destruct l3 as [|[e3 sp3] [|]]; try discriminate.
  injection E3; intros ->. inversion T3 as [|? ? ? ? ? N3 T3']; subst. inversion T3'; subst. clear T3 T3' E3.
  destruct (node_first n) as (x & xs & En & _ & _).
  destruct l2 as [|[e2 sp2] l2]; [rewrite En in E2; discriminate|].
  inversion T2 as [|? p5 ? ? ? N2 T2']; subst.
  assert (Hlen : S (List.length l2) <= fuel).
  { rewrite <- E2 in Hf. rewrite map_length in Hf. exact Hf. }
  destruct fuel as [|fuel]; [lia|].
  exists p4. eexists. split.
  - unfold load. unfold bind at 1. rewrite N0. cbn [fst load_docs]. unfold bind at 1. rewrite N1. cbn [fst].
    unfold bind at 1, modify. fold (clear_anchors p2). unfold load_document. cbn [fst].
    unfold bind at 1. unfold bind at 1. rewrite N2. unfold bind at 1.
    match goal with |- context [load_node_f (S fuel) (LNode (e2, sp2)) ?r p5] =>
      destruct (load_pulls (S fuel) l2 p5 p3 r T2') as (HL & _ & _) end.
    rewrite (HL n _ E2 Hlen). unfold bind at 1. rewrite N3. cbn [fst]. reflexivity.
  - unfold on_event, doc_evs. rewrite !map_app, E2. cbn [map fst app snd].
    rewrite <- ?app_assoc. reflexivity.
Qed.

Lemma single_follows fuel d tags n lead more toks e mk :
  one_version d -> doc_ok true d ->
  (forall h s t, tags h s = Some t -> tag_means (doc_table last_table false [] d) h s (Some t)) ->
  opt_events (tree_events tags) [] (d_root d) = Some (node_evs n) ->
  follows (d_ends d) more ->
  map k_type toks = TStreamStart :: repeat TDocumentEnd lead ++ doc_toks d ++ more ->
  List.length (node_evs n) <= fuel ->
  load_single fuel toks e mk = Ok (fst (value_of kept_pairs [] n)).
Proof.
  intros H1 H2 H3 H4 H5 H6 H7.
  destruct (first_document fuel d tags n lead more toks e mk H1 H2 H3 H4 H5 H6 H7) as (p' & r & EL & ER).
  unfold load_single. rewrite EL, ER.
  destruct (value_of kept_pairs [] n) as [y e1] eqn:V.
  assert (V2 : docs_values kept_pairs [] [(d_explicit d, n)] = ([y], e1)).
  { unfold docs_values. cbn [thread snd]. rewrite V. reflexivity. }
  cbn [loader_run loader_event].
  replace (doc_evs (d_explicit d, n)) with (flat_map doc_evs [(d_explicit d, n)]) by (cbn [flat_map]; apply app_nil_r).
  unfold new_loader. rewrite (LoaderProofs.docs_run [(d_explicit d, n)] [] [] [y] e1 V2). reflexivity.
Qed.

Theorem single_document fuel d tags n lead more toks e mk :
  one_version d -> doc_ok true d ->
  (forall h s t, tags h s = Some t -> tag_means (doc_table last_table false [] d) h s (Some t)) ->
  opt_events (tree_events tags) [] (d_root d) = Some (node_evs n) ->
  behind d more ->
  map k_type toks = TStreamStart :: repeat TDocumentEnd lead ++ doc_toks d ++ more ->
  List.length (node_evs n) <= fuel ->
  load_single fuel toks e mk = Ok (fst (value_of kept_pairs [] n)).
Proof.
  intros H1 H2 H3 H4 H5. apply (single_follows fuel d tags n lead more toks e mk); auto.
  unfold follows, behind in *. destruct (d_ends d); [|exact I].
  destruct (H5 eq_refl) as (r & [-> | ->]); exact I.
Qed.

(** ** An example: [[12]], [...], and tokens no parser accepts. *)
Definition first_doc : doc := Doc [] false (Some (TrFlowSeq no_props [INode (TrScalar no_props Plain (str "12"))] false)) 1.
Definition first_node : node := NdSeq 0 None [NdScalar (ScalarValue (str "12") Plain 0 None)].
Definition unreadable : list token_type := [TKey; TFlowSequenceEnd; TBlockEnd; TVersionDirective 1 2].
Definition first_toks : list token :=
  map tk (TStreamStart :: doc_toks first_doc ++ unreadable).
