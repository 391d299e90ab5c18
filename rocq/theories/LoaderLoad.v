(** From tokens to loaded values. *)
From Verif Require Import Base Tokens Parser ParserRun SpecEvents SpecLoad Scalar Yaml Loader SpecValue.
From Verif Require Import ParserProofs ParserStep ParserStates ParserTheorems ParserTerm ParserLoad ParserSim LoaderProofs LoaderAlias.
From Coq Require Import String Lia.
Local Open Scope list_scope.

(** The shape of what [load] sends follows from its own control flow. *)
Lemma load_node_shape fuel : forall m r p p' r',
  load_node_f fuel m r p = (p', Ok r') ->
  exists new, map fst r' = map fst r ++ new /\
    match m with
    | LNode _ => node_events new
    | LSequence => exists l, new = l ++ [ESequenceEnd] /\ nodes_events l
    | LMapping => exists l, new = l ++ [EMappingEnd] /\ pairs_events l
    end.
Proof.
  induction fuel as [|fuel IH]; intros m r p p' r' H; [discriminate|].
  cbn [load_node_f] in H. destruct m as [[e sp]| |].
  - cbn [fst] in H. destruct e; try discriminate.
    + inversion H; subst. unfold on_event. rewrite map_app. eexists; split; [reflexivity|constructor].
    + inversion H; subst. unfold on_event. rewrite map_app. eexists; split; [reflexivity|constructor].
    + destruct (IH _ _ _ _ _ H) as (new & E & l & -> & HL).
      unfold on_event in E. rewrite map_app, <- app_assoc in E.
      eexists; split; [exact E|]. constructor. exact HL.
    + destruct (IH _ _ _ _ _ H) as (new & E & l & -> & HL).
      unfold on_event in E. rewrite map_app, <- app_assoc in E.
      eexists; split; [exact E|]. constructor. exact HL.
  - apply bind_inv in H as (p1 & [e sp] & H1 & H). cbn [fst] in H.
    assert (Hcase : (e = EMappingEnd /\ ret (on_event (e, sp) r) p1 = (p', Ok r')) \/
       (let* r := load_node_f fuel (LNode (e, sp)) r in
              let* e2 := next_event_impl in
              let* r := load_node_f fuel (LNode e2) r in
              load_node_f fuel LMapping r)%m p1 = (p', Ok r')) by (destruct e; auto).
    clear H. destruct Hcase as [[-> H]|H].
    + inversion H; subst. unfold on_event. rewrite map_app. eexists; split; [reflexivity|].
      exists []. split; [reflexivity|constructor].
    + apply bind_inv in H as (p2 & r2 & H2 & H). apply bind_inv in H as (p3 & e3 & H3 & H).
      apply bind_inv in H as (p4 & r4 & H4 & H).
      destruct (IH _ _ _ _ _ H2) as (n2 & E2 & N2).
      destruct (IH _ _ _ _ _ H4) as (n4 & E4 & N4).
      destruct (IH _ _ _ _ _ H) as (n5 & E5 & l & -> & HL).
      exists (n2 ++ n4 ++ l ++ [EMappingEnd]). split.
      * rewrite E5, E4, E2, <- !app_assoc. reflexivity.
      * exists (n2 ++ n4 ++ l). split; [rewrite <- !app_assoc; reflexivity|]. constructor; auto.
  - apply bind_inv in H as (p1 & [e sp] & H1 & H). cbn [fst] in H.
    assert (Hcase : (e = ESequenceEnd /\ ret (on_event (e, sp) r) p1 = (p', Ok r')) \/
       (let* r := load_node_f fuel (LNode (e, sp)) r in
              load_node_f fuel LSequence r)%m p1 = (p', Ok r')) by (destruct e; auto).
    clear H. destruct Hcase as [[-> H]|H].
    + inversion H; subst. unfold on_event. rewrite map_app. eexists; split; [reflexivity|].
      exists []. split; [reflexivity|constructor].
    + apply bind_inv in H as (p2 & r2 & H2 & H).
      destruct (IH _ _ _ _ _ H2) as (n2 & E2 & N2).
      destruct (IH _ _ _ _ _ H) as (n5 & E5 & l & -> & HL).
      exists (n2 ++ l ++ [ESequenceEnd]). split.
      * rewrite E5, E2, <- !app_assoc. reflexivity.
      * exists (n2 ++ l). split; [rewrite <- !app_assoc; reflexivity|]. constructor; auto.
Qed.

Lemma load_document_shape fuel e r p p' r' :
  load_document fuel e r p = (p', Ok r') ->
  exists b n, node_events n /\ map fst r' = map fst r ++ EDocumentStart b :: n ++ [EDocumentEnd].
Proof.
  unfold load_document. destruct e as [e sp]. cbn [fst]. destruct e; try discriminate.
  intros H. apply bind_inv in H as (p1 & e1 & H1 & H). apply bind_inv in H as (p2 & r2 & H2 & H).
  apply bind_inv in H as (p3 & [e3 sp3] & H3 & H). cbn [fst] in H.
  destruct e3; try discriminate. inversion H; subst.
  destruct (load_node_shape _ _ _ _ _ _ H2) as (n & E & N).
  exists explicit, n. split; auto. unfold on_event in *. rewrite map_app, E, map_app, <- !app_assoc.
  reflexivity.
Qed.

(** Loading one document does the first part of loading all. *)
Lemma load_docs_shape fuel : forall r p p' r',
  load_docs fuel true r p = (p', Ok r') ->
  (exists q r1, load_docs fuel false r p = (q, Ok r1) /\
     ((map fst r1 = map fst r ++ [EStreamEnd] /\ r' = r1) \/
      (exists b n d, node_events n /\ docs_events d /\
         map fst r1 = map fst r ++ EDocumentStart b :: n ++ [EDocumentEnd] /\
         map fst r' = map fst r1 ++ d ++ [EStreamEnd]))) /\
  (exists d, docs_events d /\ map fst r' = map fst r ++ d ++ [EStreamEnd]).
Proof.
  induction fuel as [|fuel IH]; intros r p p' r' H; [discriminate|].
  cbn [load_docs] in H |- *. apply bind_inv in H as (p1 & [e sp] & H1 & H). cbn [fst] in H.
  assert (Hcase : (e = EStreamEnd /\ ret (on_event (e, sp) r) p1 = (p', Ok r')) \/
     (e <> EStreamEnd /\ (modify (fun p => set_anchors [] (p_anchor_id_count p) p) ;;;
          let* r := load_document (S fuel) (e, sp) r in
          load_docs fuel true r)%m p1 = (p', Ok r'))).
  { destruct e; try (right; split; [discriminate|exact H]). left. auto. }
  clear H. destruct Hcase as [[-> H]|[Hne H]].
  - split.
    + unfold bind. rewrite H1. cbn [fst]. eexists; eexists; split; [exact H|]. left.
      split; [|reflexivity].
      inversion H; subst. unfold on_event. rewrite map_app. reflexivity.
    + inversion H; subst. exists []. split; [constructor|]. unfold on_event. rewrite map_app. reflexivity.
  - apply bind_inv in H as (p2 & [] & H2 & H). apply bind_inv in H as (p3 & r3 & H3 & H).
    destruct (load_document_shape _ _ _ _ _ _ H3) as (b & n & N & E).
    destruct (IH _ _ _ _ H) as (_ & d & D & Ed).
    split.
    + exists p3, r3. split.
      * unfold bind at 1. rewrite H1. cbn [fst].
        assert (X : (modify (fun p => set_anchors [] (p_anchor_id_count p) p) ;;;
          let* r := load_document (S fuel) (e, sp) r in ret r)%m p1 = (p3, Ok r3)).
        { unfold bind at 1. rewrite H2. unfold bind. rewrite H3. reflexivity. }
        destruct e; try exact X. congruence.
      * right. exists b, n, d. auto.
    + exists (EDocumentStart b :: n ++ EDocumentEnd :: d). split; [constructor; auto|].
      rewrite Ed, E, <- !app_assoc. cbn [app]. rewrite <- !app_assoc. reflexivity.
Qed.

Lemma load_shape fuel p p' r' :
  load fuel true p = (p', Ok r') ->
  exists q r1, load fuel false p = (q, Ok r1) /\
     ((map fst r1 = [EStreamStart; EStreamEnd] /\ r' = r1) \/
      (exists b n ds, map fst r1 = EStreamStart :: doc_evs (b, n) /\
         map fst r' = docs_evs ((b, n) :: ds))).
Proof.
  unfold load. intros H. apply bind_inv in H as (p1 & [e sp] & H1 & H). cbn [fst] in H.
  unfold bind. rewrite H1. cbn [fst]. destruct e; try discriminate.
  destruct (load_docs_shape _ _ _ _ _ H) as [(q & r1 & E & C) _].
  exists q, r1. split; [exact E|].
  destruct C as [[C ->]|(b & n & d & N & D & E1 & E2)]; [left; auto|right].
  destruct (proj1 events_trees n N) as [nd ->]. destruct (docs_trees d D) as [ds ->].
  exists b, nd, ds. unfold on_event in E1. cbn [map app fst] in E1. unfold doc_evs.
  cbn [fst snd]. split; [exact E1|].
  rewrite E2, E1. unfold docs_evs. cbn [flat_map]. unfold doc_evs at 2. cbn [fst snd].
  cbn [app]. rewrite <- !app_assoc. reflexivity.
Qed.

(** ** What [load_from] answers *)

Lemma load_anchors_distinct fuel toks e mk keep p' r :
  load fuel true (new_parser toks e mk keep) = (p', Ok r) -> NoDup (anchored_ids (map fst r)).
Proof.
  intros H.
  pose proof (load_is_iteration fuel toks e mk keep p' r (List.length r) H (le_n _)) as HE.
  destruct (anchor_ids_count_up toks e mk keep (List.length r)) as (cs & rest & _ & HA).
  rewrite <- HE, HA. apply seq_NoDup.
Qed.

Lemma load_from_values fuel toks e mk :
  match load_from fuel toks e mk with
  | Ok ys => exists p' r ds,
      load fuel true (new_parser toks e mk false) = (p', Ok r) /\
      map fst r = docs_evs ds /\ ys = fst (docs_values kept_pairs [] ds)
  | Err _ => True
  | Fuel => fuel < 16 * List.length toks + 1
  | _ => False
  end.
Proof.
  unfold load_from. pose proof (load_ok fuel true toks e mk false) as HL.
  destruct (load fuel true (new_parser toks e mk false)) as [p' [r|er| | |]] eqn:E; auto.
  destruct HL as (_ & tail & HS & HT & _). rewrite (HT eq_refl), app_nil_r in HS.
  destruct (stream_trees _ HS) as [ds Hds].
  destruct (docs_values kept_pairs [] ds) as [ys e'] eqn:V.
  rewrite Hds, (stream_run ds ys e' V). cbn [ld_docs].
  exists p', r, ds. rewrite V. auto.
Qed.

(** Every document is loaded as if it were alone. *)
Lemma local_alias_anchored l : forall ids, (forall b, ~ In (EDocumentStart b) l) -> aliases_local ids l ->
  forall i, In i (alias_ids l) -> In i ids \/ In i (anchored_ids l).
Proof.
  induction l as [|e l IH]; intros ids HD H i Hi; [destruct Hi|].
  assert (HD' : forall b, ~ In (EDocumentStart b) l) by (intros b X; apply (HD b); right; exact X).
  destruct e; cbn [aliases_local alias_ids anchored_ids event_anchor] in *;
    try (destruct (IH _ HD' H i Hi) as [X|X];
         [apply in_app_iff in X|];
         try match goal with |- context [match ?b with _ => _ end] => destruct b end;
         cbn [In app anchored_ids event_anchor] in *; tauto).
  - exfalso. apply (HD explicit). left; reflexivity.
  - destruct H as [H1 H2]. destruct Hi as [<-|Hi]; auto.
Qed.

Lemma node_evs_no_doc n b : ~ In (EDocumentStart b) (node_evs n).
Proof.
  remember (node_size n) as sz eqn:Hsz. assert (H : node_size n <= sz) by lia. clear Hsz.
  revert n H. induction sz as [|sz IH]; intros n H; [destruct n; cbn in H; lia|].
  destruct n as [v|id|a t ns|a t ps]; cbn [node_evs].
  - intros [X|[]]; discriminate.
  - intros [X|[]]; discriminate.
  - intros [X|X]; [discriminate|]. apply in_app_iff in X. destruct X as [X|[X|[]]]; [|discriminate].
    apply in_flat_map in X. destruct X as (x & Hx & X). apply (IH x); auto.
    cbn [node_size] in H. pose proof (sum_in node_size x ns Hx). lia.
  - intros [X|X]; [discriminate|]. apply in_app_iff in X. destruct X as [X|[X|[]]]; [|discriminate].
    apply in_flat_map in X. destruct X as ([k v] & Hx & X). cbn [node_size] in H.
    pose proof (sum_in (fun x => let '(k, v) := x in node_size k + node_size v) _ ps Hx) as Q.
    cbv beta iota in Q. apply in_app_iff in X. destruct X as [X|X]; revert X; apply IH; lia.
Qed.

Lemma aliases_local_app l1 : forall l2 ids, aliases_local ids (l1 ++ l2) -> aliases_local ids l1.
Proof.
  induction l1 as [|e l1 IH]; intros l2 ids H; [exact I|].
  destruct e; cbn [app aliases_local] in *; eauto. destruct H; split; eauto.
Qed.

Lemma aliases_local_doc l1 : forall ids b l2, aliases_local ids (l1 ++ EDocumentStart b :: l2) -> aliases_local [] l2.
Proof.
  induction l1 as [|e l1 IH]; intros ids b l2 H; [exact H|].
  destruct e; cbn [app aliases_local] in *; eauto. destruct H; eauto.
Qed.

Lemma nth_ext_error {A} (l1 l2 : list A) : (forall i, nth_error l1 i = nth_error l2 i) -> l1 = l2.
Proof.
  revert l2. induction l1 as [|x l1 IH]; intros [|y l2] H; auto.
  - specialize (H 0); discriminate.
  - specialize (H 0); discriminate.
  - pose proof (H 0) as H0. cbn in H0. injection H0; intros ->. f_equal. apply IH.
    intros i. apply (H (S i)).
Qed.

Lemma values_alone ds : aliases_local [] (docs_evs ds) -> NoDup (anchored_ids (docs_evs ds)) ->
  fst (docs_values kept_pairs [] ds) = map (fun d => fst (value_of kept_pairs [] (snd d))) ds.
Proof.
  intros HA HN.
  assert (HK : forall ds1 b n ds2, ds = ds1 ++ (b, n) :: ds2 ->
     nth_error (fst (docs_values kept_pairs [] ds)) (List.length ds1) = Some (fst (value_of kept_pairs [] n))).
  { intros ds1 b n ds2 ->. apply documents_independent.
    - intros i Hi. unfold docs_evs in HA. cbn [aliases_local anchored_ids event_anchor Nat.eqb app] in HA.
      rewrite flat_map_app in HA. cbn [flat_map] in HA. unfold doc_evs at 2 in HA. cbn [fst snd] in HA.
      cbn [app] in HA. rewrite <- app_assoc in HA. cbn [app] in HA.
      apply aliases_local_doc in HA.
      rewrite <- !app_assoc in HA. apply aliases_local_app in HA.
      destruct (local_alias_anchored _ [] (fun b => node_evs_no_doc n b) HA i Hi) as [[]|X]. exact X.
    - intros i Hi Hi'. unfold docs_evs in HN. cbn [anchored_ids event_anchor Nat.eqb] in HN.
      rewrite flat_map_app in HN. cbn [flat_map] in HN. rewrite <- app_assoc in HN.
      rewrite anchored_ids_app in HN. unfold doc_evs at 2 in HN. cbn [fst snd app] in HN.
      cbn [anchored_ids event_anchor Nat.eqb] in HN. rewrite <- !app_assoc, !anchored_ids_app in HN.
      clear -HN Hi Hi'. induction (anchored_ids (flat_map doc_evs ds1)) as [|x l IH]; [destruct Hi'|].
      cbn [app] in HN. inversion HN; subst. destruct Hi' as [->|Hi']; auto.
      apply H1. apply in_app_iff. right. apply in_app_iff. left. exact Hi. }
  assert (HL : List.length (fst (docs_values kept_pairs [] ds)) = List.length ds)
    by apply thread_length.
  clear HA HN. apply nth_ext_error.
  intros i. destruct (nth_error ds i) as [[b n]|] eqn:E.
  - destruct (nth_error_split ds i E) as (ds1 & ds2 & E1 & E2). rewrite <- E2.
    rewrite (HK _ _ _ _ E1). rewrite E1, map_app. cbn [map snd].
    rewrite nth_error_app2 by (rewrite map_length; lia). rewrite map_length, Nat.sub_diag. reflexivity.
  - apply nth_error_None in E. symmetry.
    transitivity (@None yaml); [apply nth_error_None; rewrite map_length; exact E|].
    symmetry. apply nth_error_None. lia.
Qed.

Lemma load_from_alone fuel toks e mk ys : load_from fuel toks e mk = Ok ys ->
  exists p' r ds, load fuel true (new_parser toks e mk false) = (p', Ok r) /\
    map fst r = docs_evs ds /\ ys = map (fun d => fst (value_of kept_pairs [] (snd d))) ds.
Proof.
  intros H. pose proof (load_from_values fuel toks e mk) as HV. rewrite H in HV.
  destruct HV as (p' & r & ds & HL & HD & ->). exists p', r, ds. split; auto. split; auto.
  apply values_alone; rewrite <- HD.
  - pose proof (load_ok fuel true toks e mk false) as HO. rewrite HL in HO. apply HO.
  - eapply load_anchors_distinct; eauto.
Qed.

Lemma load_single_first fuel toks e mk ys : load_from fuel toks e mk = Ok ys ->
  load_single fuel toks e mk = match ys with y :: _ => Ok y | [] => Err NoDocument end.
Proof.
  intros H. unfold load_from in H.
  destruct (load fuel true (new_parser toks e mk false)) as [p' [r|er| | |]] eqn:E; try discriminate.
  destruct (load_shape _ _ _ _ E) as (q & r1 & E1 & C).
  unfold load_single. rewrite E1.
  destruct C as [[C ->]|(b & n & ds & C1 & C2)].
  - rewrite C in *. cbn in H |- *. injection H; intros <-. reflexivity.
  - rewrite C2 in H. rewrite C1.
    destruct (docs_values kept_pairs [] ((b, n) :: ds)) as [zs e'] eqn:V.
    rewrite (stream_run _ _ _ V) in H. cbn [ld_docs] in H. injection H; intros <-.
    unfold docs_values in V. cbn [thread snd] in V.
    destruct (value_of kept_pairs [] n) as [y e1] eqn:V1.
    destruct (thread _ e1 ds) as [ys' e2]. injection V; intros <- <-.
    assert (V2 : docs_values kept_pairs [] [(b, n)] = ([y], e1)).
    { unfold docs_values. cbn [thread snd]. rewrite V1. reflexivity. }
    cbn [loader_run loader_event].
    replace (doc_evs (b, n)) with (flat_map doc_evs [(b, n)]) by (cbn [flat_map]; apply app_nil_r).
    unfold new_loader. rewrite (docs_run [(b, n)] [] [] [y] e1 V2). reflexivity.
Qed.
