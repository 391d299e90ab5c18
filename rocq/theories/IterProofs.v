(** Proofs about the event iterator. *)
From Verif Require Import Base Tokens Parser ParserRun SpecEvents ParserProofs ParserStep ParserStates ParserTheorems.
From Verif Require Import ParserIter SpecIter.
From Coq Require Import Lia.

Lemma impl_chain n p e r : good p -> p_stream_end_emitted p = false -> events_of (S n) p = e :: r ->
  exists p' sp, next_event_impl p = (p', Ok (e, sp)) /\ good p' /\
    (e <> EStreamEnd -> p_stream_end_emitted p' = false /\ events_of n p' = r).
Proof.
  intros Hg He H. cbn [events_of] in H. unfold next_event in H. rewrite He in H.
  pose proof (next_event_impl_good p Hg) as [Hg' _]. pose proof (next_event_impl_frame p Hg) as [_ Hf].
  destruct (next_event_impl p) as [p' o]. cbn in Hg', Hf.
  destruct o as [[e' sp]|e'| | |]; try discriminate.
  exists p', sp. destruct e'; cbn in H; injection H as <- <-; (split; [reflexivity|]); (split; [exact Hg'|]);
    intros Hne; try (split; [congruence|reflexivity]); congruence.
Qed.

(** After the document end only [None] is answered. *)
Lemma end_none fuel m : forall i, i_state i = IEndDocument -> good (i_parser i) ->
  iter_run fuel m i = repeat (Ok None) m.
Proof.
  induction m as [|m IH]; intros i Hs Hg; cbn [iter_run repeat]; [reflexivity|].
  unfold iter_next. destruct fuel; cbn [iter_loop]; rewrite Hs; unfold finish_document, bind, iter_event;
  pose proof (next_event_impl_good (i_parser i) Hg) as [Hg' Hb];
  destruct (next_event_impl (i_parser i)) as [p' o]; cbn in Hg', Hb;
  (destruct o as [[e' sp]|e'| | |]; try contradiction);
  try (cbn; f_equal; apply IH; cbn; assumption);
  destruct e'; cbn; f_equal; apply IH; cbn; assumption.
Qed.

(** The answers from inside a document. *)
Lemma in_doc (body : list event) : forall fuel n p er m,
  good p -> p_stream_end_emitted p = false ->
  (forall e, In e body -> yam_of e <> None) ->
  events_of n p = body ++ [EDocumentEnd; EStreamEnd] -> List.length body < fuel ->
  let k := List.length (yam_events (filter (fun e => negb (is_alias_event e)) body)) in
  iter_run fuel (k + 1 + m) (ParserIter p IInDocument er) =
  map (fun y => Ok (Some y)) (yam_events (filter (fun e => negb (is_alias_event e)) body) ++ [YDocEnd]) ++ repeat (Ok None) m.
Proof.
  (* the inner loop skips aliases *)
  assert (Hloop : forall (body : list event) fuel n p er, good p -> p_stream_end_emitted p = false ->
    events_of n p = body ++ [EDocumentEnd; EStreamEnd] -> List.length body < fuel ->
    (forall e, In e body -> yam_of e <> None) ->
    (filter (fun e => negb (is_alias_event e)) body = [] ->
       exists p', good p' /\ iter_next fuel (ParserIter p IInDocument er) = (ParserIter p' IEndDocument er, Ok (Some YDocEnd))) /\
    (forall e r, filter (fun e => negb (is_alias_event e)) body = e :: r ->
       exists p' n' body' y, good p' /\ p_stream_end_emitted p' = false /\ yam_of e = Some y /\
         events_of n' p' = body' ++ [EDocumentEnd; EStreamEnd] /\
         filter (fun e => negb (is_alias_event e)) body' = r /\ List.length body' < List.length body /\
         (forall e, In e body' -> In e body) /\
         iter_next fuel (ParserIter p IInDocument er) = (ParserIter p' IInDocument er, Ok (Some y)))).
  { clear. intros body. assert (Hstep : forall n p er e r, good p -> p_stream_end_emitted p = false -> events_of n p = e :: r ->
    e <> EStreamEnd -> exists p', good p' /\ p_stream_end_emitted p' = false /\ events_of (n - 1) p' = r /\
      iter_event (ParserIter p IInDocument er) = (ParserIter p' IInDocument er, Ok e)).
    { intros n p er e r Hg He H Hne. destruct n as [|n]; [discriminate|].
      destruct (impl_chain n p e r Hg He H) as (p' & sp & E1 & E2 & E3). destruct (E3 Hne) as [E4 E5].
      exists p'. repeat split; auto. { replace (S n - 1) with n by lia. exact E5. }
      unfold iter_event. cbn [i_parser]. rewrite E1. reflexivity. }
    induction body as [|a body IH]; intros fuel n p er Hg He H Hl Hy.
    - split; [intros _|intros; discriminate]. cbn [app] in H.
      destruct (Hstep n p er _ _ Hg He H) as (p' & G & _ & _ & E); [discriminate|].
      exists p'. split; [exact G|]. unfold iter_next. destruct fuel; cbn [iter_loop i_state]; unfold process_doc, bind; rewrite E; reflexivity.
    - cbn [app] in H.
      destruct (Hstep n p er _ _ Hg He H) as (p' & G1 & G2 & G3 & E).
      { intros ->. apply (Hy EStreamEnd); [left; reflexivity|reflexivity]. }
      destruct fuel as [|fuel]; [cbn in Hl; lia|]. cbn [List.length] in Hl.
      destruct (is_alias_event a) eqn:Ea.
      + destruct a; try discriminate. cbn [filter is_alias_event negb].
        assert (Eq : iter_next (S fuel) (ParserIter p IInDocument er) = iter_next fuel (ParserIter p' IInDocument er)).
        { unfold iter_next. cbn [iter_loop i_state]. unfold process_doc at 1, bind at 1. rewrite E. cbn. reflexivity. }
        rewrite Eq.
        destruct (IH fuel (n - 1) p' er G1 G2 G3) as [I1 I2]; [lia|intros e He'; apply Hy; right; exact He'|].
        split; [exact I1|]. intros e r Hf. destruct (I2 e r Hf) as (p2 & n2 & b2 & y & J1 & J2 & J3 & J4 & J5 & J6 & J7 & J8).
        exists p2, n2, b2, y. repeat (split; [assumption || (cbn; lia) || auto|]). { intros x Hx; right; auto. } exact J8.
      + cbn [filter]. rewrite Ea. cbn [negb]. split; [discriminate|]. intros e r Hf. injection Hf as <- <-.
        destruct (yam_of a) as [y|] eqn:Ey; [|exfalso; apply (Hy a); [left; reflexivity|exact Ey]].
        exists p', (n - 1), body, y. repeat (split; [assumption || reflexivity || (cbn; lia)|]).
        split; [intros x Hx; right; exact Hx|].
        unfold iter_next. cbn [iter_loop i_state]. unfold process_doc, bind. rewrite E.
        destruct a; try discriminate; cbn in Ey; injection Ey as <-; reflexivity. }
  intros fuel n p er m Hg He Hy H Hl. cbv zeta.
  remember (filter (fun e => negb (is_alias_event e)) body) as fb eqn:Ef. symmetry in Ef.
  revert body n p Hg He Hy H Hl Ef. induction fb as [|e fb IH]; intros body n p Hg He Hy H Hl Ef;
    destruct (Hloop body fuel n p er Hg He H Hl Hy) as [L1 L2].
  - destruct (L1 Ef) as (p' & G & E). cbn [yam_events List.length map app Nat.add]. cbn [iter_run]. rewrite E.
    cbn [app]. f_equal. apply end_none; [reflexivity|exact G].
  - destruct (L2 e fb Ef) as (p' & n' & b' & y & J1 & J2 & J3 & J4 & J5 & J6 & J7 & J8).
    cbn [yam_events]. rewrite J3. cbn [List.length Nat.add map app]. cbn [iter_run]. rewrite J8. f_equal.
    apply (IH b' n' p'); auto. lia.
Qed.

Lemma node_yam :
  (forall l, node_events l -> forall e, In e l -> yam_of e <> None) /\
  (forall l, nodes_events l -> forall e, In e l -> yam_of e <> None) /\
  (forall l, pairs_events l -> forall e, In e l -> yam_of e <> None).
Proof.
  apply events_mutind; intros; cbn in *; rewrite ?in_app_iff in *; cbn in *;
    repeat match goal with H : _ \/ _ |- _ => destruct H end; subst; try discriminate; try contradiction; eauto.
Qed.

(** One document: [DocStart], the events of its node except aliases, [DocEnd], then nothing. *)
Lemma iter_document toks e mk keep n b body fuel m :
  node_events body ->
  events_of n (new_parser toks e mk keep) = EStreamStart :: EDocumentStart b :: body ++ [EDocumentEnd; EStreamEnd] ->
  List.length body < fuel ->
  let ys := yam_events (filter (fun e => negb (is_alias_event e)) body) in
  iter_run fuel (List.length ys + 2 + m) (new_iter (new_parser toks e mk keep)) =
  map (fun y => Ok (Some y)) (YDocStart :: ys ++ [YDocEnd]) ++ repeat (Ok None) m.
Proof.
  intros Hb H Hl. cbv zeta.
  destruct n as [|n]; [discriminate|].
  destruct (impl_chain n (new_parser toks e mk keep) _ _ eq_refl eq_refl H) as (p1 & sp1 & E1 & G1 & K1).
  destruct K1 as [N1 V1]; [discriminate|].
  destruct n as [|n]; [discriminate|].
  destruct (impl_chain n p1 _ _ G1 N1 V1) as (p2 & sp2 & E2 & G2 & K2). destruct K2 as [N2 V2]; [discriminate|].
  replace (List.length (yam_events (filter (fun e => negb (is_alias_event e)) body)) + 2 + m)
    with (S (List.length (yam_events (filter (fun e => negb (is_alias_event e)) body)) + 1 + m)) by lia.
  cbn [iter_run]. 
  assert (En : iter_next fuel (new_iter (new_parser toks e mk keep)) = (ParserIter p2 IInDocument None, Ok (Some YDocStart))).
  { unfold iter_next, new_iter. destruct fuel; cbn [iter_loop i_state]; unfold process_start, bind, iter_event; cbn [i_parser];
    rewrite E1; cbn [i_parser]; rewrite E2; reflexivity. }
  rewrite En. cbn [map app]. f_equal. apply (in_doc body fuel n); auto. apply (proj1 node_yam), Hb.
Qed.

(** The complete event streams with exactly one document. *)
Lemma one_document toks e mk keep n :
  let evs := events_of n (new_parser toks e mk keep) in
  In EStreamEnd evs ->
  List.length (filter (fun x => match x with EDocumentStart _ => true | _ => false end) evs) = 1 ->
  exists b body, node_events body /\
    evs = EStreamStart :: EDocumentStart b :: body ++ [EDocumentEnd; EStreamEnd].
Proof.
  cbv zeta. intros Hin Hc. destruct (proj2 (events_of_grammar toks e mk keep n) Hin) as (d & Hd & E).
  rewrite E in Hc |- *. cbn [filter] in Hc. rewrite filter_app, app_length in Hc. cbn [filter List.length] in Hc.
  destruct Hd as [|b nd l Hn Hl]; [cbn in Hc; lia|].
  destruct Hl as [|b2 nd2 l2 Hn2 Hl2].
  - exists b, nd. split; [exact Hn|]. cbn [app]. rewrite <- app_assoc. reflexivity.
  - exfalso. cbn [filter List.length] in Hc. rewrite filter_app, app_length in Hc. cbn [filter List.length] in Hc. lia.
Qed.
