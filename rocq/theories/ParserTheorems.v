(** Run-level facts about the parser (C01-C06). *)
From Verif Require Import Base Tokens Parser ParserRun SpecEvents ParserProofs ParserStep ParserStates.
From Coq Require Import Lia.
Local Open Scope list_scope.

(** ** Where StreamEnd can occur in a word of the language *)
Definition tailed (k : lang) : Prop :=
  forall w, k w -> exists u, w = u ++ [EStreamEnd] /\ ~ In EStreamEnd u.

Scheme ne_ind := Minimality for node_events Sort Prop
  with ns_ind := Minimality for nodes_events Sort Prop
  with pe_ind := Minimality for pairs_events Sort Prop.
Combined Scheme events_mutind from ne_ind, ns_ind, pe_ind.

Lemma no_stream_end :
  (forall n, node_events n -> ~ In EStreamEnd n) /\
  (forall n, nodes_events n -> ~ In EStreamEnd n) /\
  (forall n, pairs_events n -> ~ In EStreamEnd n).
Proof.
  apply events_mutind; intros; cbn; rewrite ?in_app_iff; cbn; intuition (try discriminate).
Qed.
Lemma no_stream_end_docs d : docs_events d -> ~ In EStreamEnd d.
Proof.
  induction 1; cbn; [tauto|]. rewrite in_app_iff. cbn. intros [H1|[H1|[H1|H1]]]; try discriminate; auto.
  eapply (proj1 no_stream_end); eassumption.
Qed.
Lemma tailed_app (P : list event -> Prop) (k : lang) :
  (forall n, P n -> ~ In EStreamEnd n) -> tailed k ->
  tailed (fun w => exists n r, P n /\ w = n ++ r /\ k r).
Proof.
  intros H Hk w (n & r & Hn & -> & Hr). destruct (Hk r Hr) as (u & -> & Hu).
  exists (n ++ u); split; [apply app_assoc|]. rewrite in_app_iff; intros [A|A]; [eapply H; eassumption|auto].
Qed.
Lemma tailed_node k : tailed k -> tailed (node_k k).
Proof. apply tailed_app, (proj1 no_stream_end). Qed.
Lemma tailed_nodes k : tailed k -> tailed (nodes_k k).
Proof. apply tailed_app, (proj1 (proj2 no_stream_end)). Qed.
Lemma tailed_pairs k : tailed k -> tailed (pairs_k k).
Proof. apply tailed_app, (proj2 (proj2 no_stream_end)). Qed.
Lemma tailed_ev e k : e <> EStreamEnd -> tailed k -> tailed (ev_k e k).
Proof.
  intros He Hk w (r & -> & Hr). destruct (Hk r Hr) as (u & -> & Hu).
  exists (e :: u); split; [reflexivity|]. cbn; intros [A|A]; auto.
Qed.
Lemma tailed_docs : tailed docs_lang.
Proof. intros w (d & Hd & ->). exists d; split; [reflexivity|apply no_stream_end_docs, Hd]. Qed.

#[local] Hint Resolve tailed_node tailed_nodes tailed_pairs tailed_ev tailed_docs : tailed.
Lemma tailed_L1 s k : s <> StEnd -> doc_level s = true \/ tailed k -> tailed (L1 s k).
Proof.
  intros Hs H.
  destruct s; cbn in *; try congruence; destruct H as [H|H]; try discriminate;
    repeat first [apply tailed_docs | exact H | apply tailed_node | apply tailed_nodes
                 | apply tailed_pairs | (apply tailed_ev; [discriminate|]) ].
Qed.
Lemma tailed_K stk : stack_ok stk = true -> tailed (K stk).
Proof.
  induction stk as [|s r IH]; [discriminate|]. intros H. cbn. apply tailed_L1.
  - destruct r; destruct s; cbn in H; try discriminate; congruence.
  - destruct r as [|s2 r].
    + destruct s; try discriminate H; left; reflexivity.
    + right. apply IH. cbn in H. apply andb_true_iff in H; apply H.
Qed.
Lemma tailed_L s stk : s <> StEnd -> cfg_ok s stk -> tailed (L s stk).
Proof.
  intros Hs H. apply tailed_L1; [exact Hs|]. unfold cfg_ok in H.
  destruct (doc_level s); [left; reflexivity|right; apply tailed_K, H].
Qed.

Lemma pst_end_dec s : s = StEnd \/ s <> StEnd.
Proof. destruct s; (left; reflexivity) || (right; discriminate). Qed.

(** ** The invariant between requests, as long as no error was reported *)
Record inv (p : parser) : Prop := Inv {
  inv_good : good p;
  inv_cache : cache_ok p;
  inv_current : p_current p = None;
  inv_running : p_state p <> StEnd;
  inv_end : p_stream_end_emitted p = false }.

Lemma inv_new toks e mk keep : inv (new_parser toks e mk keep).
Proof. split; cbn; try reflexivity; discriminate. Qed.

(** One call of [next_event] from a running parser. *)
Lemma next_running p : inv p ->
  exists p' o,
    next_event p = ((match o with Ok (EStreamEnd, _) => set_end_emitted true p' | _ => p' end), Some o) /\
    step_ok p (Lp p) p' o /\
    match o with Ok (e, _) => (e = EStreamEnd <-> p_state p' = StEnd) | _ => True end.
Proof.
  intros [Hg Hc Hcur Hrun Hend]. pose proof (state_machine_ok p Hg Hrun) as H.
  unfold wp in H. unfold next_event, next_event_impl. rewrite Hend, Hcur.
  assert (Hp : parse p = state_machine p) by (unfold parse; destruct (p_state p); congruence).
  rewrite Hp. destruct (state_machine p) as [p' o]. cbn [fst snd] in H.
  exists p', o. split; [destruct o as [[e sp]|e| | |]; try reflexivity; destruct e; reflexivity|].
  split; [exact H|]. destruct o as [[e sp]|e| | |]; try exact I.
  destruct H as (_ & Hcfg & _ & HL & _).
  assert (Ht : tailed (Lp p)) by (apply tailed_L; assumption).
  split.
  - intros ->. destruct (L_inhab _ _ Hcfg) as [w Hw]. pose proof (HL w Hw) as Hlw.
    destruct (Ht _ Hlw) as (u & Hu & Hnu). destruct u as [|x u].
    + cbn in Hu. inversion Hu; subst w. destruct (pst_end_dec (p_state p')) as [E|E]; [exact E|].
      destruct (tailed_L _ _ E Hcfg _ Hw) as (u & Hu' & _). destruct u; discriminate.
    + cbn in Hu. inversion Hu; subst. exfalso; apply Hnu; left; reflexivity.
  - intros E. assert (Hw : L (p_state p') (p_states p') []) by (rewrite E; reflexivity).
    destruct (Ht _ (HL [] Hw)) as (u & Hu & _). destruct u as [|x [|y u]]; cbn in Hu; congruence.
Qed.

Lemma next_ended p : p_stream_end_emitted p = true -> next_event p = (p, None).
Proof. unfold next_event; intros ->; reflexivity. Qed.
Lemma events_ended n p : p_stream_end_emitted p = true -> events_of n p = [].
Proof. intros H; destruct n; cbn; [reflexivity|]. rewrite next_ended by exact H. reflexivity. Qed.

Lemma inv_step p p' e sp : inv p -> step_ok p (Lp p) p' (Ok (e, sp)) ->
  p_state p' <> StEnd -> inv p'.
Proof.
  intros [Hg Hc Hcur Hrun Hend] ((F1 & F2 & F3 & F4 & F5) & Hcfg & Hca & _) He.
  split; [exact Hcfg|exact Hca|congruence|exact He|congruence].
Qed.

(** ** C01 *)
Lemma events_lang n : forall p, inv p ->
  exists tail, Lp p (events_of n p ++ tail) /\ (In EStreamEnd (events_of n p) -> tail = []).
Proof.
  induction n as [|n IH]; intros p Hi; cbn [events_of].
  - destruct (L_inhab _ _ (inv_good _ Hi)) as [w Hw]. exists w; split; [exact Hw|intros []].
  - destruct (next_running p Hi) as (p' & o & -> & Hs & Hend).
    destruct o as [[e sp]|e| | |].
    2,3,4,5: destruct (L_inhab _ _ (inv_good _ Hi)) as [w Hw]; exists w; split; [exact Hw|intros []].
    pose proof Hs as (_ & Hcfg & _ & HL & _).
    destruct (pst_end_dec (p_state p')) as [E|E].
    + apply Hend in E as E'; subst e. rewrite events_ended by reflexivity.
      exists []; split; [|reflexivity]. cbn. apply HL. rewrite E; reflexivity.
    + assert (He : e <> EStreamEnd) by (intros X; apply E, Hend, X).
      assert (Hi' : inv p') by (eapply inv_step; eassumption).
      replace (match e with EStreamEnd => set_end_emitted true p' | _ => p' end) with p'
        by (destruct e; congruence).
      destruct (IH p' Hi') as (tail & Ht & Hin). exists tail; split.
      * cbn. apply HL, Ht.
      * cbn. intros [A|A]; [congruence|auto].
Qed.

Lemma Lp_new toks e mk keep w : Lp (new_parser toks e mk keep) w <-> stream_events w.
Proof.
  unfold Lp, L, stream_events; cbn. split.
  - intros (r & -> & d & Hd & ->). exists d; auto.
  - intros (d & Hd & ->). eexists; split; [reflexivity|]. exists d; auto.
Qed.

Theorem events_of_grammar toks e mk keep n :
  let evs := events_of n (new_parser toks e mk keep) in
  (exists tail, stream_events (evs ++ tail)) /\ (In EStreamEnd evs -> stream_events evs).
Proof.
  cbn zeta. destruct (events_lang n _ (inv_new toks e mk keep)) as (tail & Ht & Hin).
  apply Lp_new in Ht. split; [exists tail; exact Ht|].
  intros H. rewrite (Hin H), app_nil_r in Ht. exact Ht.
Qed.

(** ** C02 *)
Definition benign (a : answer) : Prop :=
  match a with
  | Some (Ok _) | Some (Err _) | None => True
  | _ => False
  end.

Lemma next_event_impl_good p : good p ->
  good (fst (next_event_impl p)) /\ benign (Some (snd (next_event_impl p))).
Proof.
  intros Hg. unfold next_event_impl. destruct (p_current p) as [v|]; [split; [exact Hg|exact I]|].
  unfold parse. destruct (pst_end_dec (p_state p)) as [E|E].
  - rewrite E. split; [exact Hg|exact I].
  - pose proof (state_machine_ok p Hg E) as (_ & H1 & H2). 
    assert (G : good (fst (state_machine p)) /\ benign (Some (snd (state_machine p)))).
    { split; [exact H1|]. destruct (snd (state_machine p)) as [[]|e'| | |]; exact I || contradiction. }
    destruct (p_state p); congruence || exact G.
Qed.
Lemma do_request_good r p : good p -> good (fst (do_request r p)) /\ benign (snd (do_request r p)).
Proof.
  intros Hg. pose proof (next_event_impl_good p Hg) as [H1 H2]. destruct r; cbn.
  - unfold peek. destruct (p_current p); [split; [exact Hg|exact I]|].
    destruct (p_stream_end_emitted p); [split; [exact Hg|exact I]|].
    destruct (next_event_impl p) as [p' o]. cbn in H1, H2.
    destruct o as [v|e| | |]; (split; [exact H1|]); first [exact I | exact H2].
  - unfold next_event. destruct (p_stream_end_emitted p); [split; [exact Hg|exact I]|].
    destruct (next_event_impl p) as [p' o]. cbn in H1, H2.
    destruct o as [[e sp]|e| | |]; try (split; [exact H1|first [exact I|exact H2]]).
    destruct e; (split; [exact H1|exact I]).
Qed.
Lemma run_good rs : forall p, good p -> Forall benign (snd (run_requests rs p)) /\
  good (fst (run_requests rs p)).
Proof.
  induction rs as [|r rs IH]; intros p Hg; cbn; [split; [constructor|exact Hg]|].
  destruct (do_request_good r p Hg) as [H1 H2]. destruct (do_request r p) as [p1 a]. cbn in H1, H2.
  destruct (IH p1 H1) as [H3 H4]. destruct (run_requests rs p1) as [p2 l]. cbn in *.
  split; [constructor; assumption|exact H4].
Qed.
Theorem requests_never_panic toks e mk keep rs a :
  In a (snd (run_requests rs (new_parser toks e mk keep))) ->
  a = None \/ (exists ev, a = Some (Ok ev)) \/ (exists err, a = Some (Err err)).
Proof.
  intros H. destruct (run_good rs (new_parser toks e mk keep) eq_refl) as [HF _].
  rewrite Forall_forall in HF. apply HF in H.
  destruct a as [[v|er| | |]|]; try contradiction; eauto.
Qed.

(** ** C03 *)
Definition ended_ok (p : parser) : Prop := p_stream_end_emitted p = true -> p_current p = None.

Lemma next_event_impl_frame p :
  good p -> p_current (fst (next_event_impl p)) = None /\
  p_stream_end_emitted (fst (next_event_impl p)) = p_stream_end_emitted p.
Proof.
  intros Hg. unfold next_event_impl. destruct (p_current p) as [v|] eqn:Ec; [split; reflexivity|].
  unfold parse. destruct (pst_end_dec (p_state p)) as [E|E].
  - rewrite E. cbn; auto.
  - pose proof (state_machine_ok p Hg E) as ((F1 & _ & _ & _ & F5) & _).
    assert (G : p_current (fst (state_machine p)) = None /\
        p_stream_end_emitted (fst (state_machine p)) = p_stream_end_emitted p) by (split; congruence).
    destruct (p_state p); congruence || exact G.
Qed.

Lemma do_request_ended r p : good p -> ended_ok p ->
  ended_ok (fst (do_request r p)) /\
  (p_stream_end_emitted p = true -> do_request r p = (p, None)) /\
  (r = RNext -> (exists sp, snd (do_request r p) = Some (Ok (EStreamEnd, sp))) ->
     p_stream_end_emitted (fst (do_request r p)) = true).
Proof.
  intros Hg He. destruct (next_event_impl_frame p Hg) as [F1 F2].
  unfold ended_ok in *. destruct r; cbn [do_request].
  - unfold peek. destruct (p_stream_end_emitted p) eqn:Ep.
    + rewrite (He eq_refl). cbn. repeat split; auto; try discriminate.
    + destruct (p_current p) eqn:Ec; cbn; [repeat split; try discriminate; congruence|].
      destruct (next_event_impl p) as [p' o]; cbn in *.
      destruct o; cbn; repeat split; try discriminate; congruence.
  - unfold next_event. destruct (p_stream_end_emitted p) eqn:Ep.
    + cbn. repeat split; auto.
    + destruct (next_event_impl p) as [p' o]; cbn in *.
      destruct o as [[ev sp]|er| | |]; try (destruct ev); cbn; repeat split; auto; try congruence;
        intros _ [sp' H]; discriminate.
Qed.
Lemma run_ended rs : forall p, p_stream_end_emitted p = true -> p_current p = None ->
  run_requests rs p = (p, repeat None (length rs)).
Proof.
  induction rs as [|r rs IH]; intros p H1 H2; cbn; [reflexivity|].
  assert (E : do_request r p = (p, None)).
  { destruct r; cbn; unfold peek, next_event; rewrite H1, ?H2; reflexivity. }
  rewrite E, IH by assumption. reflexivity.
Qed.

(** The answers to a list of requests, paired with the requests. *)
Definition log (rs : list request) (p : parser) : list (request * answer) :=
  combine rs (snd (run_requests rs p)).

Lemma run_reach rs : forall p, good p -> ended_ok p ->
  good (fst (run_requests rs p)) /\ ended_ok (fst (run_requests rs p)) /\
  ((exists sp, In (RNext, Some (Ok (EStreamEnd, sp))) (log rs p)) \/ p_stream_end_emitted p = true ->
    p_stream_end_emitted (fst (run_requests rs p)) = true).
Proof.
  induction rs as [|r rs IH]; intros p Hg He.
  - cbn. repeat split; auto. intros [[sp []]|H]; exact H.
  - destruct (do_request_good r p Hg) as [G1 _]. destruct (do_request_ended r p Hg He) as (D1 & D2 & D3).
    unfold log in *; cbn. destruct (do_request r p) as [p1 a] eqn:Er. cbn in G1, D1, D2, D3.
    destruct (IH p1 G1 D1) as (I1 & I2 & I3). destruct (run_requests rs p1) as [p2 l] eqn:E. cbn in *.
    split; [exact I1|]. split; [exact I2|].
    intros [[sp [H|H]]|H]; apply I3.
    + inversion H; subst. right. apply D3; [reflexivity|eexists; reflexivity].
    + left; exists sp; exact H.
    + right. specialize (D2 H). inversion D2; subst. exact H.
Qed.

Theorem end_is_final toks e mk keep rs1 rs2 sp :
  let p0 := new_parser toks e mk keep in
  In (RNext, Some (Ok (EStreamEnd, sp))) (log rs1 p0) ->
  snd (run_requests rs2 (fst (run_requests rs1 p0))) = repeat None (length rs2).
Proof.
  cbn zeta. intros H. destruct (run_reach rs1 (new_parser toks e mk keep) eq_refl) as (_ & H2 & H3).
  { intros X; discriminate X. }
  assert (He : p_stream_end_emitted (fst (run_requests rs1 (new_parser toks e mk keep))) = true)
    by (apply H3; left; exists sp; exact H).
  rewrite run_ended; auto.
Qed.

(** ** C04 *)
(** The parser [p] is [q] with its next event read ahead. *)
Definition ahead (p q : parser) : Prop :=
  p_current q = None /\ p_stream_end_emitted q = false /\
  exists p0 v, next_event_impl q = (p0, Ok v) /\ p = set_current (Some v) p0.

Lemma set_current_back p v : p_current p = None -> set_current None (set_current (Some v) p) = p.
Proof. destruct p; cbn; intros ->; reflexivity. Qed.

Lemma ahead_next p q : good q -> ahead p q -> next_event p = next_event q.
Proof.
  intros Hg (Hc & He & p0 & v & Hn & ->).
  destruct (next_event_impl_frame q Hg) as [F1 F2]. rewrite Hn in F1, F2; cbn in F1, F2.
  unfold next_event. rewrite He, Hn. cbn [p_stream_end_emitted set_current]. rewrite F2, He.
  unfold next_event_impl. cbn [p_current set_current].
  change (Parser _ _ _ _ _ _ None _ _ _ _ _) with (set_current None (set_current (Some v) p0)).
  rewrite set_current_back by exact F1. reflexivity.
Qed.
Lemma ahead_peek p q : ahead p q -> fst (peek p) = p /\ exists v, snd (peek p) = Some (Ok v).
Proof. intros (_ & _ & p0 & v & _ & ->). cbn. split; [reflexivity|exists v; reflexivity]. Qed.

(** The answers to the [next] requests. *)
Definition nexts (l : list (request * answer)) : list answer :=
  map snd (filter (fun x => match fst x with RNext => true | RPeek => false end) l).
Definition is_err_answer (a : answer) : bool :=
  match a with Some (Err _) => true | _ => false end.
Definition events_in (l : list answer) : list (event * span) :=
  flat_map (fun a => match a with Some (Ok v) => [v] | _ => [] end) l.

Lemma log_cons r rs p :
  log (r :: rs) p = (r, snd (do_request r p)) :: log rs (fst (do_request r p)).
Proof.
  unfold log; cbn. destruct (do_request r p) as [p1 a]; cbn.
  destruct (run_requests rs p1); reflexivity.
Qed.
Lemma nexts_only m : forall p, nexts (log (repeat RNext m) p) = snd (run_requests (repeat RNext m) p).
Proof.
  induction m as [|m IH]; intros p; [reflexivity|]. cbn [repeat]. rewrite log_cons. cbn [nexts filter fst map].
  unfold nexts in *. cbn. rewrite IH. destruct (next_event p) as [p1 a]; cbn.
  destruct (run_requests (repeat RNext m) p1); reflexivity.
Qed.

Definition count_next (rs : list request) : nat :=
  length (filter (fun r => match r with RNext => true | RPeek => false end) rs).

(** Without error answers: interleaved peeks change nothing. *)
Lemma peeks_transparent rs : forall p q, good p -> good q -> ended_ok q -> p = q \/ ahead p q ->
  existsb is_err_answer (snd (run_requests rs p)) = false ->
  nexts (log rs p) = snd (run_requests (repeat RNext (count_next rs)) q).
Proof.
  induction rs as [|r rs IH]; intros p q Hp Hq He Hpq Hnoerr; [reflexivity|].
  rewrite log_cons.
  assert (Hne : is_err_answer (snd (do_request r p)) = false /\
                existsb is_err_answer (snd (run_requests rs (fst (do_request r p)))) = false).
  { cbn in Hnoerr. destruct (do_request r p) as [p1 a]; cbn. destruct (run_requests rs p1); cbn in *.
    apply orb_false_iff in Hnoerr; exact Hnoerr. }
  destruct Hne as [N1 N2]. destruct (do_request_good r p Hp) as [G1 G2].
  destruct r.
  - (* peek *)
    change (nexts ((RPeek, snd (do_request RPeek p)) :: log rs (fst (do_request RPeek p))))
      with (nexts (log rs (fst (do_request RPeek p)))).
    change (count_next (RPeek :: rs)) with (count_next rs).
    apply IH; try assumption.
    cbn [do_request] in *. destruct Hpq as [->|Ha].
    + unfold peek in *. destruct (p_current q) eqn:Ec; [left; reflexivity|].
      destruct (p_stream_end_emitted q) eqn:Ee; [left; reflexivity|].
      destruct (next_event_impl q) as [q' o] eqn:En. destruct o as [v|er| | |]; cbn in N1, G2; try discriminate; try contradiction.
      right. split; [exact Ec|]. split; [exact Ee|]. exists q', v; auto.
    + right. destruct (ahead_peek p q Ha) as [-> _]. exact Ha.
  - change (nexts ((RNext, snd (do_request RNext p)) :: log rs (fst (do_request RNext p))))
      with (snd (do_request RNext p) :: nexts (log rs (fst (do_request RNext p)))).
    change (count_next (RNext :: rs)) with (S (count_next rs)). cbn [repeat run_requests].
    assert (E : do_request RNext p = do_request RNext q).
    { cbn. destruct Hpq as [->|Ha]; [reflexivity|apply ahead_next; assumption]. }
    rewrite <- E. destruct (do_request_good RNext q Hq) as [G3 _].
    destruct (do_request_ended RNext q Hq He) as (D1 & _). rewrite <- E in D1, G3.
    destruct (do_request RNext p) as [p1 a]; cbn in *.
    rewrite (IH p1 p1) by (auto; exact I).
    destruct (run_requests (repeat RNext (count_next rs)) p1); reflexivity.
Qed.

(** In general: the events are those of some number of plain [next] calls. *)
Lemma events_in_app a b : events_in (a ++ b) = events_in a ++ events_in b.
Proof. apply flat_map_app. Qed.
Lemma peeks_same_events rs : forall p q, good p -> good q -> p = q \/ ahead p q ->
  exists m, events_in (nexts (log rs p)) = events_in (snd (run_requests (repeat RNext m) q)).
Proof.
  induction rs as [|r rs IH]; intros p q Hp Hq Hpq; [exists 0; reflexivity|].
  rewrite log_cons. destruct (do_request_good r p Hp) as [G1 G2]. destruct r.
  - change (nexts ((RPeek, snd (do_request RPeek p)) :: log rs (fst (do_request RPeek p))))
      with (nexts (log rs (fst (do_request RPeek p)))).
    cbn [do_request] in *. destruct Hpq as [->|Ha].
    2:{ apply IH; auto. right. destruct (ahead_peek p q Ha) as [-> _]. exact Ha. }
    unfold peek in *. destruct (p_current q) eqn:Ec; [apply IH; auto|].
    destruct (p_stream_end_emitted q) eqn:Ee; [apply IH; auto|].
    destruct (next_event_impl_good q Hq) as [H1 H2].
    destruct (next_event_impl q) as [q' o] eqn:En. cbn in H1, H2.
    destruct o as [v|er| | |]; cbn in G2, H2; try contradiction.
    + apply IH; [exact G1|exact Hq|]. right. split; [exact Ec|]. split; [exact Ee|]. exists q', v; auto.
    + destruct (IH q' q' H1 H1 (or_introl eq_refl)) as [m Hm]. exists (S m). cbn [repeat run_requests do_request].
      unfold next_event. rewrite Ee, En. cbn [fst].
      destruct (run_requests (repeat RNext m) q') as [p2 l]; cbn in *. exact Hm.
  - change (nexts ((RNext, snd (do_request RNext p)) :: log rs (fst (do_request RNext p))))
      with (snd (do_request RNext p) :: nexts (log rs (fst (do_request RNext p)))).
    assert (E : do_request RNext p = do_request RNext q).
    { cbn. destruct Hpq as [->|Ha]; [reflexivity|apply ahead_next; assumption]. }
    destruct (IH (fst (do_request RNext p)) (fst (do_request RNext p)) G1 G1 (or_introl eq_refl)) as [m Hm].
    exists (S m). cbn [repeat run_requests]. rewrite <- E.
    destruct (do_request RNext p) as [p1 a]; cbn in *.
    destruct (run_requests (repeat RNext m) p1) as [p2 l]; cbn [snd fst] in *.
    unfold events_in in *; cbn [flat_map]. rewrite Hm. reflexivity.
Qed.

Lemma peek_then_next p v : good p -> ended_ok p -> snd (peek p) = Some (Ok v) ->
  snd (next_event (fst (peek p))) = Some (Ok v) /\
  peek (fst (peek p)) = peek p.
Proof.
  intros Hg He Hv. unfold peek in *.
  destruct (p_current p) as [w|] eqn:Ec.
  - cbn in Hv. inversion Hv; subst w. cbn [fst]. rewrite Ec. split; [|reflexivity].
    unfold next_event. destruct (p_stream_end_emitted p) eqn:Ee; [specialize (He Ee); congruence|].
    unfold next_event_impl; rewrite Ec. destruct v as [[] sp]; reflexivity.
  - destruct (p_stream_end_emitted p) eqn:Ee; [discriminate|].
    destruct (next_event_impl_frame p Hg) as [F1 F2].
    destruct (next_event_impl p) as [p' o]; cbn in F1, F2.
    destruct o as [w|er| | |]; cbn in Hv; try discriminate. inversion Hv; subst w.
    cbn [fst]. split; [|reflexivity]. unfold next_event, next_event_impl; cbn.
    rewrite F2, Ee. destruct v as [[] sp]; reflexivity.
Qed.

(** ** C05, C06 *)
Lemma last_index_from_app i n l m :
  last_index_from i n (l ++ [m]) =
    if text_eqb n m then Some (i + length l) else last_index_from i n l.
Proof.
  revert i; induction l as [|x l IH]; intros i; cbn.
  - rewrite Nat.add_0_r. destruct (text_eqb n m); reflexivity.
  - rewrite IH. destruct (text_eqb n m); [f_equal; lia|reflexivity].
Qed.
Definition table_ok (before : list text) (p : parser) : Prop :=
  p_anchor_id_count p = S (length before) /\
  forall n, map_get n (p_anchors p) = last_index n before.

Lemma anchors_after_one cs nm : anchor_names cs = [nm] -> forall m c,
  anchors_after cs m c = (map_insert nm c m, S c).
Proof.
  induction cs as [|t r IH]; [discriminate|]. intros H m c. cbn in *.
  destruct (k_type t); try (apply IH, H). inversion H; subst.
  apply anchors_after_neutral; assumption.
Qed.
Lemma alias_targets_app a : forall before b, alias_targets before (a ++ b) =
  alias_targets before a ++ alias_targets (before ++ anchor_names a) b.
Proof.
  induction a as [|t r IH]; intros before b; cbn; [rewrite app_nil_r; reflexivity|].
  destruct (k_type t); rewrite IH; try reflexivity. rewrite <- app_assoc. reflexivity.
Qed.
Lemma alias_targets_none a : alias_names a = [] -> forall before, alias_targets before a = [].
Proof.
  induction a as [|t r IH]; intros H before; cbn in *; [reflexivity|].
  destruct (k_type t); auto. discriminate.
Qed.
Lemma alias_targets_one a n : anchor_names a = [] -> alias_names a = [n] ->
  forall before, alias_targets before a = [last_index n before].
Proof.
  induction a as [|t r IH]; intros H1 H2 before; cbn in *; [discriminate|].
  destruct (k_type t); auto; try discriminate. inversion H2; subst.
  rewrite alias_targets_none by assumption. reflexivity.
Qed.

Lemma effect_step p p' before e cs :
  table_ok before p -> eats p p' cs -> anchor_effect e cs (p_anchors p) (p_anchor_id_count p) ->
  table_ok (before ++ anchor_names cs) p' /\
  anchored_ids [e] = seq (S (length before)) (length (anchor_names cs)) /\
  alias_targets before cs = map Some (alias_ids [e]).
Proof.
  intros [T1 T2] [_ He] Ha.
  assert (Hnil : anchor_names cs = [] -> table_ok (before ++ anchor_names cs) p').
  { intros Hn. rewrite anchors_after_neutral in He by exact Hn. inversion He.
    rewrite Hn, app_nil_r. split; congruence. }
  assert (Hone : forall nm, anchor_names cs = [nm] -> table_ok (before ++ anchor_names cs) p').
  { intros nm Hn. rewrite (anchors_after_one _ _ Hn) in He. inversion He as [[H1 H2]].
    rewrite Hn. split.
    - rewrite app_length; cbn. lia.
    - intros n. try rewrite <- H1. rewrite map_get_insert. unfold last_index. rewrite last_index_from_app.
      rewrite T1. destruct (text_eqb n nm); [reflexivity|apply T2]. }
  destruct e; cbn [anchor_effect] in Ha.
  all: try (destruct Ha as [A1 [[A2 A3]|[A2 [nm A3]]]]; cbn in A2; try congruence).
  all: try (split; [eauto|]; rewrite A3; cbn; rewrite ?A2, ?T1, ?alias_targets_none by assumption;
            cbn; rewrite ?A2, ?T1; split; reflexivity).
  destruct Ha as (A1 & n & A2 & A3). split; [auto|]. rewrite A1; cbn. split; [reflexivity|].
  rewrite (alias_targets_one _ _ A1 A2). rewrite <- T2, A3. reflexivity.
Qed.

Lemma anchored_ids_cons e l : anchored_ids (e :: l) = anchored_ids [e] ++ anchored_ids l.
Proof. cbn. destruct (Nat.eqb _ _); reflexivity. Qed.
Lemma alias_ids_cons e l : alias_ids (e :: l) = alias_ids [e] ++ alias_ids l.
Proof. destruct e; reflexivity. Qed.

Lemma events_anchors n : forall p before, inv p -> table_ok before p ->
  exists cs rest, view p = cs ++ rest /\
    anchored_ids (events_of n p) = seq (S (length before)) (length (anchor_names cs)) /\
    alias_targets before cs = map Some (alias_ids (events_of n p)).
Proof.
  induction n as [|n IH]; intros p before Hi Ht; cbn [events_of].
  - exists [], (view p). repeat split.
  - destruct (next_running p Hi) as (p' & o & -> & Hs & Hend).
    destruct o as [[e sp]|e| | |].
    2,3,4,5: exists [], (view p); repeat split.
    pose proof Hs as (_ & Hcfg & _ & HL & He).
    destruct (He (inv_cache _ Hi)) as (cs & Heat & Hae).
    destruct (effect_step _ _ _ _ _ Ht Heat Hae) as (S1 & S2 & S3). destruct Heat as [V _].
    destruct (pst_end_dec (p_state p')) as [E|E].
    + apply Hend in E as E'; subst e. rewrite events_ended by reflexivity.
      exists cs, (view p'). auto.
    + assert (Hne : e <> EStreamEnd) by (intros X; apply E, Hend, X).
      assert (Hi' : inv p') by (eapply inv_step; eassumption).
      replace (match e with EStreamEnd => set_end_emitted true p' | _ => p' end) with p'
        by (destruct e; congruence).
      destruct (IH p' _ Hi' S1) as (cs' & rest & V' & I1 & I2).
      exists (cs ++ cs'), rest. split; [rewrite V, V'; apply app_assoc|].
      rewrite anchored_ids_cons, alias_ids_cons, anchor_names_app, alias_targets_app, S2, S3, I1, I2.
      rewrite map_app, !app_length, seq_app. split; reflexivity.
Qed.

Theorem anchors_and_aliases toks e mk keep n :
  let evs := events_of n (new_parser toks e mk keep) in
  exists cs rest, toks = cs ++ rest /\
    anchored_ids evs = seq 1 (length (anchor_names cs)) /\
    alias_targets [] cs = map Some (alias_ids evs).
Proof.
  cbn zeta. apply (events_anchors n (new_parser toks e mk keep) [] (inv_new toks e mk keep)).
  split; reflexivity.
Qed.
