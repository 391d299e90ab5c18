(** The loader properties in the form used by [PropertiesLoader.v]. *)
From Verif Require Import Base Tokens Parser ParserRun SpecEvents Scalar Yaml Loader SpecValue.
From Verif Require Import ParserLoad ParserSim LoaderProofs LoaderAlias LoaderLoad.
From Coq Require Import String Lia.
Local Open Scope list_scope.

Lemma loader_exact ds :
  exists l, loader_run (docs_evs ds) new_loader = Ok l /\ ld_docs l = fst (docs_values kept_pairs [] ds).
Proof.
  destruct (docs_values kept_pairs [] ds) as [ys e'] eqn:V. rewrite (stream_run ds ys e' V).
  eexists. split; reflexivity.
Qed.

Lemma loader_builds ds : docs_good_keys [] ds ->
  exists l, loader_run (docs_evs ds) new_loader = Ok l /\
            ld_docs l = fst (docs_values all_pairs [] ds) /\
            List.length (ld_docs l) = List.length ds.
Proof.
  intros H. destruct (loader_exact ds) as (l & E1 & E2). exists l. rewrite E2, (docs_good ds [] H).
  split; [exact E1|]. split; [reflexivity|]. apply thread_length.
Qed.

Lemma streams_are_documents evs : stream_events evs <-> exists ds, evs = docs_evs ds.
Proof. split; [apply stream_trees|intros [ds ->]; apply docs_evs_events]. Qed.

Lemma load_from_tokens fuel toks e mk ys : load_from fuel toks e mk = Ok ys ->
  exists n ds, events_of n (new_parser toks e mk false) = docs_evs ds /\
    ys = map (fun d => fst (value_of kept_pairs [] (snd d))) ds /\
    (docs_good_keys [] ds -> ys = fst (docs_values all_pairs [] ds)).
Proof.
  intros H. pose proof (load_from_values fuel toks e mk) as HV. rewrite H in HV.
  destruct HV as (p1 & r1 & ds1 & HL1 & HD1 & Y1).
  destruct (load_from_alone fuel toks e mk ys H) as (p' & r & ds & HL & HD & Y).
  rewrite HL in HL1. injection HL1; intros <- <-.
  exists (List.length r), ds1. split.
  - rewrite <- HD1. apply (load_is_iteration fuel toks e mk false p' r); auto.
  - split.
    + rewrite Y1. apply values_alone; rewrite <- HD1.
      * pose proof (load_ok fuel true toks e mk false) as HO. rewrite HL in HO. apply HO.
      * eapply load_anchors_distinct; eauto.
    + intros G. rewrite Y1, (docs_good ds1 [] G). reflexivity.
Qed.

Lemma no_pair_lost a t l e : good_keys e (NdMap a t l) ->
  exists ps, untag (fst (value_of kept_pairs e (NdMap a t l))) = YMap ps /\
             List.length ps = List.length l.
Proof.
  intros H. rewrite (good_keys_kept _ e H). rewrite denotes_map.
  pose proof (thread_length pair_denotes l e) as L.
  destruct (thread pair_denotes e l) as [ys e']. cbn [fst] in *.
  exists ys. rewrite untag_with_tag by reflexivity. auto.
Qed.

Lemma alias_is_a_copy n p q e m a : NoDup (anchored_ids (node_evs n)) ->
  node_at n p = Some m -> anchor_of m = a -> a <> 0 ->
  node_at n q = Some (NdAlias a) -> complete_before p q ->
  exists y, eval_at kept_pairs e n q = Some y /\ eval_at kept_pairs e n p = Some y.
Proof.
  intros H1 H2 H3 H4 H5 H6. destruct (alias_copies kept_pairs n p q e m a H1 H2 H3 H4 H5 H6) as [E1 E2].
  destruct (eval_at kept_pairs e n p) as [y|]; [|congruence]. eauto.
Qed.

Lemma unknown_alias_is_bad n q e a :
  (forall p m, node_at n p = Some m -> anchor_of m = a -> ~ complete_before p q) -> a <> 0 ->
  lookup e a = None ->
  node_at n q = Some (NdAlias a) -> eval_at kept_pairs e n q = Some YBad.
Proof. intros H1 H2 H3 H4. rewrite (alias_value kept_pairs n q e a H1 H2 H4), H3. reflexivity. Qed.

Lemma computed_value_is_loaded n q e : good_keys e n -> node_at n q <> None ->
  eval_at all_pairs e n q = value_at (fst (value_of kept_pairs e n)) q.
Proof. intros G H. rewrite (good_keys_kept n e G). apply eval_at_value. exact H. Qed.

Lemma loader_never_panics evs l1 l2 : stream_events evs -> evs = l1 ++ l2 ->
  exists st, loader_run l1 new_loader = Ok st.
Proof. intros H E. destruct (stream_trees evs H) as [ds Hds]. apply (prefix_safe ds l1 l2). congruence. Qed.

(** A prefix ending in [DocumentEnd] is a list of whole documents. *)
Lemma no_doc_end n : ~ In EDocumentEnd (node_evs n).
Proof.
  remember (node_size n) as sz eqn:Hsz. assert (H : node_size n <= sz) by lia. clear Hsz.
  revert n H. induction sz as [|sz IH]; intros n H; [destruct n; cbn in H; lia|].
  destruct n as [v|id|a t ns|a t ps]; cbn [node_evs].
  - intros [X|[]]; discriminate.
  - intros [X|[]]; discriminate.
  - intros [X|X]; [discriminate|]. apply in_app_iff in X. destruct X as [X|[X|[]]]; [|discriminate].
    apply in_flat_map in X. destruct X as (x & Hx & X). apply (IH x); auto.
    cbn [node_size] in H. pose proof (sum_in node_size x ns Hx). lia.
  - intros [X|X]; [discriminate|]. apply in_app_iff in X. destruct X as [X|[X|[]]]; [|discriminate].
    apply in_flat_map in X. destruct X as ([k v] & Hx & X). cbn [node_size] in H.
    pose proof (sum_in (fun x => let '(k, v) := x in node_size k + node_size v) _ ps Hx) as Q.
    cbv beta iota in Q. apply in_app_iff in X. destruct X as [X|X]; revert X; apply IH; lia.
Qed.

Lemma split_at_end (l : list event) : forall a b c, ~ In EDocumentEnd l -> ~ In EDocumentEnd a ->
  l ++ EDocumentEnd :: b = a ++ EDocumentEnd :: c -> l = a /\ b = c.
Proof.
  induction l as [|x l IH]; intros [|y a] b c H1 H2 E; cbn [app] in E.
  - injection E; auto.
  - exfalso. injection E; intros _ <-. apply H2. left; reflexivity.
  - exfalso. injection E; intros _ ->. apply H1. left; reflexivity.
  - injection E; intros E' ->. destruct (IH a b c) as [-> ->]; auto.
    + intros X; apply H1; right; exact X.
    + intros X; apply H2; right; exact X.
Qed.

Lemma first_end (l : list event) : In EDocumentEnd l ->
  exists a b, l = a ++ EDocumentEnd :: b /\ ~ In EDocumentEnd a.
Proof.
  induction l as [|x l IH]; intros H; [destruct H|].
  destruct (match x with EDocumentEnd => true | _ => false end) eqn:E.
  - destruct x; try discriminate. exists [], l. auto.
  - assert (Hx : x <> EDocumentEnd) by (intros ->; discriminate).
    destruct H as [H|H]; [congruence|]. destruct (IH H) as (a & b & -> & Hn).
    exists (x :: a), b. split; [reflexivity|]. intros [X|X]; auto.
Qed.

Lemma docs_prefix ds : forall l1 l2 tail, ~ In EDocumentEnd tail ->
  flat_map doc_evs ds ++ tail = l1 ++ EDocumentEnd :: l2 ->
  exists ds1 ds2, ds = ds1 ++ ds2 /\ l1 ++ [EDocumentEnd] = flat_map doc_evs ds1.
Proof.
  induction ds as [|[b n] ds IH]; intros l1 l2 tail Ht E.
  - exfalso. cbn [flat_map app] in E. subst. apply Ht. apply in_app_iff. right. left; reflexivity.
  - cbn [flat_map] in E. unfold doc_evs at 1 in E. cbn [fst snd] in E.
    assert (Hn : ~ In EDocumentEnd (EDocumentStart b :: node_evs n)).
    { intros [X|X]; [discriminate|apply (no_doc_end n X)]. }
    replace ((EDocumentStart b :: node_evs n ++ [EDocumentEnd]) ++ flat_map doc_evs ds)
      with ((EDocumentStart b :: node_evs n) ++ EDocumentEnd :: flat_map doc_evs ds) in E
      by (cbn [app]; rewrite <- app_assoc; reflexivity).
    rewrite <- app_assoc in E. cbn [app] in E.
    destruct (in_dec (fun x y : bool => bool_dec x y) true
       [existsb (fun e => match e with EDocumentEnd => true | _ => false end) l1]) as [Hb|Hb].
    + destruct Hb as [Hb|[]]. apply existsb_exists in Hb. destruct Hb as (x & Hx & Ex).
      destruct x; try discriminate. destruct (first_end l1 Hx) as (a & c & -> & Ha).
      rewrite <- app_assoc in E. cbn [app] in E.
      apply (split_at_end (EDocumentStart b :: node_evs n)) in E as [Ea Eb]; auto.
      destruct (IH c l2 tail Ht Eb) as (ds1 & ds2 & -> & El).
      exists ((b, n) :: ds1), ds2. split; [reflexivity|].
      cbn [flat_map]. rewrite <- El. unfold doc_evs. cbn [fst snd]. rewrite <- Ea.
      cbn [app]. rewrite <- !app_assoc. reflexivity.
    + assert (Ha : ~ In EDocumentEnd l1).
      { intros X. apply Hb. left. apply existsb_exists. exists EDocumentEnd. auto. }
      apply (split_at_end (EDocumentStart b :: node_evs n)) in E as [Ea Eb]; auto.
      exists [(b, n)], ds. split; [reflexivity|]. cbn [flat_map]. unfold doc_evs. cbn [fst snd].
      rewrite <- Ea. cbn [app]. rewrite app_nil_r. reflexivity.
Qed.

Lemma no_leftover ds l1 l2 : docs_evs ds = l1 ++ l2 ->
  (exists l1', l1 = l1' ++ [EDocumentEnd]) ->
  exists st, loader_run l1 new_loader = Ok st /\ ld_doc_stack st = [] /\ ld_key_stack st = [].
Proof.
  intros E [l1' ->]. unfold docs_evs in E. destruct l1' as [|x l1']; [discriminate|].
  cbn [app] in E. injection E; intros E' <-. rewrite <- app_assoc in E'. cbn [app] in E'.
  destruct (docs_prefix ds l1' l2 [EStreamEnd]) as (ds1 & ds2 & -> & El); auto.
  { intros [X|[]]; discriminate. }
  destruct (docs_values kept_pairs [] ds1) as [ys e'] eqn:V.
  exists (Loader ys [] [] e'). cbn [app loader_run loader_event]. rewrite El.
  unfold new_loader. rewrite (docs_run ds1 [] [] ys e' V). auto.
Qed.

Lemma documents_alone ds1 b n ds2 :
  incl (alias_ids (node_evs n)) (anchored_ids (node_evs n)) ->
  (forall i, In i (anchored_ids (node_evs n)) -> ~ In i (anchored_ids (flat_map doc_evs ds1))) ->
  exists l, loader_run (docs_evs (ds1 ++ (b, n) :: ds2)) new_loader = Ok l /\
    nth_error (ld_docs l) (List.length ds1) = Some (fst (value_of kept_pairs [] n)).
Proof.
  intros H1 H2. destruct (loader_exact (ds1 ++ (b, n) :: ds2)) as (l & E1 & E2).
  exists l. split; [exact E1|]. rewrite E2. apply documents_independent; auto.
Qed.

Lemma load_from_safe fuel toks e mk : 16 * List.length toks + 1 <= fuel ->
  (exists ys, load_from fuel toks e mk = Ok ys) \/ (exists er, load_from fuel toks e mk = Err er).
Proof.
  intros H. pose proof (load_from_values fuel toks e mk) as HV.
  destruct (load_from fuel toks e mk); eauto; try tauto. lia.
Qed.

(** Aliases in what the loader builds. *)
Lemma loaded_doc ds i b n : docs_good_keys [] ds -> nth_error ds i = Some (b, n) ->
  exists l, loader_run (docs_evs ds) new_loader = Ok l /\
    nth_error (ld_docs l) i = Some (fst (denotes (snd (docs_values all_pairs [] (firstn i ds))) n)).
Proof.
  intros G H. destruct (loader_builds ds G) as (l & R & D & _). exists l. split; [exact R|]. rewrite D.
  exact (thread_nth (fun e d => value_of all_pairs e (snd d)) ds [] i (b, n) H).
Qed.
Lemma loaded_alias_is_a_copy ds i b n p q m a : docs_good_keys [] ds -> nth_error ds i = Some (b, n) ->
  NoDup (anchored_ids (node_evs n)) ->
  node_at n p = Some m -> anchor_of m = a -> a <> 0 ->
  node_at n q = Some (NdAlias a) -> complete_before p q ->
  exists l v y, loader_run (docs_evs ds) new_loader = Ok l /\ nth_error (ld_docs l) i = Some v /\
    value_at v p = Some y /\ value_at v q = Some y.
Proof.
  intros G H H1 H2 H3 H4 H5 H6. destruct (loaded_doc ds i b n G H) as (l & R & D).
  destruct (alias_copies all_pairs n p q (snd (docs_values all_pairs [] (firstn i ds))) m a H1 H2 H3 H4 H5 H6) as [E1 E2].
  rewrite (eval_at_value n p) in E1, E2 by congruence. rewrite (eval_at_value n q) in E1 by congruence.
  eexists. eexists. destruct (value_at _ p) as [y|] eqn:V; [|congruence]. exists y. eauto.
Qed.
Lemma docs_lookup a ds : forall e, (forall b n, In (b, n) ds -> ~ In a (anchored_ids (node_evs n))) ->
  lookup (snd (docs_values all_pairs e ds)) a = lookup e a.
Proof.
  induction ds as [|[b n] ds IH]; intros e H; [reflexivity|].
  unfold docs_values in *. cbn [thread snd].
  pose proof (denotes_lookup all_pairs n a e (H b n (or_introl eq_refl))) as L.
  destruct (value_of all_pairs e n) as [y e1]. cbn [snd] in L. specialize (IH e1).
  destruct (thread _ e1 ds) as [ys e2]. cbn [snd] in *. rewrite IH by (intros; eapply H; right; eauto). exact L.
Qed.
Lemma loaded_unknown_alias_is_bad ds i b n q a : docs_good_keys [] ds -> nth_error ds i = Some (b, n) ->
  (forall p m, node_at n p = Some m -> anchor_of m = a -> ~ complete_before p q) -> a <> 0 ->
  (forall j b' n', j < i -> nth_error ds j = Some (b', n') -> ~ In a (anchored_ids (node_evs n'))) ->
  node_at n q = Some (NdAlias a) ->
  exists l v, loader_run (docs_evs ds) new_loader = Ok l /\ nth_error (ld_docs l) i = Some v /\
    value_at v q = Some YBad.
Proof.
  intros G H H1 H2 H3 H4. destruct (loaded_doc ds i b n G H) as (l & R & D).
  eexists. eexists. split; [exact R|]. split; [exact D|]. rewrite <- eval_at_value by congruence.
  rewrite (alias_value all_pairs n q _ a H1 H2 H4), docs_lookup; [reflexivity|].
  intros b' n' I. apply In_nth_error in I. destruct I as [j J].
  assert (j < i).
  { apply Nat.nle_gt. intros C. rewrite (proj2 (nth_error_None (firstn i ds) j)) in J; [discriminate|].
    rewrite firstn_length. lia. }
  rewrite nth_firstn in J by assumption. eauto.
Qed.
