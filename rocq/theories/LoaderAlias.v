(** Aliases in loaded documents. *)
From Verif Require Import Base Tokens SpecEvents Scalar Yaml Loader SpecValue LoaderProofs.
From Coq Require Import String Lia.

(** The children of a node and of a value in document order. *)
Notation kids := children.
Definition vkids (y : yaml) : list yaml :=
  match untag y with YSeq l => l | YMap l => flat l | _ => [] end.

Lemma nth_flat {A} (l : list (A * A)) : forall i,
  nth_error (flat l) (2 * i) = option_map fst (nth_error l i) /\
  nth_error (flat l) (2 * i + 1) = option_map snd (nth_error l i).
Proof.
  induction l as [|[a b] l IH]; intros i.
  - split; destruct i; cbn; try reflexivity.
  - destruct i as [|i]; [split; reflexivity|].
    replace (2 * S i) with (S (S (2 * i))) by lia. cbn [flat flat_map fst snd app Nat.add].
    cbn [nth_error]. apply IH.
Qed.

Lemma child_kids n s c : node_child n s = Some c -> nth_error (kids n) (rank s) = Some c.
Proof.
  destruct n; destruct s; cbn [node_child kids rank]; try discriminate; auto;
  intros H; destruct (nth_flat l i) as [H1 H2]; congruence.
Qed.

Lemma kids_child n i c : nth_error (kids n) i = Some c -> exists s, rank s = i /\ node_child n s = Some c.
Proof.
  destruct n; cbn [kids]; intros H; try (destruct i; discriminate).
  - exists (Elem i). auto.
  - destruct (Nat.Even_or_Odd i) as [[j ->]|[j ->]]; destruct (nth_flat l j) as [H1 H2].
    + exists (Key j). split; auto. cbn [node_child]. congruence.
    + exists (Val j). split; auto. cbn [node_child]. congruence.
Qed.

Lemma child_rank_inj n s1 s2 c1 c2 : node_child n s1 = Some c1 -> node_child n s2 = Some c2 ->
  rank s1 = rank s2 -> s1 = s2.
Proof.
  destruct n; destruct s1; destruct s2; cbn [node_child rank]; try discriminate; intros;
  f_equal; lia.
Qed.

Definition pair_value_of pf (e : env) (x : node * node) : (yaml * yaml) * env :=
  let '(k, v) := x in
  let '(yk, e1) := value_of pf e k in
  let '(yv, e2) := value_of pf e1 v in ((yk, yv), e2).
Lemma denotes_map_of pf e a t l : value_of pf e (NdMap a t l) =
  (let '(ys, e') := thread (pair_value_of pf) e l in
   let y := with_tag t (YMap (pf ys)) in (y, remember a y e')).
Proof. reflexivity. Qed.
Lemma denotes_seq_of pf e a t l : value_of pf e (NdSeq a t l) =
  (let '(ys, e') := thread (value_of pf) e l in
   let y := with_tag t (YSeq ys) in (y, remember a y e')).
Proof. reflexivity. Qed.

Lemma thread_flat pf ps : forall e,
  flat (fst (thread (pair_value_of pf) e ps)) = fst (thread (value_of pf) e (flat ps)) /\
  snd (thread (pair_value_of pf) e ps) = snd (thread (value_of pf) e (flat ps)).
Proof.
  induction ps as [|[k v] ps IH]; intros e; [split; reflexivity|].
  cbn [flat flat_map fst snd app]. fold (flat ps).
  cbn [thread]. fold (thread (pair_value_of pf)). fold (thread (value_of pf)). cbn [pair_value_of].
  destruct (value_of pf e k) as [yk e1]. destruct (value_of pf e1 v) as [yv e2].
  destruct (IH e2) as [I1 I2].
  destruct (thread (pair_value_of pf) e2 ps) as [ys e3]. destruct (thread (value_of pf) e2 (flat ps)) as [zs e4].
  cbn [fst snd] in *. subst. split; [|reflexivity]. cbn [flat flat_map fst snd app]. reflexivity.
Qed.

Lemma untag_with_tag t y : untag y = y -> untag (with_tag t y) = y.
Proof.
  intros H. unfold with_tag. destruct t as [g|]; auto. destruct (text_eqb _ _); auto.
Qed.

(** Evaluation of a node through its children. *)
Lemma denotes_env pf n e : kids n <> [] ->
  snd (value_of pf e n) = remember (anchor_of n) (fst (value_of pf e n)) (snd (thread (value_of pf) e (kids n))).
Proof.
  destruct n as [v|id|a t l|a t l]; intros H; try (cbn in H; congruence).
  - rewrite denotes_seq_of. cbn [kids]. destruct (thread (value_of pf) e l) as [ys e']. reflexivity.
  - rewrite denotes_map_of. cbn [kids]. destruct (thread_flat pf l e) as [H1 H2].
    destruct (thread (pair_value_of pf) e l) as [ys e']. cbn [fst snd] in *. subst. reflexivity.
Qed.

Lemma thread_nth {A B} (f : env -> A -> B * env) l : forall e i x,
  nth_error l i = Some x ->
  nth_error (fst (thread f e l)) i = Some (fst (f (snd (thread f e (firstn i l))) x)).
Proof.
  induction l as [|y l IH]; intros e i x H; [destruct i; discriminate|].
  destruct i as [|i]; cbn [nth_error] in H.
  - injection H; intros ->. cbn [thread firstn snd]. fold (thread f). destruct (f e x).
    destruct (thread f e0 l). reflexivity.
  - cbn [thread firstn]. fold (thread f). destruct (f e y) as [z e1].
    specialize (IH e1 i x H).
    destruct (thread f e1 l) as [zs e2]. destruct (thread f e1 (firstn i l)) as [zs' e2'].
    cbn [fst snd nth_error] in *. exact IH.
Qed.

(** ** Lookups *)

Lemma anchor_of_is n : anchor_of n = node_anchor n.
Proof. reflexivity. Qed.

(** The anchors of a node: its own and those of its children. *)
Lemma anchored_kids n :
  anchored_ids (node_evs n) =
  (if Nat.eqb (anchor_of n) 0 then [] else [anchor_of n]) ++ flat_map (fun c => anchored_ids (node_evs c)) (kids n).
Proof.
  destruct n as [v|id|a t l|a t l]; cbn [node_evs anchor_of kids flat_map].
  - cbn [anchored_ids event_anchor]. destruct (Nat.eqb _ 0); reflexivity.
  - reflexivity.
  - cbn [anchored_ids event_anchor]. rewrite anchored_ids_app, anchored_ids_flat.
    cbn [anchored_ids event_anchor Nat.eqb]. rewrite app_nil_r. destruct (Nat.eqb a 0); reflexivity.
  - cbn [anchored_ids event_anchor]. rewrite anchored_ids_app, anchored_ids_flat.
    cbn [anchored_ids event_anchor Nat.eqb]. rewrite app_nil_r.
    assert (E : flat_map (fun x : node * node => anchored_ids (let '(k, v) := x in node_evs k ++ node_evs v)) l
                = flat_map (fun c => anchored_ids (node_evs c)) (flat l)).
    { induction l as [|[k v] l IH]; [reflexivity|]. cbn [flat flat_map fst snd app]. fold (flat l).
      rewrite IH, anchored_ids_app, <- app_assoc. reflexivity. }
    rewrite E. destruct (Nat.eqb a 0); reflexivity.
Qed.

Lemma in_kids_anchored n c i : In c (kids n) -> In i (anchored_ids (node_evs c)) ->
  In i (anchored_ids (node_evs n)).
Proof.
  intros H1 H2. rewrite anchored_kids. apply in_app_iff. right. apply in_flat_map. eauto.
Qed.

Lemma node_at_anchored n p : forall m a, node_at n p = Some m -> anchor_of m = a -> a <> 0 ->
  In a (anchored_ids (node_evs n)).
Proof.
  revert n. induction p as [|s p IH]; intros n m a H Ha Hz; cbn [node_at] in H.
  - injection H; intros ->. rewrite anchored_kids. apply in_app_iff. left.
    destruct (Nat.eqb (anchor_of m) 0) eqn:E; [apply Nat.eqb_eq in E; congruence|]. left; auto.
  - destruct (node_child n s) as [c|] eqn:Ec; [|discriminate].
    apply (in_kids_anchored n c); [|eauto]. apply child_kids in Ec. eapply nth_error_In; eauto.
Qed.

Lemma anchored_node_at n a : In a (anchored_ids (node_evs n)) ->
  exists p m, node_at n p = Some m /\ anchor_of m = a.
Proof.
  remember (node_size n) as sz eqn:Hsz. assert (H : node_size n <= sz) by lia. clear Hsz.
  revert n H. induction sz as [|sz IH]; intros n H; [destruct n; cbn in H; lia|].
  intros Hi. rewrite anchored_kids in Hi. apply in_app_iff in Hi. destruct Hi as [Hi|Hi].
  - destruct (Nat.eqb (anchor_of n) 0); [destruct Hi|]. destruct Hi as [Hi|[]].
    exists [], n. auto.
  - apply in_flat_map in Hi. destruct Hi as [c [Hc Hi]].
    destruct (In_nth_error _ _ Hc) as [i Hn].
    destruct (kids_child n i c Hn) as [s [_ Hs]].
    assert (Hsz : node_size c < node_size n).
    { clear -Hs. destruct n; destruct s; cbn [node_child] in Hs; try discriminate; cbn [node_size].
      - apply nth_error_In in Hs. pose proof (sum_in node_size c l Hs). lia.
      - destruct (nth_error l i) as [[k v]|] eqn:E; [|discriminate]. injection Hs; intros <-.
        apply nth_error_In in E.
        pose proof (sum_in (fun x => let '(k, v) := x in node_size k + node_size v) _ l E) as Q.
        cbn [fst] in *. lia.
      - destruct (nth_error l i) as [[k v]|] eqn:E; [|discriminate]. injection Hs; intros <-.
        apply nth_error_In in E.
        pose proof (sum_in (fun x => let '(k, v) := x in node_size k + node_size v) _ l E) as Q.
        cbn [snd] in *. lia. }
    destruct (IH c ltac:(lia) Hi) as [p [m [H1 H2]]].
    exists (s :: p), m. cbn [node_at]. rewrite Hs. auto.
Qed.

Lemma denotes_lookup pf n i e : ~ In i (anchored_ids (node_evs n)) ->
  lookup (snd (value_of pf e n)) i = lookup e i.
Proof. intros H. apply value_lookup. exact H. Qed.

Lemma nth_firstn {A} (l : list A) : forall k j, j < k -> nth_error (firstn k l) j = nth_error l j.
Proof.
  induction l as [|y l IHl]; intros k j Hl.
  - rewrite firstn_nil. destruct j; reflexivity.
  - destruct k; [lia|]. destruct j; [reflexivity|]. cbn [firstn nth_error]. apply IHl. lia.
Qed.

(** The binding of [i] made by child [j] is still there before child [k] and after all. *)
Lemma thread_lookup_from pf l i : forall e j c k,
  nth_error l j = Some c -> j < k ->
  (forall j' c', j < j' < k -> nth_error l j' = Some c' -> ~ In i (anchored_ids (node_evs c'))) ->
  lookup (snd (thread (value_of pf) e (firstn k l))) i =
  lookup (snd (value_of pf (snd (thread (value_of pf) e (firstn j l))) c)) i.
Proof.
  induction l as [|x l IH]; intros e j c k Hj Hk Hn; [destruct j; discriminate|].
  destruct k as [|k]; [lia|]. cbn [firstn thread]. fold (thread (value_of pf)).
  destruct j as [|j].
  - cbn [nth_error] in Hj. injection Hj; intros ->. cbn [firstn thread snd].
    destruct (value_of pf e c) as [y e1]. cbn [snd].
    pose proof (thread_lookup (value_of pf) (firstn k l) i) as T.
    assert (Q : lookup (snd (thread (value_of pf) e1 (firstn k l))) i = lookup e1 i).
    { apply T. intros x Hx e0. apply denotes_lookup.
      apply In_nth_error in Hx. destruct Hx as [j Hx].
      assert (Hl : j < k).
      { assert (j < List.length (firstn k l)) by (apply nth_error_Some; congruence).
        pose proof (firstn_le_length k l). lia. }
      apply (Hn (S j)); [lia|]. cbn [nth_error].
      rewrite <- Hx. symmetry. apply nth_firstn. exact Hl. }
    destruct (thread (value_of pf) e1 (firstn k l)). cbn [snd] in *. exact Q.
  - cbn [nth_error] in Hj. cbn [firstn thread]. fold (thread (value_of pf)).
    destruct (value_of pf e x) as [y e1].
    assert (Q := IH e1 j c k Hj ltac:(lia)).
    destruct (thread (value_of pf) e1 (firstn k l)) as [zs e2]. destruct (thread (value_of pf) e1 (firstn j l)) as [zs' e2'].
    cbn [snd] in *. apply Q. intros j' c' Hj' Hc'. apply (Hn (S j')); [lia|exact Hc'].
Qed.

Lemma NoDup_right {A} (l1 l2 : list A) : NoDup (l1 ++ l2) -> NoDup l2.
Proof. induction l1 as [|x l1 IH]; auto. cbn [app]. inversion 1; auto. Qed.
Lemma NoDup_left {A} (l1 l2 : list A) : NoDup (l1 ++ l2) -> NoDup l1.
Proof.
  induction l1 as [|x l1 IH]; [constructor|]. cbn [app]. inversion 1; subst. constructor; auto.
  intros Hx. apply H2. apply in_app_iff. auto.
Qed.

Lemma NoDup_flat {A} (f : A -> list nat) l : NoDup (flat_map f l) -> forall i j x y a,
  nth_error l i = Some x -> nth_error l j = Some y -> In a (f x) -> In a (f y) -> i = j.
Proof.
  induction l as [|z l IH]; intros HN i j x y a Hi Hj Hx Hy; [destruct i; discriminate|].
  cbn [flat_map] in HN.
  assert (D : forall w, In w (f z) -> ~ In w (flat_map f l)).
  { intros w Hw Hw'. clear -HN Hw Hw'. induction (f z) as [|q t IHt]; [destruct Hw|].
    cbn [app] in HN. inversion HN; subst. destruct Hw as [->|Hw]; auto.
    apply H1. apply in_app_iff. auto. }
  destruct i as [|i]; destruct j as [|j]; cbn [nth_error] in Hi, Hj; auto.
  - injection Hi; intros ->. exfalso. apply (D a Hx). apply in_flat_map. exists y. split; auto.
    eapply nth_error_In; eauto.
  - injection Hj; intros ->. exfalso. apply (D a Hy). apply in_flat_map. exists x. split; auto.
    eapply nth_error_In; eauto.
  - f_equal. apply (IH (NoDup_right _ _ HN) i j x y a); auto.
Qed.

Lemma NoDup_flat_child {A} (f : A -> list nat) l x : NoDup (flat_map f l) -> In x l -> NoDup (f x).
Proof.
  induction l as [|z l IH]; intros HN Hx; [destruct Hx|]. cbn [flat_map] in HN.
  destruct Hx as [->|Hx].
  - apply NoDup_left in HN. exact HN.
  - apply IH; auto. apply NoDup_right in HN. exact HN.
Qed.

Lemma nodup_kids n : NoDup (anchored_ids (node_evs n)) ->
  NoDup (flat_map (fun c => anchored_ids (node_evs c)) (kids n)).
Proof. rewrite anchored_kids. apply NoDup_right. Qed.

Lemma nodup_own n c : NoDup (anchored_ids (node_evs n)) -> In c (kids n) ->
  forall a, In a (anchored_ids (node_evs c)) -> a <> anchor_of n \/ a = 0.
Proof.
  intros HN Hc a Ha. rewrite anchored_kids in HN.
  destruct (Nat.eqb (anchor_of n) 0) eqn:E.
  - apply Nat.eqb_eq in E. rewrite E. destruct a; auto.
  - left. intros ->. cbn [app] in HN. inversion HN; subst. apply H1.
    apply in_flat_map. eauto.
Qed.

(** After an anchored node its value is what the anchor stands for. *)
Lemma binding pf n p : forall e m a, NoDup (anchored_ids (node_evs n)) ->
  node_at n p = Some m -> anchor_of m = a -> a <> 0 ->
  lookup (snd (value_of pf e n)) a = eval_at pf e n p /\ eval_at pf e n p <> None.
Proof.
  revert n. induction p as [|s p IH]; intros n e m a HN Hm Ha Hz; cbn [node_at] in Hm.
  - injection Hm; intros ->. cbn [eval_at].
    assert (E : snd (value_of pf e m) = (a, fst (value_of pf e m)) :: snd (value_of pf e m) \/
                exists e', snd (value_of pf e m) = remember a (fst (value_of pf e m)) e').
    { right. destruct m as [v|id|b t l|b t l]; cbn [anchor_of] in Ha; try congruence.
      - exists e. cbn [value_of fst snd]. subst; reflexivity.
      - rewrite denotes_seq_of. destruct (thread (value_of pf) e l). cbn [fst snd]. subst. eauto.
      - rewrite denotes_map_of. destruct (thread (pair_value_of pf) e l). cbn [fst snd]. subst. eauto. }
    destruct E as [E|[e' E]].
    + exfalso. assert (X := f_equal (@List.length _) E). cbn [List.length] in X. lia.
    + rewrite E. destruct a; [congruence|]. cbn [remember lookup]. rewrite Nat.eqb_refl.
      split; [reflexivity|discriminate].
  - destruct (node_child n s) as [c|] eqn:Ec; [|discriminate].
    cbn [eval_at]. rewrite Ec.
    pose proof (child_kids n s c Ec) as HK. pose proof (nth_error_In _ _ HK) as HIn.
    assert (HNc : NoDup (anchored_ids (node_evs c))).
    { apply (NoDup_flat_child (fun c => anchored_ids (node_evs c)) (kids n)); auto. apply nodup_kids; auto. }
    assert (HA : In a (anchored_ids (node_evs c))) by (eapply node_at_anchored; eauto).
    destruct (IH c (env_at pf e n s) m a HNc Hm Ha Hz) as [I1 I2].
    rewrite <- I1. split; [|rewrite I1; exact I2].
    rewrite denotes_env by (intros E; rewrite E in HIn; destruct HIn).
    rewrite lookup_remember.
    2:{ destruct (nodup_own n c HN HIn a HA); auto. }
    assert (T := thread_lookup_from pf (kids n) a e (rank s) c (List.length (kids n)) HK).
    rewrite firstn_all in T. unfold env_at. apply T.
    + apply nth_error_Some. congruence.
    + intros j' c' Hj Hc' Hi.
      assert (rank s = j'); [|lia].
      eapply (NoDup_flat (fun c => anchored_ids (node_evs c)) (kids n)); eauto. apply nodup_kids; auto.
Qed.

(** An alias whose anchor is not bound inside the node evaluates to what the environment says. *)
Lemma alias_value pf n q : forall e a,
  (forall p m, node_at n p = Some m -> anchor_of m = a -> ~ complete_before p q) -> a <> 0 ->
  node_at n q = Some (NdAlias a) ->
  eval_at pf e n q = Some (match lookup e a with Some y => y | None => YBad end).
Proof.
  revert n. induction q as [|s q IH]; intros n e a HB Hz Hq; cbn [node_at] in Hq.
  - injection Hq; intros ->. reflexivity.
  - destruct (node_child n s) as [c|] eqn:Ec; [|discriminate].
    cbn [eval_at]. rewrite Ec.
    rewrite (IH c (env_at pf e n s) a); auto.
    + f_equal. unfold env_at.
      rewrite (thread_lookup (value_of pf) (firstn (rank s) (kids n)) a); [reflexivity|].
      intros x Hx e0. apply denotes_lookup. intros Hi.
      destruct (In_nth_error _ _ Hx) as [j Hj].
      assert (Hl : j < rank s).
      { assert (j < List.length (firstn (rank s) (kids n))) by (apply nth_error_Some; congruence).
        pose proof (firstn_le_length (rank s) (kids n)). lia. }
      assert (Hj' : nth_error (kids n) j = Some x).
      { rewrite <- Hj. symmetry. apply nth_firstn. exact Hl. }
      destruct (kids_child n j x Hj') as [s' [Hr Hs']].
      destruct (anchored_node_at x a Hi) as [p [m [Hp Hm]]].
      apply (HB (s' :: p) m); auto.
      * cbn [node_at]. rewrite Hs'. exact Hp.
      * exists [], s', p, s, q. split; [reflexivity|]. split; [reflexivity|lia].
    + intros p m Hp Hm [cc [s1 [p' [s2 [q' [-> [-> Hr]]]]]]].
      apply (HB (s :: cc ++ s1 :: p') m); auto.
      * cbn [node_at]. rewrite Ec. exact Hp.
      * exists (s :: cc), s1, p', s2, q'. split; [reflexivity|]. split; [reflexivity|exact Hr].
Qed.

Lemma alias_copies pf n p q : forall e m a, NoDup (anchored_ids (node_evs n)) ->
  node_at n p = Some m -> anchor_of m = a -> a <> 0 ->
  node_at n q = Some (NdAlias a) -> complete_before p q ->
  eval_at pf e n q = eval_at pf e n p /\
  eval_at pf e n p <> None.
Proof.
  intros e m a HN Hm Ha Hz Hq [c [s1 [p' [s2 [q' [-> [-> Hr]]]]]]].
  revert n e HN Hm Hq. induction c as [|s c IH]; intros n e HN Hm Hq.
  - cbn [app node_at] in *.
    destruct (node_child n s1) as [c1|] eqn:E1; [|discriminate].
    destruct (node_child n s2) as [c2|] eqn:E2; [|discriminate].
    cbn [eval_at]. rewrite E1, E2.
    pose proof (child_kids n s1 c1 E1) as K1. pose proof (child_kids n s2 c2 E2) as K2.
    pose proof (nth_error_In _ _ K1) as I1.
    assert (HNc : NoDup (anchored_ids (node_evs c1))).
    { apply (NoDup_flat_child (fun c => anchored_ids (node_evs c)) (kids n)); auto. apply nodup_kids; auto. }
    assert (HA : In a (anchored_ids (node_evs c1))) by (eapply node_at_anchored; eauto).
    destruct (binding pf c1 p' (env_at pf e n s1) m a HNc Hm Ha Hz) as [B1 B2].
    split; [|exact B2].
    rewrite (alias_value pf c2 q' _ a); auto.
    + assert (T := thread_lookup_from pf (kids n) a e (rank s1) c1 (rank s2) K1 Hr).
      unfold env_at at 1. rewrite T.
      * fold (env_at pf e n s1). rewrite B1. destruct (eval_at _ _ _ p'); [reflexivity|congruence].
      * intros j' c' Hj Hc' Hi. assert (rank s1 = j'); [|lia].
        eapply (NoDup_flat (fun c => anchored_ids (node_evs c)) (kids n)); eauto. apply nodup_kids; auto.
    + intros pp mm Hpp Hmm _. subst a.
      assert (Hi : In (anchor_of m) (anchored_ids (node_evs c2))).
      { eapply node_at_anchored; eauto. }
      assert (rank s1 = rank s2); [|lia].
      eapply (NoDup_flat (fun c => anchored_ids (node_evs c)) (kids n)); eauto. apply nodup_kids; auto.
  - cbn [app node_at] in *. destruct (node_child n s) as [c'|] eqn:Ec; [|discriminate].
    cbn [eval_at]. rewrite Ec. apply IH; auto.
    pose proof (child_kids n s c' Ec) as K. apply nth_error_In in K.
    apply (NoDup_flat_child (fun c => anchored_ids (node_evs c)) (kids n)); auto. apply nodup_kids; auto.
Qed.

(** With all pairs kept, the value computed at a position is found there in the document. *)
Lemma denotes_kids n e :
  vkids (fst (value_of all_pairs e n)) = fst (thread (value_of all_pairs) e (kids n)) \/ kids n = [].
Proof.
  destruct n as [v|id|a t l|a t l]; auto; left.
  - rewrite denotes_seq_of. cbn [kids]. destruct (thread (value_of all_pairs) e l) as [ys e']. cbn [fst].
    unfold vkids. rewrite untag_with_tag by reflexivity. reflexivity.
  - rewrite denotes_map_of. cbn [kids]. destruct (thread_flat all_pairs l e) as [H1 H2].
    destruct (thread (pair_value_of all_pairs) e l) as [ys e']. cbn [fst] in *.
    unfold vkids. rewrite untag_with_tag by reflexivity. exact H1.
Qed.

Lemma value_child_vkids n e s c : node_child n s = Some c ->
  value_child (fst (value_of all_pairs e n)) s = nth_error (vkids (fst (value_of all_pairs e n))) (rank s).
Proof.
  destruct n as [v|id|a t l|a t l]; destruct s; cbn [node_child]; try discriminate; intros H.
  - rewrite denotes_seq_of. destruct (thread (value_of all_pairs) e l) as [ys e']. cbn [fst].
    unfold value_child, vkids. rewrite untag_with_tag by reflexivity. reflexivity.
  - rewrite denotes_map_of. destruct (thread (pair_value_of all_pairs) e l) as [ys e']. cbn [fst].
    unfold value_child, vkids. rewrite untag_with_tag by reflexivity.
    cbn [rank]. symmetry. apply nth_flat.
  - rewrite denotes_map_of. destruct (thread (pair_value_of all_pairs) e l) as [ys e']. cbn [fst].
    unfold value_child, vkids. rewrite untag_with_tag by reflexivity.
    cbn [rank]. symmetry. apply nth_flat.
Qed.

Lemma child_value n e s c : node_child n s = Some c ->
  value_child (fst (value_of all_pairs e n)) s = Some (fst (value_of all_pairs (env_at all_pairs e n s) c)).
Proof.
  intros H. rewrite (value_child_vkids n e s c H). pose proof (child_kids n s c H) as HK.
  destruct (denotes_kids n e) as [->|E].
  - apply thread_nth. exact HK.
  - rewrite E in HK. destruct (rank s); discriminate.
Qed.


Lemma eval_at_value n p : forall e, node_at n p <> None ->
  eval_at all_pairs e n p = value_at (fst (denotes e n)) p.
Proof.
  unfold denotes. revert n. induction p as [|s p IH]; intros n e H; [reflexivity|].
  cbn [eval_at value_at node_at] in *. destruct (node_child n s) as [c|] eqn:Ec; [|congruence].
  rewrite (child_value n e s c Ec). apply IH. exact H.
Qed.
