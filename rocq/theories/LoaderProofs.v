(** The loader computes the denoted values. *)
From Verif Require Import Base Tokens SpecEvents Scalar Yaml Loader SpecValue.
From Coq Require Import String Lia.

Fixpoint node_size (n : node) : nat :=
  match n with
  | NdScalar _ | NdAlias _ => 1
  | NdSeq _ _ l => S (list_sum (map node_size l))
  | NdMap _ _ l => S (list_sum (map (fun x => let '(k, v) := x in node_size k + node_size v) l))
  end.

(** The node just read is handed to its parent. *)
Definition node_anchor (n : node) : nat :=
  match n with NdScalar v => sv_anchor v | NdAlias _ => 0 | NdSeq a _ _ => a | NdMap a _ _ => a end.
Definition node_itag (n : node) : option tag :=
  match n with NdScalar v => sv_tag v | _ => None end.

Definition with_env (e : env) (l : loader) : loader :=
  Loader (ld_docs l) (ld_doc_stack l) (ld_key_stack l) e.

Definition deliver (y : yaml) (a : nat) (tg : option tag) (l : loader) : out loader :=
  match ld_doc_stack l with
  | (YSeq els, pa, pt) :: rest =>
      Ok (Loader (ld_docs l) ((YSeq (els ++ [y]), pa, pt) :: rest) (ld_key_stack l) (ld_anchor_map l))
  | (YMap els, pa, pt) :: rest =>
      match ld_key_stack l with
      | [] => Panic
      | k :: keys =>
          if is_bad_value k then
            Ok (Loader (ld_docs l) ((YMap els, pa, pt) :: rest) (y :: keys) (ld_anchor_map l))
          else
            Ok (Loader (ld_docs l) ((YMap (els ++ [(k, y)]), pa, pt) :: rest) (YBad :: keys)
                  (ld_anchor_map l))
      end
  | [] => Ok (Loader (ld_docs l) [(y, a, tg)] (ld_key_stack l) (ld_anchor_map l))
  | _ => Ok l
  end.

Lemma remember_ltb a y e :
  (if Nat.ltb 0 a then (a, y) :: e else e) = remember a y e.
Proof. destruct a; reflexivity. Qed.

Lemma lookup_get e id : lookup e id = anchor_get id e.
Proof. induction e as [|[i y] e IH]; cbn [lookup anchor_get]; [|rewrite IH]; reflexivity. Qed.

Lemma insert_deliver y a tg l : (forall t, tg = Some t -> is_collection y = false) ->
  insert_new_node y a tg l = deliver y a tg (with_env (remember a y (ld_anchor_map l)) l).
Proof.
  intros Ht. unfold insert_new_node, deliver, with_env. cbn [ld_docs ld_doc_stack ld_key_stack ld_anchor_map].
  rewrite remember_ltb.
  destruct (ld_doc_stack l) as [|[[p pa] pt] rest]; [reflexivity|].
  assert (E : (match tg with Some t => if is_collection y && negb (is_yaml_core_schema t)
                 then into_tagged y t else y | None => y end) = y).
  { destruct tg as [t|]; [|reflexivity]. rewrite (Ht t eq_refl). reflexivity. }
  rewrite E. destruct p; try reflexivity.
Qed.

Lemma scalar_not_collection v s tg : is_collection (value_from_cow_and_metadata v s tg) = false.
Proof.
  unfold value_from_cow_and_metadata. destruct tg as [g|].
  - destruct (negb (is_yaml_core_schema g)); [reflexivity|].
    destruct (parse_from_cow_and_metadata v s (Some g)) as [x|]; [destruct x|]; reflexivity.
  - destruct (parse_from_cow_and_metadata v s None) as [x|]; [destruct x|]; reflexivity.
Qed.

Definition obind {A B} (o : out A) (k : A -> out B) : out B :=
  match o with Ok a => k a | Err e => Err e | Panic => Panic | Ub => Ub | Fuel => Fuel end.

Lemma loader_run_app l1 : forall l2 st,
  loader_run (l1 ++ l2) st = obind (loader_run l1 st) (loader_run l2).
Proof.
  induction l1 as [|e l1 IH]; intros l2 st; cbn [app loader_run]; [reflexivity|].
  destruct (loader_event e st); cbn [obind]; auto.
Qed.

Lemma with_tag_code t y :
  (match t with Some g => if negb (is_yaml_core_schema g) then into_tagged y g else y | None => y end)
  = with_tag t y.
Proof.
  destruct t as [g|]; [|reflexivity]. unfold with_tag, is_yaml_core_schema, into_tagged.
  destruct (text_eqb _ _); reflexivity.
Qed.

(** The elements of a sequence arrive in its open node. *)
Definition node_ok (n : node) : Prop := forall l y e,
  value_of kept_pairs (ld_anchor_map l) n = (y, e) ->
  loader_run (node_evs n) l = deliver y (node_anchor n) (node_itag n) (with_env e l).

Lemma seq_run ns : Forall node_ok ns -> forall els pa pt rest docs keys e ys e',
  thread (value_of kept_pairs) e ns = (ys, e') ->
  loader_run (flat_map node_evs ns) (Loader docs ((YSeq els, pa, pt) :: rest) keys e) =
  Ok (Loader docs ((YSeq (els ++ ys), pa, pt) :: rest) keys e').
Proof.
  induction 1 as [|n ns Hn _ IH]; intros els pa pt rest docs keys e ys e'; cbn [thread flat_map loader_run].
  - injection 1; intros <- <-. rewrite app_nil_r. reflexivity.
  - fold (thread (value_of kept_pairs)).
    destruct (value_of kept_pairs e n) as [y e1] eqn:E1.
    destruct (thread (value_of kept_pairs) e1 ns) as [ys' e2] eqn:E2.
    injection 1; intros <- <-.
    rewrite loader_run_app. rewrite (Hn _ y e1) by exact E1.
    cbn [with_env deliver ld_doc_stack ld_docs ld_key_stack ld_anchor_map obind].
    rewrite (IH _ _ _ _ _ _ _ _ _ E2). rewrite <- app_assoc. reflexivity.
Qed.

(** The open mapping after some of its nodes. *)
Fixpoint last_key (key : yaml) (l : list yaml) : yaml :=
  match l with
  | [] => key
  | y :: r => match key with
              | YBad | YTagged _ _ => last_key y r
              | _ => last_key YBad r
              end
  end.

Lemma is_bad_cases k : is_bad_value k = match k with YBad | YTagged _ _ => true | _ => false end.
Proof. destruct k as [|[]| | | |]; reflexivity. Qed.

Lemma pair_up_step k y : pair_up k [y] = if is_bad_value k then [] else [(k, y)].
Proof. rewrite is_bad_cases. destruct k; reflexivity. Qed.

Lemma pair_up_app l1 : forall k l2, pair_up k (l1 ++ l2) = pair_up k l1 ++ pair_up (last_key k l1) l2.
Proof.
  induction l1 as [|y l1 IH]; intros k l2; cbn [app pair_up last_key]; [reflexivity|].
  destruct k; rewrite IH; reflexivity.
Qed.

Lemma deliver_map docs els pa pt rest k keys e y a tg :
  deliver y a tg (Loader docs ((YMap els, pa, pt) :: rest) (k :: keys) e) =
  Ok (Loader docs ((YMap (els ++ pair_up k [y]), pa, pt) :: rest) (last_key k [y] :: keys) e).
Proof.
  unfold deliver. cbn [ld_doc_stack ld_docs ld_key_stack ld_anchor_map]. rewrite pair_up_step.
  cbn [last_key]. rewrite is_bad_cases. destruct k; try rewrite app_nil_r; reflexivity.
Qed.

Definition pair_value (e : env) (x : node * node) : (yaml * yaml) * env :=
  let '(k, v) := x in
  let '(yk, e1) := value_of kept_pairs e k in
  let '(yv, e2) := value_of kept_pairs e1 v in ((yk, yv), e2).

Lemma map_run ps : Forall (fun x => node_ok (fst x) /\ node_ok (snd x)) ps ->
  forall els pa pt rest docs k keys e ys e',
  thread pair_value e ps = (ys, e') ->
  let fl := flat_map (fun x => [fst x; snd x]) ys in
  loader_run (flat_map (fun x => let '(k, v) := x in node_evs k ++ node_evs v) ps)
     (Loader docs ((YMap els, pa, pt) :: rest) (k :: keys) e) =
  Ok (Loader docs ((YMap (els ++ pair_up k fl), pa, pt) :: rest) (last_key k fl :: keys) e').
Proof.
  induction 1 as [|[nk nv] ps [Hk Hv] _ IH];
    intros els pa pt rest docs k keys e ys e'; cbn [thread flat_map loader_run].
  - injection 1; intros <- <-. cbn [flat_map pair_up last_key]. rewrite app_nil_r. reflexivity.
  - fold (thread pair_value). cbn [fst snd] in *. cbn [pair_value].
    destruct (value_of kept_pairs e nk) as [yk e1] eqn:E1.
    destruct (value_of kept_pairs e1 nv) as [yv e2] eqn:E2.
    destruct (thread pair_value e2 ps) as [ys' e3] eqn:E3.
    injection 1; intros <- <-.
    rewrite <- app_assoc, loader_run_app. rewrite (Hk _ yk e1) by exact E1.
    unfold with_env. cbn [ld_docs ld_doc_stack ld_key_stack]. rewrite deliver_map. cbn [obind].
    rewrite loader_run_app. rewrite (Hv _ yv e2) by exact E2.
    unfold with_env. cbn [ld_docs ld_doc_stack ld_key_stack]. rewrite deliver_map. cbn [obind].
    rewrite (IH _ _ _ _ _ _ _ _ _ _ E3). cbv zeta. cbn [flat_map fst snd].
    set (fl := flat_map (fun x : yaml * yaml => [fst x; snd x]) ys').
    change [yk; yv] with ([yk] ++ [yv])%list. rewrite <- (app_assoc [yk]).
    rewrite !pair_up_app.
    assert (L : forall l1 l2 k, last_key k (l1 ++ l2) = last_key (last_key k l1) l2).
    { induction l1 as [|y l1 IHl]; intros l2 k0; cbn [app last_key]; [reflexivity|].
      destruct k0; apply IHl. }
    rewrite !L, !app_assoc. reflexivity.
Qed.

Lemma all_nodes_ok n : node_ok n.
Proof.
  remember (node_size n) as sz eqn:Hsz. assert (H : node_size n <= sz) by lia. clear Hsz.
  revert n H. induction sz as [|sz IH]; intros n H; [destruct n; cbn in H; lia|].
  destruct n as [v|id|a t ns|a t ps].
  - intros l y e. cbn [value_of node_evs loader_run loader_event]. injection 1; intros <- <-.
    rewrite insert_deliver by (intros; apply scalar_not_collection).
    cbn [node_anchor node_itag]. destruct (deliver _ _ _ _); reflexivity.
  - intros l y e. cbn [value_of node_evs loader_run loader_event]. injection 1; intros <- <-.
    rewrite lookup_get, insert_deliver by discriminate. cbn [remember node_anchor node_itag].
    destruct (deliver _ _ _ _); reflexivity.
  - intros l y e. cbn [value_of node_evs].
    destruct (thread (value_of kept_pairs) (ld_anchor_map l) ns) as [ys e'] eqn:E.
    injection 1; intros <- <-.
    cbn [loader_run loader_event]. rewrite loader_run_app.
    assert (HF : Forall node_ok ns).
    { apply Forall_forall. intros x Hx. apply IH. cbn [node_size] in H.
      assert (node_size x <= list_sum (map node_size ns)); [|lia].
      clear -Hx. induction ns as [|y ns IHn]; [destruct Hx|].
      cbn [map]. change (list_sum (?a :: ?b)) with (a + list_sum b).
      destruct Hx as [->|Hx]; [lia|]. specialize (IHn Hx). lia. }
    rewrite (seq_run _ HF _ _ _ _ _ _ _ _ _ E). cbn [obind loader_run loader_event].
    cbn [ld_doc_stack ld_docs ld_key_stack ld_anchor_map app]. rewrite with_tag_code.
    rewrite insert_deliver by discriminate.
    cbn [ld_anchor_map with_env ld_doc_stack ld_docs ld_key_stack node_anchor node_itag].
    unfold with_env. cbn [ld_anchor_map ld_doc_stack ld_docs ld_key_stack].
    destruct (deliver _ _ _ _); reflexivity.
  - intros l y e. cbn [value_of node_evs]. fold pair_value.
    change (thread (fun (e : env) '(k, v) => let '(yk, e1) := value_of kept_pairs e k in
              let '(yv, e2) := value_of kept_pairs e1 v in ((yk, yv), e2)))
      with (thread pair_value).
    destruct (thread pair_value (ld_anchor_map l) ps) as [ys e'] eqn:E.
    injection 1; intros <- <-.
    cbn [loader_run loader_event]. rewrite loader_run_app.
    assert (HF : Forall (fun x => node_ok (fst x) /\ node_ok (snd x)) ps).
    { apply Forall_forall. intros x Hx. cbn [node_size] in H.
      assert (node_size (fst x) + node_size (snd x) <=
              list_sum (map (fun x => let '(k, v) := x in node_size k + node_size v) ps)).
      { clear -Hx. induction ps as [|y ps IHn]; [destruct Hx|].
        cbn [map]. change (list_sum (?a :: ?b)) with (a + list_sum b).
        destruct Hx as [->|Hx]; [destruct x; cbn [fst snd]; lia|]. specialize (IHn Hx). lia. }
      split; apply IH; lia. }
    rewrite (map_run _ HF _ _ _ _ _ _ _ _ _ _ E). cbn [obind loader_run loader_event].
    cbn [ld_doc_stack ld_docs ld_key_stack ld_anchor_map app]. rewrite with_tag_code.
    rewrite insert_deliver by discriminate.
    cbn [ld_anchor_map with_env ld_doc_stack ld_docs ld_key_stack node_anchor node_itag].
    unfold with_env, kept_pairs. cbn [ld_anchor_map ld_doc_stack ld_docs ld_key_stack].
    destruct (deliver _ _ _ _); reflexivity.
Qed.

(** ** Streams *)

Lemma docs_run ds : forall docs e ys e',
  docs_values kept_pairs e ds = (ys, e') ->
  loader_run (flat_map doc_evs ds) (Loader docs [] [] e) = Ok (Loader (docs ++ ys) [] [] e').
Proof.
  unfold docs_values.
  induction ds as [|[b n] ds IH]; intros docs e ys e'; cbn [thread flat_map loader_run].
  - injection 1; intros <- <-. rewrite app_nil_r. reflexivity.
  - fold (thread (fun (e : env) (d : bool * node) => value_of kept_pairs e (snd d))).
    cbn [snd]. destruct (value_of kept_pairs e n) as [y e1] eqn:E1.
    destruct (thread _ e1 ds) as [ys' e2] eqn:E2.
    injection 1; intros <- <-.
    unfold doc_evs at 1. cbn [fst snd]. cbn [app loader_run loader_event].
    rewrite <- app_assoc, loader_run_app.
    rewrite (all_nodes_ok n _ y e1) by exact E1.
    unfold deliver, with_env. cbn [ld_docs ld_doc_stack ld_key_stack ld_anchor_map obind].
    cbn [app loader_run loader_event ld_docs ld_doc_stack ld_key_stack ld_anchor_map].
    rewrite (IH _ _ _ _ E2), <- app_assoc. reflexivity.
Qed.

Lemma stream_run ds ys e' : docs_values kept_pairs [] ds = (ys, e') ->
  loader_run (docs_evs ds) new_loader = Ok (Loader ys [] [] e').
Proof.
  intros H. unfold docs_evs, new_loader. cbn [loader_run loader_event]. rewrite loader_run_app.
  rewrite (docs_run _ _ _ _ _ H). reflexivity.
Qed.

(** ** With good keys every pair is kept *)

Lemma good_key_iff y : good_key y <-> is_bad_value y = false.
Proof. rewrite is_bad_cases. destruct y; cbn; intuition congruence. Qed.

Lemma kept_pairs_good l : Forall (fun x => good_key (fst x)) l -> kept_pairs l = l.
Proof.
  unfold kept_pairs. induction 1 as [|[k v] l Hk _ IH]; cbn [flat_map app fst snd]; [reflexivity|].
  cbn [pair_up]. cbn [fst] in Hk. destruct k; cbn in Hk; try tauto; rewrite IH; reflexivity.
Qed.

Definition pair_denotes (e : env) (x : node * node) : (yaml * yaml) * env :=
  let '(k, v) := x in
  let '(yk, e1) := denotes e k in
  let '(yv, e2) := denotes e1 v in ((yk, yv), e2).

Lemma denotes_map e a t l : denotes e (NdMap a t l) =
  (let '(ys, e') := thread pair_denotes e l in
   let y := with_tag t (YMap ys) in (y, remember a y e')).
Proof. reflexivity. Qed.
Lemma denotes_seq e a t l : denotes e (NdSeq a t l) =
  (let '(ys, e') := thread denotes e l in
   let y := with_tag t (YSeq ys) in (y, remember a y e')).
Proof. reflexivity. Qed.

Lemma sum_in {A} (f : A -> nat) x l : In x l -> f x <= list_sum (map f l).
Proof.
  induction l as [|y l IH]; [intros []|]. cbn [map].
  change (list_sum (?a :: ?b)) with (a + list_sum b).
  intros [->|H]; [lia|]. specialize (IH H). lia.
Qed.

Lemma good_keys_kept n : forall e, good_keys e n -> value_of kept_pairs e n = denotes e n.
Proof.
  remember (node_size n) as sz eqn:Hsz. assert (H : node_size n <= sz) by lia. clear Hsz.
  revert n H. induction sz as [|sz IH]; intros n H; [destruct n; cbn in H; lia|].
  destruct n as [v|id|a t ns|a t ps]; intros e G.
  - reflexivity.
  - reflexivity.
  - cbn [good_keys] in G. cbn [value_of]. rewrite denotes_seq.
    assert (E : thread (value_of kept_pairs) e ns = thread denotes e ns).
    { assert (HS : forall x, In x ns -> node_size x <= sz).
      { intros x Hx. cbn [node_size] in H. pose proof (sum_in node_size x ns Hx). lia. }
      clear H. revert e G. induction ns as [|x ns IHn]; intros e G; [reflexivity|].
      cbn [each] in G. destruct G as [G1 G2]. cbn [thread].
      fold (thread (value_of kept_pairs)). fold (thread denotes).
      rewrite (IH x) by (auto; apply HS; left; reflexivity).
      destruct (denotes e x) as [y e1] eqn:Ex. cbn [snd] in G2.
      rewrite IHn; [reflexivity| |exact G2]. intros x' Hx'. apply HS. right; auto. }
    rewrite E. reflexivity.
  - cbn [good_keys] in G. cbn [value_of]. rewrite denotes_map.
    change (thread (fun (e : env) '(k, v) => let '(yk, e1) := value_of kept_pairs e k in
              let '(yv, e2) := value_of kept_pairs e1 v in ((yk, yv), e2)))
      with (thread pair_value).
    assert (E : thread pair_value e ps = thread pair_denotes e ps /\
                Forall (fun x => good_key (fst x)) (fst (thread pair_denotes e ps))).
    { assert (HS : forall x, In x ps -> node_size (fst x) <= sz /\ node_size (snd x) <= sz).
      { intros x Hx. cbn [node_size] in H.
        pose proof (sum_in (fun x => let '(k, v) := x in node_size k + node_size v) x ps Hx) as Q.
        destruct x; cbn [fst snd] in *. lia. }
      clear H. revert e G. induction ps as [|[k v] ps IHn]; intros e G.
      { split; [reflexivity|constructor]. }
      cbn [each] in G. destruct G as [[G1 [G2 G3]] G4]. cbn [thread].
      fold (thread pair_value). fold (thread pair_denotes).
      destruct (HS (k, v) (or_introl eq_refl)) as [S1 S2]. cbn [fst snd] in S1, S2.
      cbn [pair_value pair_denotes].
      rewrite (IH k) by auto. destruct (denotes e k) as [yk e1] eqn:Ek. cbn [fst snd] in *.
      rewrite (IH v) by auto. destruct (denotes e1 v) as [yv e2] eqn:Ev. cbn [fst snd] in *.
      destruct (IHn (fun x Hx => HS x (or_intror Hx)) e2 G4) as [E1 E2]. rewrite E1.
      destruct (thread pair_denotes e2 ps) as [ys e3]. cbn [fst] in *.
      split; [reflexivity|]. constructor; auto. }
    destruct E as [E1 E2]. rewrite E1. destruct (thread pair_denotes e ps) as [ys e']. cbn [fst] in E2.
    rewrite kept_pairs_good by exact E2. reflexivity.
Qed.

Lemma docs_good ds : forall e, docs_good_keys e ds ->
  docs_values kept_pairs e ds = docs_values all_pairs e ds.
Proof.
  unfold docs_values, docs_good_keys.
  induction ds as [|[b n] ds IH]; intros e G; [reflexivity|].
  cbn [each snd] in G. destruct G as [G1 G2]. cbn [thread snd].
  rewrite (good_keys_kept n e G1). unfold denotes in *.
  destruct (value_of all_pairs e n) as [y e1]. cbn [snd] in G2.
  fold (thread (fun (e : env) (d : bool * node) => value_of kept_pairs e (snd d))).
  rewrite (IH e1 G2). reflexivity.
Qed.

(** ** Every well-nested event sequence is the writing of a tree *)

Scheme node_events_ind2 := Induction for node_events Sort Prop
  with nodes_events_ind2 := Induction for nodes_events Sort Prop
  with pairs_events_ind2 := Induction for pairs_events Sort Prop.
Combined Scheme events_mutind from node_events_ind2, nodes_events_ind2, pairs_events_ind2.

Lemma events_trees :
  (forall l, node_events l -> exists n, l = node_evs n) /\
  (forall l, nodes_events l -> exists ns, l = flat_map node_evs ns) /\
  (forall l, pairs_events l -> exists ps,
     l = flat_map (fun x => let '(k, v) := x in node_evs k ++ node_evs v) ps).
Proof.
  apply (events_mutind
    (fun l _ => exists n, l = node_evs n)
    (fun l _ => exists ns, l = flat_map node_evs ns)
    (fun l _ => exists ps, l = flat_map (fun x => let '(k, v) := x in node_evs k ++ node_evs v) ps)).
  - intros v. exists (NdScalar v). reflexivity.
  - intros id. exists (NdAlias id). reflexivity.
  - intros a t l _ [ns ->]. exists (NdSeq a t ns). reflexivity.
  - intros a t l _ [ps ->]. exists (NdMap a t ps). reflexivity.
  - exists []. reflexivity.
  - intros n l _ [nd ->] _ [ns ->]. exists (nd :: ns). reflexivity.
  - exists []. reflexivity.
  - intros k v l _ [nk ->] _ [nv ->] _ [ps ->]. exists ((nk, nv) :: ps).
    cbn [flat_map]. rewrite app_assoc. reflexivity.
Qed.

Lemma docs_trees l : docs_events l -> exists ds, l = flat_map doc_evs ds.
Proof.
  induction 1 as [|b n l Hn _ IH]; [exists []; reflexivity|].
  destruct (proj1 events_trees n Hn) as [nd ->]. destruct IH as [ds ->].
  exists ((b, nd) :: ds). cbn [flat_map]. unfold doc_evs at 2. cbn [fst snd].
  cbn [app]. rewrite <- app_assoc. reflexivity.
Qed.

Lemma stream_trees l : stream_events l -> exists ds, l = docs_evs ds.
Proof.
  intros [d [Hd ->]]. destruct (docs_trees d Hd) as [ds ->]. exists ds. reflexivity.
Qed.

(** and conversely. *)
Lemma node_evs_events n : node_events (node_evs n).
Proof.
  remember (node_size n) as sz eqn:Hsz. assert (H : node_size n <= sz) by lia. clear Hsz.
  revert n H. induction sz as [|sz IH]; intros n H; [destruct n; cbn in H; lia|].
  destruct n as [v|id|a t ns|a t ps]; cbn [node_evs]; constructor.
  - assert (HS : forall x, In x ns -> node_size x <= sz).
    { intros x Hx. cbn [node_size] in H. pose proof (sum_in node_size x ns Hx). lia. }
    clear H. induction ns as [|x ns IHn]; cbn [flat_map]; constructor.
    + apply IH, HS. left; reflexivity.
    + apply IHn. intros y Hy. apply HS. right; exact Hy.
  - assert (HS : forall x, In x ps -> node_size (fst x) <= sz /\ node_size (snd x) <= sz).
    { intros x Hx. cbn [node_size] in H.
      pose proof (sum_in (fun x => let '(k, v) := x in node_size k + node_size v) x ps Hx) as Q.
      destruct x; cbn [fst snd] in *. lia. }
    clear H. induction ps as [|[k v] ps IHn]; cbn [flat_map]; [constructor|].
    rewrite <- app_assoc. destruct (HS (k, v) (or_introl eq_refl)). constructor; auto.
    apply IHn. intros y Hy. apply HS. right; exact Hy.
Qed.

Lemma docs_evs_events ds : stream_events (docs_evs ds).
Proof.
  exists (flat_map doc_evs ds). split; [|reflexivity].
  induction ds as [|[b n] ds IH]; cbn [flat_map]; [constructor|].
  unfold doc_evs at 1. cbn [fst snd app]. rewrite <- app_assoc. cbn [app].
  constructor; [apply node_evs_events|exact IH].
Qed.

(** ** Prefixes *)

Lemma prefix_safe ds l1 l2 : docs_evs ds = l1 ++ l2 -> exists st, loader_run l1 new_loader = Ok st.
Proof.
  intros E. destruct (docs_values kept_pairs [] ds) as [ys e'] eqn:V.
  pose proof (stream_run ds ys e' V) as R. rewrite E, loader_run_app in R.
  destruct (loader_run l1 new_loader); try discriminate. eauto.
Qed.

(** ** Independence of documents *)

Definition agree (P : nat -> Prop) (e1 e2 : env) : Prop := forall i, P i -> lookup e1 i = lookup e2 i.

Lemma agree_remember P a y e1 e2 : agree P e1 e2 -> agree P (remember a y e1) (remember a y e2).
Proof.
  intros H i Hi. destruct a; cbn [remember lookup]; auto. destruct (Nat.eqb i (S a)); auto.
Qed.

Lemma thread_agree {A B} (f : env -> A -> B * env) P (Q : A -> Prop) l :
  (forall x, In x l -> Q x -> forall e1 e2, agree P e1 e2 ->
     fst (f e1 x) = fst (f e2 x) /\ agree P (snd (f e1 x)) (snd (f e2 x))) ->
  Forall Q l -> forall e1 e2, agree P e1 e2 ->
  fst (thread f e1 l) = fst (thread f e2 l) /\ agree P (snd (thread f e1 l)) (snd (thread f e2 l)).
Proof.
  induction l as [|x l IH]; intros Hf HQ e1 e2 Ha; [split; auto|].
  inversion HQ as [|? ? Hx HQ']; subst. cbn [thread]. fold (thread f).
  destruct (Hf x (or_introl eq_refl) Hx e1 e2 Ha) as [E1 E2].
  destruct (f e1 x) as [y1 e1']. destruct (f e2 x) as [y2 e2']. cbn [fst snd] in E1, E2.
  destruct (IH (fun x Hx => Hf x (or_intror Hx)) HQ' e1' e2' E2) as [E3 E4].
  destruct (thread f e1' l). destruct (thread f e2' l). cbn [fst snd] in *.
  split; [congruence|exact E4].
Qed.

Lemma alias_ids_app l1 l2 : alias_ids (l1 ++ l2) = alias_ids l1 ++ alias_ids l2.
Proof.
  induction l1 as [|e l1 IH]; [reflexivity|]. cbn [app alias_ids]. destruct e; rewrite IH; reflexivity.
Qed.
Lemma anchored_ids_app l1 l2 : anchored_ids (l1 ++ l2) = anchored_ids l1 ++ anchored_ids l2.
Proof.
  induction l1 as [|e l1 IH]; [reflexivity|]. cbn [app anchored_ids]. destruct (Nat.eqb _ 0); rewrite IH; reflexivity.
Qed.
Lemma alias_ids_flat {A} (f : A -> list event) l : alias_ids (flat_map f l) = flat_map (fun x => alias_ids (f x)) l.
Proof. induction l as [|x l IH]; cbn [flat_map]; [reflexivity|]. rewrite alias_ids_app, IH. reflexivity. Qed.
Lemma anchored_ids_flat {A} (f : A -> list event) l :
  anchored_ids (flat_map f l) = flat_map (fun x => anchored_ids (f x)) l.
Proof. induction l as [|x l IH]; cbn [flat_map]; [reflexivity|]. rewrite anchored_ids_app, IH. reflexivity. Qed.

Lemma value_agree pf (P : nat -> Prop) n : (forall i, In i (alias_ids (node_evs n)) -> P i) ->
  forall e1 e2, agree P e1 e2 ->
  fst (value_of pf e1 n) = fst (value_of pf e2 n) /\ agree P (snd (value_of pf e1 n)) (snd (value_of pf e2 n)).
Proof.
  remember (node_size n) as sz eqn:Hsz. assert (H : node_size n <= sz) by lia. clear Hsz.
  revert n H. induction sz as [|sz IH]; intros n H; [destruct n; cbn in H; lia|].
  destruct n as [v|id|a t ns|a t ps]; intros HP e1 e2 Ha.
  - cbn [value_of fst snd]. split; [reflexivity|]. apply agree_remember; auto.
  - cbn [value_of fst snd]. rewrite (Ha id); [auto|]. apply HP. left; reflexivity.
  - cbn [value_of].
    destruct (thread_agree (value_of pf) P (fun _ => True) ns) with (e1 := e1) (e2 := e2) as [E1 E2]; auto.
    + intros x Hx _ f1 f2 Hf. apply IH; auto.
      * cbn [node_size] in H. pose proof (sum_in node_size x ns Hx). lia.
      * intros i Hi. apply HP. cbn [node_evs alias_ids]. rewrite alias_ids_app, alias_ids_flat.
        apply in_app_iff. left. apply in_flat_map. eauto.
    + apply Forall_forall; auto.
    + destruct (thread (value_of pf) e1 ns). destruct (thread (value_of pf) e2 ns).
      cbn [fst snd] in *. subst. split; [reflexivity|]. apply agree_remember; auto.
  - cbn [value_of].
    set (f := fun (e : env) '(k, v) => let '(yk, e1) := value_of pf e k in
              let '(yv, e2) := value_of pf e1 v in ((yk, yv), e2)).
    destruct (thread_agree f P (fun _ => True) ps) with (e1 := e1) (e2 := e2) as [E1 E2]; auto.
    + intros [k v] Hx _ f1 f2 Hf.
      cbn [node_size] in H.
      pose proof (sum_in (fun x => let '(k, v) := x in node_size k + node_size v) _ ps Hx) as Q.
      cbv beta iota in Q.
      assert (Hal : forall i, In i (alias_ids (node_evs k)) \/ In i (alias_ids (node_evs v)) -> P i).
      { intros i Hi. apply HP. cbn [node_evs alias_ids]. rewrite alias_ids_app, alias_ids_flat.
        apply in_app_iff. left. apply in_flat_map. exists (k, v). split; auto.
        rewrite alias_ids_app. apply in_app_iff. exact Hi. }
      unfold f.
      destruct (IH k ltac:(lia) (fun i Hi => Hal i (or_introl Hi)) f1 f2 Hf) as [A1 A2].
      destruct (value_of pf f1 k) as [y1 g1]. destruct (value_of pf f2 k) as [y2 g2]. cbn [fst snd] in A1, A2.
      destruct (IH v ltac:(lia) (fun i Hi => Hal i (or_intror Hi)) g1 g2 A2) as [B1 B2].
      destruct (value_of pf g1 v) as [z1 h1]. destruct (value_of pf g2 v) as [z2 h2]. cbn [fst snd] in *.
      subst. split; auto.
    + apply Forall_forall; auto.
    + destruct (thread f e1 ps). destruct (thread f e2 ps).
      cbn [fst snd] in *. subst. split; [reflexivity|]. apply agree_remember; auto.
Qed.

(** An id that is not anchored in a node is not bound by it. *)
Lemma lookup_remember a y e i : i <> a -> lookup (remember a y e) i = lookup e i.
Proof.
  intros H. destruct a; cbn [remember lookup]; auto.
  destruct (Nat.eqb i (S a)) eqn:E; auto. apply Nat.eqb_eq in E. congruence.
Qed.

Lemma thread_lookup {A B} (f : env -> A -> B * env) l i :
  (forall x, In x l -> forall e, lookup (snd (f e x)) i = lookup e i) ->
  forall e, lookup (snd (thread f e l)) i = lookup e i.
Proof.
  induction l as [|x l IH]; intros Hf e; [reflexivity|]. cbn [thread]. fold (thread f).
  pose proof (Hf x (or_introl eq_refl) e) as E1. destruct (f e x) as [y e1]. cbn [snd] in E1.
  pose proof (IH (fun x Hx => Hf x (or_intror Hx)) e1) as E2.
  destruct (thread f e1 l). cbn [snd] in *. congruence.
Qed.

Lemma lookup_remember0 a y e i : i = 0 \/ i <> a -> lookup (remember a y e) i = lookup e i.
Proof.
  intros [-> | H]; [|apply lookup_remember; auto]. destruct a; reflexivity.
Qed.

Lemma value_lookup pf n i : ~ In i (anchored_ids (node_evs n)) ->
  forall e, lookup (snd (value_of pf e n)) i = lookup e i.
Proof.
  remember (node_size n) as sz eqn:Hsz. assert (H : node_size n <= sz) by lia. clear Hsz.
  revert n H. induction sz as [|sz IH]; intros n H; [destruct n; cbn in H; lia|].
  destruct n as [v|id|a t ns|a t ps]; intros HN e.
  - cbn [value_of snd]. apply lookup_remember0. destruct i as [|i]; [left; reflexivity|right].
    intros E. apply HN. cbn [node_evs anchored_ids event_anchor]. rewrite <- E. left; reflexivity.
  - reflexivity.
  - cbn [value_of].
    assert (E : lookup (snd (thread (value_of pf) e ns)) i = lookup e i).
    { apply thread_lookup. intros x Hx. apply IH.
      - cbn [node_size] in H. pose proof (sum_in node_size x ns Hx). lia.
      - intros Hi. apply HN. cbn [node_evs]. change (?a :: ?b ++ ?c)%list with ([a] ++ b ++ c)%list.
        rewrite !anchored_ids_app. apply in_app_iff. right. apply in_app_iff. left.
        rewrite anchored_ids_flat. apply in_flat_map. eauto. }
    destruct (thread (value_of pf) e ns). cbn [snd] in *. rewrite <- E. apply lookup_remember0.
    destruct i as [|i]; [left; reflexivity|right]. intros Ea. apply HN.
    cbn [node_evs anchored_ids event_anchor]. rewrite <- Ea. left; reflexivity.
  - cbn [value_of].
    set (f := fun (e : env) '(k, v) => let '(yk, e1) := value_of pf e k in
              let '(yv, e2) := value_of pf e1 v in ((yk, yv), e2)).
    assert (E : lookup (snd (thread f e ps)) i = lookup e i).
    { apply thread_lookup. intros [k v] Hx e0.
      cbn [node_size] in H.
      pose proof (sum_in (fun x => let '(k, v) := x in node_size k + node_size v) _ ps Hx) as Q.
      cbv beta iota in Q.
      assert (Hal : ~ (In i (anchored_ids (node_evs k)) \/ In i (anchored_ids (node_evs v)))).
      { intros Hi. apply HN. cbn [node_evs]. change (?a :: ?b ++ ?c)%list with ([a] ++ b ++ c)%list.
        rewrite !anchored_ids_app. apply in_app_iff. right. apply in_app_iff. left.
        rewrite anchored_ids_flat. apply in_flat_map. exists (k, v). split; auto.
        rewrite anchored_ids_app. apply in_app_iff. exact Hi. }
      unfold f.
      pose proof (IH k ltac:(lia) (fun Hi => Hal (or_introl Hi)) e0) as A1.
      destruct (value_of pf e0 k) as [y1 g1]. cbn [snd] in A1.
      pose proof (IH v ltac:(lia) (fun Hi => Hal (or_intror Hi)) g1) as A2.
      destruct (value_of pf g1 v) as [z1 h1]. cbn [snd] in *. congruence. }
    destruct (thread f e ps). cbn [snd] in *. rewrite <- E. apply lookup_remember0.
    destruct i as [|i]; [left; reflexivity|right]. intros Ea. apply HN.
    cbn [node_evs anchored_ids event_anchor]. rewrite <- Ea. left; reflexivity.
Qed.

Lemma thread_app {A B} (f : env -> A -> B * env) l1 : forall l2 e,
  thread f e (l1 ++ l2) =
  (let '(y1, e1) := thread f e l1 in let '(y2, e2) := thread f e1 l2 in (y1 ++ y2, e2)).
Proof.
  induction l1 as [|x l1 IH]; intros l2 e; cbn [app thread]; fold (thread f).
  - destruct (thread f e l2); reflexivity.
  - destruct (f e x) as [y e1]. rewrite IH. destruct (thread f e1 l1) as [y1 e2].
    destruct (thread f e2 l2). reflexivity.
Qed.

Lemma thread_length {A B} (f : env -> A -> B * env) l : forall e,
  List.length (fst (thread f e l)) = List.length l.
Proof.
  induction l as [|x l IH]; intros e; [reflexivity|]. cbn [thread]. fold (thread f).
  destruct (f e x) as [y e1]. specialize (IH e1). destruct (thread f e1 l). cbn [fst List.length] in *.
  lia.
Qed.

Lemma documents_independent pf ds1 b n ds2 :
  (forall i, In i (alias_ids (node_evs n)) -> In i (anchored_ids (node_evs n))) ->
  (forall i, In i (anchored_ids (node_evs n)) -> ~ In i (anchored_ids (flat_map doc_evs ds1))) ->
  nth_error (fst (docs_values pf [] (ds1 ++ (b, n) :: ds2))) (List.length ds1) =
  Some (fst (value_of pf [] n)).
Proof.
  intros H1 H2. unfold docs_values. rewrite thread_app. cbn [thread].
  fold (thread (fun (e : env) (d : bool * node) => value_of pf e (snd d))).
  set (f := fun (e : env) (d : bool * node) => value_of pf e (snd d)).
  pose proof (thread_length f ds1 []) as HL.
  assert (HK : forall i, In i (anchored_ids (node_evs n)) -> lookup (snd (thread f [] ds1)) i = None).
  { intros i Hi. specialize (H2 i Hi). rewrite thread_lookup; [reflexivity|].
    intros [b' n'] Hx e. unfold f. cbn [snd]. apply value_lookup. intros Hn. apply H2.
    rewrite anchored_ids_flat. apply in_flat_map. exists (b', n'). split; auto.
    unfold doc_evs. cbn [fst snd anchored_ids event_anchor Nat.eqb]. rewrite anchored_ids_app.
    apply in_app_iff. left. exact Hn. }
  destruct (thread f [] ds1) as [y1 e1]. cbn [fst snd] in *.
  assert (HA := value_agree pf (fun i => In i (anchored_ids (node_evs n))) n H1 e1 []).
  destruct HA as [HA _]. { intros i Hi. rewrite HK by auto. reflexivity. }
  unfold f at 1. cbn [snd]. destruct (value_of pf e1 n) as [y e2]. cbn [fst] in HA.
  fold f. destruct (thread f e2 ds2) as [y3 e3]. cbn [fst].
  rewrite nth_error_app2 by lia. rewrite HL, Nat.sub_diag. cbn [nth_error]. congruence.
Qed.
