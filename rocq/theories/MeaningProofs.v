(** Trees with a meaning: their events, and the loader's value of these. *)
From Verif Require Import Base Tokens Scalar Yaml SpecScalar ScalarProofs ScalarTags SpecEvents SpecTree SpecStream SpecLoad SpecValue SpecMeaning.
From Verif Require Import ParserTree ParserStream ParserTheorems LoaderProofs.
From Coq Require Import String Lia.
Local Open Scope list_scope.

Notation vnode := SpecValue.node.
Notation value_in := (SpecValue.value_of kept_pairs).
Definition opt_all (P : tree -> Prop) (o : option tree) : Prop := match o with Some t => P t | None => True end.
Definition pair_all (P : tree -> Prop) (x : key tree * value tree) : Prop := key_all P (fst x) /\ value_all P (snd x).
(** Induction over trees with all their parts. *)
Lemma tree_parts (P : tree -> Prop) :
  (forall pr st v, P (TrScalar pr st v)) -> (forall a, P (TrAlias a)) -> (forall pr, P (TrEmpty pr)) ->
  (forall pr l b, Forall (item_all P) l -> P (TrFlowSeq pr l b)) -> (forall pr l b, Forall (pair_all P) l -> P (TrFlowMap pr l b)) ->
  (forall pr l, Forall (opt_all P) l -> P (TrBlockSeq pr l)) -> (forall pr l, Forall (pair_all P) l -> P (TrBlockMap pr l)) ->
  (forall pr l, Forall (opt_all P) l -> P (TrIndentless pr l)) -> forall t, P t.
Proof.
  intros H1 H2 H3 H4 H5 H6 H7 H8. fix IH 1. intros [pr st v|a|pr|pr l b|pr l b|pr l|pr l|pr l].
  - apply H1.
  - apply H2.
  - apply H3.
  - apply H4. induction l as [|[t|k [| |t]] l IHl]; constructor; auto; cbn [item_all value_all]; auto.
  - apply H5. induction l as [|[k v] l IHl]; constructor; auto. split; cbn [fst snd]; [destruct k|destruct v]; cbn [key_all value_all]; auto.
  - apply H6. induction l as [|[t|] l IHl]; constructor; auto; cbn [opt_all]; auto.
  - apply H7. induction l as [|[k v] l IHl]; constructor; auto. split; cbn [fst snd]; [destruct k|destruct v]; cbn [key_all value_all]; auto.
  - apply H8. induction l as [|[t|] l IHl]; constructor; auto; cbn [opt_all]; auto.
Qed.

(** ** Tags *)
Definition named (h : text) : bool := Nat.ltb 1 (List.length h) && N.eqb (nth 0 h 0%N) 33 && N.eqb (last h 0%N) 33.
Lemma named_spec h : named h = true <-> named_handle h.
Proof.
  unfold named, named_handle. split.
  - intros H. apply andb_true_iff in H. destruct H as [H H3]. apply andb_true_iff in H. destruct H as [H1 H2].
    apply Nat.ltb_lt in H1. apply N.eqb_eq in H2, H3. destruct h as [|a [|b r]]; cbn [List.length] in H1; try lia. cbn [nth] in H2. subst a.
    exists (removelast (b :: r)). pose proof (@app_removelast_last _ (b :: r) 0%N ltac:(discriminate)) as X.
    assert (Y : last (b :: r) 0%N = 33%N) by exact H3. rewrite Y in X. cbn [app]. now rewrite <- X.
  - intros (x & ->). rewrite last_last. cbn [nth app List.length]. rewrite app_length. cbn [List.length].
    replace (List.length x + 1) with (S (List.length x)) by lia. reflexivity.
Qed.
Definition tags_of (tg : list (text * text)) (h s : text) : option tag :=
  match declared tg h with
  | Some p => Some (Tag p s)
  | None => if text_eqb h (str "!!") then Some (Tag core_prefix s) else if named h then None else Some (Tag h s)
  end.
Lemma tags_of_means tg h s g : tag_means tg h s (Some g) <-> tags_of tg h s = Some g.
Proof.
  unfold tags_of. split.
  - intros H. inversion H as [h' s' p E|s' E|h' s' E E1 E2|h' s' E E1]; subst; rewrite E; auto.
    destruct (text_eqb h (str "!!")) eqn:Q.
    + apply text_eqb_iff in Q. subst. elim E1. now exists [].
    + destruct (named h) eqn:Q2; auto. apply named_spec in Q2. contradiction.
  - destruct (declared tg h) as [p|] eqn:E; intros H.
    + injection H as <-. now constructor.
    + destruct (text_eqb h (str "!!")) eqn:Q.
      * apply text_eqb_iff in Q. subst. injection H as <-. now constructor.
      * destruct (named h) eqn:Q2; [discriminate|]. injection H as <-. apply TM_other; [exact E|]. rewrite <- named_spec. now rewrite Q2.
Qed.
Lemma tagged_tag tg pr o : tagged_as tg pr o -> props_tag (tags_of tg) pr = Some o.
Proof. intros [E|h s g E M]; unfold props_tag; rewrite E; auto. apply tags_of_means in M. now rewrite M. Qed.
Lemma core_name_tag {rd} (NS : rd <> Standard) g name : core_name rd g name -> core_tag g name.
Proof. intros [E H]. specialize (H NS). split; [exact H|]. unfold whole_tag in E. rewrite H in E. now apply app_inv_head in E. Qed.
Lemma other_name_tag g : other_name g -> t_handle g <> str "tag:yaml.org,2002:".
Proof. intros [_ H] E. apply (H (t_suffix g)). unfold whole_tag. now rewrite E. Qed.
Lemma plain_read {rd} (NS : rd <> Standard) v s : plain_means rd v s -> value_from_cow_and_metadata v Plain None = YScalar s.
Proof.
  intros [H|b H|z H R|f H N|N B I F E].
  - now apply null_spellings.
  - now apply bool_spellings.
  - apply integer_spellings. auto.
  - apply float_spellings. split; [exact H|]. intros (z & X & _). now apply (N z).
  - apply everything_else; auto.
Qed.
Lemma untagged_read {rd} (NS : rd <> Standard) st v y : scalar_means rd None st v y -> value_from_cow_and_metadata v st None = y.
Proof. intros H. inversion H; subst; [now apply (plain_read NS)|now apply quoted_is_string]. Qed.
Lemma scalar_read {rd} (NS : rd <> Standard) o st v y : scalar_means rd o st v y -> value_from_cow_and_metadata v st o = y /\ y <> YBad.
Proof.
  intros H. destruct H as [v s H|st v H|g st v H|g st v z H C R F|g st v f H C F|g st v b H C F|g st v H C F|g st v y H M|g st v F]; try contradiction.
  - split; [now apply (plain_read NS)|discriminate].
  - split; [now apply quoted_is_string|discriminate].
  - split; [|discriminate]. now apply str_tag, (core_name_tag NS).
  - split; [|discriminate]. destruct (F NS) as [-> S]. apply (int_tag v g (core_name_tag NS _ _ H)). auto.
  - split; [|discriminate]. rewrite (F NS). now apply (float_tag v g (core_name_tag NS _ _ H)).
  - split; [|discriminate]. destruct (F NS) as [-> S]. now apply (bool_tag v g (core_name_tag NS _ _ H)).
  - split; [|discriminate]. destruct (F NS) as [-> S]. apply (null_tag v g (core_name_tag NS _ _ H)). cbn [In] in *. tauto.
  - split; [|discriminate]. rewrite other_tag by now apply other_name_tag. f_equal. now apply (untagged_read NS).
Qed.
Lemma missing_read rd y : rd <> Standard -> missing rd y -> y = YScalar (SString []).
Proof. intros NS H. destruct H; [now elim NS|reflexivity]. Qed.
Lemma empty_read {rd} (NS : rd <> Standard) o y : empty_means rd o y -> value_from_cow_and_metadata [] Plain o = y /\ y <> YBad.
Proof.
  intros H. destruct H as [y H|g H|g H|g y H O].
  - rewrite (missing_read _ _ NS H). split; [reflexivity|discriminate].
  - split; [|discriminate]. now apply str_tag, (core_name_tag NS).
  - split; [|discriminate]. apply (null_tag [] g (core_name_tag NS _ _ H)). now left.
  - split; [|discriminate]. rewrite other_tag by now apply other_name_tag. now rewrite (missing_read _ _ NS H).
Qed.
Lemma coll_read {rd} (NS : rd <> Standard) name o y y' : coll_means rd name o y y' -> with_tag o y = y'.
Proof.
  intros H. destruct H as [y|g y H|g y H|g y F]; [reflexivity| | |contradiction]; cbn [with_tag].
  - destruct (core_name_tag NS _ _ H) as [-> _]. now rewrite (proj2 (text_eqb_iff _ _) eq_refl).
  - destruct (text_eqb (t_handle g) (str "tag:yaml.org,2002:")) eqn:E; [|reflexivity]. apply text_eqb_iff in E. now elim (other_name_tag _ H).
Qed.
Lemma coll_good {rd} (NS : rd <> Standard) name o y y' : coll_means rd name o y y' -> y <> YBad -> y' <> YBad.
Proof. intros [x|g x H|g x H|g x F] N; auto; try discriminate. Qed.

(** ** Anchors *)
Definition env_ok (pre : list text) (E : anchors) (e : env) : Prop :=
  forall i n y, nth_error E i = Some (n, Some y) -> lookup e (S (List.length pre + i)) = Some y /\ y <> YBad.
Definition ids_ok (pre : list text) (E : anchors) (ids : list nat) : Prop := forall i, i < List.length E -> In (S (List.length pre + i)) ids.
Definition local (pre : list text) (E D : anchors) (evs : list event) : Prop :=
  forall ids rest, ids_ok pre E ids -> (forall ids', ids_ok pre (E ++ D) ids' -> aliases_local ids' rest) -> aliases_local ids (evs ++ rest).
Definition names (E : anchors) : list text := map fst E.
Lemma names_app E D : names (E ++ D) = names E ++ names D.
Proof. apply map_app. Qed.
Lemma names_anchored pr o : names (anchored pr o) = names_of (props_toks pr).
Proof. unfold anchored, props_toks. destruct (pr_anchor pr), (pr_tag pr), (pr_tag_first pr); reflexivity. Qed.
Lemma env_nil pre e : env_ok pre [] e.
Proof. intros [|i] n y H; discriminate. Qed.
Lemma local_app pre E D D' a b : local pre E D a -> local pre (E ++ D) D' b -> local pre E (D ++ D') (a ++ b).
Proof. intros A B ids rest I R. rewrite <- app_assoc. apply A; [exact I|]. intros ids' I'. apply B; [exact I'|]. intros ids2 I2. apply R. now rewrite app_assoc. Qed.
Lemma local_nil pre E : local pre E [] [].
Proof. intros ids rest I R. apply R. now rewrite app_nil_r. Qed.
(** The number of a node after [E]. *)
Definition id_of (pre : list text) (E : anchors) (pr : props) : nat := props_id (pre ++ names E) pr.
Lemma id_of_is pre E pr : id_of pre E pr = match pr_anchor pr with Some _ => S (List.length pre + List.length E) | None => 0 end.
Proof. unfold id_of, props_id, names. now rewrite app_length, map_length. Qed.
(** A node that is complete. *)
Lemma remember_ok pre E pr o y D e : env_ok pre (E ++ anchored pr o ++ D) e -> y <> YBad ->
  env_ok pre (E ++ anchored pr (Some y) ++ D) (remember (id_of pre E pr) y e).
Proof.
  intros H N. rewrite id_of_is. unfold anchored in *. destruct (pr_anchor pr) as [a|]; [|exact H]. cbn [app remember] in *. intros i n z X. cbn [lookup].
  destruct (Nat.eqb (S (List.length pre + i)) (S (List.length pre + List.length E))) eqn:Q.
  - apply Nat.eqb_eq in Q. assert (i = List.length E) by lia. subst i. rewrite nth_error_app2, Nat.sub_diag in X by lia. injection X as <- <-. auto.
  - apply Nat.eqb_neq in Q. apply (H i n z). destruct (Nat.ltb_spec i (List.length E)) as [L|L].
    + rewrite nth_error_app1 in X |- * by lia. exact X.
    + rewrite nth_error_app2 in X |- * by lia. destruct (i - List.length E) eqn:Q2; [lia|]. exact X.
Qed.
(** The event that anchors a node. *)
Lemma ids_event pre E pr o ids : ids_ok pre E ids -> ids_ok pre (E ++ anchored pr o) ((if Nat.eqb (id_of pre E pr) 0 then [] else [id_of pre E pr]) ++ ids).
Proof.
  intros I i L. rewrite id_of_is. unfold anchored in *. destruct (pr_anchor pr) as [a|]; cbn [Nat.eqb].
  - rewrite app_length in L. cbn [List.length] in L. destruct (Nat.eq_dec i (List.length E)) as [->|N]; [now left|]. right. apply I. lia.
  - rewrite app_nil_r in L. now apply I.
Qed.
Lemma local_scalar pre E pr o v st tg : local pre E (anchored pr o) [EScalar (ScalarValue v st (id_of pre E pr) tg)].
Proof.
  intros ids rest I R. cbn [app aliases_local anchored_ids event_anchor sv_anchor]. apply R. now apply ids_event.
Qed.
Lemma local_seq pre E pr o o' D tg evs : local pre (E ++ anchored pr o) D evs ->
  local pre E (anchored pr o' ++ D) (ESequenceStart (id_of pre E pr) tg :: evs ++ [ESequenceEnd]).
Proof.
  intros L ids rest I R. cbn [app aliases_local anchored_ids event_anchor]. rewrite <- app_assoc. apply L; [now apply ids_event|].
  intros ids' I'. cbn [app aliases_local anchored_ids event_anchor Nat.eqb]. apply R. intros i Q. apply I'. revert Q. rewrite !app_length.
  unfold anchored. destruct (pr_anchor pr); cbn [List.length]; lia.
Qed.
Lemma local_map pre E pr o o' D tg evs : local pre (E ++ anchored pr o) D evs ->
  local pre E (anchored pr o' ++ D) (EMappingStart (id_of pre E pr) tg :: evs ++ [EMappingEnd]).
Proof.
  intros L ids rest I R. cbn [app aliases_local anchored_ids event_anchor]. rewrite <- app_assoc. apply L; [now apply ids_event|].
  intros ids' I'. cbn [app aliases_local anchored_ids event_anchor Nat.eqb]. apply R. intros i Q. apply I'. revert Q. rewrite !app_length.
  unfold anchored. destruct (pr_anchor pr); cbn [List.length]; lia.
Qed.
Lemma last_none i n l : ~ In n l -> last_index_from i n l = None.
Proof.
  revert i. induction l as [|m l IH]; intros i H; [reflexivity|]. cbn [last_index_from]. rewrite IH by (intros X; apply H; now right).
  destruct (text_eqb n m) eqn:Q; [|reflexivity]. apply text_eqb_iff in Q. subst. elim H. now left.
Qed.
Lemma last_at n a b : ~ In n b -> last_index n (a ++ n :: b) = Some (S (List.length a)).
Proof.
  unfold last_index. intros H. rewrite <- (Nat.add_1_r (List.length a)), Nat.add_comm. generalize 1. induction a as [|m a IH]; intros i; cbn [app last_index_from List.length].
  - rewrite last_none by exact H. rewrite (proj2 (text_eqb_iff n n) eq_refl). f_equal. lia.
  - rewrite IH. f_equal. lia.
Qed.

(** ** Nodes *)
Definition done (ev : list text -> option (list event)) (E : anchors) (y : yaml) (D : anchors) : Prop :=
  forall pre e, env_ok pre E e -> exists n e', ev (pre ++ names E) = Some (node_evs n) /\ value_in e n = (y, e') /\ env_ok pre (E ++ D) e' /\
    local pre E D (node_evs n) /\ y <> YBad.
Definition part_done {A} (f : list text -> A -> option (list event)) (toks : A -> list token_type) (M : anchors -> A -> yaml -> anchors -> Prop) (x : A) : Prop :=
  forall E y D, M E x y D -> names D = names_of (toks x) /\ done (fun before => f before x) E y D.
Lemma list_done {A} f toks (M : anchors -> A -> yaml -> anchors -> Prop) l : Forall (part_done f toks M) l -> forall E ys D, list_means M E l ys D ->
  names D = flat_map (fun x => names_of (toks x)) l /\
  forall pre e, env_ok pre E e -> exists ns e', list_events f toks (pre ++ names E) l = Some (flat_map node_evs ns) /\ thread value_in e ns = (ys, e') /\
    env_ok pre (E ++ D) e' /\ local pre E D (flat_map node_evs ns).
Proof.
  intros H E ys D L. induction L as [E|E x y D l ys D' M1 L IH].
  - split; [reflexivity|]. intros pre e K. exists [], e. rewrite app_nil_r. split; [reflexivity|]. split; [reflexivity|]. split; [exact K|apply local_nil].
  - destruct (Forall_inv H E y D M1) as [N1 D1]. destruct (IH (Forall_inv_tail H)) as [N2 D2]. split; [now rewrite names_app, N1, N2|]. intros pre e K.
    destruct (D1 pre e K) as (n & e1 & V1 & V2 & V3 & V4 & _). destruct (D2 pre e1 V3) as (ns & e2 & W1 & W2 & W3 & W4).
    exists (n :: ns), e2. cbn [list_events flat_map thread]. rewrite V1. cbn [SpecTree.obind]. rewrite <- N1, <- app_assoc, <- names_app, W1. cbn [SpecTree.obind]. rewrite V2, W2.
    split; [reflexivity|]. split; [reflexivity|]. split; [now rewrite app_assoc|]. now apply (local_app pre E D D').
Qed.
Definition pair_value (e : env) (x : vnode * vnode) : (yaml * yaml) * env :=
  let '(k, v) := x in let '(yk, e1) := value_in e k in let '(yv, e2) := value_in e1 v in ((yk, yv), e2).
Definition pair_list (x : vnode * vnode) : list event := let '(k, v) := x in node_evs k ++ node_evs v.
Definition is_read (rd : reading) (tg : list (text * text)) : tree -> Prop := part_done (tree_events (tags_of tg)) tree_toks (tree_means rd tg).
Lemma missing_done {rd} (NS : rd <> Standard) E y : missing rd y -> done (fun _ => Some [empty_event]) E y [] /\ untagged y.
Proof.
  intros M. rewrite (missing_read _ _ NS M). split; [|exact I]. intros pre e K. exists (NdScalar (ScalarValue [] Plain 0 None)), e.
  split; [reflexivity|]. split; [reflexivity|]. rewrite app_nil_r. split; [exact K|]. split; [|discriminate].
  exact (local_scalar pre E no_props None [] Plain None).
Qed.
Lemma opt_read {rd} (NS : rd <> Standard) tg o : opt_all (is_read rd tg) o -> part_done (opt_events (tree_events (tags_of tg))) (opt_list tree_toks) (opt_means rd tg) o.
Proof. intros H E y D M. inversion M as [E' t y' D' M1|E' y' F]; subst; [exact (H E y D M1)|]. split; [reflexivity|]. now apply (missing_done NS). Qed.
Lemma value_read {rd} (NS : rd <> Standard) tg v : value_all (is_read rd tg) v -> part_done (value_events (tree_events (tags_of tg))) (value_toks tree_toks) (value_means rd tg) v.
Proof. intros H E y D M. inversion M as [E' t y' D' M1|E' y' F|E' y' F]; subst; [exact (H E y D M1)| |]; (split; [reflexivity|]; now apply (missing_done NS)). Qed.
Lemma good_by y : y <> YBad -> untagged y -> good_key y.
Proof. destruct y; cbn; auto. Qed.
Lemma key_read {rd} (NS : rd <> Standard) tg k : key_all (is_read rd tg) k -> forall E y D, key_means rd tg E k y D ->
  names D = names_of (key_toks tree_toks k) /\ done (fun before => key_events (tree_events (tags_of tg)) before k) E y D /\ untagged y.
Proof.
  intros H E y D M. inversion M as [E' t y' D' M1 U|E' t y' D' M1 U|E' y' F|E' y' F]; subst; [| |split; [reflexivity|]; now apply (missing_done NS)|split; [reflexivity|]; now apply (missing_done NS)]; destruct (H E y D M1) as [X Y]; auto.
Qed.
Lemma pair_read {rd} (NS : rd <> Standard) tg x : pair_all (is_read rd tg) x -> forall E y D, pair_means rd tg E x y D ->
  names D = names_of (pair_toks tree_toks x) /\
  forall pre e, env_ok pre E e -> exists n e', pair_events (tree_events (tags_of tg)) tree_toks (pre ++ names E) x = Some (pair_list n) /\ pair_value e n = (y, e') /\
    env_ok pre (E ++ D) e' /\ local pre E D (pair_list n) /\ good_key (fst y).
Proof.
  intros [H1 H2] E y D M. destruct M as [E k v y D y' D' M1 M2]. cbn [fst snd] in *. destruct (key_read NS tg k H1 _ _ _ M1) as (N1 & D1 & U). destruct (value_read NS tg v H2 _ _ _ M2) as [N2 D2].
  cbn [pair_toks]. split; [now rewrite names_app, names_of_app, N1, N2|]. intros pre e K.
  destruct (D1 pre e K) as (n & e1 & V1 & V2 & V3 & V4 & V5). destruct (D2 pre e1 V3) as (n' & e2 & W1 & W2 & W3 & W4 & _).
  exists (n, n'), e2. cbn [pair_events pair_value pair_list]. rewrite V1. cbn [SpecTree.obind]. rewrite <- N1, <- app_assoc, <- names_app, W1. cbn [SpecTree.obind]. rewrite V2, W2.
  split; [reflexivity|]. split; [reflexivity|]. split; [now rewrite app_assoc|]. split; [now apply (local_app pre E D D')|now apply good_by].
Qed.
Lemma pairs_done {rd} (NS : rd <> Standard) tg l : Forall (pair_all (is_read rd tg)) l -> forall E ys D, list_means (pair_means rd tg) E l ys D ->
  names D = flat_map (fun x => names_of (pair_toks tree_toks x)) l /\
  forall pre e, env_ok pre E e -> exists ns e', list_events (pair_events (tree_events (tags_of tg)) tree_toks) (pair_toks tree_toks) (pre ++ names E) l = Some (flat_map pair_list ns) /\
    thread pair_value e ns = (ys, e') /\ env_ok pre (E ++ D) e' /\ local pre E D (flat_map pair_list ns) /\ Forall (fun x => good_key (fst x)) ys.
Proof.
  intros H E ys D L. induction L as [E|E x y D l ys D' M1 L IH].
  - split; [reflexivity|]. intros pre e K. exists [], e. rewrite app_nil_r. split; [reflexivity|]. split; [reflexivity|]. split; [exact K|]. split; [apply local_nil|constructor].
  - destruct (pair_read NS tg x (Forall_inv H) E y D M1) as [N1 D1]. destruct (IH (Forall_inv_tail H)) as [N2 D2]. split; [now rewrite names_app, N1, N2|]. intros pre e K.
    destruct (D1 pre e K) as (n & e1 & V1 & V2 & V3 & V4 & V5). destruct (D2 pre e1 V3) as (ns & e2 & W1 & W2 & W3 & W4 & W5).
    exists (n :: ns), e2. cbn [list_events flat_map thread]. rewrite V1. cbn [SpecTree.obind]. rewrite <- N1, <- app_assoc, <- names_app, W1. cbn [SpecTree.obind]. rewrite V2, W2.
    split; [reflexivity|]. split; [reflexivity|]. split; [now rewrite app_assoc|]. split; [now apply (local_app pre E D D')|now constructor].
Qed.
Lemma item_read {rd} (NS : rd <> Standard) tg i : item_all (is_read rd tg) i -> part_done (item_events (tree_events (tags_of tg)) tree_toks) (item_toks tree_toks) (item_means rd tg) i.
Proof.
  intros H E y D M. destruct M as [E t y D M1|E t v y D y' D' M1 U M2]; [exact (H E y D M1)|]. destruct H as [H1 H2]. destruct (H1 _ _ _ M1) as [N1 D1]. destruct (value_read NS tg v H2 _ _ _ M2) as [N2 D2].
  cbn [item_toks]. split; [cbn [names_of]; now rewrite names_app, names_of_app, N1, N2|]. intros pre e K.
  destruct (D1 pre e K) as (n & e1 & V1 & V2 & V3 & V4 & V5). destruct (D2 pre e1 V3) as (n' & e2 & W1 & W2 & W3 & W4 & _).
  exists (NdMap 0 None [(n, n')]), e2. cbn [item_events node_evs flat_map SpecValue.value_of thread]. rewrite V1. cbn [SpecTree.obind]. rewrite <- N1, <- app_assoc, <- names_app, W1. cbn [SpecTree.obind]. rewrite V2, W2.
  split; [now rewrite app_nil_r, <- app_assoc|]. cbn [with_tag remember]. rewrite kept_pairs_good by (constructor; [now apply good_by; auto|constructor]). split; [reflexivity|]. split; [now rewrite app_assoc|]. split; [|discriminate].
  rewrite app_nil_r. intros ids rest I R. cbn [app aliases_local anchored_ids event_anchor Nat.eqb]. rewrite <- !app_assoc. apply V4; [exact I|]. intros ids' I'. apply W4; [exact I'|].
  intros ids2 I2. cbn [app aliases_local anchored_ids event_anchor Nat.eqb]. apply R. now rewrite app_assoc.
Qed.

(** ** Trees *)
Lemma names_commas {A} (toks : A -> list token_type) l : names_of (commas toks l) = flat_map (fun x => names_of (toks x)) l.
Proof.
  induction l as [|x l IH]; [reflexivity|]. destruct l as [|z l]; [cbn [commas flat_map]; now rewrite app_nil_r|].
  change (commas toks (x :: z :: l)) with (toks x ++ TFlowEntry :: commas toks (z :: l)). rewrite names_of_app. cbn [names_of]. rewrite IH. reflexivity.
Qed.
Lemma names_flat {A} (toks : A -> list token_type) l : names_of (flat_map toks l) = flat_map (fun x => names_of (toks x)) l.
Proof. induction l as [|x l IH]; [reflexivity|]. cbn [flat_map]. now rewrite names_of_app, IH. Qed.
Lemma names_trail b : names_of (trail b) = [].
Proof. now destruct b. Qed.
Lemma seq_done {rd} (NS : rd <> Standard) tg (A : Type) f toks (M : anchors -> A -> yaml -> anchors -> Prop) l E pr o ys y D ev :
  Forall (part_done f toks M) l -> tagged_as tg pr o -> list_means M (E ++ anchored pr None) l ys D -> coll_means rd (str "seq") o (YSeq ys) y ->
  (forall before, ev before = SpecTree.obind (props_tag (tags_of tg) pr) (fun tg => enclose (ESequenceStart (props_id before pr) tg) ESequenceEnd (list_events f toks (before ++ names_of (props_toks pr)) l))) ->
  names (anchored pr (Some y) ++ D) = names_of (props_toks pr) ++ flat_map (fun x => names_of (toks x)) l /\ done ev E y (anchored pr (Some y) ++ D).
Proof.
  intros H T L C EV. destruct (list_done f toks M l H _ _ _ L) as [N1 D1]. split; [now rewrite names_app, names_anchored, N1|]. intros pre e K.
  assert (K' : env_ok pre (E ++ anchored pr None) e).
  { intros i n z X. destruct (Nat.ltb_spec i (List.length E)) as [Q|Q]; [rewrite nth_error_app1 in X by lia; exact (K i n z X)|]. rewrite nth_error_app2 in X by lia.
    unfold anchored in X. destruct (pr_anchor pr); destruct (i - List.length E) as [|[|?]]; discriminate. }
  destruct (D1 pre e K') as (ns & e1 & V1 & V2 & V3 & V4). exists (NdSeq (id_of pre E pr) o ns), (remember (id_of pre E pr) y e1).
  rewrite EV, (tagged_tag _ _ _ T). cbn [SpecTree.obind]. rewrite <- app_assoc. rewrite <- (names_anchored pr None), <- names_app, V1. cbn [enclose SpecTree.obind node_evs SpecValue.value_of]. rewrite V2, (coll_read NS _ _ _ _ C).
  assert (G : y <> YBad) by (apply (coll_good NS _ _ _ _ C); discriminate).
  split; [reflexivity|]. split; [reflexivity|]. split; [apply (remember_ok pre E pr None); [now rewrite app_assoc|exact G]|]. split; [exact (local_seq pre E pr None (Some y) D o _ V4)|exact G].
Qed.
Lemma map_done {rd} (NS : rd <> Standard) tg l E pr o ys y D ev :
  Forall (pair_all (is_read rd tg)) l -> tagged_as tg pr o -> list_means (pair_means rd tg) (E ++ anchored pr None) l ys D -> coll_means rd (str "map") o (YMap ys) y ->
  (forall before, ev before = SpecTree.obind (props_tag (tags_of tg) pr) (fun t => enclose (EMappingStart (props_id before pr) t) EMappingEnd
     (list_events (pair_events (tree_events (tags_of tg)) tree_toks) (pair_toks tree_toks) (before ++ names_of (props_toks pr)) l))) ->
  names (anchored pr (Some y) ++ D) = names_of (props_toks pr) ++ flat_map (fun x => names_of (pair_toks tree_toks x)) l /\ done ev E y (anchored pr (Some y) ++ D).
Proof.
  intros H T L C EV. destruct (pairs_done NS tg l H _ _ _ L) as [N1 D1]. split; [now rewrite names_app, names_anchored, N1|]. intros pre e K.
  assert (K' : env_ok pre (E ++ anchored pr None) e).
  { intros i n z X. destruct (Nat.ltb_spec i (List.length E)) as [Q|Q]; [rewrite nth_error_app1 in X by lia; exact (K i n z X)|]. rewrite nth_error_app2 in X by lia.
    unfold anchored in X. destruct (pr_anchor pr); destruct (i - List.length E) as [|[|?]]; discriminate. }
  destruct (D1 pre e K') as (ns & e1 & V1 & V2 & V3 & V4 & V5). exists (NdMap (id_of pre E pr) o ns), (remember (id_of pre E pr) y e1).
  rewrite EV, (tagged_tag _ _ _ T). cbn [SpecTree.obind]. rewrite <- app_assoc. rewrite <- (names_anchored pr None), <- names_app, V1. cbn [enclose SpecTree.obind node_evs SpecValue.value_of].
  match goal with |- context [thread ?f e ns] => change (thread f e ns) with (thread pair_value e ns) end.
  rewrite V2, kept_pairs_good, (coll_read NS _ _ _ _ C) by exact V5.
  assert (G : y <> YBad) by (apply (coll_good NS _ _ _ _ C); discriminate).
  split; [reflexivity|]. split; [reflexivity|]. split; [apply (remember_ok pre E pr None); [now rewrite app_assoc|exact G]|]. split; [exact (local_map pre E pr None (Some y) D o _ V4)|exact G].
Qed.
Lemma tree_read {rd} (NS : rd <> Standard) tg t : is_read rd tg t.
Proof.
  induction t as [pr st v|a|pr|pr l b H|pr l b H|pr l H|pr l H|pr l H] using tree_parts; intros E y D M.
  - inversion M as [E' pr' o st' v' y' T S| | | | | | |]; subst. destruct (scalar_read NS _ _ _ _ S) as [V G]. split.
    { cbn [tree_toks]. rewrite names_of_app, names_anchored. cbn [names_of]. now rewrite app_nil_r. }
    intros pre e K. exists (NdScalar (ScalarValue v st (id_of pre E pr) o)), (remember (id_of pre E pr) y e). cbn [tree_events node_evs SpecValue.value_of sv_value sv_type sv_tag sv_anchor].
    rewrite (tagged_tag _ _ _ T), V. cbn [SpecTree.obind]. split; [reflexivity|]. split; [reflexivity|]. split; [|split; [apply local_scalar|exact G]].
    pose proof (remember_ok pre E pr None y [] e) as X. rewrite !app_nil_r in X. apply X; [|exact G].
    intros i n z Y. destruct (Nat.ltb_spec i (List.length E)) as [Q|Q]; [rewrite nth_error_app1 in Y by lia; exact (K i n z Y)|]. rewrite nth_error_app2 in Y by lia.
    unfold anchored in Y. destruct (pr_anchor pr); destruct (i - List.length E) as [|[|?]]; discriminate.
  - inversion M as [|E' n' y' A| | | | | |]; subst. split; [reflexivity|]. intros pre e K. destruct A as (E1 & E2 & -> & N).
    assert (LI : last_index a (pre ++ names (E1 ++ (a, Some y) :: E2)) = Some (S (List.length pre + List.length E1))).
    { rewrite names_app. cbn [names map fst]. rewrite app_assoc, last_at by exact N. unfold names. now rewrite app_length, map_length. }
    destruct (K (List.length E1) a y) as [LK G]; [now rewrite nth_error_app2, Nat.sub_diag by lia|].
    exists (NdAlias (S (List.length pre + List.length E1))), e. cbn [tree_events node_evs SpecValue.value_of]. rewrite LI, LK. cbn [SpecTree.obind]. rewrite app_nil_r.
    split; [reflexivity|]. split; [reflexivity|]. split; [exact K|]. split; [|exact G]. intros ids rest I R. cbn [app aliases_local]. split; [apply I; rewrite app_length; cbn [List.length]; lia|]. apply R. now rewrite app_nil_r.
  - inversion M as [| |E' pr' o y' T S| | | | |]; subst. destruct (empty_read NS _ _ S) as [V G]. split; [cbn [tree_toks]; apply names_anchored|].
    intros pre e K. exists (NdScalar (ScalarValue [] Plain (id_of pre E pr) o)), (remember (id_of pre E pr) y e). cbn [tree_events node_evs SpecValue.value_of sv_value sv_type sv_tag sv_anchor].
    rewrite (tagged_tag _ _ _ T), V. cbn [SpecTree.obind]. split; [reflexivity|]. split; [reflexivity|]. split; [|split; [apply local_scalar|exact G]].
    pose proof (remember_ok pre E pr None y [] e) as X. rewrite !app_nil_r in X. apply X; [|exact G].
    intros i n z Y. destruct (Nat.ltb_spec i (List.length E)) as [Q|Q]; [rewrite nth_error_app1 in Y by lia; exact (K i n z Y)|]. rewrite nth_error_app2 in Y by lia.
    unfold anchored in Y. destruct (pr_anchor pr); destruct (i - List.length E) as [|[|?]]; discriminate.
  - inversion M as [| | |E' pr' o l' b' ys y' D' T L C| | | |]; subst.
    cbn [tree_toks]. rewrite names_of_app. cbn [names_of]. rewrite !names_of_app, names_trail, names_commas. cbn [names_of]. rewrite !app_nil_r.
    apply (seq_done NS tg _ (item_events (tree_events (tags_of tg)) tree_toks) (item_toks tree_toks) (item_means rd tg) l E pr o ys y D'); auto.
    clear - H NS. induction H; constructor; auto. now apply (item_read NS).
  - inversion M as [| | | |E' pr' o l' b' ys y' D' T L C| | |]; subst.
    cbn [tree_toks]. rewrite names_of_app. cbn [names_of]. rewrite !names_of_app, names_trail, names_commas. cbn [names_of]. rewrite !app_nil_r.
    apply (map_done NS tg l E pr o ys y D'); auto.
  - inversion M as [| | | | |E' pr' o l' ys y' D' T L C| |]; subst.
    cbn [tree_toks]. rewrite names_of_app. cbn [names_of]. rewrite !names_of_app. cbn [names_of]. rewrite !app_nil_r. change (fun o => TBlockEntry :: opt_list tree_toks o) with dash. rewrite names_dash, names_flat.
    apply (seq_done NS tg _ (opt_events (tree_events (tags_of tg))) (opt_list tree_toks) (opt_means rd tg) l E pr o ys y D'); auto.
    clear - H NS. induction H; constructor; auto. now apply (opt_read NS).
  - inversion M as [| | | | | | |E' pr' o l' ys y' D' T L C]; subst.
    cbn [tree_toks]. rewrite names_of_app. cbn [names_of]. rewrite !names_of_app, names_flat. cbn [names_of]. rewrite !app_nil_r.
    apply (map_done NS tg l E pr o ys y D'); auto.
  - inversion M as [| | | | | |E' pr' o l' ys y' D' T L C|]; subst.
    cbn [tree_toks]. rewrite names_of_app. change (fun o => TBlockEntry :: opt_list tree_toks o) with dash. rewrite names_dash, names_flat.
    apply (seq_done NS tg _ (opt_events (tree_events (tags_of tg))) (opt_list tree_toks) (opt_means rd tg) l E pr o ys y D'); auto.
    clear - H NS. induction H; constructor; auto. now apply (opt_read NS).
Qed.

(** ** Documents *)
Lemma docs_read {rd} (NS : rd <> Standard) l ys : Forall2 (doc_means rd) l ys -> forall prev before e, exists ns e',
  docs_mean dirs_table false prev before l (flat_map doc_evs ns) /\ docs_values kept_pairs e ns = (ys, e') /\
  forall ids rest, (forall ids', aliases_local ids' rest) -> aliases_local ids (flat_map doc_evs ns ++ rest).
Proof.
  induction 1 as [|d y l ys (D & M) F IH]; intros prev before e.
  - exists [], e. split; [constructor|]. split; [reflexivity|]. intros ids rest R. apply R.
  - destruct (opt_read NS (dirs_table (d_dirs d)) (d_root d)) with (E := @nil (text * option yaml)) (y := y) (D := D) as [N DN]; [destruct (d_root d); [apply (tree_read NS)|exact I]|exact M|].
    destruct (DN before e (env_nil _ _)) as (n & e1 & V1 & V2 & V3 & V4 & _).
    assert (NB : names_of (doc_toks d) = names D) by (unfold doc_toks; rewrite !names_of_app, names_dirs, names_ends, N, app_nil_r; destruct (d_explicit d); reflexivity).
    destruct (IH (doc_table dirs_table false prev d) (before ++ names_of (doc_toks d)) e1) as (ns & e2 & W1 & W2 & W3).
    exists ((d_explicit d, n) :: ns), e2. split; [|split].
    + cbn [flat_map]. unfold doc_evs at 1. cbn [fst snd app]. rewrite <- app_assoc. cbn [app]. apply (DM_cons _ _ _ _ d l (tags_of (dirs_table (d_dirs d)))).
      * intros h s t X. apply tags_of_means in X. unfold doc_table. destruct (d_dirs d); exact X.
      * cbn [names map] in V1. rewrite app_nil_r in V1. exact V1.
      * exact W1.
    + unfold docs_values in *. cbn [thread snd]. rewrite V2, W2. reflexivity.
    + intros ids rest R. cbn [flat_map]. unfold doc_evs at 1. cbn [fst snd app aliases_local]. rewrite <- !app_assoc. apply V4; [intros i L; cbn in L; lia|].
      intros ids' _. cbn [app aliases_local anchored_ids event_anchor Nat.eqb]. now apply W3.
Qed.
