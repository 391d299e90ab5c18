(** Parsing and loading whole texts of block documents. *)
From Verif Require Import Base Tokens Scalar Yaml Chars Source Cursor Scanner SpecScalar ScalarProofs ScalarTags.
From Verif Require Import SpecTree SpecStream SpecLoad SpecEvents Parser ParserRun Loader LoadText SpecValue Pipeline TextDocs ParserTree ParserStream ParserAccept LoaderProofs LoaderLoad RoundTrip NodeScan.
From Verif Require Import SpecProps.
From Verif Require Import SpecBlock SpecPlain SpecStrings SpecLayout TreeLike FlowNodes LayoutDocs MeaningProofs.
From Coq Require Import String Lia ZifyBool ZifyNat ZifyN.
Local Open Scope list_scope.

(** ** The trees *)
(** No properties, no aliases. *)
Fixpoint bare_tree (t : tree) : Prop :=
  match t with
  | TrScalar pr _ _ => pr = no_props
  | TrFlowSeq pr l _ => pr = no_props /\ all_of (item_all bare_tree) l
  | TrBlockSeq pr l | TrIndentless pr l => pr = no_props /\ all_of (opt_all bare_tree) l
  | TrFlowMap pr l _ | TrBlockMap pr l => pr = no_props /\ all_of (pair_all bare_tree) l
  | _ => False
  end.
Definition opt_bare := opt_all bare_tree.
Definition pair_bare := pair_all bare_tree.
Lemma no_gap_keys {A} (l : list (key A * value A)) : Forall (fun x => fst x <> KNone) l -> no_gap l.
Proof.
  induction 1 as [|[k v] r H F IH]; [exact I|]. cbn [no_gap]. split; [|exact IH]. destruct v; auto. destruct F as [|[k2 v2] r2 H2 _]; auto. destruct k2; auto; now elim H2.
Qed.
Lemma block_with pr w t : props_text false w pr -> bare t -> (forall b, block_tree b t) -> forall b, block_tree b (with_props pr t).
Proof.
  intros P B H b. specialize (H b). destruct t; cbn [bare] in B; try contradiction; cbn [with_props block_tree flow_tree] in *; auto.
Qed.
Lemma key_tree w t k : key_text w t k -> forall b, block_tree b t.
Proof. intros [st w' v k'|w' pr j st w'' v k' _ _|a k' _ _|w' pr k' P _] b; cbn [block_tree flow_tree]; auto. exact (proj1 (props_text_some _ _ _ P)). Qed.
Definition some_tree (o : option tree) : Prop := match o with Some t => block_tree false t | None => True end.
Definition good_pair (x : key tree * value tree) : Prop := block_pair x /\ let '(k, v) := x in key_all (block_tree true) k /\ value_all (block_tree true) v.
Lemma layout_trees :
  (forall b0 p n w t e, node b0 p n w t e -> forall b, block_tree b t) /\
  (forall n c w o e, part n c w o e -> forall t, o = Some t -> (forall b, block_tree b t)) /\
  (forall n w l e, items n w l e -> l <> [] /\ Forall some_tree l) /\
  (forall n w x e, entry n w x e -> good_pair x /\ fst x <> KNone) /\
  (forall n w l e, entries n w l e -> Forall good_pair l /\ Forall (fun x => fst x <> KNone) l).
Proof.
  assert (K : forall w t k, written_key w t k -> block_tree true t) by (intros w t k W; exact (key_tree _ _ _ (proj1 W) true)).
  apply LayoutNodes.layout_ind; intros; unfold good_pair.
  - exact I.
  - exact I.
  - pose proof (proj1 (proj2 (proj1 (flow_scans p) true w t f))) as X. now destruct t.
  - cbn [block_tree]. apply all_of_Forall. tauto.
  - cbn [block_tree]. split; [apply all_of_Forall; tauto|apply no_gap_keys; tauto].
  - exact I.
  - match goal with P : props_text _ _ _ |- _ => exact (proj1 (props_text_some _ _ _ P)) end.
  - eapply block_with; eassumption.
  - eapply block_with; eassumption.
  - discriminate.
  - match goal with X : Some _ = Some _ |- _ => injection X as <- end. auto.
  - match goal with X : Some _ = Some _ |- _ => injection X as <- end. auto.
  - split; [discriminate|]. constructor; [|constructor]. destruct o as [t|]; [now apply H|exact I].
  - destruct H0 as [N1 N2]. split; [discriminate|]. constructor; [|exact N2]. destruct o as [t|]; [now apply H|exact I].
  - cbn [block_pair key_all value_all fst]. repeat split; [eapply K; eassumption|discriminate].
  - cbn [block_pair key_all value_all fst]. repeat split; [eapply K; eassumption|auto|discriminate].
  - cbn [block_pair key_all value_all fst]. repeat split; [eapply K; eassumption|auto|discriminate].
  - destruct H as [N1 N2]. cbn [block_pair key_all value_all fst block_tree]. repeat split; [eapply K; eassumption|exact N1|now apply all_of_Forall|discriminate].
  - destruct H as [N1 N2]. cbn [block_pair key_all value_all fst block_tree]. repeat split; [eapply K; eassumption|exact N1|now apply all_of_Forall|discriminate].
  - cbn [block_pair key_all value_all fst]. repeat split; [now apply H|discriminate].
  - destruct o as [t|], o' as [t'|]; cbn; repeat split; auto; discriminate.
  - destruct H as [H1 H2]. split; constructor; auto.
  - destruct H as [H1 H2], H0 as [N1 N2]. split; constructor; auto.
Qed.

(** ** The documents *)
Definition doc_bare (d : doc) : Prop := opt_bare (d_root d).
Lemma layout_docs :
  (forall w l, marked w l -> forall free, docs_ok free l) /\
  (forall d o w e l, tail d o w e l -> docs_ok (d || Nat.ltb 0 e) l) /\
  (forall w l, directed w l -> docs_ok true l).
Proof.
  pose proof (proj1 layout_trees) as T.
  assert (X : forall free (b : bool) o e l, (forall t, o = Some t -> block_tree false t) -> (b = false -> o <> None /\ free = true) ->
    docs_ok (Nat.ltb 0 e) l -> docs_ok free (Doc [] b o e :: l)).
  { intros free b o e l BT E D. cbn [docs_ok d_ends]. split; [|exact D].
    split; [intros Y; now elim Y|]. split; [exact E|]. cbn [d_root]. destruct o; auto. }
  assert (Y : forall d ds o e l, docs_ok true (Doc ds true o e :: l) -> docs_ok true (Doc (d :: ds) true o e :: l)).
  { intros d ds o e l [(D1 & D2 & D3) D]. split; [|exact D]. split; [intros _; split; reflexivity|]. split; [discriminate|exact D3]. }
  apply stream_ind2; intros.
  - pose proof (T _ _ _ _ _ _ n1) as BT. apply X; auto; try discriminate; intros t' Z; injection Z as <-; auto.
  - pose proof (T _ _ _ _ _ _ n) as BT. apply X; auto; try discriminate; intros t' Z; injection Z as <-; auto.
  - apply X; auto; discriminate.
  - exact I.
  - auto.
  - cbn [Nat.ltb Nat.leb]. rewrite orb_true_r. assumption.
  - pose proof (T _ _ _ _ _ _ n1) as BT. apply X; auto.
    + intros t' Z; injection Z as <-; auto.
    + intros _. split; [discriminate|reflexivity].
  - assumption.
  - apply Y. auto.
  - apply Y. assumption.
Qed.

(** ** The events *)
Definition empty_node : vnode := NdScalar (ScalarValue [] Plain 0 None).
Definition key_part (f : tree -> vnode) (k : key tree) : vnode := match k with KNode t | KBare t => f t | _ => empty_node end.
Definition value_part (f : tree -> vnode) (v : value tree) : vnode := match v with VNode t => f t | _ => empty_node end.
Definition opt_part (f : tree -> vnode) (o : option tree) : vnode := match o with Some t => f t | None => empty_node end.
Definition pair_part (f : tree -> vnode) (x : key tree * value tree) : vnode * vnode := (key_part f (fst x), value_part f (snd x)).
Definition item_part (f : tree -> vnode) (i : item tree) : vnode :=
  match i with INode t => f t | IPair t v => NdMap 0 None [(f t, value_part f v)] end.
Fixpoint tree_node (t : tree) : vnode :=
  match t with
  | TrScalar _ st v => NdScalar (ScalarValue v st 0 None)
  | TrFlowSeq _ l _ => NdSeq 0 None (map (item_part tree_node) l)
  | TrBlockSeq _ l | TrIndentless _ l => NdSeq 0 None (map (opt_part tree_node) l)
  | TrFlowMap _ l _ | TrBlockMap _ l => NdMap 0 None (map (pair_part tree_node) l)
  | _ => empty_node
  end.
Definition opt_node := opt_part tree_node.
Definition is_evs (tags : text -> text -> option tag) (t : tree) : Prop := bare_tree t -> forall before, tree_events tags before t = Some (node_evs (tree_node t)).
Lemma value_evs tags v before : value_all (is_evs tags) v -> value_all bare_tree v -> value_events (tree_events tags) before v = Some (node_evs (value_part tree_node v)).
Proof. destruct v as [| |t]; cbn [value_all value_events value_part]; intros H B; [reflexivity|reflexivity|]. now apply H. Qed.
Lemma key_evs tags k before : key_all (is_evs tags) k -> key_all bare_tree k -> key_events (tree_events tags) before k = Some (node_evs (key_part tree_node k)).
Proof. destruct k as [| |t|t]; cbn [key_all key_events key_part]; intros H B; try reflexivity; now apply H. Qed.
Lemma pairs_evs tags l : Forall (pair_all (is_evs tags)) l -> all_of (pair_all bare_tree) l -> forall before,
  list_events (pair_events (tree_events tags) tree_toks) (pair_toks tree_toks) before l = Some (flat_map pair_list (map (pair_part tree_node) l)).
Proof.
  induction 1 as [|[k v] l [H1 H2] F IH]; intros B before; [reflexivity|]. destruct B as [[B1 B2] B]. cbn [fst snd] in *. cbn [map flat_map list_events pair_events].
  rewrite key_evs by auto. cbn [obind]. rewrite value_evs by auto. cbn [obind]. rewrite IH by auto. reflexivity.
Qed.
Lemma opts_evs tags l : Forall (opt_all (is_evs tags)) l -> all_of (opt_all bare_tree) l -> forall before,
  list_events (opt_events (tree_events tags)) (opt_list tree_toks) before l = Some (flat_map node_evs (map (opt_part tree_node) l)).
Proof.
  induction 1 as [|o l H1 F IH]; intros B before; [reflexivity|]. destruct B as [B1 B]. cbn [map flat_map list_events].
  assert (E : opt_events (tree_events tags) before o = Some (node_evs (opt_part tree_node o))) by (destruct o as [t|]; [now apply H1|reflexivity]).
  rewrite E. cbn [obind]. rewrite IH by auto. reflexivity.
Qed.
Lemma items_evs tags l : Forall (item_all (is_evs tags)) l -> all_of (item_all bare_tree) l -> forall before,
  list_events (item_events (tree_events tags) tree_toks) (item_toks tree_toks) before l = Some (flat_map node_evs (map (item_part tree_node) l)).
Proof.
  induction 1 as [|i l H1 F IH]; intros B before; [reflexivity|]. destruct B as [B1 B]. cbn [map flat_map list_events].
  assert (E : item_events (tree_events tags) tree_toks before i = Some (node_evs (item_part tree_node i))).
  { destruct i as [t|t v]; [now apply H1|]. destruct H1 as [H1 H2], B1 as [B1 B2]. cbn [item_events item_part node_evs flat_map]. rewrite (H1 B1). cbn [obind].
    rewrite value_evs by auto. cbn [obind]. rewrite app_nil_r, <- app_assoc. reflexivity. }
  rewrite E. cbn [obind]. rewrite IH by auto. reflexivity.
Qed.
Lemma tree_evs tags t before : bare_tree t -> tree_events tags before t = Some (node_evs (tree_node t)).
Proof.
  revert before. enough (X : is_evs tags t) by (intros before B; now apply X).
  induction t as [pr st v|a|pr|pr l b H|pr l b H|pr l H|pr l H|pr l H] using tree_parts; intros B before; cbn [bare_tree] in B; try contradiction.
  - subst. reflexivity.
  - destruct B as [-> B]. cbn [tree_events]. rewrite items_evs by auto. reflexivity.
  - destruct B as [-> B]. cbn [tree_events]. rewrite pairs_evs by auto. reflexivity.
  - destruct B as [-> B]. cbn [tree_events]. rewrite opts_evs by auto. reflexivity.
  - destruct B as [-> B]. cbn [tree_events]. rewrite pairs_evs by auto. reflexivity.
  - destruct B as [-> B]. cbn [tree_events]. rewrite opts_evs by auto. reflexivity.
Qed.
Definition doc_node (d : doc) : bool * vnode := (d_explicit d, opt_node (d_root d)).
Lemma docs_evs_mean l : Forall doc_bare l -> forall tg before, docs_mean dirs_table false tg before l (flat_map doc_evs (map doc_node l)).
Proof.
  induction 1 as [|d l D2 F IH]; intros tg before; [constructor|]. unfold doc_bare in D2. cbn [map flat_map]. unfold doc_evs at 1. cbn [doc_node fst snd app]. rewrite <- app_assoc. cbn [app].
  eapply (DM_cons _ _ _ _ d l (fun _ _ => None)).
  - discriminate.
  - destruct (d_root d) as [t|]; [|reflexivity]. cbn [opt_events]. now apply tree_evs.
  - apply IH.
Qed.
(** Documents that are alike denote the same events. *)
Lemma docs_like_mean l l' : Forall2 doc_like l l' -> forall tg before es, docs_mean dirs_table false tg before l es -> docs_mean dirs_table false tg before l' es.
Proof.
  induction 1 as [|d d' l l' (D1 & D2 & D3 & D4) F IH]; intros tg before es H; [exact H|]. inversion_clear H as [|? ? ? ? tags e es' T E R].
  assert (DT : doc_table dirs_table false tg d = doc_table dirs_table false tg d') by (unfold doc_table; now rewrite D1).
  assert (DN : names_of (doc_toks d) = names_of (doc_toks d')).
  { unfold doc_toks. rewrite D1, D2, D3, !names_of_app. now rewrite (opt_like_names _ _ D4). }
  rewrite D2. apply (DM_cons _ _ _ _ d' l' tags e es').
  - now rewrite <- DT.
  - rewrite (opt_like_events _ _ D4). exact E.
  - rewrite <- DT, <- DN. now apply IH.
Qed.
Lemma docs_like_ok l l' : Forall2 doc_like l l' -> forall free, docs_ok free l -> docs_ok free l'.
Proof.
  induction 1 as [|d d' l l' (D1 & D2 & D3 & D4) F IH]; intros free H; [exact I|]. destruct H as [(H1 & H2 & H3) H]. cbn [docs_ok]. rewrite <- D3. split; [|now apply IH].
  unfold doc_ok. rewrite <- D1, <- D2. split; [exact H1|]. split.
  - intros E. destruct (H2 E) as [H4 H5]. split; [|exact H5]. destruct D4; [exact H4|discriminate].
  - destruct D4 as [|t t' ((_ & _ & _ & L) & _)]; [exact I|]. now apply L.
Qed.
Lemma layout_events fuel w lead l : stream w lead l -> 4 * List.length w + 12 < fuel ->
  exists toks z l', scan fuel w = (toks, (z, Ok tt)) /\ Forall2 doc_like l l' /\ map k_type toks = stream_toks lead l' /\ List.length toks <= 4 * List.length w + 2 /\
    docs_ok true l' /\ forall evs, Forall one_directive l -> stream_means dirs_table false l evs ->
      stream_means dirs_table false l' evs /\ forall er mk, events_of (List.length evs) (new_parser toks er mk false) = evs.
Proof.
  intros S F. destruct (layout_stream_scans fuel w lead l S F) as (toks & z & l' & E & LL & T & LE). exists toks, z, l'. split; [exact E|]. split; [exact LL|]. split; [exact T|]. split; [exact LE|].
  assert (DO : docs_ok true l).
  { pose proof layout_docs as (LM & LT & LD). pose proof (proj1 layout_trees) as TR. destruct S as [ls x E0 L0|ls w l E0 MK|ls w l E0 MK|ls r e l E0 TL|b0 ls n w t o r e l E0 ND TL].
    - exact I.
    - exact (LM _ _ MK true).
    - exact (LD _ _ MK).
    - apply (LT true _ _ _ _ TL).
    - pose proof (LT false _ _ _ _ TL) as F2. pose proof (TR _ _ _ _ _ _ ND) as T2.
      cbn [docs_ok d_ends]. split; [|exact F2]. split; [intros Y; now elim Y|]. split; [intros _; split; [discriminate|reflexivity]|apply T2]. }
  pose proof (docs_like_ok _ _ LL _ DO) as DO'. split; [exact DO'|]. intros evs DB (es & EE & SM).
  assert (SM' := docs_like_mean _ _ LL _ _ _ SM).
  split; [eexists; split; [exact EE|exact SM']|]. intros er mk. apply (stream_read false lead l'); auto.
  - clear - DB LL. induction LL as [|d d' l l' (D1 & _) _ IH]; [constructor|]. inversion_clear DB as [|? ? D DB']. constructor; [|auto]. unfold one_directive in *. now rewrite <- D1.
  - eexists. split; [exact EE|exact SM'].
Qed.
Lemma bare_means l : Forall doc_bare l -> stream_means dirs_table false l (docs_evs (map doc_node l)).
Proof. intros B. eexists. split; [reflexivity|now apply docs_evs_mean]. Qed.

(** ** The values *)
Theorem layout_reads rd fuel w lead l ys : rd <> Standard -> stream w lead l -> Forall one_directive l -> Forall2 (doc_means rd) l ys -> 64 * List.length w + 64 <= fuel ->
  load_text fuel w = Ok ys.
Proof.
  intros NS S OD V F. destruct (layout_events fuel w lead l S ltac:(lia)) as (toks & z & l' & E & _ & T & LE & _ & EV).
  destruct (docs_read NS l ys V [] [] []) as (ns & e' & M & DV & AL).
  assert (SM : stream_means dirs_table false l (docs_evs ns)) by (eexists; split; [reflexivity|exact M]).
  unfold load_text. rewrite E. set (er := scan_error z). set (mk := c_mark (z_cur z)).
  pose proof (proj2 (EV _ OD SM) er mk) as EV1. clear EV.
  assert (HL : exists p' r, load fuel true (new_parser toks er mk false) = (p', Ok r) /\ map fst r = docs_evs ns).
  { rewrite <- EV1. apply load_accepts; rewrite ?EV1.
    - unfold docs_evs. right. apply in_app_iff. right. now left.
    - unfold docs_evs. cbn [aliases_local anchored_ids event_anchor Nat.eqb app]. apply AL. intros ids'. exact I.
    - lia. }
  destruct HL as (p' & r & HL & HR). unfold load_from. rewrite HL, HR.
  rewrite (stream_run _ _ _ DV). reflexivity.
Qed.
Theorem layout_loads fuel w lead l ys : stream w lead l -> Forall one_directive l -> Forall2 (doc_means Narrow) l ys -> 64 * List.length w + 64 <= fuel ->
  load_text fuel w = Ok ys.
Proof. apply layout_reads. discriminate. Qed.
Theorem layout_parses fuel w lead l evs : stream w lead l -> Forall one_directive l -> stream_means dirs_table false l evs -> 4 * List.length w + 12 < fuel ->
  exists toks z ds, scan fuel w = (toks, (z, Ok tt)) /\ map k_type toks = stream_toks lead ds /\ docs_ok true ds /\
    stream_means dirs_table false ds evs /\
    forall er mk, events_of (List.length evs) (new_parser toks er mk false) = evs.
Proof.
  intros S OD M F. destruct (layout_events fuel w lead l S F) as (toks & z & l' & E & _ & T & _ & DO & EV). exists toks, z, l'.
  destruct (EV evs OD M) as (E1 & E2).
  repeat (split; [assumption|]). exact E2.
Qed.

(** ** Examples *)
Definition lf : text := [10%N].
Definition plain_key (st : scalar_type) (v : text) : key tree := KNode (TrScalar no_props st v).
Definition flow_sample : text := str "[x, # c" ++ lf ++ str "      {k: [a], }, z: 1]".
Definition flow_word_tree (v : text) : tree := TrScalar no_props Plain v.
Definition flow_sample_tree : tree :=
  TrFlowSeq no_props [INode (flow_word_tree (str "x"));
    INode (TrFlowMap no_props [(KNode (flow_word_tree (str "k")), VNode (TrFlowSeq no_props [INode (flow_word_tree (str "a"))] false))] true);
    IPair (flow_word_tree (str "z")) (VNode (flow_word_tree (str "1")))] false.
Definition sample : text :=
  str "# head" ++ lf ++ str "a: 1 # one" ++ lf ++ lf ++ str """\x62"" :" ++ lf ++ str "- x" ++ lf ++ str "  y" ++ lf ++ str "-" ++ lf ++
  str "    - 'z'" ++ lf ++ str "    -  " ++ flow_sample ++ lf ++ str "---" ++ lf ++ str "? - k" ++ lf ++ str ": ~" ++ lf ++ str "..." ++ lf ++
  str "- |+ # k" ++ lf ++ lf ++ str "  x" ++ lf ++ lf ++ str "# c" ++ lf ++ str "- true" ++ lf.
Definition sample_first : tree :=
  TrBlockMap no_props [(plain_key Plain (str "a"), VNode (TrScalar no_props Plain (str "1")));
    (plain_key DoubleQuote (str "b"), VNode (TrIndentless no_props [Some (TrScalar no_props Plain (str "x y"));
       Some (TrBlockSeq no_props [Some (TrScalar no_props SingleQuote (str "z")); Some flow_sample_tree])]))].
Definition sample_second : tree :=
  TrBlockMap no_props [(key_of (Some (TrBlockSeq no_props [Some (TrScalar no_props Plain (str "k"))])), SpecLayout.value_of (Some (TrScalar no_props Plain (str "~"))))].
Definition sample_third : tree :=
  TrBlockSeq no_props [Some (TrScalar no_props Literal (lf ++ str "x" ++ lf ++ lf)); Some (TrScalar no_props Plain (str "true"))].
Definition sample_docs : list doc :=
  [Doc [] false (Some sample_first) 0; Doc [] true (Some sample_second) 1; Doc [] false (Some sample_third) 0].
Definition sample_values : list yaml :=
  [YMap [(YScalar (SString (str "a")), YScalar (SInt 1));
         (YScalar (SString (str "b")), YSeq [YScalar (SString (str "x y")); YSeq [YScalar (SString (str "z"));
           YSeq [YScalar (SString (str "x")); YMap [(YScalar (SString (str "k")), YSeq [YScalar (SString (str "a"))])]; YMap [(YScalar (SString (str "z")), YScalar (SInt 1))]]]])];
   YMap [(YSeq [YScalar (SString (str "k"))], YScalar SNull)];
   YSeq [YScalar (SString (lf ++ str "x" ++ lf ++ lf)); YScalar (SBool true)]].
Lemma one_word p b : ~ In b [32; 9; 10; 13; 0]%N -> b <> 58%N -> ~ In b (str "-?:,[]{}#&*!|>'""%@`") -> written_scalar p Plain [b] [b].
Proof.
  intros H1 H2 H3. apply (ws_plain p [b] []); [left; exact H3| | |constructor].
  - split; [discriminate|]. split; [repeat constructor; [exact H1|discriminate]|]. split; [|exact H2]. cbn [nth]. intros ->. apply H3. vm_compute. tauto.
  - split; discriminate.
Qed.
Ltac not_in := let H := fresh in intros H; vm_compute in H; intuition congruence.
Lemma next_plain n : next_line n (lf ++ repeat 32%N n).
Proof. apply (nl_intro n [] false []); [exact (lr_spaces 0)|constructor]. Qed.
Lemma ow_plain n : onwards None n (lf ++ repeat 32%N n).
Proof. apply ow_line, next_plain. Qed.
Lemma one_flow full p c b : ~ In b [32; 9; 10; 13; 0]%N -> ~ In b (str "-?:,[]{}#&*!|>'""%@`") -> flow_node full p c [b] (flow_word_tree [b]).
Proof.
  intros H1 H3. apply fn_scalar. apply (fs_plain full p [b] []); [left; exact H3| | |constructor|].
  - split; [discriminate|]. split; [repeat constructor; [exact H1|intros _ X; apply H3; vm_compute in X |- *; tauto]|]. split; cbn [nth last]; intros ->; apply H3; vm_compute; tauto.
  - split; discriminate.
  - intros _. split; cbn; [|intros X; injection X as ->]; try (intros ->); apply H3; vm_compute; tauto.
Qed.
Lemma no_space p : flow_gap p [].
Proof. left. now exists 0. Qed.
Lemma one_space p : flow_gap p (str " ").
Proof. left. now exists 1. Qed.
Lemma flow_sample_node p : p <= 6 -> flow_node false p true flow_sample flow_sample_tree.
Proof.
  intros P6.
  apply (fn_items false p true [] (str "x, # c" ++ lf ++ str "      {k: [a], }, z: 1")); [apply no_space|].
  apply (fi_more false p (str "x") _ [] (str " # c" ++ lf ++ str "      ") (str "{k: [a], }, z: 1")); [apply ft_node, one_flow; not_in|apply no_space| |].
  { right. exists 6. split; [exact P6|]. apply (nl_intro 6 (str " # c") false []); [apply (lr_comment 0 (str " c")); repeat constructor; not_in|constructor]. }
  apply (fi_more false p (str "{k: [a], }") _ [] (str " ") (str "z: 1")); [|apply no_space|apply one_space|].
  - apply ft_node. apply (fn_entries false p true [] (str "k: [a], ")); [apply no_space|].
    apply (fl_comma false p (str "k: [a]") _ [] (str " ")); [|apply no_space|apply one_space].
    apply (fe_pair false p true (str "k") _ [] (str " [a]")); [apply one_flow; not_in|apply no_space|exact I|discriminate|].
    apply (fv_node false p true false (str " ") (str "[a]")); [apply one_space| |right; left; discriminate].
    apply (fn_items false p true [] (str "a")); [apply no_space|]. apply (fi_last false p (str "a") _ []); [apply ft_node, one_flow; not_in|apply no_space].
  - apply (fi_last false p (str "z: 1") _ []); [|apply no_space].
    apply (ft_pair false p (str "z") _ 0 (str " 1")); [apply one_flow; not_in|not_in|exact I|].
    apply (fv_node false p false false (str " ") (str "1")); [apply one_space|apply one_flow; not_in|right; left; discriminate].
Qed.
Lemma sample_stream : stream sample 0 sample_docs.
Proof.
  assert (WA : forall p, written_scalar p Plain (str "a") (str "a")) by (intros p; apply one_word; not_in).
  assert (WK : forall p, written_scalar p Plain (str "k") (str "k")) by (intros p; apply one_word; not_in).
  assert (W1 : forall p, written_scalar p Plain (str "1") (str "1")) by (intros p; apply one_word; not_in).
  assert (WN : forall p, written_scalar p Plain (str "~") (str "~")) by (intros p; apply one_word; not_in).
  assert (WB : forall p, written_scalar p DoubleQuote (str """\x62""") (str "b")).
  { intros p. apply (ws_quoted p false). apply (qt_words false p (str "\x62") (str "b") [] []); [|constructor].
    apply (ch_more false (str "\x62") (str "b") [] []); [|constructor].
    apply (pc_code false 120%N 2 (str "62") 98%N (str "b")); try reflexivity.
    - now left.
    - repeat constructor; vm_compute; intuition congruence.
    - discriminate.
    - unfold SpecJson.surrogate. lia.
    - now constructor. }
  assert (WZ : forall p, written_scalar p SingleQuote (str "'z'") (str "z")).
  { intros p. apply (ws_quoted p true). apply (qt_words true p (str "z") (str "z") [] []); [|constructor].
    apply (ch_more true (str "z") (str "z") [] []); constructor; [not_in|discriminate..]. }
  assert (WX : written_scalar 1 Plain (str "x" ++ lf ++ str "  y") (str "x y")).
  { apply (ws_plain 1 (str "x") [(NewLines [] false [] 2 [], str "y")]); [left; not_in| |split; discriminate|].
    - split; [discriminate|]. split; [repeat constructor; [not_in|discriminate]|]. split; discriminate.
    - constructor; [|constructor]. cbn [fst snd]. split; [repeat constructor|]. split; [discriminate|]. split; [vm_compute; auto; discriminate|]. split.
      + split; [discriminate|]. split; [repeat constructor; [not_in|discriminate]|]. split; discriminate.
      + intros _. split; discriminate. }
  assert (WT : forall p, written_scalar p Plain (str "true") (str "true")).
  { intros p. apply (ws_plain p (str "true") []); [left; not_in| |split; discriminate|constructor].
    split; [discriminate|]. split; [repeat constructor; try discriminate; not_in|]. split; discriminate. }
  assert (N1 : node false 0 0 (str "a: 1" ++ (str " # one" ++ lf ++ lf) ++ str """\x62"" :" ++ (lf ++ str "- x" ++ lf ++ str "  y" ++ lf ++ str "-" ++ lf ++ str "    - 'z'" ++ lf ++ str "    -  " ++ flow_sample)) sample_first None).
  { apply nd_map; [lia|]. apply (es_more 0 (str "a: 1") _ None).
    - apply (en_beside 0 (str "a") (TrScalar no_props Plain (str "a")) 0 0 (str "1")); [|apply nd_scalar; [vm_compute; lia|apply W1]].
      split; [apply kt_scalar, WA|]. split; [not_in|vm_compute; lia].
    - apply ow_line, (nl_intro 0 (str " # one") false [([], false)]); [apply (lr_comment 0 (str " one")); repeat constructor; not_in|].
      constructor; [exact (el_spaces 0)|constructor].
    - apply es_one. apply (en_dashes 0 (str """\x62""") (TrScalar no_props DoubleQuote (str "b")) 1 lf (str "- x" ++ lf ++ str "  y" ++ lf ++ str "-" ++ lf ++ str "    - 'z'" ++ lf ++ str "    -  " ++ flow_sample)).
      + split; [apply kt_scalar, WB|]. split; [not_in|vm_compute; lia].
      + exact (next_plain 0).
      + apply (it_more 0 (str " x" ++ lf ++ str "  y") _ None lf (str "-" ++ lf ++ str "    - 'z'" ++ lf ++ str "    -  " ++ flow_sample)); [|exact (ow_plain 0)|].
        * apply (pt_beside true 0 1 0 (str "x" ++ lf ++ str "  y")). apply nd_scalar; [lia|exact WX].
        * apply (it_one 0 (lf ++ str "    - 'z'" ++ lf ++ str "    -  " ++ flow_sample)).
          apply (pt_below false 0 1 (lf ++ str "    ") 4 (str "- 'z'" ++ lf ++ str "    -  " ++ flow_sample)); [exact (next_plain 4)|].
          apply nd_seq; [lia|]. apply (it_more 4 (str " 'z'") _ None (lf ++ str "    ") (str "-  " ++ flow_sample)); [|exact (ow_plain 4)|].
          -- apply (pt_beside true 4 5 0). apply nd_scalar; [lia|apply WZ].
          -- apply (it_one 4 (str "  " ++ flow_sample)). apply (pt_beside true 4 5 1). apply nd_flow; [lia|exact (flow_sample_node 5 ltac:(lia))|reflexivity|reflexivity|vm_compute; reflexivity]. }
  assert (N2 : node false 0 0 (str "? - k" ++ lf ++ str ": ~") sample_second None).
  { apply nd_map; [lia|]. apply es_one. apply (en_pair 0 (str " - k") _ None lf (str " ~")).
    - apply (pt_beside false 0 1 0). apply nd_seq; [lia|]. apply it_one. apply (pt_beside true 2 3 0). apply nd_scalar; [lia|apply WK].
    - exact (ow_plain 0).
    - apply (pt_beside true 0 1 0). apply nd_scalar; [lia|apply WN]. }
  assert (WL : written_block 1 Literal (str "|+ # k" ++ lf ++ lf ++ str "  x" ++ lf ++ lf) (lf ++ str "x" ++ lf ++ lf) 2).
  { apply (wb_lines 1 true (str "+") Kept None (str " # k") false (Line [(0, false)] (str "x") false) [] [(0, false)] 2).
    - apply in_chomp. constructor.
    - apply (hr_comment (str " ") (str " k")); [discriminate|repeat constructor|repeat constructor; not_in].
    - split; [vm_compute; discriminate|discriminate].
    - constructor; [|constructor]. split; [repeat constructor|]. split; [discriminate|]. split; [not_in|]. split; [not_in|discriminate].
    - repeat constructor.
    - lia. }
  assert (N3 : node false 0 0 (str "- |+ # k" ++ lf ++ lf ++ str "  x" ++ lf ++ lf ++ str "# c" ++ lf ++ str "- true") sample_third None).
  { apply nd_seq; [lia|]. apply (it_more 0 (str " |+ # k" ++ lf ++ lf ++ str "  x" ++ lf ++ lf) _ (Some 2) (str "# c" ++ lf) (str "- true")).
    - apply (pt_beside true 0 1 0). apply nd_block; [lia|exact WL].
    - apply (ow_comment 2 0 0 (str " c") false []); [lia|repeat constructor; not_in|constructor].
    - apply it_one. apply (pt_beside true 0 1 0). apply nd_scalar; [lia|apply WT]. }
  assert (EE : to_end lf) by (apply (te_lines [] false [] []); [exact (lr_spaces 0)|constructor|exact (el_spaces 0)]).
  set (third := str "- |+ # k" ++ lf ++ lf ++ str "  x" ++ lf ++ lf ++ str "# c" ++ lf ++ str "- true") in *.
  refine (sm_bare false [(str "# head", false)] 0 _ _ None (lf ++ str "---" ++ lf ++ (str "? - k" ++ lf ++ str ": ~") ++ lf ++ str "..." ++ lf ++ third ++ lf) 0 _ _ N1 _).
  - constructor; [|constructor]. apply (el_comment 0 (str " head")). repeat constructor; not_in.
  - apply (tl_marked false None lf); [exact (ow_plain 0)|]. apply (mk_below false lf 0 (str "? - k" ++ lf ++ str ": ~") _ None); [exact (next_plain 0)|exact N2|].
    apply (tl_dots false None lf (lf ++ third ++ lf) 0); [exact (ow_plain 0)|]. apply (tl_bare false lf 0 third _ None); [exact (next_plain 0)|exact N3|].
    apply tl_end, fi_line, EE.
Qed.
Definition number_sign (b : N) : Prop := dec_digit b \/ In b (str "+-.").
Lemma signed_sign t z : signed dec_digit 10 t z -> number_sign (nth 0 t 0%N).
Proof.
  intros [ds H|ds H|ds H]; try (right; vm_compute; tauto). destruct H as [H1 H2]. destruct H2; [now elim H1|]. now left.
Qed.
Lemma int_sign t z : core_int t z \/ extra_int t z -> number_sign (nth 0 t 0%N).
Proof.
  intros [[t' z' H|ds H|ds H]|[ds z' H1 H2|ds z' H1 H2|ds z' H1 H2]]; try (now apply signed_sign in H); try (right; vm_compute; tauto); left; vm_compute; split; discriminate.
Qed.
Lemma float_sign t f : denotes_float t f -> number_sign (nth 0 t 0%N).
Proof.
  destruct f as [neg| |neg m e]; cbn [denotes_float]; intros H.
  - destruct neg; cbn [inf_spelling In] in H; intuition (subst; right; vm_compute; tauto).
  - unfold nan_spelling in H. cbn [In] in H. intuition (subst; right; vm_compute; tauto).
  - destruct H as [sg neg mt ip fp et e [| |] M _]; try (right; vm_compute; tauto). cbn [app].
    destruct M as [ip H1 H2|ip fp H1 H2 H3].
    + destruct H2; [now elim H1|]. now left.
    + destruct H1; [right; vm_compute; tauto|now left].
Qed.
Lemma word_string full t : ~ number_sign (nth 0 t 0%N) -> ~ In (nth 0 t 0%N) (str "~nNtTfF") -> plain_means full t (SString t).
Proof.
  intros H1 H2. apply pm_string.
  - unfold null_spelling. cbn [In]. intros [<-|[<-|[<-|[<-|[]]]]]; apply H2; vm_compute; tauto.
  - intros [|]; unfold bool_spelling; cbn [In]; intros [<-|[<-|[<-|[]]]]; apply H2; vm_compute; tauto.
  - intros z H. apply H1. apply (int_sign t z). now left.
  - intros f H. apply H1. exact (float_sign t f H).
  - intros _ z H. apply H1. apply (int_sign t z). now right.
Qed.
Lemma above_sign b : (57 <? b)%N = true -> ~ number_sign b.
Proof. intros Hb [[_ H]|H]; [lia|]. vm_compute in H. intuition (subst; discriminate). Qed.
(** Without properties. *)
Lemma plain_tag tg : tagged_as tg no_props None.
Proof. now constructor. Qed.
Lemma means_scalar rd tg E st v y : scalar_means rd None st v y -> tree_means rd tg E (TrScalar no_props st v) y [].
Proof. exact (tm_scalar rd tg E no_props None st v y (plain_tag tg)). Qed.
Lemma means_plain rd tg E v s : plain_means rd v s -> tree_means rd tg E (TrScalar no_props Plain v) (YScalar s) [].
Proof. intros H. now apply means_scalar, sc_plain. Qed.
Lemma means_quoted rd tg E st v : st <> Plain -> tree_means rd tg E (TrScalar no_props st v) (YScalar (SString v)) [].
Proof. intros H. now apply means_scalar, sc_quoted. Qed.
Lemma means_flow_seq rd tg E l b ys D : list_means (item_means rd tg) E l ys D -> tree_means rd tg E (TrFlowSeq no_props l b) (YSeq ys) D.
Proof. intros H. apply (tm_flow_seq rd tg E no_props None l b ys _ D (plain_tag tg)); [|constructor]. cbn [anchored pr_anchor no_props]. now rewrite app_nil_r. Qed.
Lemma means_flow_map rd tg E l b ys D : list_means (pair_means rd tg) E l ys D -> tree_means rd tg E (TrFlowMap no_props l b) (YMap ys) D.
Proof. intros H. apply (tm_flow_map rd tg E no_props None l b ys _ D (plain_tag tg)); [|constructor]. cbn [anchored pr_anchor no_props]. now rewrite app_nil_r. Qed.
Lemma means_seq rd tg E l ys D : list_means (opt_means rd tg) E l ys D -> tree_means rd tg E (TrBlockSeq no_props l) (YSeq ys) D.
Proof. intros H. apply (tm_seq rd tg E no_props None l ys _ D (plain_tag tg)); [|constructor]. cbn [anchored pr_anchor no_props]. now rewrite app_nil_r. Qed.
Lemma means_dashes rd tg E l ys D : list_means (opt_means rd tg) E l ys D -> tree_means rd tg E (TrIndentless no_props l) (YSeq ys) D.
Proof. intros H. apply (tm_dashes rd tg E no_props None l ys _ D (plain_tag tg)); [|constructor]. cbn [anchored pr_anchor no_props]. now rewrite app_nil_r. Qed.
Lemma means_map rd tg E l ys D : list_means (pair_means rd tg) E l ys D -> tree_means rd tg E (TrBlockMap no_props l) (YMap ys) D.
Proof. intros H. apply (tm_map rd tg E no_props None l ys _ D (plain_tag tg)); [|constructor]. cbn [anchored pr_anchor no_props]. now rewrite app_nil_r. Qed.
Lemma list_plain {A B} (M : anchors -> A -> B -> anchors -> Prop) E l ys : Forall2 (fun x y => M E x y []) l ys -> list_means M E l ys [].
Proof. induction 1 as [|x y l ys H F IH]; [constructor|]. apply (lm_cons M E x y [] l ys []); [exact H|]. now rewrite app_nil_r. Qed.
Lemma pair_plain rd tg E k v y y' : key_means rd tg E k y [] -> value_means rd tg E v y' [] -> pair_means rd tg E (k, v) (y, y') [].
Proof. intros H1 H2. apply (pr_pair rd tg E k v y [] y' []); [exact H1|]. now rewrite app_nil_r. Qed.
Lemma item_plain rd tg E t v y y' : tree_means rd tg E t y [] -> (rd <> Standard -> untagged y) -> value_means rd tg E v y' [] -> item_means rd tg E (IPair t v) (YMap [(y, y')]) [].
Proof. intros H1 U H2. apply (im_pair rd tg E t v y [] y' []); [exact H1|exact U|]. now rewrite app_nil_r. Qed.
Lemma key_plain rd tg E t y : tree_means rd tg E t y [] -> untagged y -> key_means rd tg E (KNode t) y [].
Proof. intros H U. now apply km_node. Qed.
Lemma word_means rd tg E t : (57 <? nth 0 t 0)%N = true -> ~ In (nth 0 t 0%N) (str "~nNtTfF") -> tree_means rd tg E (TrScalar no_props Plain t) (YScalar (SString t)) [].
Proof. intros A B. apply means_plain, word_string; [now apply above_sign|exact B]. Qed.
Lemma one_means rd tg E : tree_means rd tg E (TrScalar no_props Plain (str "1")) (YScalar (SInt 1)) [].
Proof.
  apply means_plain, pm_int; [|vm_compute; split; [discriminate|reflexivity]].
  apply core_dec. apply (signed_none dec_digit 10%N (str "1")). split; [discriminate|]. repeat constructor; vm_compute; discriminate.
Qed.
Lemma flow_sample_means tg E : tree_means Narrow tg E flow_sample_tree
  (YSeq [YScalar (SString (str "x")); YMap [(YScalar (SString (str "k")), YSeq [YScalar (SString (str "a"))])]; YMap [(YScalar (SString (str "z")), YScalar (SInt 1))]]) [].
Proof.
  apply means_flow_seq, list_plain. constructor; [|constructor; [|constructor; [|constructor]]].
  - apply im_node, word_means; [reflexivity|not_in].
  - apply im_node, means_flow_map, list_plain. constructor; [|constructor]. apply pair_plain; [apply key_plain; [apply word_means; [reflexivity|not_in]|exact I]|].
    apply vm_node, means_flow_seq, list_plain. constructor; [|constructor]. apply im_node, word_means; [reflexivity|not_in].
  - apply item_plain; [apply word_means; [reflexivity|not_in]|intros _; exact I|apply vm_node, one_means].
Qed.
Lemma sample_means : Forall2 (doc_means Narrow) sample_docs sample_values.
Proof.
  constructor; [|constructor; [|constructor; [|constructor]]]; exists []; cbn [d_root]; apply om_node.
  - apply means_map, list_plain. constructor; [|constructor; [|constructor]].
    + apply pair_plain; [apply key_plain; [apply word_means; [reflexivity|not_in]|exact I]|apply vm_node, one_means].
    + apply pair_plain; [apply key_plain; [apply means_quoted; discriminate|exact I]|]. apply vm_node, means_dashes, list_plain. constructor; [|constructor; [|constructor]].
      * apply om_node, word_means; [reflexivity|not_in].
      * apply om_node, means_seq, list_plain. constructor; [|constructor; [|constructor]]; apply om_node; [apply means_quoted; discriminate|apply flow_sample_means].
  - apply means_map, list_plain. constructor; [|constructor]. apply pair_plain; [apply key_plain; [|exact I]|apply vm_node].
    + apply means_seq, list_plain. constructor; [|constructor]. apply om_node, word_means; [reflexivity|not_in].
    + apply means_plain, pm_null. now left.
  - apply means_seq, list_plain. constructor; [apply om_node, means_quoted; discriminate|constructor; [|constructor]]. apply om_node, means_plain, pm_bool. now left.
Qed.
(** What fails. *)
Lemma missing_stream : stream (str "a:") 0 [Doc [] false (Some (TrBlockMap no_props [(plain_key Plain (str "a"), VEmpty)])) 0].
Proof.
  apply (sm_bare false [] 0 (str "a:") _ None [] 0 []); [constructor| |apply tl_end, fi_line, te_rest; exact (lr_spaces 0)].
  apply nd_map; [lia|]. apply es_one. apply (en_empty 0 (str "a") (TrScalar no_props Plain (str "a")) 0). split; [apply kt_scalar, one_word; not_in|]. split; [not_in|vm_compute; lia].
Qed.
Lemma missing_means : Forall2 (doc_means Standard) [Doc [] false (Some (TrBlockMap no_props [(plain_key Plain (str "a"), VEmpty)])) 0] [YMap [(YScalar (SString (str "a")), YScalar SNull)]].
Proof.
  constructor; [|constructor]. exists []. apply om_node, means_map, list_plain. constructor; [|constructor]. apply pair_plain; [apply key_plain; [apply word_means; [reflexivity|not_in]|exact I]|apply vm_empty; constructor].
Qed.
Lemma missing_loads fuel : load_text fuel (str "a:") <> Ok [YMap [(YScalar (SString (str "a")), YScalar SNull)]].
Proof. do 60 (destruct fuel as [|fuel]; [vm_compute; discriminate|]). vm_compute. discriminate. Qed.
Lemma tab_fails fuel y : load_text fuel (str "a:" ++ [9%N] ++ str "b") <> Ok y.
Proof. do 30 (destruct fuel as [|fuel]; [vm_compute; discriminate|]). vm_compute. discriminate. Qed.
