(** Deserialising block documents by their layout. *)
From Verif Require Import Base Tokens Scalar Yaml Chars Source Cursor Scanner SpecScalar ScalarProofs ScalarTags.
From Verif Require Import SpecTree SpecStream SpecEvents Parser ParserRun ParserIter Loader LoadText SpecValue Pipeline ParserStream NodeScan.
From Verif Require Import Serde SpecSerde SerdeProofs FromText TextDocs SpecQuoted SpecPlain SpecStrings SpecLayout SpecLayoutSerde TreeLike LayoutDocs MeaningProofs LayoutLoad.
From Coq Require Import String Lia.
Local Open Scope list_scope.

Definition is_seen (t : tree) : Prop := forall n, tree_is t n -> seen_node (tree_node t) = n /\ alias_free (tree_node t).
Lemma value_seen v n : value_all is_seen v -> value_is_node v n -> seen_node (value_part tree_node v) = n /\ alias_free (value_part tree_node v).
Proof. intros H M. destruct M as [t n M| |]; [exact (H n M)|split; [reflexivity|exact I]..]. Qed.
Lemma key_seen k n : key_all is_seen k -> key_is_node k n -> seen_node (key_part tree_node k) = n /\ alias_free (key_part tree_node k).
Proof. intros H M. destruct M as [t n M|t n M| |]; [exact (H n M)|exact (H n M)|split; [reflexivity|exact I]..]. Qed.
Definition seen_pair (x : vnode * vnode) : dnode * dnode := (seen_node (fst x), seen_node (snd x)).
Definition pair_free (x : vnode * vnode) : Prop := alias_free (fst x) /\ alias_free (snd x).
Lemma pairs_seen l ns : Forall (pair_all is_seen) l -> Forall2 pair_is l ns -> map seen_pair (map (pair_part tree_node) l) = ns /\ all_of pair_free (map (pair_part tree_node) l).
Proof.
  intros H M. induction M as [|x [n1 n2] l ns M1 M IH]; [split; [reflexivity|exact I]|]. destruct (IH (Forall_inv_tail H)) as [IH1 IH2]. pose proof (Forall_inv H) as [H1 H2].
  inversion M1 as [k v y y' K V]; subst. cbn [fst snd] in *. destruct (key_seen k n1 H1 K) as [E1 E2], (value_seen v n2 H2 V) as [E3 E4].
  cbn [map all_of]. unfold seen_pair at 1, pair_free at 1. cbn [pair_part fst snd]. rewrite E1, E3. auto.
Qed.
Lemma opts_seen l ns : Forall (opt_all is_seen) l -> Forall2 part_is l ns -> map seen_node (map (opt_part tree_node) l) = ns /\ all_of alias_free (map (opt_part tree_node) l).
Proof.
  intros H M. induction M as [|o n l ns M1 M IH]; [split; [reflexivity|exact I]|]. destruct (IH (Forall_inv_tail H)) as [IH1 IH2]. pose proof (Forall_inv H) as H1.
  cbn [map all_of]. assert (E : seen_node (opt_part tree_node o) = n /\ alias_free (opt_part tree_node o)) by (destruct M1 as [t n M1|]; [exact (H1 n M1)|split; [reflexivity|exact I]]).
  destruct E as [-> E]. rewrite IH1. auto.
Qed.
Lemma items_seen l ns : Forall (item_all is_seen) l -> Forall2 item_is l ns -> map seen_node (map (item_part tree_node) l) = ns /\ all_of alias_free (map (item_part tree_node) l).
Proof.
  intros H M. induction M as [|i n l ns M1 M IH]; [split; [reflexivity|exact I]|]. destruct (IH (Forall_inv_tail H)) as [IH1 IH2]. pose proof (Forall_inv H) as H1.
  cbn [map all_of]. assert (E : seen_node (item_part tree_node i) = n /\ alias_free (item_part tree_node i)).
  { destruct M1 as [t n M1|t v n n' M1 M2]; [exact (H1 n M1)|]. destruct H1 as [H1 H2]. destruct (H1 n M1) as [E1 E2], (value_seen v n' H2 M2) as [E3 E4].
    cbn [item_part seen_node alias_free map all_of fst snd]. rewrite E1, E3. auto. }
  destruct E as [-> E]. rewrite IH1. auto.
Qed.
Lemma tree_seen : forall t n, tree_is t n -> seen_node (tree_node t) = n /\ alias_free (tree_node t).
Proof.
  intros t. change (is_seen t).
  induction t as [pr st v|a|pr|pr l b H|pr l b H|pr l H|pr l H|pr l H] using tree_parts; intros n M; inversion M as [st' v'|l' b' ns P|l' b' ns P|l' ns P|l' ns P|l' ns P]; subst;
    cbn [tree_node seen_node alias_free]; try (split; [reflexivity|exact I]).
  - destruct (items_seen l ns H P) as [-> E]. auto.
  - destruct (pairs_seen l ns H P) as [E1 E2]. split; [f_equal; exact E1|exact E2].
  - destruct (opts_seen l ns H P) as [-> E]. auto.
  - destruct (pairs_seen l ns H P) as [E1 E2]. split; [f_equal; exact E1|exact E2].
  - destruct (opts_seen l ns H P) as [-> E]. auto.
Qed.
Lemma part_seen o n : part_is o n -> seen_node (opt_node o) = n /\ alias_free (opt_node o).
Proof. intros [t m H|]; [exact (tree_seen t m H)|split; [reflexivity|exact I]]. Qed.

(** What is a node has neither properties nor aliases. *)
Definition node_bare (t : tree) : Prop := forall n, tree_is t n -> bare_tree t.
Lemma node_value_bare v n : value_all node_bare v -> value_is_node v n -> value_all bare_tree v.
Proof. intros H V. destruct V as [t n M| |]; [exact (H _ M)|exact I..]. Qed.
Lemma node_key_bare k n : key_all node_bare k -> key_is_node k n -> key_all bare_tree k.
Proof. intros H V. destruct V as [t n M|t n M| |]; [exact (H _ M)|exact (H _ M)|exact I..]. Qed.
Lemma node_pairs_bare l ns : Forall (pair_all node_bare) l -> Forall2 pair_is l ns -> all_of pair_bare l.
Proof.
  intros H M. induction M as [|x n l ns M1 M IH]; [exact I|]. cbn [all_of]. split; [|exact (IH (Forall_inv_tail H))]. pose proof (Forall_inv H) as [H1 H2].
  destruct M1 as [k v n n' M1 M2]. split; [exact (node_key_bare _ _ H1 M1)|exact (node_value_bare _ _ H2 M2)].
Qed.
Lemma node_opts_bare l ns : Forall (opt_all node_bare) l -> Forall2 part_is l ns -> all_of opt_bare l.
Proof.
  intros H M. induction M as [|x n l ns M1 M IH]; [exact I|]. cbn [all_of]. split; [|exact (IH (Forall_inv_tail H))]. pose proof (Forall_inv H) as H1.
  destruct M1 as [t n M1|]; [exact (H1 _ M1)|exact I].
Qed.
Lemma node_items_bare l ns : Forall (item_all node_bare) l -> Forall2 item_is l ns -> all_of (item_all bare_tree) l.
Proof.
  intros H M. induction M as [|x n l ns M1 M IH]; [exact I|]. cbn [all_of]. split; [|exact (IH (Forall_inv_tail H))]. pose proof (Forall_inv H) as H1.
  destruct M1 as [t n M1|t v n n' M1 M2]; [exact (H1 _ M1)|]. destruct H1 as [H1 H2]. split; [exact (H1 _ M1)|exact (node_value_bare _ _ H2 M2)].
Qed.
Lemma nodes_are_bare t : node_bare t.
Proof.
  induction t as [pr st v|a|pr|pr l b H|pr l b H|pr l H|pr l H|pr l H] using tree_parts; intros n M; inversion M; subst; cbn [bare_tree]; try reflexivity; (split; [reflexivity|]).
  - eapply node_items_bare; eassumption.
  - eapply node_pairs_bare; eassumption.
  - eapply node_opts_bare; eassumption.
  - eapply node_pairs_bare; eassumption.
  - eapply node_opts_bare; eassumption.
Qed.

(** At most three events for a token, and two more. *)
Definition few (t : tree) : Prop := forall b, block_tree b t -> forall tags before evs, tree_events tags before t = Some evs -> List.length evs <= 3 * List.length (tree_toks t) + 2.
Lemma flow_block t b : flow_tree t -> block_tree b t.
Proof. destruct t; cbn [flow_tree]; auto; contradiction. Qed.
Lemma obind_some {A B} (o : option A) (f : A -> option B) b : obind o f = Some b -> exists a, o = Some a /\ f a = Some b.
Proof. destruct o as [a|]; [eauto|discriminate]. Qed.
Lemma list_few {A} (P : A -> Prop) (f : list text -> A -> option (list event)) (toks toks' : A -> list token_type) k (l : list A) :
  (forall x, P x -> forall before e, f before x = Some e -> List.length e <= 3 * List.length (toks' x) + k) -> Forall P l ->
  forall before evs, list_events f toks before l = Some evs -> List.length evs <= 3 * List.length (flat_map toks' l) + k * List.length l.
Proof.
  intros X H. induction H as [|x l H1 H IH]; intros before evs E; cbn [list_events] in E; [injection E as <-; cbn; lia|].
  apply obind_some in E. destruct E as (e & E1 & E). apply obind_some in E. destruct E as (e' & E2 & E). injection E as <-.
  specialize (X x H1 _ _ E1). specialize (IH _ _ E2). cbn [flat_map List.length]. rewrite !app_length. lia.
Qed.
Lemma commas_length {A} (toks : A -> list token_type) l : List.length (flat_map toks l) + List.length l <= List.length (commas toks l) + 1.
Proof.
  induction l as [|x l IH]; [cbn; lia|]. destruct l as [|y l]; [cbn [flat_map commas List.length]; rewrite app_nil_r; lia|].
  change (commas toks (x :: y :: l)) with (toks x ++ TFlowEntry :: commas toks (y :: l)).
  change (flat_map toks (x :: y :: l)) with (toks x ++ flat_map toks (y :: l)). cbn [List.length] in *. rewrite !app_length. cbn [List.length]. lia.
Qed.
Lemma value_few b v : value_all few v -> value_all (block_tree b) v -> forall tags before e, value_events (tree_events tags) before v = Some e ->
  List.length e <= 3 * List.length (value_toks tree_toks v) + 1.
Proof.
  intros H B tags before e E. destruct v as [| |t]; cbn [value_events value_toks value_all List.length] in *; try (injection E as <-; cbn; lia).
  specialize (H b B _ _ _ E). lia.
Qed.
Lemma key_few b k : key_all few k -> key_all (block_tree b) k -> forall tags before e, key_events (tree_events tags) before k = Some e ->
  List.length e + (match k with KNode _ | KEmpty => 1 | _ => 0 end) <= 3 * List.length (key_toks tree_toks k) + match k with KBare _ => 2 | KNone => 1 | _ => 0 end.
Proof.
  intros H B tags before e E. destruct k as [| |t|t]; cbn [key_events key_toks key_all List.length] in *; try (injection E as <-; cbn; lia).
  - specialize (H b B _ _ _ E). lia.
  - specialize (H b B _ _ _ E). lia.
Qed.
Lemma tree_events_few t : few t.
Proof.
  induction t as [pr st v|a|pr|pr l b H|pr l b H|pr l H|pr l H|pr l H] using tree_parts; intros i B tags before evs E; cbn [tree_events tree_toks block_tree] in *.
  - apply obind_some in E. destruct E as (tg & _ & E). injection E as <-. cbn [List.length]. lia.
  - apply obind_some in E. destruct E as (tg & _ & E). injection E as <-. cbn [List.length]. lia.
  - apply obind_some in E. destruct E as (tg & _ & E). injection E as <-. cbn [List.length]. lia.
  - apply obind_some in E. destruct E as (tg & _ & E). unfold enclose in E. apply obind_some in E. destruct E as (e & E & X). injection X as <-.
    destruct B as [B _]. apply all_of_Forall in B.
    apply (list_few (fun x => item_all few x /\ item_all flow_tree x) _ _ (item_toks tree_toks) 2) in E.
    + pose proof (commas_length (item_toks tree_toks) l). cbn [List.length]. lens. lia.
    + clear. intros [t|t v] [H F] before e E; cbn [item_all item_events item_toks] in *.
      * exact (H false (flow_block _ _ F) _ _ _ E).
      * destruct H as [H1 H2], F as [F1 F2]. apply obind_some in E. destruct E as (e1 & E1 & E). apply obind_some in E. destruct E as (e2 & E2 & E). injection E as <-.
        specialize (H1 false (flow_block _ _ F1) _ _ _ E1). assert (V : value_all (block_tree false) v) by (destruct v; auto; now apply flow_block).
        pose proof (value_few false v H2 V _ _ _ E2). cbn [List.length]. lens. lia.
    + clear - H B. induction H; constructor; inversion B; auto.
  - apply obind_some in E. destruct E as (tg & _ & E). unfold enclose in E. apply obind_some in E. destruct E as (e & E & X). injection X as <-.
    destruct B as [B _]. apply all_of_Forall in B.
    apply (list_few (fun x => pair_all few x /\ (flow_pair x /\ let '(k, v) := x in key_all flow_tree k /\ value_all flow_tree v)) _ _ (pair_toks tree_toks) 3) in E.
    + pose proof (commas_length (pair_toks tree_toks) l). cbn [List.length]. lens. lia.
    + clear. intros [k v] [[H1 H2] (_ & F1 & F2)] before e E; cbn [fst snd pair_events pair_toks] in *.
      apply obind_some in E. destruct E as (e1 & E1 & E). apply obind_some in E. destruct E as (e2 & E2 & E). injection E as <-.
      assert (K : key_all (block_tree false) k) by (destruct k; auto; now apply flow_block).
      assert (V : value_all (block_tree false) v) by (destruct v; auto; now apply flow_block).
      pose proof (key_few false k H1 K _ _ _ E1). pose proof (value_few false v H2 V _ _ _ E2). rewrite !app_length. destruct k; lia.
    + clear - H B. induction H; constructor; inversion B; auto.
  - apply obind_some in E. destruct E as (tg & _ & E). unfold enclose in E. apply obind_some in E. destruct E as (e & E & X). injection X as <-.
    apply all_of_Forall in B.
    apply (list_few (fun x => opt_all few x /\ opt_all (block_tree false) x) _ _ (fun o => TBlockEntry :: opt_list tree_toks o) 0) in E.
    + cbn [List.length]. lens. lia.
    + clear. intros [t|] [H F] before e E; cbn [opt_all opt_events opt_list List.length] in *; [specialize (H false F _ _ _ E); lia|injection E as <-; cbn; lia].
    + clear - H B. induction H; constructor; inversion B; auto.
  - apply obind_some in E. destruct E as (tg & _ & E). unfold enclose in E. apply obind_some in E. destruct E as (e & E & X). injection X as <-.
    destruct B as [B _]. apply all_of_Forall in B.
    apply (list_few (fun x => pair_all few x /\ (block_pair x /\ let '(k, v) := x in key_all (block_tree true) k /\ value_all (block_tree true) v)) _ _ (pair_toks tree_toks) 0) in E.
    + cbn [List.length]. lens. lia.
    + clear. intros [k v] [[H1 H2] (BP & F1 & F2)] before e E; cbn [fst snd pair_events pair_toks] in *.
      apply obind_some in E. destruct E as (e1 & E1 & E). apply obind_some in E. destruct E as (e2 & E2 & E). injection E as <-.
      pose proof (key_few true k H1 F1 _ _ _ E1) as X1. pose proof (value_few true v H2 F2 _ _ _ E2) as X2. rewrite !app_length.
      destruct k as [| |t|t]; cbn [block_pair] in BP; try lia.
      destruct v as [| |t]; [contradiction| |].
      * cbn [value_events key_events] in E1, E2. injection E1 as <-. injection E2 as <-. cbn. lia.
      * cbn [value_events key_events] in E1, E2. injection E1 as <-. specialize (H2 true F2 _ _ _ E2). cbn [key_toks value_toks List.length]. lia.
    + clear - H B. induction H; constructor; inversion B; auto.
  - apply obind_some in E. destruct E as (tg & _ & E). unfold enclose in E. apply obind_some in E. destruct E as (e & E & X). injection X as <-.
    destruct B as (_ & _ & B). apply all_of_Forall in B.
    apply (list_few (fun x => opt_all few x /\ opt_all (block_tree false) x) _ _ (fun o => TBlockEntry :: opt_list tree_toks o) 0) in E.
    + cbn [List.length]. lens. lia.
    + clear. intros [t|] [H F] before e E; cbn [opt_all opt_events opt_list List.length] in *; [specialize (H false F _ _ _ E); lia|injection E as <-; cbn; lia].
    + clear - H B. induction H; constructor; inversion B; auto.
Qed.
Theorem layout_deserialises fuel w lead ds b o e n t x :
  stream w lead [Doc ds b o e] -> List.length ds <= 1 -> part_is o n -> reads false t = true ->
  denotes (fun n => yaml_null n /\ seen_as_null n) seen_as_value t n x -> 12 * List.length w + 12 < fuel ->
  from_text fuel t w = Ok (DOk x).
Proof.
  intros S OD P R D F. destruct (layout_events fuel w lead _ S ltac:(lia)) as (toks & z & l' & E & LL & T & LE & DO & EV).
  assert (DB : Forall doc_bare [Doc ds b o e]) by (constructor; [destruct P as [t0 n0 P|]; [exact (nodes_are_bare t0 _ P)|exact I]|constructor]).
  destruct (part_seen o n P) as [PS PA]. rewrite <- PS in D.
  apply (from_document_events fuel w toks z b (opt_node o) t x E); auto.
  - intros er mk. assert (OD' : Forall one_directive [Doc ds b o e]) by (constructor; [exact OD|constructor]). exact (proj2 (EV _ OD' (bare_means _ DB)) er mk).
  - inversion LL as [|d0 d' l0 l1 (D1 & D2 & D3 & D4) L0]; subst. inversion L0; subst. inversion_clear DB as [|? ? B _]. unfold doc_bare in B. cbn [d_root] in *.
    pose proof (f_equal (@List.length token_type) T) as LT. rewrite map_length in LT.
    unfold stream_toks, doc_toks in LT. cbn [flat_map app] in LT. revert LT. lens. intros LT.
    assert (List.length (node_evs (opt_node o)) <= 3 * List.length (opt_list tree_toks (d_root d')) + 2); [|lia].
    destruct DO as [(_ & _ & BT) _]. destruct D4 as [|t0 t' ((L1 & _) & _)]; [cbn; lia|]. cbn [opt_list]. apply (tree_events_few t' false BT (fun _ _ => None) []).
    rewrite L1. now apply tree_evs.
Qed.

(** ** Examples *)
Definition config : text :=
  str "name: ""a b""  # who" ++ lf ++ str "sizes:" ++ lf ++ str "- 7" ++ lf ++ str "- 9" ++ lf ++ str "# none:" ++ lf ++ str "note:" ++ lf ++ str "env:" ++ lf ++ str "   x : true" ++ lf.
Definition config_tree : tree :=
  TrBlockMap no_props [(plain_key Plain (str "name"), VNode (TrScalar no_props DoubleQuote (str "a b")));
    (plain_key Plain (str "sizes"), VNode (TrIndentless no_props [Some (TrScalar no_props Plain (str "7")); Some (TrScalar no_props Plain (str "9"))]));
    (plain_key Plain (str "note"), VEmpty);
    (plain_key Plain (str "env"), VNode (TrBlockMap no_props [(plain_key Plain (str "x"), VNode (TrScalar no_props Plain (str "true")))]))].
Definition scalar_node (st : scalar_type) (v : text) : dnode := NScalar (ScalarValue v st 0 None).
Definition config_node : dnode :=
  NMap 0 None [(scalar_node Plain (str "name"), scalar_node DoubleQuote (str "a b"));
    (scalar_node Plain (str "sizes"), NSeq 0 None [scalar_node Plain (str "7"); scalar_node Plain (str "9")]);
    (scalar_node Plain (str "note"), missing_dnode);
    (scalar_node Plain (str "env"), NMap 0 None [(scalar_node Plain (str "x"), scalar_node Plain (str "true"))])].
Definition config_type : target :=
  DStruct [(str "env", DMap DString DBool); (str "name", DString); (str "sizes", DVec (DInt 0 255)); (str "note", DOption DString); (str "more", DOption DBool)].
Definition config_value : value :=
  VStruct [(str "env", VMap [(VString (str "x"), VBool true)]); (str "name", VString (str "a b")); (str "sizes", VSeq [VInt 7; VInt 9]); (str "note", VNone); (str "more", VNone)].
Lemma plain_word_written p v : plain_start v -> block_word v -> no_marker v -> written_scalar p Plain v v.
Proof. intros A B C. pose proof (ws_plain p v [] A B C (Forall_nil _)) as H. unfold more_text, more_value in H. cbn [flat_map] in H. now rewrite !app_nil_r in H. Qed.
Ltac word := apply plain_word_written; [left; not_in|split; [discriminate|split; [repeat constructor; try discriminate; not_in|split; discriminate]]|split; discriminate].
Ltac one_line_key := split; [apply kt_scalar; word|split; [not_in|vm_compute; lia]].
Lemma config_stream : stream config 0 [Doc [] false (Some config_tree) 0].
Proof.
  assert (QW : written_scalar 1 DoubleQuote (str """a b""") (str "a b")).
  { apply (ws_quoted 1 false). apply (qt_words false 1 (str "a") (str "a") (str " b") (str " b")).
    - apply (ch_more false (str "a") (str "a") [] []); constructor; [not_in|discriminate|discriminate].
    - apply (mw_more false 1 (QBlanks [32%N]) (str "b") (str "b") [] []); [split; [discriminate|repeat constructor]| |intros H; now elim H|intros []|constructor].
      apply (ch_more false (str "b") (str "b") [] []); constructor; [not_in|discriminate|discriminate]. }
  refine (sm_bare false [] 0 (str "name: ""a b""" ++ (str "  # who" ++ lf) ++ str "sizes:" ++ lf ++ str "- 7" ++ lf ++ str "- 9" ++ (lf ++ str "# none:" ++ lf) ++ str "note:" ++ lf ++ str "env:" ++ lf ++ str "   x : true") _ None lf 0 [] _ _ _).
  - constructor.
  - apply nd_map; [lia|]. apply (es_more 0 (str "name: ""a b""") _ None).
    + apply (en_beside 0 (str "name") (TrScalar no_props Plain (str "name")) 0 0 (str """a b""")); [one_line_key|]. apply nd_scalar; [vm_compute; lia|exact QW].
    + apply ow_line, (nl_intro 0 (str "  # who") false []); [apply (lr_comment 1 (str " who")); repeat constructor; not_in|constructor].
    + apply (es_more 0 (str "sizes:" ++ lf ++ str "- 7" ++ lf ++ str "- 9") _ None).
      * apply (en_dashes 0 (str "sizes") (TrScalar no_props Plain (str "sizes")) 0 lf (str "- 7" ++ lf ++ str "- 9")); [one_line_key|exact (next_plain 0)|].
        apply (it_more 0 (str " 7") _ None lf (str "- 9")); [|exact (ow_plain 0)|].
        -- apply (pt_beside true 0 1 0). apply nd_scalar; [lia|word].
        -- apply (it_one 0 (str " 9")). apply (pt_beside true 0 1 0). apply nd_scalar; [lia|word].
      * apply ow_line, (nl_intro 0 [] false [(str "# none:", false)]); [exact (lr_spaces 0)|]. constructor; [|constructor]. apply (el_comment 0 (str " none:")). repeat constructor; not_in.
      * apply (es_more 0 (str "note:") _ None lf).
        -- apply (en_empty 0 (str "note") (TrScalar no_props Plain (str "note")) 0). one_line_key.
        -- exact (ow_plain 0).
        -- apply es_one. apply (en_below false 0 (str "env") (TrScalar no_props Plain (str "env")) 0 (lf ++ str "   ") 3 (str "x : true")); [one_line_key|exact (next_plain 3)|].
           apply nd_map; [lia|]. apply es_one. apply (en_beside 3 (str "x") (TrScalar no_props Plain (str "x")) 1 0 (str "true")); [one_line_key|]. apply nd_scalar; [vm_compute; lia|word].
  - apply tl_end, fi_line. apply (te_lines [] false [] []); [exact (lr_spaces 0)|constructor|exact (el_spaces 0)].
Qed.
Lemma config_is : part_is (Some config_tree) config_node.
Proof.
  assert (K : forall st v, key_is_node (plain_key st v) (scalar_node st v)) by (intros; apply ki_node, ti_scalar).
  assert (V : forall st v, value_is_node (VNode (TrScalar no_props st v)) (scalar_node st v)) by (intros; apply vi_node, ti_scalar).
  apply pi_node, ti_map. constructor; [|constructor; [|constructor; [|constructor; [|constructor]]]].
  - apply pa_pair; [apply K|apply V].
  - apply pa_pair; [apply K|]. apply vi_node, ti_dashes. repeat constructor.
  - apply pa_pair; [apply K|constructor].
  - apply pa_pair; [apply K|]. apply vi_node, ti_map. constructor; [|constructor]. apply pa_pair; [apply K|apply V].
Qed.
Lemma config_denotes : reads false config_type = true /\ denotes (fun n => yaml_null n /\ seen_as_null n) seen_as_value config_type config_node config_value.
Proof.
  split; [reflexivity|]. unfold config_type, config_node, config_value.
  assert (KE : forall st v name, key_is name (scalar_node st v, missing_dnode) -> parse_from_cow_and_metadata v st None = Some (SString name)) by (intros st v name (u & H1 & H2); inversion H1; subst; exact H2).
  eexists _, _, _, _. split; [reflexivity|]. split; [reflexivity|].
  split; [repeat constructor; cbn; intuition discriminate|]. split.
  { repeat constructor; eexists; (split; [eexists; split; [reflexivity|vm_compute; reflexivity]|cbn; tauto]). }
  split.
  { intros l1 e l2 name E (u & H1 & H2).
    destruct l1 as [|a1 [|a2 [|a3 [|a4 [|]]]]]; inversion E; subst; clear E; cbn [fst] in H1; inversion H1; subst; clear H1; vm_compute in H2; inversion H2; subst; clear H2;
      repeat constructor; intros (v & H3 & H4); cbn [fst] in H3; inversion H3; subst; vm_compute in H4; discriminate. }
  split; [reflexivity|]. split.
  { left. eexists. split; [right; right; right; left; reflexivity|]. split; [eexists; split; [reflexivity|vm_compute; reflexivity]|].
    eexists _, _, _, _. split; [reflexivity|]. split; [reflexivity|]. constructor; [|constructor].
    split; eexists _, _; (split; [reflexivity|split; [reflexivity|vm_compute; reflexivity]]). }
  split; [reflexivity|]. split.
  { left. eexists. split; [left; reflexivity|]. split; [eexists; split; [reflexivity|vm_compute; reflexivity]|].
    eexists _, _. split; [reflexivity|split; [reflexivity|vm_compute; reflexivity]]. }
  split; [reflexivity|]. split.
  { left. eexists. split; [right; left; reflexivity|]. split; [eexists; split; [reflexivity|vm_compute; reflexivity]|].
    eexists _, _, _, _. split; [reflexivity|]. split; [reflexivity|].
    constructor; [|constructor; [|constructor]].
    - eexists _, 7%Z. split; [reflexivity|]. split; [reflexivity|]. split; [|split; [lia|intros (r & Hr); discriminate]].
      apply (signed_none dec_digit 10%N (str "7")). split; [discriminate|]. repeat constructor; vm_compute; discriminate.
    - eexists _, 9%Z. split; [reflexivity|]. split; [reflexivity|]. split; [|split; [lia|intros (r & Hr); discriminate]].
      apply (signed_none dec_digit 10%N (str "9")). split; [discriminate|]. repeat constructor; vm_compute; discriminate. }
  split; [reflexivity|]. split.
  { left. eexists. split; [right; right; left; reflexivity|]. split; [eexists; split; [reflexivity|vm_compute; reflexivity]|].
    left. split; [|reflexivity]. split; eexists; (split; [reflexivity|]); [left; split; reflexivity|split; [reflexivity|now left]]. }
  split; [reflexivity|]. split; [|exact I].
  right. split; [|split; [eexists; reflexivity|reflexivity]].
  repeat constructor; intros (v & H3 & H4); cbn [fst] in H3; inversion H3; subst; vm_compute in H4; discriminate.
Qed.
(** [~] as an [Option]. *)
Lemma tilde_stream : stream (str "~") 0 [Doc [] false (Some (TrScalar no_props Plain (str "~"))) 0].
Proof.
  apply (sm_bare true [] 0 (str "~") _ None [] 0 []); [constructor| |apply tl_end, fi_line, te_rest; exact (lr_spaces 0)].
  apply nd_scalar; [lia|]. word.
Qed.
Lemma tilde_denotes : denotes yaml_null (fun n => ~ yaml_null n) (DOption DString) (scalar_node Plain (str "~")) VNone.
Proof. left. split; [|reflexivity]. eexists. split; [reflexivity|]. right. reflexivity. Qed.
Lemma tilde_reads fuel : from_text fuel (DOption DString) (str "~") <> Ok (DOk VNone).
Proof. do 30 (destruct fuel as [|fuel]; [vm_compute; discriminate|]). vm_compute. discriminate. Qed.
Lemma tilde_refutes : exists w lead b o e n t x,
  stream w lead [Doc [] b o e] /\ part_is o n /\ reads false t = true /\ denotes yaml_null (fun n => ~ yaml_null n) t n x /\
  forall fuel, from_text fuel t w <> Ok (DOk x).
Proof.
  exists (str "~"), 0, false, (Some (TrScalar no_props Plain (str "~"))), 0, (scalar_node Plain (str "~")), (DOption DString), VNone.
  split; [exact tilde_stream|]. split; [apply pi_node, ti_scalar|]. split; [reflexivity|]. split; [exact tilde_denotes|exact tilde_reads].
Qed.
