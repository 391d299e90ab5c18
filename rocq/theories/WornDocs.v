(** Deserialising documents with anchors and tags. *)
From Verif Require Import Base Tokens Scalar Yaml Chars Source Cursor Scanner SpecScalar ScalarProofs ScalarTags.
From Verif Require Import SpecTree SpecStream SpecEvents Parser ParserRun ParserIter SpecIter IterProofs Loader LoadText SpecValue Pipeline ParserStream LoaderProofs NodeScan SpecMeaning ParserTree.
From Verif Require Import Serde SpecSerde SerdeProofs FromText TextDocs SpecQuoted SpecPlain SpecStrings SpecLayout SpecLayoutSerde TreeLike LayoutDocs MeaningProofs LayoutLoad LayoutSerde.
From Verif Require Import SpecProps SpecFlow PropsScan PropsDocs DecoratedDocs SpecSerdeOnly SerdeOnly OnlyText SpecWorn.
From Coq Require Import String Lia.
Local Open Scope list_scope.

(** ** Events *)
Definition shows (ev : list text -> option (list event)) (k : nat) (n : dnode) : Prop :=
  forall before, List.length before = k -> exists m, ev before = Some (node_evs m) /\ seen_node m = n /\ alias_free m.
Definition part_shows {A} (f : list text -> A -> option (list event)) (toks : A -> list token_type) (M : named_nodes -> A -> dnode -> named_nodes -> Prop) (x : A) : Prop :=
  forall E n D, M E x n D -> List.length D = List.length (names_of (toks x)) /\ shows (fun before => f before x) (List.length E) n.
Lemma list_shows {A} f toks (M : named_nodes -> A -> dnode -> named_nodes -> Prop) l : Forall (part_shows f toks M) l -> forall E ns D, list_worn M E l ns D ->
  List.length D = List.length (flat_map (fun x => names_of (toks x)) l) /\
  forall before, List.length before = List.length E -> exists ms, list_events f toks before l = Some (flat_map node_evs ms) /\ map seen_node ms = ns /\ all_of alias_free ms.
Proof.
  intros H E ns D L. induction L as [E|E x y D l ys D' M1 L IH].
  - split; [reflexivity|]. intros before _. exists []. repeat split.
  - destruct (Forall_inv H E y D M1) as [N1 D1]. destruct (IH (Forall_inv_tail H)) as [N2 D2]. split; [cbn [flat_map]; rewrite !app_length; lia|].
    intros before B. destruct (D1 before B) as (m & V1 & V2 & V3). destruct (D2 (before ++ names_of (toks x))) as (ms & W1 & W2 & W3); [rewrite !app_length; lia|].
    exists (m :: ms). cbn [list_events flat_map map all_of]. rewrite V1. cbn [SpecTree.obind]. rewrite W1, V2, W2. repeat split; auto.
Qed.
Lemma missing_shows k : shows (fun _ => Some [empty_event]) k missing_dnode.
Proof. intros before _. exists (NdScalar (ScalarValue [] Plain 0 None)). repeat split. Qed.
Definition worn_shows (tg : list (text * text)) : tree -> Prop := part_shows (tree_events (tags_of tg)) tree_toks (tree_worn false tg).
Lemma opt_shows tg o : opt_all (worn_shows tg) o -> part_shows (opt_events (tree_events (tags_of tg))) (opt_list tree_toks) (part_worn false tg) o.
Proof. intros H E n D M. destruct M as [E t n D M|E]; [exact (H E n D M)|]. split; [reflexivity|apply missing_shows]. Qed.
Lemma value_shows tg v : value_all (worn_shows tg) v -> part_shows (value_events (tree_events (tags_of tg))) (value_toks tree_toks) (value_worn false tg) v.
Proof. intros H E n D M. destruct M as [E t n D M|E|E]; [exact (H E n D M)|split; [reflexivity|apply missing_shows]..]. Qed.
Lemma key_shows tg k : key_all (worn_shows tg) k -> part_shows (key_events (tree_events (tags_of tg))) (key_toks tree_toks) (key_worn false tg) k.
Proof. intros H E n D M. destruct M as [E t n D M|E t n D M|E|E]; [exact (H E n D M)|exact (H E n D M)|split; [reflexivity|apply missing_shows]..]. Qed.
Lemma item_shows tg i : item_all (worn_shows tg) i -> part_shows (item_events (tree_events (tags_of tg)) tree_toks) (item_toks tree_toks) (item_worn false tg) i.
Proof.
  intros H E n D M. destruct M as [E t n D M|E t v n D n' D' M1 M2]; [exact (H E n D M)|]. destruct H as [H1 H2].
  destruct (H1 E n D M1) as [N1 S1]. destruct (value_shows tg v H2 _ _ _ M2) as [N2 S2]. split; [cbn [item_toks names_of]; rewrite names_of_app, !app_length; lia|].
  intros before B. destruct (S1 before B) as (m & V1 & V2 & V3). destruct (S2 (before ++ names_of (tree_toks t))) as (m' & W1 & W2 & W3); [rewrite !app_length; lia|].
  exists (NdMap 0 None [(m, m')]). cbn [item_events]. rewrite V1. cbn [SpecTree.obind]. rewrite W1. cbn [SpecTree.obind node_evs flat_map seen_node map fst snd alias_free all_of].
  rewrite V2, W2, app_nil_r, <- app_assoc. repeat split; auto.
Qed.
Lemma pairs_shows tg l : Forall (pair_all (worn_shows tg)) l -> forall E ns D, list_worn (pair_worn false tg) E l ns D ->
  List.length D = List.length (flat_map (fun x => names_of (pair_toks tree_toks x)) l) /\
  forall before, List.length before = List.length E -> exists ms, list_events (pair_events (tree_events (tags_of tg)) tree_toks) (pair_toks tree_toks) before l =
    Some (flat_map pair_list ms) /\ map seen_pair ms = ns /\ all_of pair_free ms.
Proof.
  intros H E ns D L. induction L as [E|E x y D l ys D' M1 L IH].
  - split; [reflexivity|]. intros before _. exists []. repeat split.
  - destruct (Forall_inv H) as [H1 H2]. destruct (IH (Forall_inv_tail H)) as [N2 D2]. destruct M1 as [E k v n D1 n' D2' K V]. cbn [fst snd] in *.
    destruct (key_shows tg k H1 _ _ _ K) as [K1 K2]. destruct (value_shows tg v H2 _ _ _ V) as [V1 V2]. 
    split; [cbn [flat_map pair_toks]; rewrite names_of_app, !app_length; lia|].
    intros before B. destruct (K2 before B) as (m & A1 & A2 & A3). destruct (V2 (before ++ names_of (key_toks tree_toks k))) as (m' & B1 & B2 & B3); [rewrite !app_length; lia|].
    destruct (D2 (before ++ names_of (pair_toks tree_toks (k, v)))) as (ms & W1 & W2 & W3); [cbn [pair_toks]; rewrite names_of_app, !app_length; lia|].
    exists ((m, m') :: ms). cbn [list_events flat_map pair_list map all_of fst snd pair_events]. rewrite A1. cbn [SpecTree.obind]. rewrite B1. cbn [SpecTree.obind]. rewrite W1, W2.
    unfold seen_pair, pair_free. cbn [fst snd SpecTree.obind]. rewrite A2, B2. repeat split; auto.
Qed.
Lemma noted_length pr o : List.length (noted pr o) = List.length (names_of (props_toks pr)).
Proof. unfold noted, props_toks. destruct (pr_anchor pr), (pr_tag pr), (pr_tag_first pr); reflexivity. Qed.
Lemma number_is E pr before : List.length before = List.length E -> props_id before pr = number E pr.
Proof. intros H. unfold props_id, number. now rewrite H. Qed.
Lemma seq_shows tg (A : Type) f toks (M : named_nodes -> A -> dnode -> named_nodes -> Prop) l E pr o ns D ev :
  Forall (part_shows f toks M) l -> tagged_as tg pr o -> list_worn M (E ++ noted pr None) l ns D ->
  (forall before, ev before = SpecTree.obind (props_tag (tags_of tg) pr) (fun tg => enclose (ESequenceStart (props_id before pr) tg) ESequenceEnd (list_events f toks (before ++ names_of (props_toks pr)) l))) ->
  List.length (noted pr (Some (NSeq (number E pr) o ns)) ++ D) = List.length (names_of (props_toks pr) ++ flat_map (fun x => names_of (toks x)) l) /\
  shows ev (List.length E) (NSeq (number E pr) o ns).
Proof.
  intros H T L EV. destruct (list_shows f toks M l H _ _ _ L) as [N1 D1]. split; [rewrite !app_length, noted_length; lia|].
  intros before B. destruct (D1 (before ++ names_of (props_toks pr))) as (ms & V1 & V2 & V3); [rewrite !app_length, noted_length; lia|].
  exists (NdSeq (number E pr) o ms). rewrite EV, (tagged_tag _ _ _ T). cbn [SpecTree.obind]. rewrite V1, (number_is E pr before B). cbn [enclose SpecTree.obind node_evs seen_node alias_free].
  rewrite V2. repeat split; auto.
Qed.
Lemma map_shows tg l E pr o ns D ev :
  Forall (pair_all (worn_shows tg)) l -> tagged_as tg pr o -> list_worn (pair_worn false tg) (E ++ noted pr None) l ns D ->
  (forall before, ev before = SpecTree.obind (props_tag (tags_of tg) pr) (fun t => enclose (EMappingStart (props_id before pr) t) EMappingEnd
     (list_events (pair_events (tree_events (tags_of tg)) tree_toks) (pair_toks tree_toks) (before ++ names_of (props_toks pr)) l))) ->
  List.length (noted pr (Some (NMap (number E pr) o ns)) ++ D) = List.length (names_of (props_toks pr) ++ flat_map (fun x => names_of (pair_toks tree_toks x)) l) /\
  shows ev (List.length E) (NMap (number E pr) o ns).
Proof.
  intros H T L EV. destruct (pairs_shows tg l H _ _ _ L) as [N1 D1]. split; [rewrite !app_length, noted_length; lia|].
  intros before B. destruct (D1 (before ++ names_of (props_toks pr))) as (ms & V1 & V2 & V3); [rewrite !app_length, noted_length; lia|].
  exists (NdMap (number E pr) o ms). rewrite EV, (tagged_tag _ _ _ T). cbn [SpecTree.obind]. rewrite V1, (number_is E pr before B). cbn [enclose SpecTree.obind node_evs seen_node alias_free].
  split; [reflexivity|split; [f_equal; exact V2|exact V3]].
Qed.
Lemma tree_shows tg t : worn_shows tg t.
Proof.
  induction t as [pr st v|a|pr|pr l b H|pr l b H|pr l H|pr l H|pr l H] using tree_parts; intros E n D M.
  - inversion M as [E' pr' o st' v' n' T S| | | | | | |]; subst. split.
    { cbn [tree_toks]. rewrite names_of_app, noted_length. cbn [names_of]. now rewrite app_nil_r. }
    intros before B. exists (NdScalar (ScalarValue v st (number E pr) o)). cbn [tree_events node_evs]. rewrite (tagged_tag _ _ _ T), (number_is E pr before B). repeat split.
  - inversion M as [|E' a' n' A| | | | | |]; discriminate.
  - inversion M as [| |E' pr' o n' T S| | | | |]; subst. split; [cbn [tree_toks]; apply noted_length|].
    intros before B. exists (NdScalar (ScalarValue [] Plain (number E pr) o)). cbn [tree_events node_evs]. rewrite (tagged_tag _ _ _ T), (number_is E pr before B). repeat split.
  - inversion M as [| | |E' pr' o l' b' ns n' D' T L C| | | |]; subst.
    cbn [tree_toks]. rewrite names_of_app. cbn [names_of]. rewrite !names_of_app, names_trail, names_commas. cbn [names_of]. rewrite !app_nil_r.
    apply (seq_shows tg _ (item_events (tree_events (tags_of tg)) tree_toks) (item_toks tree_toks) (item_worn false tg) l); auto.
    clear - H. induction H; constructor; auto. now apply item_shows.
  - inversion M as [| | | |E' pr' o l' b' ns n' D' T L C| | |]; subst.
    cbn [tree_toks]. rewrite names_of_app. cbn [names_of]. rewrite !names_of_app, names_trail, names_commas. cbn [names_of]. rewrite !app_nil_r.
    apply (map_shows tg l); auto.
  - inversion M as [| | | | |E' pr' o l' ns n' D' T L C| |]; subst.
    cbn [tree_toks]. rewrite names_of_app. cbn [names_of]. rewrite !names_of_app. cbn [names_of]. rewrite !app_nil_r. change (fun o => TBlockEntry :: opt_list tree_toks o) with dash. rewrite names_dash, names_flat.
    apply (seq_shows tg _ (opt_events (tree_events (tags_of tg))) (opt_list tree_toks) (part_worn false tg) l); auto.
    clear - H. induction H; constructor; auto. now apply opt_shows.
  - inversion M as [| | | | | | |E' pr' o l' ns n' D' T L C]; subst.
    cbn [tree_toks]. rewrite names_of_app. cbn [names_of]. rewrite !names_of_app, names_flat. cbn [names_of]. rewrite !app_nil_r.
    apply (map_shows tg l); auto.
  - inversion M as [| | | | | |E' pr' o l' ns n' D' T L C|]; subst.
    cbn [tree_toks]. rewrite names_of_app. change (fun o => TBlockEntry :: opt_list tree_toks o) with dash. rewrite names_dash, names_flat.
    apply (seq_shows tg _ (opt_events (tree_events (tags_of tg))) (opt_list tree_toks) (part_worn false tg) l); auto.
    clear - H. induction H; constructor; auto. now apply opt_shows.
Qed.

(** ** Texts *)
Lemma worn_read fuel w lead ds b o e n t :
  stream w lead [Doc ds b o e] -> List.length ds <= 1 -> doc_worn false ds o n -> 12 * List.length w + 12 < fuel ->
  from_text fuel t w = Ok (from_events fuel t (YDocStart :: node_yams n ++ [YDocEnd])) /\ List.length (node_yams n) < fuel.
Proof.
  intros S OD (D & P) F. destruct (layout_events fuel w lead _ S ltac:(lia)) as (toks & z & l' & E & LL & T & LE & DO & EV).
  destruct (opt_shows (dirs_table ds) o) with (E := @nil (text * option dnode)) (n := n) (D := D) as [_ SH]; [destruct o; [apply tree_shows|exact I]|exact P|].
  destruct (SH [] eq_refl) as (m & V1 & V2 & V3). subst n.
  assert (SM : stream_means dirs_table false [Doc ds b o e] (docs_evs [(b, m)])).
  { eexists. split; [unfold docs_evs; reflexivity|]. cbn [flat_map]. unfold doc_evs. cbn [fst snd app]. rewrite <- app_assoc. cbn [app].
    apply (DM_cons _ _ _ _ (Doc ds b o e) [] (tags_of (dirs_table ds))); [|exact V1|constructor].
    intros h s g X. apply tags_of_means in X. unfold doc_table. cbn [d_dirs]. destruct ds; exact X. }
  assert (OD' : Forall one_directive [Doc ds b o e]) by (constructor; [exact OD|constructor]).
  apply (document_is_read fuel w toks z b m t E); auto.
  - intros er mk. exact (proj2 (EV _ OD' SM) er mk).
  - inversion LL as [|d0 d' l0 l1 (D1 & D2 & D3 & D4) L0]; subst. inversion L0; subst. cbn [d_root] in *.
    pose proof (f_equal (@List.length token_type) T) as LT. rewrite map_length in LT.
    unfold stream_toks, doc_toks in LT. cbn [flat_map app] in LT. revert LT. lens. intros LT.
    assert (List.length (node_evs m) <= 3 * List.length (opt_list tree_toks (d_root d')) + 2); [|lia].
    destruct DO as [(_ & _ & BT) _]. destruct D4 as [|t0 t' ((L1 & _) & _)]; [cbn [opt_events] in V1; injection V1 as V1; rewrite <- V1; cbn; lia|].
    cbn [opt_list opt_events] in *. apply (tree_events_few t' false BT (tags_of (dirs_table ds)) []). now rewrite L1.
Qed.
Theorem worn_exactly fuel w lead ds b o e n t x :
  stream w lead [Doc ds b o e] -> List.length ds <= 1 -> doc_worn false ds o n -> reads false t = true -> known_fields t n -> 12 * List.length w + 12 < fuel ->
  (from_text fuel t w = Ok (DOk x) <-> denotes taken_for_null (fun n => ~ taken_for_null n) t n x).
Proof.
  intros S OD P R NS F. destruct (worn_read fuel w lead ds b o e n t S OD P F) as [FT LF].
  rewrite FT, <- (exactly t n x fuel [YDocEnd] YDocStart R NS LF). unfold from_events, des_new. split; [now intros [= H]|now intros ->].
Qed.
Theorem worn_deserialises fuel w lead ds b o e n t x :
  stream w lead [Doc ds b o e] -> List.length ds <= 1 -> doc_worn false ds o n -> reads false t = true ->
  denotes (fun n => yaml_null n /\ seen_as_null n) seen_as_value t n x -> 12 * List.length w + 12 < fuel ->
  from_text fuel t w = Ok (DOk x).
Proof.
  intros S OD P R D F. destruct (worn_read fuel w lead ds b o e n t S OD P F) as [FT LF]. rewrite FT. unfold from_events, des_new.
  destruct (nested_values t n x fuel [YDocEnd] YDocStart R D LF) as (_ & _ & d & DE & _). now rewrite DE.
Qed.

(** ** Examples *)
(** A declared handle, an anchor and a tag: the number is a string. *)
Definition worn_text : text :=
  str "%TAG !e! tag:yaml.org,2002:" ++ lf ++ str "---" ++ lf ++ str "- &a !e!str 1" ++ lf ++ str "- &b x".
Definition worn_dirs : list directive := [DTag (str "!e!") (str "tag:yaml.org,2002:")].
Definition worn_props : props := Props (Some (str "a")) (Some (str "!e!", str "str")) false.
Definition worn_tree : tree := TrBlockSeq no_props [Some (TrScalar worn_props Plain (str "1")); Some (TrScalar (named_by "b") Plain (str "x"))].
Definition worn_node : dnode :=
  NSeq 0 None [NScalar (ScalarValue (str "1") Plain 1 (Some (Tag core_prefix (str "str")))); NScalar (ScalarValue (str "x") Plain 2 None)].
Definition worn_type : target := DVec DString.
Definition worn_value : value := VSeq [VString (str "1"); VString (str "x")].
Lemma worn_stream : stream worn_text 0 [Doc worn_dirs true (Some worn_tree) 0].
Proof.
  assert (W1 : forall p, written_scalar p Plain (str "1") (str "1")) by (intros p; apply one_word; not_in).
  assert (WX : forall p, written_scalar p Plain (str "x") (str "x")) by (intros p; apply one_word; not_in).
  assert (D1 : directive_text false (str "%TAG !e! tag:yaml.org,2002:") (DTag (str "!e!") (str "tag:yaml.org,2002:"))).
  { apply (dt_tag false (str " ") (str "!e!") (str " ") (str "tag:yaml.org,2002:")); [split; [discriminate|each ltac:(now left)]| |split; [discriminate|each ltac:(now left)]|].
    - apply (th_named (str "e")). each ltac:(right; right; left; split; vm_compute; discriminate).
    - apply (tp_global false 116%N (str "ag:yaml.org,2002:")); [split; [left; right; right; left; split; vm_compute; discriminate|not_in]|plainly; uris]. }
  assert (T1 : tag_text false (str "!e!str") (str "!e!") (str "str")).
  { apply (tt_named false (str "e") (str "str")); [each ltac:(right; right; left; split; vm_compute; discriminate)|discriminate|plainly; uris]. }
  pose (seq := str "- &a !e!str 1" ++ lf ++ str "- &b x").
  assert (NS : node false 0 0 seq worn_tree None).
  { apply nd_seq; [lia|]. apply (it_more 0 (str " &a !e!str 1") _ None lf (str "- &b x")); [|exact (ow_plain 0)|].
    - apply (pt_beside true 0 1 0 (str "&a !e!str 1")). apply (nd_props_beside 1 2 (str "&a !e!str") worn_props 0 (str "1") (TrScalar no_props Plain (str "1"))); [lia| |apply nd_scalar; [lia|apply W1]|reflexivity].
      apply (pt_both false (str "a") 0 (str "!e!str")); [anchor_ok|exact T1].
    - apply (it_one 0 (str " &b x")). apply (pt_beside true 0 1 0 (str "&b x")).
      apply (nd_props_beside 1 2 (str "&b") (named_by "b") 0 (str "x") (TrScalar no_props Plain (str "x"))); [lia|apply (an_anchor "b"); anchor_ok|apply nd_scalar; [lia|apply WX]|reflexivity]. }
  assert (M1 : marked (str "---" ++ lf ++ seq) [Doc [] true (Some worn_tree) 0]).
  { apply (mk_below false lf 0 seq _ None [] 0); [exact (next_plain 0)|exact NS|]. apply tl_end, fi_line, te_rest. exact (lr_spaces 0). }
  apply (sm_directed [] (str "%TAG !e! tag:yaml.org,2002:" ++ lf ++ str "---" ++ lf ++ seq)); [constructor|].
  apply (di_last (str "%TAG !e! tag:yaml.org,2002:") _ [] false [] (str "---" ++ lf ++ seq)); [exact D1|exact (lr_spaces 0)|constructor|exact M1].
Qed.
Lemma worn_is : doc_worn false worn_dirs (Some worn_tree) worn_node.
Proof.
  eexists. apply pw_node. apply (tw_seq _ _ [] no_props None _ (match worn_node with NSeq _ _ l => l | _ => [] end) worn_node); [now constructor| |reflexivity].
  apply lw_cons with (D := noted worn_props (Some (NScalar (ScalarValue (str "1") Plain 1 (Some (Tag core_prefix (str "str")))))));
    [|apply lw_cons with (D := noted (named_by "b") (Some (NScalar (ScalarValue (str "x") Plain 2 None)))); [|apply lw_nil]]; apply pw_node.
  - apply (tw_scalar _ _ _ worn_props (Some (Tag core_prefix (str "str")))); [|reflexivity]. apply (ta_some _ _ (str "!e!") (str "str")); [reflexivity|]. now apply TM_declared.
  - apply (tw_scalar _ _ _ (named_by "b") None); [now constructor|reflexivity].
Qed.
Lemma worn_denotes P Q : denotes P Q worn_type worn_node worn_value.
Proof.
  exists 0, None. do 2 eexists. split; [reflexivity|]. split; [reflexivity|]. constructor; [|constructor; [|constructor]].
  - do 2 eexists. split; [reflexivity|]. split; reflexivity.
  - do 2 eexists. split; [reflexivity|]. split; reflexivity.
Qed.
(** An alias. *)
Definition aliased : text := str "- &a 7" ++ lf ++ str "- *a".
Definition aliased_tree : tree := TrBlockSeq no_props [Some (TrScalar (named_by "a") Plain (str "7")); Some (TrAlias (str "a"))].
Definition aliased_seven : dnode := NScalar (ScalarValue (str "7") Plain 1 None).
Definition aliased_node : dnode := NSeq 0 None [aliased_seven; aliased_seven].
Lemma aliased_stream : stream aliased 0 [Doc [] false (Some aliased_tree) 0].
Proof.
  assert (W7 : forall p, written_scalar p Plain (str "7") (str "7")) by (intros p; apply one_word; not_in).
  apply (sm_bare false [] 0 aliased aliased_tree None [] 0 []); [constructor| |apply tl_end, fi_line, te_rest; exact (lr_spaces 0)].
  apply nd_seq; [lia|]. apply (it_more 0 (str " &a 7") _ None lf (str "- *a")); [|exact (ow_plain 0)|].
  - apply (pt_beside true 0 1 0 (str "&a 7")).
    apply (nd_props_beside 1 2 (str "&a") (named_by "a") 0 (str "7") (TrScalar no_props Plain (str "7"))); [lia|apply (an_anchor "a"); anchor_ok|apply nd_scalar; [lia|apply W7]|reflexivity].
  - apply (it_one 0 (str " *a")). apply (pt_beside true 0 1 0 (str "*a")). apply (nd_alias 1 2 (str "a")); [lia|anchor_ok].
Qed.
Lemma aliased_is : doc_worn true [] (Some aliased_tree) aliased_node.
Proof.
  eexists. apply pw_node. apply (tw_seq _ _ [] no_props None _ [aliased_seven; aliased_seven]); [now constructor| |reflexivity].
  apply lw_cons with (D := noted (named_by "a") (Some aliased_seven)); [|apply lw_cons with (D := []); [|apply lw_nil]]; apply pw_node.
  - apply (tw_scalar _ _ _ (named_by "a") None); [now constructor|reflexivity].
  - apply tw_alias; [reflexivity|]. exists [], []. split; [reflexivity|intros []].
Qed.
Lemma seven_denotes P Q : denotes P Q (DInt 0 255) aliased_seven (VInt 7).
Proof.
  do 2 eexists. split; [reflexivity|]. split; [reflexivity|]. split; [|split; [lia|]].
  - apply (signed_none dec_digit 10%N (str "7")). split; [discriminate|]. repeat constructor; vm_compute; discriminate.
  - intros (r & H). discriminate H.
Qed.
Lemma aliased_denotes P Q : denotes P Q (DVec (DInt 0 255)) aliased_node (VSeq [VInt 7; VInt 7]).
Proof. exists 0, None. do 2 eexists. split; [reflexivity|]. split; [reflexivity|]. constructor; [apply seven_denotes|constructor; [apply seven_denotes|constructor]]. Qed.
Lemma aliased_fails fuel : from_text fuel (DVec (DInt 0 255)) aliased <> Ok (DOk (VSeq [VInt 7; VInt 7])).
Proof. do 40 (destruct fuel as [|fuel]; [vm_compute; discriminate|]). vm_compute. discriminate. Qed.
