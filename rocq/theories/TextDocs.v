(** Deserialising a text that is one document, with or without [---]. *)
From Verif Require Import Base Tokens Scalar Chars Source Cursor Scanner Yaml Emitter ExactCursor EmitterText EmitterProofs.
From Verif Require Import SpecTree SpecStream SpecEmit SpecQuoted FoldedQuotes ExactPlain EagerScan ScanSteps NodeScan.
From Verif Require Import SpecLoad Loader SpecValue SpecStream ParserStream LoaderProofs NodeScan DumpScan RoundTripScalars RoundTrip.
From Verif Require Import ParserIter SpecIter IterProofs Serde SpecSerde SerdeProofs FromText Parser ParserRun SpecEvents Pipeline.
From Coq Require Import String Lia ZifyBool ZifyNat ZifyN List.
Local Open Scope list_scope.
Notation vnode := SpecValue.node.
Notation dnode := SpecSerde.node.

(** ** Scanning the text of a value without [---] *)
Theorem bare_scans s y fuel : best_indent s = 2 -> legible s y -> top_fits s y -> 2 * List.length (ntext s (-1) y) + 8 < fuel ->
  exists toks z, scan fuel (ntext s (-1) y) = (toks, (z, Ok tt)) /\
    map k_type toks = stream_toks 0 [Doc [] false (Some (to_tree s y)) 0].
Proof.
  intros BI V TF F.
  pose proof (tokens_at_most s y V (-1)%Z) as TM.
  assert (A1 : At (zs (cur [] (ntext s (-1) y) (Marker 0 1 1) true true) [Token (Span (Marker 0 1 1) (Marker 0 1 1)) TStreamStart] (skey_new (Marker 0 0 0)) 0 [] false 0)
     [] (ntext s (-1) y ++ [] ++ []) (Marker 0 1 1) true true [TStreamStart] (skey_new (Marker 0 0 0)) 0 []).
  { rewrite !app_nil_r. now apply At_here. }
  destruct (node_scans s y BI V (-1)%Z fuel _ _ [] [] _ _ _ _ _ _ _ 0%N [] ltac:(lia) (fun _ => TF) ltac:(lia) A1) as (z2 & M2 & L2 & A2 & T2 & k2 & i2 & s2 & nb & R2 & AT2 & TK2 & UW2 & EE2).
  - intros H. discriminate.
  - now left.
  - exact I.
  - cbn. lia.
  - constructor.
  - lens. lia.
  - repeat constructor.
  - intros _. split; reflexivity.
  - assert (CT : clean ([TStreamStart] ++ T2)).
    { apply clean_app. split; [repeat constructor|]. pose proof (clean_tree s y V) as C. rewrite <- TK2 in C. apply clean_app in C. tauto. }
    destruct (round_end fuel z2 _ _ _ _ _ _ _ _ nb AT2 (proj1 EE2) UW2) as (z3 & R3 & TK3 & FIN).
    { lens. lia. }
    { exact CT. }
    assert (RR : exists n, rounds fuel n (scanner_new (ntext s (-1) y)) z3).
    { destruct R2 as (n2 & R2). eexists. eapply rounds_more; [apply round_start|].
      eapply rounds_trans; [exact R2|]. apply rounds_one. exact R3. }
    destruct RR as (n & RR). pose proof (rounds_tokens _ _ _ _ RR) as NT.
    assert (TK : map k_type (z_tokens z3) = stream_toks 0 [Doc [] false (Some (to_tree s y)) 0]).
    { rewrite TK3. unfold stream_toks, doc_toks. cbn [repeat app flat_map map d_dirs d_explicit d_root d_ends opt_list]. rewrite !app_nil_r.
      rewrite <- TK2, <- !app_assoc. reflexivity. }
    assert (LT : List.length (z_tokens z3) < fuel).
    { rewrite <- (map_length k_type), TK. unfold stream_toks, doc_toks. cbn [repeat app flat_map map d_dirs d_explicit d_root d_ends opt_list].
      lens. lia. }
    destruct (scan_all fuel n _ z3 RR FIN) as (z' & E); [lia|exact LT|]. exists (z_tokens z3), z'. split; [exact E|exact TK].
Qed.

(** ** Its events *)
Lemma doc_events toks er mk (b : bool) tr (n : vnode) : block_tree false tr ->
  (forall tags, tree_events tags [] tr = Some (node_evs n)) -> map k_type toks = stream_toks 0 [Doc [] b (Some tr) 0] ->
  let evs := docs_evs [(b, n)] in
  events_of (List.length evs) (new_parser toks er mk false) = evs.
Proof.
  intros B P T evs. apply (stream_read false 0 [Doc [] b (Some tr) 0]); auto.
  - repeat constructor.
  - cbn. split; [|exact I]. split; [intros X; now elim X|]. split; [intros _; split; [discriminate|reflexivity]|]. exact B.
  - exists (EDocumentStart b :: node_evs n ++ EDocumentEnd :: []). split.
    + unfold evs, docs_evs. cbn [flat_map]. unfold doc_evs. cbn [fst snd]. rewrite !app_nil_r. cbn [app]. now rewrite <- app_assoc.
    + eapply (DM_cons _ _ _ _ (Doc [] b (Some tr) 0) [] (fun _ _ => None)).
      * discriminate.
      * cbn [opt_events d_root]. apply P.
      * constructor.
Qed.

(** ** What the iterator delivers *)
Lemma delivered_run fuel ys : forall n i m, List.length ys < n -> 0 < m ->
  iter_run fuel (List.length ys + m) i = map (fun y => Ok (Some y)) ys ++ repeat (Ok None) m -> delivered fuel n i = Ok ys.
Proof.
  induction ys as [|y ys IH]; intros n i m L M H.
  - destruct n as [|n]; [cbn in L; lia|]. destruct m as [|m]; [lia|]. cbn [List.length Nat.add iter_run map app repeat] in H.
    cbn [delivered]. destruct (iter_next fuel i) as [i' a]. injection H as -> _. reflexivity.
  - destruct n as [|n]; [cbn in L; lia|]. cbn [List.length Nat.add iter_run map app] in H. cbn [delivered].
    destruct (iter_next fuel i) as [i' a]. injection H as -> H. cbn [List.length] in L.
    rewrite (IH n i' m ltac:(lia) M H). reflexivity.
Qed.
(** Nodes for the deserialiser. *)
Fixpoint seen_node (n : vnode) : dnode :=
  match n with
  | NdScalar v => NScalar v
  | NdSeq a t l => NSeq a t (map seen_node l)
  | NdMap a t l => NMap a t (map (fun x => (seen_node (fst x), seen_node (snd x))) l)
  | NdAlias _ => NSeq 0 None []
  end.
Fixpoint alias_free (n : vnode) : Prop :=
  match n with
  | NdScalar _ => True
  | NdSeq _ _ l => all_of alias_free l
  | NdMap _ _ l => all_of (fun x => alias_free (fst x) /\ alias_free (snd x)) l
  | NdAlias _ => False
  end.
Lemma yam_events_app a b : yam_events (a ++ b) = yam_events a ++ yam_events b.
Proof. induction a as [|e a IH]; [reflexivity|]. cbn [app yam_events]. destruct (yam_of e); rewrite IH; reflexivity. Qed.
Lemma seen_yams : forall n, alias_free n ->
  yam_events (filter (fun e => negb (is_alias_event e)) (node_evs n)) = node_yams (seen_node n).
Proof.
  fix IH 1. intros [v | id | a t l | a t l] F; [reflexivity | contradiction | |].
  - cbn [alias_free] in F. apply all_of_Forall in F. cbn [node_evs seen_node node_yams filter is_alias_event negb yam_events yam_of].
    f_equal. rewrite filter_app, yam_events_app. f_equal.
    induction l as [|n l I]; [reflexivity|]. apply Forall_cons_iff in F. destruct F as [N F]. specialize (I F).
    cbn [flat_map map]. rewrite filter_app, yam_events_app, (IH n N), I. reflexivity.
  - cbn [alias_free] in F. apply all_of_Forall in F. cbn [node_evs seen_node node_yams filter is_alias_event negb yam_events yam_of].
    f_equal. rewrite filter_app, yam_events_app. f_equal.
    induction l as [|[k v] l I]; [reflexivity|]. apply Forall_cons_iff in F. destruct F as [N F]. specialize (I F).
    cbn [flat_map map fst snd] in *. destruct N as [N1 N2].
    rewrite !filter_app, !yam_events_app, (IH k N1), (IH v N2), I. reflexivity.
Qed.

(** ** Deserialising one document *)
Lemma from_document_events fuel input toks z (b : bool) n t x :
  scan fuel input = (toks, (z, Ok tt)) ->
  (forall er mk, let evs := docs_evs [(b, n)] in events_of (List.length evs) (new_parser toks er mk false) = evs) -> alias_free n ->
  reads false t = true -> denotes (fun n => yaml_null n /\ seen_as_null n) seen_as_value t (seen_node n) x ->
  List.length (node_evs n) + 3 < fuel ->
  from_text fuel t input = Ok (DOk x).
Proof.
  intros E EVS A R D F. unfold from_text. rewrite E.
  pose proof (EVS (scan_error z) (c_mark (z_cur z))) as EV. cbv zeta in EV.
  assert (EV' : docs_evs [(b, n)] = EStreamStart :: EDocumentStart b :: node_evs n ++ [EDocumentEnd; EStreamEnd]).
  { unfold docs_evs. cbn [flat_map]. unfold doc_evs. cbn [fst snd]. rewrite !app_nil_r. cbn [app]. now rewrite <- app_assoc. }
  rewrite EV' in EV at 2.
  pose proof (iter_document _ _ _ _ _ _ _ fuel 1 (node_evs_events n) EV ltac:(lia)) as RUN. cbv zeta in RUN.
  assert (LE : List.length (yam_events (filter (fun e => negb (is_alias_event e)) (node_evs n))) <= List.length (node_evs n)).
  { clear. induction (node_evs n) as [|e l IH]; [cbn; lia|]. cbn [filter]. destruct (negb (is_alias_event e)); cbn [yam_events List.length];
      [destruct (yam_of e); cbn [List.length]|]; lia. }
  set (ys := yam_events (filter (fun e => negb (is_alias_event e)) (node_evs n))) in *.
  assert (DL : delivered fuel fuel (new_iter (new_parser toks (scan_error z) (c_mark (z_cur z)) false)) = Ok (YDocStart :: ys ++ [YDocEnd])).
  { apply (delivered_run fuel _ _ _ 1); [cbn [List.length]; rewrite app_length; cbn [List.length]; lia|lia|].
    rewrite <- RUN. f_equal. cbn [List.length]. rewrite app_length. cbn [List.length]. lia. }
  rewrite DL. unfold from_events, des_new.
  assert (Y : ys = node_yams (seen_node n)) by (unfold ys; now apply seen_yams).
  destruct (nested_values t (seen_node n) x fuel [YDocEnd] YDocStart R D) as (_ & _ & d & DE & _).
  { rewrite <- Y. lia. }
  rewrite Y, DE. reflexivity.
Qed.
Lemma from_one_document fuel input toks z (b : bool) tr n t x :
  scan fuel input = (toks, (z, Ok tt)) -> map k_type toks = stream_toks 0 [Doc [] b (Some tr) 0] ->
  block_tree false tr -> (forall tags, tree_events tags [] tr = Some (node_evs n)) -> alias_free n ->
  reads false t = true -> denotes (fun n => yaml_null n /\ seen_as_null n) seen_as_value t (seen_node n) x ->
  List.length (node_evs n) + 3 < fuel ->
  from_text fuel t input = Ok (DOk x).
Proof.
  intros E T B V. apply (from_document_events fuel input toks z b n t x E). intros er mk. exact (doc_events toks er mk b tr n B V T).
Qed.
Lemma seen_plain s y : plain_value y -> alias_free (to_node s y).
Proof.
  induction y as [| v | id | l IH | l IH | t y IH] using yaml_induction; intros V; try contradiction.
  - exact I.
  - cbn [plain_value to_node alias_free] in *. apply all_of_Forall in V. apply all_of_Forall. apply Forall_map.
    rewrite Forall_forall in *. auto.
  - cbn [plain_value to_node alias_free] in *. apply all_of_Forall in V. apply all_of_Forall. apply Forall_map.
    rewrite Forall_forall in *. intros x Hx. cbn [fst snd]. destruct (IH x Hx), (V x Hx). auto.
Qed.
(** The events of a node are no more than twice its tokens. *)
Lemma events_at_most s y : plain_value y -> List.length (node_evs (to_node s y)) <= 2 * List.length (tree_toks (to_tree s y)).
Proof.
  induction y as [| v | id | l IH | l IH | t y IH] using yaml_induction; intros V; try contradiction.
  - cbn. lia.
  - destruct l as [|x l]; [cbn; lia|]. cbn [plain_value] in V. apply all_of_Forall in V. rewrite toks_seq. cbn [to_node node_evs].
    revert IH V. generalize (x :: l). intros ll IH V. cbn [List.length]. rewrite !app_length. cbn [List.length].
    assert (List.length (flat_map node_evs (map (to_node s) ll)) <= 2 * List.length (flat_map (seq_toks s) ll)); [|lia].
    induction ll as [|z ll I]; [cbn; lia|]. inversion_clear IH as [|? ? I1 I2]. inversion_clear V as [|? ? V1 V2].
    cbn [map flat_map]. rewrite !app_length. specialize (I I2 V2). specialize (I1 V1). unfold seq_toks at 1. cbn [List.length]. lia.
  - destruct l as [|x l]; [cbn; lia|]. cbn [plain_value] in V. apply all_of_Forall in V. rewrite toks_map. cbn [to_node node_evs].
    revert IH V. generalize (x :: l). intros ll IH V. cbn [List.length]. rewrite !app_length. cbn [List.length].
    match goal with |- S (List.length (flat_map ?f ?m) + 1) <= _ => assert (List.length (flat_map f m) <= 2 * List.length (flat_map (map_toks s) ll)); [|lia] end.
    induction ll as [|z ll I]; [cbn; lia|]. inversion_clear IH as [|? ? I1 I2]. inversion_clear V as [|? ? V1 V2].
    cbn [map flat_map]. rewrite !app_length. specialize (I I2 V2). destruct I1 as [J1 J2], V1 as [W1 W2]. specialize (J1 W1). specialize (J2 W2).
    unfold map_toks at 1. cbn [List.length]. rewrite !app_length. cbn [List.length]. lia.
Qed.
Theorem from_dumped s y t x fuel : accepts s = any_writer -> best_indent s = 2 -> legible s y -> top_fits s y ->
  4 * List.length (dumped s y) + 4 < fuel ->
  reads false t = true -> denotes (fun n => yaml_null n /\ seen_as_null n) seen_as_value t (seen_node (to_node s y)) x ->
  from_text fuel t (dumped s y) = Ok (DOk x).
Proof.
  intros W BI V TF F R D. rewrite dumped_text in * by exact W.
  destruct (dump_scans s y fuel BI V TF) as (toks & z & E & T); [lia|].
  pose proof (legible_plain s y V) as P.
  eapply (from_one_document fuel _ toks z true (to_tree s y) (to_node s y)); eauto.
  - apply block_tree_value, P.
  - intros tags. now apply tree_events_value.
  - now apply seen_plain.
  - pose proof (events_at_most s y P). pose proof (tokens_at_most s y V (-1)%Z). unfold dump_text in F. revert F. lens.
    change (List.length (str "---")) with 3. lia.
Qed.
Theorem from_bare s y t x fuel : best_indent s = 2 -> legible s y -> top_fits s y ->
  4 * List.length (ntext s (-1) y) + 8 < fuel ->
  reads false t = true -> denotes (fun n => yaml_null n /\ seen_as_null n) seen_as_value t (seen_node (to_node s y)) x ->
  from_text fuel t (ntext s (-1) y) = Ok (DOk x).
Proof.
  intros BI V TF F R D.
  destruct (bare_scans s y fuel BI V TF) as (toks & z & E & T); [lia|].
  pose proof (legible_plain s y V) as P.
  eapply (from_one_document fuel _ toks z false (to_tree s y) (to_node s y)); eauto.
  - apply block_tree_value, P.
  - intros tags. now apply tree_events_value.
  - now apply seen_plain.
  - pose proof (events_at_most s y P). pose proof (tokens_at_most s y V (-1)%Z). lia.
Qed.
