(** Loading what was dumped. *)
From Verif Require Import Base Tokens Parser ParserRun SpecEvents SpecLoad Scalar Yaml Loader LoadText SpecValue SpecTree SpecStream Pipeline.
From Verif Require Import Chars Source Cursor Scanner Emitter EmitterProofs SpecEmit SpecScalar.
From Verif Require Import ParserStream ParserAccept LoaderProofs LoaderLoad NodeScan DumpScan RoundTripScalars.
From Coq Require Import String Lia List.
Local Open Scope list_scope.

(** ** The events of the tree of a value *)
Fixpoint to_node (s : settings) (y : yaml) : node :=
  match y with
  | YScalar v => NdScalar (ScalarValue (snd (swrite s v)) (fst (swrite s v)) 0 None)
  | YSeq l => NdSeq 0 None (map (to_node s) l)
  | YMap l => NdMap 0 None (map (fun x => (to_node s (fst x), to_node s (snd x))) l)
  | _ => NdAlias 0
  end.
(** Values made of scalars and collections. *)
Fixpoint plain_value (y : yaml) : Prop :=
  match y with
  | YScalar v => True
  | YSeq l => all_of plain_value l
  | YMap l => all_of (fun x => plain_value (fst x) /\ plain_value (snd x)) l
  | _ => False
  end.
Lemma tree_events_value s tags y : plain_value y -> forall before,
  tree_events tags before (to_tree s y) = Some (node_evs (to_node s y)).
Proof.
  induction y as [| v | id | l IH | l IH | t y IH] using yaml_induction; intros V before; try contradiction.
  - reflexivity.
  - destruct l as [|x l]; [reflexivity|]. cbn [plain_value] in V. apply all_of_Forall in V.
    cbn [to_tree tree_events to_node node_evs props_tag no_props pr_tag obind]. unfold enclose.
    revert V IH. generalize (x :: l). intros ll V IH.
    assert (X : forall b, list_events (opt_events (tree_events tags)) (opt_list tree_toks) b (map (fun x => Some (to_tree s x)) ll)
       = Some (flat_map node_evs (map (to_node s) ll))).
    { induction ll as [|z ll IHl]; intros b; [reflexivity|]. inversion_clear IH as [|? ? I1 I2]. inversion_clear V as [|? ? V1 V2].
      cbn [map list_events opt_events flat_map]. rewrite (I1 V1). cbn [obind]. rewrite (IHl V2 I2). reflexivity. }
    rewrite X. reflexivity.
  - destruct l as [|x l]; [reflexivity|]. cbn [plain_value] in V. apply all_of_Forall in V.
    cbn [to_tree tree_events to_node node_evs props_tag no_props pr_tag obind]. unfold enclose.
    revert V IH. generalize (x :: l). intros ll V IH.
    assert (X : forall b, list_events (pair_events (tree_events tags) tree_toks) (pair_toks tree_toks) b
        (map (fun x => (KNode (to_tree s (fst x)), VNode (to_tree s (snd x)))) ll)
       = Some (flat_map (fun x => let '(k, v) := x in node_evs k ++ node_evs v) (map (fun x => (to_node s (fst x), to_node s (snd x))) ll))).
    { induction ll as [|z ll IHl]; intros b; [reflexivity|]. inversion_clear IH as [|? ? I1 I2]. inversion_clear V as [|? ? V1 V2].
      cbn [map list_events pair_events key_events value_events flat_map]. rewrite (proj1 I1 (proj1 V1)). cbn [obind].
      rewrite (proj2 I1 (proj2 V1)). cbn [obind]. rewrite (IHl V2 I2). reflexivity. }
    rewrite X. reflexivity.
Qed.
Lemma block_tree_value s y : forall b, plain_value y -> block_tree b (to_tree s y).
Proof.
  induction y as [| v | id | l IH | l IH | t y IH] using yaml_induction; intros b V; try contradiction.
  - exact I.
  - destruct l as [|x l]; [cbn; auto|]. cbn [plain_value] in V. apply all_of_Forall in V. cbn [to_tree block_tree].
    apply all_of_Forall. revert V IH. generalize (x :: l). intros ll V IH.
    induction ll as [|z ll IHl]; [constructor|]. inversion_clear IH as [|? ? I1 I2]. inversion_clear V as [|? ? V1 V2].
    constructor; [exact (I1 false V1)|exact (IHl V2 I2)].
  - destruct l as [|x l]; [cbn; auto|]. cbn [plain_value] in V. apply all_of_Forall in V. cbn [to_tree block_tree].
    revert V IH. generalize (x :: l). intros ll V IH. split.
    + apply all_of_Forall. induction ll as [|z ll IHl]; [constructor|]. inversion_clear IH as [|? ? I1 I2]. inversion_clear V as [|? ? V1 V2].
      constructor; [|exact (IHl V2 I2)]. split; [exact I|]. split; [exact (proj1 I1 true (proj1 V1))|exact (proj2 I1 true (proj2 V1))].
    + clear. induction ll as [|z [|z' ll] IHl]; cbn; auto.
Qed.

(** ** The value read back *)
Fixpoint reread_all (y : yaml) : yaml :=
  match y with
  | YScalar v => YScalar (reread v)
  | YSeq l => YSeq (map reread_all l)
  | YMap l => YMap (map (fun x => (reread_all (fst x), reread_all (snd x))) l)
  | y => y
  end.
Lemma reread_good y : plain_value y -> good_key (reread_all y).
Proof. destruct y; cbn; auto. Qed.
Lemma kept_good l : Forall (fun x => good_key (fst x)) l -> kept_pairs l = l.
Proof.
  unfold kept_pairs. induction 1 as [|[k v] l H F IH]; [reflexivity|]. cbn [flat_map fst snd app] in *.
  cbn [pair_up]. destruct k; try contradiction; cbn [pair_up]; f_equal; exact IH.
Qed.
Lemma value_back s y : plain_value y -> forall e, value_of kept_pairs e (to_node s y) = (reread_all y, e).
Proof.
  induction y as [| v | id | l IH | l IH | t y IH] using yaml_induction; intros V e; try contradiction.
  - cbn [to_node value_of sv_value sv_type sv_tag sv_anchor remember]. rewrite reread_value. reflexivity.
  - cbn [plain_value] in V. apply all_of_Forall in V. cbn [to_node value_of reread_all with_tag remember].
    assert (X : thread (value_of kept_pairs) e (map (to_node s) l) = (map reread_all l, e)).
    { induction l as [|z l IHl]; [reflexivity|]. inversion_clear IH as [|? ? I1 I2]. inversion_clear V as [|? ? V1 V2].
      cbn [map thread]. rewrite (I1 V1). rewrite (IHl I2 V2). reflexivity. }
    rewrite X. reflexivity.
  - cbn [plain_value] in V. apply all_of_Forall in V. cbn [to_node value_of reread_all with_tag remember].
    match goal with |- context [thread ?f e ?a] => assert (X : thread f e a = (map (fun x => (reread_all (fst x), reread_all (snd x))) l, e)) end.
    { induction l as [|z l IHl]; [reflexivity|]. inversion_clear IH as [|? ? I1 I2]. inversion_clear V as [|? ? V1 V2].
      cbn [map thread]. rewrite (proj1 I1 (proj1 V1)), (proj2 I1 (proj2 V1)). rewrite (IHl I2 V2). reflexivity. }
    rewrite X, kept_good; [reflexivity|]. apply Forall_map. eapply Forall_impl; [|exact V].
    intros x [A _]. apply reread_good, A.
Qed.

(** ** Together *)
Lemma no_aliases s y : plain_value y -> forall ids r, (forall ids, aliases_local ids r) -> aliases_local ids (node_evs (to_node s y) ++ r).
Proof.
  induction y as [| v | id | l IH | l IH | t y IH] using yaml_induction; intros V ids r R; try contradiction.
  - cbn. apply R.
  - cbn [plain_value] in V. apply all_of_Forall in V. cbn [to_node node_evs app aliases_local].
    match goal with |- aliases_local ?i _ => generalize i end. rewrite <- app_assoc.
    assert (R' : forall ids, aliases_local ids ([ESequenceEnd] ++ r)) by (intros i; cbn; apply R).
    revert R'. generalize ([ESequenceEnd] ++ r). intros r' R'.
    induction l as [|z l IHl]; intros i; [apply R'|]. inversion_clear IH as [|? ? I1 I2]. inversion_clear V as [|? ? V1 V2].
    cbn [map flat_map]. rewrite <- app_assoc. apply (I1 V1). intros j. apply (IHl I2 V2).
  - cbn [plain_value] in V. apply all_of_Forall in V. cbn [to_node node_evs app aliases_local].
    match goal with |- aliases_local ?i _ => generalize i end. rewrite <- app_assoc.
    assert (R' : forall ids, aliases_local ids ([EMappingEnd] ++ r)) by (intros i; cbn; apply R).
    revert R'. generalize ([EMappingEnd] ++ r). intros r' R'.
    induction l as [|z l IHl]; intros i; [apply R'|]. inversion_clear IH as [|? ? I1 I2]. inversion_clear V as [|? ? V1 V2].
    cbn [map flat_map]. rewrite <- !app_assoc. apply (proj1 I1 (proj1 V1)). intros j. apply (proj2 I1 (proj2 V1)). intros j'. apply (IHl I2 V2).
Qed.
Lemma legible_plain s y : legible s y -> plain_value y.
Proof.
  induction y as [| v | id | l IH | l IH | t y IH] using yaml_induction; intros V; try contradiction.
  - exact I.
  - cbn [legible plain_value] in *. apply all_of_Forall in V. apply all_of_Forall.
    induction l as [|z l IHl]; [constructor|]. inversion_clear IH as [|? ? I1 I2]. inversion_clear V as [|? ? V1 V2].
    constructor; auto.
  - cbn [legible plain_value] in *. apply all_of_Forall in V. apply all_of_Forall.
    induction l as [|z l IHl]; [constructor|]. inversion_clear IH as [|? ? I1 I2]. inversion_clear V as [|? ? V1 V2].
    constructor; [|auto]. destruct I1, V1 as (V11 & V12 & _). auto.
Qed.
Lemma dumped_text s y : accepts s = any_writer -> dumped s y = dump_text s y.
Proof.
  intros W. unfold dumped, dump, dump_text. rewrite W.
  pose proof (emits_node s W y (-1)%Z (str "---" ++ [10%N])) as E.
  unfold emits in E.
  match goal with |- e_out (fst ?x) = _ => assert (X : x = emit_node s y (Emitter.Emitter (-1) (str "---" ++ [10%N]))) by reflexivity; rewrite X end.
  rewrite E. cbn [fst e_out]. rewrite <- app_assoc. reflexivity.
Qed.
Theorem load_dumped s y fuel : accepts s = any_writer -> best_indent s = 2 -> legible s y -> top_fits s y ->
  32 * List.length (dumped s y) + 65 <= fuel ->
  load_text fuel (dumped s y) = Ok [reread_all y].
Proof.
  intros W BI V TF F. rewrite dumped_text in * by exact W.
  destruct (dump_scans s y fuel BI V TF) as (toks & z & E & T); [lia|].
  unfold load_text. rewrite E. set (er := scan_error z). set (mk := c_mark (z_cur z)).
  pose proof (legible_plain s y V) as P.
  set (evs := docs_evs [(true, to_node s y)]).
  assert (EV : events_of (List.length evs) (new_parser toks er mk false) = evs).
  { apply (stream_read false 0 [Doc [] true (Some (to_tree s y)) 0]); auto.
    - repeat constructor.
    - cbn. split; [|exact I]. split; [intros X; now elim X|]. split; [discriminate|]. apply block_tree_value, P.
    - exists (EDocumentStart true :: node_evs (to_node s y) ++ EDocumentEnd :: []). split.
      + unfold evs, docs_evs. cbn [flat_map]. unfold doc_evs. cbn [fst snd]. rewrite !app_nil_r. cbn [app]. now rewrite <- app_assoc.
      + eapply (DM_cons _ _ _ _ (Doc [] true (Some (to_tree s y)) 0) [] (fun _ _ => None)).
        * discriminate.
        * cbn [opt_events d_root]. now apply tree_events_value.
        * constructor. }
  assert (HT : List.length toks <= 2 * List.length (dump_text s y) + 4).
  { rewrite <- (map_length k_type), T. unfold stream_toks, doc_toks. cbn [repeat app flat_map map d_dirs d_explicit d_root d_ends opt_list].
    pose proof (tokens_at_most s y V (-1)%Z). unfold dump_text. lens. lia. }
  assert (HL : exists p' r, load fuel true (new_parser toks er mk false) = (p', Ok r) /\ map fst r = evs).
  { rewrite <- EV. apply load_accepts; rewrite ?EV.
    - unfold evs, docs_evs. right. apply in_app_iff. right. now left.
    - unfold evs, docs_evs. cbn. rewrite !app_nil_r. rewrite <- app_assoc. apply no_aliases; [exact P|]. intros i; exact I.
    - lia. }
  destruct HL as (p' & r & HL & HR).
  unfold load_from. rewrite HL, HR. unfold evs.
  assert (DV : docs_values kept_pairs [] [(true, to_node s y)] = ([reread_all y], [])).
  { unfold docs_values. cbn [thread snd]. rewrite value_back by exact P. reflexivity. }
  rewrite (stream_run _ _ _ DV). reflexivity.
Qed.
