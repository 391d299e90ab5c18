(** Which values a text is deserialised as. *)
From Verif Require Import Base Tokens Scalar Yaml Chars Source Cursor Scanner SpecScalar ScalarProofs ScalarTags.
From Verif Require Import SpecTree SpecStream SpecEvents Parser ParserRun ParserIter SpecIter IterProofs Loader LoadText SpecValue Pipeline ParserStream LoaderProofs NodeScan.
From Verif Require Import Serde SpecSerde SerdeProofs FromText TextDocs SpecQuoted SpecPlain SpecStrings SpecLayout SpecLayoutSerde TreeLike LayoutDocs MeaningProofs LayoutLoad LayoutSerde.
From Verif Require Import SpecSerdeOnly SerdeOnly.
From Coq Require Import String Lia.
Local Open Scope list_scope.

(** ** Events *)
Lemma exactly t (n : dnode) x fuel rest last : reads false t = true -> known_fields t n -> List.length (node_yams n) < fuel ->
  (snd (de fuel t (Des (YDocStart :: node_yams n ++ rest) last false)) = DOk x <-> denotes taken_for_null (fun n => ~ taken_for_null n) t n x).
Proof.
  intros R S L. rewrite (de_same fuel t _ _ ltac:(lia) (document_start n rest last)).
  change (Des (node_yams n ++ rest) YDocStart false) with (at_node false n rest YDocStart). split.
  - intros E. destruct (de fuel t (at_node false n rest YDocStart)) as [d o] eqn:D. cbn [snd] in E. subst o. exact (proj1 (de_only t n x fuel rest YDocStart false d R S D)).
  - intros D. rewrite (de_reads _ _ taken_null_ok taken_some_ok t n x fuel rest YDocStart false D L R). reflexivity.
Qed.

(** ** Texts *)
Lemma document_is_read fuel input toks z (b : bool) n t :
  scan fuel input = (toks, (z, Ok tt)) ->
  (forall er mk, let evs := docs_evs [(b, n)] in events_of (List.length evs) (new_parser toks er mk false) = evs) -> alias_free n ->
  List.length (node_evs n) + 3 < fuel ->
  from_text fuel t input = Ok (from_events fuel t (YDocStart :: node_yams (seen_node n) ++ [YDocEnd])) /\
  List.length (node_yams (seen_node n)) < fuel.
Proof.
  intros E EVS A F. unfold from_text. rewrite E.
  pose proof (EVS (scan_error z) (c_mark (z_cur z))) as EV. cbv zeta in EV.
  assert (EV' : docs_evs [(b, n)] = EStreamStart :: EDocumentStart b :: node_evs n ++ [EDocumentEnd; EStreamEnd]).
  { unfold docs_evs. cbn [flat_map]. unfold doc_evs. cbn [fst snd]. rewrite !app_nil_r. cbn [app]. now rewrite <- app_assoc. }
  rewrite EV' in EV at 2.
  pose proof (iter_document _ _ _ _ _ _ _ fuel 1 (node_evs_events n) EV ltac:(lia)) as RUN. cbv zeta in RUN.
  assert (LE : List.length (yam_events (filter (fun e => negb (is_alias_event e)) (node_evs n))) <= List.length (node_evs n)).
  { clear. induction (node_evs n) as [|e l IH]; [cbn; lia|]. cbn [filter]. destruct (negb (is_alias_event e)); cbn [yam_events List.length];
      [destruct (yam_of e); cbn [List.length]|]; lia. }
  set (ys := yam_events (filter (fun e => negb (is_alias_event e)) (node_evs n))) in *.
  assert (DL : delivered fuel fuel (new_iter (new_parser toks (scan_error z) (c_mark (z_cur z)) false)) = Ok (YDocStart :: ys ++ [YDocEnd])).
  { apply (delivered_run fuel _ _ _ 1); [cbn [List.length]; rewrite app_length; cbn [List.length]; lia|lia|].
    rewrite <- RUN. f_equal. cbn [List.length]. rewrite app_length. cbn [List.length]. lia. }
  rewrite DL.
  assert (Y : ys = node_yams (seen_node n)) by (unfold ys; now apply seen_yams).
  rewrite <- Y. split; [reflexivity|lia].
Qed.
Theorem layout_exactly fuel w lead ds b o e n t x :
  stream w lead [Doc ds b o e] -> List.length ds <= 1 -> part_is o n -> reads false t = true -> known_fields t n -> 12 * List.length w + 12 < fuel ->
  (from_text fuel t w = Ok (DOk x) <-> denotes taken_for_null (fun n => ~ taken_for_null n) t n x).
Proof.
  intros S OD P R NS F. destruct (layout_events fuel w lead _ S ltac:(lia)) as (toks & z & l' & E & LL & T & LE & DO & EV).
  assert (DB : Forall doc_bare [Doc ds b o e]) by (constructor; [destruct P as [t0 n0 P|]; [exact (nodes_are_bare t0 _ P)|exact I]|constructor]).
  destruct (part_seen o n P) as [PS PA].
  destruct (document_is_read fuel w toks z b (opt_node o) t E) as [FT LF]; auto.
  - intros er mk. assert (OD' : Forall one_directive [Doc ds b o e]) by (constructor; [exact OD|constructor]). exact (proj2 (EV _ OD' (bare_means _ DB)) er mk).
  - inversion LL as [|d0 d' l0 l1 (D1 & D2 & D3 & D4) L0]; subst. inversion L0; subst. inversion_clear DB as [|? ? B _]. unfold doc_bare in B. cbn [d_root] in *.
    pose proof (f_equal (@List.length token_type) T) as LT. rewrite map_length in LT.
    unfold stream_toks, doc_toks in LT. cbn [flat_map app] in LT. revert LT. lens. intros LT.
    assert (List.length (node_evs (opt_node o)) <= 3 * List.length (opt_list tree_toks (d_root d')) + 2); [|lia].
    destruct DO as [(_ & _ & BT) _]. destruct D4 as [|t0 t' ((L1 & _) & _)]; [cbn; lia|]. cbn [opt_list]. apply (tree_events_few t' false BT (fun _ _ => None) []).
    rewrite L1. now apply tree_evs.
  - rewrite PS in FT, LF. rewrite FT, <- (exactly t n x fuel [YDocEnd] YDocStart R NS LF). unfold from_events, des_new. split; [now intros [= H]|now intros ->].
Qed.

(** ** Examples *)
(** A string in quotes, taken for a null. *)
Definition quoted_null : dnode := NScalar (ScalarValue (str "null") DoubleQuote 0 None).
Lemma quoted_null_none fuel rest last : 0 < fuel ->
  snd (de fuel (DOption DString) (Des (YDocStart :: node_yams quoted_null ++ rest) last false)) = DOk VNone.
Proof. intros _. reflexivity. Qed.
Lemma quoted_null_is_none x : ~ (x = VNone /\ denotes yaml_null (fun n => ~ yaml_null n) (DOption DString) quoted_null x).
Proof.
  intros (-> & [((v & [= <-] & [(H & _)|H]) & _)|(_ & y & H & _)]); [discriminate H| |discriminate H]. vm_compute in H. discriminate H.
Qed.
(** A mapping of optional sequences. *)
Definition sizes : text := str "sizes:" ++ lf ++ str "- 7" ++ lf ++ str "- 9" ++ lf ++ str "note:".
Definition sizes_tree : tree :=
  TrBlockMap no_props [(plain_key Plain (str "sizes"), VNode (TrIndentless no_props [Some (TrScalar no_props Plain (str "7")); Some (TrScalar no_props Plain (str "9"))]));
    (plain_key Plain (str "note"), VEmpty)].
Definition sizes_node : dnode :=
  NMap 0 None [(scalar_node Plain (str "sizes"), NSeq 0 None [scalar_node Plain (str "7"); scalar_node Plain (str "9")]); (scalar_node Plain (str "note"), missing_dnode)].
Definition sizes_type (hi : Z) : target := DMap DString (DOption (DVec (DInt 0 hi))).
Lemma sizes_stream : stream sizes 0 [Doc [] false (Some sizes_tree) 0].
Proof.
  refine (sm_bare false [] 0 sizes _ None [] 0 [] _ _ _).
  - constructor.
  - apply nd_map; [lia|]. apply (es_more 0 (str "sizes:" ++ lf ++ str "- 7" ++ lf ++ str "- 9") _ None lf).
    + apply (en_dashes 0 (str "sizes") (TrScalar no_props Plain (str "sizes")) 0 lf (str "- 7" ++ lf ++ str "- 9")); [one_line_key|exact (next_plain 0)|].
      apply (it_more 0 (str " 7") _ None lf (str "- 9")); [|exact (ow_plain 0)|].
      -- apply (pt_beside true 0 1 0). apply nd_scalar; [lia|word].
      -- apply (it_one 0 (str " 9")). apply (pt_beside true 0 1 0). apply nd_scalar; [lia|word].
    + exact (ow_plain 0).
    + apply es_one. apply (en_empty 0 (str "note") (TrScalar no_props Plain (str "note")) 0). one_line_key.
  - apply tl_end, fi_line, te_rest; exact (lr_spaces 0).
Qed.
Lemma sizes_is : part_is (Some sizes_tree) sizes_node.
Proof.
  assert (K : forall st v, key_is_node (plain_key st v) (scalar_node st v)) by (intros; apply ki_node, ti_scalar).
  apply pi_node, ti_map. constructor; [|constructor; [|constructor]].
  - apply pa_pair; [apply K|]. apply vi_node, ti_dashes. repeat constructor.
  - apply pa_pair; [apply K|constructor].
Qed.
Lemma stands_behind t (n : dnode) x fuel rest last d : reads false t = true -> known_fields t n ->
  de fuel t (Des (node_yams n ++ rest) last false) = (d, DOk x) ->
  denotes taken_for_null (fun n => ~ taken_for_null n) t n x /\ d_rest d = rest /\ d_peeked d = false.
Proof. intros R S E. destruct (de_only t n x fuel rest last false d R S E) as [D ->]. auto. Qed.
Lemma config_known : known_fields config_type config_node.
Proof.
  split; [repeat constructor; cbn; intuition discriminate|]. split; [discriminate|]. intros a g l E. injection E as <- <- <-. split.
  { repeat constructor; eexists; (split; [eexists; split; [reflexivity|vm_compute; reflexivity]|cbn; tauto]). }
  repeat match goal with |- _ /\ _ => split end; try exact I; apply Forall_forall; intros e _ _; now apply no_structs_known.
Qed.
