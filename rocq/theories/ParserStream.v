(** The parser delivers the events of whole streams (C09, C10). *)
From Verif Require Import Base Tokens Parser ParserRun SpecEvents SpecTree SpecStream.
From Verif Require Import ParserProofs ParserStep ParserStates ParserTheorems ParserTerm ParserLoad ParserSim ParserTree.
From Coq Require Import Lia String List.
Local Open Scope list_scope.

Lemma toks_length_cached t r p : p_toks (cached t r p) = r.
Proof. reflexivity. Qed.

(** ** Skipping [...] markers *)
Lemma must_ends n : forall fuel p c rest (Q : parser -> unit -> Prop),
  n < fuel -> vt p = repeat TDocumentEnd n ++ c :: rest -> c <> TDocumentEnd ->
  (forall q, vt q = c :: rest -> same p q -> p_anchors q = p_anchors p ->
     p_anchor_id_count q = p_anchor_id_count p -> p_keep_tags q = p_keep_tags p -> Q q tt) ->
  must (skip_document_ends fuel) p Q.
Proof.
  induction n as [|n IH]; intros [|fuel] p c rest Q Hf Hv Hc HQ; try lia; cbn [skip_document_ends]; apply must_bind.
  - cbn in Hv. mpeek Hv. rewrite Et.
    assert (HO : must (ret tt) (cached t r p) Q).
    { apply must_ret, HQ; [vtok|repeat split|reflexivity..]. }
    destruct c; try exact HO. congruence.
  - cbn in Hv. mpeek Hv. rewrite Et. apply must_bind, must_modify.
    eapply (IH fuel _ c rest); [lia|exact Er|exact Hc|]. intros q Hq Hs H1 H2 H3. apply HQ; auto.
Qed.
Lemma ends_fuel n p c rest : vt p = repeat TDocumentEnd n ++ c :: rest ->
  n < S (S (List.length (p_toks p))).
Proof.
  intros H. assert (HL : List.length (vt p) = n + S (List.length rest))
    by (rewrite H, app_length, repeat_length; reflexivity).
  unfold vt, view in HL. rewrite map_length in HL. destruct (p_token p); cbn in HL; lia.
Qed.

(** ** Directives: none, or one *)
Lemma must_dirs_none p c rest (Q : parser -> unit -> Prop) : vt p = c :: rest ->
  (forall d, c <> dir_tok d) ->
  (forall q, vt q = c :: rest -> same p q -> p_anchors q = p_anchors p ->
     p_anchor_id_count q = p_anchor_id_count p -> p_keep_tags q = p_keep_tags p -> Q q tt) ->
  forall fuel vr, 0 < fuel -> must (process_directives_loop fuel vr) p Q.
Proof.
  intros Hv Hc HQ [|fuel] vr Hf; [lia|]. cbn [process_directives_loop]. apply must_bind. mpeek Hv. rewrite Et.
  assert (HO : must (ret tt) (cached t r p) Q).
  { apply must_ret, HQ; [vtok|repeat split|reflexivity..]. }
  destruct c; try exact HO; exfalso; [eapply (Hc (DVersion _ _))|eapply (Hc (DTag _ _))]; reflexivity.
Qed.
Lemma last_table_cons d d2 l : last_table (d :: d2 :: l) = last_table (d2 :: l).
Proof.
  unfold last_table. change (rev (d :: d2 :: l)) with (rev (d2 :: l) ++ [d]).
  destruct (rev (d2 :: l)) as [|x r] eqn:E; [|reflexivity].
  apply (f_equal (@List.length _)) in E. rewrite rev_length in E. discriminate.
Qed.
Lemma must_dirs dirs : forall p c rest (Q : parser -> unit -> Prop) fuel (vr : bool),
  vt p = map dir_tok dirs ++ c :: rest ->
  (forall d, c <> dir_tok d) -> versions dirs + (if vr then 1 else 0) <= 1 ->
  List.length dirs < fuel ->
  (forall q, vt q = c :: rest -> p_state q = p_state p -> p_states q = p_states p ->
     p_tags q = match dirs with [] => p_tags p | _ => last_table dirs end ->
     p_current q = p_current p -> p_anchors q = p_anchors p ->
     p_anchor_id_count q = p_anchor_id_count p -> p_keep_tags q = p_keep_tags p -> Q q tt) ->
  must (process_directives_loop fuel vr) p Q.
Proof.
  induction dirs as [|d dirs IH]; intros p c rest Q fuel vr Hv Hc Hver Hf HQ.
  { eapply must_dirs_none; [exact Hv|exact Hc| |lia].
    intros q H (S1 & S2 & S3 & S4) H1 H2 H3. apply HQ; auto. }
  destruct fuel as [|fuel]; [cbn in Hf; lia|].
  cbn [process_directives_loop]. apply must_bind. cbn [map app] in Hv. mpeek Hv. rewrite Et.
  assert (HT : forall (q : parser) (tg : list (text * text)),
     p_tags q = match dirs with [] => tg | _ => last_table dirs end -> tg = dirs_table [d] ->
     p_tags q = last_table (d :: dirs)).
  { intros q tg H ->. destruct dirs; [rewrite H; reflexivity|rewrite last_table_cons; exact H]. }
  destruct d as [a b|h x]; cbn [dir_tok].
  - destruct vr; [unfold versions in Hver; cbn in Hver; lia|].
    apply must_bind, must_modify, must_bind, must_modify.
    eapply (IH _ c rest); [exact Er|exact Hc|unfold versions in *; cbn in Hver |- *; lia|cbn in Hf; lia|].
    intros q H S1 S2 S3 S4 H1 H2 H3. apply HQ; auto. eapply HT; [exact S3|reflexivity].
  - cbn [map_get is_some]. apply must_bind, must_modify, must_bind, must_modify.
    eapply (IH _ c rest); [exact Er|exact Hc|exact Hver|cbn in Hf; lia|].
    intros q H S1 S2 S3 S4 H1 H2 H3. apply HQ; auto. eapply HT; [exact S3|reflexivity].
Qed.
Lemma dirs_fuel (dirs : list directive) p c rest : vt p = map dir_tok dirs ++ c :: rest ->
  List.length dirs < S (S (List.length (p_toks p))).
Proof.
  intros H. assert (HL : List.length (vt p) = List.length dirs + S (List.length rest))
    by (rewrite H, app_length, map_length; reflexivity).
  unfold vt, view in HL. rewrite map_length in HL. destruct (p_token p); cbn in HL; lia.
Qed.

(** ** Starting a document *)
Definition doc_start (free : bool) : pst := if free then StImplicitDocumentStart else StDocumentStart.
Definition not_end (v : list token_type) : Prop := match v with [] | TDocumentEnd :: _ => False | _ => True end.

Lemma dir_not_start d : dir_tok d <> TDocumentStart.
Proof. destruct d; discriminate. Qed.
Lemma dir_not_end d : dir_tok d <> TDocumentEnd.
Proof. destruct d; discriminate. Qed.
Lemma head_not_dir c : head_tok c = true -> forall d, c <> dir_tok d.
Proof. intros H [a b|h x] ->; discriminate. Qed.
Lemma table_same before p q : table_ok before p -> p_anchors q = p_anchors p ->
  p_anchor_id_count q = p_anchor_id_count p -> table_ok before q.
Proof. intros [H1 H2] E1 E2. split; [congruence|]. intros m. rewrite E1. apply H2. Qed.

(** The parser is right before the documents [ds], after [n] markers. *)
Record before_doc (p : parser) (free : bool) (v : list token_type) (before : list text)
  (keep : bool) (prev : list (text * text)) : Prop := {
  bd_state : p_state p = doc_start free; bd_states : p_states p = []; bd_vt : vt p = v;
  bd_table : table_ok before p; bd_tags : p_tags p = if keep then prev else [];
  bd_keep : p_keep_tags p = keep; bd_current : p_current p = None }.

Lemma stop_doc c : c = TDocumentStart \/ c = TDocumentEnd \/ c = TStreamEnd -> stop_tok false c = true.
Proof. intros [->|[->| ->]]; reflexivity. Qed.

(** What may follow the root of a document. *)
Definition follows (n : nat) (v : list token_type) : Prop :=
  match n with
  | O => match v with TDocumentStart :: _ | TStreamEnd :: _ => True | _ => False end
  | S _ => True
  end.

Lemma document_end_runs p v n before keep tg :
  at_ p StDocumentEnd [] (repeat TDocumentEnd n ++ v) before tg -> p_keep_tags p = keep ->
  follows n v ->
  runs p [EDocumentEnd] (fun q => before_doc q (Nat.ltb 0 n) (repeat TDocumentEnd (pred n) ++ v) before keep tg).
Proof.
  intros [A1 A2 A3 A4 A5 A6] Hk Hfl.
  eapply (runs_step _ document_end); [exact A6|congruence|unfold state_machine; rewrite A1; reflexivity|].
  unfold document_end. apply must_bind. destruct n as [|n].
  - cbn in A3. destruct v as [|c v]; [destruct Hfl|]. mpeek A3. cbv zeta. rewrite Et.
    assert (Hc : c = TDocumentStart \/ c = TStreamEnd) by (destruct c; cbn in Hfl; tauto).
    assert (E : match c with TDocumentEnd => true | _ => false end = false) by (destruct Hc as [->| ->]; reflexivity).
    rewrite E. apply must_bind, must_ret. apply must_bind, must_modify, must_bind.
    match goal with |- must _ ?p0 _ => assert (Hv2 : vt p0 = c :: v) end.
    { cbn. destruct (p_keep_tags p); vtok. }
    mpeek Hv2. rewrite Et0.
    match goal with |- must _ ?p0 ?Q0 =>
      assert (HO : must (goto StDocumentStart ;;; ret (EDocumentEnd, k_span t))%m p0 Q0) end.
    { apply must_bind, must_modify, must_ret. exists []. split; [reflexivity|]. apply runs_nil.
      cbn [p_keep_tags cached set_token set_toks] in *.
      destruct A4 as [T1 T2].
      destruct (p_keep_tags p) eqn:Ek; subst keep; split; auto; try vtok; try (split; auto). }
    destruct Hc as [->| ->]; exact HO.
  - cbn in A3. mpeek A3. cbv zeta. rewrite Et. apply must_bind, must_modify. apply must_bind, must_modify.
    apply must_bind, must_modify, must_ret. exists []. split; [reflexivity|]. apply runs_nil.
    cbn [p_keep_tags cached set_token set_toks] in *.
    destruct A4 as [T1 T2].
    destruct (p_keep_tags p) eqn:Ek; subst keep; split; auto; try vtok; try (split; auto).
Qed.

Lemma trace_keep p l q : trace p l q -> good p -> p_current p = None ->
  p_keep_tags q = p_keep_tags p.
Proof.
  induction 1 as [p|p q r e l H HT IH]; intros Hg Hc; [reflexivity|].
  destruct (impl_frame _ _ _ Hg Hc H) as (G & C & _). rewrite (IH G C).
  unfold next_event_impl in H. rewrite Hc in H. unfold parse in H.
  destruct (p_state p) eqn:E; try (
    assert (Hne : p_state p <> StEnd) by congruence;
    destruct (state_machine_ok p Hg Hne) as [F _]; rewrite H in F; apply F).
  inversion H; reflexivity.
Qed.
Lemma runs_keep p es (Q : parser -> Prop) : good p -> p_current p = None -> runs p es Q ->
  runs p es (fun q => Q q /\ p_keep_tags q = p_keep_tags p).
Proof. intros Hg Hc (l & q & HT & Hl & HQ). exists l, q. repeat split; auto. eapply trace_keep; eassumption. Qed.

(** The first token of the part of a document after the directives. *)
Lemma doc_after_dirs tags d v before e :
  (d_explicit d = false -> d_root d <> None) ->
  match d_root d with Some t => block_tree false t | None => True end ->
  opt_events (tree_events tags) before (d_root d) = Some e ->
  follows (d_ends d) v ->
  exists c r, (if d_explicit d then [TDocumentStart] else []) ++ opt_list tree_toks (d_root d) ++
              repeat TDocumentEnd (d_ends d) ++ v = c :: r /\
   (d_explicit d = true -> c = TDocumentStart) /\ (d_explicit d = false -> head_tok c = true).
Proof.
  intros H1 H2 H3 H4. destruct (d_explicit d).
  - eexists; eexists; split; [reflexivity|]. split; [reflexivity|discriminate].
  - destruct (d_root d) as [t|]; [|exfalso; apply H1; auto].
    pose proof (tree_head false t (or_intror H2)) as Hh. cbn [opt_list app].
    destruct (tree_toks t) as [|c r]; [destruct Hh|]. eexists; eexists; split; [reflexivity|].
    split; [discriminate|auto].
Qed.

Lemma follows_starts n v : follows n v -> exists c r, repeat TDocumentEnd n ++ v = c :: r /\
  (c = TDocumentStart \/ c = TDocumentEnd \/ c = TStreamEnd).
Proof.
  destruct n; cbn.
  - destruct v as [|[] v]; try tauto; intros _; eexists; eexists; (split; [reflexivity|tauto]).
  - intros _; eexists; eexists; (split; [reflexivity|tauto]).
Qed.

(** The root node of a document. *)
Lemma root_runs tags d v p before e tg (b : bool) :
  at_ p (if b then StDocumentContent else StBlockNode) [StDocumentEnd]
    (opt_list tree_toks (d_root d) ++ repeat TDocumentEnd (d_ends d) ++ v) before tg ->
  (b = false -> d_root d <> None) ->
  match d_root d with Some t => block_tree false t | None => True end ->
  tags_ok tags tg -> opt_events (tree_events tags) before (d_root d) = Some e ->
  follows (d_ends d) v ->
  runs p e (fun q => at_ q StDocumentEnd [] (repeat TDocumentEnd (d_ends d) ++ v)
                       (before ++ names_of (opt_list tree_toks (d_root d))) tg).
Proof.
  intros [A1 A2 A3 A4 A5 A6] Hb Hw Htags He Hfl.
  destruct (follows_starts _ _ Hfl) as (c & r & Ev & Hc). rewrite Ev in *. clear Ev.
  eapply (runs_step _ (if b then document_content else parse_node true false));
    [exact A6|destruct b; congruence|unfold state_machine; rewrite A1; destruct b; reflexivity|].
  destruct (d_root d) as [t|].
  - cbn [opt_list opt_events] in *.
    assert (HN : forall p1, in_ p1 [StDocumentEnd] (tree_toks t ++ c :: r) before tg ->
      must (parse_node true false) p1 (fun q x => exists es, e = fst x :: es /\
        runs q es (fun q0 => at_ q0 StDocumentEnd [] (c :: r) (before ++ names_of (tree_toks t)) tg))).
    { intros p1 (B1 & B2 & B3 & B4 & B5). rewrite <- B4.
      apply (reads_all t tags true false p1); auto; try congruence.
      - cbn. apply stop_doc, Hc.
      - rewrite B4; exact Htags. }
    destruct b; [|apply HN; repeat split; auto; apply A4].
    unfold document_content. apply must_bind.
    pose proof (tree_head false t (or_intror Hw)) as Hh.
    destruct (tree_toks t) as [|c0 r0] eqn:Ett; [destruct Hh|]. cbn in Hh. mpeek A3. rewrite Et.
    match goal with |- must _ ?p0 ?Q0 => assert (HO : must (parse_node true false) p0 Q0) end.
    { apply HN. repeat split; auto; try apply A4. vtok. }
    destruct c0; try discriminate Hh; exact HO.
  - destruct b; [|exfalso; apply Hb; reflexivity].
    cbn in He; inversion He; subst e. cbn [opt_list app names_of] in *. rewrite app_nil_r.
    unfold document_content. apply must_bind. mpeek A3. rewrite Et.
    match goal with |- must _ ?p0 ?Q0 =>
      assert (HO : must (pop_state ;;; ret (ev_empty_scalar, k_span t))%m p0 Q0) end.
    { apply must_bind. eapply must_pop; [exact A2|]. apply must_ret. exists []. split; [reflexivity|].
      apply runs_nil. split; auto. vtok. }
    destruct Hc as [->|[->| ->]]; exact HO.
Qed.

Lemma names_ends n : names_of (repeat TDocumentEnd n) = [].
Proof. induction n; auto. Qed.
Lemma names_dirs l : names_of (map dir_tok l) = [].
Proof. induction l as [|[] l IH]; auto. Qed.

Lemma expl_start p d (dirs : list directive) keep prev before rest free n :
  before_doc p free (repeat TDocumentEnd n ++ map dir_tok dirs ++ TDocumentStart :: rest) before keep prev ->
  versions dirs <= 1 -> d_dirs d = dirs ->
  forall (Q : parser -> event * span -> Prop),
  (forall q sp, at_ q StDocumentContent [StDocumentEnd] rest before (doc_table last_table keep prev d) ->
     Q q (EDocumentStart true, sp)) ->
  must (document_start free) p Q.
Proof.
  intros [B1 B2 B3 B4 B5 B6 B7] Hl Hd Q HQ. unfold document_start. apply must_bind.
  assert (Hrest : exists c r, map dir_tok dirs ++ TDocumentStart :: rest = c :: r /\ c <> TDocumentEnd /\
     match c with TStreamEnd => False | TVersionDirective _ _ | TTagDirective _ _ | TDocumentStart => True | _ => False end).
  { destruct dirs as [|[] dirs]; cbn; eexists; eexists; (split; [reflexivity|]); (split; [discriminate|exact I]). }
  destruct Hrest as (c & r & Er & Hc1 & Hc2).
  assert (Hfu := ends_fuel n p c r). rewrite Er in B3. specialize (Hfu B3).
  match goal with |- must ?m p ?Q0 =>
    change (must (skip_document_ends (S (S (List.length (p_toks p))))) p Q0) end.
  eapply must_ends; [exact Hfu|exact B3|exact Hc1|].
  intros q Hq (S1 & S2 & S3 & S4) H1 H2 H3. apply must_bind. mpeek Hq. rewrite Et.
  assert (Hv1 : vt (cached t r0 q) = c :: r) by vtok. rewrite <- Er in Hv1.
  assert (Ht1 : table_ok before (cached t r0 q)) by (eapply table_same; [exact B4|exact H1|exact H2]).
  match goal with |- must _ ?p0 ?Q0 => assert (HO : must explicit_document_start p0 Q0) end.
  { unfold explicit_document_start. apply must_bind.
    assert (HD : forall q2, vt q2 = TDocumentStart :: rest -> p_states q2 = [] ->
       table_ok before q2 -> p_tags q2 = doc_table last_table keep prev d -> p_current q2 = None ->
       must (let* tk := peek_token in
             match k_type tk with
             | TDocumentStart =>
                 push_state StDocumentEnd ;;; goto StDocumentContent ;;; skip ;;;
                 ret (EDocumentStart true, k_span tk)
             | _ => perr (k_span tk) "did not find expected <document start>"
             end)%m q2 Q).
    { intros q2 D1 D2 D3 D4 D5. apply must_bind. mpeek D1. rewrite Et0.
      apply must_bind, must_modify, must_bind, must_modify, must_bind, must_modify, must_ret.
      apply HQ. split; auto. cbn. rewrite D2. reflexivity. }
    unfold process_directives.
    match goal with |- must ?m ?p0 ?Q0 =>
      change (must (process_directives_loop (S (S (List.length (p_toks p0)))) false) p0 Q0) end.
    eapply (must_dirs dirs); [exact Hv1|intros d0 X; symmetry in X; exact (dir_not_start _ X)|lia|
      eapply dirs_fuel; exact Hv1|].
    intros q2 D1 T1 T2 T3 T4 D2 D3 D4. apply HD; auto; cbn in *; try congruence.
    + eapply table_same; [exact Ht1|exact D2|exact D3].
    + unfold doc_table. rewrite Hd. destruct dirs; [congruence|exact T3]. }
  destruct c; try contradiction; exact HO.
Qed.

Lemma impl_start p d keep prev before c rest n :
  before_doc p true (repeat TDocumentEnd n ++ c :: rest) before keep prev ->
  head_tok c = true -> d_dirs d = [] ->
  forall (Q : parser -> event * span -> Prop),
  (forall q sp, at_ q StBlockNode [StDocumentEnd] (c :: rest) before (doc_table last_table keep prev d) ->
     Q q (EDocumentStart false, sp)) ->
  must (document_start true) p Q.
Proof.
  intros [B1 B2 B3 B4 B5 B6 B7] Hc Hd Q HQ. unfold document_start. apply must_bind.
  assert (Hfu := ends_fuel n p c rest B3).
  match goal with |- must ?m p ?Q0 =>
    change (must (skip_document_ends (S (S (List.length (p_toks p))))) p Q0) end.
  eapply must_ends; [exact Hfu|exact B3|intros ->; discriminate|].
  intros q Hq (S1 & S2 & S3 & S4) H1 H2 H3. apply must_bind. mpeek Hq. rewrite Et.
  assert (Hv1 : vt (cached t r q) = c :: rest) by vtok.
  match goal with |- must _ ?p0 ?Q0 => 
    assert (HO : must (process_directives ;;; push_state StDocumentEnd ;;; goto StBlockNode ;;;
        ret (EDocumentStart false, k_span t))%m p0 Q0) end.
  { apply must_bind. unfold process_directives.
    match goal with |- must ?m ?p0 ?Q0 =>
      change (must (process_directives_loop (S (S (List.length (p_toks p0)))) false) p0 Q0) end.
    eapply must_dirs_none; [exact Hv1|apply head_not_dir, Hc| |lia].
    intros q2 D1 (T1 & T2 & T3 & T4) D2 D3 D4.
    apply must_bind, must_modify, must_bind, must_modify, must_ret. apply HQ.
    split; auto; cbn in *; try congruence.
    - eapply table_same; [exact B4|cbn; congruence|cbn; congruence].
    - unfold doc_table. rewrite Hd. congruence. }
  destruct c; try discriminate Hc; exact HO.
Qed.

Lemma docs_run keep ds : forall prev before es, docs_mean last_table keep prev before ds es ->
  forall free p n, Forall one_version ds -> docs_ok free ds ->
  before_doc p free (repeat TDocumentEnd n ++ flat_map doc_toks ds ++ [TStreamEnd]) before keep prev ->
  runs p (es ++ [EStreamEnd]) (fun _ => True).
Proof.
  induction ds as [|d ds IH]; intros prev before es HM free p n H1 Hok HB.
  - inversion HM; subst. cbn [flat_map app] in *. destruct HB as [B1 B2 B3 B4 B5 B6 B7].
    eapply (runs_step _ (document_start free)); [exact B7|rewrite B1; destruct free; discriminate|
      unfold state_machine; rewrite B1; destruct free; reflexivity|].
    unfold document_start. apply must_bind.
    assert (Hfu := ends_fuel n p _ _ B3).
    match goal with |- must ?m p ?Q0 =>
      change (must (skip_document_ends (S (S (List.length (p_toks p))))) p Q0) end.
    eapply must_ends; [exact Hfu|exact B3|discriminate|].
    intros q Hq (S1 & S2 & S3 & S4) E1 E2 E3. apply must_bind. mpeek Hq. rewrite Et.
    apply must_bind, must_modify, must_bind, must_modify, must_ret.
    exists []. split; [reflexivity|]. apply runs_nil. exact I.
  - inversion HM as [|? ? ? ? tags e es' Htags He HM']; subst. clear HM.
    inversion H1 as [|? ? Hd1 H1']; subst. destruct Hok as [(Hdirs & Hexp & Hroot) Hok].
    cbn [flat_map] in HB. unfold doc_toks in HB. rewrite <- !app_assoc in HB.
    set (v := flat_map doc_toks ds ++ [TStreamEnd]) in *.
    assert (Hfl : follows (d_ends d) v).
    { unfold v. destruct ds as [|d2 ds]; [destruct (d_ends d); exact I|].
      destruct Hok as [(K1 & K2 & K3) _]. cbn [flat_map]. rewrite <- app_assoc. unfold doc_toks at 1.
      destruct (d_ends d) as [|m].
      - cbn in K1, K2. destruct (d_dirs d2); [|exfalso; destruct K1; [discriminate|discriminate]].
        destruct (d_explicit d2); [exact I|exfalso; destruct K2; [reflexivity|discriminate]].
      - exact I. }
    assert (Hgood : good p).
    { destruct HB as [B1 B2 _ _ _ _ _]. unfold good. rewrite B1, B2. destruct free; repeat split. }
    assert (Hk := bd_keep _ _ _ _ _ _ HB). assert (Hcur := bd_current _ _ _ _ _ _ HB).
    assert (Hst := bd_state _ _ _ _ _ _ HB).
    assert (Hnames : names_of (opt_list tree_toks (d_root d)) = names_of (doc_toks d)).
    { unfold doc_toks. rewrite !names_of_app, names_dirs, names_ends.
      destruct (d_explicit d); cbn; rewrite app_nil_r; reflexivity. }
    assert (HR : runs p (EDocumentStart (d_explicit d) :: e)
      (fun q => at_ q StDocumentEnd [] (repeat TDocumentEnd (d_ends d) ++ v)
                  (before ++ names_of (doc_toks d)) (doc_table last_table keep prev d))).
    { rewrite <- Hnames.
      destruct (d_explicit d) eqn:Ex.
      - eapply (runs_step _ (document_start free)); [exact Hcur|rewrite Hst; destruct free; discriminate|
          unfold state_machine; rewrite Hst; destruct free; reflexivity|].
        cbn [app] in HB. eapply expl_start; [exact HB|exact Hd1|reflexivity|].
        intros q sp Hq. exists e. split; [reflexivity|].
        eapply (root_runs tags d v q before e _ true); eauto; try discriminate.
      - destruct (Hexp eq_refl) as [Hne Hfree]. subst free.
        assert (Hdn : d_dirs d = []).
        { destruct (d_dirs d); [reflexivity|]. destruct Hdirs as [X _]; [discriminate|congruence]. }
        rewrite Hdn in HB. cbn [map app] in HB.
        destruct (d_root d) as [t|] eqn:Ert; [|congruence]. cbn [opt_list] in HB.
        pose proof (tree_head false t (or_intror Hroot)) as Hh.
        destruct (tree_toks t) as [|c r] eqn:Ett; [destruct Hh|]. cbn [app] in HB.
        eapply (runs_step _ (document_start true)); [exact Hcur|rewrite Hst; discriminate|
          unfold state_machine; rewrite Hst; reflexivity|].
        eapply impl_start; [exact HB|exact Hh|exact Hdn|].
        intros q sp Hq. exists e. split; [reflexivity|].
        rewrite <- Ert. eapply (root_runs tags d v q before e _ false); eauto; try (rewrite Ert; auto; congruence).
        rewrite Ert. cbn [opt_list]. rewrite Ett. exact Hq. }
    apply (runs_keep _ _ _ Hgood Hcur) in HR.
    change (runs p ((EDocumentStart (d_explicit d) :: e ++ EDocumentEnd :: es') ++ [EStreamEnd]) (fun _ => True)).
    replace ((EDocumentStart (d_explicit d) :: e ++ EDocumentEnd :: es') ++ [EStreamEnd])
      with ((EDocumentStart (d_explicit d) :: e) ++ [EDocumentEnd] ++ (es' ++ [EStreamEnd]))
      by (cbn; rewrite <- app_assoc; reflexivity).
    apply runs_app. eapply runs_conseq; [exact HR|]. intros q [Hq Hkq]. rewrite Hk in Hkq.
    apply runs_app. eapply runs_conseq; [eapply document_end_runs; [exact Hq|exact Hkq|exact Hfl]|].
    intros q2 Hq2. eapply (IH _ _ _ HM' _ q2 (pred (d_ends d))); eauto.
Qed.

Definition no_end (o : option (list event)) : Prop :=
  match o with Some l => ~ In EStreamEnd l | None => True end.
Lemma no_end_bind (o : option (list event)) (f : list event -> option (list event)) :
  no_end o -> (forall l, ~ In EStreamEnd l -> no_end (f l)) -> no_end (obind o f).
Proof. destruct o; cbn; auto. Qed.
Lemma no_end_list {A} (f : list text -> A -> option (list event)) toks l :
  all_of (fun x => forall b, no_end (f b x)) l -> forall b, no_end (list_events f toks b l).
Proof.
  induction l as [|x l IH]; intros H b; cbn; [tauto|]. destruct H as [H1 H2].
  apply no_end_bind; [apply H1|]. intros l1 K1. apply no_end_bind; [apply IH, H2|].
  intros l2 K2. cbn. rewrite in_app_iff. tauto.
Qed.
Lemma all_of_impl {A} (P Q : A -> Prop) l : (forall x, P x -> Q x) -> all_of P l -> all_of Q l.
Proof. intros H. induction l as [|x l IH]; cbn; [tauto|]. intros [H1 H2]; auto. Qed.
Lemma no_end_tree tags t : forall before, no_end (tree_events tags before t).
Proof.
  set (P := fun t => forall before, no_end (tree_events tags before t)).
  assert (HV : forall v, value_all P v -> forall b, no_end (value_events (tree_events tags) b v)).
  { intros [| |a] H b; cbn; [intuition discriminate..|apply H]. }
  assert (HO : forall o, match o with Some t => P t | None => True end ->
             forall b, no_end (opt_events (tree_events tags) b o)).
  { intros [a|] H b; cbn; [apply H|intuition discriminate]. }
  assert (HP : forall x, key_all P (fst x) /\ value_all P (snd x) ->
             forall b, no_end (pair_events (tree_events tags) tree_toks b x)).
  { intros [k v] [H1 H2] b; cbn [pair_events fst snd] in *. apply no_end_bind.
    - destruct k as [| |a|a]; cbn; [intuition discriminate..|apply H1|apply H1].
    - intros l Hl. apply no_end_bind; [apply HV, H2|]. intros l2 Hl2. cbn. rewrite in_app_iff. tauto. }
  assert (HI : forall x, item_all P x -> forall b, no_end (item_events (tree_events tags) tree_toks b x)).
  { intros [a|k v] H b; cbn; [apply H|]. destruct H as [H1 H2]. apply no_end_bind; [apply H1|].
    intros l Hl. apply no_end_bind; [apply HV, H2|]. intros l2 Hl2. cbn.
    rewrite !in_app_iff. cbn. intuition discriminate. }
  assert (HE : forall a b (o : option (list event)), a <> EStreamEnd -> b <> EStreamEnd -> no_end o -> no_end (enclose a b o)).
  { intros a b o Ha Hb Ho. apply no_end_bind; [exact Ho|]. intros l Hl. cbn. rewrite in_app_iff. cbn. tauto. }
  assert (HT : forall pr (f : option tag -> option (list event)), (forall tg, no_end (f tg)) -> no_end (obind (props_tag tags pr) f)).
  { intros pr f H. destruct (props_tag tags pr); cbn; [apply H|exact I]. }
  change (P t). induction t using tree_ind'; intros before; cbn [tree_events].
  - apply HT. intros tg. cbn. intuition discriminate.
  - destruct (last_index n before); cbn; [intuition discriminate|exact I].
  - apply HT. intros tg. cbn. intuition discriminate.
  - apply HT. intros tg. apply HE; try discriminate. apply no_end_list. eapply all_of_impl; [|exact H]. exact HI.
  - apply HT. intros tg. apply HE; try discriminate. apply no_end_list. eapply all_of_impl; [|exact H]. exact HP.
  - apply HT. intros tg. apply HE; try discriminate. apply no_end_list. eapply all_of_impl; [|exact H]. exact HO.
  - apply HT. intros tg. apply HE; try discriminate. apply no_end_list. eapply all_of_impl; [|exact H]. exact HP.
  - apply HT. intros tg. apply HE; try discriminate. apply no_end_list. eapply all_of_impl; [|exact H]. exact HO.
Qed.

Theorem stream_read_last keep lead ds evs toks e mk n :
  Forall one_version ds -> docs_ok true ds -> stream_means last_table keep ds evs ->
  map k_type toks = stream_toks lead ds -> List.length evs <= n ->
  events_of n (new_parser toks e mk keep) = evs.
Proof.
  intros H1 H2 (es & -> & HM) Ht Hn.
  assert (HR : runs (new_parser toks e mk keep) (EStreamStart :: es ++ [EStreamEnd]) (fun _ => True)).
  { eapply (runs_step _ stream_start); [reflexivity|discriminate|reflexivity|].
    unfold stream_start. apply must_bind. unfold stream_toks in Ht.
    eapply must_peek; [exact Ht|]. intros t r Et Er. rewrite Et.
    apply must_bind, must_modify, must_bind, must_modify, must_ret. exists (es ++ [EStreamEnd]).
    split; [reflexivity|]. eapply (docs_run keep ds [] [] es HM true _ lead H1 H2).
    split; auto; try (destruct keep; reflexivity). split; [reflexivity|intros m; reflexivity]. }
  destruct HR as (l & q & HT & Hl & _). rewrite <- Hl.
  eapply trace_events; [exact HT|repeat split|reflexivity|reflexivity| |rewrite <- (map_length fst), Hl; exact Hn].
  rewrite Hl. exists (EStreamStart :: es). split; [reflexivity|]. intros [X|X]; [discriminate|].
  clear - HM X. induction HM; [exact X|]. 
  destruct X as [X|X]; [discriminate|]. apply in_app_iff in X as [X|[X|X]]; [|discriminate|auto].
  destruct (d_root d) as [t|]; cbn in H0.
  - pose proof (no_end_tree tags t before) as N. rewrite H0 in N. exact (N X).
  - inversion H0; subst. destruct X as [X|[]]; discriminate.
Qed.

Lemma last_is_all l : List.length l <= 1 -> last_table l = dirs_table l.
Proof. destruct l as [|d [|d2 l]]; cbn; try reflexivity. lia. Qed.
Lemma docs_mean_one keep tg before ds es : Forall one_directive ds ->
  docs_mean dirs_table keep tg before ds es -> docs_mean last_table keep tg before ds es.
Proof.
  intros H HM. induction HM; [constructor|]. inversion H as [|? ? Hd Hds]; subst.
  assert (E : doc_table last_table keep tg d = doc_table dirs_table keep tg d).
  { unfold doc_table. unfold one_directive in Hd. destruct (d_dirs d); [reflexivity|].
    rewrite last_is_all by exact Hd. reflexivity. }
  econstructor; [rewrite E; eassumption|eassumption|rewrite E; auto].
Qed.
Theorem stream_read keep lead ds evs toks e mk n :
  Forall one_directive ds -> docs_ok true ds -> stream_means dirs_table keep ds evs ->
  map k_type toks = stream_toks lead ds -> List.length evs <= n ->
  events_of n (new_parser toks e mk keep) = evs.
Proof.
  intros H1 H2 (es & -> & HM). apply stream_read_last; auto.
  - eapply Forall_impl; [|exact H1]. intros d Hd. unfold one_directive, one_version, versions in *.
    destruct (d_dirs d) as [|[] [|]]; cbn in *; lia.
  - exists es. split; [reflexivity|]. apply docs_mean_one; auto.
Qed.

(** ** Two version directives *)
Lemma dirs_twice dirs : forall p c rest fuel (vr : bool),
  vt p = map dir_tok dirs ++ c :: rest ->
  2 <= versions dirs + (if vr then 1 else 0) -> versions dirs > 0 ->
  List.length dirs < fuel ->
  exists q err, process_directives_loop fuel vr p = (q, Err err).
Proof.
  induction dirs as [|d dirs IH]; intros p c rest fuel vr Hv Hver Hp Hf; [cbn in Hp; lia|].
  destruct fuel as [|fuel]; [cbn in Hf; lia|]. cbn [map app] in Hv.
  assert (HP : must peek_token p (fun q t => q = cached t (p_toks q) p /\ k_type t = dir_tok d /\
            map k_type (p_toks q) = map dir_tok dirs ++ c :: rest)).
  { eapply must_peek; [exact Hv|]. intros t r Et Er. auto. }
  destruct HP as (q & t & Hq & Eq & Et & Er).
  cbn [process_directives_loop]. unfold bind at 1. rewrite Hq, Et. destruct d as [a b|h x]; cbn [dir_tok].
  - destruct vr; [eexists; eexists; reflexivity|].
    apply (IH (set_token None (set_tags [] q)) c rest fuel true).
    + rewrite Eq. exact Er.
    + unfold versions in *; cbn in Hver |- *; lia.
    + unfold versions in *; cbn in Hver |- *; lia.
    + cbn in Hf; lia.
  - cbn [map_get is_some].
    apply (IH (set_token None (set_tags (map_insert h x []) q)) c rest fuel vr); auto; try (rewrite Eq; exact Er); cbn in Hf; lia.
Qed.

Theorem two_versions_rejected toks e mk keep lead dirs c rest n :
  map k_type toks = TStreamStart :: repeat TDocumentEnd lead ++ map dir_tok dirs ++ c :: rest ->
  2 <= versions dirs -> 2 <= n ->
  exists err, nth_error (snd (run_requests (repeat RNext n) (new_parser toks e mk keep))) 1 = Some (Some (Err err)).
Proof.
  intros Ht Hver Hn. destruct n as [|[|n]]; try lia. cbn [repeat run_requests do_request].
  destruct dirs as [|d dirs]; [cbn in Hver; lia|].
  set (p0 := new_parser toks e mk keep).
  assert (HS : must stream_start p0 (fun q x => fst x = EStreamStart /\ p_state q = StImplicitDocumentStart /\
     p_current q = None /\ p_stream_end_emitted q = false /\
     vt q = repeat TDocumentEnd lead ++ map dir_tok (d :: dirs) ++ c :: rest)).
  { unfold stream_start. apply must_bind. eapply must_peek; [exact Ht|]. intros t r Et Er. rewrite Et.
    apply must_bind, must_modify, must_bind, must_modify, must_ret. cbn. repeat split; auto. }
  destruct HS as (q & [ev sp] & HS & He & Q1 & Q2 & Q3 & Q4). cbn in He. subst ev.
  assert (HN : next_event p0 = (q, Some (Ok (EStreamStart, sp)))).
  { unfold next_event, next_event_impl, parse. cbn [p_stream_end_emitted p_current p0 new_parser p_state].
    change (state_machine p0) with (stream_start p0). rewrite HS. reflexivity. }
  rewrite HN.
  assert (HD : exists q' err, document_start true q = (q', Err err)).
  { cbn [map app] in Q4.
    assert (HE : must (skip_document_ends (S (S (List.length (p_toks q))))) q
       (fun q2 _ => vt q2 = map dir_tok (d :: dirs) ++ c :: rest)).
    { eapply must_ends; [eapply ends_fuel; exact Q4|exact Q4|apply dir_not_end|]. auto. }
    destruct HE as (q2 & [] & HE & Hv2). unfold document_start, bind. rewrite HE.
    assert (HP : must peek_token q2 (fun q t => k_type t = dir_tok d /\
       vt q = map dir_tok (d :: dirs) ++ c :: rest)).
    { eapply must_peek; [exact Hv2|]. intros t r Et Er. split; [exact Et|]. vtok. }
    destruct HP as (q3 & t & HP & Et & Hv3). rewrite HP, Et.
    assert (HX : exists q' err, explicit_document_start q3 = (q', Err err)).
    { unfold explicit_document_start, bind, process_directives.
      destruct (dirs_twice (d :: dirs) q3 c rest (S (S (List.length (p_toks q3)))) false Hv3) as (q4 & err & H4);
        [lia|lia|eapply dirs_fuel; exact Hv3|]. rewrite H4. eauto. }
    destruct d; exact HX. }
  destruct HD as (q' & err & HD).
  assert (HN2 : exists q2, next_event q = (q2, Some (Err err))).
  { unfold next_event, next_event_impl, parse. rewrite Q3, Q2, Q1. unfold state_machine. rewrite Q1, HD. eauto. }
  destruct HN2 as (q2 & HN2). rewrite HN2.
  destruct (run_requests (repeat RNext n) q2) as [q5 l5]. cbn. eauto.
Qed.

(** ** A node with anything behind it *)
Lemma trace_prefix l : forall p q, trace p l q -> good p -> p_current p = None ->
  p_stream_end_emitted p = false -> ~ In EStreamEnd (map fst l) ->
  events_of (List.length l) p = map fst l.
Proof.
  induction l as [|[e sp] l IH]; intros p q HT Hg Hc He Hn; [reflexivity|].
  inversion HT as [|? q1 ? ? ? H1 H2]; subst.
  destruct (impl_frame _ _ _ Hg Hc H1) as (G1 & C1 & E1). cbn [events_of List.length].
  unfold next_event. rewrite He, H1. cbn in Hn.
  assert (HI : events_of (List.length l) q1 = map fst l) by (apply (IH q1 q); auto; congruence).
  destruct e; try (exfalso; apply Hn; left; reflexivity); cbn; rewrite HI; reflexivity.
Qed.

Theorem tree_then_anything t tags evs toks e mk keep more :
  block_tree false t ->
  (forall h s tg, tags h s = Some tg -> tag_means [] h s (Some tg)) ->
  tree_events tags [] t = Some evs ->
  starts (stop_tok false) more ->
  map k_type toks = TStreamStart :: tree_toks t ++ more ->
  events_of (2 + List.length evs) (new_parser toks e mk keep) = EStreamStart :: EDocumentStart false :: evs.
Proof.
  intros Hw Htags He Hm Ht.
  set (d := Doc [] false (Some t) 0).
  assert (HR : runs (new_parser toks e mk keep) (EStreamStart :: EDocumentStart false :: evs) (fun _ => True)).
  { eapply (runs_step _ stream_start); [reflexivity|discriminate|reflexivity|].
    unfold stream_start. apply must_bind.
    eapply must_peek; [exact Ht|]. intros tk r Et Er. rewrite Et.
    apply must_bind, must_modify, must_bind, must_modify, must_ret. eexists.
    split; [reflexivity|].
    pose proof (tree_head false t (or_intror Hw)) as Hh.
    destruct (tree_toks t) as [|c r0] eqn:Ett; [destruct Hh|]. cbn in Hh.
    eapply (runs_step _ (document_start true)); [reflexivity|discriminate|reflexivity|].
    eapply (impl_start _ d keep [] [] c (r0 ++ more) 0); [|exact Hh|reflexivity|].
    { split; auto; try (destruct keep; reflexivity). split; [reflexivity|intros m; reflexivity]. }
    intros q sp Hq. exists evs. split; [reflexivity|]. destruct Hq as [A1 A2 A3 A4 A5 A6].
    eapply (runs_step _ (parse_node true false)); [exact A6|congruence|unfold state_machine; rewrite A1; reflexivity|].
    refine (must_conseq _ _ _ _ (reads_all t tags true false q StDocumentEnd [] more [] evs Hw A2 _ Hm A4 _ A6 He) _).
    - rewrite Ett. exact A3.
    - rewrite A5. unfold doc_table; cbn. destruct keep; exact Htags.
    - intros p' x (es & E1 & E2). exists es. split; [exact E1|]. eapply runs_conseq; [exact E2|auto]. }
  destruct HR as (l & q & HT & Hl & _). rewrite <- Hl.
  replace (2 + List.length evs) with (List.length l)
    by (rewrite <- (map_length fst), Hl; reflexivity).
  eapply trace_prefix; [exact HT|repeat split|reflexivity|reflexivity|].
  rewrite Hl. pose proof (no_end_tree tags t []) as N. rewrite He in N. cbn.
  intros [X|[X|X]]; [discriminate|discriminate|exact (N X)].
Qed.
Lemma flow_is_block i t : flow_tree t -> block_tree i t.
Proof. destruct t; cbn; tauto. Qed.
