(** The tokens of the text the emitter writes for a value. *)
From Verif Require Import Base Tokens Scalar Chars Source Cursor Scanner Yaml Emitter ExactCursor EmitterText EmitterProofs.
From Verif Require Import SpecTree SpecEmit SpecQuoted FoldedQuotes ExactPlain EagerScan ScanSteps SpecBlock BlockScan BlockCut BlockStep.
From Coq Require Import String Lia ZifyBool ZifyNat ZifyN.
Local Open Scope list_scope.

(** ** Values as trees *)
(** The style and the content of a scalar as it is written. *)
Definition swrite (s : settings) (v : scalar) : scalar_type * text :=
  match v with
  | SString t => if should_emit_string_as_block s t then (Literal, t) else if need_quotes t then (DoubleQuote, t) else (Plain, t)
  | SBool b => (Plain, if b then str "true" else str "false")
  | SInt z => (Plain, display_Z z)
  | SFloat f => (Plain, display_f64 f)
  | SNull => (Plain, str "~")
  end.
Fixpoint to_tree (s : settings) (y : yaml) : tree :=
  match y with
  | YScalar v => TrScalar no_props (fst (swrite s v)) (snd (swrite s v))
  | YSeq [] => TrFlowSeq no_props [] false
  | YSeq l => TrBlockSeq no_props (map (fun x => Some (to_tree s x)) l)
  | YMap [] => TrFlowMap no_props [] false
  | YMap l => TrBlockMap no_props (map (fun x => (KNode (to_tree s (fst x)), VNode (to_tree s (snd x)))) l)
  | _ => TrEmpty no_props
  end.
(** Values that consist of scalars that are written on one line, or as literal scalars that keep the
    text; keys on one line and within the limit. *)
Definition one_line (s : settings) (v : scalar) : Prop := forall l, scalar_text (fst (swrite s v)) (stext s l v) (snd (swrite s v)).
Definition block_scalar (s : settings) (v : scalar) : Prop := exists t, v = SString t /\ should_emit_string_as_block s t = true /\ literal_string t.
Definition top_fits (s : settings) (y : yaml) : Prop :=
  match y with YScalar (SString t) => should_emit_string_as_block s t = true -> literal_document t | _ => True end.
Fixpoint legible (s : settings) (y : yaml) : Prop :=
  match y with
  | YScalar v => one_line s v \/ block_scalar s v
  | YSeq l => all_of (legible s) l
  | YMap l => all_of (fun x => legible s (fst x) /\ legible s (snd x) /\
                match fst x with YScalar v => one_line s v /\ forall lv, List.length (ntext s lv (fst x)) <= 1024 | _ => True end) l
  | _ => False
  end.
Lemma all_of_Forall {A} (P : A -> Prop) l : all_of P l <-> Forall P l.
Proof.
  induction l as [|x l IH]; cbn [all_of]; split; intros H; auto.
  - destruct H as [H1 H2]. constructor; [exact H1|now apply IH].
  - inversion_clear H as [|? ? H1 H2]. split; [exact H1|now apply IH].
Qed.
Definition seq_toks (s : settings) (x : yaml) : list token_type := TBlockEntry :: tree_toks (to_tree s x).
Definition map_toks (s : settings) (x : yaml * yaml) : list token_type :=
  TKey :: tree_toks (to_tree s (fst x)) ++ TValue :: tree_toks (to_tree s (snd x)).
Lemma toks_seq s x r : tree_toks (to_tree s (YSeq (x :: r))) = TBlockSequenceStart :: flat_map (seq_toks s) (x :: r) ++ [TBlockEnd].
Proof.
  cbn [to_tree tree_toks props_toks no_props pr_anchor pr_tag pr_tag_first opt_list app]. do 2 f_equal.
  generalize (x :: r). induction l as [|y l IH]; [reflexivity|]. cbn [map flat_map opt_list]. now rewrite IH.
Qed.
Lemma toks_map s x r : tree_toks (to_tree s (YMap (x :: r))) = TBlockMappingStart :: flat_map (map_toks s) (x :: r) ++ [TBlockEnd].
Proof.
  cbn [to_tree tree_toks props_toks no_props pr_anchor pr_tag pr_tag_first opt_list app]. do 2 f_equal.
  generalize (x :: r). induction l as [|y l IH]; [reflexivity|]. cbn [map flat_map pair_toks key_toks value_toks].
  rewrite IH. unfold map_toks at 2. cbn [app]. now rewrite <- !app_assoc.
Qed.

(** No anchors, tags and ends of streams. *)
Definition clean (T : list token_type) : Prop :=
  Forall (fun t => match t with TAnchor _ | TTag _ _ | TStreamEnd => False | _ => True end) T.
Lemma clean_calm T : clean T -> calm T.
Proof.
  unfold clean, calm. intros H. apply Forall_rev in H. destruct (rev T) as [|t r]; [exact I|].
  inversion_clear H as [|? ? H1 _]. now destruct t.
Qed.
Lemma clean_app a b : clean (a ++ b) <-> clean a /\ clean b.
Proof. apply Forall_app. Qed.
Lemma clean_ends n : clean (repeat TBlockEnd n).
Proof. induction n; constructor; auto. Qed.
(** No ends of streams. *)
Definition unended (T : list token_type) : Prop := Forall (fun t => match t with TStreamEnd => False | _ => True end) T.
Lemma unended_app a b : unended (a ++ b) <-> unended a /\ unended b.
Proof. apply Forall_app. Qed.
Lemma unended_ends n : unended (repeat TBlockEnd n).
Proof. induction n; constructor; auto. Qed.
Lemma clean_unended T : clean T -> unended T.
Proof. intros H. eapply Forall_impl; [|exact H]. intros t. now destruct t. Qed.
Lemma clean_tree s y : legible s y -> clean (tree_toks (to_tree s y)).
Proof.
  induction y as [| v | id | l IH | l IH | t y IH] using yaml_induction; intros V; try contradiction.
  - repeat constructor.
  - destruct l as [|x l]; [repeat constructor|]. rewrite toks_seq. constructor; [exact I|]. apply clean_app. split; [|repeat constructor].
    cbn [legible] in V. apply all_of_Forall in V. revert IH V. generalize (x :: l). intros ll. induction ll as [|y r IHr]; intros IH V; [constructor|]. cbn [flat_map].
    inversion_clear IH as [|? ? IH1 IH2]. inversion_clear V as [|? ? V1 V2]. apply clean_app. split; [|auto].
    constructor; [exact I|exact (IH1 V1)].
  - destruct l as [|x l]; [repeat constructor|]. rewrite toks_map. constructor; [exact I|]. apply clean_app. split; [|repeat constructor].
    cbn [legible] in V. apply all_of_Forall in V. revert IH V. generalize (x :: l). intros ll. induction ll as [|y r IHr]; intros IH V; [constructor|]. cbn [flat_map].
    inversion_clear IH as [|? ? IH1 IH2]. inversion_clear V as [|? ? V1 V2]. apply clean_app. split; [|auto].
    destruct IH1 as [I1 I2]. destruct V1 as (V11 & V12 & _).
    constructor; [exact I|]. apply clean_app. split; [auto|]. constructor; [exact I|exact (I2 V12)].
Qed.

(** ** First bytes *)
Definition starts (w : text) : Prop := exists b r, w = b :: r /\ begins b /\ forall x, marker_line (w ++ x) = false.
Lemma starts_app w x : starts w -> starts (w ++ x).
Proof.
  intros (b & r & -> & B & M). exists b, (r ++ x). split; [reflexivity|]. split; [exact B|]. intros y. rewrite <- app_assoc. apply M.
Qed.
Lemma gap_separates s l i y : separates (gap s l i y).
Proof. unfold gap, nl. destruct (nonempty_collection y && negb (i && compact s)); constructor. Qed.
Lemma starts_indicator b s l i y x : In b [45; 63; 58]%N -> starts (b :: gap s l i y ++ x).
Proof.
  intros H. exists b, (gap s l i y ++ x). split; [reflexivity|]. split.
  - unfold begins. cbn [In] in *. intuition (subst; discriminate).
  - intros z. unfold marker_line. cbn [app nth]. rewrite <- app_assoc.
    assert (G : exists g r, gap s l i y = g :: r /\ (g = 32 \/ g = 10)%N).
    { unfold gap, nl. destruct (nonempty_collection y && negb (i && compact s)); do 2 eexists; (split; [reflexivity|auto]). }
    destruct G as (g & r & -> & Hg). cbn [app nth]. cbn [In] in H.
    assert (b <> 37 /\ b <> 46 /\ g <> 45)%N by (intuition (subst; discriminate)). lia.
Qed.
Lemma starts_scalar st w v : scalar_text st w v -> starts w.
Proof. intros H. destruct (scalar_first st w v H) as (b & r & E & B & M). exists b, r. auto. Qed.
Lemma starts_node s lv y : legible s y -> starts (ntext s lv y).
Proof.
  revert lv. induction y as [| v | id | l IH | l IH | t y IH] using yaml_induction; intros lv V; try contradiction.
  - destruct V as [V|(t & -> & E & _)]; [eapply starts_scalar; apply V|]. cbn [ntext stext]. rewrite E.
    destruct (ends_with 10 t); exists 124%N; eexists; (split; [reflexivity|]; split; [unfold begins; cbn [In]; intuition discriminate|reflexivity]).
  - destruct l as [|x l].
    + exists 91%N, [93%N]. split; [reflexivity|]. split; [unfold begins; cbn [In]; intuition discriminate|reflexivity].
    + rewrite ntext_seq. unfold itext. apply starts_app. apply starts_indicator. cbn [In]. auto.
  - destruct l as [|x l].
    + exists 123%N, [125%N]. split; [reflexivity|]. split; [unfold begins; cbn [In]; intuition discriminate|reflexivity].
    + rewrite ntext_map. apply starts_app. unfold etext. destruct (complex_key (fst x)).
      * apply starts_indicator. cbn [In]. auto.
      * apply starts_app. inversion_clear IH as [|? ? [I1 _] _]. apply I1. cbn [legible all_of] in V. tauto.
Qed.
Lemma starts_item s lv x : starts (itext s lv x).
Proof. unfold itext. apply starts_indicator. cbn [In]. auto. Qed.
Lemma starts_entry s lv x : legible s (fst x) -> starts (etext s lv x).
Proof.
  intros V. unfold etext. destruct (complex_key (fst x)); [apply starts_indicator; cbn [In]; auto|].
  apply starts_app. now apply starts_node.
Qed.

(** ** Rounds *)
Definition reach (fuel : nat) (z z' : scanner) : Prop := exists n, rounds fuel n z z'.
Lemma reach_refl fuel z : reach fuel z z. Proof. exists 0. constructor. Qed.
Lemma reach_trans fuel a b c : reach fuel a b -> reach fuel b c -> reach fuel a c.
Proof. intros [n H] [m K]. exists (n + m). eapply rounds_trans; eauto. Qed.
Lemma reach_one fuel a b : round fuel a b -> reach fuel a b.
Proof. intros H. exists 1. now apply rounds_one. Qed.

(** What may come behind a node inside a collection of indentation [i0]. *)
Inductive follows (i0 : N) : text -> text -> Prop :=
| fo_end : follows i0 [] []
| fo_line k b r : begins b -> (1 + N.of_nat k <= i0)%N -> follows i0 (10%N :: repeat 32%N k) (b :: r).
Lemma follows_plain i0 g after : follows i0 g after -> plain_end (i0 + 1) g after.
Proof. intros [|k b r B L]; [constructor|]. constructor; [|lia]. unfold begins in B. cbn [In] in *. tauto. Qed.
Lemma follows_le i0 i1 g after : follows i0 g after -> (i0 <= i1)%N -> follows i1 g after.
Proof. intros [|k b r B L] H; constructor; auto. lia. Qed.
Lemma follows_begins i0 g after : follows i0 g after -> begins (nth 0 after 0%N).
Proof. intros [|k b r B L]; [|exact B]. unfold begins. cbn [nth In]. intuition discriminate. Qed.
Lemma follows_white i0 g after : follows i0 g after -> white g.
Proof. intros H. apply follows_plain in H. eapply plain_end_white; eauto. Qed.
Lemma begins_zero : begins 0.
Proof. unfold begins. cbn [In]. intuition discriminate. Qed.
(** The state behind a node. *)
Definition ends (g : text) (M : marker) (A : bool) (k : skey) : Prop :=
  idle k /\ (g = [] \/ (A = true /\ gone k M /\ exists X, m_col M = m_col (marker_after g X))).
Lemma col_line k X : m_col (marker_after (10%N :: repeat 32%N k) X) = (1 + N.of_nat k)%N.
Proof. rewrite marker_lf, marker_flat by apply no_lf_spaces. rewrite repeat_length. reflexivity. Qed.
Lemma line_le g : forall m, (m_line m <= m_line (marker_after g m))%N.
Proof.
  induction g as [|b g IH]; intros m; [cbn [marker_after]; lia|]. destruct (N.eq_dec b 10) as [->|Nb].
  - rewrite marker_lf. specialize (IH (mark_newline 1 m)). cbn in IH. lia.
  - rewrite marker_step by exact Nb. specialize (IH (mark_add 1 m)). cbn in IH. lia.
Qed.
Lemma line_lt k m : (m_line m < m_line (marker_after (10%N :: repeat 32%N k) m))%N.
Proof. rewrite marker_lf. pose proof (line_le (repeat 32%N k) (mark_newline 1 m)) as H. cbn in H. lia. Qed.

(** What is to be shown of a node. *)
Definition node_ok (s : settings) (y : yaml) : Prop :=
  forall lv fuel z pre g after M L A T k i si i0 s0, (-1 <= lv)%Z -> (lv = -1 -> top_fits s y)%Z -> (Z.of_N i0 <= 2 * lv + 2)%Z ->
  At z pre (ntext s lv y ++ g ++ after) M L A T k i si ->
  gone k M -> inside i0 s0 i si -> blocky s0 -> (i0 < m_col M)%N -> follows i0 g after ->
  List.length pre + List.length (ntext s lv y ++ g ++ after) + 4 < fuel -> clean T ->
  (nonempty_collection y = true -> A = true /\ Z.of_N (m_col M) = (3 + 2 * lv)%Z) ->
  exists z' M' L' A' T' k' i' s' nb,
    reach fuel z z' /\ At z' (pre ++ ntext s lv y ++ g) after M' L' A' (T ++ T') k' i' s' /\
    T' ++ repeat TBlockEnd nb = tree_toks (to_tree s y) /\ unwinds i' s' i0 s0 nb /\ ends g M' A' k'.
Lemma At_zs pre g rest m l a toks k i s fs adj T : white g -> map k_type toks = T ->
  At (zs (cur pre (g ++ rest) m l a) toks k i s fs adj) (pre ++ g) rest (marker_after g m) (l || has_lf g) (a || has_lf g) T k i s.
Proof. intros W E. apply At_gap; [exact W|]. now apply At_here. Qed.
Lemma inside_le i0 s0 i s c : inside i0 s0 i s -> (i0 < c)%N -> (i <= c)%N.
Proof. intros [[-> ->]|(_ & -> & ->)] H; lia. Qed.

Ltac lens := repeat (progress (rewrite ?app_length; cbn [List.length app])).
(** ** Scalars *)
Lemma saved_idle a M toks k i s i0 s0 : inside i0 s0 i s -> (i0 < m_col M)%N -> idle k -> idle (saved a M toks k i s).
Proof.
  intros IN C I. unfold saved. destruct a; [|exact I]. intros _. cbn [sk_required].
  destruct IN as [[-> ->]|(_ & -> & ->)].
  - replace (i0 =? m_col M)%N with false by lia. reflexivity.
  - apply andb_false_r.
Qed.
Lemma idle_gone k m : sk_possible k = false -> gone k m.
Proof. intros H P. congruence. Qed.
Lemma saved_ends a M m0 toks k i s i0 s0 g after A : inside i0 s0 i s -> (i0 < m_col M)%N -> follows i0 g after ->
  (m_line M <= m_line m0)%N ->
  forall k', (k' = saved a M toks (impossible k) i s \/ k' = impossible (saved a M toks (impossible k) i s)) ->
  (g <> [] -> A = true) -> ends g (marker_after g m0) A k'.
Proof.
  intros IN C F LM k' K AA. split.
  - destruct K as [-> | ->]; [|apply idle_impossible]. eapply saved_idle; eauto. apply idle_impossible.
  - destruct F as [|n b r B L]; [now left|]. right. split; [now apply AA|]. split; [|eauto].
    destruct K as [-> | ->]; [|apply gone_impossible]. intros P. split.
    + eapply saved_idle; eauto. apply idle_impossible.
    + unfold saved in *. destruct a; [|discriminate]. cbn [sk_mark]. pose proof (line_lt n m0). lia.
Qed.
Lemma node_scalar s v : one_line s v -> node_ok s (YScalar v).
Proof.
  intros V lv fuel z pre g after M L A T k i si i0 s0 LV TF IL AT G IN BL C F FU CL _.
  specialize (V lv). change (ntext s lv (YScalar v)) with (stext s lv v) in *.
  destruct (scalar_first _ _ _ V) as (b & r & EW & B & ML).
  assert (AT' := AT). rewrite EW in AT'. cbn [app] in AT'.
  assert (IC := inside_le _ _ _ _ _ IN C).
  destruct (round_at fuel z pre b (r ++ g ++ after) M L A T k i si i si 0
    (fun z2 => exists toks k' i' s' fs adj, z2 = zs (cur (pre ++ stext s lv v ++ g) after (marker_after g (mark_add (List.length (stext s lv v)) M)) (has_lf g) (has_lf g)) toks k' i' s' fs adj /\
       map k_type toks = T ++ [TScalar (fst (swrite s v)) (snd (swrite s v))] /\ inside i0 s0 i' s' /\
       ends g (marker_after g (mark_add (List.length (stext s lv v)) M)) (has_lf g) k')) as (z2 & R & P).
  - exact AT'.
  - exact B.
  - specialize (ML (g ++ after)). rewrite EW in ML. exact ML.
  - rewrite app_length in FU. lia.
  - exact G.
  - now apply unrolls_none.
  - intros toks fs adj ET _. change (b :: r ++ g ++ after) with ((b :: r) ++ g ++ after). rewrite <- EW.
    destruct (zs_scalar fuel _ _ _ g pre after M L A toks (impossible k) i si fs adj i0 s0 V IN BL IC ltac:(lia)
       (follows_plain _ _ _ F) (follows_begins _ _ _ F)) as (sp & i1 & s1 & adj' & E & IN').
    { rewrite !app_length in FU. lia. }
    rewrite E. clear E.
    destruct (zs_stale_idle (cur (pre ++ stext s lv v ++ g) after (marker_after g (mark_add (List.length (stext s lv v)) M)) (has_lf g) (has_lf g))
      (toks ++ [Token sp (TScalar (fst (swrite s v)) (snd (swrite s v)))]) (saved A M toks (impossible k) i si) i1 s1 fs adj') as (k' & E & K).
    { eapply saved_idle; eauto. apply idle_impossible. }
    do 2 eexists. split; [reflexivity|]. split; [exact E|]. split; [cbn [zs z_tokens]; rewrite app_length; cbn [List.length]; lia|].
    do 6 eexists. split; [reflexivity|]. split; [rewrite map_app, ET, app_nil_r; reflexivity|]. split.
    { destruct IN' as [[-> ->]|[-> ->]]; [now left|exact IN]. }
    eapply saved_ends; eauto; [cbn; lia|]. destruct F; [congruence|reflexivity].
  - destruct P as (toks & k' & i' & s' & fs & adj & -> & ET & IN' & EN).
    do 9 eexists. split; [apply reach_one; exact R|]. split; [apply At_here; exact ET|].
    split; [|split; [apply inside_unwinds; exact IN'|exact EN]]. cbn [repeat]. rewrite app_nil_r. reflexivity.
Qed.

Lemma node_literal s v : best_indent s = 2 -> block_scalar s v -> node_ok s (YScalar v).
Proof.
  intros BI (t & -> & SB & LS) lv fuel z pre g after M L A T k i si i0 s0 LV TF IL AT G IN BL C F FU CL _.
  assert (LD : (lv = -1)%Z -> literal_document t) by (intros E; exact (TF E SB)). clear TF.
  set (n := 2 * Z.to_nat (lv + 1)).
  assert (X : exists ls last ended, t = lines_text ls last ended /\ literal_lines ls last /\
     (n = 0 -> Forall (fun x => ~ marker_first x) (ls ++ [last]) /\ nth 0 (hd last ls) 0%N <> 9%N)).
  { destruct (Z.eq_dec lv (-1)) as [E|E].
    - destruct (LD E) as (ls & last & ended & E1 & E2 & E3). exists ls, last, ended. auto.
    - destruct LS as (ls & last & ended & E1 & E2). exists ls, last, ended. split; [exact E1|]. split; [exact E2|]. intros N0. unfold n in N0. lia. }
  clear LD LS. destruct X as (ls & last & ended & ET & LL & TOP).
  assert (LO := lines_of ls last ended LL). assert (EO := ended_of ls last ended LL). rewrite <- ET in LO, EO.
  destruct LL as (LF & LNE & LSP).
  set (e := if ended then Clipped else Stripped). set (h := if ended then [] else [45%N]).
  set (gr := grouped n 0 ls last).
  assert (EW : ntext s lv (YScalar (SString t)) = 124%N :: h ++ [] ++ eol false ++ cut_lines n (fst gr) (snd gr)).
  { cbn [ntext stext]. rewrite SB, EO, LO. unfold gr. rewrite <- grouped_text. cbn [repeat blank_lines flat_map app].
    assert (Q : flat_map (fun x => nl s (lv + 1) ++ x) (ls ++ [last]) = 10%N :: flat_map (fun x => repeat 32%N n ++ x ++ [10%N]) ls ++ repeat 32%N n ++ last).
    { assert (Q : forall f : text -> text, (forall x, f x = 10%N :: repeat 32%N n ++ x) -> flat_map f (ls ++ [last]) = 10%N :: flat_map (fun x => repeat 32%N n ++ x ++ [10%N]) ls ++ repeat 32%N n ++ last).
      { clear. intros f Hf. induction ls as [|x ls IH]; cbn [app flat_map]; rewrite Hf; [now rewrite app_nil_r|]. rewrite IH. cbn [app]. now rewrite <- !app_assoc. }
      apply Q. intros x. unfold nl, n. now rewrite BI. }
    rewrite Q. unfold h. destruct ended; reflexivity. }
  assert (HI : indicators h e None) by (unfold h, e; destruct ended; [constructor|apply in_chomp; constructor]).
  assert (HR : header_rest []) by (apply hr_blanks; constructor).
  assert (GG : Forall (good_line n) (fst gr) /\ good_line n (snd gr)).
  { apply (grouped_good n last (fun x => (~ In 10%N x /\ ~ In 13%N x) /\ (n = 0 -> ~ marker_first x))); [|exact LNE|].
    - intros k0 x Hk NE [[H1 H2] H3] j. split; [cbn [before]; clear - Hk; induction j; constructor; auto|]. split; [exact NE|]. split; [exact H1|]. split; [exact H2|exact H3].
    - apply Forall_forall. intros x Hx. split; [exact (proj1 (Forall_forall _ _) LF x Hx)|]. intros N0. destruct (TOP N0) as [T1 _]. exact (proj1 (Forall_forall _ _) T1 x Hx). }
  destruct GG as [GG1 GG2].
  assert (HD : indentation i0 None n (hd (snd gr) (fst gr))).
  { split; [unfold n; lia|]. unfold gr. rewrite grouped_first by exact LNE. exact LSP. }
  assert (HT : nth 0 (words (hd (snd gr) (fst gr))) 0%N <> 9%N \/ n <> 0 \/ before (hd (snd gr) (fst gr)) <> []).
  { destruct (Nat.eq_dec n 0) as [N0|]; [|auto]. destruct (grouped_tab n last ls LNE (proj2 (TOP N0))) as [Q|Q]; auto. }
  assert (VAL : cut_value true e (fst gr ++ [snd gr]) = t).
  { unfold cut_value, gr, e. rewrite grouped_value. cbn [repeat app]. rewrite ET. unfold lines_text. rewrite <- app_assoc. now destruct ended. }
  assert (SW : swrite s (SString t) = (Literal, t)) by (cbn [swrite]; now rewrite SB).
  set (w := ntext s lv (YScalar (SString t))) in *.
  assert (IC := inside_le _ _ _ _ _ IN C).
  assert (SC : forall M0 L0, exists m' l' sp, (g <> [] -> (m_line M0 < m_line m')%N /\ m_col m' = m_col (marker_after g M0)) /\
     scan_block_scalar_body fuel true i0 M0 (cur (pre ++ [block_sign true]) (h ++ [] ++ eol false ++ cut_lines n (fst gr) (snd gr) ++ g ++ after) (mark_add 1 M0) L0 true)
     = (cur (pre ++ w ++ g) after m' l' true, Ok (Token sp (TScalar Literal t)))).
  { intros M0 L0. rewrite EW in FU |- * . destruct F as [|kk b r B LE].
    - destruct (e_block_cut true h e None [] false (fst gr) (snd gr) n i0 M0 fuel (pre ++ [block_sign true]) (mark_add 1 M0) L0 true HI HR HD GG1 GG2 HT) as (m' & l' & sp & E).
      { revert FU. lens. lia. }
      exists m', l', sp. split; [congruence|]. rewrite VAL in E. cbn [app] in *. rewrite !app_nil_r. rewrite E. cbn [app]. rewrite <- !app_assoc. cbn [app]. reflexivity.
    - assert (Y : exists first more, first :: more = fst gr ++ [snd gr] /\ hd (snd gr) (fst gr) = first).
      { destruct (fst gr); cbn; eauto. }
      destruct Y as (first & more & EX & EH). rewrite EH in *.
      assert (G2 : Forall (good_line n) (first :: more)) by (rewrite EX; apply Forall_app; auto). inversion_clear G2 as [|? ? G3 G4].
      assert (EL : cut_lines n (fst gr) (snd gr) ++ 10%N :: repeat 32%N kk = block_lines n (first :: more) [] kk []).
      { unfold block_lines. rewrite EX, flat_map_app. cbn [flat_map blank_lines app]. rewrite !app_nil_r. unfold cut_lines. unfold line_text at 3.
        assert (CR : crlf (snd gr) = false).
        { unfold gr. clear. generalize 0 as k0. induction ls as [|[|b x] ls IH]; intros k0; cbn [grouped]; [reflexivity|apply IH|]. specialize (IH 0). destruct (grouped n 0 ls last). exact IH. }
        rewrite CR. cbn [eol]. rewrite <- !app_assoc. reflexivity. }
      assert (EL2 : cut_lines n (fst gr) (snd gr) ++ (10%N :: repeat 32%N kk) ++ b :: r = block_lines n (first :: more) [] kk (b :: r)).
      { rewrite app_assoc. change ((cut_lines n (fst gr) (snd gr) ++ 10%N :: repeat 32%N kk) ++ b :: r = block_lines n (first :: more) [] kk (b :: r)). rewrite EL. unfold block_lines. now rewrite <- !app_assoc. }
      destruct (e_block_scalar true h e None [] false first more [] n kk (b :: r) i0 M0 fuel (pre ++ [block_sign true]) (mark_add 1 M0) L0 true HI HR HD G3 G4) as (m' & sp & E & CM & LM).
      { constructor. }
      { right. left. split; [unfold n; lia|]. split; [discriminate|]. cbn [nth]. unfold begins in B. cbn [In] in *. intuition. }
      { discriminate. }
      { exact HT. }
      { rewrite <- EL. revert FU. lens. lia. }
      exists m', true, sp. split; [intros _; split; [exact LM|rewrite CM, col_line; lia]|].
      rewrite EL2, E. f_equal.
      + rewrite <- EL. cbn [app]. rewrite <- !app_assoc. cbn [app]. rewrite <- ?app_assoc. reflexivity.
      + do 3 f_equal. rewrite <- VAL. unfold block_value, cut_value. rewrite <- EX. cbn [block_text]. rewrite <- !app_assoc. unfold e. destruct ended; reflexivity. }
  clear VAL HD HT GG1 GG2 HI HR TOP LF LNE LSP LO EO.
  assert (AT' := AT). rewrite EW in AT'. cbn [app] in AT'. rewrite <- !app_assoc in AT'. cbn [app] in AT'.
  destruct (round_at fuel z pre 124%N (h ++ 10%N :: cut_lines n (fst gr) (snd gr) ++ g ++ after) M L A T k i si i si 0
    (fun z2 => exists toks m' l' k' fs adj, z2 = zs (cur (pre ++ w ++ g) after m' l' true) toks k' i0 s0 fs adj /\
       map k_type toks = T ++ [TScalar Literal t] /\ ends g m' true k')) as (z2 & R & P).
  - exact AT'.
  - unfold begins. cbn [In]. intuition discriminate.
  - unfold h. destruct ended; reflexivity.
  - lia.
  - exact G.
  - now apply unrolls_none.
  - intros toks fs adj ET2 _. destruct (SC M false) as (m' & l' & sp & ME & E).
    change (124%N) with (block_sign true) at 1. rewrite main_block. cbn [app eol] in E.
    erewrite (zs_block fuel true pre _ _ _ _ _ _ _ M L A toks (impossible k) i si fs adj i0 s0 IN BL E).
    match goal with |- context [zs ?c ?d ?e ?f ?g ?h ?j] => destruct (zs_stale_idle c d e f g h j) as (k' & ES & K) end.
    { eapply saved_idle; eauto. apply idle_impossible. }
    do 2 eexists. split; [reflexivity|]. split; [exact ES|]. split; [cbn [zs z_tokens]; rewrite app_length; cbn [List.length]; lia|].
    do 6 eexists. split; [reflexivity|]. split; [rewrite map_app, ET2, app_nil_r; reflexivity|].
    assert (ID : idle k').
    { destruct K as [-> | ->]; [|apply idle_impossible]. eapply saved_idle; eauto. apply idle_impossible. }
    split; [exact ID|]. destruct g as [|g0 g]; [now left|]. right. split; [reflexivity|]. destruct (ME ltac:(discriminate)) as [ML MC]. split; [|eauto].
    destruct K as [-> | ->]; [|apply gone_impossible]. intros PO. split; [now apply ID|].
    unfold saved in *. destruct A; [exact ML|discriminate PO].
  - destruct P as (toks & m' & l' & k' & fs & adj & -> & ET2 & EN).
    do 9 eexists. split; [apply reach_one; exact R|]. split; [apply At_here; exact ET2|].
    split; [|split; [apply (inside_unwinds i0 s0 i0 s0); now left|exact EN]]. cbn [repeat]. rewrite app_nil_r. cbn [to_tree]. rewrite SW. reflexivity.
Qed.

(** ** Empty collections *)
Lemma node_empty s (is_map : bool) : node_ok s (if is_map then YMap [] else YSeq []).
Proof.
  intros lv fuel z pre g after M L A T k i si i0 s0 LV TF IL AT G IN BL C F FU CL _.
  assert (EW : ntext s lv (if is_map then YMap [] else YSeq []) = [open_byte is_map; close_byte is_map]) by (destruct is_map; reflexivity).
  rewrite EW in *. cbn [app] in AT.
  assert (IC := inside_le _ _ _ _ _ IN C).
  assert (FE := follows_begins _ _ _ F).
  assert (NG : nth 0 (g ++ after) 0%N <> 32%N /\ nth 0 (g ++ after) 0%N <> 9%N /\ nth 0 (g ++ after) 0%N <> 35%N).
  { destruct F as [|n b r B L0]; cbn [app nth]; repeat split; discriminate. }
  destruct NG as (N1 & N2 & N3).
  assert (OC : fst (onecol i si) = i /\ snd (onecol i si) = si \/ (s0 <> [] /\ fst (onecol i si) = (i0 + 1)%N /\ snd (onecol i si) = (i0, false) :: s0)).
  { unfold onecol. destruct IN as [[-> ->]|(NE & -> & ->)]; [|now left]. destruct s0 as [|[x [|]] s0]; cbn [fst snd]; auto.
    right. split; [discriminate|]. split; reflexivity. }
  assert (IN' : inside i0 s0 (fst (onecol i si)) (snd (onecol i si))).
  { destruct OC as [[-> ->]|(NE & -> & ->)]; [exact IN|]. right. auto. }
  clear OC. assert (IC' := inside_le _ _ _ _ _ IN' C).
  destruct (round_at fuel z pre (open_byte is_map) (close_byte is_map :: g ++ after) M L A T k i si i si 0
    (fun z2 => exists toks k' fs adj, z2 = zf (cur (pre ++ [open_byte is_map]) (close_byte is_map :: g ++ after) (mark_add 1 M) false true) toks k' (fst (onecol i si)) (snd (onecol i si)) (if is_map then [] else [IPossible]) fs adj /\
       map k_type toks = T ++ [open_tok is_map] /\ exists toks0, k' = saved A M toks0 (impossible k) i si)) as (z2 & R & P).
  - exact AT.
  - destruct is_map; unfold begins; cbn [In open_byte]; intuition discriminate.
  - destruct is_map; reflexivity.
  - lia.
  - exact G.
  - now apply unrolls_none.
  - intros toks fs adj ET _.
    destruct (zs_open is_map fuel pre (close_byte is_map :: g ++ after) M L A toks (impossible k) i si fs adj) as (sp & fs' & E);
      try (destruct is_map; discriminate); try lia.
    rewrite E. clear E. do 2 eexists. split; [reflexivity|]. split; [apply zf_stale|].
    split; [cbn [zf z_tokens]; rewrite app_length; cbn [List.length]; lia|].
    do 4 eexists. split; [reflexivity|]. split; [rewrite map_app, ET, app_nil_r; reflexivity|]. eauto.
  - destruct P as (toks & k1 & fs & adj & -> & ET & toks0 & K1).
    destruct (zf_close is_map fuel (pre ++ [open_byte is_map]) (g ++ after) (mark_add 1 M) toks k1 (fst (onecol i si)) (snd (onecol i si)) fs adj) as (sp & E);
      auto; try (cbn; lia).
    destruct (zs_stale_idle (cur ((pre ++ [open_byte is_map]) ++ [close_byte is_map]) (g ++ after) (mark_add 1 (mark_add 1 M)) false false)
      (toks ++ [Token sp (close_tok is_map)]) k1 (fst (onecol i si)) (snd (onecol i si)) fs adj) as (k' & E2 & K).
    { subst k1. eapply saved_idle; eauto. apply idle_impossible. }
    do 9 eexists. split.
    { eapply reach_trans; [apply reach_one; exact R|]. apply reach_one. eexists. split; [exact E|]. split; [exact E2|].
      cbn [zs zf z_tokens]. rewrite app_length. cbn [List.length]. lia. }
    split.
    { replace (pre ++ [open_byte is_map; close_byte is_map] ++ g) with (((pre ++ [open_byte is_map]) ++ [close_byte is_map]) ++ g)
        by (now rewrite <- !app_assoc).
      apply At_zs; [eapply follows_white; eauto|]. rewrite map_app, ET, <- app_assoc. reflexivity. }
    split; [|split; [apply inside_unwinds; exact IN'|]].
    + destruct is_map; reflexivity.
    + subst k1. eapply (saved_ends A M _ toks0 k i si i0 s0); [exact IN|exact C|exact F|cbn; lia|exact K|]. destruct F; [congruence|reflexivity].
Qed.

(** ** The parts of a collection *)
(** The indentation before a part at column [c]; [S] is the stack inside the collection, [b] says
    that the part is the first. *)
Inductive slot (c : N) : N -> list (N * bool) -> list (N * bool) -> bool -> Prop :=
| slot_first i0 s0 i s : inside i0 s0 i s -> blocky s0 -> (i0 < c)%N -> slot c i s ((i0, true) :: s0) true
| slot_again x r : slot c c ((x, true) :: r) ((x, true) :: r) false.
Lemma slot_rolled c i s S b : slot c i s S b -> rolled c i s = (c, S, b).
Proof. intros [i0 s0 i1 s1 IN BL C|x r]; [apply rolled_first; auto; lia|now apply rolled_again]. Qed.
Lemma slot_top c i s S b : slot c i s S b -> exists x r, S = (x, true) :: r.
Proof. intros []; eauto. Qed.
Lemma slot_le c i s S b : slot c i s S b -> (i <= c)%N.
Proof. intros [i0 s0 i1 s1 IN BL C|x r]; [eapply inside_le; eauto|lia]. Qed.
Lemma slot_blocky c i s S b : slot c i s S b -> blocky S.
Proof. intros H. destruct (slot_top _ _ _ _ _ H) as (x & r & ->). exact I. Qed.
Lemma slot_around c i s S b : slot c i s S b -> exists i0 s0, inside i0 s0 i s /\ blocky s0 /\ (i0 <= c)%N /\
  forall i1 s1, ((i1 = i0 /\ s1 = s0) \/ (i1 = i /\ s1 = s)) -> slot c i1 s1 S b.
Proof.
  intros [i0 s0 i1 s1 IN BL C|x r].
  - exists i0, s0. split; [exact IN|]. split; [exact BL|]. split; [lia|]. intros i2 s2 [[-> ->]|[-> ->]]; constructor; auto. now left.
  - exists c, ((x, true) :: r). split; [now left|]. split; [exact I|]. split; [lia|]. intros i1 s1 [[-> ->]|[-> ->]]; constructor.
Qed.
Definition part_ok {A} (it : A -> text) (tk : A -> list token_type) (st : token_type) (fuel : nat) (lv : Z) (x : A) : Prop :=
  forall z pre g after M L T k i si n0 i1 s1 S b,
  At z pre (it x ++ g ++ after) M L true T k i si -> gone k M ->
  unrolls (m_col M) i si i1 s1 n0 -> slot (m_col M) i1 s1 S b -> Z.of_N (m_col M) = (1 + 2 * lv)%Z ->
  follows (m_col M) g after -> List.length pre + List.length (it x ++ g ++ after) + 4 < fuel -> clean T ->
  exists z' M' L' A' T' k' i' s' nb,
    reach fuel z z' /\
    At z' (pre ++ it x ++ g) after M' L' A' (T ++ repeat TBlockEnd n0 ++ (if b then [st] else []) ++ T') k' i' s' /\
    T' ++ repeat TBlockEnd nb = tk x /\ unwinds i' s' (m_col M) S nb /\ ends g M' A' k'.
Lemma parts_ok {A} (it : A -> text) (tk : A -> list token_type) st fuel s lv : best_indent s = 2 -> (0 <= lv)%Z ->
  (match st with TAnchor _ | TTag _ _ | TStreamEnd => False | _ => True end) ->
  forall (r : list A) x, Forall (part_ok it tk st fuel lv) (x :: r) -> Forall (fun x => starts (it x)) r ->
  Forall (fun x => clean (tk x)) (x :: r) ->
  forall z pre g after M L T k i si n0 i1 s1 S b,
  At z pre ((it x ++ flat_map (fun x => nl s lv ++ it x) r) ++ g ++ after) M L true T k i si -> gone k M ->
  unrolls (m_col M) i si i1 s1 n0 -> slot (m_col M) i1 s1 S b -> Z.of_N (m_col M) = (1 + 2 * lv)%Z ->
  follows (m_col M) g after ->
  List.length pre + List.length ((it x ++ flat_map (fun x => nl s lv ++ it x) r) ++ g ++ after) + 4 < fuel -> clean T ->
  exists z' M' L' A' T' k' i' s' nb,
    reach fuel z z' /\
    At z' (pre ++ (it x ++ flat_map (fun x => nl s lv ++ it x) r) ++ g) after M' L' A'
      (T ++ repeat TBlockEnd n0 ++ (if b then [st] else []) ++ T') k' i' s' /\
    T' ++ repeat TBlockEnd nb = flat_map tk (x :: r) /\ unwinds i' s' (m_col M) S nb /\ ends g M' A' k'.
Proof.
  intros BI LV ST. induction r as [|y r IH]; intros x FO SR CT z pre g after M L T k i si n0 i1 s1 S b AT G U SL C F FU CL.
  - inversion_clear FO as [|? ? P _]. cbn [flat_map] in *. rewrite app_nil_r in *. rewrite app_nil_r. exact (P z pre g after M L T k i si n0 i1 s1 S b AT G U SL C F FU CL).
  - inversion_clear FO as [|? ? P FO']. inversion_clear SR as [|? ? Sy SR']. inversion_clear CT as [|? ? Cx CT'].
    destruct Sy as (fb & fr & Ey & By & My).
    cbn [flat_map] in AT, FU. rewrite <- !app_assoc in AT.
    assert (EN : nl s lv = 10%N :: repeat 32%N (2 * Z.to_nat lv)) by (unfold nl; now rewrite BI).
    destruct (P z pre (nl s lv) (it y ++ flat_map (fun x => nl s lv ++ it x) r ++ g ++ after) M L T k i si n0 i1 s1 S b) as
      (z2 & M2 & L2 & A2 & T2 & k2 & i2 & s2 & nb & R & AT2 & TK & UW & EE); auto.
    { rewrite EN, Ey. cbn [app]. constructor; [exact By|lia]. }
    { revert FU. rewrite !app_length. lia. }
    assert (C2 : m_col M2 = m_col M).
    { destruct EE as (_ & [E0|(_ & _ & X & EX)]); [rewrite EN in E0; discriminate|]. rewrite EX, EN, col_line. lia. }
    destruct EE as (_ & [E0|(A2T & G2 & _)]); [rewrite EN in E0; discriminate|]. subst A2.
    destruct (slot_top _ _ _ _ _ SL) as (sx & sr & ES).
    destruct (IH y FO' SR' CT' z2 (pre ++ it x ++ nl s lv) g after M2 L2
      (T ++ repeat TBlockEnd n0 ++ (if b then [st] else []) ++ T2) k2 i2 s2 (nb + 0) (m_col M2) S S false) as
      (z3 & M3 & L3 & A3 & T3 & k3 & i3 & s3 & nb3 & R3 & AT3 & TK3 & UW3 & EE3).
    + rewrite <- !app_assoc. exact AT2.
    + exact G2.
    + rewrite C2. eapply unwinds_unrolls; [exact UW|lia|]. apply unrolls_none. lia.
    + rewrite ES. constructor.
    + now rewrite C2.
    + now rewrite C2.
    + revert FU. rewrite !app_length. lia.
    + apply clean_app. split; [exact CL|]. apply clean_app. split; [apply clean_ends|]. apply clean_app. split.
      { destruct b; repeat constructor. exact ST. }
      rewrite <- TK in Cx. apply clean_app in Cx. tauto.
    + do 9 eexists. split; [eapply reach_trans; eauto|]. split; [|split; [|split; [rewrite <- C2; exact UW3|exact EE3]]].
      * cbn [flat_map]. rewrite <- !app_assoc in AT3. rewrite <- !app_assoc. cbn [app] in AT3. exact AT3.
      * cbn [flat_map]. cbn [flat_map] in TK3. rewrite <- TK3, <- TK. rewrite Nat.add_0_r. now rewrite <- !app_assoc.
Qed.
Lemma impossible_twice k : impossible (impossible k) = impossible k.
Proof. now destruct k. Qed.
Lemma gap_col s lv inl x M : best_indent s = 2 -> (0 <= lv)%Z -> Z.of_N (m_col M) = (1 + 2 * lv)%Z ->
  (m_col M < m_col (marker_after (gap s lv inl x) (mark_add 1 M)))%N /\
  Z.of_N (m_col (marker_after (gap s lv inl x) (mark_add 1 M))) = (3 + 2 * lv)%Z.
Proof.
  intros BI LV C. unfold gap. destruct (nonempty_collection x && negb (inl && compact s)).
  - unfold nl. rewrite BI, col_line. lia.
  - rewrite marker_flat by (cbn [In]; intuition discriminate). cbn [List.length mark_add Base.m_col]. lia.
Qed.
Lemma item_ok s lv fuel x : best_indent s = 2 -> (0 <= lv)%Z -> legible s x -> node_ok s x ->
  part_ok (itext s lv) (seq_toks s) TBlockSequenceStart fuel lv x.
Proof.
  intros BI LV V NO z pre g after M L T k i si n0 i1 s1 S b AT G U SL C F FU CL.
  unfold itext in AT, FU. cbn [app] in AT. rewrite <- app_assoc in AT.
  destruct (starts_node s lv x V) as (fb & fr & Ex & Bx & Mx).
  assert (GS := gap_separates s lv true x).
  destruct (round_at fuel z pre 45%N (gap s lv true x ++ ntext s lv x ++ g ++ after) M L true T k i si i1 s1 n0
    (fun z2 => exists toks' i3 s3 pre' g' m' l' fs adj,
       z2 = zs (cur pre' (g' ++ ntext s lv x ++ g ++ after) m' l' true) toks' (impossible k) i3 s3 fs adj /\
       map k_type toks' = T ++ repeat TBlockEnd n0 ++ (if b then [TBlockSequenceStart] else []) ++ [TBlockEntry] /\
       inside (m_col M) S i3 s3 /\ pre ++ 45%N :: gap s lv true x = pre' ++ g' /\ white g' /\
       marker_after (gap s lv true x) (mark_add 1 M) = marker_after g' m')) as (z2 & R & P).
  - exact AT.
  - unfold begins. cbn [In]. intuition discriminate.
  - pose proof (starts_item s lv x) as (b1 & r1 & E1 & _ & M1). specialize (M1 (g ++ after)). unfold itext in M1. cbn [app] in M1. now rewrite <- app_assoc in M1.
  - revert FU. rewrite !app_length. lia.
  - exact G.
  - exact U.
  - intros toks fs adj ET _.
    destruct (zs_dash fuel (gap s lv true x) pre (ntext s lv x ++ g ++ after) M L toks (impossible k) i1 s1 fs adj (m_col M) S b GS) as
      (toks' & i3 & s3 & pre' & g' & m' & l' & E & ET' & IN & EP & W & EM & _).
    + now rewrite Ex.
    + lia.
    + apply idle_impossible.
    + rewrite ET. apply clean_calm. apply clean_app. split; [exact CL|apply clean_ends].
    + now apply slot_rolled with (1 := SL).
    + eapply slot_top; eauto.
    + rewrite E. do 2 eexists. split; [reflexivity|]. split; [apply zs_stale_gone; apply gone_impossible|]. split.
      * cbn [zs z_tokens]. apply (f_equal (@List.length token_type)) in ET'. rewrite !app_length, !map_length in ET'. cbn [List.length] in ET'. lia.
      * rewrite !impossible_twice. do 9 eexists. split; [reflexivity|]. split; [rewrite ET', ET, <- !app_assoc; reflexivity|]. auto.
  - destruct P as (toks' & i3 & s3 & pre' & g' & m' & l' & fs & adj & -> & ET & IN & EP & W & EM).
    destruct (gap_col s lv true x M BI LV C) as [C1 C2].
    destruct (NO lv fuel (zs (cur pre' (g' ++ ntext s lv x ++ g ++ after) m' l' true) toks' (impossible k) i3 s3 fs adj)
      (pre' ++ g') g after (marker_after g' m') (l' || has_lf g') (true || has_lf g') (map k_type toks') (impossible k) i3 s3 (m_col M) S)
      as (z3 & M3 & L3 & A3 & T3 & k3 & i4 & s4 & nb & R3 & AT3 & TK3 & UW3 & EE3).
    + lia.
    + lia.
    + lia.
    + now apply At_zs.
    + apply gone_impossible.
    + exact IN.
    + eapply slot_blocky; eauto.
    + rewrite <- EM. exact C1.
    + exact F.
    + rewrite <- EP. revert FU. lens. lia.
    + rewrite ET. apply clean_app. split; [exact CL|]. apply clean_app. split; [apply clean_ends|]. destruct b; repeat constructor.
    + intros _. split; [reflexivity|]. rewrite <- EM. exact C2.
    + exists z3, M3, L3, A3, (TBlockEntry :: T3), k3, i4, s4, nb. split; [eapply reach_trans; [apply reach_one; exact R|exact R3]|]. split; [|split; [|split; [exact UW3|exact EE3]]].
      * rewrite ET, <- !app_assoc, (app_assoc pre' g'), <- EP in AT3. rewrite <- app_assoc in AT3. unfold itext. cbn [app] in *. rewrite <- app_assoc. exact AT3.
      * unfold seq_toks. cbn [app]. now rewrite TK3.
Qed.
Lemma value_part s lv inl fuel v pre g after M a toks k c S fs adj :
  best_indent s = 2 -> (0 <= lv)%Z -> node_ok s v -> (exists x r, S = (x, true) :: r) -> sk_possible k = false ->
  Z.of_N c = (1 + 2 * lv)%Z -> (c < m_col M)%N -> (inl = true -> a = true /\ m_col M = (c + 1)%N) ->
  follows c g after -> List.length pre + List.length (gap s lv inl v ++ ntext s lv v ++ g ++ after) + 4 < fuel ->
  clean (map k_type toks) ->
  let z := zs (cur pre (gap s lv inl v ++ ntext s lv v ++ g ++ after) M false a) toks k (fst (onecol c S)) (snd (onecol c S)) fs adj in
  exists z' M' L' A' T' k' i' s' nb,
    reach fuel z z' /\ At z' (pre ++ gap s lv inl v ++ ntext s lv v ++ g) after M' L' A' (map k_type toks ++ T') k' i' s' /\
    T' ++ repeat TBlockEnd nb = tree_toks (to_tree s v) /\ unwinds i' s' c S nb /\ ends g M' A' k'.
Proof.
  intros BI LV NO TOP KP C CM H F FU CL z.
  destruct (NO lv fuel z (pre ++ gap s lv inl v) g after (marker_after (gap s lv inl v) M) (false || has_lf (gap s lv inl v)) (a || has_lf (gap s lv inl v))
     (map k_type toks) k (fst (onecol c S)) (snd (onecol c S)) c S) as (z3 & M3 & L3 & A3 & T3 & k3 & i4 & s4 & nb & R3 & AT3 & TK3 & UW3 & EE3).
  - lia.
  - lia.
  - lia.
  - apply At_zs; [|reflexivity]. apply separates_white. apply gap_separates.
  - now apply idle_gone.
  - now apply onecol_inside.
  - destruct TOP as (x & r & ->). exact I.
  - unfold gap. destruct (nonempty_collection v && negb (inl && compact s)).
    + unfold nl. rewrite BI, col_line. lia.
    + rewrite marker_flat by (cbn [In]; intuition discriminate). cbn [List.length mark_add Base.m_col]. lia.
  - exact F.
  - revert FU. lens. lia.
  - exact CL.
  - intros NE. unfold gap. rewrite NE. cbn [andb]. destruct (inl && compact s) eqn:IC; cbn [negb].
    + apply andb_prop in IC. destruct IC as [-> _]. destruct (H eq_refl) as [-> CE]. split; [reflexivity|].
      rewrite marker_flat by (cbn [In]; intuition discriminate). cbn [List.length mark_add Base.m_col]. lia.
    + split; [apply orb_true_r|]. unfold nl. rewrite BI, col_line. lia.
  - do 9 eexists. split; [exact R3|]. split; [|split; [exact TK3|split; [exact UW3|exact EE3]]]. rewrite <- app_assoc in AT3. exact AT3.
Qed.
Lemma zs_fetch_kept fuel pre b r m l a toks k i s fs adj :
  begins b -> 0 < fuel -> marker_line (b :: r) = false -> kept k m -> (i <= m_col m)%N ->
  fetch_next_token fuel (zs (cur pre (b :: r) m l a) toks k i s fs adj)
  = fetch_main_loop fuel (zs (cur pre (b :: r) m l a) toks k i s fs adj).
Proof.
  intros B F ML K I. unfold fetch_next_token. unfold bind at 1. unfold gets.
  change (z_started (zs (cur pre (b :: r) m l a) toks k i s fs adj)) with true. cbn [negb].
  unfold bind at 1. unfold zskip_to_next_token.
  change (z_flow (zs (cur pre (b :: r) m l a) toks k i s fs adj)) with 0%N.
  destruct fuel as [|fuel]; [lia|].
  rewrite zs_lift, e_next_none by exact B.
  unfold bind at 1. rewrite zs_stale_kept by exact K. unfold bind at 1. rewrite zs_mark.
  unfold bind at 1. rewrite (zs_unroll (m_col m) _ _ _ _ _ _ _ i s 0 (unrolls_none _ _ _ I)). cbn [repeat]. rewrite app_nil_r.
  now apply zs_content.
Qed.
Lemma entry_ok s lv fuel x : best_indent s = 2 -> (0 <= lv)%Z ->
  legible s (fst x) -> legible s (snd x) -> match fst x with YScalar v => one_line s v /\ forall lv, List.length (ntext s lv (fst x)) <= 1024 | _ => True end ->
  node_ok s (fst x) -> node_ok s (snd x) ->
  part_ok (etext s lv) (map_toks s) TBlockMappingStart fuel lv x.
Proof.
  intros BI LV V1 V2 VK NK NV z pre g after M L T k i si n0 i1 s1 S b AT G U SL C F FU CL.
  destruct x as [kx vx]. cbn [fst snd] in *. unfold etext in AT, FU. cbn [fst snd] in AT, FU.
  assert (IC := slot_le _ _ _ _ _ SL). assert (TOP := slot_top _ _ _ _ _ SL).
  destruct (complex_key kx) eqn:CK.
  - (* [? key] and [: value] *)
    cbn [app] in AT. rewrite <- !app_assoc in AT. cbn [app] in AT. rewrite <- app_assoc in AT.
    set (tail := 58%N :: gap s lv true vx ++ ntext s lv vx ++ g ++ after) in *.
    destruct (starts_node s lv kx V1) as (fb & fr & Ex & Bx & Mx).
    assert (GS := gap_separates s lv true kx).
    destruct (round_at fuel z pre 63%N (gap s lv true kx ++ ntext s lv kx ++ nl s lv ++ tail) M L true T k i si i1 s1 n0
      (fun z2 => exists toks' fs adj,
         z2 = zs (cur (pre ++ 63%N :: gap s lv true kx) (ntext s lv kx ++ nl s lv ++ tail) (marker_after (gap s lv true kx) (mark_add 1 M)) (has_lf (gap s lv true kx)) true)
                 toks' (impossible k) (m_col M) S fs adj /\
         map k_type toks' = T ++ repeat TBlockEnd n0 ++ (if b then [TBlockMappingStart] else []) ++ [TKey])) as (z2 & R & P).
    + exact AT.
    + unfold begins. cbn [In]. intuition discriminate.
    + pose proof (starts_indicator 63%N s lv true kx (ntext s lv kx ++ nl s lv ++ tail)) as (b1 & r1 & E1 & _ & M1); [cbn [In]; auto|].
      specialize (M1 []). rewrite app_nil_r in M1. exact M1.
    + revert FU. lens. lia.
    + exact G.
    + exact U.
    + intros toks fs adj ET _.
      destruct (zs_question fuel (gap s lv true kx) pre (ntext s lv kx ++ nl s lv ++ tail) M L toks (impossible k) i1 s1 fs adj (m_col M) S b GS) as (toks' & E & ET').
      * now rewrite Ex.
      * revert FU. lens. lia.
      * apply idle_impossible.
      * now apply slot_rolled with (1 := SL).
      * rewrite E. do 2 eexists. split; [reflexivity|]. split; [apply zs_stale_gone; apply gone_impossible|]. split.
        { cbn [zs z_tokens]. apply (f_equal (@List.length token_type)) in ET'. rewrite !app_length, !map_length in ET'. cbn [List.length] in ET'. lia. }
        rewrite !impossible_twice. do 3 eexists. split; [reflexivity|]. rewrite ET', ET, <- !app_assoc. reflexivity.
    + destruct P as (toks' & fs & adj & -> & ET).
      destruct (gap_col s lv true kx M BI LV C) as [C1 C2].
      assert (EN : nl s lv = 10%N :: repeat 32%N (2 * Z.to_nat lv)) by (unfold nl; now rewrite BI).
      assert (CLT : clean (map k_type toks')).
      { rewrite ET. apply clean_app. split; [exact CL|]. apply clean_app. split; [apply clean_ends|]. destruct b; repeat constructor. }
      destruct (NK lv fuel (zs (cur (pre ++ 63%N :: gap s lv true kx) (ntext s lv kx ++ nl s lv ++ tail) (marker_after (gap s lv true kx) (mark_add 1 M)) (has_lf (gap s lv true kx)) true)
                 toks' (impossible k) (m_col M) S fs adj) (pre ++ 63%N :: gap s lv true kx) (nl s lv) tail
                 (marker_after (gap s lv true kx) (mark_add 1 M)) (has_lf (gap s lv true kx)) true (map k_type toks') (impossible k) (m_col M) S (m_col M) S)
        as (z3 & M3 & L3 & A3 & T3 & k3 & i4 & s4 & nb & R3 & AT3 & TK3 & UW3 & EE3).
      * lia.
      * lia.
      * lia.
      * now apply At_here.
      * apply gone_impossible.
      * now left.
      * eapply slot_blocky; eauto.
      * exact C1.
      * rewrite EN. unfold tail. constructor; [unfold begins; cbn [In]; intuition discriminate|lia].
      * revert FU. unfold tail. lens. lia.
      * exact CLT.
      * intros _. split; [reflexivity|exact C2].
      * assert (C3 : m_col M3 = m_col M).
        { destruct EE3 as (_ & [E0|(_ & _ & X & EX)]); [rewrite EN in E0; discriminate|]. rewrite EX, EN, col_line. lia. }
        destruct EE3 as (_ & [E0|(-> & G3 & _)]); [rewrite EN in E0; discriminate|].
        destruct TOP as (sx & sr & ES).
        destruct (round_at fuel z3 ((pre ++ 63%N :: gap s lv true kx) ++ ntext s lv kx ++ nl s lv) 58%N (gap s lv true vx ++ ntext s lv vx ++ g ++ after)
           M3 L3 true (map k_type toks' ++ T3) k3 i4 s4 (m_col M) S (nb + 0)
           (fun z4 => exists toks4 k4 fs4 adj4, z4 = zs (cur (((pre ++ 63%N :: gap s lv true kx) ++ ntext s lv kx ++ nl s lv) ++ [58%N]) (gap s lv true vx ++ ntext s lv vx ++ g ++ after) (mark_add 1 M3) false true)
               toks4 k4 (fst (onecol (m_col M) S)) (snd (onecol (m_col M) S)) fs4 adj4 /\ sk_possible k4 = false /\
               map k_type toks4 = map k_type toks' ++ (T3 ++ repeat TBlockEnd nb) ++ [TValue])) as (z4 & R4 & P4).
        -- exact AT3.
        -- unfold begins. cbn [In]. intuition discriminate.
        -- pose proof (starts_indicator 58%N s lv true vx (ntext s lv vx ++ g ++ after)) as (b1 & r1 & E1 & _ & M1); [cbn [In]; auto|].
           specialize (M1 []). rewrite app_nil_r in M1. exact M1.
        -- revert FU. lens. lia.
        -- exact G3.
        -- rewrite C3. eapply unwinds_unrolls; [exact UW3|lia|]. apply unrolls_none. lia.
        -- intros toks fs4 adj4 ET4 _. rewrite Nat.add_0_r in ET4.
           destruct (zs_value_complex fuel (gap s lv true vx) ((pre ++ 63%N :: gap s lv true kx) ++ ntext s lv kx ++ nl s lv) (ntext s lv vx ++ g ++ after)
             M3 L3 toks (impossible k3) (m_col M) S fs4 adj4 (m_col M) S false) as (toks4 & E4 & ET5).
           ++ apply gap_separates.
           ++ reflexivity.
           ++ rewrite C3. apply rolled_again. eapply slot_blocky; eauto.
           ++ rewrite E4. do 2 eexists. split; [reflexivity|]. split; [apply zs_stale_gone; apply gone_impossible|]. split.
              { cbn [zs z_tokens]. apply (f_equal (@List.length token_type)) in ET5. rewrite !app_length, !map_length in ET5. cbn [List.length] in ET5. lia. }
              rewrite !impossible_twice. do 4 eexists. split; [reflexivity|]. split; [reflexivity|].
              rewrite ET5, ET4, <- !app_assoc. reflexivity.
        -- destruct P4 as (toks4 & k4 & fs4 & adj4 & -> & KP & ET4). rewrite TK3 in ET4.
           destruct (value_part s lv true fuel vx (((pre ++ 63%N :: gap s lv true kx) ++ ntext s lv kx ++ nl s lv) ++ [58%N]) g after (mark_add 1 M3) true toks4 k4 (m_col M) S fs4 adj4)
             as (z5 & M5 & L5 & A5 & T5 & k5 & i5 & s5 & nb5 & R5 & AT5 & TK5 & UW5 & EE5); auto.
           ++ eauto.
           ++ rewrite <- C3. cbn [mark_add Base.m_col]. lia.
           ++ intros _. split; [reflexivity|]. rewrite <- C3. cbn [mark_add Base.m_col]. lia.
           ++ revert FU. lens. lia.
           ++ rewrite ET4. apply clean_app. split; [exact CLT|]. apply clean_app. split; [eapply clean_tree; eauto|repeat constructor].
           ++ exists z5, M5, L5, A5, (TKey :: tree_toks (to_tree s kx) ++ TValue :: T5), k5, i5, s5, nb5.
              split; [eapply reach_trans; [apply reach_one; exact R|]; eapply reach_trans; [exact R3|]; eapply reach_trans; [apply reach_one; exact R4|exact R5]|].
              split; [|split; [|split; [exact UW5|exact EE5]]].
              ** unfold etext. cbn [fst snd]. rewrite CK. rewrite ET4, ET in AT5. rewrite <- ?app_assoc in AT5. cbn [app] in AT5. rewrite <- ?app_assoc in AT5. cbn [app] in AT5.
                 cbn [app]. rewrite <- !app_assoc. cbn [app]. rewrite <- ?app_assoc. exact AT5.
              ** unfold map_toks. cbn [app fst snd]. rewrite <- app_assoc. cbn [app]. now rewrite TK5.
  - (* [key: value] *)
    destruct kx as [| v0 | l0 | l0 | t0 y0 | id0]; try contradiction; try discriminate CK. clear NK.
    destruct VK as [V1' VK]. specialize (VK lv). clear V1. assert (V1 := V1' lv). change (ntext s lv (YScalar v0)) with (stext s lv v0) in *.
    set (w := stext s lv v0) in *. rewrite <- !app_assoc in AT. cbn [app] in AT. rewrite <- !app_assoc in AT.
    set (tail := gap s lv false vx ++ ntext s lv vx ++ g ++ after) in *.
    destruct (scalar_first _ _ _ V1) as (fb & fr & EW & B & ML).
    assert (AT' := AT). rewrite EW in AT'. cbn [app] in AT'.
    destruct (slot_around _ _ _ _ _ SL) as (i0 & s0 & IN & BL & L0 & SA).
    destruct (round_at fuel z pre fb (fr ++ 58%N :: tail) M L true T k i si i1 s1 n0
      (fun z2 => exists x sp i2 s2 fs adj r, z2 = zs (cur (pre ++ w) (58%N :: tail) (mark_add (List.length w) M) false false)
           (x ++ [Token sp (TScalar (fst (swrite s v0)) (snd (swrite s v0)))]) (SKey true r (List.length x) M) i2 s2 fs adj /\
         map k_type x = T ++ repeat TBlockEnd n0 /\ slot (m_col M) i2 s2 S b)) as (z2 & R & P).
    + exact AT'.
    + exact B.
    + specialize (ML (58%N :: tail)). rewrite EW in ML. exact ML.
    + revert FU. lens. lia.
    + exact G.
    + exact U.
    + intros toks fs adj ET IM. change (fb :: fr ++ 58%N :: tail) with ((fb :: fr) ++ [] ++ 58%N :: tail). rewrite <- EW.
      destruct (zs_scalar fuel _ _ _ [] pre (58%N :: tail) M L true toks (impossible k) i1 s1 fs adj i0 s0 V1 IN BL IM ltac:(lia)) as (sp & i2 & s2 & adj' & E & SE).
      * constructor. unfold tail. apply separates_blank. apply gap_separates.
      * unfold begins. cbn [nth In]. intuition discriminate.
      * revert FU. unfold tail. lens. lia.
      * rewrite E. clear E. rewrite app_nil_r. cbn [marker_after has_lf existsb]. do 2 eexists. split; [reflexivity|]. unfold saved. split.
        { apply zs_stale_kept. split; cbn [sk_mark c_mark cur mark_add Base.m_line Base.m_pos]; [reflexivity|]. lia. }
        split; [cbn [zs z_tokens]; lens; lia|].
        do 7 eexists. split; [reflexivity|]. split; [exact ET|]. apply SA. exact SE.
    + destruct P as (x & sp & i2 & s2 & fs & adj & r & -> & ET & SL2).
      assert (IC2 := slot_le _ _ _ _ _ SL2).
      destruct (zs_value_simple fuel (gap s lv false vx) (pre ++ w) (ntext s lv vx ++ g ++ after) (mark_add (List.length w) M) false false
         x [Token sp (TScalar (fst (swrite s v0)) (snd (swrite s v0)))] (SKey true r (List.length x) M) i2 s2 fs adj (m_col M) S b) as (toks' & E & ET').
      * apply gap_separates.
      * reflexivity.
      * reflexivity.
      * cbn [sk_mark]. now apply slot_rolled with (1 := SL2).
      * fold tail in E.
        assert (RV : round fuel (zs (cur (pre ++ w) (58%N :: tail) (mark_add (List.length w) M) false false)
             (x ++ [Token sp (TScalar (fst (swrite s v0)) (snd (swrite s v0)))]) (SKey true r (List.length x) M) i2 s2 fs adj)
             (zs (cur ((pre ++ w) ++ [58%N]) tail (mark_add 1 (mark_add (List.length w) M)) false false) toks' (impossible (SKey true r (List.length x) M))
               (fst (onecol (m_col M) S)) (snd (onecol (m_col M) S)) fs adj)).
        { eexists. split; [rewrite zs_fetch_kept; [exact E|unfold begins; cbn [In]; intuition discriminate|lia| | |]|].
          - unfold marker_line. cbn [nth]. reflexivity.
          - split; cbn [sk_mark c_mark cur mark_add Base.m_line Base.m_pos]; [reflexivity|]. lia.
          - cbn [mark_add Base.m_col]. lia.
          - split; [rewrite zs_stale_gone by apply gone_impossible; now rewrite impossible_twice|].
            cbn [zs z_tokens]. apply (f_equal (@List.length token_type)) in ET'. rewrite !app_length, !map_length in ET'. cbn [List.length] in ET'. lens. lia. }
        assert (CLT : clean (map k_type toks')).
        { rewrite ET', ET. apply clean_app. split; [apply clean_app; split; [exact CL|apply clean_ends]|]. destruct b; repeat constructor. }
        destruct (value_part s lv false fuel vx ((pre ++ w) ++ [58%N]) g after (mark_add 1 (mark_add (List.length w) M)) false toks' (impossible (SKey true r (List.length x) M)) (m_col M) S fs adj)
             as (z5 & M5 & L5 & A5 & T5 & k5 & i5 & s5 & nb5 & R5 & AT5 & TK5 & UW5 & EE5); auto.
        -- cbn [mark_add Base.m_col]. lia.
        -- discriminate.
        -- revert FU. unfold tail. lens. lia.
        -- exists z5, M5, L5, A5, (TKey :: TScalar (fst (swrite s v0)) (snd (swrite s v0)) :: TValue :: T5), k5, i5, s5, nb5.
           split; [eapply reach_trans; [apply reach_one; exact R|]; eapply reach_trans; [apply reach_one; exact RV|exact R5]|].
           split; [|split; [|split; [exact UW5|exact EE5]]].
           ++ unfold etext. cbn [fst snd]. rewrite CK. change (ntext s lv (YScalar v0)) with w. rewrite ET', ET in AT5.
              rewrite <- ?app_assoc in AT5. cbn [app] in AT5. rewrite <- ?app_assoc in AT5. cbn [app map k_type] in AT5.
              rewrite <- !app_assoc. cbn [app]. rewrite <- ?app_assoc. exact AT5.
           ++ unfold map_toks. cbn [app fst snd to_tree tree_toks props_toks no_props pr_anchor pr_tag pr_tag_first opt_list]. now rewrite TK5.
Qed.

(** ** All values *)
Theorem node_scans s y : best_indent s = 2 -> legible s y -> node_ok s y.
Proof.
  intros BI. induction y as [| v | id | l IH | l IH | t y IH] using yaml_induction; intros V; try contradiction.
  - destruct V as [V|V]; [now apply node_scalar|now apply node_literal].
  - destruct l as [|x l]; [exact (node_empty s false)|].
    intros lv fuel z pre g after M L A T k i si i0 s0 LV TF IL AT G IN BL C F FU CL NE. destruct (NE eq_refl) as [-> CM]. clear NE.
    cbn [legible] in V. apply all_of_Forall in V.
    assert (AT' := AT). rewrite ntext_seq in AT', FU.
    destruct (parts_ok (itext s (lv + 1)) (seq_toks s) TBlockSequenceStart fuel s (lv + 1) BI ltac:(lia) I l x) with
      (z := z) (pre := pre) (g := g) (after := after) (M := M) (L := L) (T := T) (k := k) (i := i) (si := si) (n0 := 0) (i1 := i) (s1 := si)
      (S := (i0, true) :: s0) (b := true) as (z' & M' & L' & A' & T' & k' & i' & s' & nb & R & AT2 & TK & UW & EE); auto.
    + rewrite Forall_forall in *. intros y Hy. apply item_ok; auto. lia.
    + apply Forall_forall. intros y _. apply starts_item.
    + rewrite Forall_forall in *. intros y Hy. constructor; [exact I|]. eapply clean_tree. apply V. exact Hy.
    + apply unrolls_none. eapply inside_le; eauto.
    + now constructor.
    + lia.
    + eapply follows_le; eauto. lia.
    + exists z', M', L', A', (TBlockSequenceStart :: T'), k', i', s', (nb + 1). split; [exact R|]. split; [exact AT2|]. split; [|split; [|exact EE]].
      * rewrite toks_seq, <- TK. cbn [app]. f_equal. rewrite <- app_assoc. f_equal. apply repeat_app.
      * eapply unwinds_trans; [exact UW|lia|]. apply (uw_one _ i0 true s0 i0 s0 0); [exact C|constructor].
  - destruct l as [|x l]; [exact (node_empty s true)|].
    intros lv fuel z pre g after M L A T k i si i0 s0 LV TF IL AT G IN BL C F FU CL NE. destruct (NE eq_refl) as [-> CM]. clear NE.
    cbn [legible] in V. apply all_of_Forall in V.
    assert (AT' := AT). rewrite ntext_map in AT', FU.
    destruct (parts_ok (etext s (lv + 1)) (map_toks s) TBlockMappingStart fuel s (lv + 1) BI ltac:(lia) I l x) with
      (z := z) (pre := pre) (g := g) (after := after) (M := M) (L := L) (T := T) (k := k) (i := i) (si := si) (n0 := 0) (i1 := i) (s1 := si)
      (S := (i0, true) :: s0) (b := true) as (z' & M' & L' & A' & T' & k' & i' & s' & nb & R & AT2 & TK & UW & EE); auto.
    + rewrite Forall_forall in *. intros y Hy. destruct (V y Hy) as (V1 & V2 & V3). destruct (IH y Hy) as [I1 I2]. apply entry_ok; auto. lia.
    + inversion_clear V as [|? ? V1 V2]. rewrite Forall_forall in *. intros y Hy. apply starts_entry. now apply V2.
    + rewrite Forall_forall in *. intros y Hy. destruct (V y Hy) as (V1 & V2 & V3). constructor; [exact I|]. apply clean_app. split; [eapply clean_tree; exact V1|].
      constructor; [exact I|eapply clean_tree; exact V2].
    + apply unrolls_none. eapply inside_le; eauto.
    + now constructor.
    + lia.
    + eapply follows_le; eauto. lia.
    + exists z', M', L', A', (TBlockMappingStart :: T'), k', i', s', (nb + 1). split; [exact R|]. split; [exact AT2|]. split; [|split; [|exact EE]].
      * rewrite toks_map, <- TK. cbn [app]. f_equal. rewrite <- app_assoc. f_equal. apply repeat_app.
      * eapply unwinds_trans; [exact UW|lia|]. apply (uw_one _ i0 true s0 i0 s0 0); [exact C|constructor].
Qed.
