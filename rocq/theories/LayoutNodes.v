(** The tokens of the nodes of block documents with comments and empty lines. *)
From Verif Require Import SpecProps.
From Verif Require Import Base Tokens Scalar Chars Source Cursor Scanner ExactCursor SpecTree SpecQuoted FoldedQuotes ExactPlain EagerScan ScanSteps.
From Verif Require Import SpecBlock BlockScan BlockStep SpecPlain PlainScan NodeScan DumpScan ScalarDocs PlainDocs SpecLayout LayoutCursor LayoutScan LayoutScalar TreeLike FlowScan FlowSteps PropsWords FlowLeaf.
From Coq Require Import String Lia ZifyBool ZifyNat ZifyN.
Local Open Scope list_scope.

(** ** First bytes *)
(** What follows a text that leaves its last line at [e] makes no marker of it. *)
Definition lstarts (e : option nat) (w : text) : Prop := exists b r, w = b :: r /\ begins b /\
  forall x, (e = None -> ~ In (nth 0 x 0%N) [45; 46]%N) -> marker_line (w ++ x) = false.
Lemma lstarts_app e e' w y : lstarts e w -> y <> [] -> (e = None -> ~ In (nth 0 y 0%N) [45; 46]%N) -> lstarts e' (w ++ y).
Proof.
  intros (b & r & E & B & M) NE Y. exists b, (r ++ y). split; [now rewrite E|]. split; [exact B|].
  intros x X. rewrite <- app_assoc. apply M. intros EN. destruct y as [|a y]; [congruence|exact (Y EN)].
Qed.
Lemma lstarts_dash e w : (w = [] /\ e = None \/ In (nth 0 w 0%N) [32; 10; 13]%N) -> lstarts e (45%N :: w).
Proof.
  intros W. exists 45%N, w. split; [reflexivity|]. split; [unfold begins; cbn; intuition discriminate|].
  intros x X. unfold marker_line. cbn [app nth].
  assert (H : (nth 0 (w ++ x) 0 =? 45)%N = false).
  { apply N.eqb_neq. destruct W as [[-> EN]|W]; [specialize (X EN); cbn [app In] in *; intros E; rewrite E in X; tauto|].
    destruct w as [|a w]; cbn [app nth In] in *; [intuition discriminate|]. intros ->. intuition discriminate. }
  rewrite H. reflexivity.
Qed.
Lemma lstarts_none w : (exists b r, w = b :: r /\ begins b /\ forall x, ~ In (nth 0 x 0%N) [45; 46]%N -> marker_line (w ++ x) = false) -> lstarts None w.
Proof. intros (b & r & E & B & M). exists b, r. split; [exact E|]. split; [exact B|]. intros x X. apply M. now apply X. Qed.
Lemma lstarts_question e w : lstarts e (63%N :: w).
Proof. exists 63%N, w. split; [reflexivity|]. split; [unfold begins; cbn; intuition discriminate|]. reflexivity. Qed.
Lemma next_line_first n g x : next_line n g -> nth 0 (g ++ x) 0%N <> 45%N /\ nth 0 (g ++ x) 0%N <> 46%N.
Proof. intros H. pose proof (next_line_head n g x H) as X. cbn [In] in X. destruct X as [<- |[<- |[<- |[<- |[]]]]]; split; discriminate. Qed.
Lemma next_line_plain n g x : next_line n g -> g ++ x = [] \/ ~ In (nth 0 (g ++ x) 0%N) [45; 46]%N.
Proof. intros H. right. destruct (next_line_first n g x H) as [H1 H2]. cbn [In]. intuition. Qed.
Lemma next_line_nil n g : next_line n g -> g <> [].
Proof. intros H ->. apply next_line_lf in H. discriminate. Qed.
Lemma next_line_first3 n g x : next_line n g -> In (nth 0 (g ++ x) 0%N) [32; 10; 13]%N.
Proof.
  intros [r b ls R E]. rewrite <- !app_assoc. destruct R as [[|k]|k c C]; [|now left|now left]. cbn [repeat app].
  destruct b; cbn; auto.
Qed.
Lemma behind_not g i0 after : behind i0 g after -> ~ In (nth 0 (g ++ after) 0%N) [45; 46]%N.
Proof. intros H X. apply behind_head in H. cbn [In] in *. destruct X as [X|[X|[]]]; rewrite <- X in H; intuition discriminate. Qed.
Lemma beyond_line e i0 n g e' w x : onwards e n g -> (1 + N.of_nat n <= i0)%N -> lstarts e' w -> beyond e i0 g (w ++ x).
Proof. intros H L (b & r & -> & B & _). cbn [app]. eapply by_line; eauto. Qed.
Lemma beyond_not e i0 g after : beyond e i0 g after -> e = None -> ~ In (nth 0 (g ++ after) 0%N) [45; 46]%N.
Proof. intros H ->. apply beyond_behind in H. eapply behind_not; eauto. Qed.

(** ** What is to be shown *)
(** The state behind a node. *)
Definition lends (e : option nat) (g : text) (M : marker) (A : bool) (k : skey) : Prop :=
  idle k /\ (forall n, onwards e n g -> A = true /\ gone k M /\ m_col M = (1 + N.of_nat n)%N).
(** The tokens found for [w]: those of a tree that is like the one meant. *)
Definition told (w : text) (n : nat) (P : list token_type -> Prop) (tk : list token_type) : Prop := P tk /\ unended tk /\ List.length tk + n <= 4 * List.length w.
Definition says (t : tree) (tk : list token_type) : Prop := exists t', like t t' /\ tk = tree_toks t'.
Definition osays (o : option tree) (tk : list token_type) : Prop := exists o', opt_like o o' /\ tk = opt_list tree_toks o'.
Lemma says_self t : says t (tree_toks t).
Proof. exists t. split; [apply like_refl|reflexivity]. Qed.
Definition lnode (b : bool) (p n : nat) (w : text) (t : tree) (e : option nat) : Prop :=
  lstarts e w /\ p <= n /\
  forall fuel z pre g after M A T k i si s0,
  Before z pre (w ++ g ++ after) M A T k i si ->
  spare k M A -> inside (N.of_nat p) s0 i si -> (p = 0 -> s0 = []) -> blocky s0 -> m_col M = (N.of_nat n + 1)%N -> beyond e (N.of_nat p) g after ->
  List.length pre + List.length (w ++ g ++ after) + 8 < fuel -> unended T -> (b = false -> A = true) ->
  exists z' M' A' T' k' i' s' nb,
    reach fuel z z' /\ Before z' (pre ++ w ++ g) after M' A' (T ++ T') k' i' s' /\
    told w 0 (says t) (T' ++ repeat TBlockEnd nb) /\ unwinds i' s' (N.of_nat p) s0 nb /\ lends e g M' A' k'.
Definition lpart (lf b : bool) (n c : nat) (w : text) (o : option tree) (e : option nat) : Prop :=
  (w = [] /\ e = None \/ In (nth 0 w 0%N) [32; 10; 13]%N) /\ (o <> None -> w <> []) /\
  forall g after, beyond e (N.of_nat n + 1) g after ->
  exists g0 rest, w ++ g ++ after = g0 ++ rest /\ parts_from g0 rest /\ (w <> [] \/ g <> [] -> g0 <> []) /\ (lf = true -> has_lf g0 = true) /\
  List.length g0 <= List.length (w ++ g) /\
  forall fuel z pre M a T k i si s0,
  Before z (pre ++ g0) rest (marker_after g0 M) (a || has_lf g0) T k i si -> sk_possible k = false ->
  inside (N.of_nat n + 1) s0 i si -> blocky s0 -> m_col M = (N.of_nat c + 1)%N ->
  (b = false -> a || has_lf g0 = true) ->
  List.length pre + List.length (w ++ g ++ after) + 8 < fuel -> unended T ->
  exists z' M' A' T' k' i' s' nb,
    reach fuel z z' /\ Before z' (pre ++ w ++ g) after M' A' (T ++ T') k' i' s' /\
    told w 0 (osays o) (T' ++ repeat TBlockEnd nb) /\ unwinds i' s' (N.of_nat n + 1) s0 nb /\ lends e g M' A' k'.
Definition lunit (st : token_type) (n : nat) (w : text) (P : list token_type -> Prop) (e : option nat) : Prop :=
  lstarts e w /\
  forall fuel z pre g after M T k i si n0 i1 s1 S b,
  Before z pre (w ++ g ++ after) M true T k i si -> gone k M ->
  unrolls (m_col M) i si i1 s1 n0 -> slot (m_col M) i1 s1 S b -> m_col M = (N.of_nat n + 1)%N ->
  beyond e (m_col M) g after -> List.length pre + List.length (w ++ g ++ after) + 8 < fuel -> unended T ->
  exists z' M' A' T' k' i' s' nb,
    reach fuel z z' /\
    Before z' (pre ++ w ++ g) after M' A' (T ++ repeat TBlockEnd n0 ++ (if b then [st] else []) ++ T') k' i' s' /\
    told w 2 P (T' ++ repeat TBlockEnd nb) /\ unwinds i' s' (m_col M) S nb /\ lends e g M' A' k'.

(** ** Scalars *)
Lemma line_lends k M m0 g : idle k -> (sk_possible k = true -> (m_line (sk_mark k) <= m_line M)%N) -> (m_line M <= m_line m0)%N ->
  lends None g (marker_after g m0) (has_lf g) k.
Proof.
  intros ID K LM. split; [exact ID|].
  intros n NL. apply onwards_line in NL. split; [eapply next_line_lf; eauto|]. destruct (next_line_col n g NL m0) as [C1 L1]. split; [|exact C1].
  intros P. split; [now apply ID|]. specialize (K P). lia.
Qed.
Lemma saved_lends a M m0 toks k i s i0 s0 g : inside i0 s0 i s -> (i0 < m_col M)%N -> rests k M a -> (m_line M <= m_line m0)%N ->
  forall k', (k' = saved a M toks k i s \/ k' = impossible (saved a M toks k i s)) ->
  lends None g (marker_after g m0) (has_lf g) k'.
Proof.
  intros IN C [ID RS] LM k' K. apply (line_lends k' M).
  - destruct K as [-> | ->]; [|apply idle_impossible]. eapply saved_idle; eauto.
  - destruct K as [-> | ->]; [|discriminate]. unfold saved. destruct a; [intros _; cbn [sk_mark]; lia|]. intros P. now apply RS.
  - exact LM.
Qed.
Lemma lnode_scalar p n st w v : p <= n -> written_scalar p st w v -> lnode true p n w (TrScalar no_props st v) None.
Proof.
  intros PN WS. pose proof (scalar_text_first _ _ _ _ WS) as ST. split; [now apply lstarts_none|].
  destruct ST as (b & r & EW & B & ML).
  split; [exact PN|].
  intros fuel z pre g after M A T k i si s0 AT G IN _ BL C F FU CL _. apply beyond_behind in F.
  assert (AT' := AT). rewrite EW in AT'. cbn [app] in AT'.
  assert (C' : (N.of_nat p < m_col M)%N) by lia.
  assert (IC := inside_le _ _ _ _ _ IN C').
  destruct (round_spare fuel z pre b (r ++ g ++ after) M A T k i si
    (fun z2 => exists g1 g2 l' toks k' i' s' fs adj, g = g1 ++ g2 /\ gap_to after g2 /\
       z2 = zs (cur (pre ++ w ++ g1) (g2 ++ after) (marker_after g1 (marker_after w M)) l' (has_lf g1)) toks k' i' s' fs adj /\
       map k_type toks = T ++ [TScalar st v] /\ inside (N.of_nat p) s0 i' s' /\
       lends None g (marker_after g (marker_after w M)) (has_lf g) k')) as (z2 & R & P).
  - exact AT'.
  - exact B.
  - specialize (ML (g ++ after) (behind_not _ _ _ F)). rewrite EW in ML. exact ML.
  - lia.
  - exact G.
  - exact IC.
  - intros toks fs adj L k0 ET _ RS. change (b :: r ++ g ++ after) with ((b :: r) ++ g ++ after). rewrite <- EW.
    destruct (scalar_round fuel p st w v g pre after M L A toks k0 i si fs adj (N.of_nat p) s0 WS ltac:(now left) IN BL IC ltac:(lia) (cl_behind _ _ _ F))
      as (sp & i1 & s1 & adj' & g1 & g2 & l' & EG & G2 & _ & E & IN').
    { intros kk rr Eg Ea. exfalso. pose proof (behind_begins _ _ _ F) as X. inversion F as [g' TE|kk' g' b' r' NL|g' r' NL DM]; subst.
      - discriminate.
      - pose proof (next_line_lf _ _ NL) as Y. rewrite (no_lf_has _ (no_lf_spaces kk)) in Y. discriminate.
      - pose proof (next_line_lf _ _ NL) as Y. rewrite (no_lf_has _ (no_lf_spaces kk)) in Y. discriminate. }
    { revert FU. lens. lia. }
    rewrite E. clear E.
    match goal with |- context [zs ?a ?b ?c ?d ?e ?f ?g] => destruct (zs_stale_idle a b c d e f g) as (k' & ES & K) end.
    { eapply saved_idle; eauto. apply RS. }
    do 2 eexists. split; [reflexivity|]. split; [exact ES|]. split; [cbn [zs z_tokens]; rewrite app_length; cbn [List.length]; lia|].
    exists g1, g2. do 7 eexists. split; [exact EG|]. split; [exact G2|]. split; [reflexivity|]. split; [rewrite map_app, ET; reflexivity|]. split.
    { destruct IN' as [[-> ->]|[-> ->]]; [now left|exact IN]. }
    eapply saved_lends; eauto. apply line_le.
  - destruct P as (g1 & g2 & l' & toks & k' & i' & s' & fs & adj & EG & G2 & -> & ET & IN' & EN).
    do 8 eexists. split; [apply reach_one; exact R|]. split; [|split; [|split; [apply inside_unwinds; exact IN'|exact EN]]].
    + rewrite EG. rewrite marker_after_app, has_lf_app. replace (pre ++ w ++ g1 ++ g2) with ((pre ++ w ++ g1) ++ g2) by now rewrite <- !app_assoc.
      apply Before_zs; [exact G2|exact ET|eapply steady_more; [exact ET|exact I]].
    + cbn [repeat]. rewrite app_nil_r. split; [apply (says_self (TrScalar no_props st v))|]. split; [repeat constructor|]. rewrite EW. cbn. lia.
Qed.

(** ** Block scalars *)
Lemma beyond_block m i0 g after : beyond (Some m) i0 g after -> 0 < m -> exists k g2, g = repeat 32%N k ++ g2 /\ gap_to after g2 /\
  block_ends m k (g2 ++ after).
Proof.
  intros F M0.
  assert (ON : forall n, onwards (Some m) n g -> begins (nth 0 after 0%N) -> after <> [] ->
    exists k g2, g = repeat 32%N k ++ g2 /\ gap_to after g2 /\ block_ends m k (g2 ++ after)).
  { intros n O B NE. inversion O as [|m' n' H1|m' n' k c b ls H1 H2 H3]; subst.
    - exists n, []. rewrite app_nil_r. split; [reflexivity|]. split; [constructor|]. right. left. split; [exact H1|]. split; [exact NE|].
      unfold begins in B. cbn [app In] in *. intuition.
    - exists k, (35%N :: c ++ eol b ++ empty_text ls ++ repeat 32%N n). split; [reflexivity|].
      split; [apply (onwards_gap (Some m) n after (repeat 32%N 0 ++ _)); now apply (ow_comment m n 0)|]. right. left. split; [exact H1|].
      split; [discriminate|]. cbn [app nth In]. intuition discriminate. }
  inversion F as [g' E|n g' b r E L B|g' r E D]; subst.
  - inversion E as [|m' k L|m' k c L C|m' k c b ls x L C E1 E2]; subst.
    + exists k, []. rewrite app_nil_r. split; [reflexivity|]. split; [constructor|]. left. auto.
    + exists k, (35%N :: c). split; [reflexivity|]. split; [apply (finally_gap (Some m) (repeat 32%N 0 ++ _)); now apply fi_comment|].
      right. left. split; [exact L|]. split; [discriminate|]. cbn [app nth In]. intuition discriminate.
    + exists k, (35%N :: c ++ eol b ++ empty_text ls ++ x). split; [reflexivity|]. split; [apply (finally_gap (Some m) (repeat 32%N 0 ++ _)); now apply fi_lines|].
      right. left. split; [exact L|]. split; [discriminate|]. cbn [app nth In]. intuition discriminate.
  - apply (ON n E); [exact B|discriminate].
  - apply (ON 0 E); [now apply mark_begins|]. destruct D as (x & [-> | ->] & _); discriminate.
Qed.
Lemma lnode_block p n st w v m : p <= n -> written_block p st w v m -> lnode true p n w (TrScalar no_props st v) (Some m).
Proof.
  intros PN [literal h e digit ht b first more tail m' HI HR HD HF HT HM].
  inversion_clear HF as [|? ? HF1 HF2].
  set (w0 := h ++ ht ++ eol b ++ flat_map (line_text m') (first :: more) ++ blank_lines tail).
  split.
  { exists (block_sign literal), w0. split; [reflexivity|]. split; [destruct literal; unfold begins; cbn; intuition discriminate|].
    intros x _. destruct literal; reflexivity. }
  split; [exact PN|].
  intros fuel z pre g after M A T k i si s0 AT G IN _ BL C F FU CL _.
  cbn [app] in AT.
  assert (C' : (N.of_nat p < m_col M)%N) by lia.
  assert (IC := inside_le _ _ _ _ _ IN C').
  destruct (beyond_block m' _ g after F ltac:(lia)) as (kk & g2 & EG & G2 & BE).
  destruct (round_spare fuel z pre (block_sign literal) (w0 ++ g ++ after) M A T k i si
    (fun z2 => exists toks m1 k' fs adj, z2 = zs (cur (pre ++ (block_sign literal :: w0) ++ repeat 32%N kk) (g2 ++ after) m1 true true) toks k' (N.of_nat p) s0 fs adj /\
       map k_type toks = T ++ [TScalar (if literal then Literal else Folded) (block_value literal e first more tail)] /\
       idle k' /\ m_col m1 = (N.of_nat kk + 1)%N /\ (sk_possible k' = true -> (m_line (sk_mark k') < m_line m1)%N))) as (z2 & R & P).
  - exact AT.
  - destruct literal; unfold begins; cbn [In block_sign]; intuition discriminate.
  - destruct literal; reflexivity.
  - lia.
  - exact G.
  - exact IC.
  - intros toks fs adj L k0 ET _ RS. rewrite main_block.
    destruct (e_block_scalar literal h e digit ht b first more tail m' kk (g2 ++ after) (N.of_nat p) M fuel (pre ++ [block_sign literal]) (mark_add 1 M) false true HI HR HD HF1 HF2 HT BE) as (m1 & sp & E & C1 & L1).
    { intros _. right. lia. }
    { right. left. lia. }
    { revert FU. unfold w0, block_lines. rewrite EG. lens. cbn [List.length app]. lens. rewrite ?repeat_length. lia. }
    assert (EL : w0 ++ g ++ after = h ++ ht ++ eol b ++ block_lines m' (first :: more) tail kk (g2 ++ after)).
    { unfold w0, block_lines. rewrite EG, <- !app_assoc. reflexivity. }
    rewrite EL. erewrite (zs_block fuel literal pre _ _ _ _ _ _ _ M L A toks k0 i si fs adj _ s0 IN BL E).
    match goal with |- context [zs ?c ?d ?e ?f ?g ?h ?j] => destruct (zs_stale_idle c d e f g h j) as (k' & ES & K) end.
    { eapply saved_idle; eauto. apply RS. }
    do 2 eexists. split; [reflexivity|]. split; [exact ES|]. split; [cbn [zs z_tokens]; rewrite app_length; cbn [List.length]; lia|].
    exists (toks ++ [Token sp (TScalar (if literal then Literal else Folded) (block_value literal e first more tail))]), m1, k', fs. eexists. split.
    { f_equal. unfold w0, block_lines. cbn [app]. rewrite <- !app_assoc, !app_nil_r. reflexivity. }
    split; [rewrite map_app, ET; reflexivity|].
    assert (ID : idle k').
    { destruct K as [-> | ->]; [|apply idle_impossible]. eapply saved_idle; eauto. apply RS. }
    split; [exact ID|]. split; [exact C1|]. intros PO. destruct K as [-> | ->]; [|discriminate PO]. unfold saved in *. destruct A; [exact L1|]. exact (N.le_lt_trans _ _ _ (proj2 (proj2 RS PO)) L1).
  - destruct P as (toks & m1 & k' & fs & adj & -> & ET & ID & C1 & L1).
    exists (zs (cur (pre ++ (block_sign literal :: w0) ++ repeat 32%N kk) (g2 ++ after) m1 true true) toks k' (N.of_nat p) s0 fs adj), (marker_after g2 m1), true,
      [TScalar (if literal then Literal else Folded) (block_value literal e first more tail)], k', (N.of_nat p), s0, 0.
    split; [apply reach_one; exact R|]. split; [|split; [|split; [apply (inside_unwinds (N.of_nat p) s0 (N.of_nat p) s0); now left|]]].
    + rewrite EG. fold w0. replace (pre ++ (block_sign literal :: w0) ++ repeat 32%N kk ++ g2) with ((pre ++ (block_sign literal :: w0) ++ repeat 32%N kk) ++ g2) by (now rewrite <- !app_assoc). change true with (true || has_lf g2) at 3. apply Before_zs; [exact G2|exact ET|eapply steady_more; [exact ET|exact I]].
    + split; [apply (says_self (TrScalar no_props _ _))|]. split; [repeat constructor|cbn; lia].
    + split; [exact ID|]. intros n0 O. split; [reflexivity|]. split.
      * intros PO. split; [now apply ID|]. specialize (L1 PO). pose proof (line_le g2 m1). lia.
      * rewrite <- (onwards_col m' n0 g (Marker 0 1 0) O eq_refl). rewrite EG, marker_after_app. apply marker_col.
        rewrite C1, marker_flat by apply no_lf_spaces. rewrite repeat_length. cbn [mark_add Base.m_col]. lia.
Qed.

(** ** Flow collections *)
Lemma lnode_flow p n w t : p <= n -> flow_node false p true w t -> collection t = true -> bare t -> (N.of_nat (List.length w) < 4294967294)%N -> lnode true p n w t None.
Proof.
  intros PN FN CO BT DL. split.
  { destruct (proj1 (proj1 (FlowNodes.flow_scans p) true w t FN)) as (b & r & E & B & M). apply lstarts_none. exists b, r. auto. }
  split; [exact PN|].
  intros fuel z pre g after M A T k i si s0 AT G IN _ BL C F FU CL _. apply beyond_behind in F.
  assert (C' : (N.of_nat p < m_col M)%N) by lia.
  destruct (flow_leaf p w t FN CO BT fuel z pre g after M A T k i si s0 AT G IN BL C' (behind_gap _ _ _ F) (behind_begins _ _ _ F) (head_not_comment g after (behind_head _ _ _ F)) DL)
    as (z' & k' & i' & s' & t' & toks0 & k0 & R & AT' & IN' & RS & K & LK & CT & LT).
  { revert FU. lens. lia. }
  exists z', (marker_after (w ++ g) M), (has_lf g), (tree_toks t'), k', i', s', 0.
  split; [exact R|]. split; [exact AT'|]. split; [|split; [apply inside_unwinds; exact IN'|]].
  - cbn [repeat]. rewrite app_nil_r. split; [exists t'; auto|]. split; [exact CT|]. lia.
  - rewrite marker_after_app. eapply (saved_lends A M _ toks0 k0 i si _ s0); [exact IN|exact C'|exact RS|apply line_le|exact K].
Qed.

(** ** Properties and aliases *)
Lemma word_before fuel z pre w tok rest M A T k i si i0 s0 : Before z pre (w ++ rest) M A T k i si -> spare k M A ->
  inside i0 s0 i si -> (i0 < m_col M)%N -> (m_col M = 1%N -> i = 0%N) -> prop_word w tok -> In (nth 0 rest 0%N) [32; 10; 13; 0]%N ->
  List.length pre + List.length w + 5 < fuel ->
  exists z' k', round fuel z z' /\ Before z' (pre ++ w) rest (mark_add (List.length w) M) false (T ++ [tok]) k' i si /\
    idle k' /\ (sk_possible k' = true -> (m_line (sk_mark k') <= m_line M)%N).
Proof.
  intros AT G IN C1 ZI W HR F. destruct (word_begins w tok rest W) as [B ML]. destruct (word_first w tok W) as (b & r & EB & _).
  assert (IC := inside_le _ _ _ _ _ IN C1).
  assert (EQ : w ++ rest = b :: r ++ rest) by now rewrite EB. rewrite EQ in AT, ML, B. cbn [nth] in B.
  destruct (round_spare fuel z pre b (r ++ rest) M A T k i si
    (fun z2 => exists k', Before z2 (pre ++ w) rest (mark_add (List.length w) M) false (T ++ [tok]) k' i si /\
      idle k' /\ (sk_possible k' = true -> (m_line (sk_mark k') <= m_line M)%N)) AT B ML ltac:(lia) G IC) as (z2 & R & k' & P).
  - intros toks fs adj L k0 ET _ RS. rewrite <- EQ.
    assert (E := word_fetch fuel pre w tok rest M L A toks [k0] [saved A M toks k0 i si] i si [] fs adj 0 W).
    change (fetch_main_loop fuel (zs (cur pre (w ++ rest) M L A) toks k0 i si fs adj)) with (fetch_main_loop fuel (zq (cur pre (w ++ rest) M L A) toks [k0] i si [] fs adj 0)).
    rewrite E; clear E.
    + change (zq (cur (pre ++ w) rest (mark_add (List.length w) M) false false) (toks ++ [Token (Span M (mark_add (List.length w) M)) tok]) [saved A M toks k0 i si] i si [] fs adj 0)
        with (zs (cur (pre ++ w) rest (mark_add (List.length w) M) false false) (toks ++ [Token (Span M (mark_add (List.length w) M)) tok]) (saved A M toks k0 i si) i si fs adj).
      match goal with |- context [zs ?a ?b ?c ?d ?e ?f ?g] => destruct (zs_stale_idle a b c d e f g) as (k' & ES & K) end.
      { eapply saved_idle; eauto. apply RS. }
      do 2 eexists. split; [reflexivity|]. split; [exact ES|]. split; [cbn [zs z_tokens]; rewrite app_length; cbn [List.length]; lia|].
      exists k'. split; [|split].
      * apply Before_here; [now apply map_snoc|]. apply steady_snoc. cbn [s_start]. destruct tok; try exact I; (destruct (N.eq_dec (m_col M) 1) as [H|H]; [left; now apply ZI|now right]).
      * destruct K as [-> | ->]; [|apply idle_impossible]. eapply saved_idle; eauto. apply RS.
      * destruct K as [-> | ->]; [|discriminate]. unfold saved. destruct A; [intros _; cbn [sk_mark]; lia|]. intros P. now apply RS.
    + left. unfold white_or_end. cbn [In] in *. tauto.
    + lia.
    + apply zs_save.
  - exists z2, k'. auto.
Qed.
Lemma mark_add2 a b M : mark_add a (mark_add b M) = mark_add (b + a) M.
Proof. unfold mark_add. cbn [Base.m_pos Base.m_col Base.m_line]. f_equal; lia. Qed.
Lemma props_before fuel z pre w pr rest M A T k i si i0 s0 : Before z pre (w ++ rest) M A T k i si -> spare k M A ->
  inside i0 s0 i si -> (i0 < m_col M)%N -> (m_col M = 1%N -> i = 0%N) -> props_text false w pr -> In (nth 0 rest 0%N) [32; 10; 13; 0]%N ->
  List.length pre + List.length w + 5 < fuel ->
  exists z' k', reach fuel z z' /\ Before z' (pre ++ w) rest (mark_add (List.length w) M) false (T ++ props_toks pr) k' i si /\
    idle k' /\ (sk_possible k' = true -> (m_line (sk_mark k') <= m_line M)%N).
Proof.
  intros AT G IN C1 ZI P HR F. destruct (props_words w pr P) as [(tok & W & ->)|(a & ta & j & b & tb & -> & W1 & W2 & ->)].
  - destruct (word_before fuel z pre w tok rest M A T k i si i0 s0 AT G IN C1 ZI W HR F) as (z' & k' & R & X). exists z', k'. split; [now apply reach_one|exact X].
  - rewrite <- !app_assoc in AT. rewrite !app_length, repeat_length in F.
    destruct (word_before fuel z pre a ta (repeat 32%N (S j) ++ b ++ rest) M A T k i si i0 s0 AT G IN C1 ZI W1) as (z1 & k1 & R1 & AT1 & ID1 & K1).
    { now left. }
    { lia. }
    apply Before_gap in AT1; [|rewrite <- (app_nil_r (repeat _ _)); apply gap_spaces; constructor].
    rewrite marker_flat, mark_add2, repeat_length in AT1 by apply no_lf_spaces. rewrite (no_lf_has _ (no_lf_spaces _)) in AT1. cbn [orb] in AT1.
    destruct (word_before fuel z1 ((pre ++ a) ++ repeat 32%N (S j)) b tb rest (mark_add (List.length a + S j) M) false (T ++ [ta]) k1 i si i0 s0 AT1) as (z2 & k2 & R2 & AT2 & ID2 & K2).
    + split; [exact ID1|]. intros Q. right. split; [reflexivity|]. unfold mark_add. cbn [Base.m_line]. now apply K1.
    + exact IN.
    + unfold mark_add. cbn [Base.m_col]. lia.
    + unfold mark_add. cbn [Base.m_col]. lia.
    + exact W2.
    + exact HR.
    + rewrite !app_length, repeat_length. lia.
    + exists z2, k2. split; [eapply reach_trans; apply reach_one; eassumption|]. split; [|split; [exact ID2|exact K2]].
      rewrite mark_add2 in AT2. rewrite <- !app_assoc in AT2. rewrite !app_length, repeat_length, Nat.add_assoc. exact AT2.
Qed.
Lemma inside_top p (s0 : list (N * bool)) i si (M : marker) n : inside (N.of_nat p) s0 i si -> (p = 0 -> s0 = []) -> p <= n -> m_col M = (N.of_nat n + 1)%N -> m_col M = 1%N -> i = 0%N.
Proof. intros IN Z PN C E. assert (p = 0) by lia. subst p. specialize (Z eq_refl). destruct IN as [[-> _]|[X _]]; [reflexivity|contradiction]. Qed.
Lemma lstarts_word e w tok x : prop_word w tok -> lstarts e (w ++ x).
Proof.
  intros W. destruct (word_first w tok W) as (b & r & E & _). exists b, (r ++ x). split; [now rewrite E|].
  destruct (word_begins w tok [] W) as [B _]. rewrite E in B. split; [exact B|]. intros y _. rewrite <- app_assoc. now apply (word_begins w tok).
Qed.
Lemma lstarts_props e w pr x : props_text false w pr -> lstarts e (w ++ x).
Proof.
  intros P. destruct (props_words w pr P) as [(tok & W & _)|(a & ta & j & b & tb & -> & W1 & _)]; [now apply (lstarts_word e w tok)|].
  rewrite <- app_assoc. now apply (lstarts_word e a ta).
Qed.
Lemma lnode_alias p n a : p <= n -> anchor_name a -> lnode true p n (42%N :: a) (TrAlias a) None.
Proof.
  intros PN AN. assert (W := pw_alias a AN). split; [rewrite <- (app_nil_r (42%N :: a)); now apply (lstarts_word None _ (TAlias a))|]. split; [exact PN|].
  intros fuel z pre g after M A T k i si s0 AT G IN Z0 BL C F FU CL _. apply beyond_behind in F.
  destruct (word_before fuel z pre (42%N :: a) (TAlias a) (g ++ after) M A T k i si (N.of_nat p) s0 AT G IN) as (z' & k' & R & AT' & ID & K); auto.
  - lia.
  - now apply (inside_top p s0 i si M n).
  - eapply behind_head; eauto.
  - revert FU. lens. lia.
  - apply Before_gap in AT'; [|eapply behind_gap; eauto]. rewrite <- app_assoc in AT'.
    do 8 eexists. split; [apply reach_one; exact R|]. split; [exact AT'|]. split; [|split; [apply inside_unwinds; exact IN|]].
    + cbn [repeat]. rewrite app_nil_r. split; [apply (says_self (TrAlias a))|]. split; [repeat constructor|cbn; lia].
    + cbn [orb]. now apply (line_lends k' M).
Qed.
Lemma lnode_empty p n w pr : p <= n -> props_text false w pr -> lnode true p n w (TrEmpty pr) None.
Proof.
  intros PN P. split; [rewrite <- (app_nil_r w); now apply (lstarts_props None _ pr)|]. split; [exact PN|].
  intros fuel z pre g after M A T k i si s0 AT G IN Z0 BL C F FU CL _. apply beyond_behind in F.
  destruct (props_before fuel z pre w pr (g ++ after) M A T k i si (N.of_nat p) s0 AT G IN) as (z' & k' & R & AT' & ID & K); auto.
  - lia.
  - now apply (inside_top p s0 i si M n).
  - eapply behind_head; eauto.
  - revert FU. lens. lia.
  - apply Before_gap in AT'; [|eapply behind_gap; eauto]. rewrite <- app_assoc in AT'.
    do 8 eexists. split; [exact R|]. split; [exact AT'|]. split; [|split; [apply inside_unwinds; exact IN|]].
    + cbn [repeat]. rewrite app_nil_r. destruct (props_unended w pr P) as [U LU]. split; [apply (says_self (TrEmpty pr))|]. split; [exact U|lia].
    + cbn [orb]. now apply (line_lends k' M).
Qed.
Lemma lnode_props b p n w pr g0 m w' t e : p <= n -> props_text false w pr -> lnode b p m w' t e -> bare t ->
  (forall rest, gap_to rest g0) -> (forall x, In (nth 0 (g0 ++ x) 0%N) [32; 10; 13; 0]%N) -> (b = false -> has_lf g0 = true) ->
  (forall M, m_col M = (N.of_nat (n + List.length w) + 1)%N -> m_col (marker_after g0 M) = (N.of_nat m + 1)%N) ->
  (forall M, (m_line M < m_line (marker_after g0 M))%N \/ has_lf g0 = false) ->
  lnode true p n (w ++ g0 ++ w') (with_props pr t) e.
Proof.
  intros PN P (ST & PM & H) BT GG HD LF COL LINE. split; [now apply (lstarts_props e w pr)|]. split; [exact PN|].
  intros fuel z pre g after M A T k i si s0 AT G IN Z0 BL C F FU CL _. rewrite <- !app_assoc in AT.
  destruct (props_unended w pr P) as [U LU].
  destruct (props_before fuel z pre w pr (g0 ++ w' ++ g ++ after) M A T k i si (N.of_nat p) s0 AT G IN) as (z1 & k1 & R1 & AT1 & ID1 & K1); auto.
  { lia. }
  { now apply (inside_top p s0 i si M n). }
  { revert FU. lens. lia. }
  apply Before_gap in AT1; [|apply GG]. cbn [orb] in AT1.
  destruct (H fuel z1 ((pre ++ w) ++ g0) g after _ _ _ k1 i si s0 AT1) as (z' & M' & A' & T' & k' & i' & s' & nb & R & AT' & ((t' & LK & ET) & CT & LT) & X); auto.
  - split; [exact ID1|]. intros Q. specialize (K1 Q). assert (LM : m_line (mark_add (List.length w) M) = m_line M) by reflexivity.
    destruct (LINE (mark_add (List.length w) M)) as [L|L]; [left; lia|]. right. split; [exact L|]. pose proof (line_le g0 (mark_add (List.length w) M)). lia.
  - apply COL. unfold mark_add. cbn [Base.m_col]. lia.
  - revert FU. lens. lia.
  - now apply unended_app.
  - exists z', M', A', (props_toks pr ++ T'), k', i', s', nb. split; [eapply reach_trans; eauto|]. split; [rewrite <- !app_assoc in *; exact AT'|].
    split; [|exact X]. rewrite <- app_assoc. split; [|split; [now apply unended_app|rewrite (app_length (props_toks pr)), !(app_length w), (app_length g0); lia]].
    exists (with_props pr t'). destruct (props_text_some false w pr P) as [_ NP]. split; [now apply like_with|].
    rewrite with_toks by (now apply (proj2 LK)). now rewrite ET.
Qed.
Lemma lnode_props_beside p n w pr k w' t e : p <= n -> props_text false w pr -> lnode true p (n + List.length w + S k) w' t e -> bare t ->
  lnode true p n (w ++ repeat 32%N (S k) ++ w') (with_props pr t) e.
Proof.
  intros PN P H BT. apply (lnode_props true p n w pr _ (n + List.length w + S k)); [exact PN|exact P|exact H|exact BT| | | | |].
  - intros rest. rewrite <- (app_nil_r (repeat _ _)). apply gap_spaces. constructor.
  - intros x. now left.
  - discriminate.
  - intros M C. rewrite marker_flat by apply no_lf_spaces. rewrite repeat_length. cbn [mark_add Base.m_col]. lia.
  - intros M. right. apply no_lf_has, no_lf_spaces.
Qed.
Lemma lnode_props_below b p n w pr g m w' t e : p <= n -> props_text false w pr -> next_line m g -> lnode b p m w' t e -> bare t ->
  lnode true p n (w ++ g ++ w') (with_props pr t) e.
Proof.
  intros PN P NL H BT. apply (lnode_props b p n w pr g m); [exact PN|exact P|exact H|exact BT| | | | |].
  - intros rest. eapply gap_next_line; eauto.
  - intros x. eapply next_line_head; eauto.
  - intros _. eapply next_line_lf; eauto.
  - intros M C. destruct (next_line_col m g NL M) as [-> _]. lia.
  - intros M. left. apply (next_line_col m g NL M).
Qed.

(** ** What stands behind an indicator *)
Lemma lpart_none b n c : lpart false b n c [] None None.
Proof.
  split; [now left|]. split; [congruence|].
  intros g after F. apply beyond_behind in F. exists g, after. split; [reflexivity|]. split.
  { split; [eapply behind_gap; eauto|]. split; [eapply behind_begins; eauto|eapply behind_head; eauto]. }
  split; [tauto|]. split; [discriminate|]. split; [cbn; lia|].
  intros fuel z pre M a T k i si s0 AT K IN BL C _ FU CL.
  exists z, (marker_after g M), (a || has_lf g), [], k, i, si, 0. split; [apply reach_refl|]. split; [rewrite app_nil_r; exact AT|].
  split; [split; [exists None; split; [constructor|reflexivity]|split; [constructor|cbn; lia]]|]. split; [now apply inside_unwinds|]. split; [intros X; congruence|].
  intros m NL. apply onwards_line in NL. rewrite (next_line_lf _ _ NL), orb_true_r. split; [reflexivity|]. split; [now apply idle_gone|]. now apply next_line_col.
Qed.
Lemma lpart_node lf b n c m g0 w t e : lnode b (n + 1) m w t e -> (forall rest, gap_to rest g0) -> g0 <> [] ->
  (forall x, In (nth 0 (g0 ++ x) 0%N) [32; 10; 13]%N) -> (lf = true -> has_lf g0 = true) ->
  (forall M, m_col M = (N.of_nat c + 1)%N -> m_col (marker_after g0 M) = (N.of_nat m + 1)%N) ->
  lpart lf b n c (g0 ++ w) (Some t) e.
Proof.
  intros (ST & PN & H) GG NE HD LF COL. unfold lpart.
  assert (NE' : g0 ++ w <> []) by (destruct g0; [congruence|discriminate]).
  split; [right; apply HD|]. split; [intros _; exact NE'|].
  intros g after F. exists g0, (w ++ g ++ after). split; [now rewrite <- app_assoc|]. destruct ST as (b0 & r & EW & B & ML). split.
  { split; [apply GG|]. split; [rewrite EW; exact B|]. specialize (HD (w ++ g ++ after)). cbn [In] in *. tauto. }
  split; [intros _; exact NE|]. split; [exact LF|]. split; [rewrite !app_length; lia|].
  intros fuel z pre M a T k i si s0 AT K IN BL C INL FU CL.
  replace (N.of_nat n + 1)%N with (N.of_nat (n + 1)) in * by lia.
  destruct (H fuel z (pre ++ g0) g after (marker_after g0 M) (a || has_lf g0) T k i si s0 AT) as (z' & M' & A' & T' & k' & i' & s' & nb & R & AT' & ((t' & LK & ET) & CT & LT) & X); auto.
  - apply gone_spare. now apply idle_gone.
  - lia.
  - revert FU. lens. lia.
  - exists z', M', A', T', k', i', s', nb. split; [exact R|]. split; [rewrite <- !app_assoc in *; exact AT'|].
    split; [|exact X]. split; [exists (Some t'); split; [now constructor|exact ET]|]. split; [exact CT|]. rewrite (app_length g0 w). lia.
Qed.
Lemma lpart_beside b n c k w t e : lnode b (n + 1) (c + S k) w t e -> lpart false b n c (repeat 32%N (S k) ++ w) (Some t) e.
Proof.
  intros H. apply (lpart_node false b n c (c + S k)); [exact H| | | | |].
  - intros rest. rewrite <- (app_nil_r (repeat _ _)). apply gap_spaces. constructor.
  - discriminate.
  - intros x. now left.
  - discriminate.
  - intros M C. rewrite marker_flat by apply no_lf_spaces. rewrite repeat_length. cbn [mark_add Base.m_col]. lia.
Qed.
Lemma lpart_below lf b n c m g w t e : next_line m g -> lnode b (n + 1) m w t e -> lpart lf b n c (g ++ w) (Some t) e.
Proof.
  intros NL H. apply (lpart_node lf b n c m); [exact H| | | | |].
  - intros rest. eapply gap_next_line; eauto.
  - eapply next_line_nil; eauto.
  - intros x. eapply next_line_first3; eauto.
  - intros _. eapply next_line_lf; eauto.
  - intros M C. destruct (next_line_col m g NL M) as [-> _]. lia.
Qed.

(** ** Items *)
Lemma parts_not g0 rest : parts_from g0 rest -> ~ In (nth 0 (g0 ++ rest) 0%N) [45; 46]%N.
Proof. intros (_ & _ & H) X. cbn [In] in *. destruct X as [X|[X|[]]]; rewrite <- X in H; intuition discriminate. Qed.
Lemma lunit_item b0 n w o e : lpart false b0 n (n + 1) w o e ->
  lunit TBlockSequenceStart n (45%N :: w) (fun tk => exists o', opt_like o o' /\ tk = TBlockEntry :: opt_list tree_toks o') e.
Proof.
  intros (W & _ & H). split; [now apply lstarts_dash|].
  intros fuel z pre g after M T k i si n0 i1 s1 S b AT G U SL C F FU CL.
  destruct (H g after) as (g0 & rest & EG & PF & _ & _ & LG & K); [now rewrite <- C|].
  cbn [app] in AT, FU. rewrite EG in AT.
  destruct (round_before fuel z pre 45%N (g0 ++ rest) M true T k i si i1 s1 n0
    (fun z2 => exists toks' i3 s3 pre' g' m' l' fs adj,
       z2 = zs (cur pre' (g' ++ rest) m' l' true) toks' (impossible k) i3 s3 fs adj /\
       map k_type toks' = T ++ repeat TBlockEnd n0 ++ (if b then [TBlockSequenceStart] else []) ++ [TBlockEntry] /\
       inside (m_col M) S i3 s3 /\ pre ++ 45%N :: g0 = pre' ++ g' /\ gap_to rest g' /\
       marker_after g0 (mark_add 1 M) = marker_after g' m')) as (z2 & R & P).
  - exact AT.
  - unfold begins. cbn [In]. intuition discriminate.
  - destruct (lstarts_dash None []) as (b1 & r1 & E1 & _ & M1); [now left|]. apply (M1 (g0 ++ rest)). intros _. now apply parts_not.
  - revert FU. lens. lia.
  - exact G.
  - exact U.
  - intros toks fs adj L ET _ STY.
    destruct (dash_gap fuel g0 pre rest M L toks (impossible k) i1 s1 fs adj (m_col M) S b PF) as
      (toks' & i3 & s3 & pre' & g' & m' & l' & E & ET' & IN & EP & WG & EM).
    + revert FU LG. lens. lia.
    + apply idle_impossible.
    + exact STY.
    + now apply slot_rolled with (1 := SL).
    + eapply slot_top; eauto.
    + rewrite E. do 2 eexists. split; [reflexivity|]. split; [apply zs_stale_gone; apply gone_impossible|]. split.
      * cbn [zs z_tokens]. apply (f_equal (@List.length token_type)) in ET'. rewrite !app_length, !map_length in ET'. cbn [List.length] in ET'. lia.
      * rewrite !impossible_twice. do 9 eexists. split; [reflexivity|]. split; [rewrite ET', ET, <- !app_assoc; reflexivity|]. auto.
  - destruct P as (toks' & i3 & s3 & pre' & g' & m' & l' & fs & adj & -> & ET & IN & EP & WG & EM).
    destruct (K fuel (zs (cur pre' (g' ++ rest) m' l' true) toks' (impossible k) i3 s3 fs adj) (pre ++ [45%N]) (mark_add 1 M) true (map k_type toks') (impossible k) i3 s3 S)
      as (z3 & M3 & A3 & T3 & k3 & i4 & s4 & nb & R3 & AT3 & ((o' & LK3 & TK3) & CT3 & LT3) & UW3 & EE3).
    + rewrite <- app_assoc. cbn [app orb]. rewrite EP, EM. change true with (true || has_lf g') at 2. apply Before_zs; [exact WG|reflexivity|].
      apply (steady_more toks' i3 TBlockEntry (T ++ repeat TBlockEnd n0 ++ (if b then [TBlockSequenceStart] else []))); [rewrite ET, <- !app_assoc; reflexivity|exact I].
    + reflexivity.
    + rewrite <- C. exact IN.
    + eapply slot_blocky; eauto.
    + cbn [mark_add Base.m_col]. lia.
    + reflexivity.
    + revert FU. lens. lia.
    + rewrite ET. apply unended_app. split; [exact CL|]. apply unended_app. split; [apply unended_ends|]. destruct b; repeat constructor.
    + exists z3, M3, A3, (TBlockEntry :: T3), k3, i4, s4, nb. split; [eapply reach_trans; [apply reach_one; exact R|exact R3]|].
      split; [|split; [|split; [rewrite C; exact UW3|exact EE3]]].
      * rewrite ET, <- !app_assoc in AT3. cbn [app] in *. exact AT3.
      * cbn [app]. split; [exists o'; split; [exact LK3|now rewrite TK3]|]. split; [constructor; [exact I|exact CT3]|]. cbn [List.length]. lia.
Qed.

(** ** One part after another *)
Lemma lunit_more st n w g w' (P P' Q : list token_type -> Prop) e e' : (forall a b, P a -> P' b -> Q (a ++ b)) -> (match st with TStreamEnd => False | _ => True end) ->
  lunit st n w P e -> onwards e n g -> lunit st n w' P' e' -> lunit st n (w ++ g ++ w') Q e'.
Proof.
  intros PQ ST (S1 & H1) NL (S2 & H2). split.
  { destruct S2 as (b2 & r2 & E2 & _). apply (lstarts_app e); [exact S1|rewrite E2; destruct g; discriminate|]. intros ->. apply onwards_line in NL. destruct (next_line_plain n g w' NL) as [X|X]; [|exact X]. rewrite X. cbn. intuition discriminate. }
  intros fuel z pre g' after M T k i si n0 i1 s1 S b AT G U SL C F FU CL.
  assert (AT' := AT). rewrite <- !app_assoc in AT'.
  destruct (H1 fuel z pre g (w' ++ g' ++ after) M T k i si n0 i1 s1 S b AT' G U SL C) as
    (z2 & M2 & A2 & T2 & k2 & i2 & s2 & nb & R & AT2 & (TK & CT & LT) & UW & EE); auto.
  { eapply beyond_line; eauto. lia. }
  { revert FU. lens. lia. }
  destruct EE as [_ EE]. destruct (EE n NL) as (-> & G2 & CM2). assert (C2' : m_col M2 = m_col M) by lia.
  destruct (slot_top _ _ _ _ _ SL) as (sx & sr & ES).
  destruct (H2 fuel z2 (pre ++ w ++ g) g' after M2 (T ++ repeat TBlockEnd n0 ++ (if b then [st] else []) ++ T2) k2 i2 s2 (nb + 0) (m_col M2) S S false) as
    (z3 & M3 & A3 & T3 & k3 & i3 & s3 & nb3 & R3 & AT3 & (TK3 & CT3 & LT3) & UW3 & EE3).
  - exact AT2.
  - exact G2.
  - rewrite C2'. eapply unwinds_unrolls; [exact UW|lia|]. apply unrolls_none. lia.
  - rewrite ES. constructor.
  - lia.
  - now rewrite C2'.
  - revert FU. lens. lia.
  - apply unended_app. split; [exact CL|]. apply unended_app. split; [apply unended_ends|]. apply unended_app. split.
    { destruct b; repeat constructor. exact ST. }
    apply unended_app in CT. tauto.
  - exists z3, M3, A3, (T2 ++ repeat TBlockEnd nb ++ T3), k3, i3, s3, nb3. split; [eapply reach_trans; eauto|]. split; [|split; [|split; [rewrite <- C2'; exact UW3|exact EE3]]].
    + rewrite <- !app_assoc in *. cbn [app] in AT3. rewrite Nat.add_0_r in AT3. exact AT3.
    + replace ((T2 ++ repeat TBlockEnd nb ++ T3) ++ repeat TBlockEnd nb3) with ((T2 ++ repeat TBlockEnd nb) ++ T3 ++ repeat TBlockEnd nb3) by (now rewrite <- !app_assoc).
      split; [now apply PQ|]. split; [now apply unended_app|]. rewrite (app_length (T2 ++ _)), !(app_length w), (app_length g). lia.
Qed.

(** ** Keys *)
(** Behind a part of a key: the key starts at [M], [d] bytes before, and its tokens so far are [Y]. *)
Definition Kept (z : scanner) (pre rest : text) (d : nat) (M : marker) (T Y : list token_type) (S : list (N * bool)) (b : bool) : Prop :=
  exists y y' l fs adj r i s, z = zs (cur pre rest (mark_add d M) l false) (y ++ y') (SKey true r (List.length y) M) i s fs adj /\
    map k_type y = T /\ map k_type y' = Y /\ slot (m_col M) i s S b.
Lemma kept_round fuel z pre j c r d M T Y S b (post : scanner -> Prop) :
  Kept z pre (repeat 32%N j ++ c :: r) d M T Y S b -> begins c -> marker_line (c :: r) = false -> j + 2 < fuel -> d + j <= 1024 ->
  (forall y y' l fs adj rq i s, map k_type y = T -> map k_type y' = Y -> slot (m_col M) i s S b ->
     exists z1 z2, fetch_main_loop fuel (zs (cur (pre ++ repeat 32%N j) (c :: r) (mark_add (d + j) M) l false) (y ++ y') (SKey true rq (List.length y) M) i s fs adj) = (z1, Ok tt) /\
       stale_simple_keys z1 = (z2, Ok tt) /\ List.length (y ++ y') < List.length (z_tokens z1) /\ post z2) ->
  exists z2, round fuel z z2 /\ post z2.
Proof.
  intros (y & y' & l & fs & adj & rq & i & s & -> & EY & EY' & SL) B ML F D H.
  assert (GG : gap_to (c :: r) (repeat 32%N j)) by (rewrite <- (app_nil_r (repeat _ _)); apply gap_spaces; constructor).
  assert (HL : has_lf (repeat 32%N j) = false) by (apply no_lf_has, no_lf_spaces).
  assert (EM : marker_after (repeat 32%N j) (mark_add d M) = mark_add (d + j) M) by (rewrite marker_flat, repeat_length by apply no_lf_spaces; apply mark_add2).
  destruct (H y y' (l || has_lf (repeat 32%N j)) fs adj rq i s EY EY' SL) as (z1 & z2 & E1 & E2 & E3 & P).
  exists z2. split; [|exact P]. exists z1. split; [|split; [exact E2|exact E3]]. rewrite <- E1.
  unfold fetch_next_token. unfold bind at 1. unfold gets.
  match goal with |- context [z_started ?z] => change (z_started z) with true end. cbn [negb].
  unfold bind at 1. unfold zskip_to_next_token.
  match goal with |- context [z_flow ?z] => change (z_flow z) with 0%N end.
  rewrite zs_lift, e_next_gap by (auto; rewrite repeat_length; lia). rewrite EM, HL. cbn [orb].
  unfold bind at 1. rewrite zs_stale_kept; [|split; cbn [sk_mark c_mark cur mark_add Base.m_line Base.m_pos]; [reflexivity|lia]].
  unfold bind at 1. rewrite zs_mark. cbn [c_mark cur].
  assert (IC : (i <= m_col (mark_add (d + j) M))%N) by (pose proof (slot_le _ _ _ _ _ SL); cbn [mark_add Base.m_col]; lia).
  unfold bind at 1. rewrite (zs_unroll (m_col (mark_add (d + j) M)) _ _ _ _ _ _ _ i s 0 (unrolls_none _ _ _ IC)). cbn [repeat]. rewrite app_nil_r.
  now apply zs_content.
Qed.
(** Nearby the key stays possible. *)
Lemma near fuel0 c toks r n M i s fs adj d : c_mark c = mark_add d M -> d <= 1024 -> fuel0 = tt ->
  stale_simple_keys (zs c toks (SKey true r n M) i s fs adj) = (zs c toks (SKey true r n M) i s fs adj, Ok tt).
Proof. intros E D _. apply zs_stale_kept. rewrite E. split; cbn [sk_mark mark_add Base.m_line Base.m_pos]; [reflexivity|lia]. Qed.
Lemma key_word_first fuel z pre w tok rest M T k i si n0 i1 s1 S b :
  prop_word w tok -> Before z pre (w ++ rest) M true T k i si -> gone k M -> unrolls (m_col M) i si i1 s1 n0 -> slot (m_col M) i1 s1 S b ->
  In (nth 0 rest 0%N) [32; 10; 13; 0]%N -> List.length w <= 1024 -> List.length pre + List.length w + 5 < fuel ->
  exists z', round fuel z z' /\ Kept z' (pre ++ w) rest (List.length w) M (T ++ repeat TBlockEnd n0) [tok] S b.
Proof.
  intros W AT G U SL HR LW F. destruct (word_begins w tok rest W) as [B ML]. destruct (word_first w tok W) as (c & r & EB & _).
  assert (EQ : w ++ rest = c :: r ++ rest) by now rewrite EB. rewrite EQ in AT, ML, B. cbn [nth] in B.
  apply (round_before fuel z pre c (r ++ rest) M true T k i si i1 s1 n0 _ AT B ML ltac:(lia) G U).
  intros toks fs adj L ET IM _. rewrite <- EQ.
  change (fetch_main_loop fuel (zs (cur pre (w ++ rest) M L true) toks (impossible k) i1 s1 fs adj)) with (fetch_main_loop fuel (zq (cur pre (w ++ rest) M L true) toks [impossible k] i1 s1 [] fs adj 0)).
  rewrite (word_fetch fuel pre w tok rest M L true toks [impossible k] [saved true M toks (impossible k) i1 s1] i1 s1 [] fs adj 0 W).
  - match goal with |- context [zq ?c ?d [?e] ?f ?g [] ?h ?j 0%N] => change (zq c d [e] f g [] h j 0%N) with (zs c d e f g h j) end.
    unfold saved. do 2 eexists. split; [reflexivity|]. split; [now apply (near tt _ _ _ _ _ _ _ _ _ (List.length w))|].
    split; [cbn [zs z_tokens]; rewrite app_length; cbn [List.length]; lia|].
    do 8 eexists. split; [reflexivity|]. split; [exact ET|]. split; [reflexivity|exact SL].
  - left. unfold white_or_end. cbn [In] in *. tauto.
  - lia.
  - apply zs_save.
Qed.
Lemma key_word_more fuel z pre j w tok rest d M T Y S b :
  prop_word w tok -> Kept z pre (repeat 32%N j ++ w ++ rest) d M T Y S b ->
  In (nth 0 rest 0%N) [32; 10; 13; 0]%N -> d + j + List.length w <= 1024 -> j + List.length w + 5 < fuel ->
  exists z', round fuel z z' /\ Kept z' (pre ++ repeat 32%N j ++ w) rest (d + j + List.length w) M T (Y ++ [tok]) S b.
Proof.
  intros W AT HR LW F. destruct (word_begins w tok rest W) as [B ML]. destruct (word_first w tok W) as (c & r & EB & _).
  assert (EQ : w ++ rest = c :: r ++ rest) by now rewrite EB. rewrite EQ in AT, ML, B. cbn [nth] in B.
  apply (kept_round fuel z pre j c (r ++ rest) d M T Y S b _ AT B ML ltac:(lia) ltac:(lia)).
  intros y y' l fs adj rq i s EY EY' SL. rewrite <- EQ.
  match goal with |- context [zs ?c ?d ?e ?f ?g ?h ?j] => change (zs c d e f g h j) with (zq c d [e] f g [] h j 0%N) end.
  rewrite (word_fetch fuel (pre ++ repeat 32%N j) w tok rest (mark_add (d + j) M) l false (y ++ y') [SKey true rq (List.length y) M] [SKey true rq (List.length y) M] i s [] fs adj 0 W).
  - match goal with |- context [zq ?c ?d [?e] ?f ?g [] ?h ?j 0%N] => change (zq c d [e] f g [] h j 0%N) with (zs c d e f g h j) end.
    do 2 eexists. split; [reflexivity|]. rewrite mark_add2. split; [now apply (near tt _ _ _ _ _ _ _ _ _ (d + j + List.length w))|].
    split; [cbn [zs z_tokens]; rewrite !app_length; cbn [List.length]; lia|].
    exists y. eexists. do 6 eexists. rewrite <- !app_assoc. split; [reflexivity|]. split; [exact EY|]. split; [now apply map_snoc|exact SL].
  - left. unfold white_or_end. cbn [In] in *. tauto.
  - lia.
  - exact (zs_save (pre ++ repeat 32%N j) (w ++ rest) (mark_add (d + j) M) l false (y ++ y') (SKey true rq (List.length y) M) i s fs adj).
Qed.
Lemma key_scalar_first fuel z pre st w v kk x M T k i si n0 i1 s1 S b :
  written_scalar 0 st w v -> ~ In 10%N w -> Before z pre (w ++ repeat 32%N kk ++ 58%N :: x) M true T k i si -> gone k M ->
  unrolls (m_col M) i si i1 s1 n0 -> slot (m_col M) i1 s1 S b -> (0 < m_col M)%N -> In (nth 0 x 0%N) [32; 10; 13; 0]%N ->
  List.length w + kk <= 1024 -> List.length pre + List.length w + kk + 8 < fuel ->
  exists z', round fuel z z' /\ Kept z' (pre ++ w ++ repeat 32%N kk) (58%N :: x) (List.length w + kk) M (T ++ repeat TBlockEnd n0) [TScalar st v] S b.
Proof.
  intros WS NL AT G U SL CM HX LE FU.
  destruct (scalar_text_first _ _ _ _ WS) as (fb & fr & EW & B & ML).
  rewrite EW in AT. cbn [app] in AT.
  destruct (slot_around _ _ _ _ _ SL) as (i0 & s0 & IN & BL & L0 & SA).
  set (tail := repeat 32%N kk ++ 58%N :: x) in *.
  assert (SPC : ~ In 10%N (repeat 32%N kk)) by apply no_lf_spaces.
  assert (EM1 : marker_after (repeat 32%N kk) (marker_after w M) = mark_add (List.length w + kk) M).
  { rewrite (marker_flat w) by exact NL. rewrite marker_flat by exact SPC. rewrite repeat_length. apply mark_add2. }
  apply (round_before fuel z pre fb (fr ++ tail) M true T k i si i1 s1 n0 _ AT B).
  - specialize (ML tail). rewrite EW in ML. apply ML. unfold tail. destruct kk; cbn; intuition discriminate.
  - lia.
  - exact G.
  - exact U.
  - intros toks fs adj L ET IM _. change (fb :: fr ++ tail) with ((fb :: fr) ++ tail). rewrite <- EW. unfold tail.
    destruct (scalar_round fuel 0 st w v (repeat 32%N kk) pre (58%N :: x) M L true toks (impossible k) i1 s1 fs adj i0 s0 WS ltac:(now right) IN BL IM CM (cl_colon _ _ _ HX))
      as (sp & i2 & s2 & adj' & g1 & g2 & l' & EG & G2 & CO & E & SE).
    { intros. exact NL. }
    { rewrite repeat_length. lia. }
    rewrite E. clear E. rewrite (CO kk x eq_refl eq_refl) in *. rewrite app_nil_r in EG. subst g1. rewrite EM1.
    rewrite (no_lf_has _ SPC). do 2 eexists. split; [reflexivity|]. unfold saved. split; [now apply (near tt _ _ _ _ _ _ _ _ _ (List.length w + kk))|].
    split; [cbn [zs z_tokens]; lens; lia|].
    do 8 eexists. split; [reflexivity|]. split; [exact ET|]. split; [reflexivity|]. apply SA. exact SE.
Qed.
Lemma key_scalar_more fuel z pre j st w v kk x d M T Y S b :
  written_scalar 0 st w v -> ~ In 10%N w -> Kept z pre (repeat 32%N j ++ w ++ repeat 32%N kk ++ 58%N :: x) d M T Y S b ->
  (0 < m_col M)%N -> In (nth 0 x 0%N) [32; 10; 13; 0]%N ->
  d + j + List.length w + kk <= 1024 -> j + List.length w + kk + 8 < fuel ->
  exists z', round fuel z z' /\ Kept z' (pre ++ repeat 32%N j ++ w ++ repeat 32%N kk) (58%N :: x) (d + j + List.length w + kk) M T (Y ++ [TScalar st v]) S b.
Proof.
  intros WS NL AT CM HX LE FU.
  destruct (scalar_text_first _ _ _ _ WS) as (fb & fr & EW & B & ML).
  rewrite EW in AT. cbn [app] in AT.
  set (tail := repeat 32%N kk ++ 58%N :: x) in *.
  assert (SPC : ~ In 10%N (repeat 32%N kk)) by apply no_lf_spaces.
  assert (EM1 : marker_after (repeat 32%N kk) (marker_after w (mark_add (d + j) M)) = mark_add (d + j + List.length w + kk) M).
  { rewrite (marker_flat w) by exact NL. rewrite marker_flat by exact SPC. rewrite repeat_length, !mark_add2. f_equal. lia. }
  apply (kept_round fuel z pre j fb (fr ++ tail) d M T Y S b _ AT B).
  - specialize (ML tail). rewrite EW in ML. apply ML. unfold tail. destruct kk; cbn; intuition discriminate.
  - lia.
  - lia.
  - intros y y' l fs adj rq i s EY EY' SL. change (fb :: fr ++ tail) with ((fb :: fr) ++ tail). rewrite <- EW. unfold tail.
    destruct (slot_around _ _ _ _ _ SL) as (i0 & s0 & IN & BL & L0 & SA). pose proof (slot_le _ _ _ _ _ SL) as IM.
    destruct (scalar_round fuel 0 st w v (repeat 32%N kk) (pre ++ repeat 32%N j) (58%N :: x) (mark_add (d + j) M) l false (y ++ y') (SKey true rq (List.length y) M) i s fs adj i0 s0 WS ltac:(now right) IN BL)
      as (sp & i2 & s2 & adj' & g1 & g2 & l' & EG & G2 & CO & E & SE).
    { cbn [mark_add Base.m_col]. lia. }
    { cbn [mark_add Base.m_col]. lia. }
    { now apply cl_colon. }
    { intros. exact NL. }
    { rewrite repeat_length. lia. }
    rewrite E. clear E. rewrite (CO kk x eq_refl eq_refl) in *. rewrite app_nil_r in EG. subst g1. rewrite EM1.
    rewrite (no_lf_has _ SPC). do 2 eexists. split; [reflexivity|]. unfold saved. split; [now apply (near tt _ _ _ _ _ _ _ _ _ (d + j + List.length w + kk))|].
    split; [cbn [zs z_tokens]; lens; lia|].
    exists y. eexists. do 6 eexists. rewrite <- !app_assoc. split; [reflexivity|]. split; [exact EY|]. split; [now apply map_snoc|]. apply SA. exact SE.
Qed.
Lemma key_colon fuel z pre j x d M T Y S b :
  Kept z pre (repeat 32%N j ++ 58%N :: x) d M T Y S b -> In (nth 0 x 0%N) [32; 10; 13; 0]%N -> d + j <= 1024 -> j + 2 < fuel ->
  exists toks k' fs adj,
    round fuel z (zs (cur (pre ++ repeat 32%N j ++ [58%N]) x (mark_add (d + j + 1) M) false false) toks k' (fst (onecol (m_col M) S)) (snd (onecol (m_col M) S)) fs adj) /\
    sk_possible k' = false /\ map k_type toks = T ++ (if b then [TBlockMappingStart] else []) ++ TKey :: Y ++ [TValue].
Proof.
  intros AT HX LE FU.
  destruct (kept_round fuel z pre j 58%N x d M T Y S b (fun z2 => exists toks k' fs adj,
    z2 = zs (cur (pre ++ repeat 32%N j ++ [58%N]) x (mark_add (d + j + 1) M) false false) toks k' (fst (onecol (m_col M) S)) (snd (onecol (m_col M) S)) fs adj /\
    sk_possible k' = false /\ map k_type toks = T ++ (if b then [TBlockMappingStart] else []) ++ TKey :: Y ++ [TValue]) AT) as (z2 & R & toks & k' & fs & adj & -> & P).
  - unfold begins. cbn [In]. intuition discriminate.
  - reflexivity.
  - exact FU.
  - exact LE.
  - intros y y' l fs adj rq i s EY EY' SL.
    destruct (value_simple fuel x (pre ++ repeat 32%N j) (mark_add (d + j) M) l false y y' (SKey true rq (List.length y) M) i s fs adj (m_col M) S b HX) as (toks' & E & ET').
    { reflexivity. }
    { reflexivity. }
    { cbn [sk_mark]. now apply slot_rolled with (1 := SL). }
    rewrite E. do 2 eexists. split; [reflexivity|]. split; [apply zs_stale_gone; apply gone_impossible|]. rewrite impossible_twice. split.
    + cbn [zs z_tokens]. apply (f_equal (@List.length token_type)) in ET'. rewrite !app_length, !map_length in ET'. cbn [List.length app] in ET'. rewrite ?app_length, ?map_length in ET'. cbn [List.length] in ET'. rewrite app_length. lia.
    + exists toks', (impossible (SKey true rq (List.length y) M)), fs, adj. rewrite mark_add2, <- app_assoc. split; [reflexivity|]. split; [reflexivity|].
      rewrite ET', EY, EY'. reflexivity.
  - exists toks, k', fs, adj. auto.
Qed.
(** Properties, and what follows them in a key. *)
Lemma key_props fuel z pre w pr rest M T k i si n0 i1 s1 S b :
  props_text false w pr -> Before z pre (w ++ rest) M true T k i si -> gone k M -> unrolls (m_col M) i si i1 s1 n0 -> slot (m_col M) i1 s1 S b ->
  In (nth 0 rest 0%N) [32; 10; 13; 0]%N -> List.length w <= 1024 -> List.length pre + List.length w + 5 < fuel ->
  exists z', reach fuel z z' /\ Kept z' (pre ++ w) rest (List.length w) M (T ++ repeat TBlockEnd n0) (props_toks pr) S b.
Proof.
  intros P AT G U SL HR LW F. destruct (props_words w pr P) as [(tok & W & ->)|(a & ta & j & c & tc & -> & W1 & W2 & ->)].
  - destruct (key_word_first fuel z pre w tok rest M T k i si n0 i1 s1 S b W AT G U SL HR LW F) as (z' & R & X). exists z'. split; [now apply reach_one|exact X].
  - rewrite <- !app_assoc in AT. rewrite !app_length, repeat_length in F, LW.
    destruct (key_word_first fuel z pre a ta (repeat 32%N (Datatypes.S j) ++ c ++ rest) M T k i si n0 i1 s1 S b W1 AT G U SL) as (z1 & R1 & X1).
    { now left. }
    { lia. }
    { lia. }
    destruct (key_word_more fuel z1 (pre ++ a) (Datatypes.S j) c tc rest (List.length a) M _ [ta] S b W2 X1 HR) as (z2 & R2 & X2).
    { lia. }
    { lia. }
    exists z2. split; [eapply reach_trans; apply reach_one; eassumption|]. rewrite <- app_assoc in X2. rewrite !app_length, repeat_length, Nat.add_assoc. exact X2.
Qed.
Lemma key_round w t kk fuel z pre x M T k i si n0 i1 s1 S b :
  written_key w t kk -> Before z pre (w ++ repeat 32%N kk ++ 58%N :: x) M true T k i si -> gone k M ->
  unrolls (m_col M) i si i1 s1 n0 -> slot (m_col M) i1 s1 S b -> (0 < m_col M)%N -> In (nth 0 x 0%N) [32; 10; 13; 0]%N ->
  List.length pre + List.length w + kk + 8 < fuel ->
  exists toks k' fs adj, let M' := mark_add (List.length w + kk + 1) M in
    reach fuel z (zs (cur (pre ++ w ++ repeat 32%N kk ++ [58%N]) x M' false false) toks k' (fst (onecol (m_col M) S)) (snd (onecol (m_col M) S)) fs adj) /\
    sk_possible k' = false /\
    map k_type toks = T ++ repeat TBlockEnd n0 ++ (if b then [TBlockMappingStart] else []) ++ TKey :: tree_toks t ++ [TValue].
Proof.
  intros (KT & NL & LE) AT G U SL CM HX FU.
  assert (H : exists z1 pre1 j d, reach fuel z z1 /\ Kept z1 pre1 (repeat 32%N j ++ 58%N :: x) d M (T ++ repeat TBlockEnd n0) (tree_toks t) S b /\
    pre1 ++ repeat 32%N j = pre ++ w ++ repeat 32%N kk /\ d + j = List.length w + kk /\ j <= kk).
  { destruct KT as [st w v kk WS|w1 pr j st w' v kk P WS|a kk AN K0|w pr kk P K0].
    - destruct (key_scalar_first fuel z pre st w v kk x M T k i si n0 i1 s1 S b WS NL AT G U SL CM HX LE FU) as (z1 & R & X).
      exists z1, (pre ++ w ++ repeat 32%N kk), 0, (List.length w + kk). split; [now apply reach_one|]. split; [exact X|]. split; [apply app_nil_r|]. split; lia.
    - rewrite <- !app_assoc in AT. rewrite !in_app_iff in NL. rewrite !app_length, repeat_length in *.
      destruct (key_props fuel z pre w1 pr _ M T k i si n0 i1 s1 S b P AT G U SL) as (z1 & R1 & X1).
      { now left. }
      { lia. }
      { lia. }
      destruct (key_scalar_more fuel z1 (pre ++ w1) (Datatypes.S j) st w' v kk x (List.length w1) M _ _ S b WS ltac:(tauto) X1 CM HX) as (z2 & R2 & X2).
      { lia. }
      { lia. }
      exists z2. eexists. exists 0, (List.length w1 + Datatypes.S j + List.length w' + kk). split; [eapply reach_trans; [exact R1|apply reach_one; exact R2]|].
      split; [exact X2|]. cbn [repeat]. rewrite app_nil_r, <- !app_assoc. split; [reflexivity|]. split; lia.
    - destruct (key_word_first fuel z pre (42%N :: a) (TAlias a) _ M T k i si n0 i1 s1 S b (pw_alias a AN) AT G U SL) as (z1 & R1 & X1).
      { destruct kk; [lia|now left]. }
      { lia. }
      { lia. }
      exists z1. do 3 eexists. split; [apply reach_one; exact R1|]. split; [exact X1|]. rewrite <- app_assoc. split; [reflexivity|]. split; lia.
    - destruct (key_props fuel z pre w pr _ M T k i si n0 i1 s1 S b P AT G U SL) as (z1 & R1 & X1).
      { destruct kk; [lia|now left]. }
      { lia. }
      { lia. }
      exists z1. do 3 eexists. split; [exact R1|]. split; [exact X1|]. rewrite <- app_assoc. split; [reflexivity|]. split; lia. }
  destruct H as (z1 & pre1 & j & d & R1 & X1 & EP & ED & EJ).
  destruct (key_colon fuel z1 pre1 j x d M _ _ S b X1 HX ltac:(lia) ltac:(lia)) as (toks & k' & fs & adj & R2 & KP & ET).
  exists toks, k', fs, adj. cbv zeta. split; [|split; [exact KP|rewrite ET, <- app_assoc; reflexivity]].
  rewrite <- ED. eapply reach_trans; [exact R1|]. apply reach_one.
  assert (EQ : pre1 ++ repeat 32%N j ++ [58%N] = pre ++ w ++ repeat 32%N kk ++ [58%N]) by (rewrite (app_assoc pre1), EP, <- !app_assoc; reflexivity).
  rewrite <- EQ. exact R2.
Qed.
Lemma lstarts_key e w t kk x : written_key w t kk -> lstarts e (w ++ repeat 32%N kk ++ 58%N :: x).
Proof.
  intros (KT & _). destruct KT as [st w v kk WS|w1 pr j st w' v kk P WS|a kk AN K0|w pr kk P K0].
  - apply (lstarts_app None); [apply lstarts_none; eapply scalar_text_first; eauto|destruct kk; discriminate|]. intros _. destruct kk; cbn; intuition discriminate.
  - rewrite <- app_assoc. now apply (lstarts_props e w1 pr).
  - apply (lstarts_word e (42%N :: a) (TAlias a)). now constructor.
  - now apply (lstarts_props e w pr).
Qed.
Lemma key_small w t kk : written_key w t kk -> 1 <= List.length w /\ unended (tree_toks t) /\ List.length (tree_toks t) <= 2 * List.length w.
Proof.
  intros (KT & _). destruct KT as [st w v kk WS|w1 pr j st w' v kk P WS|a kk AN K0|w pr kk P K0].
  - destruct (scalar_text_first _ _ _ _ WS) as (fb & fr & -> & _). cbn. split; [lia|]. split; [repeat constructor|lia].
  - destruct (props_unended w1 pr P) as [U L]. destruct (scalar_text_first _ _ _ _ WS) as (fb & fr & -> & _).
    cbn [tree_toks]. rewrite !app_length, repeat_length. cbn [List.length]. split; [lia|]. split; [apply unended_app; split; [exact U|repeat constructor]|lia].
  - cbn. split; [lia|]. split; [repeat constructor|lia].
  - destruct (props_unended w pr P) as [U L]. destruct (props_first w pr P) as (b & r & -> & _). cbn [tree_toks List.length] in *. split; [lia|]. split; [exact U|lia].
Qed.
Definition pair_says (x : key tree * value tree) (tk : list token_type) : Prop := exists x', pair_like x x' /\ tk = pair_toks tree_toks x'.
Lemma lunit_key lf b0 n w t kk w' o e : written_key w t kk -> lpart lf b0 n (n + List.length w + kk + 1) w' o e -> b0 = true \/ lf = true ->
  lunit TBlockMappingStart n (w ++ repeat 32%N kk ++ 58%N :: w') (pair_says (KNode t, value_of o)) e.
Proof.
  intros WK (W & _ & H) INL. split; [eapply lstarts_key; eauto|].
  destruct (key_small w t kk WK) as (L1 & UK & LK).
  intros fuel z pre g after M T k i si n0 i1 s1 S b AT G U SL C F FU CL.
  destruct (H g after) as (g0 & rest & EG & PF & _ & LF & LG & K); [now rewrite <- C|].
  rewrite <- !app_assoc in AT. cbn [app] in AT. rewrite EG in AT.
  destruct (key_round w t kk fuel z pre (g0 ++ rest) M T k i si n0 i1 s1 S b WK AT G U SL) as (toks & k' & fs & adj & R & KP & ET).
  { lia. }
  { destruct PF as (_ & _ & X). exact X. }
  { revert FU. lens. rewrite repeat_length. lia. }
  cbv zeta in R. set (M' := mark_add (List.length w + kk + 1) M) in *.
  assert (STY : steady toks (fst (onecol (m_col M) S))).
  { apply (steady_more toks _ TValue (T ++ repeat TBlockEnd n0 ++ (if b then [TBlockMappingStart] else []) ++ TKey :: tree_toks t)); [rewrite ET, <- !app_assoc; reflexivity|exact I]. }
  pose proof (Before_zs (pre ++ w ++ repeat 32%N kk ++ [58%N]) g0 rest M' false false toks k' (fst (onecol (m_col M) S)) (snd (onecol (m_col M) S)) fs adj _ (proj1 PF) eq_refl STY) as BE.
  destruct (K fuel _ (pre ++ w ++ repeat 32%N kk ++ [58%N]) M' false (map k_type toks) k' (fst (onecol (m_col M) S)) (snd (onecol (m_col M) S)) S BE KP)
    as (z3 & M3 & A3 & T3 & k3 & i4 & s4 & nb & R3 & AT3 & ((o' & LK3 & TK3) & CT3 & LT3) & UW3 & EE3).
  - rewrite <- C. apply onecol_inside. eapply slot_top; eauto.
  - eapply slot_blocky; eauto.
  - unfold M'. cbn [mark_add Base.m_col]. lia.
  - intros NI. destruct INL as [I0|I0]; [congruence|]. now rewrite (LF I0), orb_true_r.
  - revert FU. lens. rewrite repeat_length. lia.
  - rewrite ET. apply unended_app. split; [exact CL|]. apply unended_app. split; [apply unended_ends|]. apply unended_app. split; [destruct b; repeat constructor|].
    constructor; [exact I|]. apply unended_app. split; [exact UK|repeat constructor].
  - exists z3, M3, A3, (TKey :: tree_toks t ++ TValue :: T3), k3, i4, s4, nb. split; [eapply reach_trans; [exact R|exact R3]|].
    split; [|split; [|split; [rewrite C; exact UW3|exact EE3]]].
    + rewrite ET in AT3. rewrite <- !app_assoc in AT3. cbn [app] in AT3. rewrite <- !app_assoc in AT3. cbn [app] in AT3. rewrite <- !app_assoc. cbn [app]. exact AT3.
    + cbn [app]. rewrite <- app_assoc. cbn [app]. split; [|split].
      * exists (KNode t, value_of o'). split; [split; [constructor; apply like_refl|destruct LK3; now constructor]|].
        cbn [pair_toks key_toks]. rewrite TK3. destruct o'; cbn [value_of value_toks opt_list app]; rewrite <- ?app_assoc; reflexivity.
      * constructor; [exact I|]. apply unended_app. split; [exact UK|]. constructor; [exact I|exact CT3].
      * cbn [List.length]. rewrite (app_length (tree_toks t)), !(app_length w), (app_length (repeat 32%N kk)). cbn [List.length]. rewrite ?app_length in LT3 |- *. lia.
Qed.
Definition items_say (l : list (option tree)) (tk : list token_type) : Prop :=
  exists l', Forall2 opt_like l l' /\ tk = flat_map (fun o => TBlockEntry :: opt_list tree_toks o) l'.
(** From a colon to the items of a sequence that is not indented. *)
Definition leads (n : nat) (x : text) (pr : props) : Prop :=
  unended (props_toks pr) /\ List.length (props_toks pr) <= 2 * List.length x /\ (forall y, In (nth 0 (x ++ y) 0%N) [32; 10; 13; 0]%N) /\
  (forall M, m_col (marker_after x M) = (1 + N.of_nat n)%N) /\
  forall fuel z pre rest M T k i si i0 s0, Before z pre (x ++ rest) M false T k i si -> sk_possible k = false ->
  inside i0 s0 i si -> (i0 < m_col M)%N -> (1 <= i0)%N -> List.length pre + List.length x + 5 < fuel ->
  exists z' k', reach fuel z z' /\ Before z' (pre ++ x) rest (marker_after x M) true (T ++ props_toks pr) k' i si /\ gone k' (marker_after x M).
Lemma leads_line n g : next_line n g -> leads n g no_props.
Proof.
  intros NL. split; [constructor|]. split; [cbn; lia|]. split; [intros y; eapply next_line_head; eauto|]. split; [intros M; apply (next_line_col n g NL M)|].
  intros fuel z pre rest M T k i si i0 s0 AT K IN _ _ _. exists z, k. split; [apply reach_refl|]. split; [|now apply idle_gone].
  apply Before_gap in AT; [|eapply gap_next_line; eauto]. rewrite (next_line_lf _ _ NL) in AT. cbn [orb props_toks no_props] in *. cbn. rewrite app_nil_r. exact AT.
Qed.
Lemma leads_props n j w pr g : props_text false w pr -> next_line n g -> leads n (repeat 32%N (S j) ++ w ++ g) pr.
Proof.
  intros P NL. destruct (props_unended w pr P) as [U LU]. split; [exact U|]. split; [rewrite !app_length; lia|]. split; [now left|].
  split; [intros M; rewrite !marker_after_app; apply (next_line_col n g NL)|].
  intros fuel z pre rest M T k i si i0 s0 AT K IN C I0 F. rewrite <- !app_assoc in AT. rewrite !app_length in F.
  apply Before_gap in AT; [|rewrite <- (app_nil_r (repeat _ _)); apply gap_spaces; constructor].
  rewrite marker_flat, repeat_length in AT by apply no_lf_spaces. rewrite (no_lf_has _ (no_lf_spaces _)) in AT. cbn [orb] in AT.
  destruct (props_before fuel z _ w pr (g ++ rest) _ false T k i si i0 s0 AT) as (z' & k' & R & AT' & ID & KL); auto.
  - apply gone_spare. now apply idle_gone.
  - cbn [mark_add Base.m_col]. lia.
  - cbn [mark_add Base.m_col]. lia.
  - eapply next_line_head; eauto.
  - rewrite app_length. lia.
  - exists z', k'. split; [exact R|]. apply Before_gap in AT'; [|eapply gap_next_line; eauto]. rewrite (next_line_lf _ _ NL) in AT'. cbn [orb] in AT'.
    rewrite <- (marker_flat w) in AT' by (now apply (props_flat w pr)).
    rewrite !marker_after_app, (marker_flat (repeat _ _)), repeat_length by apply no_lf_spaces. rewrite <- !app_assoc in AT'. split; [exact AT'|].
    intros Q. split; [now apply ID|]. specialize (KL Q). pose proof (line_le w (mark_add (S j) M)).
    pose proof (proj2 (next_line_col n g NL (marker_after w (mark_add (S j) M)))). lia.
Qed.
Lemma lunit_dashes n w t kk x pr w' l e : written_key w t kk -> leads n x pr -> lunit TBlockSequenceStart n w' (items_say l) e ->
  lunit TBlockMappingStart n (w ++ repeat 32%N kk ++ 58%N :: x ++ w') (pair_says (KNode t, VNode (TrIndentless pr l))) e.
Proof.
  intros WK (UP & LP & HX & CX & LD) (S2 & H). split; [eapply lstarts_key; eauto|].
  destruct (key_small w t kk WK) as (L1 & UK & LK).
  intros fuel z pre g after M T k i si n0 i1 s1 S b AT G U SL C F FU CL.
  rewrite <- !app_assoc in AT. cbn [app] in AT. rewrite <- !app_assoc in AT.
  destruct (key_round w t kk fuel z pre (x ++ w' ++ g ++ after) M T k i si n0 i1 s1 S b WK AT G U SL) as (toks & k' & fs & adj & R & KP & ET).
  { lia. }
  { apply HX. }
  { revert FU. lens. rewrite repeat_length. lia. }
  cbv zeta in R. set (M' := mark_add (List.length w + kk + 1) M) in *.
  assert (CE : m_col (marker_after x M') = m_col M) by (rewrite CX; lia).
  assert (TOP := slot_top _ _ _ _ _ SL).
  assert (STY : steady toks (fst (onecol (m_col M) S))).
  { apply (steady_more toks _ TValue (T ++ repeat TBlockEnd n0 ++ (if b then [TBlockMappingStart] else []) ++ TKey :: tree_toks t)); [rewrite ET, <- !app_assoc; reflexivity|exact I]. }
  assert (BE := Before_here (pre ++ w ++ repeat 32%N kk ++ [58%N]) (x ++ w' ++ g ++ after) M' false false toks k' (fst (onecol (m_col M) S)) (snd (onecol (m_col M) S)) fs adj _ eq_refl STY).
  destruct (LD fuel _ _ _ _ _ _ _ _ (m_col M) S BE KP) as (z2 & k2 & R2 & BE2 & G2).
  { now apply onecol_inside. }
  { unfold M'. cbn [mark_add Base.m_col]. lia. }
  { lia. }
  { revert FU. lens. cbn [List.length]. lens. rewrite repeat_length. lia. }
  destruct (H fuel z2 ((pre ++ w ++ repeat 32%N kk ++ [58%N]) ++ x) g after (marker_after x M') (map k_type toks ++ props_toks pr) k2 (fst (onecol (m_col M) S)) (snd (onecol (m_col M) S)) (0 + 0) (m_col M) S S false BE2)
    as (z3 & M3 & A3 & T3 & k3 & i4 & s4 & nb & R3 & AT3 & ((l' & LK3 & TK3) & CT3 & LT3) & UW3 & EE3).
  - exact G2.
  - rewrite CE. eapply unwinds_unrolls; [apply inside_unwinds; now apply onecol_inside|lia|]. apply unrolls_none. lia.
  - rewrite CE. destruct TOP as (sx & sr & ->). constructor.
  - lia.
  - now rewrite CE.
  - revert FU. lens. rewrite repeat_length. cbn [List.length]. lens. lia.
  - apply unended_app. split; [|exact UP]. rewrite ET. apply unended_app. split; [exact CL|]. apply unended_app. split; [apply unended_ends|]. apply unended_app. split; [destruct b; repeat constructor|].
    constructor; [exact I|]. apply unended_app. split; [exact UK|repeat constructor].
  - exists z3, M3, A3, (TKey :: tree_toks t ++ TValue :: props_toks pr ++ T3), k3, i4, s4, nb. split; [eapply reach_trans; [exact R|eapply reach_trans; [exact R2|exact R3]]|].
    split; [|split; [|split; [rewrite <- CE; exact UW3|exact EE3]]].
    + rewrite ET in AT3. cbn [repeat Nat.add] in AT3. rewrite <- !app_assoc in AT3. cbn [app] in AT3. rewrite <- !app_assoc in AT3. cbn [app] in AT3.
      rewrite <- !app_assoc. cbn [app]. rewrite <- !app_assoc. exact AT3.
    + cbn [app]. rewrite <- app_assoc. cbn [app]. rewrite <- app_assoc. split; [|split].
      * exists (KNode t, VNode (TrIndentless pr l')). split; [split; [constructor; apply like_refl|constructor; now apply like_indentless]|].
        cbn [pair_toks key_toks value_toks tree_toks]. rewrite TK3, <- ?app_assoc. reflexivity.
      * constructor; [exact I|]. apply unended_app. split; [exact UK|]. constructor; [exact I|]. now apply unended_app.
      * cbn [List.length]. rewrite (app_length (tree_toks t)), !(app_length w), (app_length (repeat 32%N kk)). cbn [List.length]. rewrite (app_length (props_toks pr)), (app_length x). lia.
Qed.

(** ** Keys and values with indicators *)
Lemma question_round b0 n w o e fuel z pre g after M T k i si n0 i1 s1 S b :
  lpart false b0 n (n + 1) w o e -> (w <> [] \/ g <> []) -> Before z pre (63%N :: w ++ g ++ after) M true T k i si -> gone k M ->
  unrolls (m_col M) i si i1 s1 n0 -> slot (m_col M) i1 s1 S b -> m_col M = (N.of_nat n + 1)%N ->
  beyond e (m_col M) g after -> List.length pre + List.length (63%N :: w ++ g ++ after) + 8 < fuel -> unended T ->
  exists z' M' A' T' k' i' s' nb,
    reach fuel z z' /\
    Before z' (pre ++ 63%N :: w ++ g) after M' A' (T ++ repeat TBlockEnd n0 ++ (if b then [TBlockMappingStart] else []) ++ TKey :: T') k' i' s' /\
    told w 0 (osays o) (T' ++ repeat TBlockEnd nb) /\ unwinds i' s' (m_col M) S nb /\ lends e g M' A' k'.
Proof.
  intros (W & NW & H) NE AT G U SL C F FU CL.
  destruct (H g after) as (g0 & rest & EG & PF & NG & _ & LG & K); [now rewrite <- C|].
  assert (NE0 : g0 <> []) by (apply NG; exact NE).
  rewrite EG in AT.
  destruct (round_before fuel z pre 63%N (g0 ++ rest) M true T k i si i1 s1 n0
    (fun z2 => exists toks' l' fs adj,
       z2 = zs (cur (pre ++ 63%N :: g0) rest (marker_after g0 (mark_add 1 M)) l' true) toks' (impossible k) (m_col M) S fs adj /\
       map k_type toks' = T ++ repeat TBlockEnd n0 ++ (if b then [TBlockMappingStart] else []) ++ [TKey])) as (z2 & R & P).
  - exact AT.
  - unfold begins. cbn [In]. intuition discriminate.
  - reflexivity.
  - revert FU. lens. lia.
  - exact G.
  - exact U.
  - intros toks fs adj L ET _ _.
    destruct (question_gap fuel g0 pre rest M L toks (impossible k) i1 s1 fs adj (m_col M) S b PF NE0) as (toks' & l' & E & ET').
    + revert FU LG. lens. lia.
    + apply idle_impossible.
    + now apply slot_rolled with (1 := SL).
    + rewrite E. do 2 eexists. split; [reflexivity|]. split; [apply zs_stale_gone; apply gone_impossible|]. split.
      * cbn [zs z_tokens]. apply (f_equal (@List.length token_type)) in ET'. rewrite !app_length, !map_length in ET'. cbn [List.length] in ET'. lia.
      * rewrite !impossible_twice. do 4 eexists. split; [reflexivity|]. rewrite ET', ET, <- !app_assoc. reflexivity.
  - destruct P as (toks' & l' & fs & adj & -> & ET).
    destruct (K fuel (zs (cur (pre ++ 63%N :: g0) rest (marker_after g0 (mark_add 1 M)) l' true) toks' (impossible k) (m_col M) S fs adj) (pre ++ [63%N]) (mark_add 1 M) true (map k_type toks') (impossible k) (m_col M) S S)
      as (z3 & M3 & A3 & T3 & k3 & i4 & s4 & nb & R3 & AT3 & TK3 & UW3 & EE3).
    + rewrite <- app_assoc. cbn [app orb]. apply Before_here; [reflexivity|].
      apply (steady_more toks' (m_col M) TKey (T ++ repeat TBlockEnd n0 ++ (if b then [TBlockMappingStart] else []))); [rewrite ET, <- !app_assoc; reflexivity|exact I].
    + reflexivity.
    + left. split; [exact C|reflexivity].
    + eapply slot_blocky; eauto.
    + cbn [mark_add Base.m_col]. lia.
    + reflexivity.
    + revert FU. lens. lia.
    + rewrite ET. apply unended_app. split; [exact CL|]. apply unended_app. split; [apply unended_ends|]. destruct b; repeat constructor.
    + exists z3, M3, A3, T3, k3, i4, s4, nb. split; [eapply reach_trans; [apply reach_one; exact R|exact R3]|].
      split; [|split; [exact TK3|split; [rewrite C; exact UW3|exact EE3]]].
      rewrite ET, <- !app_assoc in AT3. cbn [app] in *. exact AT3.
Qed.
Lemma lunit_question b0 n w t e : lpart false b0 n (n + 1) w (Some t) e ->
  lunit TBlockMappingStart n (63%N :: w) (pair_says (KNode t, VAbsent)) e.
Proof.
  intros H. split; [apply lstarts_question|].
  intros fuel z pre g after M T k i si n0 i1 s1 S b AT G U SL C F FU CL. cbn [app] in AT, FU.
  destruct (question_round b0 n w (Some t) e fuel z pre g after M T k i si n0 i1 s1 S b H) as (z' & M' & A' & T' & k' & i' & s' & nb & R & AT' & ((o' & LK & TK) & CT & LT) & X); auto.
  { left. apply H. discriminate. }
  exists z', M', A', (TKey :: T'), k', i', s', nb. split; [exact R|]. split; [exact AT'|]. split; [|exact X]. cbn [app].
  split; [|split; [constructor; [exact I|exact CT]|cbn [List.length]; lia]].
  inversion LK as [|t0 t' LK']; subst. exists (KNode t', VAbsent). split; [split; [now constructor|constructor]|].
  rewrite TK. cbn [pair_toks key_toks value_toks opt_list]. now rewrite app_nil_r.
Qed.
Lemma lunit_pair b0 b1 n w o g' w' o' e e' : lpart false b0 n (n + 1) w o e -> onwards e n g' -> lpart false b1 n (n + 1) w' o' e' ->
  lunit TBlockMappingStart n ((63%N :: w) ++ g' ++ 58%N :: w') (pair_says (key_of o, value_of o')) e'.
Proof.
  intros H NL H'. pose proof H' as (_ & _ & K').
  cbn [app].
  split; [apply lstarts_question|].
  intros fuel z pre g after M T k i si n0 i1 s1 S b AT G U SL C F FU CL. cbn [app] in AT, FU. rewrite <- !app_assoc in AT. cbn [app] in AT.
  destruct (K' g after) as (g0 & rest & EG & PF & _ & _ & LG & K); [now rewrite <- C|].
  destruct (question_round b0 n w o e fuel z pre g' (58%N :: w' ++ g ++ after) M T k i si n0 i1 s1 S b H) as (z3 & M3 & A3 & T3 & k3 & i4 & s4 & nb & R3 & AT3 & ((o3 & LK3 & TK3) & CT3 & LT3) & UW3 & EE3); auto.
  { destruct e as [m|]; [left|right; apply onwards_line in NL; eapply next_line_nil; eauto].
    destruct H as ([[_ X]|X] & _); [discriminate|]. intros ->. cbn in X. intuition discriminate. }
  { eapply by_line; eauto; [lia|]. unfold begins. cbn [In]. intuition discriminate. }
  { revert FU. lens. lia. }
  destruct EE3 as [_ EE3]. destruct (EE3 n NL) as (-> & G3 & CM3). assert (C3 : m_col M3 = m_col M) by lia.
  rewrite EG in AT3. destruct (slot_top _ _ _ _ _ SL) as (sx & sr & ES).
  set (TT := T ++ repeat TBlockEnd n0 ++ (if b then [TBlockMappingStart] else []) ++ TKey :: T3) in *.
  destruct (round_before fuel z3 (pre ++ 63%N :: w ++ g') 58%N (g0 ++ rest) M3 true TT k3 i4 s4 (m_col M) S (nb + 0)
     (fun z4 => exists toks4 k4 fs4 adj4, z4 = zs (cur ((pre ++ 63%N :: w ++ g') ++ [58%N]) (g0 ++ rest) (mark_add 1 M3) false true)
         toks4 k4 (fst (onecol (m_col M) S)) (snd (onecol (m_col M) S)) fs4 adj4 /\ sk_possible k4 = false /\
         map k_type toks4 = TT ++ repeat TBlockEnd nb ++ [TValue])) as (z4 & R4 & P4).
  - exact AT3.
  - unfold begins. cbn [In]. intuition discriminate.
  - reflexivity.
  - revert FU. lens. lia.
  - exact G3.
  - rewrite C3. eapply unwinds_unrolls; [exact UW3|lia|]. apply unrolls_none. lia.
  - intros toks fs4 adj4 L ET4 _ _. rewrite Nat.add_0_r in ET4.
    destruct (value_complex fuel (g0 ++ rest) (pre ++ 63%N :: w ++ g') M3 L toks (impossible k3) (m_col M) S fs4 adj4 (m_col M) S false) as (toks4 & E4 & ET5).
    + exact (proj2 (proj2 PF)).
    + reflexivity.
    + rewrite C3. apply rolled_again. eapply slot_blocky; eauto.
    + rewrite E4. do 2 eexists. split; [reflexivity|]. split; [apply zs_stale_gone; apply gone_impossible|]. split.
      { cbn [zs z_tokens]. apply (f_equal (@List.length token_type)) in ET5. rewrite !app_length, !map_length in ET5. cbn [List.length] in ET5. lia. }
      rewrite !impossible_twice. do 4 eexists. split; [reflexivity|]. split; [reflexivity|].
      rewrite ET5, ET4, <- !app_assoc. reflexivity.
  - destruct P4 as (toks4 & k4 & fs4 & adj4 & -> & KP & ET4).
    pose proof (Before_zs ((pre ++ 63%N :: w ++ g') ++ [58%N]) g0 rest (mark_add 1 M3) false true toks4 k4 (fst (onecol (m_col M) S)) (snd (onecol (m_col M) S)) fs4 adj4 _ (proj1 PF) eq_refl (steady_more _ _ TValue (TT ++ repeat TBlockEnd nb) ltac:(rewrite ET4, <- app_assoc; reflexivity) I)) as BE.
    destruct (K fuel _ ((pre ++ 63%N :: w ++ g') ++ [58%N]) (mark_add 1 M3) true (map k_type toks4) k4 (fst (onecol (m_col M) S)) (snd (onecol (m_col M) S)) S BE KP)
      as (z5 & M5 & A5 & T5 & k5 & i5 & s5 & nb5 & R5 & AT5 & ((o5 & LK5 & TK5) & CT5 & LT5) & UW5 & EE5).
    + rewrite <- C. apply onecol_inside. eauto.
    + rewrite ES. exact I.
    + cbn [mark_add Base.m_col]. lia.
    + reflexivity.
    + revert FU. lens. lia.
    + rewrite ET4. unfold TT. pose proof CT3 as CT4. apply unended_app in CT4. destruct CT4 as [CL0 _].
      apply unended_app. split.
      * apply unended_app. split; [exact CL|]. apply unended_app. split; [apply unended_ends|]. apply unended_app. split; [destruct b; repeat constructor|]. constructor; [exact I|exact CL0].
      * apply unended_app. split; [apply unended_ends|repeat constructor].
    + exists z5, M5, A5, (TKey :: (T3 ++ repeat TBlockEnd nb) ++ TValue :: T5), k5, i5, s5, nb5.
      split; [eapply reach_trans; [exact R3|]; eapply reach_trans; [apply reach_one; exact R4|exact R5]|].
      split; [|split; [|split; [rewrite C; exact UW5|exact EE5]]].
      * rewrite ET4 in AT5. unfold TT in AT5. cbn [app] in *. rewrite <- ?app_assoc in AT5. cbn [app] in AT5. rewrite <- ?app_assoc in AT5. cbn [app] in AT5.
        rewrite <- ?app_assoc. cbn [app]. rewrite <- ?app_assoc. exact AT5.
      * replace ((TKey :: (T3 ++ repeat TBlockEnd nb) ++ TValue :: T5) ++ repeat TBlockEnd nb5)
          with (TKey :: (T3 ++ repeat TBlockEnd nb) ++ TValue :: T5 ++ repeat TBlockEnd nb5) by (cbn [app]; now rewrite <- !app_assoc).
        split; [|split; [constructor; [exact I|]; apply unended_app; split; [exact CT3|]; constructor; [exact I|exact CT5]|]].
        -- exists (key_of o3, value_of o5). split; [split; [destruct LK3; now constructor|destruct LK5; now constructor]|].
           rewrite TK3, TK5. destruct o3, o5; reflexivity.
        -- cbn [List.length]. rewrite (app_length (T3 ++ _)). cbn [List.length]. rewrite !(app_length w), (app_length g'). cbn [List.length]. lia.
Qed.

(** ** Collections *)
Lemma lnode_unit st p n w (P : list token_type -> Prop) t e : p <= n -> lunit st n w P e ->
  (forall tk, P tk -> exists t', like t t' /\ tree_toks t' = st :: tk ++ [TBlockEnd]) -> (match st with TStreamEnd => False | _ => True end) ->
  lnode false p n w t e.
Proof.
  intros PN (S1 & H) TT ST. split; [exact S1|]. split; [exact PN|].
  intros fuel z pre g after M A T k i si s0 AT G IN _ BL C F FU CL INL. rewrite (INL eq_refl) in AT, G. apply spare_gone in G. clear INL A.
  assert (C' : (N.of_nat p < m_col M)%N) by lia.
  destruct (H fuel z pre g after M T k i si 0 i si ((N.of_nat p, true) :: s0) true AT G) as (z' & M' & A' & T' & k' & i' & s' & nb & R & AT' & (TK & CT & LT) & UW & EE); auto.
  - apply unrolls_none. eapply inside_le; eauto.
  - now constructor.
  - eapply beyond_le; eauto. lia.
  - exists z', M', A', (st :: T'), k', i', s', (nb + 1). split; [exact R|]. split; [exact AT'|]. split; [|split; [|exact EE]].
    + replace ((st :: T') ++ repeat TBlockEnd (nb + 1)) with (st :: (T' ++ repeat TBlockEnd nb) ++ [TBlockEnd])
        by (cbn [app]; f_equal; rewrite <- app_assoc; f_equal; symmetry; apply repeat_app).
      split; [destruct (TT _ TK) as (t' & LK & E); exists t'; auto|]. split; [constructor; [exact ST|]; apply unended_app; split; [exact CT|repeat constructor]|].
      cbn [List.length]. rewrite (app_length (T' ++ _)). cbn [List.length]. lia.
    + eapply unwinds_trans; [exact UW|lia|]. apply (uw_one _ (N.of_nat p) true s0 (N.of_nat p) s0 0); [exact C'|constructor].
Qed.

(** ** All nodes *)
Scheme node_ind2 := Induction for node Sort Prop
  with part_ind2 := Induction for part Sort Prop
  with items_ind2 := Induction for items Sort Prop
  with entry_ind2 := Induction for entry Sort Prop
  with entries_ind2 := Induction for entries Sort Prop.
Combined Scheme layout_ind from node_ind2, part_ind2, items_ind2, entry_ind2, entries_ind2.
Definition pairs_say (l : list (key tree * value tree)) (tk : list token_type) : Prop :=
  exists l', Forall2 pair_like l l' /\ tk = flat_map (pair_toks tree_toks) l'.
Lemma lunit_weaken st n w (P Q : list token_type -> Prop) e : (forall tk, P tk -> Q tk) -> lunit st n w P e -> lunit st n w Q e.
Proof.
  intros PQ (S1 & H). split; [exact S1|]. intros fuel z pre g after M T k i si n0 i1 s1 S b AT G U SL C F FU CL.
  destruct (H fuel z pre g after M T k i si n0 i1 s1 S b AT G U SL C F FU CL) as (z' & M' & A' & T' & k' & i' & s' & nb & R & AT' & (TK & X) & Y).
  exists z', M', A', T', k', i', s', nb. split; [exact R|]. split; [exact AT'|]. split; [split; [now apply PQ|exact X]|exact Y].
Qed.
Theorem layout_scans :
  (forall b p n w t e, node b p n w t e -> lnode b p n w t e) /\
  (forall n c w o e, part n c w o e -> exists b, lpart false b n c w o e) /\
  (forall n w l e, items n w l e -> lunit TBlockSequenceStart n w (items_say l) e) /\
  (forall n w x e, entry n w x e -> lunit TBlockMappingStart n w (pair_says x) e) /\
  (forall n w l e, entries n w l e -> lunit TBlockMappingStart n w (pairs_say l) e).
Proof.
  apply layout_ind; intros; repeat match goal with H : exists b, lpart _ _ _ _ _ _ _ |- _ => destruct H end.
  - now apply lnode_scalar.
  - now apply lnode_block.
  - now apply lnode_flow.
  - apply (lnode_unit TBlockSequenceStart p n w (items_say l)); [assumption|assumption| |exact I].
    intros tk (l' & LK & ->). exists (TrBlockSeq no_props l'). split; [now apply like_block_seq|reflexivity].
  - apply (lnode_unit TBlockMappingStart p n w (pairs_say l)); [assumption|assumption| |exact I].
    intros tk (l' & LK & ->). exists (TrBlockMap no_props l'). split; [now apply like_block_map|reflexivity].
  - now apply lnode_alias.
  - now apply lnode_empty.
  - now apply lnode_props_beside.
  - eapply lnode_props_below; eauto.
  - exists true. apply lpart_none.
  - eexists. apply lpart_beside. eassumption.
  - eexists. eapply lpart_below; eassumption.
  - eapply lunit_weaken; [|eapply lunit_item; eassumption]. intros tk (o' & LK & ->). exists [o']. split; [repeat constructor; exact LK|]. cbn [flat_map]. now rewrite app_nil_r.
  - eapply lunit_more; [|exact I|eapply lunit_item; eassumption|eassumption|eassumption].
    intros a b (o' & LK & ->) (l' & LK' & ->). exists (o' :: l'). split; [now constructor|reflexivity].
  - apply (lunit_key false true n w t k [] None None); [assumption|apply lpart_none|now left].
  - apply (lunit_key false true n w t k _ (Some t')); [assumption|now apply lpart_beside|now left].
  - apply (lunit_key true b n w t k _ (Some t')); [assumption|eapply lpart_below; eauto|now right].
  - eapply (lunit_dashes n w t k g no_props); eauto. now apply leads_line.
  - replace (repeat 32%N (S j) ++ w1 ++ g ++ w') with ((repeat 32%N (S j) ++ w1 ++ g) ++ w') by now rewrite <- !app_assoc.
    eapply lunit_dashes; eauto. now apply leads_props.
  - eapply lunit_question; eauto.
  - eapply lunit_pair; eauto.
  - eapply lunit_weaken; [|eassumption]. intros tk (x' & LK & ->). exists [x']. split; [constructor; [exact LK|constructor]|]. cbn [flat_map]. now rewrite app_nil_r.
  - eapply lunit_more; [|exact I|eassumption|eassumption|eassumption].
    intros a b (x' & LK & ->) (l' & LK' & ->). exists (x' :: l'). split; [now constructor|reflexivity].
Qed.
