(** The tokens of whole texts: documents and their markers. *)
From Verif Require Import Base Tokens Scalar Chars Source Cursor Scanner ExactCursor SpecTree SpecStream SpecQuoted FoldedQuotes ExactPlain EagerScan ScanSteps.
From Verif Require Import SpecBlock BlockScan SpecPlain PlainScan NodeScan DumpScan ScalarDocs PlainDocs SpecLayout LayoutCursor LayoutScan LayoutScalar TreeLike PropsScan LayoutNodes.
From Verif Require Import SpecProps.
From Coq Require Import String Lia ZifyBool ZifyNat ZifyN.
Local Open Scope list_scope.

(** ** The end of the text *)
Lemma round_last fuel z pre M A T k i s n : Before z pre [] M A T k i s -> idle k -> unwinds i s 0 [] n ->
  List.length pre + 2 < fuel -> unended T ->
  exists z', round fuel z z' /\ map k_type (z_tokens z') = T ++ repeat TBlockEnd n ++ [TStreamEnd] /\ finished z'.
Proof.
  intros (p0 & g & m & l & a & toks & fs & adj & -> & -> & W & -> & -> & ET & _) I U F CL. rewrite app_length in F.
  set (M := marker_after g m).
  destruct (unwinds_some (m_col M) i s 0 [] n U ltac:(lia)) as (i1 & s1 & n1 & n2 & UR & UW & EN).
  destruct (zs_stale_idle (cur (p0 ++ g) [] M (l || has_lf g) (a || has_lf g)) toks k i s fs adj I) as (k1 & ES & K1).
  assert (I1 : idle k1) by (destruct K1 as [-> | ->]; [exact I|apply idle_impossible]).
  destruct (zs_stream_end (p0 ++ g) M (l || has_lf g) (a || has_lf g) (toks ++ repeat (Token (span_empty M) TBlockEnd) n1) k1 i1 s1 fs adj n2 I1 UW) as (c' & sp & EE & SP).
  set (zz := zs c' ((toks ++ repeat (Token (span_empty M) TBlockEnd) n1) ++ map (fun t => Token (fst t) (snd t)) sp) (impossible k1) 0 [] fs adj) in *.
  assert (ST : stale_simple_keys zz = (zz, Ok tt)) by (unfold zz; rewrite zs_stale_gone by apply gone_impossible; now rewrite impossible_twice).
  assert (TK : map k_type (z_tokens zz) = T ++ repeat TBlockEnd n ++ [TStreamEnd]).
  { unfold zz. cbn [zs z_tokens]. rewrite !map_app, map_map. cbn [k_type]. rewrite map_ext with (g := snd) by reflexivity.
    rewrite SP, ET, EN, repeat_app, <- !app_assoc. f_equal. f_equal. clear. induction n1; [reflexivity|]. cbn [repeat map k_type]. now f_equal. }
  exists zz. split; [|split; [exact TK|]].
  - exists zz. split; [|split; [exact ST|]].
    + unfold fetch_next_token. unfold bind at 1. unfold gets.
      change (z_started (zs (cur p0 (g ++ []) m l a) toks k i s fs adj)) with true. cbn [negb].
      unfold bind at 1. unfold zskip_to_next_token.
      change (z_flow (zs (cur p0 (g ++ []) m l a) toks k i s fs adj)) with 0%N.
      rewrite zs_lift, e_next_gap by (auto; try lia; exact begins_zero). fold M.
      unfold bind at 1. rewrite ES. unfold bind at 1. rewrite zs_mark.
      unfold bind at 1. rewrite (zs_unroll _ _ _ _ _ _ _ _ _ _ _ UR).
      unfold fetch_next_content. cbv zeta.
      match goal with |- context [z_cur (zs ?a ?b ?c ?d ?e ?f ?g)] => change (z_cur (zs a b c d e f g)) with a end.
      rewrite cur_empty. exact EE.
    + cbn [zs z_tokens]. apply (f_equal (@List.length token_type)) in TK. rewrite !app_length, map_length in TK. rewrite <- ET, map_length in TK. cbn [List.length] in TK. lia.
  - split; [repeat split|]. split; [exact ST|]. split; [repeat constructor|].
    assert (X : forall (l : list token) T, map k_type l = T ++ [TStreamEnd] -> unended T ->
      exists T0 e, l = T0 ++ [e] /\ is_stream_end e = true /\ Forall (fun t => is_stream_end t = false) T0).
    { clear. induction l as [|t l IH]; intros T E C; [destruct T; discriminate|]. destruct T as [|x T].
      - cbn [map app] in E. injection E as E1 E2. destruct l; [|discriminate]. exists [], t. split; [reflexivity|]. split; [|constructor].
        unfold is_stream_end. now rewrite E1.
      - cbn [map app] in E. injection E as E1 E2. inversion_clear C as [|? ? C1 C2]. destruct (IH T E2 C2) as (T0 & e & -> & X1 & X2).
        exists (t :: T0), e. split; [reflexivity|]. split; [exact X1|]. constructor; [|exact X2]. unfold is_stream_end. rewrite E1. now destruct x. }
    apply (X _ (T ++ repeat TBlockEnd n)); [now rewrite TK, <- app_assoc|]. apply unended_app. split; [exact CL|apply unended_ends].
Qed.

(** ** Markers *)
Lemma ends_types m n : map k_type (repeat (Token (span_empty m) TBlockEnd) n) = repeat TBlockEnd n.
Proof. induction n; [reflexivity|]. cbn [repeat map k_type]. now f_equal. Qed.
(** Up to a marker in column 1. *)
Lemma fetch_marker fuel z pre w M A T k i s n : Before z pre w M A T k i s -> gone k M -> m_col M = 1%N ->
  begins (nth 0 w 0%N) -> w <> [] -> unwinds i s 0 [] n -> List.length pre + 2 < fuel ->
  exists toks l fs adj i1 s1 n2, map k_type toks ++ repeat TBlockEnd n2 = T ++ repeat TBlockEnd n /\ unwinds i1 s1 0 [] n2 /\
    List.length (z_tokens z) <= List.length toks /\
    let z1 := zs (cur pre w M l A) toks (impossible k) i1 s1 fs adj in
    fetch_next_token fuel z = match process_start fuel z1 with Some r => r
       | None => if (1 <? i1)%N then zerr M "invalid indentation" z1 else fetch_main_loop fuel z1 end.
Proof.
  intros (p0 & g & m & l & a & toks & fs & adj & -> & -> & W & -> & -> & ET & _) G C B NE U F. rewrite app_length in F.
  set (M := marker_after g m) in *.
  destruct (unwinds_some (m_col M) i s 0 [] n U ltac:(lia)) as (i1 & s1 & n1 & n2 & UR & UW & EN).
  exists (toks ++ repeat (Token (span_empty M) TBlockEnd) n1), (l || has_lf g), fs, adj, i1, s1, n2. split.
  { rewrite map_app, ends_types, ET, EN, repeat_app, <- app_assoc. reflexivity. }
  split; [exact UW|]. split; [cbn [zs z_tokens]; rewrite app_length; lia|]. cbv zeta.
  unfold fetch_next_token. unfold bind at 1. unfold gets.
  change (z_started (zs (cur p0 (g ++ w) m l a) toks k i s fs adj)) with true. cbn [negb].
  unfold bind at 1. unfold zskip_to_next_token.
  change (z_flow (zs (cur p0 (g ++ w) m l a) toks k i s fs adj)) with 0%N.
  rewrite zs_lift, e_next_gap by (auto; lia). fold M.
  unfold bind at 1. rewrite zs_stale_gone by exact G. unfold bind at 1. rewrite zs_mark.
  unfold bind at 1. rewrite (zs_unroll (m_col M) _ _ _ _ _ _ _ i1 s1 n1 UR).
  unfold fetch_next_content. cbv zeta.
  match goal with |- context [z_cur (zs ?a ?b ?c ?d ?e ?f ?g)] => change (z_cur (zs a b c d e f g)) with a end.
  rewrite cur_empty. destruct w as [|b w]; [congruence|]. cbn [c_mark cur]. rewrite C. reflexivity.
Qed.
Lemma zs_indicator t pre x c M l a toks k i s fs adj n : idle k -> unwinds i s 0 [] n -> List.length c = 3 ->
  exists toks', fetch_document_indicator t (zs (cur pre (c ++ x) M l a) toks k i s fs adj)
    = (zs (cur (pre ++ c) x (mark_add 3 M) false false) toks' (impossible k) 0 [] fs adj, Ok tt) /\
    map k_type toks' = map k_type toks ++ repeat TBlockEnd n ++ [t].
Proof.
  intros I U LC.
  assert (UR : unrolls 0 i s 0 [] (n + 0)) by (eapply unwinds_unrolls; [exact U|lia|]; apply unrolls_none; lia).
  unfold fetch_document_indicator. unfold bind at 1. rewrite (zs_unroll 0 _ _ _ _ _ _ _ _ _ _ UR).
  unfold bind at 1. rewrite zs_remove by exact I.
  unfold bind at 1. rewrite zs_lift, e_set_ska. unfold bind at 1. rewrite zs_mark.
  unfold bind at 1. rewrite zs_lift. rewrite (e_skip_n c pre x) by now rewrite LC. rewrite LC.
  unfold bind at 1. rewrite zs_mark. rewrite zs_push. eexists. split; [reflexivity|].
  rewrite !map_app, ends_types, Nat.add_0_r, <- app_assoc. reflexivity.
Qed.
Lemma round_start_mark fuel z pre x M A T k i s n : Before z pre (str "---" ++ x) M A T k i s -> gone k M -> m_col M = 1%N ->
  In (nth 0 x 0%N) [32; 10; 13; 0]%N -> unwinds i s 0 [] n -> List.length pre + 2 < fuel ->
  exists z', round fuel z z' /\ exists toks k' fs adj,
    z' = zs (cur (pre ++ str "---") x (mark_add 3 M) false false) toks k' 0 [] fs adj /\ sk_possible k' = false /\
    map k_type toks = T ++ repeat TBlockEnd n ++ [TDocumentStart].
Proof.
  intros AT G C H U F.
  destruct (fetch_marker fuel z pre (str "---" ++ x) M A T k i s n AT G C) as (toks & l & fs & adj & i1 & s1 & n2 & ET & UW & LT & E); auto.
  { unfold begins. cbn. intuition discriminate. }
  { discriminate. }
  destruct (zs_indicator TDocumentStart pre x (str "---") M l A toks (impossible k) i1 s1 fs adj n2 (idle_impossible k) UW eq_refl) as (toks' & E' & ET').
  cbv zeta in E.
  assert (P : process_start fuel (zs (cur pre (str "---" ++ x) M l A) toks (impossible k) i1 s1 fs adj)
     = Some (fetch_document_indicator TDocumentStart (zs (cur pre (str "---" ++ x) M l A) toks (impossible k) i1 s1 fs adj))).
  { unfold process_start. match goal with |- context [z_cur (zs ?a ?b ?c ?d ?e ?f ?g)] => change (z_cur (zs a b c d e f g)) with a end. cbv zeta.
    unfold next_is_three. rewrite !cur_peek. replace (is_blank_or_breakz (nth 3 (str "---" ++ x) 0%N)) with true; [reflexivity|].
    symmetry. change (nth 3 (str "---" ++ x) 0%N) with (nth 0 ([] ++ x) 0%N). now apply head_blank. }
  rewrite P, E' in E. eexists. split.
  - eexists. split; [exact E|]. split; [apply zs_stale_gone; apply gone_impossible|].
    cbn [zs z_tokens]. apply (f_equal (@List.length token_type)) in ET'. rewrite !app_length, !map_length in ET'. cbn [List.length] in ET'. lia.
  - do 4 eexists. split; [reflexivity|]. split; [reflexivity|]. rewrite ET', app_assoc, ET, <- app_assoc. reflexivity.
Qed.
Lemma round_end_mark fuel z pre r x M A T k i s n : Before z pre (str "..." ++ r ++ x) M A T k i s -> gone k M -> m_col M = 1%N ->
  line_rest r -> is_breakz (nth 0 x 0%N) = true -> unwinds i s 0 [] n -> List.length pre + List.length r + 6 < fuel ->
  exists z', round fuel z z' /\ exists toks k' fs adj,
    z' = zs (cur (pre ++ str "..." ++ r) x (mark_add (List.length r) (mark_add 3 M)) false false) toks k' 0 [] fs adj /\ sk_possible k' = false /\
    map k_type toks = T ++ repeat TBlockEnd n ++ [TDocumentEnd].
Proof.
  intros AT G C LR BZ U F.
  destruct (fetch_marker fuel z pre (str "..." ++ r ++ x) M A T k i s n AT G C) as (toks & l & fs & adj & i1 & s1 & n2 & ET & UW & LT & E); auto.
  { unfold begins. cbn. intuition discriminate. }
  { discriminate. }
  { lia. }
  destruct (zs_indicator TDocumentEnd pre (r ++ x) (str "...") M l A toks (impossible k) i1 s1 fs adj n2 (idle_impossible k) UW eq_refl) as (toks' & E' & ET').
  cbv zeta in E.
  assert (HD : In (nth 0 (r ++ x) 0%N) [32; 10; 13; 0]%N).
  { apply rest_head; [exact LR|]. unfold is_breakz, is_break in BZ. cbn [In]. lia. }
  assert (P : process_start fuel (zs (cur pre (str "..." ++ r ++ x) M l A) toks (impossible k) i1 s1 fs adj)
     = Some (finish_document fuel (zs (cur pre (str "..." ++ r ++ x) M l A) toks (impossible k) i1 s1 fs adj))).
  { unfold process_start. match goal with |- context [z_cur (zs ?a ?b ?c ?d ?e ?f ?g)] => change (z_cur (zs a b c d e f g)) with a end. cbv zeta.
    unfold next_is_three. rewrite !cur_peek. replace (is_blank_or_breakz (nth 3 (str "..." ++ r ++ x) 0%N)) with true; [reflexivity|].
    symmetry. change (nth 3 (str "..." ++ r ++ x) 0%N) with (nth 0 ([] ++ r ++ x) 0%N). now apply head_blank. }
  rewrite P in E. clear P. unfold finish_document in E. unfold bind at 1 in E. rewrite E' in E.
  destruct (e_ws_rest r fuel false (pre ++ str "...") x (mark_add 3 M) false false LR) as (any & has & EW & _).
  { intros X. unfold is_breakz, is_break in BZ. cbn [In] in X. clear - X BZ. lia. }
  { auto. }
  { lia. }
  unfold bind at 1 in E. rewrite zs_lift, EW in E. unfold bind at 1 in E. rewrite zs_peek in E. unfold bind at 1 in E. rewrite zs_mark in E.
  rewrite BZ in E. cbn [orb] in E. eexists. split.
  - eexists. split; [exact E|]. split; [apply zs_stale_gone; apply gone_impossible|].
    cbn [zs z_tokens]. apply (f_equal (@List.length token_type)) in ET'. rewrite !app_length, !map_length in ET'. cbn [List.length] in ET'. lia.
  - do 4 eexists. split; [rewrite <- app_assoc; reflexivity|]. split; [reflexivity|].
    rewrite ET', app_assoc, ET, <- app_assoc. reflexivity.
Qed.
Lemma round_directive fuel z pre x d r b y M A T k i s n : Before z pre (x ++ r ++ eol b ++ y) M A T k i s -> gone k M -> m_col M = 1%N ->
  directive_text false x d -> line_rest r -> unwinds i s 0 [] n -> List.length pre + List.length x + List.length r + 6 < fuel ->
  exists z', round fuel z z' /\ exists toks k' fs adj,
    z' = zs (cur (pre ++ x ++ r ++ eol b) y (marker_after (x ++ r ++ eol b) M) true false) toks k' 0 [] fs adj /\ sk_possible k' = false /\
    map k_type toks = T ++ repeat TBlockEnd n ++ [dir_tok d].
Proof.
  intros AT G C DT LR U F.
  assert (HX : exists x', x = 37%N :: x') by (destruct DT; eexists; reflexivity).
  destruct (fetch_marker fuel z pre (x ++ r ++ eol b ++ y) M A T k i s n AT G C) as (toks & l & fs & adj & i1 & s1 & n2 & ET & UW & LT & E); auto.
  { destruct HX as (x' & ->). unfold begins. cbn. intuition discriminate. }
  { destruct HX as (x' & ->). discriminate. }
  { lia. }
  cbv zeta in E.
  assert (P : process_start fuel (zs (cur pre (x ++ r ++ eol b ++ y) M l A) toks (impossible k) i1 s1 fs adj)
     = Some (fetch_directive fuel (zs (cur pre (x ++ r ++ eol b ++ y) M l A) toks (impossible k) i1 s1 fs adj))).
  { unfold process_start. match goal with |- context [z_cur (zs ?a ?b ?c ?d ?e ?f ?g)] => change (z_cur (zs a b c d e f g)) with a end. cbv zeta.
    rewrite !cur_peek. destruct HX as (x' & ->). reflexivity. }
  rewrite P in E. clear P. unfold fetch_directive in E.
  assert (UR : unrolls 0 i1 s1 0 [] (n2 + 0)) by (eapply unwinds_unrolls; [exact UW|lia|]; apply unrolls_none; lia).
  unfold bind at 1 in E. rewrite (zs_unroll 0 _ _ _ _ _ _ _ _ _ _ UR) in E.
  unfold bind at 1 in E. rewrite zs_remove in E by apply idle_impossible.
  unfold bind at 1 in E. rewrite zs_lift, e_set_ska in E.
  destruct (e_scan_directive x d r b fuel pre y M l false DT LR ltac:(lia)) as (e & ED).
  unfold bind at 1 in E. rewrite zs_lift, ED in E. cbn [k_span k_type] in E. rewrite zs_push in E.
  assert (ET2 : map k_type ((toks ++ repeat (Token (span_empty M) TBlockEnd) (n2 + 0)) ++ [Token (Span M e) (dir_tok d)]) = T ++ repeat TBlockEnd n ++ [dir_tok d]).
  { rewrite !map_app, ends_types, Nat.add_0_r, ET, <- app_assoc. reflexivity. }
  eexists. split.
  - eexists. split; [exact E|]. split; [apply zs_stale_gone; apply gone_impossible|].
    cbn [zs z_tokens]. rewrite !app_length. cbn [List.length]. lia.
  - do 4 eexists. split; [reflexivity|]. split; [reflexivity|]. exact ET2.
Qed.

(** ** Documents *)
Lemma steady_zero toks : steady toks 0.
Proof. unfold steady. destruct (rev toks) as [|[sp t] r]; [exact I|]. destruct t; auto. Qed.
(** Scanning goes through to the end with the tokens [T] and at most [m] more, about which [P]. *)
Definition scans_on (fuel : nat) (z : scanner) (T : list token_type) (m : nat) (P : list token_type -> Prop) : Prop :=
  exists z' tk, reach fuel z z' /\ finished z' /\ map k_type (z_tokens z') = T ++ tk ++ [TStreamEnd] /\ List.length tk <= m /\ P tk.
Lemma on_round fuel z z' T m P : round fuel z z' -> scans_on fuel z' T m P -> scans_on fuel z T m P.
Proof. intros R (z2 & tk & R2 & X). exists z2, tk. split; [|exact X]. eapply reach_trans; [apply reach_one; exact R|exact R2]. Qed.
Lemma on_reach fuel z z' T m P : reach fuel z z' -> scans_on fuel z' T m P -> scans_on fuel z T m P.
Proof. intros R (z2 & tk & R2 & X). exists z2, tk. split; [|exact X]. eapply reach_trans; eauto. Qed.
Lemma on_more fuel z T X m m' (P Q : list token_type -> Prop) : scans_on fuel z (T ++ X) m P -> List.length X + m <= m' -> (forall tk, P tk -> Q (X ++ tk)) ->
  scans_on fuel z T m' Q.
Proof.
  intros (z2 & tk & R2 & F & E & L & H) LM PQ. exists z2, (X ++ tk). split; [exact R2|]. split; [exact F|]. split; [rewrite E, <- !app_assoc; reflexivity|].
  split; [rewrite app_length; lia|now apply PQ].
Qed.
Definition docs_toks (l : list doc) : list token_type := flat_map doc_toks l.
Definition doc_like (d d' : doc) : Prop :=
  d_dirs d = d_dirs d' /\ d_explicit d = d_explicit d' /\ d_ends d = d_ends d' /\ opt_like (d_root d) (d_root d').
Definition docs_say (e : nat) (l : list doc) (tk : list token_type) : Prop :=
  exists l', Forall2 doc_like l l' /\ tk = repeat TDocumentEnd e ++ docs_toks l'.
Lemma says_doc b o e l tk tk' : osays o tk -> docs_say e l tk' -> docs_say 0 (Doc [] b o e :: l) ((if b then [TDocumentStart] else []) ++ tk ++ tk').
Proof.
  intros (o' & LO & ->) (l' & LL & ->). exists (Doc [] b o' e :: l'). split; [constructor; [repeat split; exact LO|exact LL]|].
  cbn [repeat app docs_toks flat_map]. unfold doc_toks at 1. cbn [d_dirs map d_explicit d_root d_ends app]. now rewrite <- !app_assoc.
Qed.
Lemma says_dir x ds o e l tk : docs_say 0 (Doc ds true o e :: l) tk -> docs_say 0 (Doc (x :: ds) true o e :: l) (dir_tok x :: tk).
Proof.
  intros (l' & LL & ->). inversion LL as [|? d' ? l2 (D1 & D2 & D3 & D4) L2]; subst. destruct d' as [ds' b' o' e']. cbn [d_dirs d_explicit d_ends d_root] in *. subst.
  exists (Doc (x :: ds') true o' e' :: l2). split; [constructor; [repeat split; exact D4|exact L2]|reflexivity].
Qed.
Definition lmarked (w : text) (l : list doc) : Prop :=
  doc_mark w /\
  forall fuel z pre M A T k i s n, Before z pre w M A T k i s -> gone k M -> m_col M = 1%N -> unwinds i s 0 [] n ->
    List.length pre + List.length w + 8 < fuel -> unended T -> scans_on fuel z (T ++ repeat TBlockEnd n) (4 * List.length w) (docs_say 0 l).
(** The text behind a node or marker is the rest of its line, from which [r] can be taken, a gap and more. *)
Definition ltail (d : bool) (o : option nat) (w : text) (e : nat) (l : list doc) : Prop :=
  exists r g1 after, w = (r ++ g1) ++ after /\ (o = None -> line_rest r /\ gap_to after g1 /\ is_breakz (nth 0 (g1 ++ after) 0%N) = true) /\
  gap_to after (r ++ g1) /\ begins (nth 0 after 0%N) /\
  (d = false -> beyond o 0 (r ++ g1) after) /\
  forall fuel z pre M A T k i s n, Before z (pre ++ r ++ g1) after M A T k i s -> lends o (r ++ g1) M A k -> unwinds i s 0 [] n ->
    (d = true -> i = 0%N /\ s = []) ->
    List.length pre + List.length w + 8 < fuel -> unended T -> scans_on fuel z (T ++ repeat TBlockEnd n) (4 * List.length w) (docs_say e l).
Lemma eol_z b x : is_breakz (nth 0 (eol b ++ x) 0%N) = true.
Proof. destruct b; reflexivity. Qed.
Lemma to_end_parts g : to_end g -> exists r g1, g = r ++ g1 /\ line_rest r /\ gap_to [] g1 /\ is_breakz (nth 0 (g1 ++ []) 0%N) = true.
Proof.
  intros [r R|r b ls x R E L].
  - exists r, []. split; [now rewrite app_nil_r|]. split; [exact R|]. split; [constructor|reflexivity].
  - exists r, (eol b ++ empty_text ls ++ x). split; [reflexivity|]. split; [exact R|]. split; [|rewrite <- app_assoc; apply eol_z].
    apply (gap_to_end ([] ++ eol b ++ empty_text ls ++ x)). apply te_lines; [apply (lr_spaces 0)|exact E|exact L].
Qed.
Lemma next_line_parts n g after : next_line n g -> exists r g1, g = r ++ g1 /\ line_rest r /\ gap_to after g1 /\ is_breakz (nth 0 (g1 ++ after) 0%N) = true.
Proof.
  intros [r b ls R E]. exists r, (eol b ++ empty_text ls ++ repeat 32%N n). split; [reflexivity|]. split; [exact R|]. split; [|rewrite <- app_assoc; apply eol_z].
  apply (gap_next_line n after ([] ++ eol b ++ empty_text ls ++ repeat 32%N n)). constructor; [apply (lr_spaces 0)|exact E].
Qed.
Lemma finally_parts o g : finally o g -> exists r g1, g = r ++ g1 /\ (o = None -> line_rest r /\ gap_to [] g1 /\ is_breakz (nth 0 (g1 ++ []) 0%N) = true).
Proof.
  intros F. destruct o as [m|]; [exists [], g; split; [reflexivity|discriminate]|].
  destruct (to_end_parts g) as (r & g1 & E & X); [now inversion F|]. exists r, g1. auto.
Qed.
Lemma onwards_parts o n g after : onwards o n g -> exists r g1, g = r ++ g1 /\ (o = None -> line_rest r /\ gap_to after g1 /\ is_breakz (nth 0 (g1 ++ after) 0%N) = true).
Proof.
  intros F. destruct o as [m|]; [exists [], g; split; [reflexivity|discriminate]|].
  destruct (next_line_parts n g after (onwards_line _ _ F)) as (r & g1 & E & X). exists r, g1. auto.
Qed.
Lemma ltail_end d o g : finally o g -> ltail d o g 0 [].
Proof.
  intros TE. destruct (finally_parts o g TE) as (r & g1 & EG & LR). exists r, g1, [].
  split; [now rewrite app_nil_r|]. split; [exact LR|]. rewrite <- EG. split; [now apply (finally_gap o)|].
  split; [exact begins_zero|]. split; [intros _; now apply by_end|].
  intros fuel z pre M A T k i s n AT LE U _ F CL.
  destruct (round_last fuel z _ _ _ _ _ _ _ n AT (proj1 LE) U) as (z' & R & TK & FIN); [revert F; lens; lia|exact CL|].
  exists z', []. split; [apply reach_one; exact R|]. split; [exact FIN|]. split; [rewrite TK, <- app_assoc; reflexivity|]. split; [cbn; lia|].
  exists []. split; [constructor|reflexivity].
Qed.
Lemma mark_starts w : doc_mark w -> exists b r, w = b :: r /\ begins b.
Proof. intros (x & [-> | ->] & _); do 2 eexists; (split; [reflexivity|]); unfold begins; cbn; intuition discriminate. Qed.
Lemma ltail_marked d o g w l : onwards o 0 g -> lmarked w l -> ltail d o (g ++ w) 0 l.
Proof.
  intros NL (DM & H). destruct (onwards_parts o 0 g w NL) as (r & g1 & EG & LR). exists r, g1, w.
  split; [now rewrite EG|]. split; [exact LR|]. rewrite <- EG. split; [eapply onwards_gap; eauto|].
  split; [now apply mark_begins|]. split; [intros _; now apply by_mark|].
  intros fuel z pre M A T k i s n AT (_ & EE) U _ F CL. destruct (EE 0 NL) as (-> & G & C).
  apply (on_more _ _ _ [] (4 * List.length w) _ (docs_say 0 l)); [|rewrite app_length; cbn; lia|auto].
  rewrite app_nil_r. apply (H fuel z (pre ++ g) M true T k i s n); auto. revert F. lens. lia.
Qed.
Lemma doc_mark_tail s0 r g1 after : (s0 = str "---" \/ s0 = str "...") -> line_rest r -> is_breakz (nth 0 (g1 ++ after) 0%N) = true -> doc_mark (s0 ++ (r ++ g1) ++ after).
Proof.
  intros S0 LR BZ. exists ((r ++ g1) ++ after). split; [destruct S0 as [-> | ->]; auto|].
  assert (HD : In (nth 0 (r ++ g1 ++ after) 0%N) [32; 10; 13; 0]%N).
  { apply rest_head; [exact LR|]. unfold is_breakz, is_break in BZ. cbn [In]. lia. }
  rewrite <- app_assoc. destruct (r ++ g1 ++ after) as [|b x]; [exact I|]. cbn [nth In] in *. tauto.
Qed.
(** Behind a marker [...]. *)
Lemma dots_on e l r0 fuel z pre M A T k i s n : ltail true None r0 e l -> Before z pre (str "..." ++ r0) M A T k i s -> gone k M -> m_col M = 1%N ->
  unwinds i s 0 [] n -> List.length pre + List.length (str "..." ++ r0) + 8 < fuel -> unended T ->
  scans_on fuel z (T ++ repeat TBlockEnd n) (4 * List.length (str "..." ++ r0)) (docs_say (S e) l).
Proof.
  intros (r & g1 & after & EW & LRX & GG & B & _ & H) AT G C U F CL. destruct (LRX eq_refl) as (LR & G1 & BZ). clear LRX.
  rewrite EW in AT, F. rewrite <- app_assoc in AT.
  destruct (round_end_mark fuel z pre r (g1 ++ after) M A T k i s n AT G C LR BZ U) as (z' & R & toks & k' & fs & adj & EZ & KP & ET).
  { revert F. lens. lia. }
  eapply on_round; [exact R|]. rewrite EZ.
  set (M' := mark_add (List.length r) (mark_add 3 M)).
  pose proof (Before_zs (pre ++ str "..." ++ r) g1 after M' false false toks k' 0%N [] fs adj _ G1 eq_refl (steady_zero toks)) as BE. rewrite ET in BE.
  specialize (H fuel (zs (cur (pre ++ str "..." ++ r) (g1 ++ after) M' false false) toks k' 0 [] fs adj) (pre ++ str "...") (marker_after g1 M') (false || has_lf g1) (T ++ repeat TBlockEnd n ++ [TDocumentEnd]) k' 0%N [] 0).
  cbn [repeat] in H. rewrite app_nil_r in H.
  apply (on_more _ _ _ [TDocumentEnd] (4 * List.length r0) _ (docs_say e l)); [|rewrite app_length; cbn; lia|intros tk (l' & LL & ->); exists l'; split; [exact LL|reflexivity]].
  rewrite <- app_assoc.
  assert (HL : has_lf r = false) by (apply no_lf_has, rest_no_lf; exact LR).
  apply H.
  - rewrite <- !app_assoc in *. exact BE.
  - split; [intros X; congruence|]. intros m NL. apply onwards_line in NL. pose proof (next_line_lf _ _ NL) as Y. rewrite has_lf_app, HL in Y. cbn [orb] in *. split; [exact Y|].
    split; [now apply idle_gone|]. destruct (next_line_col m _ NL (mark_add 3 M)) as [X _]. rewrite marker_after_app in X. rewrite (marker_flat r) in X by (now apply rest_no_lf). exact X.
  - constructor.
  - auto.
  - rewrite EW. revert F. lens. lia.
  - apply unended_app. split; [exact CL|]. apply unended_app. split; [apply unended_ends|repeat constructor].
Qed.
Lemma ltail_dots d o g r0 e l : onwards o 0 g -> ltail true None r0 e l -> ltail d o (g ++ str "..." ++ r0) (S e) l.
Proof.
  intros NL LT. pose proof LT as (r & g1 & after & EW & LRX & GG & B & _ & H). destruct (LRX eq_refl) as (LR & G1 & BZ).
  assert (DM : doc_mark (str "..." ++ r0)) by (rewrite EW; apply doc_mark_tail; auto).
  destruct (onwards_parts o 0 g (str "..." ++ r0) NL) as (r2 & g2 & EG & LR2). exists r2, g2, (str "..." ++ r0).
  split; [now rewrite EG|]. split; [exact LR2|]. rewrite <- EG. split; [eapply onwards_gap; eauto|].
  split; [now apply mark_begins|]. split; [intros _; now apply by_mark|].
  intros fuel z pre M A T k i s n AT (_ & EE) U _ F CL. destruct (EE 0 NL) as (-> & Gk & C).
  apply (on_more _ _ _ [] (4 * List.length (str "..." ++ r0)) _ (docs_say (S e) l)); [|rewrite (app_length g); cbn [List.length]; lia|auto].
  rewrite app_nil_r. apply (dots_on e l r0 fuel z (pre ++ g) M true T k i s n LT AT); auto. revert F. lens. lia.
Qed.
(** A document's node and what follows. *)
Lemma node_on b0 n0 w t o r0 e l fuel z pre M A T k : lnode b0 0 n0 w t o -> ltail false o r0 e l ->
  Before z pre (w ++ r0) M A T k 0%N [] -> gone k M -> m_col M = (N.of_nat n0 + 1)%N -> (b0 = false -> A = true) ->
  List.length pre + List.length (w ++ r0) + 8 < fuel -> unended T ->
  scans_on fuel z T (4 * List.length (w ++ r0)) (fun tk => exists a b, osays (Some t) a /\ docs_say e l b /\ tk = a ++ b).
Proof.
  intros (ST & PN & HN) (r & g1 & after & EW & _ & GG & B & BH & H) AT G C INL F CL.
  rewrite EW in AT. specialize (BH eq_refl).
  destruct (HN fuel z pre (r ++ g1) after M A T k 0%N [] [] AT (gone_spare k M A G)) as (z' & M' & A' & T' & k' & i' & s' & nb & R & AT' & ((t' & LK & TK) & CT & LT) & UW & EE); auto.
  - left. split; reflexivity.
  - exact I.
  - rewrite EW in F. exact F.
  - eapply on_reach; [exact R|].
    apply (on_more _ _ _ (T' ++ repeat TBlockEnd nb) (4 * List.length r0) _ (docs_say e l));
      [|rewrite (app_length w); lia|intros tk D; exists (T' ++ repeat TBlockEnd nb), tk; split; [exists (Some t'); split; [now constructor|exact TK]|auto]].
    rewrite app_assoc.
    assert (AT2 : Before z' ((pre ++ w) ++ r ++ g1) after M' A' (T ++ T') k' i' s') by (rewrite <- app_assoc; exact AT').
    apply (H fuel z' (pre ++ w) M' A' (T ++ T') k' i' s' nb AT2 EE UW); [discriminate| |].
    + rewrite app_length in F. lens. lia.
    + apply unended_app. split; [exact CL|]. apply unended_app in CT. tauto.
Qed.
Lemma ltail_bare b0 g n w t o r e l : next_line n g -> lnode b0 0 n w t o -> ltail false o r e l ->
  ltail true None (g ++ w ++ r) 0 (Doc [] false (Some t) e :: l).
Proof.
  intros NL LN LT. pose proof LN as ((b & w' & EB & B & _) & _).
  destruct (next_line_parts n g (w ++ r) NL) as (r2 & g2 & EG & LR2 & G2 & BZ2). exists r2, g2, (w ++ r).
  split; [now rewrite EG|]. split; [auto|]. rewrite <- EG. split; [eapply gap_next_line; eauto|].
  split; [rewrite EB; exact B|]. split; [discriminate|].
  intros fuel z pre M A T k i s nn AT (_ & EE) U D F CL. destruct (EE n (ow_line n g NL)) as (-> & Gk & C). destruct (D eq_refl) as [-> ->].
  assert (N0 : nn = 0) by (inversion U; reflexivity). rewrite N0. cbn [repeat].
  apply (on_more _ _ _ [] (4 * List.length (w ++ r)) _ (fun tk => exists a b, osays (Some t) a /\ docs_say e l b /\ tk = a ++ b));
    [|rewrite (app_length g); cbn [List.length]; lia|intros tk (x & y & X & Y & ->); exact (says_doc false (Some t) e l x y X Y)].
  rewrite !app_nil_r.
  apply (node_on b0 n w t o r e l fuel z (pre ++ g) M true T k LN LT AT Gk); auto; [lia|]. revert F. lens. lia.
Qed.
Lemma on_mark fuel z pre x M A T k i s n m P : Before z pre (str "---" ++ x) M A T k i s -> gone k M -> m_col M = 1%N ->
  In (nth 0 x 0%N) [32; 10; 13; 0]%N -> unwinds i s 0 [] n -> List.length pre + 2 < fuel -> unended T ->
  (forall z' toks k' fs adj, z' = zs (cur (pre ++ str "---") x (mark_add 3 M) false false) toks k' 0 [] fs adj -> sk_possible k' = false ->
     unended (T ++ repeat TBlockEnd n ++ [TDocumentStart]) -> map k_type toks = T ++ repeat TBlockEnd n ++ [TDocumentStart] ->
     scans_on fuel z' (T ++ repeat TBlockEnd n ++ [TDocumentStart]) m P) ->
  scans_on fuel z (T ++ repeat TBlockEnd n) (1 + m) (fun tk => exists tk', P tk' /\ tk = TDocumentStart :: tk').
Proof.
  intros AT G C H U F CL K. destruct (round_start_mark fuel z pre x M A T k i s n AT G C H U F) as (z' & R & toks & k' & fs & adj & EZ & KP & ET).
  eapply on_round; [exact R|]. apply (on_more _ _ _ [TDocumentStart] m _ P); [|cbn; lia|intros tk H1; exists tk; auto].
  rewrite <- app_assoc. apply (K z' toks k' fs adj EZ KP); [|exact ET]. apply unended_app. split; [exact CL|]. apply unended_app. split; [apply unended_ends|repeat constructor].
Qed.
Lemma doc_mark_head x : In (nth 0 x 0%N) [32; 10; 13; 0]%N -> doc_mark (str "---" ++ x).
Proof. intros H. exists x. split; [now left|]. destruct x as [|b x]; [exact I|]. cbn [nth In] in *. tauto. Qed.
(** A node behind a marker and a gap. *)
Lemma lmarked_node b0 g n w t o r e l : (forall rest, gap_to rest g) -> (forall x, In (nth 0 (g ++ x) 0%N) [32; 10; 13; 0]%N) ->
  (forall M, m_col M = 4%N -> m_col (marker_after g M) = (N.of_nat n + 1)%N) -> (b0 = false -> has_lf g = true) ->
  lnode b0 0 n w t o -> ltail false o r e l -> lmarked (str "---" ++ g ++ w ++ r) (Doc [] true (Some t) e :: l).
Proof.
  intros GG HD COL INL LN LT. pose proof LN as ((b & w' & EB & B & _) & _). unfold lmarked.
  split; [now apply doc_mark_head|].
  intros fuel z pre M A T k i s nn AT G C U F CL.
  apply (on_more _ _ _ [] (1 + 4 * List.length (w ++ r)) _ (fun tk => exists tk', (exists a b, osays (Some t) a /\ docs_say e l b /\ tk' = a ++ b) /\ tk = TDocumentStart :: tk')); [|rewrite (app_length (str "---")), (app_length g); change (List.length (str "---")) with 3; cbn [List.length]; lia
    |intros tk (tk' & (x & y & X & Y & ->) & ->); exact (says_doc true (Some t) e l x y X Y)].
  rewrite app_nil_r.
  apply (on_mark fuel z pre (g ++ w ++ r) M A T k i s nn _ (fun tk => exists a b, osays (Some t) a /\ docs_say e l b /\ tk = a ++ b) AT G C); auto; [revert F; lens; lia|].
  intros z' toks k' fs adj -> KP CT ET.
  apply (node_on b0 n w t o r e l fuel _ ((pre ++ str "---") ++ g) (marker_after g (mark_add 3 M)) (false || has_lf g) _ k' LN LT); auto.
  - apply Before_zs; auto using steady_zero.
  - now apply idle_gone.
  - apply COL. cbn [mark_add Base.m_col]. lia.
  - revert F. lens. lia.
Qed.
Lemma lmarked_empty r e l : ltail false None r e l -> lmarked (str "---" ++ r) (Doc [] true None e :: l).
Proof.
  intros (r0 & g1 & after & EW & _ & GG & B & BH & H). unfold lmarked. specialize (BH eq_refl). apply beyond_behind in BH.
  assert (HD : In (nth 0 r 0%N) [32; 10; 13; 0]%N) by (rewrite EW; eapply behind_head; eauto).
  split; [now apply doc_mark_head|].
  intros fuel z pre M A T k i s nn AT G C U F CL.
  apply (on_more _ _ _ [] (1 + 4 * List.length r) _ (fun tk => exists tk', docs_say e l tk' /\ tk = TDocumentStart :: tk')); [|rewrite (app_length (str "---")); change (List.length (str "---")) with 3; cbn [List.length]; lia
    |intros tk (tk' & Y & ->); exact (says_doc true None e l [] _ (ex_intro _ None (conj ol_none eq_refl)) Y)].
  rewrite app_nil_r.
  apply (on_mark fuel z pre r M A T k i s nn _ (docs_say e l) AT G C); auto; [revert F; lens; lia|].
  intros z' toks k' fs adj -> KP CT ET. rewrite EW at 1. rewrite <- (app_nil_r (T ++ _ ++ _)).
  apply (H fuel _ (pre ++ str "---") (marker_after (r0 ++ g1) (mark_add 3 M)) (false || has_lf (r0 ++ g1)) _ k' 0%N [] 0).
  - apply Before_zs; auto using steady_zero.
  - split; [intros X; congruence|]. intros m NL. apply onwards_line in NL. cbn [orb]. split; [eapply next_line_lf; eauto|]. split; [now apply idle_gone|]. now apply next_line_col.
  - constructor.
  - auto.
  - revert F. lens. lia.
  - exact CT.
Qed.
(** ** Directives *)
Definition ldirected (w : text) (l : list doc) : Prop :=
  w <> [] /\ begins (nth 0 w 0%N) /\
  forall fuel z pre M A T k, Before z pre w M A T k 0%N [] -> gone k M -> m_col M = 1%N ->
    List.length pre + List.length w + 8 < fuel -> unended T -> scans_on fuel z T (4 * List.length w) (docs_say 0 l).
Lemma empty_text_col ls : empty_ones ls -> forall m, m_col m = 1%N -> m_col (marker_after (empty_text ls) m) = 1%N.
Proof.
  induction 1 as [|[x b] ls E _ IH]; intros m C; [exact C|]. unfold empty_text in *. cbn [flat_map fst snd].
  rewrite !marker_after_app. apply IH. apply marker_eol.
Qed.
Lemma lmarked_directed w l : lmarked w l -> ldirected w l.
Proof.
  intros (DM & H). destruct (mark_starts w DM) as (b & r & EB & B). split; [rewrite EB; discriminate|]. split; [rewrite EB; exact B|].
  intros fuel z pre M A T k AT G C F CL. rewrite <- (app_nil_r T). apply (H fuel z pre M A T k 0%N [] 0); auto. constructor.
Qed.
Lemma ldirected_line x d r b ls w ds o e l : directive_text false x d -> line_rest r -> empty_ones ls -> ldirected w (Doc ds true o e :: l) ->
  ldirected (x ++ r ++ eol b ++ empty_text ls ++ w) (Doc (d :: ds) true o e :: l).
Proof.
  intros DT LR E (NW & B & H).
  assert (HX : exists x', x = 37%N :: x') by (destruct DT; eexists; reflexivity).
  split; [destruct HX as (x' & ->); discriminate|]. split; [destruct HX as (x' & ->); unfold begins; cbn; intuition discriminate|].
  intros fuel z pre M A T k AT G C F CL.
  destruct (round_directive fuel z pre x d r b (empty_text ls ++ w) M A T k 0%N [] 0 AT G C DT LR (uw_none _ _)) as (z' & R & toks & k' & fs & adj & -> & KP & ET).
  { revert F. lens. lia. }
  cbn [repeat app] in ET. eapply on_round; [exact R|].
  apply (on_more _ _ _ [dir_tok d] (4 * List.length w) _ (docs_say 0 (Doc ds true o e :: l))); [| |intros tk D; now apply says_dir].
  - assert (GG : gap_to w (empty_text ls)) by (rewrite <- (app_nil_r (empty_text ls)); apply gap_empty_text; [exact E|constructor]).
    apply (H fuel _ ((pre ++ x ++ r ++ eol b) ++ empty_text ls) (marker_after (empty_text ls) (marker_after (x ++ r ++ eol b) M)) (false || has_lf (empty_text ls)) _ k').
    + rewrite <- ET. apply Before_zs; auto using steady_zero.
    + now apply idle_gone.
    + apply empty_text_col; [exact E|]. rewrite !marker_after_app. apply marker_eol.
    + revert F. lens. lia.
    + apply unended_app. split; [exact CL|]. destruct d; repeat constructor.
  - destruct HX as (x' & ->). lens. cbn [List.length]. lia.
Qed.
Lemma ltail_directed g w l : next_line 0 g -> ldirected w l -> ltail true None (g ++ w) 0 l.
Proof.
  intros NL (NW & B & H).
  destruct (next_line_parts 0 g w NL) as (r2 & g2 & EG & LR2 & G2 & BZ2). exists r2, g2, w.
  split; [now rewrite EG|]. split; [auto|]. rewrite <- EG. split; [eapply gap_next_line; eauto|].
  split; [exact B|]. split; [discriminate|].
  intros fuel z pre M A T k i s nn AT (_ & EE) U D F CL. destruct (EE 0 (ow_line 0 g NL)) as (-> & Gk & C). destruct (D eq_refl) as [-> ->].
  assert (N0 : nn = 0) by (inversion U; reflexivity). rewrite N0. cbn [repeat].
  apply (on_more _ _ _ [] (4 * List.length w) _ (docs_say 0 l)); [|rewrite (app_length g); cbn [List.length]; lia|auto].
  rewrite !app_nil_r. apply (H fuel z (pre ++ g) M true T k AT Gk C); [|exact CL]. revert F. lens. lia.
Qed.
Scheme marked_ind2 := Induction for marked Sort Prop
  with tail_ind2 := Induction for tail Sort Prop
  with directed_ind2 := Induction for directed Sort Prop.
Combined Scheme stream_ind2 from marked_ind2, tail_ind2, directed_ind2.
Theorem docs_scan : (forall w l, marked w l -> lmarked w l) /\ (forall d o w e l, tail d o w e l -> ltail d o w e l) /\
  (forall w l, directed w l -> ldirected w l).
Proof.
  pose proof (proj1 layout_scans) as N.
  apply stream_ind2; intros.
  - apply (lmarked_node b g n _ _ x); auto.
    + intros rest. eapply gap_next_line; eauto.
    + intros y. eapply next_line_head; eauto.
    + intros M _. destruct (next_line_col n g ltac:(assumption) M) as [-> _]. lia.
    + intros _. eapply next_line_lf; eauto.
  - apply (lmarked_node true (repeat 32%N (S k)) (3 + S k) _ _ x); auto.
    + intros rest. rewrite <- (app_nil_r (repeat _ _)). apply gap_spaces. constructor.
    + intros y. now left.
    + intros M C. rewrite marker_flat by apply no_lf_spaces. rewrite repeat_length. cbn [mark_add Base.m_col]. lia.
    + discriminate.
  - now apply lmarked_empty.
  - now apply ltail_end.
  - now apply ltail_marked.
  - now apply ltail_dots.
  - apply (ltail_bare b g n _ _ x); auto.
  - now apply ltail_directed.
  - apply ldirected_line; auto. now apply lmarked_directed.
  - now apply ldirected_line.
Qed.

(** ** Whole texts *)
Theorem layout_stream_scans fuel w lead l : stream w lead l -> 4 * List.length w + 12 < fuel ->
  exists toks z l', scan fuel w = (toks, (z, Ok tt)) /\ Forall2 doc_like l l' /\ map k_type toks = stream_toks lead l' /\ List.length toks <= 4 * List.length w + 2.
Proof.
  intros S F.
  set (z0 := zs (cur [] w (Marker 0 1 1) true true) [Token (Span (Marker 0 1 1) (Marker 0 1 1)) TStreamStart] (skey_new (Marker 0 0 0)) 0 [] false 0).
  assert (K0 : idle (skey_new (Marker 0 0 0))) by (intros H; discriminate).
  assert (CL : unended [TStreamStart]) by repeat constructor.
  assert (B0 : forall g rest, gap_to rest g -> Before (zs (cur [] (g ++ rest) (Marker 0 1 1) true true) [Token (Span (Marker 0 1 1) (Marker 0 1 1)) TStreamStart] (skey_new (Marker 0 0 0)) 0 [] false 0)
     ([] ++ g) rest (marker_after g (Marker 0 1 1)) true [TStreamStart] (skey_new (Marker 0 0 0)) 0 []).
  { intros g rest G. change true with (true || has_lf g) at 3. apply Before_zs; auto using steady_zero. }
  assert (GO : forall m, gone (skey_new (Marker 0 0 0)) m) by (intros m H; discriminate).
  assert (X : scans_on fuel z0 [TStreamStart] (4 * List.length w) (docs_say lead l)).
  { unfold z0. clear z0. destruct S as [ls x E L|ls w l E MK|ls w l E MK|ls r e l E TL|b0 ls n w t o r e l E ND TL].
    - assert (G : gap_to [] (empty_text ls ++ x)).
      { rewrite <- (app_nil_r x). apply gap_empty_text; [exact E|]. apply gap_empty_line; [exact L|reflexivity|constructor]. }
      rewrite <- (app_nil_r (empty_text ls ++ x)) at 1.
      destruct (round_last fuel _ _ _ _ [TStreamStart] _ _ _ 0 (B0 _ _ G) K0 (uw_none _ _)) as (z' & R & TK & FIN); [cbn [app]; lia|exact CL|].
      exists z', []. split; [apply reach_one; exact R|]. split; [exact FIN|]. split; [exact TK|]. split; [cbn; lia|]. exists []. split; [constructor|reflexivity].
    - destruct (proj1 docs_scan w l MK) as (DM & H).
      assert (G : gap_to w (empty_text ls)) by (rewrite <- (app_nil_r (empty_text ls)); apply gap_empty_text; [exact E|constructor]).
      eapply (on_more _ _ [TStreamStart] (repeat TBlockEnd 0) (4 * List.length w) _ (docs_say 0 l)); [|rewrite app_length; cbn; lia|auto].
      apply (H fuel _ ([] ++ empty_text ls) _ _ [TStreamStart] _ 0%N [] 0 (B0 _ _ G)); auto.
      + apply empty_text_col; [exact E|reflexivity].
      + constructor.
      + revert F. lens. lia.
    - destruct (proj2 (proj2 docs_scan) w l MK) as (_ & _ & H).
      assert (G : gap_to w (empty_text ls)) by (rewrite <- (app_nil_r (empty_text ls)); apply gap_empty_text; [exact E|constructor]).
      apply (on_more _ _ [TStreamStart] [] (4 * List.length w) _ (docs_say 0 l)); [|rewrite app_length; cbn; lia|auto].
      rewrite app_nil_r. apply (H fuel _ ([] ++ empty_text ls) _ _ [TStreamStart] _ (B0 _ _ G)); auto.
      + apply empty_text_col; [exact E|reflexivity].
      + revert F. lens. lia.
    - pose proof (proj1 (proj2 docs_scan) true None r e l TL) as LT.
      assert (G : gap_to (str "..." ++ r) (empty_text ls)) by (rewrite <- (app_nil_r (empty_text ls)); apply gap_empty_text; [exact E|constructor]).
      eapply (on_more _ _ [TStreamStart] (repeat TBlockEnd 0) (4 * List.length (str "..." ++ r)) _ (docs_say (Datatypes.S e) l)); [|rewrite (app_length (empty_text ls)); cbn [repeat List.length]; lia|auto].
      apply (dots_on e l r fuel _ ([] ++ empty_text ls) _ _ [TStreamStart] _ 0%N [] 0 LT (B0 _ _ G)); auto.
      + apply empty_text_col; [exact E|reflexivity].
      + constructor.
      + revert F. lens. lia.
    - pose proof (proj1 (proj2 docs_scan) false o r e l TL) as LT. pose proof (proj1 layout_scans b0 0 n w t o ND) as LN.
      assert (G : gap_to (w ++ r) (empty_text ls ++ repeat 32%N n)).
      { apply gap_empty_text; [exact E|]. rewrite <- (app_nil_r (repeat _ _)). apply gap_spaces. constructor. }
      replace (empty_text ls ++ repeat 32%N n ++ w ++ r) with ((empty_text ls ++ repeat 32%N n) ++ w ++ r) in * by now rewrite <- app_assoc.
      apply (on_more _ _ [TStreamStart] [] (4 * List.length (w ++ r)) _ (fun tk => exists a b, osays (Some t) a /\ docs_say e l b /\ tk = a ++ b)); [|rewrite (app_length (_ ++ repeat 32%N n)); cbn [List.length]; lia
        |intros tk (x & y & X & Y & ->); exact (says_doc false (Some t) e l x y X Y)].
      rewrite app_nil_r.
      apply (node_on b0 n w t o r e l fuel _ ([] ++ empty_text ls ++ repeat 32%N n) _ _ [TStreamStart] _ LN LT (B0 _ _ G)); auto.
      + rewrite marker_after_app, marker_flat by apply no_lf_spaces. cbn [mark_add Base.m_col]. rewrite repeat_length, empty_text_col by (auto; reflexivity). lia.
      + revert F. lens. lia. }
  destruct X as (z' & tk & (n & R) & FIN & TK & LE & l' & LL & ->).
  assert (RR : rounds fuel (1 + n) (scanner_new w) z') by (eapply rounds_more; [apply round_start|exact R]).
  pose proof (rounds_tokens _ _ _ _ RR) as NT. pose proof (f_equal (@List.length token_type) TK) as LT. rewrite map_length in LT.
  revert LT LE. lens. rewrite repeat_length. intros LT LE.
  destruct (scan_all fuel (1 + n) w z' RR FIN) as (z2 & E); [lia|lia|]. exists (z_tokens z'), z2, l'. split; [exact E|]. split; [exact LL|].
  split; [|lia]. rewrite TK. unfold stream_toks, docs_toks. cbn [app]. now rewrite <- app_assoc.
Qed.
