(** The tokens of a dumped document. *)
From Verif Require Import Base Tokens Scalar Chars Source Cursor Scanner Yaml Emitter ExactCursor EmitterText EmitterProofs.
From Verif Require Import SpecTree SpecStream SpecEmit SpecQuoted FoldedQuotes ExactPlain EagerScan ScanSteps NodeScan.
From Coq Require Import String Lia ZifyBool ZifyNat ZifyN.
Local Open Scope list_scope.

(** ** Tokens and rounds *)
Lemma stale_tokens z z' : stale_simple_keys z = (z', Ok tt) -> z_tokens z' = z_tokens z.
Proof.
  unfold stale_simple_keys. destruct (stale_loop _ _ _) as [ks e]. destruct e; [discriminate|]. intros E. injection E as <-. reflexivity.
Qed.
Lemma rounds_tokens fuel n z z' : rounds fuel n z z' -> List.length (z_tokens z) + n <= List.length (z_tokens z').
Proof.
  induction 1 as [z|n z z1 z2 (z0 & E & S & L) RS IH]; [lia|]. rewrite (stale_tokens _ _ S) in IH. lia.
Qed.

(** ** The end *)
Lemma zs_stream_end pre m l a toks k i s fs adj n : idle k -> unwinds i s 0 [] n ->
  exists c' sp, fetch_stream_end (zs (cur pre [] m l a) toks k i s fs adj)
  = (zs c' (toks ++ map (fun t => Token (fst t) (snd t)) sp) (impossible k) 0 [] fs adj, Ok tt) /\
  map snd sp = repeat TBlockEnd n ++ [TStreamEnd].
Proof.
  intros I U.
  assert (UR : unrolls 0 i s 0 [] (n + 0)) by (eapply unwinds_unrolls; [exact U|lia|]; apply unrolls_none; lia).
  unfold fetch_stream_end.
  set (m1 := if negb (m_col m =? 0)%N then Marker (m_pos m) 1 (m_line m + 1) else m).
  assert (E1 : modify (fun z : scanner =>
    let c := z_cur z in
    let m := c_mark c in
    if negb (m_col m =? 0)%N then
      set_cur (Cur (c_src c) (Marker (m_pos m) 1 (m_line m + 1)) (c_lead c) (c_ska c)) z
    else z) (zs (cur pre [] m l a) toks k i s fs adj) = (zs (cur pre [] m1 l a) toks k i s fs adj, Ok tt)).
  { unfold modify. cbv zeta. change (c_mark (z_cur (zs (cur pre [] m l a) toks k i s fs adj))) with m. unfold m1. destruct (negb (m_col m =? 0)%N); reflexivity. }
  cbv zeta in E1. unfold bind at 1. rewrite E1. clear E1.
  unfold bind at 1.
  change (z_keys (zs (cur pre [] m1 l a) toks k i s fs adj)) with [k]. cbn [rev app end_keys_loop].
  replace (sk_required k && sk_possible k) with false by (destruct (sk_possible k) eqn:P; [now rewrite (I P)|now rewrite andb_false_r]).
  cbn [orb rev app].
  change (set_keys [impossible k] (zs (cur pre [] m1 l a) toks k i s fs adj)) with (zs (cur pre [] m1 l a) toks (impossible k) i s fs adj).
  unfold bind at 1. rewrite (zs_unroll _ _ _ _ _ _ _ _ _ _ _ UR). unfold bind at 1. rewrite zs_remove by apply idle_impossible.
  unfold bind at 1. rewrite zs_lift, e_set_ska. unfold bind at 1. rewrite zs_mark. rewrite zs_push. rewrite impossible_twice.
  exists (cur pre [] m1 l false), (repeat (span_empty m1, TBlockEnd) n ++ [(span_empty m1, TStreamEnd)]). split.
  - rewrite Nat.add_0_r, <- app_assoc, map_app. cbn [c_mark cur]. do 4 f_equal. f_equal. clear. induction n; [reflexivity|]. cbn [repeat map fst snd]. now f_equal.
  - rewrite map_app. f_equal. clear. induction n; [reflexivity|]. cbn [repeat map snd]. now f_equal.
Qed.
Lemma round_end fuel z pre M L A T k i s n : At z pre [] M L A T k i s -> idle k -> unwinds i s 0 [] n ->
  List.length pre < fuel -> clean T ->
  exists z', round fuel z z' /\ map k_type (z_tokens z') = T ++ repeat TBlockEnd n ++ [TStreamEnd] /\ finished z'.
Proof.
  intros (p0 & g & m & l & a & toks & fs & adj & -> & -> & W & -> & -> & -> & ET) I U F CL. rewrite app_length in F.
  set (M := marker_after g m).
  destruct (unwinds_some (m_col M) i s 0 [] n U ltac:(lia)) as (i1 & s1 & n1 & n2 & UR & UW & EN).
  destruct (zs_stale_idle (cur (p0 ++ g) [] M (l || has_lf g) (a || has_lf g)) toks k i s fs adj I) as (k1 & ES & K1).
  assert (I1 : idle k1) by (destruct K1 as [-> | ->]; [exact I|apply idle_impossible]).
  destruct (zs_stream_end (p0 ++ g) M (l || has_lf g) (a || has_lf g) (toks ++ repeat (Token (span_empty M) TBlockEnd) n1) k1 i1 s1 fs adj n2 I1 UW) as (c' & sp & EE & SP).
  set (zz := zs c' ((toks ++ repeat (Token (span_empty M) TBlockEnd) n1) ++ map (fun t => Token (fst t) (snd t)) sp) (impossible k1) 0 [] fs adj) in *.
  assert (ST : stale_simple_keys zz = (zz, Ok tt)) by (unfold zz; rewrite zs_stale_gone by apply gone_impossible; now rewrite impossible_twice).
  assert (TK : map k_type (z_tokens zz) = T ++ repeat TBlockEnd n ++ [TStreamEnd]).
  { unfold zz. cbn [zs z_tokens]. rewrite !map_app, map_map. cbn [k_type]. rewrite map_ext with (g := snd) by reflexivity.
    rewrite SP, ET, EN, repeat_app, <- !app_assoc. f_equal. f_equal. clear. induction n1; [reflexivity|]. cbn [repeat map k_type]. now f_equal. }
  exists zz. split; [|split; [exact TK|]].
  - exists zz. split; [|split; [exact ST|]].
    + unfold fetch_next_token. unfold bind at 1. unfold gets.
      change (z_started (zs (cur p0 (g ++ []) m l a) toks k i s fs adj)) with true. cbn [negb].
      unfold bind at 1. unfold zskip_to_next_token.
      change (z_flow (zs (cur p0 (g ++ []) m l a) toks k i s fs adj)) with 0%N.
      rewrite zs_lift, e_next_white by (auto; try lia; exact begins_zero). fold M.
      unfold bind at 1. rewrite ES. unfold bind at 1. rewrite zs_mark.
      unfold bind at 1. rewrite (zs_unroll _ _ _ _ _ _ _ _ _ _ _ UR).
      unfold fetch_next_content. cbv zeta.
      match goal with |- context [z_cur (zs ?a ?b ?c ?d ?e ?f ?g)] => change (z_cur (zs a b c d e f g)) with a end.
      rewrite cur_empty. exact EE.
    + cbn [zs z_tokens]. apply (f_equal (@List.length token_type)) in TK. rewrite !app_length, map_length in TK. rewrite <- ET, map_length in TK. cbn [List.length] in TK. lia.
  - split; [repeat split|]. split; [exact ST|]. split; [repeat constructor|].
    assert (X : forall (l : list token) T, map k_type l = T ++ [TStreamEnd] -> clean T ->
      exists T0 e, l = T0 ++ [e] /\ is_stream_end e = true /\ Forall (fun t => is_stream_end t = false) T0).
    { clear. induction l as [|t l IH]; intros T E C; [destruct T; discriminate|]. destruct T as [|x T].
      - cbn [map app] in E. injection E as E1 E2. destruct l; [|discriminate]. exists [], t. split; [reflexivity|]. split; [|constructor].
        unfold is_stream_end. now rewrite E1.
      - cbn [map app] in E. injection E as E1 E2. inversion_clear C as [|? ? C1 C2]. destruct (IH T E2 C2) as (T0 & e & -> & X1 & X2).
        exists (t :: T0), e. split; [reflexivity|]. split; [exact X1|]. constructor; [|exact X2]. unfold is_stream_end. rewrite E1. now destruct x. }
    apply (X _ (T ++ repeat TBlockEnd n)); [now rewrite TK, <- app_assoc|]. apply clean_app. split; [exact CL|apply clean_ends].
Qed.

(** ** The start *)
Lemma round_start fuel input : round fuel (scanner_new input) (zs (cur [] input (Marker 0 1 1) true true) [Token (Span (Marker 0 1 1) (Marker 0 1 1)) TStreamStart] (skey_new (Marker 0 0 0)) 0 [] false 0).
Proof. eexists. split; [reflexivity|]. split; [reflexivity|]. cbn. lia. Qed.
Lemma round_dashes fuel rest toks : 0 < fuel -> nth 0 rest 0%N = 10%N ->
  exists z, round fuel (zs (cur [] (str "---" ++ rest) (Marker 0 1 1) true true) toks (skey_new (Marker 0 0 0)) 0 [] false 0) z /\
   exists l sp, z = zs (cur (str "---") rest (mark_add 3 (Marker 0 1 1)) l false) (toks ++ [Token sp TDocumentStart]) (skey_new (Marker 0 0 0)) 0 [] false 0.
Proof.
  intros F R. destruct fuel as [|fuel]; [lia|]. destruct rest as [|b rest]; [discriminate|]. cbn [nth] in R. subst b.
  assert (E : fetch_next_token (S fuel) (zs (cur [] (str "---" ++ 10%N :: rest) (Marker 0 1 1) true true) toks (skey_new (Marker 0 0 0)) 0 [] false 0)
    = fetch_document_indicator TDocumentStart (zs (cur [] (str "---" ++ 10%N :: rest) (Marker 0 1 1) true true) toks (skey_new (Marker 0 0 0)) 0 [] false 0)).
  { unfold fetch_next_token. unfold bind at 1. unfold gets.
    match goal with |- context [z_started (zs ?a ?b ?c ?d ?e ?f ?g)] => change (z_started (zs a b c d e f g)) with true end. cbn [negb].
    unfold bind at 1. unfold zskip_to_next_token.
    match goal with |- context [z_flow (zs ?a ?b ?c ?d ?e ?f ?g)] => change (z_flow (zs a b c d e f g)) with 0%N end.
    rewrite zs_lift, e_next_none by (unfold begins; cbn [str app nth In]; intuition discriminate).
    unfold bind at 1. rewrite zs_stale_gone by (intros H; discriminate). change (impossible (skey_new (Marker 0 0 0))) with (skey_new (Marker 0 0 0)).
    unfold bind at 1. rewrite zs_mark. cbn [Base.m_col].
    unfold bind at 1. rewrite (zs_unroll 1 _ _ _ _ _ _ _ 0 [] 0) by (apply unrolls_none; lia). cbn [repeat]. rewrite app_nil_r.
    unfold fetch_next_content. cbv zeta.
    match goal with |- context [z_cur (zs ?a ?b ?c ?d ?e ?f ?g)] => change (z_cur (zs a b c d e f g)) with a end.
    change (str "---" ++ 10%N :: rest) with (45%N :: [45; 45; 10]%N ++ rest).
    rewrite cur_empty. change (m_col (c_mark (cur [] (45%N :: [45; 45; 10]%N ++ rest) (Marker 0 1 1) true true)) =? 1)%N with true. cbv iota.
    unfold process_start. match goal with |- context [z_cur (zs ?a ?b ?c ?d ?e ?f ?g)] => change (z_cur (zs a b c d e f g)) with a end.
    unfold next_is_three. rewrite !cur_peek. reflexivity. }
  assert (E2 : exists l sp, fetch_document_indicator TDocumentStart (zs (cur [] (str "---" ++ 10%N :: rest) (Marker 0 1 1) true true) toks (skey_new (Marker 0 0 0)) 0 [] false 0)
    = (zs (cur (str "---") (10%N :: rest) (mark_add 3 (Marker 0 1 1)) l false) (toks ++ [Token sp TDocumentStart]) (skey_new (Marker 0 0 0)) 0 [] false 0, Ok tt)).
  { unfold fetch_document_indicator. unfold bind at 1. rewrite (zs_unroll 0 _ _ _ _ _ _ _ 0 [] 0) by (apply unrolls_none; lia). cbn [repeat]. rewrite app_nil_r.
    unfold bind at 1. rewrite zs_remove by (intros H; discriminate). change (impossible (skey_new (Marker 0 0 0))) with (skey_new (Marker 0 0 0)).
    unfold bind at 1. rewrite zs_lift, e_set_ska. unfold bind at 1. rewrite zs_mark.
    unfold bind at 1. rewrite zs_lift. rewrite (e_skip_n (str "---") [] (10%N :: rest)) by reflexivity.
    unfold bind at 1. rewrite zs_mark. rewrite zs_push. do 2 eexists. reflexivity. }
  destruct E2 as (l & sp & E2). rewrite E2 in E.
  eexists. split; [|exists l, sp; reflexivity]. eexists. split; [exact E|]. split; [reflexivity|]. cbn [zs z_tokens]. lens. lia.
Qed.

(** ** A document *)
Lemma tokens_at_most s y : legible s y -> forall lv, List.length (tree_toks (to_tree s y)) <= 2 * List.length (ntext s lv y).
Proof.
  assert (GP : forall lv i x, 1 <= List.length (gap s lv i x)) by (intros; unfold gap, nl; destruct (_ && _); cbn [List.length]; lia).
  induction y as [| v | id | l IH | l IH | t y IH] using yaml_induction; intros V lv; try contradiction.
  - destruct (starts_node s lv (YScalar v) V) as (b & r & -> & _). cbn [to_tree tree_toks props_toks no_props pr_anchor pr_tag pr_tag_first opt_list app List.length]. lia.
  - destruct l as [|x l]; [cbn; lia|]. rewrite toks_seq, ntext_seq. cbn [legible] in V. apply all_of_Forall in V.
    cbn [flat_map List.length]. lens. inversion_clear IH as [|? ? I1 I2]. inversion_clear V as [|? ? V1 V2].
    assert (X : forall z, legible s z -> (legible s z -> forall lv, List.length (tree_toks (to_tree s z)) <= 2 * List.length (ntext s lv z)) ->
       List.length ((seq_toks s) z) + 3 <= 2 * List.length (itext s (lv + 1) z)).
    { intros z Vz Iz. specialize (Iz Vz (lv + 1)%Z). unfold seq_toks, itext. lens. specialize (GP (lv + 1)%Z true z). lia. }
    pose proof (X x V1 I1).
    assert (Y : List.length (flat_map (seq_toks s) l) <= 2 * List.length (flat_map (fun x => nl s (lv + 1) ++ itext s (lv + 1) x) l)).
    { clear - X I2 V2. induction l as [|z l IHl]; [cbn; lia|]. inversion_clear I2 as [|? ? Iz I2']. inversion_clear V2 as [|? ? Vz V2'].
      cbn [flat_map]. lens. specialize (IHl I2' V2'). specialize (X z Vz Iz). lia. }
    lia.
  - destruct l as [|x l]; [cbn; lia|]. rewrite toks_map, ntext_map. cbn [legible] in V. apply all_of_Forall in V.
    cbn [flat_map List.length]. lens. inversion_clear IH as [|? ? I1 I2]. inversion_clear V as [|? ? V1 V2].
    assert (X : forall z, (legible s (fst z) /\ legible s (snd z) /\ match fst z with YScalar v => one_line s v /\ forall lv, List.length (ntext s lv (fst z)) <= 1024 | _ => True end) ->
       ((legible s (fst z) -> forall lv, List.length (tree_toks (to_tree s (fst z))) <= 2 * List.length (ntext s lv (fst z))) /\
        (legible s (snd z) -> forall lv, List.length (tree_toks (to_tree s (snd z))) <= 2 * List.length (ntext s lv (snd z)))) ->
       List.length ((map_toks s) z) + 2 <= 2 * List.length (etext s (lv + 1) z)).
    { intros z (Vz1 & Vz2 & _) [Iz1 Iz2]. specialize (Iz1 Vz1 (lv + 1)%Z). specialize (Iz2 Vz2 (lv + 1)%Z). unfold map_toks, etext.
      pose proof (GP (lv + 1)%Z false (snd z)). pose proof (GP (lv + 1)%Z true (snd z)). destruct (complex_key (fst z)); lens; lia. }
    pose proof (X x V1 I1).
    assert (Y : List.length (flat_map (map_toks s) l) <= 2 * List.length (flat_map (fun x => nl s (lv + 1) ++ etext s (lv + 1) x) l)).
    { clear - X I2 V2. induction l as [|z l IHl]; [cbn; lia|]. inversion_clear I2 as [|? ? Iz I2']. inversion_clear V2 as [|? ? Vz V2'].
      cbn [flat_map]. lens. specialize (IHl I2' V2'). specialize (X z Vz Iz). lia. }
    lia.
Qed.
Definition dump_text (s : settings) (y : yaml) : text := str "---" ++ 10%N :: ntext s (-1) y.
Theorem dump_scans s y fuel : best_indent s = 2 -> legible s y -> top_fits s y -> 2 * List.length (dump_text s y) < fuel ->
  exists toks z, scan fuel (dump_text s y) = (toks, (z, Ok tt)) /\
    map k_type toks = stream_toks 0 [Doc [] true (Some (to_tree s y)) 0].
Proof.
  intros BI V TF F. unfold dump_text in *.
  pose proof (tokens_at_most s y V (-1)%Z) as TM.
  assert (NE : 1 <= List.length (ntext s (-1) y)) by (destruct (starts_node s (-1) y V) as (b & r & -> & _); cbn [List.length]; lia).
  rewrite app_length in F. cbn [List.length] in F. change (List.length (str "---")) with 3 in F.
  destruct (round_dashes fuel (10%N :: ntext s (-1) y) [Token (Span (Marker 0 1 1) (Marker 0 1 1)) TStreamStart]) as (z1 & R1 & l1 & sp1 & E1); [lia|reflexivity|].
  set (toks1 := [Token (Span (Marker 0 1 1) (Marker 0 1 1)) TStreamStart] ++ [Token sp1 TDocumentStart]) in *.
  assert (A1 : At z1 (str "---" ++ [10%N]) (ntext s (-1) y ++ [] ++ []) (marker_after [10%N] (mark_add 3 (Marker 0 1 1))) (l1 || true) (false || true)
     [TStreamStart; TDocumentStart] (skey_new (Marker 0 0 0)) 0 []).
  { rewrite E1. change (10%N :: ntext s (-1) y) with ([10%N] ++ ntext s (-1) y). rewrite !app_nil_r. apply (At_zs (str "---") [10%N]); [|reflexivity].
    constructor; [auto|constructor]. }
  destruct (node_scans s y BI V (-1)%Z fuel z1 _ [] [] _ _ _ _ _ _ _ 0%N [] ltac:(lia) (fun _ => TF) ltac:(lia) A1) as (z2 & M2 & L2 & A2 & T2 & k2 & i2 & s2 & nb & R2 & AT2 & TK2 & UW2 & EE2).
  - intros H. discriminate.
  - now left.
  - exact I.
  - cbn. lia.
  - constructor.
  - lens. change (List.length (str "---")) with 3. lia.
  - repeat constructor.
  - intros _. split; [reflexivity|]. reflexivity.
  - assert (CT : clean ([TStreamStart; TDocumentStart] ++ T2)).
    { apply clean_app. split; [repeat constructor|]. pose proof (clean_tree s y V) as C. rewrite <- TK2 in C. apply clean_app in C. tauto. }
    destruct (round_end fuel z2 _ _ _ _ _ _ _ _ nb AT2 (proj1 EE2) UW2) as (z3 & R3 & TK3 & FIN).
    { lens. change (List.length (str "---")) with 3. lia. }
    { exact CT. }
    assert (RR : exists n, rounds fuel n (scanner_new (str "---" ++ 10%N :: ntext s (-1) y)) z3).
    { destruct R2 as (n2 & R2). eexists. eapply rounds_more; [apply round_start|]. eapply rounds_more; [exact R1|].
      eapply rounds_trans; [exact R2|]. apply rounds_one. exact R3. }
    destruct RR as (n & RR). pose proof (rounds_tokens _ _ _ _ RR) as NT.
    assert (TK : map k_type (z_tokens z3) = stream_toks 0 [Doc [] true (Some (to_tree s y)) 0]).
    { rewrite TK3. unfold stream_toks, doc_toks. cbn [repeat app flat_map map d_dirs d_explicit d_root d_ends opt_list]. rewrite !app_nil_r.
      rewrite <- TK2, <- !app_assoc. reflexivity. }
    assert (LT : List.length (z_tokens z3) < fuel).
    { rewrite <- (map_length k_type), TK. unfold stream_toks, doc_toks. cbn [repeat app flat_map map d_dirs d_explicit d_root d_ends opt_list].
      lens. lia. }
    destruct (scan_all fuel n _ z3 RR FIN) as (z' & E); [lia|exact LT|]. exists (z_tokens z3), z'. split; [exact E|exact TK].
Qed.
