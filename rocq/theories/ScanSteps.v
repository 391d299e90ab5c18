(** The tokens the scanner finds in block documents, one round at a time. *)
From Verif Require Import Base Tokens Scalar Chars Source Cursor Scanner Emitter ExactCursor EmitterText SpecQuoted FoldedQuotes ExactPlain EagerScan.
From Coq Require Import String Lia ZifyBool ZifyNat ZifyN.
Local Open Scope m_scope.
Local Open Scope list_scope.

(** A state outside flow collections, after the start of the stream, nothing popped. *)
Definition zs (c : cursor) (toks : list token) (k : skey) (i : N) (s : list (N * bool)) (fs : bool) (adj : N) : scanner :=
  Scanner c toks None [k] s [] false false true false fs adj 0 0 i.
Lemma zs_lift {A} (f : CM A) c toks k i s fs adj :
  lift f (zs c toks k i s fs adj) = let (c', o) := f c in (zs c' toks k i s fs adj, o).
Proof. reflexivity. Qed.
Lemma zs_peek n pre rest m l a toks k i s fs adj :
  zpeek n (zs (cur pre rest m l a) toks k i s fs adj) = (zs (cur pre rest m l a) toks k i s fs adj, Ok (nth n rest 0%N)).
Proof. unfold zpeek. now rewrite zs_lift, e_peek. Qed.
Lemma zs_mark pre rest m l a toks k i s fs adj :
  zmark (zs (cur pre rest m l a) toks k i s fs adj) = (zs (cur pre rest m l a) toks k i s fs adj, Ok m).
Proof. reflexivity. Qed.

(** ** Simple keys *)
(** A key that is dropped, at the latest at [m]. *)
Definition gone (k : skey) (m : marker) : Prop :=
  sk_possible k = true -> sk_required k = false /\ (m_line (sk_mark k) < m_line m)%N.
Lemma impossible_id k : sk_possible k = false -> impossible k = k.
Proof. destruct k as [p r n m]. cbn. now intros ->. Qed.
Lemma zs_stale_gone c toks k i s fs adj : gone k (c_mark c) ->
  stale_simple_keys (zs c toks k i s fs adj) = (zs c toks (impossible k) i s fs adj, Ok tt).
Proof.
  intros G. unfold stale_simple_keys, zs. cbn [z_flow z_cur z_keys rev app stale_loop].
  destruct (sk_possible k) eqn:P.
  - destruct (G P) as [R L]. rewrite (proj2 (N.ltb_lt _ _) L). change ((0 =? 0)%N) with true. cbn [andb orb]. rewrite R. reflexivity.
  - cbn [andb]. rewrite (impossible_id k P). reflexivity.
Qed.
Definition kept (k : skey) (m : marker) : Prop :=
  m_line (sk_mark k) = m_line m /\ (m_pos m <= m_pos (sk_mark k) + 1024)%N.
Lemma zs_stale_kept c toks k i s fs adj : kept k (c_mark c) ->
  stale_simple_keys (zs c toks k i s fs adj) = (zs c toks k i s fs adj, Ok tt).
Proof.
  intros [A B]. unfold stale_simple_keys, zs. cbn [z_flow z_cur z_keys rev app stale_loop].
  assert (X : ((m_line (sk_mark k) <? m_line (c_mark c))%N || (m_pos (sk_mark k) + 1024 <? m_pos (c_mark c))%N) = false) by lia.
  rewrite X, andb_false_r. reflexivity.
Qed.
(** A key that need not be one. *)
Definition idle (k : skey) : Prop := sk_possible k = true -> sk_required k = false.
Lemma zs_stale_idle c toks k i s fs adj : idle k -> exists k',
  stale_simple_keys (zs c toks k i s fs adj) = (zs c toks k' i s fs adj, Ok tt) /\ (k' = k \/ k' = impossible k).
Proof.
  intros I. unfold stale_simple_keys, zs. cbn [z_flow z_cur z_keys rev app stale_loop].
  destruct (sk_possible k) eqn:P; cbn [andb]; [|exists k; auto].
  destruct ((0 =? 0)%N && _); [|exists k; auto]. rewrite (I P). exists (impossible k). auto.
Qed.
Lemma zs_remove c toks k i s fs adj : idle k ->
  remove_simple_key (zs c toks k i s fs adj) = (zs c toks (impossible k) i s fs adj, Ok tt).
Proof.
  intros I. unfold remove_simple_key, zs. cbn [z_keys]. destruct (sk_possible k) eqn:P; cbn [andb]; [rewrite (I P)|]; reflexivity.
Qed.
Lemma idle_impossible k : idle (impossible k).
Proof. intros H. discriminate. Qed.
Lemma gone_impossible k m : gone (impossible k) m.
Proof. intros H. discriminate. Qed.

(** ** Indentation *)
(** At column [c] the indentation [i] with the stack [s] becomes [i1] with [s1], and [n] collections end. *)
Definition unrolls (c i : N) (s : list (N * bool)) (i1 : N) (s1 : list (N * bool)) (n : nat) : Prop :=
  forall mark toks, unroll_loop c mark i s toks = Some (i1, s1, toks ++ repeat (Token (span_empty mark) TBlockEnd) n).
Lemma unrolls_none c i s : (i <= c)%N -> unrolls c i s i s 0.
Proof. intros H mark toks. destruct s; cbn [unroll_loop]; rewrite (proj2 (N.ltb_ge _ _) H); cbn [repeat]; now rewrite app_nil_r. Qed.
(** Leaving the collections inside one of indentation [i0]. *)
Inductive unwinds : N -> list (N * bool) -> N -> list (N * bool) -> nat -> Prop :=
| uw_none i s : unwinds i s i s 0
| uw_one i i1 b s i0 s0 n : (i0 < i)%N -> unwinds i1 s i0 s0 n -> unwinds i ((i1, b) :: s) i0 s0 ((if b then 1 else 0) + n).
Lemma unwinds_trans i s i1 s1 n : unwinds i s i1 s1 n -> forall i0 s0 n', (i0 <= i1)%N -> unwinds i1 s1 i0 s0 n' -> unwinds i s i0 s0 (n + n').
Proof.
  induction 1 as [|i i2 b s i1 s1 n L U IH]; intros i0 s0 n' Le U'; [exact U'|]. rewrite <- Nat.add_assoc.
  apply uw_one; [lia|]. now apply IH.
Qed.
Lemma unwinds_le i s i0 s0 n : unwinds i s i0 s0 n -> (i0 <= i)%N.
Proof. induction 1; lia. Qed.
Lemma unwinds_unrolls c i s i0 s0 n : unwinds i s i0 s0 n -> (c <= i0)%N ->
  forall i1 s1 n1, unrolls c i0 s0 i1 s1 n1 -> unrolls c i s i1 s1 (n + n1).
Proof.
  induction 1 as [|i i2 b s i0 s0 n L U IH]; intros Le i1 s1 n1 R; [exact R|]. intros mark toks.
  cbn [unroll_loop]. rewrite (proj2 (N.ltb_lt c i)) by lia. rewrite (IH Le _ _ _ R mark).
  destruct b; [|reflexivity]. rewrite <- app_assoc. reflexivity.
Qed.
Lemma unwinds_some c i s i0 s0 n : unwinds i s i0 s0 n -> (i0 <= c)%N ->
  exists i1 s1 n1 n2, unrolls c i s i1 s1 n1 /\ unwinds i1 s1 i0 s0 n2 /\ n = n1 + n2.
Proof.
  induction 1 as [i s|i i2 b s i0 s0 n L U IH]; intros Le.
  - exists i, s, 0, 0. split; [now apply unrolls_none|]. split; [constructor|reflexivity].
  - destruct (N.ltb_spec c i) as [C|C].
    + destruct (IH Le) as (i1 & s1 & n1 & n2 & R & W & ->). exists i1, s1, ((if b then 1 else 0) + n1), n2.
      split; [|split; [exact W|lia]]. intros mark toks. cbn [unroll_loop]. rewrite (proj2 (N.ltb_lt _ _) C). rewrite R.
      destruct b; [|reflexivity]. rewrite <- app_assoc. reflexivity.
    + exists i, ((i2, b) :: s), 0, ((if b then 1 else 0) + n). split; [now apply unrolls_none|]. split; [now constructor|reflexivity].
Qed.
Lemma unroll_loop_col c mark : forall s i toks i1 s1 t1, unroll_loop c mark i s toks = Some (i1, s1, t1) -> (i1 <= c)%N.
Proof.
  induction s as [|[x b] s IH]; intros i toks i1 s1 t1; cbn [unroll_loop]; destruct (N.ltb_spec c i) as [C|C]; intros H; try discriminate.
  - injection H as <- <- <-. exact C.
  - eapply IH; eauto.
  - injection H as <- <- <-. exact C.
Qed.
(** The top of the stack belongs to a collection, if there is one. *)
Definition blocky (s : list (N * bool)) : Prop := match s with (_, false) :: _ => False | _ => True end.
(** Directly inside the collection with indentation [i0], perhaps behind an indicator. *)
Definition inside (i0 : N) (s0 : list (N * bool)) (i : N) (s : list (N * bool)) : Prop :=
  (i = i0 /\ s = s0) \/ (s0 <> [] /\ i = (i0 + 1)%N /\ s = (i0, false) :: s0).
Lemma inside_unwinds i0 s0 i s : inside i0 s0 i s -> unwinds i s i0 s0 0.
Proof. intros [[-> ->]|(_ & -> & ->)]; [constructor|]. apply (uw_one _ i0 false s0 i0 s0 0); [lia|constructor]. Qed.
Definition drop1 (c i : N) (s : list (N * bool)) : N * list (N * bool) :=
  if (i <=? c)%N then match s with (i', false) :: r => (i', r) | _ => (i, s) end else (i, s).
Definition rolled (c i : N) (s : list (N * bool)) : N * list (N * bool) * bool :=
  let (i', s') := drop1 c i s in if (i' <? c)%N then (c, (i', true) :: s', true) else (i', s', false).
Definition onecol (i : N) (s : list (N * bool)) : N * list (N * bool) :=
  match s with (_, true) :: _ => ((i + 1)%N, (i, false) :: s) | _ => (i, s) end.
Lemma rolled_first c i0 s0 i s : inside i0 s0 i s -> blocky s0 -> (i0 < c)%N -> (s0 <> [] -> (i0 + 1 <= c)%N) ->
  rolled c i s = (c, (i0, true) :: s0, true).
Proof.
  unfold rolled, drop1. intros [[-> ->]|(N & -> & ->)] B L L'.
  - rewrite (proj2 (N.leb_le i0 c)) by lia. destruct s0 as [|[x []] s0]; try contradiction; now rewrite (proj2 (N.ltb_lt _ _) L).
  - rewrite (proj2 (N.leb_le _ c) (L' N)). now rewrite (proj2 (N.ltb_lt _ _) L).
Qed.
Lemma rolled_again c s : blocky s -> rolled c c s = (c, s, false).
Proof.
  unfold rolled, drop1. intros B. rewrite N.leb_refl. destruct s as [|[x []] s]; try contradiction; now rewrite N.ltb_irrefl.
Qed.
Lemma onecol_inside i s : (exists x r, s = (x, true) :: r) -> inside i s (fst (onecol i s)) (snd (onecol i s)).
Proof. intros (x & r & ->). right. cbn. repeat split; try reflexivity. discriminate. Qed.
Definition zroll_toks (mark : marker) (t : token_type) (b : bool) : list token :=
  if b then [Token (span_empty mark) t] else [].
Lemma zs_drop1 c cu toks k i s fs adj :
  drop_one_col c (zs cu toks k i s fs adj) = zs cu toks k (fst (drop1 c i s)) (snd (drop1 c i s)) fs adj.
Proof.
  unfold drop_one_col, drop1, zs. cbn [z_indent z_indents]. destruct (i <=? c)%N; [|reflexivity].
  destruct s as [|[x [|]] s]; reflexivity.
Qed.
Lemma zs_roll c t mark cu toks k i s fs adj i2 s2 b : rolled c i s = (i2, s2, b) ->
  roll_indent c None t mark (zs cu toks k i s fs adj) = (zs cu (toks ++ zroll_toks mark t b) k i2 s2 fs adj, Ok tt).
Proof.
  unfold rolled, roll_indent. intros R. change (z_flow (zs cu toks k i s fs adj)) with 0%N.
  change ((0 <? 0)%N) with false. cbv iota zeta. rewrite zs_drop1.
  destruct (drop1 c i s) as [i' s']. cbn [fst snd].
  change (z_indent (zs cu toks k i' s' fs adj)) with i'.
  destruct (i' <? c)%N; injection R as <- <- <-; cbn [zroll_toks]; rewrite ?app_nil_r; reflexivity.
Qed.
Lemma zs_onecol cu toks k i s fs adj :
  roll_one_col_indent (zs cu toks k i s fs adj) = (zs cu toks k (fst (onecol i s)) (snd (onecol i s)) fs adj, Ok tt).
Proof. unfold roll_one_col_indent, modify, onecol, zs. cbn [z_indents]. destruct s as [|[x [|]] s]; reflexivity. Qed.
Lemma zs_non_block i0 s0 cu toks k i s fs adj : inside i0 s0 i s -> blocky s0 ->
  unroll_non_block_indents (zs cu toks k i s fs adj) = (zs cu toks k i0 s0 fs adj, Ok tt).
Proof.
  intros I B. unfold unroll_non_block_indents, modify, zs. cbn [z_indents z_indent].
  assert (X : unroll_non_block_loop i0 s0 = (i0, s0)) by (destruct s0 as [|[x [|]] s0]; try contradiction; reflexivity).
  destruct I as [[-> ->]|(_ & -> & ->)]; cbn [unroll_non_block_loop]; rewrite X; reflexivity.
Qed.
Lemma zs_push sp t cu toks k i s fs adj :
  push_token sp t (zs cu toks k i s fs adj) = (zs cu (toks ++ [Token sp t]) k i s fs adj, Ok tt).
Proof. reflexivity. Qed.
Lemma zs_unroll c cu toks k i s fs adj i1 s1 n : unrolls c i s i1 s1 n ->
  unroll_indent c (zs cu toks k i s fs adj)
  = (zs cu (toks ++ repeat (Token (span_empty (c_mark cu)) TBlockEnd) n) k i1 s1 fs adj, Ok tt).
Proof. intros U. unfold unroll_indent, zs. cbn [z_flow z_cur z_indent z_indents z_tokens]. change ((0 <? 0)%N) with false. cbv iota. now rewrite U. Qed.

(** ** Fetching the token that begins with a known byte *)
(** Not a directive or document marker. *)
Definition marker_line (rest : text) : bool :=
  (nth 0 rest 0 =? 37)%N ||
  (((nth 0 rest 0 =? 45) && (nth 1 rest 0 =? 45) && (nth 2 rest 0 =? 45)
    || (nth 0 rest 0 =? 46) && (nth 1 rest 0 =? 46) && (nth 2 rest 0 =? 46))
   && is_blank_or_breakz (nth 3 rest 0))%N.
Lemma marker_line_indicator pre rest m l s : marker_line rest = false ->
  next_is_document_indicator str_ops (c_src (cur pre rest m l s)) = false.
Proof. unfold marker_line, next_is_document_indicator, next_is_three. rewrite !cur_peek. intros H. apply orb_false_elim in H. tauto. Qed.
Lemma zs_content fuel pre b r m l a toks k i s fs adj : marker_line (b :: r) = false -> (i <= m_col m)%N ->
  fetch_next_content fuel (zs (cur pre (b :: r) m l a) toks k i s fs adj)
  = fetch_main_loop fuel (zs (cur pre (b :: r) m l a) toks k i s fs adj).
Proof.
  intros ML I. unfold fetch_next_content. cbv zeta. unfold zs at 1 2 3. cbn [z_cur]. rewrite cur_empty. 
  change (z_indent (zs (cur pre (b :: r) m l a) toks k i s fs adj)) with i.
  change (c_mark (z_cur (zs (cur pre (b :: r) m l a) toks k i s fs adj))) with m.
  change (c_mark (cur pre (b :: r) m l a)) with m.
  rewrite (proj2 (N.ltb_ge (m_col m) i) I).
  destruct (m_col m =? 1)%N; [|reflexivity].
  assert (PS : process_start fuel (zs (cur pre (b :: r) m l a) toks k i s fs adj) = None).
  { unfold process_start. change (z_cur (zs (cur pre (b :: r) m l a) toks k i s fs adj)) with (cur pre (b :: r) m l a).
    cbv zeta. unfold marker_line in ML. apply orb_false_elim in ML. destruct ML as [M1 M2].
    unfold next_is_three. rewrite !cur_peek, M1.
    destruct (nth 0 (b :: r) 0 =? 45)%N, (nth 1 (b :: r) 0 =? 45)%N, (nth 2 (b :: r) 0 =? 45)%N,
      (nth 0 (b :: r) 0 =? 46)%N, (nth 1 (b :: r) 0 =? 46)%N, (nth 2 (b :: r) 0 =? 46)%N;
      cbn [andb orb] in *; rewrite ?M2; try reflexivity. }
  now rewrite PS.
Qed.
Lemma zs_fetch fuel g pre b r m l a toks k i s fs adj i1 s1 n :
  white g -> begins b -> List.length g < fuel -> marker_line (b :: r) = false ->
  let m' := marker_after g m in
  gone k m' -> unrolls (m_col m') i s i1 s1 n ->
  fetch_next_token fuel (zs (cur pre (g ++ b :: r) m l a) toks k i s fs adj)
  = fetch_main_loop fuel (zs (cur (pre ++ g) (b :: r) m' (l || has_lf g) (a || has_lf g))
      (toks ++ repeat (Token (span_empty m') TBlockEnd) n) (impossible k) i1 s1 fs adj).
Proof.
  intros W B F ML m' G U. unfold fetch_next_token. unfold bind at 1. unfold gets.
  change (z_started (zs (cur pre (g ++ b :: r) m l a) toks k i s fs adj)) with true. cbn [negb].
  unfold bind at 1. unfold zskip_to_next_token.
  change (z_flow (zs (cur pre (g ++ b :: r) m l a) toks k i s fs adj)) with 0%N.
  rewrite zs_lift, e_next_white by (auto; exact B). fold m'.
  unfold bind at 1. rewrite zs_stale_gone by exact G. unfold bind at 1. rewrite zs_mark.
  unfold bind at 1. rewrite (zs_unroll (m_col m') _ _ _ _ _ _ _ i1 s1 n U).
  apply zs_content; [exact ML|]. eapply unroll_loop_col. exact (U m' []).
Qed.

(** ** States up to white space *)
(** After white space the state [z] is before [rest], with mark [M] and so on; [T] are the tokens
    found. *)
Definition At (z : scanner) (pre rest : text) (M : marker) (L A : bool) (T : list token_type) (k : skey)
  (i : N) (s : list (N * bool)) : Prop :=
  exists pre0 g m l a toks fs adj, z = zs (cur pre0 (g ++ rest) m l a) toks k i s fs adj /\
    pre = pre0 ++ g /\ white g /\ M = marker_after g m /\ L = l || has_lf g /\ A = a || has_lf g /\ map k_type toks = T.
Lemma At_here pre rest M L A toks k i s fs adj T : map k_type toks = T -> At (zs (cur pre rest M L A) toks k i s fs adj) pre rest M L A T k i s.
Proof.
  intros E. exists pre, [], M, L, A, toks, fs, adj. cbn [app has_lf existsb marker_after]. rewrite app_nil_r, !orb_false_r.
  repeat split; auto. constructor.
Qed.
Lemma At_gap z pre g rest M L A T k i s : white g -> At z pre (g ++ rest) M L A T k i s ->
  At z (pre ++ g) rest (marker_after g M) (L || has_lf g) (A || has_lf g) T k i s.
Proof.
  intros W (p0 & g0 & m & l & a & toks & fs & adj & -> & -> & W0 & -> & -> & -> & E).
  exists p0, (g0 ++ g), m, l, a, toks, fs, adj. rewrite <- !app_assoc, marker_after_app, has_lf_app, !orb_assoc.
  repeat split; auto. now apply white_app.
Qed.
Definition tokens_of (z : scanner) : list token_type := map k_type (z_tokens z).
(** One round from such a state. *)
Lemma round_at fuel z pre b r M L A T k i s i1 s1 n (post : scanner -> Prop) :
  At z pre (b :: r) M L A T k i s -> begins b -> marker_line (b :: r) = false ->
  List.length pre < fuel -> gone k M -> unrolls (m_col M) i s i1 s1 n ->
  (forall toks fs adj, map k_type toks = T ++ repeat TBlockEnd n -> (i1 <= m_col M)%N ->
     exists z1 z2, fetch_main_loop fuel (zs (cur pre (b :: r) M L A) toks (impossible k) i1 s1 fs adj) = (z1, Ok tt) /\
       stale_simple_keys z1 = (z2, Ok tt) /\ List.length toks < List.length (z_tokens z1) /\ post z2) ->
  exists z2, round fuel z z2 /\ post z2.
Proof.
  intros (p0 & g & m & l & a & toks & fs & adj & -> & -> & W & -> & -> & -> & E) B ML F G U H.
  rewrite app_length in F.
  destruct (H (toks ++ repeat (Token (span_empty (marker_after g m)) TBlockEnd) n) fs adj) as (z1 & z2 & E1 & E2 & E3 & P).
  { rewrite map_app, E. f_equal. clear. induction n; cbn [repeat map]; [reflexivity|now f_equal]. }
  { eapply unroll_loop_col. exact (U (marker_after g m) []). }
  exists z2. split; [|exact P]. exists z1. split; [|split; [exact E2|]].
  - rewrite (zs_fetch fuel g p0 b r m l a toks k i s fs adj i1 s1 n); auto. lia.
  - rewrite app_length in E3. cbn [zs z_tokens]. lia.
Qed.

(** ** Indicators *)
Ltac zp := rewrite ?zs_peek, ?zs_mark; cbn [nth app].
Lemma main_start fuel pre rest m l a toks k i s fs adj :
  fetch_main_loop fuel (zs (cur pre rest m l a) toks k i s fs adj)
  = (let c := nth 0 rest 0 in let x := nth 1 rest 0 in
     (if c =? 91 then fetch_flow_collection_start fuel false
   else if c =? 123 then fetch_flow_collection_start fuel true
   else if c =? 93 then fetch_flow_collection_end fuel false
   else if c =? 125 then fetch_flow_collection_end fuel true
   else if c =? 44 then fetch_flow_entry fuel
   else if (c =? 45) && is_blank_or_breakz x then fetch_block_entry fuel
   else if (c =? 63) && is_blank_or_breakz x then fetch_key fuel
   else if (c =? 58) && is_blank_or_breakz x then fetch_value fuel
   else if (c =? 58) && ((0 <? 0) && (is_flow x || (m_pos m =? adj))) then fetch_flow_value fuel
   else if c =? 42 then fetch_anchor fuel true
   else if c =? 38 then fetch_anchor fuel false
   else if c =? 33 then fetch_tag fuel
   else if (c =? 124) && (0 =? 0) then fetch_block_scalar fuel true
   else if (c =? 62) && (0 =? 0) then fetch_block_scalar fuel false
   else if c =? 39 then fetch_flow_scalar fuel true
   else if c =? 34 then fetch_flow_scalar fuel false
   else if (c =? 45) && negb (is_blank_or_break x) then fetch_plain_scalar fuel
   else if ((c =? 58) || (c =? 63)) && (negb (is_blank_or_break x) && (0 =? 0)) then
     fetch_plain_scalar fuel
   else if (c =? 37) || (c =? 64) || (c =? 96) then unexpected_character
   else fetch_plain_scalar fuel) (zs (cur pre rest m l a) toks k i s fs adj))%N.
Proof.
  unfold fetch_main_loop. unfold bind at 1. rewrite zs_peek. unfold bind at 1. rewrite zs_peek.
  unfold bind at 1. unfold gets at 1. unfold bind at 1. rewrite zs_mark. unfold bind at 1. unfold gets at 1. reflexivity.
Qed.

(** White space behind an indicator: a space, or a line break and indentation. *)
Inductive separates : text -> Prop :=
| sep_space : separates [32%N]
| sep_line k : separates (10%N :: repeat 32%N k).
Lemma separates_white g : separates g -> white g.
Proof. intros []; constructor; auto; try constructor. apply white_spaces. Qed.
Lemma separates_blank g rest : separates g -> is_blank_or_breakz (nth 0 (g ++ rest) 0%N) = true.
Proof. now intros []. Qed.
Lemma separates_lf k : has_lf (10%N :: repeat 32%N k) = true.
Proof. reflexivity. Qed.
(** No anchor or tag just found. *)
Definition calm (T : list token_type) : Prop :=
  match rev T with TAnchor _ :: _ | TTag _ _ :: _ => False | _ => True end.
Lemma calm_g9hc cu toks k i s fs adj : calm (map k_type toks) -> g9hc (zs cu toks k i s fs adj) = false.
Proof.
  unfold calm, g9hc. rewrite <- map_rev. cbn [zs z_tokens]. destruct (rev toks) as [|[sp t] r]; [reflexivity|].
  cbn [map k_type]. destruct t; try reflexivity; contradiction.
Qed.

(** [-] *)
Lemma zs_dash fuel g pre rest M L toks k i s fs adj i2 s2 b :
  separates g -> begins (nth 0 rest 0%N) -> 2 < fuel -> idle k -> calm (map k_type toks) ->
  rolled (m_col M) i s = (i2, s2, b) -> (exists x r, s2 = (x, true) :: r) ->
  exists toks' i3 s3 pre' g' m' l' , fetch_main_loop fuel (zs (cur pre (45%N :: g ++ rest) M L true) toks k i s fs adj)
    = (zs (cur pre' (g' ++ rest) m' l' true) toks' (impossible k) i3 s3 fs adj, Ok tt) /\
   map k_type toks' = map k_type toks ++ (if b then [TBlockSequenceStart] else []) ++ [TBlockEntry] /\
   inside i2 s2 i3 s3 /\ pre ++ 45%N :: g = pre' ++ g' /\ white g' /\
   marker_after g (mark_add 1 M) = marker_after g' m' /\ has_lf g = l' || has_lf g'.
Proof.
  intros Sg B F I C R TOP. rewrite main_start. cbn [nth]. cbv zeta.
  rewrite (separates_blank g rest Sg).
  change ((45 =? 91)%N) with false. change ((45 =? 123)%N) with false. change ((45 =? 93)%N) with false.
  change ((45 =? 125)%N) with false. change ((45 =? 44)%N) with false. change ((45 =? 45)%N) with true. cbn [andb].
  unfold fetch_block_entry. unfold bind at 1. rewrite zs_mark. unfold bind at 1. unfold gets at 1.
  change (z_flow (zs (cur pre (45%N :: g ++ rest) M L true) toks k i s fs adj)) with 0%N.
  unfold bind at 1. unfold gets at 1. unfold bind at 1. unfold gets at 1. rewrite calm_g9hc by exact C.
  change (c_ska (z_cur (zs (cur pre (45%N :: g ++ rest) M L true) toks k i s fs adj))) with true.
  change ((0 <? 0)%N) with false. cbn [negb].
  unfold bind at 1. rewrite zs_lift, e_skip_non_blank.
  unfold bind at 1. rewrite (zs_roll _ _ _ _ _ _ _ _ _ _ i2 s2 b R).
  destruct (begins_not _ B) as (B1 & B2 & B3 & B4 & B5).
  assert (TK : forall sp, map k_type ((toks ++ zroll_toks M TBlockSequenceStart b) ++ [Token sp TBlockEntry])
     = map k_type toks ++ (if b then [TBlockSequenceStart] else []) ++ [TBlockEntry]).
  { intros sp. rewrite !map_app, <- app_assoc. destruct b; reflexivity. }
  inversion Sg as [E|n E]; subst g.
  - (* a space *)
    unfold bind at 1. rewrite zs_lift. change ([32%N] ++ rest) with (repeat 32%N 1 ++ rest).
    rewrite e_ws_spaces by (try lia; apply N.eqb_neq; assumption). 
    unfold bind at 1. rewrite zs_peek. unfold bind at 1. rewrite zs_peek. unfold bind at 1. rewrite zs_mark.
    cbn [andb]. unfold bind at 1. rewrite zs_lift. destruct fuel as [|fuel]; [lia|].
    rewrite e_ws_stop by (apply N.eqb_neq; assumption).
    unfold bind at 1. rewrite zs_peek.
    set (f := (is_break (nth 0 rest 0%N) || is_flow (nth 0 rest 0%N))%bool).
    set (i3 := if f then fst (onecol i2 s2) else i2). set (s3 := if f then snd (onecol i2 s2) else s2).
    unfold bind at 1.
    assert (RO : forall cu tk, (if f then roll_one_col_indent else ret tt) (zs cu tk k i2 s2 fs adj) = (zs cu tk k i3 s3 fs adj, Ok tt))
      by (intros; unfold i3, s3; destruct f; [apply zs_onecol|reflexivity]).
    rewrite RO.
    unfold bind at 1. rewrite zs_remove by exact I. unfold bind at 1. rewrite zs_lift, e_set_ska.
    unfold bind at 1. rewrite zs_mark. rewrite zs_push.
    do 3 eexists. exists ((pre ++ [45%N]) ++ repeat 32%N 1), [], (mark_add 1 (mark_add 1 M)), false.
    split; [reflexivity|]. split; [apply TK|]. split.
    { unfold i3, s3. destruct f; [now apply onecol_inside|now left]. }
    split; [now rewrite app_nil_r, <- app_assoc|]. split; [constructor|]. split; [|reflexivity].
    rewrite marker_step by discriminate. reflexivity.
  - (* a line break *)
    unfold bind at 1. rewrite zs_lift. destruct fuel as [|fuel]; [lia|]. cbn [app].
    rewrite e_ws_stop by (cbn [nth]; discriminate).
    unfold bind at 1. rewrite zs_peek. unfold bind at 1. rewrite zs_peek. unfold bind at 1. rewrite zs_mark.
    cbn [andb]. unfold bind at 1. rewrite zs_lift.
    rewrite e_ws_stop by (cbn [nth]; discriminate).
    unfold bind at 1. rewrite zs_peek. cbn [nth]. change (is_break 10 || is_flow 10)%bool with true. cbv iota.
    unfold bind at 1. rewrite zs_onecol.
    unfold bind at 1. rewrite zs_remove by exact I. unfold bind at 1. rewrite zs_lift, e_set_ska.
    unfold bind at 1. rewrite zs_mark. rewrite zs_push.
    do 3 eexists. exists (pre ++ [45%N]), (10%N :: repeat 32%N n), (mark_add 1 M), false.
    split; [reflexivity|]. split; [apply TK|]. split; [now apply onecol_inside|].
    split; [now rewrite <- app_assoc|]. split; [now apply separates_white|]. split; reflexivity.
Qed.

(** [?] *)
Lemma e_yaml_ws : forall g fuel need pre rest m l s,
  white g -> begins (nth 0 rest 0%N) -> List.length g < fuel ->
  skip_yaml_whitespace_loop fuel 0 need (cur pre (g ++ rest) m l s)
  = (cur (pre ++ g) rest (marker_after g m) (l || has_lf g) (s || has_lf g), Ok (match g with [] => need | _ => false end)).
Proof.
  induction g as [|b g IH]; intros fuel need pre rest m l s W B F; (destruct fuel as [|fuel]; [cbn in F; lia|]);
    cbn [skip_yaml_whitespace_loop List.length] in *.
  - destruct (begins_not _ B) as (B1 & B2 & B3 & B4 & B5). unfold bind. rewrite e_peek. cbn [app].
    rewrite B1, B3, B4, B5. cbn [orb has_lf existsb marker_after]. rewrite !orb_false_r, app_nil_r. reflexivity.
  - inversion_clear W as [|? ? Wb Wg]. cbn [app]. unfold bind at 1. rewrite e_peek. cbn [nth]. destruct Wb as [-> | ->].
    + change ((32 =? 32)%N) with true. cbv iota.
      unfold bind at 1. rewrite e_skip_blank. rewrite IH by (auto; lia).
      rewrite marker_step by discriminate. rewrite <- app_assoc. now destruct g.
    + change ((10 =? 32)%N) with false. change ((10 =? 10)%N) with true. cbn [orb].
      unfold bind at 1. rewrite e_skip_lf. change ((0 =? 0)%N) with true. cbv iota.
      unfold bind at 1. rewrite e_set_ska. rewrite IH by (auto; lia).
      rewrite marker_lf, <- app_assoc. cbn [app has_lf existsb]. change ((10 =? 10)%N) with true.
      cbn [orb]. rewrite !orb_true_r. now destruct g.
Qed.
Lemma zs_question fuel g pre rest M L toks k i s fs adj i2 s2 b :
  separates g -> begins (nth 0 rest 0%N) -> List.length g < fuel -> idle k ->
  rolled (m_col M) i s = (i2, s2, b) ->
  exists toks', fetch_main_loop fuel (zs (cur pre (63%N :: g ++ rest) M L true) toks k i s fs adj)
    = (zs (cur (pre ++ 63%N :: g) rest (marker_after g (mark_add 1 M)) (has_lf g) true) toks' (impossible k) i2 s2 fs adj, Ok tt) /\
   map k_type toks' = map k_type toks ++ (if b then [TBlockMappingStart] else []) ++ [TKey].
Proof.
  intros Sg B F I R. rewrite main_start. cbn [nth]. cbv zeta.
  rewrite (separates_blank g rest Sg).
  change ((63 =? 91)%N) with false. change ((63 =? 123)%N) with false. change ((63 =? 93)%N) with false.
  change ((63 =? 125)%N) with false. change ((63 =? 44)%N) with false. change ((63 =? 45)%N) with false.
  change ((63 =? 63)%N) with true. cbn [andb].
  unfold fetch_key. unfold bind at 1. rewrite zs_mark. unfold bind at 1. unfold gets at 1.
  change (z_flow (zs (cur pre (63%N :: g ++ rest) M L true) toks k i s fs adj)) with 0%N.
  unfold bind at 1. unfold gets at 1.
  change (c_ska (z_cur (zs (cur pre (63%N :: g ++ rest) M L true) toks k i s fs adj))) with true.
  change ((0 =? 0)%N) with true. cbn [negb].
  unfold bind at 1. rewrite (zs_roll _ _ _ _ _ _ _ _ _ _ i2 s2 b R).
  unfold bind at 1. rewrite zs_remove by exact I. unfold bind at 1. rewrite zs_lift, e_set_ska.
  unfold bind at 1. rewrite zs_lift, e_skip_non_blank.
  unfold bind at 1. rewrite zs_lift. unfold skip_yaml_whitespace. unfold bind at 1.
  rewrite e_yaml_ws by (auto using separates_white).
  replace (match g with [] => true | _ :: _ => false end) with false by (now destruct Sg).
  unfold bind at 1. rewrite e_get_mark. unfold ret at 1.
  unfold bind at 1. rewrite zs_peek. unfold bind at 1. rewrite zs_mark.
  destruct (begins_not _ B) as (B1 & B2 & B3 & B4 & B5). rewrite B2. rewrite zs_push.
  eexists. split.
  - rewrite <- app_assoc. cbn [app orb]. reflexivity.
  - rewrite !map_app, <- app_assoc. destruct b; reflexivity.
Qed.

(** [:] *)
Lemma zs_tab_check fuel pre rest M L A toks k i s fs adj : nth 0 rest 0%N <> 9%N ->
  value_tab_check fuel (zs (cur pre rest M L A) toks k i s fs adj) = (zs (cur pre rest M L A) toks k i s fs adj, Ok tt).
Proof. intros H. unfold value_tab_check. unfold bind. rewrite zs_peek. now rewrite (proj2 (N.eqb_neq _ _) H). Qed.
Lemma zs_value_start fuel pre g rest M L A toks k i s fs adj : separates g ->
  fetch_main_loop fuel (zs (cur pre (58%N :: g ++ rest) M L A) toks k i s fs adj)
  = ((if sk_possible k then
         insert_token (sk_number k) (span_empty (sk_mark k)) TKey ;;;
         ret tt ;;;
         roll_indent (m_col (sk_mark k)) (Some (sk_number k)) TBlockMappingStart (sk_mark k) ;;;
         roll_one_col_indent ;;;
         modify (fun z => set_keys (match z_keys z with k :: r => impossible k :: r | [] => [] end) z) ;;;
         lift (set_ska false)
       else
         ret tt ;;;
         let* flow := gets z_flow in
         let* ska := gets (fun z => c_ska (z_cur z)) in
         (if (flow =? 0)%N then
            if negb ska then zerr M "mapping values are not allowed in this context"
            else roll_indent (m_col M) None TBlockMappingStart M
          else ret tt) ;;;
         roll_one_col_indent ;;;
         lift (set_ska (flow =? 0)%N)) ;;;
      push_token (span_empty M) TValue) (zs (cur (pre ++ [58%N]) (g ++ rest) (mark_add 1 M) false A) toks k i s fs adj).
Proof.
  intros Sg. rewrite main_start. cbn [nth]. cbv zeta. rewrite (separates_blank g rest Sg).
  change ((58 =? 91)%N) with false. change ((58 =? 123)%N) with false. change ((58 =? 93)%N) with false.
  change ((58 =? 125)%N) with false. change ((58 =? 44)%N) with false. change ((58 =? 45)%N) with false.
  change ((58 =? 63)%N) with false. change ((58 =? 58)%N) with true. cbn [andb].
  unfold fetch_value. unfold bind at 1. unfold gets at 1.
  change (z_keys (zs (cur pre (58%N :: g ++ rest) M L A) toks k i s fs adj)) with [k]. cbv iota.
  unfold bind at 1. rewrite zs_mark. unfold bind at 1. unfold gets at 1.
  change (z_implicit (zs (cur pre (58%N :: g ++ rest) M L A) toks k i s fs adj)) with (@nil implicit_state). cbn [andb].
  unfold bind at 1. unfold modify at 1. unfold bind at 1. rewrite zs_lift, e_skip_non_blank.
  unfold bind at 1. rewrite zs_tab_check by (destruct Sg; discriminate). cbv iota.
  reflexivity.
Qed.
Lemma zs_value_complex fuel g pre rest M L toks k i s fs adj i2 s2 b :
  separates g -> sk_possible k = false ->
  rolled (m_col M) i s = (i2, s2, b) ->
  exists toks', fetch_main_loop fuel (zs (cur pre (58%N :: g ++ rest) M L true) toks k i s fs adj)
    = (zs (cur (pre ++ [58%N]) (g ++ rest) (mark_add 1 M) false true) toks' k (fst (onecol i2 s2)) (snd (onecol i2 s2)) fs adj, Ok tt) /\
   map k_type toks' = map k_type toks ++ (if b then [TBlockMappingStart] else []) ++ [TValue].
Proof.
  intros Sg P R. rewrite zs_value_start by exact Sg. rewrite P.
  unfold bind at 1. unfold bind at 1. unfold ret at 1. unfold bind at 1. unfold gets at 1. unfold bind at 1. unfold gets at 1.
  change (z_flow (zs (cur (pre ++ [58%N]) (g ++ rest) (mark_add 1 M) false true) toks k i s fs adj)) with 0%N.
  change (c_ska (z_cur (zs (cur (pre ++ [58%N]) (g ++ rest) (mark_add 1 M) false true) toks k i s fs adj))) with true.
  change ((0 =? 0)%N) with true. cbn [negb].
  unfold bind at 1. rewrite (zs_roll _ _ _ _ _ _ _ _ _ _ i2 s2 b R). unfold bind at 1. rewrite zs_onecol.
  rewrite zs_lift, e_set_ska. rewrite zs_push. eexists. split; [reflexivity|].
  rewrite !map_app, <- app_assoc. destruct b; reflexivity.
Qed.
Lemma firstn_exact {A} (a b : list A) n : n = List.length a -> firstn n (a ++ b) = a.
Proof. intros ->. rewrite firstn_app, Nat.sub_diag, firstn_all. cbn [firstn]. apply app_nil_r. Qed.
Lemma skipn_exact {A} (a b : list A) n : n = List.length a -> skipn n (a ++ b) = b.
Proof. intros ->. rewrite skipn_app, Nat.sub_diag, skipn_all. reflexivity. Qed.
Lemma zs_insert sp t cu a b k i s fs adj n : n = List.length a ->
  insert_token n sp t (zs cu (a ++ b) k i s fs adj) = (zs cu (a ++ Token sp t :: b) k i s fs adj, Ok tt).
Proof.
  intros E. unfold insert_token. change (z_parsed (zs cu (a ++ b) k i s fs adj)) with 0.
  change (z_tokens (zs cu (a ++ b) k i s fs adj)) with (a ++ b).
  rewrite Nat.sub_0_r. change (Nat.ltb n 0) with false. cbv iota zeta.
  rewrite (proj2 (Nat.leb_le n (List.length (a ++ b)))) by (rewrite app_length; lia).
  now rewrite firstn_exact, skipn_exact.
Qed.
Lemma zs_roll_insert c t mark cu x y k i s fs adj i2 s2 b n : n = List.length x -> rolled c i s = (i2, s2, b) ->
  roll_indent c (Some n) t mark (zs cu (x ++ y) k i s fs adj) = (zs cu (x ++ zroll_toks mark t b ++ y) k i2 s2 fs adj, Ok tt).
Proof.
  unfold rolled, roll_indent. intros E R. change (z_flow (zs cu (x ++ y) k i s fs adj)) with 0%N.
  change ((0 <? 0)%N) with false. cbv iota zeta. rewrite zs_drop1.
  destruct (drop1 c i s) as [i' s']. cbn [fst snd].
  change (z_indent (zs cu (x ++ y) k i' s' fs adj)) with i'.
  destruct (i' <? c)%N; injection R as <- <- <-; cbn [zroll_toks app]; [|reflexivity].
  exact (zs_insert (span_empty mark) t cu x y k c ((i', true) :: s') fs adj n E).
Qed.
Lemma zs_value_simple fuel g pre rest M L A x y k i s fs adj i2 s2 b :
  separates g -> sk_possible k = true -> sk_number k = List.length x ->
  rolled (m_col (sk_mark k)) i s = (i2, s2, b) ->
  exists toks', fetch_main_loop fuel (zs (cur pre (58%N :: g ++ rest) M L A) (x ++ y) k i s fs adj)
    = (zs (cur (pre ++ [58%N]) (g ++ rest) (mark_add 1 M) false false) toks' (impossible k) (fst (onecol i2 s2)) (snd (onecol i2 s2)) fs adj, Ok tt) /\
   map k_type toks' = map k_type x ++ (if b then [TBlockMappingStart] else []) ++ [TKey] ++ map k_type y ++ [TValue].
Proof.
  intros Sg P E R. rewrite zs_value_start by exact Sg. rewrite P.
  unfold bind at 1. unfold bind at 1. rewrite zs_insert by exact E. unfold bind at 1. unfold ret at 1.
  unfold bind at 1. rewrite (zs_roll_insert _ _ _ _ x _ _ _ _ _ _ i2 s2 b) by assumption.
  unfold bind at 1. rewrite zs_onecol. unfold bind at 1. unfold modify at 1.
  unfold zs at 1. cbn [set_keys z_keys z_cur z_tokens z_error z_indents z_implicit z_end_reached z_available z_started z_end_produced z_flow_started z_adjacent z_parsed z_flow z_indent].
  match goal with |- context [lift (set_ska false) ?z] => 
    change z with (zs (cur (pre ++ [58%N]) (g ++ rest) (mark_add 1 M) false A) (x ++ zroll_toks (sk_mark k) TBlockMappingStart b ++ Token (span_empty (sk_mark k)) TKey :: y) (impossible k) (fst (onecol i2 s2)) (snd (onecol i2 s2)) fs adj) end.
  rewrite zs_lift, e_set_ska. rewrite zs_push. eexists. split; [reflexivity|].
  rewrite !map_app. cbn [map k_type]. rewrite <- !app_assoc. destruct b; reflexivity.
Qed.

(** ** Scalars *)
Definition saved (a : bool) (m : marker) (toks : list token) (k : skey) (i : N) (s : list (N * bool)) : skey :=
  if a then SKey true ((i =? m_col m)%N && match s with (_, e) :: _ => e | [] => false end) (List.length toks) m else k.
Lemma zs_save pre rest m l a toks k i s fs adj :
  save_simple_key (zs (cur pre rest m l a) toks k i s fs adj)
  = (zs (cur pre rest m l a) toks (saved a m toks k i s) i s fs adj, Ok tt).
Proof. unfold save_simple_key, modify, saved. cbn [zs z_cur cur c_ska]. destruct a; reflexivity. Qed.
(** A text that begins a plain scalar. *)
Definition plain_first (w : text) : Prop :=
  ~ In (nth 0 w 0%N) [91; 123; 93; 125; 44; 63; 58; 42; 38; 33; 124; 62; 39; 34; 37; 64; 96; 35; 46; 0]%N /\
  (nth 0 w 0%N = 45%N -> ~ In (nth 1 w 32%N) [45; 32; 9; 10; 13; 0]%N).
(** [w] written for the scalar [v]. *)
Inductive scalar_text : scalar_type -> text -> text -> Prop :=
| st_plain w : plain_line w -> plain_first w -> scalar_text Plain w w
| st_double v : scalar_text DoubleQuote (34%N :: flat_map double_enc v ++ [34%N]) v.
Lemma plain_end_white i g rest : plain_end i g rest -> white g.
Proof. intros []; try constructor; auto. apply white_spaces. Qed.
Lemma scalar_first st w v : scalar_text st w v -> exists b r, w = b :: r /\ begins b /\ forall x, marker_line (w ++ x) = false.
Proof.
  intros [w' PL PF|v'].
  - destruct w' as [|b r]; [destruct PL as (_ & PL & _); exfalso; apply PL; now left|]. exists b, r. split; [reflexivity|].
    destruct PL as (PI & P1 & _). inversion_clear PI as [|? ? Ib Ir]. destruct PF as [PF PD]. cbn [nth] in *. split.
    + unfold begins, blank_byte, inner_byte in *. cbn [In] in *. intuition.
    + intros x. unfold marker_line. cbn [app nth]. cbn [In] in PF.
      rewrite (proj2 (N.eqb_neq b 37)), (proj2 (N.eqb_neq b 46)) by (intros ->; tauto). cbn [orb andb]. rewrite orb_false_r.
      destruct (N.eqb_spec b 45) as [->|]; [|reflexivity]. specialize (PD eq_refl).
      destruct r as [|y r]; cbn [nth app] in *; [exfalso; apply PD; right; left; reflexivity|].
      rewrite (proj2 (N.eqb_neq y 45)); [reflexivity|]. intros ->. apply PD. now left.
  - exists 34%N, (flat_map double_enc v' ++ [34%N]). split; [reflexivity|]. split; [unfold begins; cbn [In]; intuition discriminate|].
    intros x. reflexivity.
Qed.
Lemma main_plain fuel pre w x M L A toks k i s fs adj : plain_first w -> w <> [] ->
  fetch_main_loop fuel (zs (cur pre (w ++ x) M L A) toks k i s fs adj)
  = fetch_plain_scalar fuel (zs (cur pre (w ++ x) M L A) toks k i s fs adj).
Proof.
  intros [PF PD] NE. rewrite main_start. destruct w as [|b r]; [congruence|]. cbn [app nth] in *. cbv zeta.
  assert (H : forall y, In y [91; 123; 93; 125; 44; 63; 58; 42; 38; 33; 124; 62; 39; 34; 37; 64; 96]%N -> (b =? y)%N = false).
  { intros y Hy. apply N.eqb_neq. intros ->. apply PF. clear - Hy. cbn [In] in *. intuition. }
  rewrite (H 91%N), (H 123%N), (H 93%N), (H 125%N), (H 44%N), (H 63%N), (H 58%N), (H 42%N), (H 38%N), (H 33%N), (H 124%N), (H 62%N), (H 39%N), (H 34%N), (H 37%N), (H 64%N), (H 96%N) by (cbn [In]; tauto). cbn [andb orb].
  destruct (N.eqb_spec b 45) as [->|]; cbn [andb]; [|reflexivity]. specialize (PD eq_refl).
  destruct r as [|y r]; cbn [nth app] in *; [exfalso; apply PD; right; left; reflexivity|].
  assert (Y : is_blank_or_breakz y = false /\ is_blank_or_break y = false).
  { unfold is_blank_or_breakz, is_blank_or_break, is_blank, is_break. cbn [In] in PD. lia. }
  destruct Y as [-> ->]. reflexivity.
Qed.
Lemma main_double fuel pre x M L A toks k i s fs adj :
  fetch_main_loop fuel (zs (cur pre (34%N :: x) M L A) toks k i s fs adj)
  = fetch_flow_scalar fuel false (zs (cur pre (34%N :: x) M L A) toks k i s fs adj).
Proof. rewrite main_start. reflexivity. Qed.
Lemma zs_scalar fuel st w v g pre rest M L A toks k i s fs adj i0 s0 :
  scalar_text st w v -> inside i0 s0 i s -> blocky s0 -> (i <= m_col M)%N -> (0 < m_col M)%N ->
  plain_end (i0 + 1) g rest -> begins (nth 0 rest 0%N) -> List.length w + List.length g + 1 < fuel ->
  exists sp i1 s1 adj', fetch_main_loop fuel (zs (cur pre (w ++ g ++ rest) M L A) toks k i s fs adj)
  = (zs (cur (pre ++ w ++ g) rest (marker_after g (mark_add (List.length w) M)) (has_lf g) (has_lf g))
       (toks ++ [Token sp (TScalar st v)]) (saved A M toks k i s) i1 s1 fs adj', Ok tt) /\ ((i1 = i0 /\ s1 = s0) \/ (i1 = i /\ s1 = s)).
Proof.
  intros ST IN BL IM CM PE B F. assert (I0 : (i0 <= i)%N) by (destruct IN as [[-> ->]|(_ & -> & ->)]; lia).
  pose proof (scalar_first st w v ST) as (fb & fr & EW & _ & ML).
  destruct ST as [w PL PF|v].
  - rewrite main_plain by (auto; congruence). unfold fetch_plain_scalar. unfold bind at 1. rewrite zs_save.
    unfold bind at 1. rewrite zs_lift, e_set_ska. unfold bind at 1. rewrite (zs_non_block i0 s0) by auto.
    unfold bind at 1. unfold gets at 1. unfold bind at 1. unfold gets at 1.
    match goal with |- context [z_indent (zs ?a ?b ?c ?d ?e ?f ?g)] => change (z_indent (zs a b c d e f g)) with i0 end.
    match goal with |- context [z_flow (zs ?a ?b ?c ?d ?e ?f ?g)] => change (z_flow (zs a b c d e f g)) with 0%N end.
    change ((0 <? 0)%N) with false. unfold bind at 1. rewrite zs_lift.
    rewrite e_plain; [|exact PE|exact PL|lia|lia|intros _; apply marker_line_indicator, ML].
    rewrite zs_push. cbn [orb k_span k_type]. do 4 eexists. split; [reflexivity|]. now left.
  - cbn [app]. rewrite main_double. unfold fetch_flow_scalar. unfold bind at 1. rewrite zs_save.
    unfold bind at 1. rewrite zs_lift, e_set_ska.
    unfold bind at 1. unfold gets at 1. unfold bind at 1. unfold gets at 1.
    match goal with |- context [z_indent (zs ?a ?b ?c ?d ?e ?f ?g)] => change (z_indent (zs a b c d e f g)) with i end.
    match goal with |- context [z_flow (zs ?a ?b ?c ?d ?e ?f ?g)] => change (z_flow (zs a b c d e f g)) with 0%N end.
    change ((0 <? 0)%N) with false. unfold bind at 1. rewrite zs_lift.
    change (34%N :: (flat_map double_enc v ++ [34%N]) ++ g ++ rest) with ((34%N :: flat_map double_enc v ++ [34%N]) ++ g ++ rest).
    assert (DL : List.length v <= List.length (flat_map double_enc v)).
    { clear. induction v as [|b v IH]; [cbn; lia|]. cbn [flat_map List.length]. rewrite app_length.
      assert (1 <= List.length (double_enc b)); [|lia]. unfold double_enc. destruct (is_escaped b) eqn:E; [|cbn; lia].
      destruct (escaped_has b E) as (t & Et). rewrite Et. revert Et. unfold escape_of.
      repeat match goal with |- (if ?c then _ else _) = _ -> _ => destruct c end; intros H; try discriminate H; injection H as <-; cbn; lia. }
    rewrite double_scan; [|inversion PE; subst; reflexivity| |exact CM|lia].
    2:{ cbn [List.length] in F. rewrite app_length in F. cbn [List.length] in F. lia. }
    unfold bind at 1. unfold zskip_to_next_token.
    match goal with |- context [z_flow (zs ?a ?b ?c ?d ?e ?f ?g)] => change (z_flow (zs a b c d e f g)) with 0%N end.
    rewrite zs_lift. rewrite e_next_white; [|eapply plain_end_white; eauto|exact B|lia].
    unfold bind at 1. unfold modify at 1. cbn [k_span k_type].
    do 4 eexists. split; [|right; split; reflexivity]. rewrite <- app_assoc. cbn [orb]. reflexivity.
Qed.

(** ** Empty flow collections *)
(** Inside one flow collection. *)
Definition zf (c : cursor) (toks : list token) (k : skey) (i : N) (s : list (N * bool)) (im : list implicit_state) (fs : bool) (adj : N) : scanner :=
  Scanner c toks None [skey_new (Marker 0 0 0); k] s im false false true false fs adj 0 1 i.
Lemma zf_lift {A} (f : CM A) c toks k i s im fs adj :
  lift f (zf c toks k i s im fs adj) = let (c', o) := f c in (zf c' toks k i s im fs adj, o).
Proof. reflexivity. Qed.
Lemma zf_stale c toks k i s im fs adj :
  stale_simple_keys (zf c toks k i s im fs adj) = (zf c toks k i s im fs adj, Ok tt).
Proof.
  unfold stale_simple_keys, zf. cbn [z_flow z_cur z_keys rev app stale_loop]. change ((1 =? 0)%N) with false.
  rewrite !andb_false_r. cbn [andb]. reflexivity.
Qed.
Definition open_byte (is_map : bool) : N := if is_map then 123%N else 91%N.
Definition close_byte (is_map : bool) : N := if is_map then 125%N else 93%N.
Definition open_tok (is_map : bool) : token_type := if is_map then TFlowMappingStart else TFlowSequenceStart.
Definition close_tok (is_map : bool) : token_type := if is_map then TFlowMappingEnd else TFlowSequenceEnd.
Lemma zs_open is_map fuel pre rest M L A toks k i s fs adj :
  nth 0 rest 0%N <> 32%N -> nth 0 rest 0%N <> 9%N -> nth 0 rest 0%N <> 35%N -> 0 < fuel ->
  exists sp fs', fetch_main_loop fuel (zs (cur pre (open_byte is_map :: rest) M L A) toks k i s fs adj)
  = (zf (cur (pre ++ [open_byte is_map]) rest (mark_add 1 M) false true) (toks ++ [Token sp (open_tok is_map)])
       (saved A M toks k i s) (fst (onecol i s)) (snd (onecol i s)) (if is_map then [] else [IPossible]) fs' adj, Ok tt).
Proof.
  intros A1 A2 A3 F. destruct fuel as [|fuel]; [lia|].
  assert (E : fetch_main_loop (S fuel) (zs (cur pre (open_byte is_map :: rest) M L A) toks k i s fs adj)
    = fetch_flow_collection_start (S fuel) is_map (zs (cur pre (open_byte is_map :: rest) M L A) toks k i s fs adj)).
  { rewrite main_start. destruct is_map; reflexivity. }
  rewrite E. unfold fetch_flow_collection_start. unfold bind at 1. rewrite zs_save. unfold bind at 1. rewrite zs_onecol.
  unfold bind at 1. unfold increase_flow_level at 1.
  match goal with |- context [set_keys ?ks (zs ?a ?b ?c ?d ?e ?f ?g)] =>
    change (z_flow (set_keys ks (zs a b c d e f g))) with 0%N end.
  change ((0 =? 4294967295)%N) with false. cbv zeta iota.
  match goal with |- context [set_flow ?n ?z] =>
    change (set_flow n z) with (zf (cur pre (open_byte is_map :: rest) M L A) toks (saved A M toks k i s) (fst (onecol i s)) (snd (onecol i s)) [] fs adj) end.
  unfold bind at 1. rewrite zf_lift, e_set_ska. unfold bind at 1. unfold zmark. rewrite zf_lift, e_get_mark.
  unfold bind at 1. rewrite zf_lift, e_skip_non_blank. unfold bind at 1. unfold modify at 1.
  destruct is_map.
  - unfold bind at 1.
    match goal with |- context [lift ?q (set_flow_started true ?z)] => change (set_flow_started true z) with
      (zf (cur (pre ++ [open_byte true]) rest (mark_add 1 M) false true) toks (saved A M toks k i s) (fst (onecol i s)) (snd (onecol i s)) [] true adj) end.
    rewrite zf_lift, e_ws_stop by assumption. unfold bind at 1. rewrite zf_lift, e_get_mark.
    do 2 eexists. reflexivity.
  - unfold bind at 1.
    match goal with |- context [lift ?q (set_implicit ?im ?z)] => change (set_implicit im z) with
      (zf (cur (pre ++ [open_byte false]) rest (mark_add 1 M) false true) toks (saved A M toks k i s) (fst (onecol i s)) (snd (onecol i s)) [IPossible] fs adj) end.
    rewrite zf_lift, e_ws_stop by assumption. unfold bind at 1. rewrite zf_lift, e_get_mark.
    do 2 eexists. reflexivity.
Qed.
Lemma zf_close is_map fuel pre rest M toks k i s fs adj :
  nth 0 rest 0%N <> 32%N -> nth 0 rest 0%N <> 9%N -> nth 0 rest 0%N <> 35%N -> 0 < fuel -> (1 < m_col M)%N -> (i <= m_col M)%N ->
  exists sp, fetch_next_token fuel (zf (cur pre (close_byte is_map :: rest) M false true) toks k i s (if is_map then [] else [IPossible]) fs adj)
  = (zs (cur (pre ++ [close_byte is_map]) rest (mark_add 1 M) false false) (toks ++ [Token sp (close_tok is_map)]) k i s fs adj, Ok tt).
Proof.
  intros A1 A2 A3 F C I. destruct fuel as [|fuel]; [lia|].
  unfold fetch_next_token. unfold bind at 1. unfold gets at 1.
  match goal with |- context [z_started (zf ?a ?b ?c ?d ?e ?f ?g ?h)] => change (z_started (zf a b c d e f g h)) with true end. cbn [negb].
  unfold bind at 1. unfold zskip_to_next_token.
  rewrite zf_lift, e_next_none by (unfold begins; destruct is_map; cbn [nth In close_byte]; intuition discriminate).
  unfold bind at 1. rewrite zf_stale. unfold bind at 1. unfold zmark. rewrite zf_lift, e_get_mark.
  unfold bind at 1. unfold unroll_indent.
  match goal with |- context [z_flow (zf ?a ?b ?c ?d ?e ?f ?g ?h)] => change (z_flow (zf a b c d e f g h)) with 1%N end.
  change ((0 <? 1)%N) with true. cbv iota.
  unfold fetch_next_content. cbv zeta.
  match goal with |- context [z_indent (zf ?a ?b ?c ?d ?e ?f ?g ?h)] => change (z_indent (zf a b c d e f g h)) with i;
    change (z_cur (zf a b c d e f g h)) with a end.
  rewrite cur_empty. change (c_mark (cur pre (close_byte is_map :: rest) M false true)) with M.
  rewrite (proj2 (N.ltb_ge (m_col M) i) I). rewrite (proj2 (N.eqb_neq (m_col M) 1)) by lia.
  assert (E : fetch_main_loop (S fuel) (zf (cur pre (close_byte is_map :: rest) M false true) toks k i s (if is_map then [] else [IPossible]) fs adj)
     = fetch_flow_collection_end (S fuel) is_map (zf (cur pre (close_byte is_map :: rest) M false true) toks k i s (if is_map then [] else [IPossible]) fs adj)).
  { unfold fetch_main_loop at 1. unfold bind at 1. unfold zpeek at 1. rewrite zf_lift, e_peek. unfold bind at 1. unfold zpeek at 1. rewrite zf_lift, e_peek. unfold bind at 1. unfold gets at 1. unfold bind at 1. unfold zmark at 1. rewrite zf_lift, e_get_mark. unfold bind at 1. unfold gets at 1.
    destruct is_map; reflexivity. }
  rewrite E. clear E.
  unfold fetch_flow_collection_end, zmark. unfold bind at 1.
  match goal with |- context [remove_simple_key ?z] => change (remove_simple_key z) with (z, @Ok unit tt) end. cbv iota.
  unfold bind at 1.
  match goal with |- context [decrease_flow_level (zf ?a ?b ?c ?d ?e ?f ?g ?h)] =>
    change (decrease_flow_level (zf a b c d e f g h)) with
      (Scanner a b None [c] e f false false true false g h 0 0 d, @Ok unit tt) end. cbv iota.
  assert (EI : forall c', (if is_map then ret tt else end_implicit_mapping M ;;; modify (fun z => set_implicit (tl (z_implicit z)) z))
     (Scanner c' toks None [k] s (if is_map then [] else [IPossible]) false false true false fs adj 0 0 i) = (zs c' toks k i s fs adj, Ok tt)).
  { intros. destruct is_map; reflexivity. }
  unfold bind at 1. unfold lift at 1. cbn [z_cur]. rewrite e_set_ska. cbn [set_cur z_cur].
  match goal with |- context [set_cur ?c ?z] => change (set_cur c z) with (Scanner c toks None [k] s (if is_map then [] else [IPossible]) false false true false fs adj 0 0 i) end.
  unfold bind at 1. unfold lift at 1. cbn [z_cur]. rewrite e_get_mark.
  match goal with |- context [set_cur ?c ?z] => change (set_cur c z) with (Scanner c toks None [k] s (if is_map then [] else [IPossible]) false false true false fs adj 0 0 i) end.
  unfold bind at 1. rewrite EI. unfold bind at 1. rewrite zs_lift, e_skip_non_blank.
  unfold bind at 1. rewrite zs_lift, e_ws_stop by assumption. unfold bind at 1. unfold modify at 1.
  match goal with |- context [z_flow (zs ?a ?b ?c ?d ?e ?f ?g)] => change (z_flow (zs a b c d e f g)) with 0%N end.
  change ((0 <? 0)%N) with false. cbv iota. unfold bind at 1. rewrite zs_lift, e_get_mark. eexists. reflexivity.
Qed.
