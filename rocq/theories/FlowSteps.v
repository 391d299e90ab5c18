(** The tokens the scanner finds in flow collections inside block collections, one round at a time. *)
From Verif Require Import Base Tokens Scalar Chars Source Cursor Scanner ExactCursor SpecTree SpecQuoted FoldedQuotes ExactPlain EagerScan ScanSteps.
From Verif Require Import SpecBlock BlockScan SpecPlain PlainScan NodeScan DumpScan ScalarDocs PlainDocs SpecFlow SpecLayout LayoutCursor LayoutScan LayoutScalar SpecStrings StringScan FlowScan.
From Coq Require Import String Lia ZifyBool ZifyNat ZifyN.
Local Open Scope m_scope.
Local Open Scope list_scope.

(** ** States *)
Definition zq (c : cursor) (toks : list token) (ks : list skey) (i : N) (s : list (N * bool)) (im : list implicit_state) (fs : bool) (adj fl : N) : scanner :=
  Scanner c toks None ks s im false false true false fs adj 0 fl i.
Lemma zq_lift {A} (f : CM A) c toks ks i s im fs adj fl :
  lift f (zq c toks ks i s im fs adj fl) = let (c', o) := f c in (zq c' toks ks i s im fs adj fl, o).
Proof. reflexivity. Qed.
Lemma zq_peek n pre rest m l a toks ks i s im fs adj fl :
  zpeek n (zq (cur pre rest m l a) toks ks i s im fs adj fl) = (zq (cur pre rest m l a) toks ks i s im fs adj fl, Ok (nth n rest 0%N)).
Proof. unfold zpeek. now rewrite zq_lift, e_peek. Qed.
Lemma zq_mark pre rest m l a toks ks i s im fs adj fl :
  zmark (zq (cur pre rest m l a) toks ks i s im fs adj fl) = (zq (cur pre rest m l a) toks ks i s im fs adj fl, Ok m).
Proof. reflexivity. Qed.
Lemma zq_push sp t c toks ks i s im fs adj fl :
  push_token sp t (zq c toks ks i s im fs adj fl) = (zq c (toks ++ [Token sp t]) ks i s im fs adj fl, Ok tt).
Proof. reflexivity. Qed.
Lemma zq_onecol c toks ks i s im fs adj d : d <> 0 -> roll_one_col_indent (zq c toks ks i s im fs adj (N.of_nat d)) = (zq c toks ks i s im fs adj (N.of_nat d), Ok tt).
Proof.
  intros D. unfold roll_one_col_indent, modify, zq. cbn [z_indents z_flow]. rewrite (proj2 (N.eqb_neq (N.of_nat d) 0)) by lia.
  destruct s as [|[x [|]] s]; reflexivity.
Qed.
Lemma zq_roll col n t mk c toks ks i s im fs adj d : d <> 0 -> roll_indent col n t mk (zq c toks ks i s im fs adj (N.of_nat d)) = (zq c toks ks i s im fs adj (N.of_nat d), Ok tt).
Proof. intros D. unfold roll_indent. unfold zq at 1. cbn [z_flow]. rewrite (proj2 (N.ltb_lt 0 (N.of_nat d))) by lia. reflexivity. Qed.
Lemma zq_non_block i0 s0 c toks ks i s im fs adj fl : inside i0 s0 i s -> blocky s0 ->
  unroll_non_block_indents (zq c toks ks i s im fs adj fl) = (zq c toks ks i0 s0 im fs adj fl, Ok tt).
Proof.
  intros I B. unfold unroll_non_block_indents, modify, zq. cbn [z_indents z_indent].
  assert (X : unroll_non_block_loop i0 s0 = (i0, s0)) by (destruct s0 as [|[x [|]] s0]; try contradiction; reflexivity).
  destruct I as [[-> ->]|(_ & -> & ->)]; cbn [unroll_non_block_loop]; rewrite X; reflexivity.
Qed.
Lemma zq_save pre rest m l a toks k ks i s im fs adj d : d <> 0 ->
  save_simple_key (zq (cur pre rest m l a) toks (k :: ks) i s im fs adj (N.of_nat d))
  = (zq (cur pre rest m l a) toks (kept_key a (List.length toks) m k :: ks) i s im fs adj (N.of_nat d), Ok tt).
Proof.
  intros D. unfold save_simple_key, modify. change (c_ska (z_cur (zq (cur pre rest m l a) toks (k :: ks) i s im fs adj (N.of_nat d)))) with a.
  destruct a; [|reflexivity]. unfold zq at 1 2 3 4. cbn [z_flow z_indent z_indents z_cur z_parsed z_tokens z_keys Nat.add].
  rewrite (proj2 (N.eqb_neq (N.of_nat d) 0)) by lia. reflexivity.
Qed.
Lemma zq_remove c toks k ks i s im fs adj fl : idle k ->
  remove_simple_key (zq c toks (k :: ks) i s im fs adj fl) = (zq c toks (impossible k :: ks) i s im fs adj fl, Ok tt).
Proof.
  intros I. unfold remove_simple_key, zq. cbn [z_keys]. destruct (sk_possible k) eqn:P; cbn [andb]; [rewrite (I P)|]; reflexivity.
Qed.
Lemma stale_flow d m keys : d <> 0 -> stale_loop (N.of_nat d) m keys = (keys, false).
Proof.
  intros D. induction keys as [|k keys IH]; [reflexivity|]. cbn [stale_loop]. rewrite IH, (proj2 (N.eqb_neq (N.of_nat d) 0)) by lia.
  now rewrite andb_false_r.
Qed.
Lemma zq_stale c toks ks i s im fs adj d : d <> 0 ->
  stale_simple_keys (zq c toks ks i s im fs adj (N.of_nat d)) = (zq c toks ks i s im fs adj (N.of_nat d), Ok tt).
Proof.
  intros D. unfold stale_simple_keys. unfold zq at 1 2 3. cbn [z_flow z_cur z_keys]. rewrite stale_flow by exact D. rewrite rev_involutive. reflexivity.
Qed.
Lemma zq_unroll col c toks ks i s im fs adj d : d <> 0 -> unroll_indent col (zq c toks ks i s im fs adj (N.of_nat d)) = (zq c toks ks i s im fs adj (N.of_nat d), Ok tt).
Proof. intros D. unfold unroll_indent. unfold zq at 1. cbn [z_flow]. rewrite (proj2 (N.ltb_lt 0 (N.of_nat d))) by lia. reflexivity. Qed.
Lemma zq_content fuel pre b r m l a toks ks i s im fs adj fl : marker_line (b :: r) = false -> (i <= m_col m)%N ->
  fetch_next_content fuel (zq (cur pre (b :: r) m l a) toks ks i s im fs adj fl)
  = fetch_main_loop fuel (zq (cur pre (b :: r) m l a) toks ks i s im fs adj fl).
Proof.
  intros ML I. unfold fetch_next_content. cbv zeta. unfold zq at 1 2 3. cbn [z_cur]. rewrite cur_empty.
  change (z_indent (zq (cur pre (b :: r) m l a) toks ks i s im fs adj fl)) with i.
  change (c_mark (z_cur (zq (cur pre (b :: r) m l a) toks ks i s im fs adj fl))) with m.
  change (c_mark (cur pre (b :: r) m l a)) with m.
  rewrite (proj2 (N.ltb_ge (m_col m) i) I).
  destruct (m_col m =? 1)%N; [|reflexivity].
  assert (PS : process_start fuel (zq (cur pre (b :: r) m l a) toks ks i s im fs adj fl) = None).
  { unfold process_start. change (z_cur (zq (cur pre (b :: r) m l a) toks ks i s im fs adj fl)) with (cur pre (b :: r) m l a).
    cbv zeta. unfold marker_line in ML. apply orb_false_elim in ML. destruct ML as [M1 M2].
    unfold next_is_three. rewrite !cur_peek, M1.
    destruct (nth 0 (b :: r) 0 =? 45)%N, (nth 1 (b :: r) 0 =? 45)%N, (nth 2 (b :: r) 0 =? 45)%N,
      (nth 0 (b :: r) 0 =? 46)%N, (nth 1 (b :: r) 0 =? 46)%N, (nth 2 (b :: r) 0 =? 46)%N;
      cbn [andb orb] in *; rewrite ?M2; try reflexivity. }
  now rewrite PS.
Qed.
Lemma main_q fuel pre rest m l a toks ks i s im fs adj fl :
  fetch_main_loop fuel (zq (cur pre rest m l a) toks ks i s im fs adj fl)
  = (let c := nth 0 rest 0 in let x := nth 1 rest 0 in
     (if c =? 91 then fetch_flow_collection_start fuel false
   else if c =? 123 then fetch_flow_collection_start fuel true
   else if c =? 93 then fetch_flow_collection_end fuel false
   else if c =? 125 then fetch_flow_collection_end fuel true
   else if c =? 44 then fetch_flow_entry fuel
   else if (c =? 45) && is_blank_or_breakz x then fetch_block_entry fuel
   else if (c =? 63) && is_blank_or_breakz x then fetch_key fuel
   else if (c =? 58) && is_blank_or_breakz x then fetch_value fuel
   else if (c =? 58) && ((0 <? fl) && (is_flow x || (m_pos m =? adj))) then fetch_flow_value fuel
   else if c =? 42 then fetch_anchor fuel true
   else if c =? 38 then fetch_anchor fuel false
   else if c =? 33 then fetch_tag fuel
   else if (c =? 124) && (fl =? 0) then fetch_block_scalar fuel true
   else if (c =? 62) && (fl =? 0) then fetch_block_scalar fuel false
   else if c =? 39 then fetch_flow_scalar fuel true
   else if c =? 34 then fetch_flow_scalar fuel false
   else if (c =? 45) && negb (is_blank_or_break x) then fetch_plain_scalar fuel
   else if ((c =? 58) || (c =? 63)) && (negb (is_blank_or_break x) && (fl =? 0)) then
     fetch_plain_scalar fuel
   else if (c =? 37) || (c =? 64) || (c =? 96) then unexpected_character
   else fetch_plain_scalar fuel) (zq (cur pre rest m l a) toks ks i s im fs adj fl))%N.
Proof.
  unfold fetch_main_loop. unfold bind at 1. rewrite zq_peek. unfold bind at 1. rewrite zq_peek.
  unfold bind at 1. unfold gets at 1. unfold bind at 1. rewrite zq_mark. unfold bind at 1. unfold gets at 1. reflexivity.
Qed.

(** ** White space *)
Lemma e_next_flow ib ind d rest : d <> 0 -> begins (nth 0 rest 0%N) -> forall g, gap_to rest g -> forall fuel pre m l s, List.length g + 2 < fuel ->
  skip_to_next_token fuel ib ind (N.of_nat d) (cur pre (g ++ rest) m l s)
  = (cur (pre ++ g) rest (marker_after g m) (l || has_lf g) s, Ok tt).
Proof.
  intros D B g G. assert (D0 : (N.of_nat d =? 0)%N = false) by lia.
  induction G as [|g G IH|b g G IH|c g C BZ G IH]; intros fuel pre m l s F; (destruct fuel as [|fuel]; [cbn in F; lia|]).
  - cbn [app has_lf existsb marker_after]. rewrite e_next_none by exact B. now rewrite app_nil_r, !orb_false_r.
  - cbn [skip_to_next_token List.length app] in *. unfold bind at 1. rewrite e_peek. cbn [nth].
    unfold bind at 1. unfold gets at 1. unfold bind at 1. rewrite e_get_mark.
    change ((32 =? 9)%N) with false. change ((32 =? 32)%N) with true. cbn [andb orb].
    unfold bind at 1. rewrite e_skip_blank. rewrite IH by lia. rewrite marker_step by discriminate. rewrite <- app_assoc. reflexivity.
  - cbn [skip_to_next_token]. rewrite app_length in F. rewrite <- app_assoc. unfold bind at 1. rewrite e_peek.
    unfold bind at 1. unfold gets at 1. unfold bind at 1. rewrite e_get_mark.
    assert (X : forall x, let c := nth 0 (eol b ++ x) 0%N in (c =? 9)%N = false /\ (c =? 32)%N = false /\ ((c =? 10)%N || (c =? 13)%N = true)) by (intros x; destruct b; now split).
    destruct (X (g ++ rest)) as (X1 & X2 & X3). rewrite X1, X2, X3. cbn [andb orb].
    unfold bind at 1. rewrite e_break. rewrite D0. cbv iota. unfold bind at 1. unfold ret at 1.
    rewrite IH by (destruct b; cbn [eol List.length] in F; lia). rewrite marker_after_app, has_lf_app, has_lf_eol, <- app_assoc.
    cbn [orb]. now rewrite !orb_true_r.
  - cbn [skip_to_next_token]. cbn [List.length] in F. rewrite app_length in F. cbn [app]. rewrite <- app_assoc. unfold bind at 1. rewrite e_peek. cbn [nth].
    unfold bind at 1. unfold gets at 1. unfold bind at 1. rewrite e_get_mark.
    change ((35 =? 9)%N) with false. change ((35 =? 32)%N) with false. change ((35 =? 10)%N) with false. change ((35 =? 13)%N) with false. change ((35 =? 35)%N) with true. cbn [andb orb].
    unfold bind at 1.
      assert (ES : skip_line fuel (cur pre (35%N :: c ++ g ++ rest) m l s) = (cur (pre ++ 35%N :: c) (g ++ rest) (mark_add (List.length c + 1) m) l s, Ok (35%N :: c))).
      { apply e_comment; [exact C|exact BZ|]. lia. }
      rewrite ES. rewrite IH by lia.
      assert (NC : ~ In 10%N (35%N :: c)) by (intros [H|H]; [discriminate|now apply comment_no_lf in H]).
      change (35%N :: c ++ g) with ((35%N :: c) ++ g). rewrite marker_after_app, has_lf_app, (no_lf_has _ NC), (marker_flat _ _ NC), <- app_assoc.
      cbn [List.length orb]. now rewrite Nat.add_1_r.
Qed.
Lemma e_yaml_flow d rest : d <> 0 -> begins (nth 0 rest 0%N) -> forall g, gap_to rest g -> forall fuel need pre m l s, List.length g + 2 < fuel ->
  exists r, skip_yaml_whitespace_loop fuel (N.of_nat d) need (cur pre (g ++ rest) m l s)
  = (cur (pre ++ g) rest (marker_after g m) (l || has_lf g) s, Ok r) /\ (need = false -> r = false) /\ (nth 0 g 35%N <> 35%N -> r = false).
Proof.
  intros D B g G. assert (D0 : (N.of_nat d =? 0)%N = false) by lia.
  induction G as [|g G IH|b g G IH|c g C BZ G IH]; intros fuel need pre m l s F; (destruct fuel as [|fuel]; [cbn in F; lia|]).
  - cbn [app has_lf existsb marker_after]. destruct (begins_not _ B) as (B1 & B2 & B3 & B4 & B5).
    cbn [skip_yaml_whitespace_loop]. unfold bind. rewrite e_peek. rewrite B1, B3, B4, B5. cbn [orb]. exists need. rewrite app_nil_r, !orb_false_r.
    split; [reflexivity|]. split; [auto|]. intros X. now elim X.
  - cbn [skip_yaml_whitespace_loop List.length app] in *. unfold bind at 1. rewrite e_peek. cbn [nth].
    change ((32 =? 32)%N) with true. cbv iota.
    unfold bind at 1. rewrite e_skip_blank. destruct (IH fuel false (pre ++ [32%N]) (mark_add 1 m) l s ltac:(lia)) as (r & E & R & _).
    exists r. rewrite E. rewrite marker_step by discriminate. rewrite <- app_assoc. split; [reflexivity|]. auto.
  - cbn [skip_yaml_whitespace_loop]. rewrite app_length in F. rewrite <- app_assoc. unfold bind at 1. rewrite e_peek.
    assert (X : forall x, let c := nth 0 (eol b ++ x) 0%N in (c =? 32)%N = false /\ ((c =? 10)%N || (c =? 13)%N = true)) by (intros x; destruct b; now split).
    destruct (X (g ++ rest)) as (X2 & X3). rewrite X2, X3.
    unfold bind at 1. rewrite e_break. rewrite D0. cbv iota. unfold bind at 1. unfold ret at 1.
    destruct (IH fuel false (pre ++ eol b) (marker_after (eol b) m) true s) as (r & E & R & _); [destruct b; cbn [eol List.length] in F; lia|].
    exists r. rewrite E. rewrite marker_after_app, has_lf_app, has_lf_eol, <- app_assoc.
    cbn [orb]. rewrite !orb_true_r. split; [reflexivity|]. auto.
  - cbn [skip_yaml_whitespace_loop]. cbn [List.length] in F. rewrite app_length in F. cbn [app]. rewrite <- app_assoc. unfold bind at 1. rewrite e_peek. cbn [nth].
    change ((35 =? 32)%N) with false. change ((35 =? 10)%N) with false. change ((35 =? 13)%N) with false. change ((35 =? 35)%N) with true. cbn [orb].
    unfold bind at 1.
    assert (ES : skip_line fuel (cur pre (35%N :: c ++ g ++ rest) m l s) = (cur (pre ++ 35%N :: c) (g ++ rest) (mark_add (List.length c + 1) m) l s, Ok (35%N :: c))).
    { apply e_comment; [exact C|exact BZ|]. lia. }
    rewrite ES. destruct (IH fuel need (pre ++ 35%N :: c) (mark_add (List.length c + 1) m) l s ltac:(lia)) as (r & E & R & _).
    assert (NC : ~ In 10%N (35%N :: c)) by (intros [H|H]; [discriminate|now apply comment_no_lf in H]).
    exists r. rewrite E. change (35%N :: c ++ g) with ((35%N :: c) ++ g). rewrite marker_after_app, has_lf_app, (no_lf_has _ NC), (marker_flat _ _ NC), <- app_assoc.
    cbn [List.length orb]. rewrite Nat.add_1_r. split; [reflexivity|]. split; [exact R|]. cbn [app nth]. intros X. now elim X.
Qed.

(** ** Places *)
(** Behind a gap the state is before [rest], inside [d] flow collections that stand in the block
    collection [i0], [s0]. *)
Definition FlowAt (z : scanner) (pre rest : text) (M : marker) (A : bool) (T : list token_type) (ks : list skey)
  (i0 : N) (s0 : list (N * bool)) (im : list implicit_state) (fs : bool) (d : nat) : Prop :=
  exists pre0 g m l toks i s adj, z = zq (cur pre0 (g ++ rest) m l A) toks ks i s im fs adj (N.of_nat d) /\
    pre = pre0 ++ g /\ gap_to rest g /\ M = marker_after g m /\ map k_type toks = T /\ inside i0 s0 i s.
Lemma FlowAt_gap z pre g rest M A T ks i0 s0 im fs d : gap_to rest g -> FlowAt z pre (g ++ rest) M A T ks i0 s0 im fs d ->
  FlowAt z (pre ++ g) rest (marker_after g M) A T ks i0 s0 im fs d.
Proof.
  intros W (p0 & g0 & m & l & toks & i & s & adj & -> & -> & W0 & -> & E & IN).
  exists p0, (g0 ++ g), m, l, toks, i, s, adj. rewrite <- !app_assoc, marker_after_app.
  repeat split; auto. now apply gap_app.
Qed.
Lemma FlowAt_zq pre g rest m l a toks ks i s im fs adj d T i0 s0 : gap_to rest g -> map k_type toks = T -> inside i0 s0 i s ->
  FlowAt (zq (cur pre (g ++ rest) m l a) toks ks i s im fs adj (N.of_nat d)) (pre ++ g) rest (marker_after g m) a T ks i0 s0 im fs d.
Proof. intros W E IN. exists pre, g, m, l, toks, i, s, adj. repeat split; auto. Qed.
Lemma round_flow fuel z pre b r M A T ks i0 s0 im fs d (post : scanner -> Prop) :
  FlowAt z pre (b :: r) M A T ks i0 s0 im fs d -> d <> 0 -> begins b -> marker_line (b :: r) = false ->
  List.length pre + 2 < fuel -> (i0 < m_col M)%N ->
  (forall toks i s adj L, map k_type toks = T -> inside i0 s0 i s -> (i <= m_col M)%N -> adj = z_adjacent z ->
     exists z1 z2, fetch_main_loop fuel (zq (cur pre (b :: r) M L A) toks ks i s im fs adj (N.of_nat d)) = (z1, Ok tt) /\
       stale_simple_keys z1 = (z2, Ok tt) /\ List.length toks < List.length (z_tokens z1) /\ post z2) ->
  exists z2, round fuel z z2 /\ post z2.
Proof.
  intros (p0 & g & m & l & toks & i & s & adj & -> & -> & W & -> & E & IN) D B ML F C H.
  rewrite app_length in F.
  assert (IC : (i <= m_col (marker_after g m))%N) by (destruct IN as [[-> ->]|(_ & -> & ->)]; lia).
  destruct (H toks i s adj (l || has_lf g) E IN IC eq_refl) as (z1 & z2 & E1 & E2 & E3 & P).
  exists z2. split; [|exact P]. exists z1. split; [|split; [exact E2|exact E3]].
  unfold fetch_next_token. unfold bind at 1. unfold gets.
  change (z_started (zq (cur p0 (g ++ b :: r) m l A) toks ks i s im fs adj (N.of_nat d))) with true. cbn [negb].
  unfold bind at 1. unfold zskip_to_next_token.
  change (z_flow (zq (cur p0 (g ++ b :: r) m l A) toks ks i s im fs adj (N.of_nat d))) with (N.of_nat d).
  rewrite zq_lift, e_next_flow by (auto; lia). unfold bind at 1. rewrite zq_stale by exact D.
  unfold bind at 1. rewrite zq_mark. unfold bind at 1. rewrite zq_unroll by exact D.
  rewrite zq_content by auto. exact E1.
Qed.

(** ** Gaps *)
Lemma flow_gap_to p g rest : flow_gap p g -> gap_to rest g.
Proof.
  intros [(k & ->)|(n & _ & NL)]; [|eapply gap_next_line; eauto]. rewrite <- (app_nil_r (repeat _ _)). apply gap_spaces. constructor.
Qed.
Lemma next_line_first n g : next_line n g -> exists b r, g = b :: r /\ In b [32; 10; 13]%N.
Proof.
  intros [r b ls R _].
  assert (X : exists y r', eol b ++ empty_text ls ++ repeat 32%N n = y :: r' /\ In y [32; 10; 13]%N) by (destruct b; do 2 eexists; (split; [reflexivity|cbn; auto])).
  destruct X as (y & r' & E & Y). destruct R as [[|k]|k c C]; cbn [repeat app].
  - eauto.
  - do 2 eexists. split; [reflexivity|]. now left.
  - do 2 eexists. split; [reflexivity|]. now left.
Qed.
Lemma flow_gap_first p g : flow_gap p g -> g = [] \/ exists b r, g = b :: r /\ In b [32; 10; 13]%N.
Proof.
  intros [([|k] & ->)|(n & _ & NL)]; [now left|right|right; eapply next_line_first; eauto].
  do 2 eexists. split; [reflexivity|]. now left.
Qed.
Lemma flow_gap_quiet p g : flow_gap p g -> nth 0 g 32%N <> 35%N.
Proof. intros G. destruct (flow_gap_first p g G) as [-> |(b & r & -> & B)]; [discriminate|]. cbn [nth In] in *. intros ->. intuition discriminate. Qed.
Lemma flow_gap_col p g m : flow_gap p g -> (N.of_nat p < m_col m)%N -> (N.of_nat p < m_col (marker_after g m))%N.
Proof.
  intros [(k & ->)|(n & PN & NL)] C.
  - rewrite marker_flat by apply no_lf_spaces. unfold mark_add. cbn [Base.m_col]. lia.
  - destruct (next_line_col n g NL m) as [-> _]. lia.
Qed.
Lemma flow_gap_flat p g : flow_gap p g -> ~ In 10%N g -> exists k, g = repeat 32%N k.
Proof.
  intros [H|(n & _ & NL)] N; [exact H|]. exfalso. apply next_line_lf in NL. rewrite (no_lf_has g N) in NL. discriminate.
Qed.
(** White space to the end of a line, and what is left of the gap. *)
Lemma e_ws_gap p g rest fuel pre m l s : flow_gap p g -> begins (nth 0 rest 0%N) -> List.length g + 2 < fuel ->
  exists g1 g2 any has, g = g1 ++ g2 /\ gap_to rest g2 /\ (~ In 10%N g -> g2 = []) /\
    skip_ws_to_eol fuel true false (cur pre (g ++ rest) m l s) = (cur (pre ++ g1) (g2 ++ rest) (marker_after g1 m) l s, Ok (any, has)).
Proof.
  intros G B F. destruct (gap_split rest g (flow_gap_to p g rest G) B (flow_gap_quiet p g G)) as (r & g1 & EG & LR & G1 & NB & BZ).
  assert (FR : List.length r + 2 < fuel) by (rewrite EG, app_length in F; lia).
  destruct (e_ws_rest r fuel false pre (g1 ++ rest) m l s LR NB BZ FR) as (any & has & E & _).
  exists r, g1, any, has. split; [exact EG|]. split; [exact G1|]. split.
  - intros N. destruct (flow_gap_flat p g G N) as (k & EK). destruct g1 as [|y g1]; [reflexivity|]. exfalso. apply NB. left. cbn [app nth].
    symmetry. apply (repeat_spec k). rewrite <- EK, EG. apply in_or_app. right. now left.
  - rewrite (marker_flat r) by now apply rest_no_lf. rewrite EG, <- app_assoc. exact E.
Qed.
Lemma marker_first b g m : b <> 10%N -> marker_after (b :: g) m = marker_after g (mark_add 1 m).
Proof. intros H. now apply marker_step. Qed.

(** ** Brackets and commas *)
Lemma flow_open fuel z pre is_map g rest M A T k ks p s0 im fs d :
  FlowAt z pre (opening is_map :: g ++ rest) M A T (k :: ks) (N.of_nat p) s0 im fs d -> d <> 0 -> flow_gap p g -> begins (nth 0 rest 0%N) ->
  (N.of_nat p < m_col M)%N -> (N.of_nat d < 4294967295)%N -> List.length pre + List.length g + 2 < fuel ->
  exists z', round fuel z z' /\
    FlowAt z' (pre ++ opening is_map :: g) rest (marker_after (opening is_map :: g) M) true (T ++ [opened is_map])
      (skey_new (Marker 0 0 0) :: kept_key A (List.length T) M k :: ks) (N.of_nat p) s0 (if is_map then im else IPossible :: im) (is_map || fs) (S d).
Proof.
  intros H D G B C DL F.
  apply (round_flow fuel z pre (opening is_map) (g ++ rest) M A T (k :: ks) (N.of_nat p) s0 im fs d _ H D).
  - destruct is_map; unfold begins; cbn [In opening]; lia.
  - apply marker_line_indicator_byte; destruct is_map; discriminate.
  - lia.
  - exact C.
  - intros toks i s adj L ET IN IC _.
    assert (E0 : fetch_main_loop fuel (zq (cur pre (opening is_map :: g ++ rest) M L A) toks (k :: ks) i s im fs adj (N.of_nat d))
       = fetch_flow_collection_start fuel is_map (zq (cur pre (opening is_map :: g ++ rest) M L A) toks (k :: ks) i s im fs adj (N.of_nat d))).
    { rewrite main_q. destruct is_map; reflexivity. }
    rewrite E0. clear E0. unfold fetch_flow_collection_start. unfold bind at 1. rewrite zq_save by exact D. unfold bind at 1. rewrite zq_onecol by exact D.
    unfold bind at 1. unfold increase_flow_level. cbv zeta.
    match goal with |- context [z_flow (set_keys ?x ?y)] => change (z_flow (set_keys x y)) with (N.of_nat d) end.
    replace ((N.of_nat d =? 4294967295)%N) with false by lia. cbv iota.
    set (k1 := kept_key A (List.length toks) M k).
    match goal with |- context [set_flow ?n ?z] => change (set_flow n z) with
      (zq (cur pre (opening is_map :: g ++ rest) M L A) toks (skey_new (Marker 0 0 0) :: k1 :: ks) i s im fs adj (N.of_nat d + 1)) end.
    unfold bind at 1. rewrite zq_lift, e_set_ska. unfold bind at 1. rewrite zq_mark. unfold bind at 1. rewrite zq_lift, e_skip_non_blank.
    set (im1 := if is_map then im else IPossible :: im).
    unfold bind at 1. unfold modify at 1.
    match goal with |- context [if is_map then set_flow_started true ?z else ?y] =>
      replace (if is_map then set_flow_started true z else y) with
       (zq (cur (pre ++ [opening is_map]) (g ++ rest) (mark_add 1 M) false true) toks (skey_new (Marker 0 0 0) :: k1 :: ks) i s im1 (is_map || fs) adj (N.of_nat d + 1))
      by (unfold im1; destruct is_map; reflexivity) end.
    destruct (e_ws_gap p g rest fuel (pre ++ [opening is_map]) (mark_add 1 M) false true G B ltac:(lia)) as (g1 & g2 & any & has & EG & G2 & _ & WS).
    unfold bind at 1. rewrite zq_lift, WS. unfold bind at 1. rewrite zq_mark. rewrite zq_push.
    replace (N.of_nat d + 1)%N with (N.of_nat (S d)) by lia.
    do 2 eexists. split; [reflexivity|]. split; [apply zq_stale; discriminate|]. split; [unfold zq; cbn [z_tokens]; rewrite app_length; cbn [List.length]; lia|].
    rewrite marker_first by (destruct is_map; discriminate). rewrite EG, marker_after_app.
    replace (pre ++ opening is_map :: g1 ++ g2) with (((pre ++ [opening is_map]) ++ g1) ++ g2) by (rewrite <- !app_assoc; reflexivity).
    assert (EL : List.length T = List.length toks) by (rewrite <- ET; apply map_length). rewrite EL.
    apply FlowAt_zq; [exact G2| |exact IN]. rewrite (map_snoc toks T) by exact ET. reflexivity.
Qed.
(** The end of a single pair, and what it leaves. *)
Definition pending (im : list implicit_state) : list token_type := match im with IInside :: _ => [TFlowMappingEnd] | _ => [] end.
Definition ended (im : list implicit_state) : list implicit_state := match im with IInside :: r => IPossible :: r | _ => im end.
Definition kept_started (im : list implicit_state) (fs : bool) : bool := match im with IInside :: _ => false | _ => fs end.
Lemma zq_end_implicit m c toks ks i s im fs adj fl : exists toks',
  end_implicit_mapping m (zq c toks ks i s im fs adj fl) = (zq c toks' ks i s (ended im) (kept_started im fs) adj fl, Ok tt) /\
  map k_type toks' = map k_type toks ++ pending im /\ List.length toks <= List.length toks'.
Proof.
  unfold end_implicit_mapping. unfold zq at 1. cbn [z_implicit]. destruct im as [|[|] im]; cbn [ended kept_started pending].
  - exists toks. split; [reflexivity|]. split; [now rewrite app_nil_r|lia].
  - exists toks. split; [reflexivity|]. split; [now rewrite app_nil_r|lia].
  - eexists. split; [reflexivity|]. unfold zq. cbn [z_tokens set_implicit set_flow_started]. split; [rewrite map_app; reflexivity|rewrite app_length; lia].
Qed.
Lemma flow_close fuel z pre is_map g rest M A T k0 ks p s0 im fs d :
  FlowAt z pre (closing is_map :: g ++ rest) M A T (k0 :: ks) (N.of_nat p) s0 im fs (S d) -> flow_gap p g -> begins (nth 0 rest 0%N) ->
  d <> 0 -> idle k0 -> (N.of_nat p < m_col M)%N -> List.length pre + List.length g + 2 < fuel ->
  exists z', round fuel z z' /\
    FlowAt z' (pre ++ closing is_map :: g) rest (marker_after (closing is_map :: g) M) false (T ++ (if is_map then [] else pending im) ++ [closed is_map])
      ks (N.of_nat p) s0 (if is_map then im else tl im) (if is_map then fs else kept_started im fs) d /\
    (~ In 10%N g -> z_adjacent z' = m_pos (marker_after (closing is_map :: g) M)).
Proof.
  intros H G B D ID C F.
  apply (round_flow fuel z pre (closing is_map) (g ++ rest) M A T (k0 :: ks) (N.of_nat p) s0 im fs (S d) _ H).
  - discriminate.
  - destruct is_map; unfold begins; cbn [In closing]; lia.
  - apply marker_line_indicator_byte; destruct is_map; discriminate.
  - lia.
  - exact C.
  - intros toks i s adj L ET IN IC _.
    assert (E0 : fetch_main_loop fuel (zq (cur pre (closing is_map :: g ++ rest) M L A) toks (k0 :: ks) i s im fs adj (N.of_nat (S d)))
       = fetch_flow_collection_end fuel is_map (zq (cur pre (closing is_map :: g ++ rest) M L A) toks (k0 :: ks) i s im fs adj (N.of_nat (S d)))).
    { rewrite main_q. destruct is_map; reflexivity. }
    rewrite E0. clear E0. unfold fetch_flow_collection_end.
    unfold bind at 1. rewrite zq_remove by exact ID. unfold bind at 1. unfold decrease_flow_level.
    match goal with |- context [z_flow (zq ?a ?b ?c ?d ?e ?f ?g ?h ?j)] => change (z_flow (zq a b c d e f g h j)) with j end.
    match goal with |- context [z_keys (zq ?a ?b ?c ?d ?e ?f ?g ?h ?j)] => change (z_keys (zq a b c d e f g h j)) with c end.
    replace ((0 <? N.of_nat (S d))%N) with true by lia. cbv iota.
    match goal with |- context [set_keys ?n (set_flow ?v ?z)] => change (set_keys n (set_flow v z)) with
      (zq (cur pre (closing is_map :: g ++ rest) M L A) toks ks i s im fs adj v) end.
    replace (N.of_nat (S d) - 1)%N with (N.of_nat d) by lia.
    unfold bind at 1. rewrite zq_lift, e_set_ska. unfold bind at 1. rewrite zq_mark.
    set (im1 := if is_map then im else tl im). set (fs1 := if is_map then fs else kept_started im fs).
    unfold bind at 1.
    assert (X : exists toks1, (if is_map then ret tt else end_implicit_mapping M ;;; modify (fun z => set_implicit (tl (z_implicit z)) z))
        (zq (cur pre (closing is_map :: g ++ rest) M L false) toks ks i s im fs adj (N.of_nat d))
      = (zq (cur pre (closing is_map :: g ++ rest) M L false) toks1 ks i s im1 fs1 adj (N.of_nat d), Ok tt) /\
      map k_type toks1 = T ++ (if is_map then [] else pending im) /\ List.length toks <= List.length toks1).
    { unfold im1, fs1. destruct is_map; [exists toks; split; [reflexivity|split; [now rewrite app_nil_r|lia]]|].
      destruct (zq_end_implicit M (cur pre (closing false :: g ++ rest) M L false) toks ks i s im fs adj (N.of_nat d)) as (toks1 & E1 & E2 & E3).
      exists toks1. split; [|split; [now rewrite <- ET|exact E3]]. unfold bind at 1. rewrite E1. unfold modify. unfold zq at 1. cbn [z_implicit]. destruct im as [|[|] im]; reflexivity. }
    destruct X as (toks1 & X1 & X2 & X3). rewrite X1.
    unfold bind at 1. rewrite zq_lift, e_skip_non_blank.
    destruct (e_ws_gap p g rest fuel (pre ++ [closing is_map]) (mark_add 1 M) false false G B ltac:(lia)) as (g1 & g2 & any & has & EG & G2 & FL & WS).
    unfold bind at 1. rewrite zq_lift, WS.
    set (m1 := marker_after g1 (mark_add 1 M)).
    unfold bind at 1. unfold modify at 1.
    match goal with |- context [if (0 <? ?n)%N then set_adjacent ?v ?z else ?y] =>
      replace (if (0 <? n)%N then set_adjacent v z else y) with
       (zq (cur ((pre ++ [closing is_map]) ++ g1) (g2 ++ rest) m1 false false) toks1 ks i s im1 fs1 (m_pos m1) (N.of_nat d))
      by (change (z_flow z) with (N.of_nat d); replace ((0 <? N.of_nat d)%N) with true by lia; reflexivity) end.
    unfold bind at 1. rewrite zq_mark. rewrite zq_push.
    do 2 eexists. split; [reflexivity|]. split; [now apply zq_stale|]. split; [unfold zq; cbn [z_tokens]; rewrite app_length; cbn [List.length]; lia|].
    rewrite marker_first by (destruct is_map; discriminate). rewrite EG, marker_after_app. fold m1. split.
    + replace (pre ++ closing is_map :: g1 ++ g2) with (((pre ++ [closing is_map]) ++ g1) ++ g2) by (rewrite <- !app_assoc; reflexivity).
      apply FlowAt_zq; [exact G2| |exact IN]. rewrite (map_snoc toks1 _ _ _ X2), <- app_assoc. reflexivity.
    + intros N. rewrite <- EG in N. rewrite (FL N). reflexivity.
Qed.
Lemma flow_comma fuel z pre g rest M A T k ks p s0 im fs d :
  FlowAt z pre (44%N :: g ++ rest) M A T (k :: ks) (N.of_nat p) s0 im fs d -> flow_gap p g -> begins (nth 0 rest 0%N) ->
  d <> 0 -> idle k -> (N.of_nat p < m_col M)%N -> List.length pre + List.length g + 2 < fuel ->
  exists z', round fuel z z' /\
    FlowAt z' (pre ++ 44%N :: g) rest (marker_after (44%N :: g) M) true (T ++ pending im ++ [TFlowEntry])
      (impossible k :: ks) (N.of_nat p) s0 (ended im) (kept_started im fs) d.
Proof.
  intros H G B D ID C F.
  apply (round_flow fuel z pre 44%N (g ++ rest) M A T (k :: ks) (N.of_nat p) s0 im fs d _ H D).
  - unfold begins; cbn [In]; lia.
  - apply marker_line_indicator_byte; discriminate.
  - lia.
  - exact C.
  - intros toks i s adj L ET IN IC _. rewrite main_q. cbn [nth]. cbv zeta.
    change ((44 =? 91)%N) with false. change ((44 =? 123)%N) with false. change ((44 =? 93)%N) with false.
    change ((44 =? 125)%N) with false. change ((44 =? 44)%N) with true. cbv iota.
    unfold fetch_flow_entry.
    unfold bind at 1. rewrite zq_remove by exact ID. unfold bind at 1. rewrite zq_lift, e_set_ska. unfold bind at 1. rewrite zq_mark.
    destruct (zq_end_implicit M (cur pre (44%N :: g ++ rest) M L true) toks (impossible k :: ks) i s im fs adj (N.of_nat d)) as (toks1 & E1 & E2 & E3).
    unfold bind at 1. rewrite E1. unfold bind at 1. rewrite zq_lift, e_skip_non_blank.
    destruct (e_ws_gap p g rest fuel (pre ++ [44%N]) (mark_add 1 M) false true G B ltac:(lia)) as (g1 & g2 & any & has & EG & G2 & _ & WS).
    unfold bind at 1. rewrite zq_lift, WS. unfold bind at 1. rewrite zq_mark. rewrite zq_push.
    do 2 eexists. split; [reflexivity|]. split; [now apply zq_stale|]. split; [unfold zq; cbn [z_tokens]; rewrite app_length; cbn [List.length]; lia|].
    rewrite marker_first by discriminate. rewrite EG, marker_after_app.
    replace (pre ++ 44%N :: g1 ++ g2) with (((pre ++ [44%N]) ++ g1) ++ g2) by (rewrite <- !app_assoc; reflexivity).
    apply FlowAt_zq; [exact G2| |exact IN]. rewrite ET in E2. rewrite (map_snoc toks1 _ _ _ E2), <- app_assoc. reflexivity.
Qed.

(** ** Question marks *)
Lemma flow_question fuel z pre g rest M A T k ks p s0 im fs d :
  FlowAt z pre (63%N :: g ++ rest) M A T (k :: ks) (N.of_nat p) s0 im fs d -> flow_gap p g -> g <> [] -> begins (nth 0 rest 0%N) ->
  d <> 0 -> idle k -> (N.of_nat p < m_col M)%N -> List.length pre + List.length g + 2 < fuel ->
  exists z', round fuel z z' /\
    FlowAt z' (pre ++ 63%N :: g) rest (marker_after (63%N :: g) M) false (T ++ [TKey])
      (impossible k :: ks) (N.of_nat p) s0 im true d.
Proof.
  intros H G NE B D ID C F.
  assert (GF : exists b r, g = b :: r /\ In b [32; 10; 13]%N) by (destruct (flow_gap_first p g G); [contradiction|assumption]).
  apply (round_flow fuel z pre 63%N (g ++ rest) M A T (k :: ks) (N.of_nat p) s0 im fs d _ H D).
  - unfold begins; cbn [In]; lia.
  - apply marker_line_indicator_byte; discriminate.
  - lia.
  - exact C.
  - intros toks i s adj L ET IN IC _.
    assert (E0 : fetch_main_loop fuel (zq (cur pre (63%N :: g ++ rest) M L A) toks (k :: ks) i s im fs adj (N.of_nat d))
       = fetch_key fuel (zq (cur pre (63%N :: g ++ rest) M L A) toks (k :: ks) i s im fs adj (N.of_nat d))).
    { rewrite main_q. destruct GF as (b & r & -> & Hb). cbn [nth app]. cbv zeta.
      assert (Z : is_blank_or_breakz b = true) by (cbn [In] in Hb; destruct Hb as [<- |[<- |[<- |[]]]]; reflexivity). rewrite Z. reflexivity. }
    rewrite E0. clear E0. unfold fetch_key. unfold bind at 1. rewrite zq_mark. unfold bind at 1. unfold gets at 1. unfold bind at 1. unfold gets at 1.
    match goal with |- context [z_flow (zq ?a ?b ?c ?d ?e ?f ?g ?h ?j)] => change (z_flow (zq a b c d e f g h j)) with j end.
    replace ((N.of_nat d =? 0)%N) with false by lia. cbv iota.
    unfold bind at 1. unfold modify at 1.
    match goal with |- context [set_flow_started true (zq ?a ?b ?c ?d ?e ?f ?g ?h ?j)] => change (set_flow_started true (zq a b c d e f g h j)) with (zq a b c d e f true h j) end.
    unfold bind at 1. rewrite zq_remove by exact ID. unfold bind at 1. rewrite zq_lift, e_set_ska. unfold bind at 1. rewrite zq_lift, e_skip_non_blank.
    destruct (e_yaml_flow d rest D B g (flow_gap_to p g rest G) fuel true (pre ++ [63%N]) (mark_add 1 M) false false ltac:(lia)) as (r & EY & _ & RF).
    assert (R0 : r = false).
    { apply RF. destruct GF as (b & r' & -> & Hb). cbn [nth In] in *. intros ->. intuition discriminate. }
    assert (EK : skip_yaml_whitespace fuel (N.of_nat d) (cur (pre ++ [63%N]) (g ++ rest) (mark_add 1 M) false false)
      = (cur ((pre ++ [63%N]) ++ g) rest (marker_after g (mark_add 1 M)) (false || has_lf g) false, Ok tt)).
    { unfold skip_yaml_whitespace. unfold bind at 1. rewrite EY, R0. unfold bind at 1. rewrite e_get_mark. reflexivity. }
    unfold bind at 1. rewrite zq_lift, EK. unfold bind at 1. rewrite zq_peek. unfold bind at 1. rewrite zq_mark.
    destruct (begins_not _ B) as (B1 & B2 & B3 & B4 & B5). rewrite B2. rewrite zq_push.
    do 2 eexists. split; [reflexivity|]. split; [now apply zq_stale|]. split; [unfold zq; cbn [z_tokens]; rewrite app_length; cbn [List.length]; lia|].
    rewrite marker_first by discriminate.
    replace (pre ++ 63%N :: g) with (((pre ++ [63%N]) ++ g) ++ []) by (rewrite app_nil_r, <- !app_assoc; reflexivity).
    change (marker_after g (mark_add 1 M)) with (marker_after [] (marker_after g (mark_add 1 M))) at 2.
    change rest with ([] ++ rest) at 1.
    apply (FlowAt_zq ((pre ++ [63%N]) ++ g) []); [constructor| |exact IN]. rewrite (map_snoc toks _ _ _ ET). reflexivity.
Qed.

(** ** Colons *)
(** A colon is a sign here: before white space, before a comma or closing bracket, or at the place
    behind a quoted scalar or a collection. *)
Definition colon_sign (z : scanner) (M : marker) (r : text) : Prop :=
  nth 0 r 0%N <> 9%N /\ (In (nth 0 r 0%N) [32; 10; 13; 0]%N \/ In (nth 0 r 0%N) [44; 93; 125]%N \/ z_adjacent z = m_pos M).
Lemma colon_main fuel pre r M L A toks ks i s im fs adj d : d <> 0 ->
  (In (nth 0 r 0%N) [32; 10; 13; 0]%N \/ In (nth 0 r 0%N) [44; 93; 125]%N \/ adj = m_pos M) ->
  fetch_main_loop fuel (zq (cur pre (58%N :: r) M L A) toks ks i s im fs adj (N.of_nat d))
  = fetch_value fuel (zq (cur pre (58%N :: r) M L A) toks ks i s im fs adj (N.of_nat d)).
Proof.
  intros D H. rewrite main_q. cbn [nth]. cbv zeta.
  change ((58 =? 91)%N) with false. change ((58 =? 123)%N) with false. change ((58 =? 93)%N) with false.
  change ((58 =? 125)%N) with false. change ((58 =? 44)%N) with false. change ((58 =? 45)%N) with false. change ((58 =? 63)%N) with false. change ((58 =? 58)%N) with true.
  cbn [andb]. destruct (is_blank_or_breakz (nth 0 r 0%N)) eqn:BZ; [reflexivity|].
  replace ((0 <? N.of_nat d)%N) with true by lia. cbn [andb].
  assert (X : is_flow (nth 0 r 0%N) || (m_pos M =? adj)%N = true).
  { destruct H as [H|[H| ->]].
    - exfalso. cbn [In] in H. destruct H as [H|[H|[H|[H|[]]]]]; rewrite <- H in BZ; discriminate.
    - cbn [In] in H. destruct H as [H|[H|[H|[]]]]; rewrite <- H; reflexivity.
    - rewrite N.eqb_refl. apply orb_true_r. }
  rewrite X. unfold fetch_flow_value. unfold bind at 1. rewrite zq_peek. unfold bind at 1. rewrite zq_mark. unfold bind at 1. unfold gets at 1.
  match goal with |- context [z_adjacent (zq ?a ?b ?c ?d ?e ?f ?g ?h ?j)] => change (z_adjacent (zq a b c d e f g h j)) with h end. cbn [nth].
  assert (Y : negb (m_pos M =? adj)%N && ((nth 0 r 0 =? 91)%N || (nth 0 r 0 =? 123)%N) = false).
  { destruct H as [H|[H| ->]].
    - cbn [In] in H. destruct H as [H|[H|[H|[H|[]]]]]; rewrite <- H; apply andb_false_r.
    - cbn [In] in H. destruct H as [H|[H|[H|[]]]]; rewrite <- H; apply andb_false_r.
    - now rewrite N.eqb_refl. }
  rewrite Y. reflexivity.
Qed.
Definition implicit_pair (im : list implicit_state) (fs : bool) : bool := match im with [] => false | _ => true end && negb fs.
Definition inside_pair (im : list implicit_state) (fs : bool) : list implicit_state := if implicit_pair im fs then IInside :: tl im else im.
Lemma zq_value fuel pre r M L A toks k ks i s im fs adj d : d <> 0 -> nth 0 r 0%N <> 9%N ->
  fetch_value fuel (zq (cur pre (58%N :: r) M L A) toks (k :: ks) i s im fs adj (N.of_nat d))
  = ((if sk_possible k then
         insert_token (sk_number k) (span_empty (sk_mark k)) TKey ;;;
         (if implicit_pair im fs then
            if (m_line (sk_mark k) <? m_line M)%N then
              zerr M "illegal placement of ':' indicator"
            else insert_token (sk_number k) (span_empty (sk_mark k)) TFlowMappingStart
          else ret tt) ;;;
         roll_indent (m_col (sk_mark k)) (Some (sk_number k)) TBlockMappingStart (sk_mark k) ;;;
         roll_one_col_indent ;;;
         modify (fun z => set_keys (match z_keys z with k :: r => impossible k :: r | [] => [] end) z) ;;;
         lift (set_ska false)
       else
         (if implicit_pair im fs then push_token (span_empty M) TFlowMappingStart else ret tt) ;;;
         let* flow := gets z_flow in
         let* ska := gets (fun z => c_ska (z_cur z)) in
         (if (flow =? 0)%N then
            if negb ska then zerr M "mapping values are not allowed in this context"
            else roll_indent (m_col M) None TBlockMappingStart M
          else ret tt) ;;;
         roll_one_col_indent ;;;
         lift (set_ska (flow =? 0)%N)) ;;;
      push_token (span_empty M) TValue)
     (zq (cur (pre ++ [58%N]) r (mark_add 1 M) false A) toks (k :: ks) i s (inside_pair im fs) fs adj (N.of_nat d)).
Proof.
  intros D NT. unfold fetch_value. unfold bind at 1. unfold gets at 1.
  match goal with |- context [z_keys (zq ?a ?b ?c ?d ?e ?f ?g ?h ?j)] => change (z_keys (zq a b c d e f g h j)) with c end. cbv iota.
  unfold bind at 1. rewrite zq_mark. unfold bind at 1. unfold gets at 1. cbv zeta.
  match goal with |- context [z_implicit (zq ?a ?b ?c ?d ?e ?f ?g ?h ?j)] => change (z_implicit (zq a b c d e f g h j)) with f;
     change (z_flow_started (zq a b c d e f g h j)) with g end.
  fold (implicit_pair im fs). unfold bind at 1. unfold modify at 1.
  match goal with |- context [if implicit_pair im fs then set_implicit ?v ?z else ?y] =>
    replace (if implicit_pair im fs then set_implicit v z else y) with
     (zq (cur pre (58%N :: r) M L A) toks (k :: ks) i s (inside_pair im fs) fs adj (N.of_nat d)) by (unfold inside_pair; destruct (implicit_pair im fs); reflexivity) end.
  unfold bind at 1. rewrite zq_lift, e_skip_non_blank. unfold bind at 1. unfold value_tab_check at 1. unfold bind at 1. rewrite zq_peek.
  rewrite (proj2 (N.eqb_neq (nth 0 r 0%N) 9%N) NT). unfold ret at 1. reflexivity.
Qed.
Lemma zq_insert sp t cu a b ks i s im fs adj fl n : n = List.length a ->
  insert_token n sp t (zq cu (a ++ b) ks i s im fs adj fl) = (zq cu (a ++ Token sp t :: b) ks i s im fs adj fl, Ok tt).
Proof.
  intros E. unfold insert_token. change (z_parsed (zq cu (a ++ b) ks i s im fs adj fl)) with 0.
  change (z_tokens (zq cu (a ++ b) ks i s im fs adj fl)) with (a ++ b).
  rewrite Nat.sub_0_r. change (Nat.ltb n 0) with false. cbv iota zeta.
  rewrite (proj2 (Nat.leb_le n (List.length (a ++ b)))) by (rewrite app_length; lia).
  now rewrite firstn_exact, skipn_exact.
Qed.
(** Behind a key that was found before: *)
Lemma flow_colon_key fuel z pre r M A T0 TK k ks p s0 im fs d :
  FlowAt z pre (58%N :: r) M A (T0 ++ TK) (k :: ks) (N.of_nat p) s0 im fs d -> d <> 0 -> colon_sign z M r ->
  sk_possible k = true -> sk_number k = List.length T0 -> (implicit_pair im fs = true -> m_line M <= m_line (sk_mark k))%N ->
  (N.of_nat p < m_col M)%N -> List.length pre + 2 < fuel ->
  exists z', round fuel z z' /\
    FlowAt z' (pre ++ [58%N]) r (mark_add 1 M) false
      (T0 ++ (if implicit_pair im fs then [TFlowMappingStart] else []) ++ [TKey] ++ TK ++ [TValue])
      (impossible k :: ks) (N.of_nat p) s0 (inside_pair im fs) fs d.
Proof.
  intros H D (NT & CS) PK NK LN C F.
  apply (round_flow fuel z pre 58%N r M A (T0 ++ TK) (k :: ks) (N.of_nat p) s0 im fs d _ H D).
  - unfold begins; cbn [In]; lia.
  - apply marker_line_indicator_byte; discriminate.
  - lia.
  - exact C.
  - intros toks i s adj L ET IN IC EA. rewrite <- EA in CS. rewrite colon_main by assumption. rewrite zq_value by assumption. rewrite PK.
    assert (SPLIT : exists x y, toks = x ++ y /\ map k_type x = T0 /\ map k_type y = TK).
    { exists (firstn (List.length T0) toks), (skipn (List.length T0) toks). split; [symmetry; apply firstn_skipn|].
      rewrite <- firstn_map, <- skipn_map, ET. rewrite firstn_app, skipn_app, firstn_all, skipn_all, Nat.sub_diag. cbn [firstn skipn app]. now rewrite app_nil_r. }
    destruct SPLIT as (x & y & -> & EX & EY).
    assert (NX : sk_number k = List.length x) by (rewrite NK, <- EX; apply map_length).
    unfold bind at 1. unfold bind at 1. rewrite zq_insert by exact NX. unfold bind at 1.
    set (ty := if implicit_pair im fs then Token (span_empty (sk_mark k)) TFlowMappingStart :: Token (span_empty (sk_mark k)) TKey :: y else Token (span_empty (sk_mark k)) TKey :: y).
    match goal with |- context [(if implicit_pair im fs then ?a else ret tt) ?z] =>
      replace ((if implicit_pair im fs then a else ret tt) z) with
       (zq (cur (pre ++ [58%N]) r (mark_add 1 M) false A) (x ++ ty) (k :: ks) i s (inside_pair im fs) fs adj (N.of_nat d), @Ok unit tt) end.
    2:{ unfold ty. destruct (implicit_pair im fs); [|reflexivity]. rewrite (proj2 (N.ltb_ge _ _) (LN eq_refl)). now rewrite zq_insert by exact NX. }
    unfold bind at 1. rewrite zq_roll by exact D. unfold bind at 1. rewrite zq_onecol by exact D. unfold bind at 1. unfold modify at 1.
    match goal with |- context [lift (set_ska false) ?z] => 
      change z with (zq (cur (pre ++ [58%N]) r (mark_add 1 M) false A) (x ++ ty) (impossible k :: ks) i s (inside_pair im fs) fs adj (N.of_nat d)) end.
    rewrite zq_lift, e_set_ska. rewrite zq_push.
    do 2 eexists. split; [reflexivity|]. split; [now apply zq_stale|].
    split; [unfold zq, ty; cbn [z_tokens]; destruct (implicit_pair im fs); rewrite !app_length; cbn [List.length]; lia|].
    replace (pre ++ [58%N]) with ((pre ++ [58%N]) ++ []) at 2 by apply app_nil_r.
    apply (FlowAt_zq (pre ++ [58%N]) []); [constructor| |exact IN]. unfold ty.
    destruct (implicit_pair im fs); rewrite !map_app; cbn [map k_type]; rewrite EX, EY, <- !app_assoc; reflexivity.
Qed.
(** Behind a question mark, or without a key: *)
Lemma flow_colon_bare fuel z pre r M A T k ks p s0 im fs d :
  FlowAt z pre (58%N :: r) M A T (k :: ks) (N.of_nat p) s0 im fs d -> d <> 0 -> colon_sign z M r ->
  sk_possible k = false -> implicit_pair im fs = false ->
  (N.of_nat p < m_col M)%N -> List.length pre + 2 < fuel ->
  exists z', round fuel z z' /\
    FlowAt z' (pre ++ [58%N]) r (mark_add 1 M) false (T ++ [TValue]) (k :: ks) (N.of_nat p) s0 im fs d.
Proof.
  intros H D (NT & CS) PK IM C F.
  apply (round_flow fuel z pre 58%N r M A T (k :: ks) (N.of_nat p) s0 im fs d _ H D).
  - unfold begins; cbn [In]; lia.
  - apply marker_line_indicator_byte; discriminate.
  - lia.
  - exact C.
  - intros toks i s adj L ET IN IC EA. rewrite <- EA in CS. rewrite colon_main by assumption. rewrite zq_value by assumption. rewrite PK.
    unfold inside_pair. rewrite IM.
    unfold bind at 1. unfold bind at 1. unfold ret at 1. unfold bind at 1. unfold gets at 1. unfold bind at 1. unfold gets at 1.
    match goal with |- context [z_flow (zq ?a ?b ?c ?d ?e ?f ?g ?h ?j)] => change (z_flow (zq a b c d e f g h j)) with j end.
    replace ((N.of_nat d =? 0)%N) with false by lia. cbv iota. unfold bind at 1. unfold ret at 1.
    unfold bind at 1. rewrite zq_onecol by exact D. rewrite zq_lift, e_set_ska. rewrite zq_push.
    do 2 eexists. split; [reflexivity|]. split; [now apply zq_stale|].
    split; [unfold zq; cbn [z_tokens]; rewrite app_length; cbn [List.length]; lia|].
    replace (pre ++ [58%N]) with ((pre ++ [58%N]) ++ []) at 2 by apply app_nil_r.
    apply (FlowAt_zq (pre ++ [58%N]) []); [constructor| |exact IN]. rewrite (map_snoc toks _ _ _ ET). reflexivity.
Qed.

(** ** Scalars *)
(** What comes behind a node and the gap behind it: a comma, a closing bracket, or a colon; behind a
    plain scalar the colon has to be followed by white space or one of these. *)
Definition flow_after (j : bool) (after : text) : Prop :=
  exists b r, after = b :: r /\
    (In b [44; 93; 125]%N \/ (b = 58%N /\ (j = true \/ In (nth 0 r 0%N) [32; 10; 13; 44; 93; 125]%N))).
Lemma flow_after_begins j after : flow_after j after -> begins (nth 0 after 0%N).
Proof. intros (b & r & -> & H). unfold begins. cbn [nth In] in *. intuition (subst; discriminate). Qed.
Lemma flow_after_json after : flow_after false after -> flow_after true after.
Proof. intros (b & r & -> & H). exists b, r. split; [reflexivity|]. tauto. Qed.
Lemma flow_head p j g after : flow_gap p g -> flow_after j after -> In (nth 0 (g ++ after) 0%N) [32; 10; 13; 44; 93; 125; 58]%N.
Proof.
  intros G (b & r & -> & H). destruct (flow_gap_first p g G) as [-> |(x & y & -> & X)]; cbn [app nth In] in *; [|tauto].
  destruct H as [H|[-> _]]; tauto.
Qed.
Lemma flow_plain_gap p g after : flow_gap p g -> flow_after false after -> exists fg g2, g = fold_text fg ++ g2 /\ gap_to after g2 /\
  plain_stop true (N.of_nat p) fg (g2 ++ after) /\ comment_behind (N.of_nat p) fg (g2 ++ after).
Proof.
  intros G AF.
  assert (ST : forall fg, white_gap fg -> tabs_behind (N.of_nat p) fg -> plain_stop true (N.of_nat p) fg after).
  { intros fg W TB. destruct AF as (b & r & -> & [H|[-> [H|H]]]); [|discriminate|].
    - apply ps_flow; auto. cbn [In] in H. destruct H as [<- |[<- |[<- |[]]]]; cbn; tauto.
    - apply ps_colon; auto. unfold ends_colon, flow_sign. change (str ",[]{}") with [44; 91; 93; 123; 125]%N. cbn [In] in *. tauto. }
  destruct G as [(k & ->)|(n & PN & [r b ls R E])].
  - exists (Inline (repeat 32%N k)), []. cbn [fold_text app]. rewrite app_nil_r. split; [reflexivity|]. split; [constructor|].
    split; [apply ST; [apply spaces_white|exact I]|]. intros _. exact I.
  - destruct R as [k1|k1 c1 C1].
    + destruct (first_comment ls E) as [B|(e & k & c & b2 & ls' & -> & B & C & E')].
      * exists (NewLines (repeat 32%N k1) b ls n []), []. cbn [fold_text app]. rewrite !app_nil_r. split; [reflexivity|]. split; [constructor|].
        split; [|intros _ X; congruence]. apply ST; [|intros X; congruence]. split; [apply spaces_white|]. split; [now apply blank_white|constructor].
      * exists (NewLines (repeat 32%N k1) b e k []), (35%N :: c ++ eol b2 ++ empty_text ls' ++ repeat 32%N n). cbn [fold_text]. split.
        { rewrite empty_text_app. cbn [empty_text flat_map fst snd]. rewrite !app_nil_r, <- !app_assoc. cbn [app]. reflexivity. }
        split; [|split; [|intros _ X; congruence]].
        -- apply gap_comment; [exact C|rewrite <- app_assoc; apply break_z|]. constructor. apply gap_empty_text; [exact E'|].
           rewrite <- (app_nil_r (repeat 32%N n)). apply gap_spaces. constructor.
        -- apply ps_comment.
           ++ split; [apply spaces_white|]. split; [now apply blank_white|constructor].
           ++ cbn [fold_text]. rewrite app_assoc. destruct (repeat 32%N k1), b; discriminate.
    + exists (Inline (repeat 32%N (S k1))), (35%N :: c1 ++ eol b ++ empty_text ls ++ repeat 32%N n). cbn [fold_text]. split; [now rewrite <- app_assoc|].
      split; [|split; [|intros _; exact I]].
      * apply gap_comment; [exact C1|rewrite <- app_assoc; apply break_z|]. constructor. apply gap_empty_text; [exact E|].
        rewrite <- (app_nil_r (repeat 32%N n)). apply gap_spaces. constructor.
      * apply ps_comment; [apply spaces_white|discriminate].
Qed.
Lemma word_any w : Forall (word_char true) w -> Forall (word_char false) w.
Proof. apply Forall_impl. intros b [H _]. split; [exact H|discriminate]. Qed.
Lemma flow_more_head ws p x : flow_more p ws -> ~ In (nth 0 x 0%N) [45; 46]%N -> ~ In (nth 0 (more_text ws ++ x) 0%N) [45; 46]%N.
Proof.
  intros M X. destruct M as [|[g w] ws (W & NE & _) _]; [exact X|]. cbn [more_text flat_map fst snd].
  rewrite <- !app_assoc. pose proof (gap_head g (w ++ more_text ws ++ x) W NE) as Y. cbv zeta in Y. unfold more_text in Y.
  intros Z. cbn [In] in Z. unfold is_blank, is_break in Y. lia.
Qed.
Lemma flow_more_sign ws p x : flow_more p ws -> ws <> [] -> ~ flow_sign (nth 0 (more_text ws ++ x) 0%N).
Proof.
  intros M NE. destruct M as [|[g w] ws (W & NG & _) _]; [congruence|]. cbn [more_text flat_map fst snd].
  rewrite <- !app_assoc. pose proof (gap_head g (w ++ more_text ws ++ x) W NG) as Y. cbv zeta in Y. unfold more_text in Y.
  intros Z. unfold flow_sign in Z. change (str ",[]{}") with [44; 91; 93; 123; 125]%N in Z. cbn [In] in Z. unfold is_blank, is_break in Y. lia.
Qed.
Lemma flow_of p x : ~ In (nth 0 x 0%N) [45; 46]%N -> forall ws w, flow_more p ws -> last_word w ws <> [45%N] ->
  plain_words true (N.of_nat p) ws x /\ no_look_alikes true ws x /\ no_dash true w (nth 0 (more_text ws ++ x) 0%N).
Proof.
  intros X. induction ws as [|[g w'] ws IH]; intros w M L.
  - split; [exact I|]. split; [exact I|]. intros (_ & E & _). apply L. exact E.
  - pose proof (Forall_inv M) as (W & NE & IN & BW & NM). pose proof (Forall_inv_tail M) as MW. cbn [fst snd] in *.
    assert (L' : last_word w' ws <> [45%N]).
    { unfold last_word in *. destruct ws as [|y ws]; [exact L|]. cbn [last] in L. intros E. apply L. rewrite <- E.
      clear. revert y. induction ws as [|y' ws IH]; intros y; [reflexivity|]. change (last (y :: y' :: ws) (Inline [], w)) with (last (y' :: ws) (Inline [], w)).
      change (last (y :: y' :: ws) (Inline [], w')) with (last (y' :: ws) (Inline [], w')). apply IH. }
    destruct (IH w' MW L') as (I1 & I2 & I3). destruct BW as (B1 & B2 & B3 & B4).
    pose proof (flow_more_head ws p x MW X) as X2.
    cbn [plain_words no_look_alikes]. split; [|split].
    + split; [exact W|]. split; [exact NE|]. split; [exact IN|]. split.
      * intros O. apply no_doc_mark; auto; [now apply word_any|]. apply NM. destruct g; [contradiction|reflexivity].
      * split; [|exact I1]. split; [exact B1|]. split; [exact B2|]. split; [exact B3|]. intros H. congruence.
    + split; [|split; [exact I3|exact I2]]. intros B. apply no_doc_mark; auto. now apply word_any.
    + intros (_ & _ & S). apply (flow_more_sign _ p x M) in S; [exact S|discriminate].
Qed.
Lemma flow_plain_main fuel pre w x M L A toks ks i s im fs adj d : d <> 0 -> plain_start w -> w <> [] -> Forall (word_char true) w -> nth 0 w 0%N <> 58%N ->
  fetch_main_loop fuel (zq (cur pre (w ++ x) M L A) toks ks i s im fs adj (N.of_nat d))
  = fetch_plain_scalar fuel (zq (cur pre (w ++ x) M L A) toks ks i s im fs adj (N.of_nat d)).
Proof.
  intros D PS NE FC N58. rewrite main_q. destruct w as [|b r]; [congruence|]. cbn [app nth] in *. cbv zeta.
  unfold plain_start in PS. cbn [nth] in PS.
  assert (H : forall y, In y [91; 123; 93; 125; 44; 42; 38; 33; 124; 62; 39; 34; 37; 64; 96]%N -> (b =? y)%N = false).
  { intros y Hy. apply N.eqb_neq. intros ->. destruct PS as [PS|[PS _]]; [apply PS|]; clear - Hy PS; cbn in *; intuition (subst; auto 20; discriminate). }
  rewrite (H 91%N), (H 123%N), (H 93%N), (H 125%N), (H 44%N), (H 42%N), (H 38%N), (H 33%N), (H 124%N), (H 62%N), (H 39%N), (H 34%N), (H 37%N), (H 64%N), (H 96%N) by (cbn [In]; tauto).
  rewrite (proj2 (N.eqb_neq b 58) N58).
  cbn [andb orb].
  destruct PS as [PS|[PS L2]].
  - rewrite (proj2 (N.eqb_neq b 45)), (proj2 (N.eqb_neq b 63)) by (intros ->; apply PS; cbn; tauto). reflexivity.
  - destruct r as [|y r]; [cbn in L2; lia|]. cbn [nth app].
    inversion_clear FC as [|? ? _ FC']. inversion_clear FC' as [|? ? Cy _]. destruct (word_char_facts true y Cy) as [Y _].
    assert (Y' : is_blank_or_break y = false) by (unfold is_blank_or_breakz, is_blank_or_break, is_blank, is_break in *; lia).
    rewrite Y, Y', !andb_false_r. cbn [negb andb orb]. replace ((N.of_nat d =? 0)%N) with false by lia.
    destruct (b =? 45)%N; [reflexivity|]. rewrite andb_false_r. reflexivity.
Qed.
Lemma plain_first p w ws : plain_start w -> flow_word w -> no_marker w -> flow_more p ws -> exists b r, w ++ more_text ws = b :: r /\ begins b /\
  forall x, ~ In (nth 0 x 0%N) [45; 46]%N -> marker_line ((w ++ more_text ws) ++ x) = false.
Proof.
  intros PS (B1 & B2 & B3 & B4) NM M. apply word_any in B2. destruct (start_begins w PS B1 B2) as (b & r & EW & B & B37).
  exists b, (r ++ more_text ws). split; [now rewrite EW|]. split; [exact B|]. intros x X. rewrite <- app_assoc.
  pose proof (no_doc_mark w (more_text ws ++ x) B2 B1 NM (flow_more_head _ _ _ M X)) as ND.
  unfold marker_line. assert (E0 : nth 0 (w ++ more_text ws ++ x) 0%N = b) by now rewrite EW.
  rewrite E0 at 1. rewrite (proj2 (N.eqb_neq b 37) B37). cbn [orb].
  destruct (_ && is_blank_or_breakz _) eqn:E; [|reflexivity]. elim ND.
  apply (indicator_mark [] (w ++ more_text ws ++ x) (Marker 0 0 0) true true). unfold next_is_document_indicator, next_is_three. rewrite !cur_peek. exact E.
Qed.
Lemma flow_plain fuel z pre w ws g after M A T k ks p s0 im fs d :
  FlowAt z pre ((w ++ more_text ws) ++ g ++ after) M A T (k :: ks) (N.of_nat p) s0 im fs d -> d <> 0 -> blocky s0 ->
  plain_start w -> flow_word w -> no_marker w -> flow_more p ws -> nth 0 w 0%N <> 58%N -> last_word w ws <> [45%N] ->
  flow_gap p g -> flow_after false after -> (N.of_nat p < m_col M)%N -> List.length pre + List.length ((w ++ more_text ws) ++ g) + 5 < fuel ->
  exists z' A', round fuel z z' /\
    FlowAt z' (pre ++ (w ++ more_text ws) ++ g) after (marker_after ((w ++ more_text ws) ++ g) M) A' (T ++ [TScalar Plain (w ++ more_value ws)])
      (kept_key A (List.length T) M k :: ks) (N.of_nat p) s0 im fs d.
Proof.
  intros H D BL PS FW NM MW N58 LW G AF C F.
  pose proof (flow_head p false g after G AF) as HD. pose proof (flow_after_begins _ _ AF) as BG.
  destruct (flow_plain_gap p g after G AF) as (fg & g2 & EG & G2 & PST & CB).
  assert (XH : ~ In (nth 0 (fold_text fg ++ g2 ++ after) 0%N) [45; 46]%N).
  { rewrite app_assoc, <- EG. intros X. revert HD. cbn [In] in *. destruct X as [<- |[<- |[]]]; intuition discriminate. }
  destruct (plain_first p w ws PS FW NM MW) as (b & r & EB & BB & ML).
  destruct (flow_of p (fold_text fg ++ g2 ++ after) XH ws w MW LW) as (PW & NLA & ND).
  assert (MLA : marker_line ((w ++ more_text ws) ++ g ++ after) = false) by (apply ML; rewrite EG, <- app_assoc; exact XH).
  assert (X : exists z', round fuel z z' /\ exists A', FlowAt z' (pre ++ (w ++ more_text ws) ++ g) after (marker_after ((w ++ more_text ws) ++ g) M) A' (T ++ [TScalar Plain (w ++ more_value ws)])
      (kept_key A (List.length T) M k :: ks) (N.of_nat p) s0 im fs d).
  2:{ destruct X as (z' & R & A' & X). exists z', A'. auto. }
  assert (EQ : (w ++ more_text ws) ++ g ++ after = b :: r ++ g ++ after) by now rewrite EB. rewrite EQ in H, MLA.
  apply (round_flow fuel z pre b (r ++ g ++ after) M A T (k :: ks) (N.of_nat p) s0 im fs d _ H D BB MLA).
  - lia.
  - exact C.
  - intros toks i s adj L ET IN IC _. rewrite <- EQ. rewrite <- app_assoc. destruct FW as (B1 & B2 & B3 & B4).
    rewrite flow_plain_main by assumption. unfold fetch_plain_scalar. unfold bind at 1. rewrite zq_save by exact D.
    unfold bind at 1. rewrite zq_lift, e_set_ska. unfold bind at 1. rewrite (zq_non_block (N.of_nat p) s0) by assumption.
    unfold bind at 1. unfold gets at 1. unfold bind at 1. unfold gets at 1.
    match goal with |- context [z_indent (zq ?a ?b ?c ?d ?e ?f ?g ?h ?j)] => change (z_indent (zq a b c d e f g h j)) with d end.
    match goal with |- context [z_flow (zq ?a ?b ?c ?d ?e ?f ?g ?h ?j)] => change (z_flow (zq a b c d e f g h j)) with j end.
    replace ((0 <? N.of_nat d)%N) with true by lia. unfold bind at 1. rewrite zq_lift.
    pose proof (plain_scanned fuel (N.of_nat p) true w ws fg (g2 ++ after) pre M L false) as X. cbv zeta in X. rewrite <- !app_assoc in X.
    rewrite EG in F. rewrite !app_length in F.
    rewrite EG, <- !app_assoc. rewrite X; clear X; auto.
    + rewrite zq_push. cbn [k_span k_type orb].
      do 2 eexists. split; [reflexivity|]. split; [now apply zq_stale|]. split; [unfold zq; cbn [z_tokens]; rewrite app_length; cbn [List.length]; lia|].
      exists (breaks fg).
      replace (pre ++ w ++ more_text ws ++ fold_text fg ++ g2) with ((pre ++ w ++ more_text ws ++ fold_text fg) ++ g2) by (rewrite <- !app_assoc; reflexivity).
      replace (marker_after (w ++ more_text ws ++ fold_text fg ++ g2) M) with (marker_after g2 (marker_after (w ++ more_text ws ++ fold_text fg) M))
        by (rewrite <- marker_after_app, <- !app_assoc; reflexivity).
      replace (List.length T) with (List.length toks) by (rewrite <- ET; symmetry; apply map_length).
      apply FlowAt_zq; [exact G2|apply map_snoc; exact ET|now left].
    + split; [exact B1|]. split; [exact B2|]. split; [exact B3|]. intros Y. congruence.
    + intros _. apply no_doc_mark; auto; [now apply word_any|]. eapply flow_more_head; eauto.
    + lia.
    + rewrite !app_length. lia.
Qed.
Lemma flow_quoted fuel z pre single w v g after M A T k ks p s0 im fs d :
  FlowAt z pre (w ++ g ++ after) M A T (k :: ks) (N.of_nat p) s0 im fs d -> d <> 0 ->
  quoted_scalar single p w v -> flow_gap p g -> flow_after true after -> (N.of_nat p < m_col M)%N -> List.length pre + List.length (w ++ g) + 3 < fuel ->
  exists z' A', round fuel z z' /\
    FlowAt z' (pre ++ w ++ g) after (marker_after (w ++ g) M) A' (T ++ [TScalar (if single then SingleQuote else DoubleQuote) v])
      (kept_key A (List.length T) M k :: ks) (N.of_nat p) s0 im fs d /\ z_adjacent z' = m_pos (marker_after (w ++ g) M).
Proof.
  intros H D Q G AF C F.
  pose proof (flow_head p true g after G AF) as HD. pose proof (flow_after_begins _ _ AF) as BG. pose proof (flow_gap_to p g after G) as GG.
  destruct (gap_split after g GG BG (flow_gap_quiet p g G)) as (r & g1 & EG & LR & G1 & NB & BZ).
  destruct (quoted_text single p w v Q) as (body & EW).
  assert (X : exists z', round fuel z z' /\ (exists A', FlowAt z' (pre ++ w ++ g) after (marker_after (w ++ g) M) A' (T ++ [TScalar (if single then SingleQuote else DoubleQuote) v])
      (kept_key A (List.length T) M k :: ks) (N.of_nat p) s0 im fs d /\ z_adjacent z' = m_pos (marker_after (w ++ g) M))).
  2:{ destruct X as (z' & R & A' & X). exists z', A'. auto. }
  set (y := (body ++ [quote_byte single]) ++ g ++ after).
  assert (EQ : w ++ g ++ after = quote_byte single :: y) by now rewrite EW. rewrite EQ in H.
  apply (round_flow fuel z pre (quote_byte single) y M A T (k :: ks) (N.of_nat p) s0 im fs d _ H D).
  - destruct single; unfold begins; cbn; lia.
  - apply marker_line_indicator_byte; destruct single; discriminate.
  - lia.
  - exact C.
  - intros toks i s adj L ET IN IC _.
    assert (MN : fetch_main_loop fuel (zq (cur pre (quote_byte single :: y) M L A) toks (k :: ks) i s im fs adj (N.of_nat d))
      = fetch_flow_scalar fuel single (zq (cur pre (quote_byte single :: y) M L A) toks (k :: ks) i s im fs adj (N.of_nat d))).
    { rewrite main_q. destruct single; reflexivity. }
    rewrite MN. clear MN. rewrite <- EQ. unfold fetch_flow_scalar. unfold bind at 1. rewrite zq_save by exact D.
    unfold bind at 1. rewrite zq_lift, e_set_ska.
    unfold bind at 1. unfold gets at 1. unfold bind at 1. unfold gets at 1.
    match goal with |- context [z_indent (zq ?a ?b ?c ?d ?e ?f ?g ?h ?j)] => change (z_indent (zq a b c d e f g h j)) with d end.
    match goal with |- context [z_flow (zq ?a ?b ?c ?d ?e ?f ?g ?h ?j)] => change (z_flow (zq a b c d e f g h j)) with j end.
    replace ((0 <? N.of_nat d)%N) with true by lia.
    assert (ES : scan_flow_scalar fuel single i true (cur pre (w ++ g ++ after) M L false)
      = (cur (pre ++ w ++ r) (g1 ++ after) (mark_add (List.length r) (marker_after w M)) false false,
         Ok (Token (Span M (mark_add (List.length r) (marker_after w M))) (TScalar (if single then SingleQuote else DoubleQuote) v)))).
    { replace (g ++ after) with (r ++ g1 ++ after) by (rewrite EG, <- app_assoc; reflexivity).
      assert (H1 : In (nth 0 (g1 ++ after) 0%N) [10; 13; 44; 93; 125; 58]%N).
      { destruct g1 as [|x g1].
        - cbn [app]. destruct AF as (bb & rr & -> & X). cbn [nth In] in *. destruct X as [X|[-> _]]; tauto.
        - inversion G1 as [|g' G' E'|bb g' G' E'|cc g' CC BB G' E']; subst.
          + cbn [app nth In] in NB. tauto.
          + rewrite <- app_assoc. destruct bb; cbn; auto.
          + cbn [app nth In] in NB. tauto. }
      apply (scans_quoted single p); auto.
      - destruct IN as [[-> ->]|(_ & -> & ->)]; lia.
      - clear - H1. revert H1. generalize (nth 0 (g1 ++ after) 0%N). intros x H1. cbn [In] in *. lia.
      - intros _ X. rewrite app_assoc, <- EG in X. rewrite X in HD. cbn [In] in HD. intuition discriminate.
      - clear - H1. revert H1. generalize (nth 0 (g1 ++ after) 0%N). intros x H1. cbn [In] in *. unfold is_breakz, is_break. intuition (subst; auto).
      - rewrite EG, !app_length in F. rewrite app_length. lia.
      - lia.
      - lia. }
    unfold bind at 1. rewrite zq_lift, ES. unfold bind at 1. unfold zskip_to_next_token.
    match goal with |- context [z_flow (zq ?a ?b ?c ?d ?e ?f ?g ?h ?j)] => change (z_flow (zq a b c d e f g h j)) with j end.
    rewrite zq_lift. rewrite (e_next_flow _ _ d after D BG g1 G1) by (rewrite EG, !app_length in F; lia).
    unfold bind at 1. unfold modify at 1. cbn [k_span k_type].
    match goal with |- context [set_adjacent ?a (zq ?c ?d ?e ?f ?g ?h ?j ?q ?t)] => change (set_adjacent a (zq c d e f g h j q t)) with (zq c d e f g h j a t) end.
    rewrite zq_push.
    do 2 eexists. split; [reflexivity|]. split; [now apply zq_stale|]. split; [unfold zq; cbn [z_tokens]; rewrite app_length; cbn [List.length]; lia|].
    assert (EM : marker_after g1 (mark_add (List.length r) (marker_after w M)) = marker_after (w ++ g) M).
    { rewrite EG, !marker_after_app, (marker_flat r) by now apply rest_no_lf. reflexivity. }
    rewrite EM. exists false. split; [|reflexivity].
    replace (pre ++ w ++ g) with (((pre ++ w ++ r) ++ g1) ++ []) by (rewrite EG, app_nil_r, <- !app_assoc; reflexivity).
    replace (List.length T) with (List.length toks) by (rewrite <- ET; symmetry; apply map_length).
    apply (FlowAt_zq ((pre ++ w ++ r) ++ g1) [] after (marker_after (w ++ g) M)); [constructor|apply map_snoc; exact ET|exact IN].
Qed.
