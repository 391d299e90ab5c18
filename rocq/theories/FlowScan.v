(** The tokens the scanner finds in flow collections, one round at a time. *)
From Verif Require Import Base Tokens Scalar Chars Source Cursor Scanner ExactCursor SpecQuoted FoldedQuotes ExactPlain EagerScan ScanSteps.
From Verif Require Import SpecScalar SpecJson NodeScan DumpScan JsonCursor.
From Coq Require Import String Lia ZifyBool ZifyNat ZifyN.
Local Open Scope m_scope.
Local Open Scope list_scope.

(** A state outside block collections, after the start of the stream, nothing popped. *)
Definition zg (c : cursor) (toks : list token) (ks : list skey) (im : list implicit_state) (fs : bool) (adj fl : N) : scanner :=
  Scanner c toks None ks [] im false false true false fs adj 0 fl 0.
Lemma zg_lift {A} (f : CM A) c toks ks im fs adj fl :
  lift f (zg c toks ks im fs adj fl) = let (c', o) := f c in (zg c' toks ks im fs adj fl, o).
Proof. reflexivity. Qed.
Lemma zg_peek n pre rest m l a toks ks im fs adj fl :
  zpeek n (zg (cur pre rest m l a) toks ks im fs adj fl) = (zg (cur pre rest m l a) toks ks im fs adj fl, Ok (nth n rest 0%N)).
Proof. unfold zpeek. now rewrite zg_lift, e_peek. Qed.
Lemma zg_mark pre rest m l a toks ks im fs adj fl :
  zmark (zg (cur pre rest m l a) toks ks im fs adj fl) = (zg (cur pre rest m l a) toks ks im fs adj fl, Ok m).
Proof. reflexivity. Qed.
Lemma zg_push sp t c toks ks im fs adj fl :
  push_token sp t (zg c toks ks im fs adj fl) = (zg c (toks ++ [Token sp t]) ks im fs adj fl, Ok tt).
Proof. reflexivity. Qed.
Lemma zg_onecol c toks ks im fs adj fl : roll_one_col_indent (zg c toks ks im fs adj fl) = (zg c toks ks im fs adj fl, Ok tt).
Proof. reflexivity. Qed.
Lemma zg_non_block c toks ks im fs adj fl : unroll_non_block_indents (zg c toks ks im fs adj fl) = (zg c toks ks im fs adj fl, Ok tt).
Proof. reflexivity. Qed.
Lemma zg_unroll col c toks ks im fs adj fl : unroll_indent col (zg c toks ks im fs adj fl) = (zg c toks ks im fs adj fl, Ok tt).
Proof.
  unfold unroll_indent. change (z_flow (zg c toks ks im fs adj fl)) with fl. destruct (0 <? fl)%N; [reflexivity|].
  change (z_indents (zg c toks ks im fs adj fl)) with (@nil (N * bool)). cbn [unroll_loop]. unfold zg at 1. cbn [z_indent].
  replace ((col <? 0)%N) with false by lia. reflexivity.
Qed.
(** ** Simple keys *)
Definition kept_key (a : bool) (n : nat) (m : marker) (k : skey) : skey := if a then SKey true false n m else k.
Lemma zg_save pre rest m l a toks k ks im fs adj fl :
  save_simple_key (zg (cur pre rest m l a) toks (k :: ks) im fs adj fl)
  = (zg (cur pre rest m l a) toks (kept_key a (List.length toks) m k :: ks) im fs adj fl, Ok tt).
Proof.
  unfold save_simple_key, modify. change (c_ska (z_cur (zg (cur pre rest m l a) toks (k :: ks) im fs adj fl))) with a.
  destruct a; [|reflexivity]. unfold zg at 1 2 3 4. cbn [z_flow z_indent z_indents z_cur z_parsed z_tokens z_keys Nat.add].
  rewrite andb_false_r. reflexivity.
Qed.
Lemma idle_kept a n m k : idle k -> idle (kept_key a n m k).
Proof. intros I. destruct a; [|exact I]. intros _. reflexivity. Qed.
Lemma zg_remove c toks k ks im fs adj fl : idle k ->
  remove_simple_key (zg c toks (k :: ks) im fs adj fl) = (zg c toks (impossible k :: ks) im fs adj fl, Ok tt).
Proof.
  intros I. unfold remove_simple_key, zg. cbn [z_keys]. destruct (sk_possible k) eqn:P; cbn [andb]; [rewrite (I P)|]; reflexivity.
Qed.
Lemma stale_idle fl m keys : Forall idle keys -> exists keys', stale_loop fl m keys = (keys', false) /\
  List.length keys' = List.length keys /\ Forall idle keys' /\ (fl <> 0%N -> keys' = keys).
Proof.
  induction 1 as [|k r I F (r' & E & L & F' & Q)]; [exists []; repeat split; auto|].
  cbn [stale_loop]. rewrite E. destruct (sk_possible k && (fl =? 0)%N && _) eqn:C.
  - rewrite (I ltac:(destruct (sk_possible k); [reflexivity|discriminate])). exists (impossible k :: r'). cbn [List.length].
    repeat split; [now rewrite L|constructor; [apply idle_impossible|exact F']|]. intros N.
    apply andb_prop in C. destruct C as [C _]. apply andb_prop in C. destruct C as [_ C]. lia.
  - exists (k :: r'). cbn [List.length]. repeat split; [now rewrite L|now constructor|]. intros N. now rewrite (Q N).
Qed.
Lemma zg_stale c toks keys im fs adj fl : Forall idle keys -> exists keys',
  stale_simple_keys (zg c toks keys im fs adj fl) = (zg c toks keys' im fs adj fl, Ok tt) /\
  List.length keys' = List.length keys /\ Forall idle keys' /\ (fl <> 0%N -> keys' = keys).
Proof.
  intros F. destruct (stale_idle fl (c_mark c) (rev keys) ltac:(now apply Forall_rev)) as (ks' & E & L & F' & Q).
  exists (rev ks'). unfold stale_simple_keys. unfold zg at 1 2 3. cbn [z_flow z_cur z_keys]. rewrite E.
  split; [reflexivity|]. split; [now rewrite rev_length, L, rev_length|]. split; [now apply Forall_rev|].
  intros N. rewrite (Q N). apply rev_involutive.
Qed.

(** ** States up to white space *)
(** After white space the state [z] is before [rest], inside [d] flow collections; [T] are the tokens
    found; [ob] says that an object was begun, [want] that a key may stand here. *)
Definition spot (fuel : nat) (rest : text) (T : list token_type) (d : nat) (ob want : bool) (z : scanner) : Prop :=
  exists pre g m l a toks keys im fs adj,
    z = zg (cur pre (g ++ rest) m l a) toks keys im fs adj (N.of_nat d) /\
    List.length keys = S d /\ Forall idle keys /\ Forall (eq IPossible) im /\ json_white false g /\ (1 <= m_col m)%N /\
    map k_type toks = T /\ (ob = true -> fs = true) /\ (want = true -> d <> 0 /\ a = true) /\
    List.length g + List.length rest + 5 < fuel.
Lemma spot_gap fuel g rest T d ob want z : json_white false g -> spot fuel (g ++ rest) T d ob want z -> spot fuel rest T d ob want z.
Proof.
  intros W (pre & g0 & m & l & a & toks & keys & im & fs & adj & -> & A1 & A2 & A3 & A4 & A5 & A6 & A7 & A8 & A9).
  exists pre, (g0 ++ g), m, l, a, toks, keys, im, fs, adj. rewrite app_length in *. rewrite <- app_assoc. repeat split; auto.
  - now apply jw_app.
  - now apply A8.
  - now apply A8.
  - lia.
Qed.
Lemma spot_weaken fuel rest T d ob ob' want want' z : spot fuel rest T d ob want z -> (ob' = true -> ob = true) -> (want' = true -> want = true) ->
  spot fuel rest T d ob' want' z.
Proof.
  intros (pre & g0 & m & l & a & toks & keys & im & fs & adj & -> & A1 & A2 & A3 & A4 & A5 & A6 & A7 & A8 & A9) O W.
  exists pre, g0, m, l, a, toks, keys, im, fs, adj. repeat split; auto; now apply A8, W.
Qed.
Lemma spot_stale fuel rest T d ob want z : spot fuel rest T d ob want z ->
  exists z', stale_simple_keys z = (z', Ok tt) /\ spot fuel rest T d ob want z'.
Proof.
  intros (pre & g0 & m & l & a & toks & keys & im & fs & adj & -> & A1 & A2 & A3 & A4 & A5 & A6 & A7 & A8 & A9).
  destruct (zg_stale (cur pre (g0 ++ rest) m l a) toks keys im fs adj (N.of_nat d) A2) as (keys' & E & L & F & _).
  eexists. split; [exact E|]. exists pre, g0, m, l, a, toks, keys', im, fs, adj. rewrite L. repeat split; auto; now apply A8.
Qed.
(** Fetching the token that begins with a known byte. *)
Lemma zg_content fuel pre b r m l a toks ks im fs adj fl : marker_line (b :: r) = false ->
  fetch_next_content fuel (zg (cur pre (b :: r) m l a) toks ks im fs adj fl)
  = fetch_main_loop fuel (zg (cur pre (b :: r) m l a) toks ks im fs adj fl).
Proof.
  intros ML. unfold fetch_next_content. cbv zeta. unfold zg at 1 2 3. cbn [z_cur]. rewrite cur_empty.
  change (z_indent (zg (cur pre (b :: r) m l a) toks ks im fs adj fl)) with 0%N.
  change (c_mark (z_cur (zg (cur pre (b :: r) m l a) toks ks im fs adj fl))) with m.
  change (c_mark (cur pre (b :: r) m l a)) with m.
  replace ((m_col m <? 0)%N) with false by lia.
  destruct (m_col m =? 1)%N; [|reflexivity].
  assert (PS : process_start fuel (zg (cur pre (b :: r) m l a) toks ks im fs adj fl) = None).
  { unfold process_start. change (z_cur (zg (cur pre (b :: r) m l a) toks ks im fs adj fl)) with (cur pre (b :: r) m l a).
    cbv zeta. unfold marker_line in ML. apply orb_false_elim in ML. destruct ML as [M1 M2].
    unfold next_is_three. rewrite !cur_peek, M1.
    destruct (nth 0 (b :: r) 0 =? 45)%N, (nth 1 (b :: r) 0 =? 45)%N, (nth 2 (b :: r) 0 =? 45)%N,
      (nth 0 (b :: r) 0 =? 46)%N, (nth 1 (b :: r) 0 =? 46)%N, (nth 2 (b :: r) 0 =? 46)%N;
      cbn [andb orb] in *; rewrite ?M2; try reflexivity. }
  now rewrite PS.
Qed.
Lemma step fuel z b r T d ob want (P : scanner -> Prop) :
  spot fuel (b :: r) T d ob want z -> begins b -> marker_line (b :: r) = false ->
  (forall pre m l a toks k keys im fs adj, List.length keys = d -> Forall idle (k :: keys) -> Forall (eq IPossible) im ->
     (1 <= m_col m)%N -> map k_type toks = T -> (ob = true -> fs = true) -> (want = true -> d <> 0 /\ a = true) ->
     List.length r + 6 < fuel ->
     exists z1, fetch_main_loop fuel (zg (cur pre (b :: r) m l a) toks (k :: keys) im fs adj (N.of_nat d)) = (z1, Ok tt) /\
       List.length toks < List.length (z_tokens z1) /\ P z1) ->
  exists z1, fetch_next_token fuel z = (z1, Ok tt) /\ List.length (z_tokens z) < List.length (z_tokens z1) /\ P z1.
Proof.
  intros (pre & g0 & m & l & a & toks & keys & im & fs & adj & -> & A1 & A2 & A3 & A4 & A5 & A6 & A7 & A8 & A9) B ML H.
  cbn [List.length] in A9.
  assert (BB : begins (nth 0 (b :: r) 0%N)) by exact B.
  destruct (j_next 0 (N.of_nat d) g0 A4 fuel pre (b :: r) m l a BB ltac:(lia) A5) as (m' & l' & a' & EN & M' & FA).
  destruct (zg_stale (cur (pre ++ g0) (b :: r) m' l' a') toks keys im fs adj (N.of_nat d) A2) as (keys' & ES & LK & FK & _).
  destruct keys' as [|k keys']; [rewrite A1 in LK; discriminate|].
  assert (LK' : List.length keys' = d) by (cbn [List.length] in LK; lia).
  destruct (H (pre ++ g0) m' l' a' toks k keys' im fs adj LK' FK A3 M' A6 A7) as (z1 & E1 & L1 & P1).
  - intros W. destruct (A8 W) as [D ->]. split; [exact D|]. apply FA. lia.
  - lia.
  - exists z1. split; [|split; [exact L1|exact P1]].
    unfold fetch_next_token. unfold bind at 1. unfold gets.
    change (z_started (zg (cur pre (g0 ++ b :: r) m l a) toks keys im fs adj (N.of_nat d))) with true. cbn [negb].
    unfold bind at 1. unfold zskip_to_next_token.
    change (z_flow (zg (cur pre (g0 ++ b :: r) m l a) toks keys im fs adj (N.of_nat d))) with (N.of_nat d).
    change (z_indent (zg (cur pre (g0 ++ b :: r) m l a) toks keys im fs adj (N.of_nat d))) with 0%N.
    change (z_indents (zg (cur pre (g0 ++ b :: r) m l a) toks keys im fs adj (N.of_nat d))) with (@nil (N * bool)). cbv iota.
    rewrite zg_lift, EN. unfold bind at 1. rewrite ES. unfold bind at 1. rewrite zg_mark. unfold bind at 1. rewrite zg_unroll.
    rewrite zg_content by exact ML. exact E1.
Qed.
(** A round between such states. *)
Lemma spot_round fuel z z1 rest T d ob want : fetch_next_token fuel z = (z1, Ok tt) -> List.length (z_tokens z) < List.length (z_tokens z1) ->
  spot fuel rest T d ob want z1 -> exists z2, round fuel z z2 /\ spot fuel rest T d ob want z2.
Proof.
  intros E L S1. destruct (spot_stale _ _ _ _ _ _ _ S1) as (z2 & E2 & S2). exists z2. split; [|exact S2]. now exists z1.
Qed.

Lemma main_flow fuel pre rest m l a toks ks im fs adj fl :
  fetch_main_loop fuel (zg (cur pre rest m l a) toks ks im fs adj fl)
  = (let c := nth 0 rest 0 in let x := nth 1 rest 0 in
     (if c =? 91 then fetch_flow_collection_start fuel false
   else if c =? 123 then fetch_flow_collection_start fuel true
   else if c =? 93 then fetch_flow_collection_end fuel false
   else if c =? 125 then fetch_flow_collection_end fuel true
   else if c =? 44 then fetch_flow_entry fuel
   else if (c =? 45) && is_blank_or_breakz x then fetch_block_entry fuel
   else if (c =? 63) && is_blank_or_breakz x then fetch_key fuel
   else if (c =? 58) && is_blank_or_breakz x then fetch_value fuel
   else if (c =? 58) && ((0 <? fl) && (is_flow x || (m_pos m =? adj))) then fetch_flow_value fuel
   else if c =? 42 then fetch_anchor fuel true
   else if c =? 38 then fetch_anchor fuel false
   else if c =? 33 then fetch_tag fuel
   else if (c =? 124) && (fl =? 0) then fetch_block_scalar fuel true
   else if (c =? 62) && (fl =? 0) then fetch_block_scalar fuel false
   else if c =? 39 then fetch_flow_scalar fuel true
   else if c =? 34 then fetch_flow_scalar fuel false
   else if (c =? 45) && negb (is_blank_or_break x) then fetch_plain_scalar fuel
   else if ((c =? 58) || (c =? 63)) && (negb (is_blank_or_break x) && (fl =? 0)) then
     fetch_plain_scalar fuel
   else if (c =? 37) || (c =? 64) || (c =? 96) then unexpected_character
   else fetch_plain_scalar fuel) (zg (cur pre rest m l a) toks ks im fs adj fl))%N.
Proof.
  unfold fetch_main_loop. unfold bind at 1. rewrite zg_peek. unfold bind at 1. rewrite zg_peek.
  unfold bind at 1. unfold gets at 1. unfold bind at 1. rewrite zg_mark. unfold bind at 1. unfold gets at 1. reflexivity.
Qed.

(** ** Brackets *)
Definition opening (is_map : bool) : N := if is_map then 123%N else 91%N.
Definition closing (is_map : bool) : N := if is_map then 125%N else 93%N.
Definition opened (is_map : bool) : token_type := if is_map then TFlowMappingStart else TFlowSequenceStart.
Definition closed (is_map : bool) : token_type := if is_map then TFlowMappingEnd else TFlowSequenceEnd.
Lemma marker_line_indicator_byte b r : (b <> 37 -> b <> 45 -> b <> 46 -> marker_line (b :: r) = false)%N.
Proof. unfold marker_line. cbn [nth]. intros. replace ((b =? 37)%N) with false by lia. replace ((b =? 45)%N) with false by lia. replace ((b =? 46)%N) with false by lia. reflexivity. Qed.
Lemma map_snoc (toks : list token) T sp t : map k_type toks = T -> map k_type (toks ++ [Token sp t]) = T ++ [t].
Proof. intros <-. rewrite map_app. reflexivity. Qed.
Lemma open_step fuel is_map g rest T d ob want z :
  spot fuel (opening is_map :: g ++ rest) T d ob want z -> json_white false g -> begins (nth 0 rest 0%N) -> (N.of_nat d < 4294967295)%N ->
  exists z', round fuel z z' /\ spot fuel rest (T ++ [opened is_map]) (S d) (is_map || ob) true z'.
Proof.
  intros H W B D.
  destruct (step fuel z (opening is_map) (g ++ rest) T d ob want (spot fuel rest (T ++ [opened is_map]) (S d) (is_map || ob) true) H) as (z1 & E1 & L1 & P1).
  { destruct is_map; unfold begins; cbn [In opening]; lia. }
  { apply marker_line_indicator_byte; destruct is_map; discriminate. }
  { intros pre m l a toks k keys im fs adj LK FK FI M MT OB WA F. rewrite app_length in F.
    assert (E0 : fetch_main_loop fuel (zg (cur pre (opening is_map :: g ++ rest) m l a) toks (k :: keys) im fs adj (N.of_nat d))
       = fetch_flow_collection_start fuel is_map (zg (cur pre (opening is_map :: g ++ rest) m l a) toks (k :: keys) im fs adj (N.of_nat d))).
    { rewrite main_flow. destruct is_map; reflexivity. }
    rewrite E0. clear E0. unfold fetch_flow_collection_start. unfold bind at 1. rewrite zg_save. unfold bind at 1. rewrite zg_onecol.
    unfold bind at 1. unfold increase_flow_level. cbv zeta.
    match goal with |- context [z_flow (set_keys ?x ?y)] => change (z_flow (set_keys x y)) with (N.of_nat d) end.
    replace ((N.of_nat d =? 4294967295)%N) with false by lia. cbv iota.
    set (k1 := kept_key a (List.length toks) m k).
    match goal with |- context [set_flow ?n ?z] => change (set_flow n z) with
      (zg (cur pre (opening is_map :: g ++ rest) m l a) toks (skey_new (Marker 0 0 0) :: k1 :: keys) im fs adj (N.of_nat d + 1)) end.
    unfold bind at 1. rewrite zg_lift, e_set_ska. unfold bind at 1. rewrite zg_mark. unfold bind at 1. rewrite zg_lift, e_skip_non_blank.
    set (im1 := if is_map then im else IPossible :: im). set (fs1 := if is_map then true else fs).
    unfold bind at 1. unfold modify at 1.
    match goal with |- context [if is_map then set_flow_started true ?z else ?y] =>
      replace (if is_map then set_flow_started true z else y) with
       (zg (cur (pre ++ [opening is_map]) (g ++ rest) (mark_add 1 m) false true) toks (skey_new (Marker 0 0 0) :: k1 :: keys) im1 fs1 adj (N.of_nat d + 1))
      by (unfold im1, fs1; destruct is_map; reflexivity) end.
    destruct (j_ws g W fuel (pre ++ [opening is_map]) rest (mark_add 1 m) false true B ltac:(lia)) as (g1 & g2 & any & EG & G1 & G2 & _ & _ & WS).
    unfold bind at 1. rewrite zg_lift, WS. unfold bind at 1. rewrite zg_mark. rewrite zg_push.
    eexists. split; [reflexivity|]. split; [cbn [zg z_tokens]; rewrite app_length; cbn [List.length]; lia|].
    subst g. rewrite app_length in F.
    exists ((pre ++ [opening is_map]) ++ g1), g2. do 8 eexists. split; [f_equal; lia|]. repeat split.
    - cbn [List.length]. lia.
    - inversion_clear FK as [|? ? I1 I2]. constructor; [intros X; discriminate|]. constructor; [now apply idle_kept|exact I2].
    - unfold im1. destruct is_map; [exact FI|]. constructor; [reflexivity|exact FI].
    - exact G2.
    - unfold mark_add. cbn [Base.m_col]. lia.
    - rewrite (map_snoc toks T) by exact MT. unfold opened. reflexivity.
    - unfold fs1. destruct is_map; auto.
    - lia.
    - lia. }
  exact (spot_round _ _ _ _ _ _ _ _ E1 L1 P1).
Qed.
Lemma zg_end_implicit m c toks ks im fs adj fl : Forall (eq IPossible) im ->
  end_implicit_mapping m (zg c toks ks im fs adj fl) = (zg c toks ks im fs adj fl, Ok tt).
Proof. intros F. unfold end_implicit_mapping. unfold zg at 1. cbn [z_implicit]. destruct F as [|? ? <- F]; reflexivity. Qed.
Lemma close_step fuel is_map g rest T d ob want z :
  spot fuel (closing is_map :: g ++ rest) T (S d) ob want z -> json_white false g -> begins (nth 0 rest 0%N) ->
  exists z', round fuel z z' /\ spot fuel rest (T ++ [closed is_map]) d ob false z'.
Proof.
  intros H W B.
  destruct (step fuel z (closing is_map) (g ++ rest) T (S d) ob want (spot fuel rest (T ++ [closed is_map]) d ob false) H) as (z1 & E1 & L1 & P1).
  { destruct is_map; unfold begins; cbn [In closing]; lia. }
  { apply marker_line_indicator_byte; destruct is_map; discriminate. }
  { intros pre m l a toks k keys im fs adj LK FK FI M MT OB WA F. rewrite app_length in F.
    assert (E0 : fetch_main_loop fuel (zg (cur pre (closing is_map :: g ++ rest) m l a) toks (k :: keys) im fs adj (N.of_nat (S d)))
       = fetch_flow_collection_end fuel is_map (zg (cur pre (closing is_map :: g ++ rest) m l a) toks (k :: keys) im fs adj (N.of_nat (S d)))).
    { rewrite main_flow. destruct is_map; reflexivity. }
    rewrite E0. clear E0. unfold fetch_flow_collection_end. inversion_clear FK as [|? ? I1 I2].
    unfold bind at 1. rewrite zg_remove by exact I1. unfold bind at 1. unfold decrease_flow_level.
    match goal with |- context [z_flow (zg ?a ?b ?c ?d ?e ?f ?g)] => change (z_flow (zg a b c d e f g)) with g end.
    match goal with |- context [z_keys (zg ?a ?b ?c ?d ?e ?f ?g)] => change (z_keys (zg a b c d e f g)) with c end.
    replace ((0 <? N.of_nat (S d))%N) with true by lia. cbv iota.
    match goal with |- context [set_keys ?n (set_flow ?v ?z)] => change (set_keys n (set_flow v z)) with
      (zg (cur pre (closing is_map :: g ++ rest) m l a) toks keys im fs adj v) end.
    replace (N.of_nat (S d) - 1)%N with (N.of_nat d) by lia.
    unfold bind at 1. rewrite zg_lift, e_set_ska. unfold bind at 1. rewrite zg_mark.
    set (im1 := if is_map then im else tl im).
    unfold bind at 1.
    match goal with |- context [(if is_map then ret tt else ?x) ?z] =>
      replace ((if is_map then ret tt else x) z) with
       (zg (cur pre (closing is_map :: g ++ rest) m l false) toks keys im1 fs adj (N.of_nat d), Ok tt)
      by (unfold im1; destruct is_map; [reflexivity|unfold bind; rewrite zg_end_implicit by exact FI; reflexivity]) end.
    unfold bind at 1. rewrite zg_lift, e_skip_non_blank.
    destruct (j_ws g W fuel (pre ++ [closing is_map]) rest (mark_add 1 m) false false B ltac:(lia)) as (g1 & g2 & any & EG & G1 & G2 & _ & _ & WS).
    unfold bind at 1. rewrite zg_lift, WS.
    set (m1 := mark_add (List.length g1) (mark_add 1 m)).
    unfold bind at 1. unfold modify at 1.
    match goal with |- context [if (0 <? ?n)%N then set_adjacent ?v ?z else ?y] =>
      replace (if (0 <? n)%N then set_adjacent v z else y) with
       (zg (cur ((pre ++ [closing is_map]) ++ g1) (g2 ++ rest) m1 false false) toks keys im1 fs (if (0 <? N.of_nat d)%N then m_pos m1 else adj) (N.of_nat d))
      by (change (z_flow z) with (N.of_nat d); destruct (0 <? N.of_nat d)%N; reflexivity) end.
    unfold bind at 1. rewrite zg_mark. rewrite zg_push.
    eexists. split; [reflexivity|]. split; [cbn [zg z_tokens]; rewrite app_length; cbn [List.length]; lia|].
    subst g. rewrite app_length in F.
    exists ((pre ++ [closing is_map]) ++ g1), g2. do 8 eexists. split; [reflexivity|]. repeat split.
    - exact LK.
    - exact I2.
    - unfold im1. destruct is_map; [exact FI|]. destruct FI; [constructor|assumption].
    - exact G2.
    - unfold m1, mark_add. cbn [Base.m_col]. lia.
    - rewrite (map_snoc toks T) by exact MT. unfold closed. reflexivity.
    - exact OB.
    - discriminate.
    - discriminate.
    - lia. }
  exact (spot_round _ _ _ _ _ _ _ _ E1 L1 P1).
Qed.
Lemma comma_step fuel g rest T d ob want z :
  spot fuel (44%N :: g ++ rest) T (S d) ob want z -> json_white false g -> begins (nth 0 rest 0%N) ->
  exists z', round fuel z z' /\ spot fuel rest (T ++ [TFlowEntry]) (S d) ob true z'.
Proof.
  intros H W B.
  destruct (step fuel z 44%N (g ++ rest) T (S d) ob want (spot fuel rest (T ++ [TFlowEntry]) (S d) ob true) H) as (z1 & E1 & L1 & P1).
  { unfold begins; cbn [In]; lia. }
  { apply marker_line_indicator_byte; discriminate. }
  { intros pre m l a toks k keys im fs adj LK FK FI M MT OB WA F. rewrite app_length in F.
    rewrite main_flow. cbn [nth]. cbv zeta.
    change ((44 =? 91)%N) with false. change ((44 =? 123)%N) with false. change ((44 =? 93)%N) with false.
    change ((44 =? 125)%N) with false. change ((44 =? 44)%N) with true. cbv iota.
    unfold fetch_flow_entry. inversion_clear FK as [|? ? I1 I2].
    unfold bind at 1. rewrite zg_remove by exact I1. unfold bind at 1. rewrite zg_lift, e_set_ska. unfold bind at 1. rewrite zg_mark.
    unfold bind at 1. rewrite zg_end_implicit by exact FI. unfold bind at 1. rewrite zg_lift, e_skip_non_blank.
    destruct (j_ws g W fuel (pre ++ [44%N]) rest (mark_add 1 m) false true B ltac:(lia)) as (g1 & g2 & any & EG & G1 & G2 & _ & _ & WS).
    unfold bind at 1. rewrite zg_lift, WS. unfold bind at 1. rewrite zg_mark. rewrite zg_push.
    eexists. split; [reflexivity|]. split; [cbn [zg z_tokens]; rewrite app_length; cbn [List.length]; lia|].
    subst g. rewrite app_length in F.
    exists ((pre ++ [44%N]) ++ g1), g2. do 8 eexists. split; [reflexivity|]. repeat split.
    - cbn [List.length]. now rewrite LK.
    - constructor; [apply idle_impossible|exact I2].
    - exact FI.
    - exact G2.
    - unfold mark_add. cbn [Base.m_col]. lia.
    - rewrite (map_snoc toks T) by exact MT. reflexivity.
    - exact OB.
    - lia.
    - lia. }
  exact (spot_round _ _ _ _ _ _ _ _ E1 L1 P1).
Qed.

(** ** Scalars *)
Lemma bare_begins w rest : bare w -> exists b r, w ++ rest = b :: r /\ begins b /\ marker_line (b :: r) = false /\
  (dec_digit b \/ (97 <= b <= 122)%N \/ b = 45%N /\ dec_digit (nth 0 r 0%N)).
Proof.
  intros (FW & FB). destruct w as [|b w]; [exfalso; unfold dec_digit in FB; cbn [nth] in FB; lia|].
  exists b, (w ++ rest). split; [reflexivity|].
  assert (FB' : dec_digit b \/ (97 <= b <= 122)%N \/ b = 45%N /\ dec_digit (nth 0 (w ++ rest) 0%N)).
  { cbn [nth] in FB. destruct FB as [FB|[FB|[FB FC]]]; auto. right. right. split; [exact FB|].
    destruct w as [|c w]; [unfold dec_digit in FC; cbn in FC; lia|exact FC]. }
  split; [unfold begins; cbn [In]; unfold dec_digit in FB'; lia|]. split; [|exact FB'].
  unfold marker_line. cbn [nth]. unfold dec_digit in FB'.
  replace ((b =? 37)%N) with false by lia. replace ((b =? 46)%N) with false by lia. cbn [andb orb].
  replace ((b =? 45)%N && (nth 0 (w ++ rest) 0 =? 45)%N) with false by lia. reflexivity.
Qed.
Lemma plain_step fuel w g rest T d ob want z :
  spot fuel (w ++ g ++ rest) T d ob want z -> bare w -> json_white false g -> value_ends (0 <? N.of_nat d)%N rest ->
  exists z', round fuel z z' /\ spot fuel rest (T ++ [TScalar Plain w]) d ob false z'.
Proof.
  intros H BW W E. destruct (bare_begins w (g ++ rest) BW) as (b & r & EB & BB & ML & FB).
  assert (LB : List.length w + List.length g + List.length rest = S (List.length r)).
  { apply (f_equal (@List.length N)) in EB. rewrite !app_length in EB. cbn [List.length] in EB. lia. }
  rewrite EB in H.
  destruct (step fuel z b r T d ob want (spot fuel rest (T ++ [TScalar Plain w]) d ob false) H BB ML) as (z1 & E1 & L1 & P1).
  { intros pre m l a toks k keys im fs adj LK FK FI M MT OB WA F.
    assert (E0 : fetch_main_loop fuel (zg (cur pre (b :: r) m l a) toks (k :: keys) im fs adj (N.of_nat d))
       = fetch_plain_scalar fuel (zg (cur pre (b :: r) m l a) toks (k :: keys) im fs adj (N.of_nat d))).
    { rewrite main_flow. cbn [nth]. cbv zeta. unfold dec_digit in FB.
      assert (X : ((b =? 91) = false /\ (b =? 123) = false /\ (b =? 93) = false /\ (b =? 125) = false /\ (b =? 44) = false /\ (b =? 63) = false /\
         (b =? 58) = false /\ (b =? 42) = false /\ (b =? 38) = false /\ (b =? 33) = false /\ (b =? 124) = false /\ (b =? 62) = false /\ (b =? 39) = false /\
         (b =? 34) = false /\ (b =? 37) = false /\ (b =? 64) = false /\ (b =? 96) = false)%N) by (clear - FB; lia).
      destruct X as (-> & -> & -> & -> & -> & -> & -> & -> & -> & -> & -> & -> & -> & -> & -> & -> & ->).
      replace ((b =? 45)%N && is_blank_or_breakz (nth 0 r 0%N)) with false by (unfold is_blank_or_breakz, is_blank, is_break; clear - FB; lia).
      cbn [andb orb]. destruct ((b =? 45)%N && negb (is_blank_or_break (nth 0 r 0%N))); reflexivity. }
    rewrite E0. clear E0. unfold fetch_plain_scalar. unfold bind at 1. rewrite zg_save. unfold bind at 1. rewrite zg_lift, e_set_ska.
    unfold bind at 1. rewrite zg_non_block. unfold bind at 1. unfold gets at 1. unfold bind at 1. unfold gets at 1.
    match goal with |- context [z_flow (zg ?a ?b ?c ?d ?e ?f ?g)] => change (z_flow (zg a b c d e f g)) with g end.
    match goal with |- context [z_indent (zg ?a ?b ?c ?d ?e ?f ?g)] => change (z_indent (zg a b c d e f g)) with 0%N end.
    destruct (j_plain (0 <? N.of_nat d)%N g rest w fuel pre m l false BW W E ltac:(lia) M) as (sp & m' & l' & s' & EP & M').
    unfold bind at 1. rewrite zg_lift, <- EB, EP. cbn [k_span k_type]. rewrite zg_push.
    eexists. split; [reflexivity|]. split; [cbn [zg z_tokens]; rewrite app_length; cbn [List.length]; lia|].
    exists (pre ++ w ++ g), []. do 8 eexists. split; [reflexivity|]. repeat split.
    - cbn [List.length]. now rewrite LK.
    - inversion_clear FK as [|? ? I1 I2]. constructor; [now apply idle_kept|exact I2].
    - exact FI.
    - constructor.
    - exact M'.
    - rewrite (map_snoc toks T) by exact MT. reflexivity.
    - exact OB.
    - discriminate.
    - discriminate.
    - cbn [List.length]. lia. }
  exact (spot_round _ _ _ _ _ _ _ _ E1 L1 P1).
Qed.
Definition in_json_quotes (src : text) : text := 34%N :: src ++ [34%N].
Lemma quoted_main fuel src out pre g rest m l a toks k keys im fs adj fl : json_chars false src out -> json_white false g -> begins (nth 0 rest 0%N) ->
  value_ends (0 <? fl)%N rest \/ ((0 <? fl)%N = true /\ nth 0 rest 0%N = 58%N) ->
  List.length src + List.length g + 2 < fuel -> (1 <= m_col m)%N ->
  exists sp m' l' a',
  fetch_main_loop fuel (zg (cur pre (in_json_quotes src ++ g ++ rest) m l a) toks (k :: keys) im fs adj fl)
  = (zg (cur (pre ++ in_json_quotes src ++ g) rest m' l' a') (toks ++ [Token sp (TScalar DoubleQuote out)])
        (kept_key a (List.length toks) m k :: keys) im fs (m_pos m') fl, Ok tt) /\ (1 <= m_col m')%N.
Proof.
  intros J W B E F M.
  assert (E0 : fetch_main_loop fuel (zg (cur pre (in_json_quotes src ++ g ++ rest) m l a) toks (k :: keys) im fs adj fl)
       = fetch_flow_scalar fuel false (zg (cur pre (in_json_quotes src ++ g ++ rest) m l a) toks (k :: keys) im fs adj fl)).
  { rewrite main_flow. unfold in_json_quotes. cbn [app nth]. reflexivity. }
  rewrite E0. clear E0. unfold fetch_flow_scalar. unfold bind at 1. rewrite zg_save. unfold bind at 1. rewrite zg_lift, e_set_ska.
  unfold bind at 1. unfold gets at 1. unfold bind at 1. unfold gets at 1.
  match goal with |- context [z_flow (zg ?a ?b ?c ?d ?e ?f ?g)] => change (z_flow (zg a b c d e f g)) with g end.
  match goal with |- context [z_indent (zg ?a ?b ?c ?d ?e ?f ?g)] => change (z_indent (zg a b c d e f g)) with 0%N end.
  destruct (j_quoted (0 <? fl)%N src out fuel pre g rest m l false J W B E F M) as (sp & g1 & g2 & m' & -> & G2 & EQ & M').
  unfold bind at 1. rewrite zg_lift. unfold in_json_quotes. rewrite EQ.
  rewrite app_length in F.
  destruct (j_next 0 fl g2 G2 fuel (pre ++ (34%N :: src ++ [34%N]) ++ g1) rest m' false false B ltac:(lia) M') as (m2 & l2 & a2 & EN & M2 & _).
  unfold bind at 1. unfold zskip_to_next_token.
  match goal with |- context [z_flow (zg ?a ?b ?c ?d ?e ?f ?g)] => change (z_flow (zg a b c d e f g)) with g end.
  match goal with |- context [z_indent (zg ?a ?b ?c ?d ?e ?f ?g)] => change (z_indent (zg a b c d e f g)) with 0%N end.
  match goal with |- context [z_indents (zg ?a ?b ?c ?d ?e ?f ?g)] => change (z_indents (zg a b c d e f g)) with (@nil (N * bool)) end. cbv iota.
  rewrite zg_lift, EN. unfold bind at 1. unfold modify at 1.
  match goal with |- context [set_adjacent ?v (zg ?a ?b ?c ?d ?e ?f ?g)] => change (set_adjacent v (zg a b c d e f g)) with (zg a b c d e v g) end.
  rewrite zg_push. exists sp, m2, l2, a2. split; [|exact M2]. cbn [k_type k_span]. rewrite <- !app_assoc. reflexivity.
Qed.
Lemma quoted_step fuel src out g rest T d ob want z :
  spot fuel (in_json_quotes src ++ g ++ rest) T d ob want z -> json_chars false src out -> json_white false g -> value_ends (0 <? N.of_nat d)%N rest ->
  exists z', round fuel z z' /\ spot fuel rest (T ++ [TScalar DoubleQuote out]) d ob false z'.
Proof.
  intros H J W E. destruct (value_ends_facts _ _ E) as (B & _).
  destruct (step fuel z 34%N ((src ++ [34%N]) ++ g ++ rest) T d ob want (spot fuel rest (T ++ [TScalar DoubleQuote out]) d ob false) H) as (z1 & E1 & L1 & P1).
  { unfold begins; cbn [In]; lia. }
  { apply marker_line_indicator_byte; discriminate. }
  { intros pre m l a toks k keys im fs adj LK FK FI M MT OB WA F. rewrite !app_length in F. cbn [List.length] in F.
    destruct (quoted_main fuel src out pre g rest m l a toks k keys im fs adj (N.of_nat d) J W B ltac:(now left) ltac:(lia) M) as (sp & m' & l' & a' & EM & M').
    eexists. split; [exact EM|]. split; [cbn [zg z_tokens]; rewrite app_length; cbn [List.length]; lia|].
    exists (pre ++ in_json_quotes src ++ g), []. do 8 eexists. split; [reflexivity|]. repeat split.
    - cbn [List.length]. now rewrite LK.
    - inversion_clear FK as [|? ? I1 I2]. constructor; [now apply idle_kept|exact I2].
    - exact FI.
    - constructor.
    - exact M'.
    - rewrite (map_snoc toks T) by exact MT. reflexivity.
    - exact OB.
    - discriminate.
    - discriminate.
    - cbn [List.length]. lia. }
  exact (spot_round _ _ _ _ _ _ _ _ E1 L1 P1).
Qed.

(** ** Members *)
Lemma zg_insert a b sp t c ks im fs adj fl n : n = List.length a ->
  insert_token n sp t (zg c (a ++ b) ks im fs adj fl) = (zg c (a ++ Token sp t :: b) ks im fs adj fl, Ok tt).
Proof.
  intros E. unfold insert_token. change (z_parsed (zg c (a ++ b) ks im fs adj fl)) with 0.
  change (z_tokens (zg c (a ++ b) ks im fs adj fl)) with (a ++ b).
  rewrite Nat.sub_0_r. change (Nat.ltb n 0) with false. cbv iota zeta.
  rewrite (proj2 (Nat.leb_le n (List.length (a ++ b)))) by (rewrite app_length; lia).
  now rewrite firstn_exact, skipn_exact.
Qed.
Lemma zg_tab_check fuel g v pre m l a toks ks im fs adj fl : json_white false g -> begins (nth 0 v 0%N) -> after_colon false g v ->
  List.length g < fuel -> (1 <= m_col m)%N ->
  exists pre' g' m', value_tab_check fuel (zg (cur pre (g ++ v) m l a) toks ks im fs adj fl)
    = (zg (cur pre' (g' ++ v) m' l a) toks ks im fs adj fl, Ok tt) /\ json_white false g' /\ (1 <= m_col m')%N /\ List.length g' <= List.length g.
Proof.
  intros W B AC F M. unfold value_tab_check. unfold bind at 1. rewrite zg_peek.
  destruct (N.eqb_spec (nth 0 (g ++ v) 0%N) 9) as [E9|E9].
  - destruct (j_ws g W fuel pre v m l a B F) as (g1 & g2 & any & EG & G1 & G2 & Y1 & Y2 & WS).
    unfold bind at 1. rewrite zg_lift, WS. unfold bind at 1. rewrite zg_peek. unfold bind at 1. rewrite zg_mark.
    assert (OK : negb (existsb (N.eqb 32) g1) && ((nth 0 (g2 ++ v) 0 =? 45)%N || is_alpha (nth 0 (g2 ++ v) 0%N)) = false).
    { destruct (existsb (N.eqb 32) g1) eqn:HS; [reflexivity|]. cbn [negb andb].
      destruct (jw_first g2 v G2) as [X|X].
      - assert (G2E : g2 = [] \/ g2 <> []) by (destruct g2; [now left|right; discriminate]).
        destruct G2E as [-> | NE].
        + cbn [app] in *. rewrite app_nil_r in EG. subst g1.
          assert (T9 : Forall (fun b => b = 9%N) g).
          { clear - G1 HS. induction G1 as [|b g [-> | ->] G IH]; try discriminate HS; constructor; auto; now apply IH; cbn [existsb] in HS. }
          destruct AC as [D|[-> | [N|I]]]; [discriminate| |contradiction|].
          * exfalso. cbn [app] in E9. apply B. rewrite E9. cbn. auto.
          * change (str """[{") with [34; 91; 123]%N in I. cbn [In] in I. unfold is_alpha, is_ascii_alphanumeric, is_ascii_digit. clear - I. lia.
        + destruct G2 as [|b g2 HB _|g2 _|g2 D _]; [congruence| | |discriminate]; cbn [app nth] in *.
          * cbn [In] in HB. unfold is_alpha, is_ascii_alphanumeric, is_ascii_digit. clear - HB Y1 Y2. lia.
          * reflexivity.
      - cbn [In] in X. unfold is_alpha, is_ascii_alphanumeric, is_ascii_digit. clear - X. lia. }
    rewrite OK. do 3 eexists. split; [reflexivity|]. split; [exact G2|]. split; [unfold mark_add; cbn [Base.m_col]; lia|].
    subst g. rewrite app_length. lia.
  - exists pre, g, m. auto.
Qed.
Lemma value_main fuel g v pre m l a toks n mk t keys im adj d : json_white false g -> begins (nth 0 v 0%N) -> after_colon false g v ->
  List.length g < fuel -> (1 <= m_col m)%N -> n = List.length toks ->
  exists pre' g' m' sp1 sp2, 
    fetch_value fuel (zg (cur pre (58%N :: g ++ v) m l a) (toks ++ [t]) (SKey true false n mk :: keys) im true adj (N.of_nat (S d)))
    = (zg (cur pre' (g' ++ v) m' false false) ((toks ++ Token sp1 TKey :: [t]) ++ [Token sp2 TValue])
          (SKey false false n mk :: keys) im true adj (N.of_nat (S d)), Ok tt) /\
    json_white false g' /\ (1 <= m_col m')%N /\ List.length g' <= List.length g.
Proof.
  intros W B AC F M EN. unfold fetch_value. unfold bind at 1. unfold gets at 1.
  match goal with |- context [z_keys (zg ?a ?b ?c ?d ?e ?f ?g)] => change (z_keys (zg a b c d e f g)) with c end. cbv iota.
  unfold bind at 1. rewrite zg_mark. unfold bind at 1. unfold gets at 1.
  match goal with |- context [z_flow_started (zg ?a ?b ?c ?d ?e ?f ?g)] => change (z_flow_started (zg a b c d e f g)) with true end.
  cbn [negb]. rewrite andb_false_r. unfold bind at 1. unfold modify at 1.
  unfold bind at 1. rewrite zg_lift, e_skip_non_blank.
  destruct (zg_tab_check fuel g v (pre ++ [58%N]) (mark_add 1 m) false a (toks ++ [t]) (SKey true false n mk :: keys) im true adj (N.of_nat (S d)) W B AC F) as (pre' & g' & m' & ET & G' & M' & L').
  { unfold mark_add. cbn [Base.m_col]. lia. }
  unfold bind at 1. rewrite ET. unfold bind at 1. cbn [sk_possible sk_number sk_mark].
  unfold bind at 1. rewrite (zg_insert toks [t]) by exact EN. unfold bind at 1. unfold ret at 1.
  unfold bind at 1. unfold roll_indent.
  match goal with |- context [z_flow (zg ?a ?b ?c ?d ?e ?f ?g)] => change (z_flow (zg a b c d e f g)) with g end.
  replace ((0 <? N.of_nat (S d))%N) with true by lia. cbv iota.
  unfold bind at 1. rewrite zg_onecol. unfold bind at 1. unfold modify at 1.
  match goal with |- context [set_keys ?v (zg ?a ?b ?c ?d ?e ?f ?g)] => change (set_keys v (zg a b c d e f g)) with (zg a b (SKey false false n mk :: keys) d e f g) end.
  rewrite zg_lift, e_set_ska. rewrite zg_push.
  do 5 eexists. split; [reflexivity|]. auto.
Qed.
Lemma member_step fuel src out g1 g2 v T d z :
  spot fuel (in_json_quotes src ++ g1 ++ 58%N :: g2 ++ v) T (S d) true true z -> json_chars false src out -> json_white false g1 ->
  json_white false g2 -> after_colon false g2 v -> begins (nth 0 v 0%N) ->
  exists z', rounds fuel 2 z z' /\ spot fuel v (T ++ [TKey; TScalar DoubleQuote out; TValue]) (S d) true false z'.
Proof.
  intros H J W1 W2 AC B.
  set (mid := fun z1 => exists pre m l a toks t n mk keys im, z1 = zg (cur pre (58%N :: g2 ++ v) m l a) (toks ++ [t]) (SKey true false n mk :: keys) im true (m_pos m) (N.of_nat (S d)) /\
     n = List.length toks /\ List.length keys = S d /\ Forall idle keys /\ Forall (eq IPossible) im /\ (1 <= m_col m)%N /\
     map k_type toks = T /\ k_type t = TScalar DoubleQuote out /\ List.length g2 + List.length v + 6 < fuel).
  assert (B58 : begins 58%N) by (unfold begins; cbn [In]; lia).
  destruct (step fuel z 34%N ((src ++ [34%N]) ++ g1 ++ 58%N :: g2 ++ v) T (S d) true true mid H) as (z1 & E1 & L1 & P1).
  { unfold begins; cbn [In]; lia. }
  { apply marker_line_indicator_byte; discriminate. }
  { intros pre m l a toks k keys im fs adj LK FK FI M MT OB WA F. rewrite !app_length in F. cbn [List.length] in F. rewrite app_length in F.
    destruct (WA eq_refl) as [_ ->]. rewrite (OB eq_refl).
    destruct (quoted_main fuel src out pre g1 (58%N :: g2 ++ v) m l true toks k keys im true adj (N.of_nat (S d)) J W1 B58) as (sp & m' & l' & a' & EM & M').
    { right. split; [lia|reflexivity]. }
    { lia. }
    { exact M. }
    eexists. split; [exact EM|]. split; [cbn [zg z_tokens]; rewrite app_length; cbn [List.length]; lia|].
    do 10 eexists. split; [reflexivity|]. inversion_clear FK. repeat split; auto. lia. }
  destruct P1 as (pre & m & l & a & toks & t & n & mk & keys & im & EZ & EN & LK & FK & FI & M & MT & KT & F).
  assert (FA : Forall idle (SKey true false n mk :: keys)) by (constructor; [intros _; reflexivity|exact FK]).
  destruct (zg_stale (cur pre (58%N :: g2 ++ v) m l a) (toks ++ [t]) (SKey true false n mk :: keys) im true (m_pos m) (N.of_nat (S d)) FA) as (k' & ES & _ & _ & KE).
  rewrite (KE ltac:(lia)) in ES. clear KE k'. rewrite <- EZ in ES.
  destruct (value_main fuel g2 v pre m l a toks n mk t keys im (m_pos m) d W2 B AC ltac:(lia) M EN) as (pre' & g' & m' & sp1 & sp2 & EV & G' & M' & L').
  rewrite <- EZ in EV. 
  assert (EF : fetch_next_token fuel z1 = fetch_value fuel z1).
  { rewrite EZ in ES |- *. clear EV EZ mid.
    unfold fetch_next_token. unfold bind at 1. unfold gets.
    match goal with |- context [z_started (zg ?a ?b ?c ?d ?e ?f ?g)] => change (z_started (zg a b c d e f g)) with true end. cbn [negb].
    unfold bind at 1. unfold zskip_to_next_token.
    match goal with |- context [z_flow (zg ?a ?b ?c ?d ?e ?f ?g)] => change (z_flow (zg a b c d e f g)) with g end.
    match goal with |- context [z_indent (zg ?a ?b ?c ?d ?e ?f ?g)] => change (z_indent (zg a b c d e f g)) with 0%N end.
    destruct fuel as [|fuel']; [lia|]. rewrite zg_lift, e_next_none by exact B58.
    unfold bind at 1. rewrite ES. unfold bind at 1. rewrite zg_mark. unfold bind at 1. rewrite zg_unroll.
    rewrite zg_content by (apply marker_line_indicator_byte; discriminate).
    rewrite main_flow. cbn [nth]. cbv zeta.
    change ((58 =? 91)%N) with false. change ((58 =? 123)%N) with false. change ((58 =? 93)%N) with false.
    change ((58 =? 125)%N) with false. change ((58 =? 44)%N) with false. change ((58 =? 45)%N) with false. change ((58 =? 63)%N) with false.
    change ((58 =? 58)%N) with true. cbn [andb].
    destruct (is_blank_or_breakz (nth 0 (g2 ++ v) 0%N)); [reflexivity|].
    replace ((0 <? N.of_nat (S d))%N) with true by lia. rewrite N.eqb_refl, orb_true_r. cbn [andb].
    unfold fetch_flow_value. unfold bind at 1. rewrite zg_peek. unfold bind at 1. rewrite zg_mark. unfold bind at 1. unfold gets at 1.
    match goal with |- context [z_adjacent (zg ?a ?b ?c ?d ?e ?f ?g)] => change (z_adjacent (zg a b c d e f g)) with f end.
    rewrite N.eqb_refl. cbn [negb andb]. reflexivity. }
  assert (SP : spot fuel v (T ++ [TKey; TScalar DoubleQuote out; TValue]) (S d) true false
     (zg (cur pre' (g' ++ v) m' false false) ((toks ++ Token sp1 TKey :: [t]) ++ [Token sp2 TValue]) (SKey false false n mk :: keys) im true (m_pos m) (N.of_nat (S d)))).
  { do 10 eexists. split; [reflexivity|]. repeat split; auto; try discriminate.
    - cbn [List.length]. now rewrite LK.
    - constructor; [intros X; discriminate|exact FK].
    - rewrite !map_app, MT. cbn [map k_type]. rewrite KT, <- app_assoc. reflexivity.
    - lia. }
  rewrite EV in EF.
  destruct (spot_round _ _ _ _ _ _ _ _ EF ltac:(rewrite EZ; cbn [zg z_tokens]; rewrite !app_length; cbn [List.length]; lia) SP) as (z2 & R2 & S2).
  exists z2. split; [|exact S2]. eapply rounds_more; [|apply rounds_one; exact R2].
  exists z1. auto.
Qed.

(** ** The end *)
Lemma only_end (l : list token) : forall T, map k_type l = T ++ [TStreamEnd] -> clean T ->
  exists T0 e, l = T0 ++ [e] /\ is_stream_end e = true /\ Forall (fun t => is_stream_end t = false) T0.
Proof.
  induction l as [|t l IH]; intros T E C; [destruct T; discriminate|]. destruct T as [|x T].
  - cbn [map app] in E. injection E as E1 E2. destruct l; [|discriminate]. exists [], t. split; [reflexivity|]. split; [|constructor].
    unfold is_stream_end. now rewrite E1.
  - cbn [map app] in E. injection E as E1 E2. inversion_clear C as [|? ? C1 C2]. destruct (IH T E2 C2) as (T0 & e & -> & X1 & X2).
    exists (t :: T0), e. split; [reflexivity|]. split; [exact X1|]. constructor; [|exact X2]. unfold is_stream_end. rewrite E1. now destruct x.
Qed.
Lemma end_main pre m l a toks k im fs adj : idle k -> exists c' sp,
  fetch_stream_end (zg (cur pre [] m l a) toks [k] im fs adj 0) = (zg c' (toks ++ [Token sp TStreamEnd]) [impossible k] im fs adj 0, Ok tt).
Proof.
  intros I. unfold fetch_stream_end.
  set (m1 := if negb (m_col m =? 0)%N then Marker (m_pos m) 1 (m_line m + 1) else m).
  assert (E1 : modify (fun z : scanner =>
    let c := z_cur z in
    let m := c_mark c in
    if negb (m_col m =? 0)%N then
      set_cur (Cur (c_src c) (Marker (m_pos m) 1 (m_line m + 1)) (c_lead c) (c_ska c)) z
    else z) (zg (cur pre [] m l a) toks [k] im fs adj 0) = (zg (cur pre [] m1 l a) toks [k] im fs adj 0, Ok tt)).
  { unfold modify. cbv zeta. change (c_mark (z_cur (zg (cur pre [] m l a) toks [k] im fs adj 0))) with m. unfold m1. destruct (negb (m_col m =? 0)%N); reflexivity. }
  cbv zeta in E1. unfold bind at 1. rewrite E1. clear E1.
  unfold bind at 1.
  change (z_keys (zg (cur pre [] m1 l a) toks [k] im fs adj 0)) with [k]. cbn [rev app end_keys_loop].
  replace (sk_required k && sk_possible k) with false by (destruct (sk_possible k) eqn:P; [now rewrite (I P)|now rewrite andb_false_r]).
  cbn [orb rev app].
  change (set_keys [impossible k] (zg (cur pre [] m1 l a) toks [k] im fs adj 0)) with (zg (cur pre [] m1 l a) toks [impossible k] im fs adj 0).
  unfold bind at 1. rewrite zg_unroll. unfold bind at 1. rewrite zg_remove by apply idle_impossible.
  unfold bind at 1. rewrite zg_lift, e_set_ska. unfold bind at 1. rewrite zg_mark. rewrite zg_push. rewrite impossible_twice.
  do 2 eexists. reflexivity.
Qed.
Lemma end_step fuel T ob want z : spot fuel [] T 0 ob want z -> clean T ->
  exists z', round fuel z z' /\ map k_type (z_tokens z') = T ++ [TStreamEnd] /\ finished z'.
Proof.
  intros (pre & g & m & l & a & toks & keys & im & fs & adj & -> & A1 & A2 & A3 & A4 & A5 & A6 & A7 & A8 & A9) CL.
  change (N.of_nat 0) with 0%N.
  destruct (j_next 0 0 g A4 fuel pre [] m l a begins_zero ltac:(lia) A5) as (m' & l' & a' & EN & M' & _).
  destruct (zg_stale (cur (pre ++ g) [] m' l' a') toks keys im fs adj 0 A2) as (keys' & ES & LK & FK & _).
  rewrite A1 in LK. destruct keys' as [|k [|]]; try discriminate LK. inversion_clear FK as [|? ? IK _].
  destruct (end_main (pre ++ g) m' l' a' toks k im fs adj IK) as (c' & sp & EE).
  set (zz := zg c' (toks ++ [Token sp TStreamEnd]) [impossible k] im fs adj 0) in *.
  assert (TK : map k_type (z_tokens zz) = T ++ [TStreamEnd]) by (apply map_snoc; exact A6).
  assert (ST : stale_simple_keys zz = (zz, Ok tt)) by reflexivity.
  exists zz. split; [|split; [exact TK|]].
  - exists zz. split; [|split; [exact ST|]].
    + unfold fetch_next_token. unfold bind at 1. unfold gets.
      change (z_started (zg (cur pre (g ++ []) m l a) toks keys im fs adj 0)) with true. cbn [negb].
      unfold bind at 1. unfold zskip_to_next_token.
      change (z_flow (zg (cur pre (g ++ []) m l a) toks keys im fs adj 0)) with 0%N.
      change (z_indent (zg (cur pre (g ++ []) m l a) toks keys im fs adj 0)) with 0%N.
      change (z_indents (zg (cur pre (g ++ []) m l a) toks keys im fs adj 0)) with (@nil (N * bool)). cbv iota.
      rewrite zg_lift, EN.
      unfold bind at 1. rewrite ES. unfold bind at 1. rewrite zg_mark.
      unfold bind at 1. rewrite zg_unroll.
      unfold fetch_next_content. cbv zeta.
      match goal with |- context [z_cur (zg ?a ?b ?c ?d ?e ?f ?g)] => change (z_cur (zg a b c d e f g)) with a end.
      rewrite cur_empty. exact EE.
    + cbn [zg z_tokens zz]. rewrite app_length. cbn [List.length]. lia.
  - split; [repeat split|]. split; [exact ST|]. split; [repeat constructor|]. apply (only_end _ T TK CL).
Qed.
