(** The tokens of flow collections that stand in block collections: from the block state to the block state. *)
From Verif Require Import SpecProps.
From Verif Require Import Base Tokens Scalar Chars Source Cursor Scanner ExactCursor SpecTree SpecQuoted FoldedQuotes ExactPlain EagerScan ScanSteps.
From Verif Require Import SpecBlock BlockScan SpecPlain PlainScan NodeScan DumpScan ScalarDocs PlainDocs SpecFlow SpecLayout LayoutCursor LayoutScan LayoutScalar SpecStrings StringScan FlowScan.
From Verif Require Import TreeLike FlowSteps FlowNodes.
From Coq Require Import String Lia ZifyBool ZifyNat ZifyN.
Local Open Scope m_scope.
Local Open Scope list_scope.

Lemma onecol_in i0 s0 i si : inside i0 s0 i si -> inside i0 s0 (fst (onecol i si)) (snd (onecol i si)).
Proof.
  intros IN.
  assert (OC : fst (onecol i si) = i /\ snd (onecol i si) = si \/ (s0 <> [] /\ fst (onecol i si) = (i0 + 1)%N /\ snd (onecol i si) = (i0, false) :: s0)).
  { unfold onecol. destruct IN as [[-> ->]|(NE & -> & ->)]; [|now left]. destruct s0 as [|[x [|]] s0]; cbn [fst snd]; auto.
    right. split; [discriminate|]. split; reflexivity. }
  destruct OC as [[-> ->]|(NE & -> & ->)]; [exact IN|]. right. auto.
Qed.
Lemma top_open fuel z pre is_map g rest M A T k i si p s0 :
  Before z pre (opening is_map :: g ++ rest) M A T k i si -> spare k M A -> inside (N.of_nat p) s0 i si -> (N.of_nat p < m_col M)%N ->
  flow_gap p g -> begins (nth 0 rest 0%N) -> List.length pre + List.length g + 2 < fuel ->
  exists z' toks0 k1 fs, round fuel z z' /\ rests k1 M A /\
    FlowAt z' (pre ++ opening is_map :: g) rest (marker_after (opening is_map :: g) M) true (T ++ [opened is_map])
      [skey_new (Marker 0 0 0); saved A M toks0 k1 i si] (N.of_nat p) s0 (if is_map then [] else [IPossible]) fs 1 /\ (is_map = true -> fs = true).
Proof.
  intros AT G IN C FG B F. assert (IC := inside_le _ _ _ _ _ IN C).
  destruct (round_spare fuel z pre (opening is_map) (g ++ rest) M A T k i si
    (fun z2 => exists toks0 k1 fs, rests k1 M A /\ FlowAt z2 (pre ++ opening is_map :: g) rest (marker_after (opening is_map :: g) M) true (T ++ [opened is_map])
      [skey_new (Marker 0 0 0); saved A M toks0 k1 i si] (N.of_nat p) s0 (if is_map then [] else [IPossible]) fs 1 /\ (is_map = true -> fs = true))) as (z2 & R & toks0 & k1 & fs & P).
  - exact AT.
  - destruct is_map; unfold begins; cbn [In opening]; intuition discriminate.
  - destruct is_map; reflexivity.
  - lia.
  - exact G.
  - exact IC.
  - intros toks fs adj L k0 ET _ RS.
    assert (E : fetch_main_loop fuel (zs (cur pre (opening is_map :: g ++ rest) M L A) toks k0 i si fs adj)
      = fetch_flow_collection_start fuel is_map (zs (cur pre (opening is_map :: g ++ rest) M L A) toks k0 i si fs adj)).
    { rewrite main_start. destruct is_map; reflexivity. }
    rewrite E. clear E. unfold fetch_flow_collection_start. unfold bind at 1. rewrite zs_save. unfold bind at 1. rewrite zs_onecol.
    unfold bind at 1. unfold increase_flow_level at 1.
    match goal with |- context [set_keys ?ks (zs ?a ?b ?c ?d ?e ?f ?g)] =>
      change (z_flow (set_keys ks (zs a b c d e f g))) with 0%N end.
    change ((0 =? 4294967295)%N) with false. cbv zeta iota.
    set (k1 := saved A M toks k0 i si).
    match goal with |- context [set_flow ?n ?z] => change (set_flow n z) with
      (zq (cur pre (opening is_map :: g ++ rest) M L A) toks [skey_new (Marker 0 0 0); k1] (fst (onecol i si)) (snd (onecol i si)) [] fs adj 1) end.
    unfold bind at 1. rewrite zq_lift, e_set_ska. unfold bind at 1. rewrite zq_mark. unfold bind at 1. rewrite zq_lift, e_skip_non_blank.
    unfold bind at 1. unfold modify at 1.
    match goal with |- context [if is_map then set_flow_started true ?z else ?y] =>
      replace (if is_map then set_flow_started true z else y) with
       (zq (cur (pre ++ [opening is_map]) (g ++ rest) (mark_add 1 M) false true) toks [skey_new (Marker 0 0 0); k1] (fst (onecol i si)) (snd (onecol i si)) (if is_map then [] else [IPossible]) (is_map || fs) adj 1)
      by (destruct is_map; reflexivity) end.
    destruct (e_ws_gap p g rest fuel (pre ++ [opening is_map]) (mark_add 1 M) false true FG B ltac:(lia)) as (g1 & g2 & any & has & EG & G2 & _ & WS).
    unfold bind at 1. rewrite zq_lift, WS. unfold bind at 1. rewrite zq_mark. rewrite zq_push.
    change 1%N with (N.of_nat 1).
    do 2 eexists. split; [reflexivity|]. split; [apply zq_stale; discriminate|]. split; [unfold zq; cbn [z_tokens]; rewrite app_length; cbn [List.length]; lia|].
    exists toks, k0, (is_map || fs). split; [exact RS|]. split; [|intros ->; reflexivity].
    rewrite marker_first by (destruct is_map; discriminate). rewrite EG, marker_after_app.
    replace (pre ++ opening is_map :: g1 ++ g2) with (((pre ++ [opening is_map]) ++ g1) ++ g2) by (rewrite <- !app_assoc; reflexivity).
    apply FlowAt_zq; [exact G2| |now apply onecol_in]. rewrite (map_snoc toks T) by exact ET. reflexivity.
  - exists z2, toks0, k1, fs. tauto.
Qed.
Lemma top_close fuel z pre is_map g after M A T k0 k1 p s0 im fs :
  FlowAt z pre (closing is_map :: g ++ after) M A T [k0; k1] (N.of_nat p) s0 im fs 1 -> gap_to after g -> begins (nth 0 after 0%N) -> nth 0 g 32%N <> 35%N ->
  idle k0 -> idle k1 -> (if is_map then im = [] else tl im = []) -> (N.of_nat p < m_col M)%N -> List.length pre + List.length g + 2 < fuel ->
  exists z' k' i' s', round fuel z z' /\
    Before z' (pre ++ closing is_map :: g) after (marker_after (closing is_map :: g) M) (has_lf g) (T ++ (if is_map then [] else pending im) ++ [closed is_map])
      k' i' s' /\ inside (N.of_nat p) s0 i' s' /\ (k' = k1 \/ k' = impossible k1).
Proof.
  intros H G B NC ID0 ID1 EI C F.
  destruct (round_flow fuel z pre (closing is_map) (g ++ after) M A T [k0; k1] (N.of_nat p) s0 im fs 1
    (fun z' => exists k' i' s', Before z' (pre ++ closing is_map :: g) after (marker_after (closing is_map :: g) M) (has_lf g) (T ++ (if is_map then [] else pending im) ++ [closed is_map])
      k' i' s' /\ inside (N.of_nat p) s0 i' s' /\ (k' = k1 \/ k' = impossible k1)) H) as (z2 & R & k' & i' & s' & P).
  - discriminate.
  - destruct is_map; unfold begins; cbn [In closing]; lia.
  - apply marker_line_indicator_byte; destruct is_map; discriminate.
  - lia.
  - exact C.
  - intros toks i s adj L ET IN IC _.
    assert (E0 : fetch_main_loop fuel (zq (cur pre (closing is_map :: g ++ after) M L A) toks [k0; k1] i s im fs adj (N.of_nat 1))
       = fetch_flow_collection_end fuel is_map (zq (cur pre (closing is_map :: g ++ after) M L A) toks [k0; k1] i s im fs adj (N.of_nat 1))).
    { rewrite main_q. destruct is_map; reflexivity. }
    rewrite E0. clear E0. unfold fetch_flow_collection_end.
    unfold bind at 1. rewrite zq_remove by exact ID0. unfold bind at 1. unfold decrease_flow_level.
    match goal with |- context [z_flow (zq ?a ?b ?c ?d ?e ?f ?g ?h ?j)] => change (z_flow (zq a b c d e f g h j)) with j end.
    match goal with |- context [z_keys (zq ?a ?b ?c ?d ?e ?f ?g ?h ?j)] => change (z_keys (zq a b c d e f g h j)) with c end.
    change ((0 <? N.of_nat 1)%N) with true. cbv iota. change (N.of_nat 1 - 1)%N with 0%N.
    match goal with |- context [set_keys ?n (set_flow ?v ?z)] => change (set_keys n (set_flow v z)) with
      (zq (cur pre (closing is_map :: g ++ after) M L A) toks [k1] i s im fs adj v) end.
    unfold bind at 1. rewrite zq_lift, e_set_ska. unfold bind at 1. rewrite zq_mark.
    set (fs1 := if is_map then fs else kept_started im fs).
    unfold bind at 1.
    assert (X : exists toks1, (if is_map then ret tt else end_implicit_mapping M ;;; modify (fun z => set_implicit (tl (z_implicit z)) z))
        (zq (cur pre (closing is_map :: g ++ after) M L false) toks [k1] i s im fs adj 0)
      = (zs (cur pre (closing is_map :: g ++ after) M L false) toks1 k1 i s fs1 adj, Ok tt) /\
      map k_type toks1 = T ++ (if is_map then [] else pending im) /\ List.length toks <= List.length toks1).
    { unfold fs1. destruct is_map; [subst im; exists toks; split; [reflexivity|split; [now rewrite app_nil_r|lia]]|].
      destruct (zq_end_implicit M (cur pre (closing false :: g ++ after) M L false) toks [k1] i s im fs adj 0) as (toks1 & E1 & E2 & E3).
      exists toks1. split; [|split; [now rewrite <- ET|exact E3]]. unfold bind at 1. rewrite E1. unfold modify. unfold zq at 1. cbn [z_implicit].
      destruct im as [|[|] im]; cbn [tl ended] in *; subst; reflexivity. }
    destruct X as (toks1 & X1 & X2 & X3). rewrite X1.
    unfold bind at 1. rewrite zs_lift, e_skip_non_blank.
    destruct (gap_split after g G B NC) as (r & g1 & EG & LR & G1 & NB & BZ).
    assert (FR : List.length r + 2 < fuel) by (rewrite EG, app_length in F; lia).
    destruct (e_ws_rest r fuel false (pre ++ [closing is_map]) (g1 ++ after) (mark_add 1 M) false false LR NB BZ FR) as (any & has & EW & _).
    rewrite EG, <- app_assoc. unfold bind at 1. rewrite zs_lift, EW.
    unfold bind at 1. unfold modify at 1.
    match goal with |- context [z_flow (zs ?a ?b ?c ?d ?e ?f ?g)] => change (z_flow (zs a b c d e f g)) with 0%N end.
    change ((0 <? 0)%N) with false. cbv iota. unfold bind at 1. unfold zmark. rewrite zs_lift, e_get_mark.
    match goal with |- context [push_token ?sp ?t (zs ?a ?b ?c ?d ?e ?f ?g)] =>
      change (push_token sp t (zs a b c d e f g)) with (zs a (b ++ [Token sp t]) c d e f g, @Ok unit tt);
      destruct (zs_stale_idle a (b ++ [Token sp t]) c d e f g) as (k' & E2 & K) end; [exact ID1|].
    do 2 eexists. split; [reflexivity|]. split; [exact E2|]. split; [cbn [zs z_tokens]; rewrite app_length; cbn [List.length]; lia|].
    exists k', i, s. split; [|split; [exact IN|exact K]].
    rewrite marker_first by (destruct is_map; discriminate). rewrite marker_after_app.
    rewrite <- (marker_flat r) by now apply rest_no_lf.
    replace (pre ++ closing is_map :: r ++ g1) with (((pre ++ [closing is_map]) ++ r) ++ g1) by (rewrite <- !app_assoc; reflexivity).
    rewrite has_lf_app, (no_lf_has r) by now apply rest_no_lf. apply Before_zs; [exact G1| |now apply steady_snoc; destruct is_map].
    rewrite (map_snoc toks1 _ _ _ X2), <- app_assoc. reflexivity.
  - exists z2, k', i', s'. auto.
Qed.

(** ** The whole collection *)
Lemma leaf_end fuel z pre is_map w0 g after M0 A T T1 k0 k1 p s0 im fs t' :
  FlowAt z (pre ++ w0) (closing is_map :: g ++ after) (marker_after w0 M0) A T1 [k0; k1] (N.of_nat p) s0 im fs 1 -> gap_to after g -> begins (nth 0 after 0%N) -> nth 0 g 32%N <> 35%N ->
  idle k0 -> idle k1 -> (if is_map then im = [] else tl im = []) ->
  T1 ++ (if is_map then [] else pending im) ++ [closed is_map] = T ++ tree_toks t' ->
  roomy p w0 -> (N.of_nat p < m_col M0)%N -> List.length pre + List.length w0 + List.length g + 2 < fuel ->
  exists z' k' i' s', reach fuel z z' /\
    Before z' (pre ++ (w0 ++ [closing is_map]) ++ g) after (marker_after ((w0 ++ [closing is_map]) ++ g) M0) (has_lf g) (T ++ tree_toks t') k' i' s' /\
    inside (N.of_nat p) s0 i' s' /\ (k' = k1 \/ k' = impossible k1).
Proof.
  intros AT G B NC ID0 ID1 EI ET RM C F.
  destruct (top_close fuel z (pre ++ w0) is_map g after (marker_after w0 M0) A T1 k0 k1 p s0 im fs AT G B NC ID0 ID1 EI) as (z' & k' & i' & s' & R & AT' & X).
  - now apply RM.
  - rewrite app_length. lia.
  - exists z', k', i', s'. split; [now apply reach_one|]. split; [|exact X].
    rewrite ET, <- marker_after_app, <- app_assoc in AT'.
    replace ((w0 ++ [closing is_map]) ++ g) with (w0 ++ closing is_map :: g) by (now rewrite <- app_assoc). exact AT'.
Qed.
Definition leaf (p : nat) (w : text) (t : tree) : Prop :=
  forall fuel z pre g after M A T k i si s0,
  Before z pre (w ++ g ++ after) M A T k i si -> spare k M A -> inside (N.of_nat p) s0 i si -> blocky s0 -> (N.of_nat p < m_col M)%N ->
  gap_to after g -> begins (nth 0 after 0%N) -> nth 0 g 32%N <> 35%N -> (N.of_nat (List.length w) < 4294967294)%N ->
  List.length pre + List.length (w ++ g) + 8 < fuel ->
  exists z' k' i' s' t' toks0 k0, reach fuel z z' /\
    Before z' (pre ++ w ++ g) after (marker_after (w ++ g) M) (has_lf g) (T ++ tree_toks t') k' i' s' /\
    inside (N.of_nat p) s0 i' s' /\ rests k0 M A /\ (k' = saved A M toks0 k0 i si \/ k' = impossible (saved A M toks0 k0 i si)) /\
    like t t' /\ small w (tree_toks t').
Lemma saved_calm A M toks k i si p s0 : inside (N.of_nat p) s0 i si -> (N.of_nat p < m_col M)%N -> rests k M A -> idle (saved A M toks k i si).
Proof. intros IN C RS. eapply saved_idle; eauto. apply RS. Qed.
Lemma leaf_none (is_map : bool) p g0 : flow_gap p g0 ->
  leaf p (opening is_map :: g0 ++ [closing is_map]) (if is_map then TrFlowMap no_props [] false else TrFlowSeq no_props [] false).
Proof.
  intros G0 fuel z pre g after M A T k i si s0 AT G IN BL C GG B NC DL F. lns.
  replace ((opening is_map :: g0 ++ [closing is_map]) ++ g ++ after) with (opening is_map :: g0 ++ closing is_map :: g ++ after) in AT by (cbn [app]; now rewrite <- !app_assoc).
  destruct (top_open fuel z pre is_map g0 (closing is_map :: g ++ after) M A T k i si p s0 AT G IN C G0) as (z1 & toks0 & k0 & fs & R1 & RS & AT1 & _).
  - apply closing_begins.
  - lia.
  - destruct (leaf_end fuel z1 pre is_map (opening is_map :: g0) g after M true T _ _ _ p s0 _ fs (if is_map then TrFlowMap no_props [] false else TrFlowSeq no_props [] false) AT1 GG B NC)
      as (z2 & k' & i' & s' & R2 & AT2 & IN' & K).
    + apply idle_new.
    + eapply saved_calm; eauto.
    + destruct is_map; reflexivity.
    + destruct is_map; cbn [pending app]; rewrite <- app_assoc; reflexivity.
    + now apply roomy_start.
    + exact C.
    + cbn [List.length]. lia.
    + exists z2, k', i', s', (if is_map then TrFlowMap no_props [] false else TrFlowSeq no_props [] false), toks0, k0.
      split; [eapply reach_trans; [apply reach_one; exact R1|exact R2]|]. split; [exact AT2|]. split; [exact IN'|]. split; [exact RS|]. split; [exact K|]. split; [apply like_refl|].
      split; [destruct is_map; repeat constructor|]. destruct is_map; cbn; lia.
Qed.
Lemma leaf_items p g0 w l b : flow_gap p g0 -> fitems p w l b -> leaf p (91%N :: g0 ++ w ++ [93%N]) (TrFlowSeq no_props l b).
Proof.
  intros G0 (OP & FI & NE & RM & H) fuel z pre g after M A T k i si s0 AT G IN BL C GG B NC DL F. lns.
  replace ((91%N :: g0 ++ w ++ [93%N]) ++ g ++ after) with (91%N :: g0 ++ w ++ 93%N :: g ++ after) in AT by (cbn [app]; now rewrite <- !app_assoc).
  destruct (top_open fuel z pre false g0 (w ++ 93%N :: g ++ after) M A T k i si p s0 AT G IN C G0) as (z1 & toks0 & k0 & fs & R1 & RS & AT1 & _).
  - now apply opens_begins.
  - lia.
  - destruct (H fuel z1 _ (g ++ after) _ _ _ _ s0 [] fs 0 AT1 (idle_new _) BL) as (z2 & A2 & fs2 & pd & T2 & l' & k2 & R2 & AT2 & ET & ID2 & FS & LK & SM).
    + now apply (roomy_start p false).
    + lia.
    + rewrite app_length. cbn [List.length opening]. lia.
    + rewrite <- marker_after_app in AT2. rewrite <- app_assoc in AT2.
      destruct (leaf_end fuel z2 pre false ((91%N :: g0) ++ w) g after M A2 T T2 k2 _ p s0 _ fs2 (TrFlowSeq no_props l' b) AT2 GG B NC)
        as (z3 & k' & i' & s' & R3 & AT3 & IN' & K).
      * exact ID2.
      * eapply saved_calm; eauto.
      * reflexivity.
      * replace (pending [if pd then IInside else IPossible]) with (if pd then [TFlowMappingEnd] else []) by (now destruct pd).
        rewrite app_assoc, ET. cbn [tree_toks closed opened props_toks pr_anchor pr_tag pr_tag_first no_props opt_list app]. repeat (rewrite <- ?app_assoc; cbn [app]). reflexivity.
      * apply roomy_app; [now apply (roomy_start p false)|exact RM].
      * exact C.
      * rewrite app_length. cbn [List.length]. lia.
      * exists z3, k', i', s', (TrFlowSeq no_props l' b), toks0, k0.
        split; [eapply reach_trans; [apply reach_one; exact R1|eapply reach_trans; [exact R2|exact R3]]|].
        replace (91%N :: g0 ++ w ++ [93%N]) with (((91%N :: g0) ++ w) ++ [closing false]) by (cbn [app closing]; now rewrite <- app_assoc).
        split; [exact AT3|]. split; [exact IN'|]. split; [exact RS|]. split; [exact K|]. split; [now apply like_flow_seq|].
        destruct SM as [S1 S2]. cbn [tree_toks props_toks pr_anchor pr_tag pr_tag_first no_props opt_list app]. rewrite app_assoc.
        split; [constructor; [exact I|]; apply Forall_app; split; [exact S1|repeat constructor]|].
        cbn [List.length]. rewrite (app_length _ [TFlowSequenceEnd]). rewrite !(app_length _ [closing false]), (app_length g0 w). cbn [List.length]. lia.
Qed.
Lemma leaf_entries p g0 w l b : flow_gap p g0 -> fentries p true w l b -> leaf p (123%N :: g0 ++ w ++ [125%N]) (TrFlowMap no_props l b).
Proof.
  intros G0 (OP & FI & NE & RM & H) fuel z pre g after M A T k i si s0 AT G IN BL C GG B NC DL F. lns.
  replace ((123%N :: g0 ++ w ++ [125%N]) ++ g ++ after) with (123%N :: g0 ++ w ++ 125%N :: g ++ after) in AT by (cbn [app]; now rewrite <- !app_assoc).
  destruct (top_open fuel z pre true g0 (w ++ 125%N :: g ++ after) M A T k i si p s0 AT G IN C G0) as (z1 & toks0 & k0 & fs & R1 & RS & AT1 & FS).
  - now apply opens_begins.
  - lia.
  - rewrite (FS eq_refl) in AT1.
    destruct (H fuel z1 _ (g ++ after) _ _ _ _ s0 [] 0 AT1 (idle_new _) eq_refl (fun _ => eq_refl) BL) as (z2 & A2 & l' & k2 & R2 & AT2 & ID2 & LK & SM).
    + now apply (roomy_start p true).
    + lia.
    + rewrite app_length. cbn [List.length opening]. lia.
    + rewrite <- marker_after_app in AT2. rewrite <- app_assoc in AT2.
      destruct (leaf_end fuel z2 pre true ((123%N :: g0) ++ w) g after M A2 T _ k2 _ p s0 _ true (TrFlowMap no_props l' b) AT2 GG B NC)
        as (z3 & k' & i' & s' & R3 & AT3 & IN' & K).
      * exact ID2.
      * eapply saved_calm; eauto.
      * reflexivity.
      * cbn [tree_toks closed opened props_toks pr_anchor pr_tag pr_tag_first no_props opt_list app]. repeat (rewrite <- ?app_assoc; cbn [app]). reflexivity.
      * apply roomy_app; [now apply (roomy_start p true)|exact RM].
      * exact C.
      * rewrite app_length. cbn [List.length]. lia.
      * exists z3, k', i', s', (TrFlowMap no_props l' b), toks0, k0.
        split; [eapply reach_trans; [apply reach_one; exact R1|eapply reach_trans; [exact R2|exact R3]]|].
        replace (123%N :: g0 ++ w ++ [125%N]) with (((123%N :: g0) ++ w) ++ [closing true]) by (cbn [app closing]; now rewrite <- app_assoc).
        split; [exact AT3|]. split; [exact IN'|]. split; [exact RS|]. split; [exact K|]. split; [now apply like_flow_map|].
        destruct SM as [S1 S2]. cbn [tree_toks props_toks pr_anchor pr_tag pr_tag_first no_props opt_list app]. rewrite app_assoc.
        split; [constructor; [exact I|]; apply Forall_app; split; [exact S1|repeat constructor]|].
        cbn [List.length]. rewrite (app_length _ [TFlowMappingEnd]). rewrite !(app_length _ [closing true]), (app_length g0 w). cbn [List.length]. lia.
Qed.
Lemma props_not_bare f w pr t : props_text f w pr -> bare t -> ~ bare (with_props pr t).
Proof. intros P B X. now apply (props_text_some f w pr P), (bare_with pr t). Qed.
Theorem flow_leaf p w t : flow_node false p true w t -> collection t = true -> bare t -> leaf p w t.
Proof.
  intros H X BT. inversion H as [c st w' v H1|c g H1|c g w' l b H1 H2|c g H1|c g w' l b H1 H2|c n H1|c w1 pr g w' t' H1 H2 H3 H4 H5|c w' pr H1]; subst.
  - discriminate X.
  - now apply (leaf_none false).
  - apply leaf_items; [exact H1|]. now apply flow_scans.
  - now apply (leaf_none true).
  - apply leaf_entries; [exact H1|]. now apply flow_scans.
  - discriminate X.
  - exfalso. eapply props_not_bare; eauto.
  - discriminate X.
Qed.
