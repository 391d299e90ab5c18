(** Documents that are one scalar. *)
From Verif Require Import Base Tokens Scalar Chars Source Cursor Scanner Yaml Emitter ExactCursor EmitterText EmitterProofs.
From Verif Require Import SpecTree SpecStream SpecEmit SpecQuoted FoldedQuotes ExactPlain EagerScan ScanSteps NodeScan DumpScan.
From Coq Require Import String Lia ZifyBool ZifyNat ZifyN.
Local Open Scope list_scope.

Lemma main_single fuel pre x M L A toks k i s fs adj :
  fetch_main_loop fuel (zs (cur pre (39%N :: x) M L A) toks k i s fs adj)
  = fetch_flow_scalar fuel true (zs (cur pre (39%N :: x) M L A) toks k i s fs adj).
Proof. rewrite main_start. reflexivity. Qed.
(** From the state after the scalar to the end. *)
Lemma end_of_scalar fuel w m' l' a' toks k' fs adj st v n :
  map k_type toks = [TStreamStart; TScalar st v] -> idle k' -> List.length w + 3 < fuel ->
  rounds fuel n (scanner_new w) (zs (cur w [] m' l' a') toks k' 0 [] fs adj) ->
  exists toks z, scan fuel w = (toks, (z, Ok tt)) /\
    map k_type toks = stream_toks 0 [Doc [] false (Some (TrScalar no_props st v)) 0].
Proof.
  intros ET I F R.
  destruct (round_end fuel (zs (cur w [] m' l' a') toks k' 0 [] fs adj) w m' l' a' [TStreamStart; TScalar st v] k' 0 [] 0) as (z3 & R3 & TK3 & FIN).
  - now apply At_here.
  - exact I.
  - constructor.
  - lia.
  - repeat constructor.
  - assert (RR : exists n, rounds fuel n (scanner_new w) z3).
    { eexists. eapply rounds_trans; [exact R|]. apply rounds_one. exact R3. }
    destruct RR as (n' & RR). pose proof (rounds_tokens _ _ _ _ RR) as NT. cbn [repeat app] in TK3.
    assert (LT : List.length (z_tokens z3) = 3) by (rewrite <- (map_length k_type), TK3; reflexivity).
    destruct (scan_all fuel n' _ z3 RR FIN) as (z' & E); [lia|lia|]. exists (z_tokens z3), z'. split; [exact E|exact TK3].
Qed.
(** A document in quotes: if the scalar is scanned to the end of the text, that is all of it. *)
Lemma quoted_doc fuel (single : bool) w m' l' sp st v :
  nth 0 w 0%N = (if single then 39%N else 34%N) ->
  scan_flow_scalar fuel single 0 false (cur [] w (Marker 0 1 1) true false) = (cur w [] m' l' false, Ok (Token sp (TScalar st v))) ->
  List.length w + 3 < fuel ->
  exists toks z, scan fuel w = (toks, (z, Ok tt)) /\
    map k_type toks = stream_toks 0 [Doc [] false (Some (TrScalar no_props st v)) 0].
Proof.
  intros Q E F. destruct w as [|b r]; [destruct single; discriminate|]. cbn [nth] in Q.
  set (z0 := zs (cur [] (b :: r) (Marker 0 1 1) true true) [Token (Span (Marker 0 1 1) (Marker 0 1 1)) TStreamStart] (skey_new (Marker 0 0 0)) 0 [] false 0).
  destruct (round_at fuel z0 [] b r (Marker 0 1 1) true true [TStreamStart] (skey_new (Marker 0 0 0)) 0 [] 0 [] 0
    (fun z2 => exists toks k' fs adj, z2 = zs (cur (b :: r) [] m' l' false) toks k' 0 [] fs adj /\
       map k_type toks = [TStreamStart; TScalar st v] /\ idle k')) as (z2 & R & P).
  - now apply At_here.
  - destruct single; subst b; intros H; cbn in H; intuition discriminate.
  - destruct single; subst b; reflexivity.
  - cbn. lia.
  - intros H. discriminate.
  - apply unrolls_none. cbn. lia.
  - intros toks fs adj ET _. cbn [repeat] in ET. rewrite app_nil_r in ET.
    assert (X : fetch_main_loop fuel (zs (cur [] (b :: r) (Marker 0 1 1) true true) toks (impossible (skey_new (Marker 0 0 0))) 0 [] fs adj)
      = fetch_flow_scalar fuel single (zs (cur [] (b :: r) (Marker 0 1 1) true true) toks (impossible (skey_new (Marker 0 0 0))) 0 [] fs adj)).
    { destruct single; subst b; [apply main_single|apply main_double]. }
    rewrite X. clear X. unfold fetch_flow_scalar. unfold bind at 1. rewrite zs_save.
    unfold bind at 1. rewrite zs_lift, e_set_ska.
    unfold bind at 1. unfold gets at 1. unfold bind at 1. unfold gets at 1.
    match goal with |- context [z_indent (zs ?a ?b ?c ?d ?e ?f ?g)] => change (z_indent (zs a b c d e f g)) with 0%N end.
    match goal with |- context [z_flow (zs ?a ?b ?c ?d ?e ?f ?g)] => change (z_flow (zs a b c d e f g)) with 0%N end.
    change ((0 <? 0)%N) with false. unfold bind at 1. rewrite zs_lift, E.
    unfold bind at 1. unfold zskip_to_next_token.
    match goal with |- context [z_flow (zs ?a ?b ?c ?d ?e ?f ?g)] => change (z_flow (zs a b c d e f g)) with 0%N end.
    rewrite zs_lift. change (cur (b :: r) [] m' l' false) with (cur (b :: r) ([] ++ []) m' l' false).
    rewrite e_next_white; [|constructor|exact begins_zero|cbn; lia]. rewrite app_nil_r.
    unfold bind at 1. unfold modify at 1. cbn [k_span k_type marker_after has_lf existsb]. rewrite !orb_false_r.
    cbn [app].
    match goal with |- context [set_adjacent ?a (zs ?c ?d ?e ?f ?g ?h ?j)] => change (set_adjacent a (zs c d e f g h j)) with (zs c d e f g h a) end.
    rewrite zs_push.
    match goal with |- context [zs ?c ?d ?e ?f ?g ?h ?j] => destruct (zs_stale_idle c d e f g h j) as (k' & ES & K) end.
    { eapply (saved_idle _ _ _ _ _ _ 0%N []); [left; split; reflexivity|cbn; lia|apply idle_impossible]. }
    do 2 eexists. split; [reflexivity|]. split; [exact ES|]. split; [cbn [zs z_tokens]; rewrite app_length; cbn [List.length]; lia|].
    do 4 eexists. split; [reflexivity|]. split; [rewrite map_app, ET; reflexivity|].
    destruct K as [-> | ->]; [|apply idle_impossible].
    eapply (saved_idle _ _ _ _ _ _ 0%N []); [left; split; reflexivity|cbn; lia|apply idle_impossible].
  - destruct P as (toks & k' & fs & adj & -> & ET & I).
    eapply (end_of_scalar fuel (b :: r) m' l' false toks k' fs adj st v); eauto.
    eapply rounds_more; [apply round_start|]. apply rounds_one. exact R.
Qed.

(** A document that is one plain scalar on one line. *)
Lemma plain_doc fuel w : plain_line w -> plain_first w -> List.length w + 5 < fuel ->
  exists toks z, scan fuel w = (toks, (z, Ok tt)) /\
    map k_type toks = stream_toks 0 [Doc [] false (Some (TrScalar no_props Plain w)) 0].
Proof.
  intros PL PF F. assert (V := st_plain w PL PF). destruct (scalar_first _ _ _ V) as (b & r & EW & B & ML).
  set (z0 := zs (cur [] w (Marker 0 1 1) true true) [Token (Span (Marker 0 1 1) (Marker 0 1 1)) TStreamStart] (skey_new (Marker 0 0 0)) 0 [] false 0).
  destruct (round_at fuel z0 [] b r (Marker 0 1 1) true true [TStreamStart] (skey_new (Marker 0 0 0)) 0 [] 0 [] 0
    (fun z2 => exists toks k' fs adj l' a' m', z2 = zs (cur w [] m' l' a') toks k' 0 [] fs adj /\
       map k_type toks = [TStreamStart; TScalar Plain w] /\ idle k')) as (z2 & R & P).
  - unfold z0. rewrite EW. now apply At_here.
  - exact B.
  - specialize (ML []). now rewrite app_nil_r, EW in ML.
  - cbn. lia.
  - intros H. discriminate.
  - apply unrolls_none. cbn. lia.
  - intros toks fs adj ET _. cbn [repeat] in ET. rewrite app_nil_r in ET. rewrite <- EW.
    replace (cur [] w (Marker 0 1 1) true true) with (cur [] (w ++ [] ++ []) (Marker 0 1 1) true true) by now rewrite !app_nil_r.
    destruct (zs_scalar fuel _ _ _ [] [] [] (Marker 0 1 1) true true toks (impossible (skey_new (Marker 0 0 0))) 0 [] fs adj 0%N [] V) as (sp & i1 & s1 & adj' & E & IN').
    + now left.
    + exact I.
    + cbn. lia.
    + cbn. lia.
    + constructor.
    + exact begins_zero.
    + cbn [List.length]. lia.
    + rewrite E. clear E.
      match goal with |- context [zs ?c ?d ?e ?f ?g ?h ?j] => destruct (zs_stale_idle c d e f g h j) as (k' & ES & K) end.
      { eapply (saved_idle _ _ _ _ _ _ 0%N []); [left; split; reflexivity|cbn; lia|apply idle_impossible]. }
      do 2 eexists. split; [reflexivity|]. split; [exact ES|]. split; [cbn [zs z_tokens]; rewrite app_length; cbn [List.length]; lia|].
      replace i1 with 0%N by (destruct IN' as [[-> _]|[-> _]]; reflexivity). replace s1 with (@nil (N * bool)) by (destruct IN' as [[_ ->]|[_ ->]]; reflexivity).
      cbn [app]. rewrite app_nil_r.
      do 7 eexists. split; [reflexivity|]. split; [rewrite map_app, ET; reflexivity|].
      destruct K as [-> | ->]; [|apply idle_impossible].
      eapply (saved_idle _ _ _ _ _ _ 0%N []); [left; split; reflexivity|cbn; lia|apply idle_impossible].
  - destruct P as (toks & k' & fs & adj & l' & a' & m' & -> & ET & I).
    eapply (end_of_scalar fuel w m' l' a' toks k' fs adj Plain w); eauto; [lia|].
    eapply rounds_more; [apply round_start|]. apply rounds_one. exact R.
Qed.
