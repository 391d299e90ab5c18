(** Documents that are one block scalar. *)
From Verif Require Import Base Tokens Scalar Chars Source Cursor Scanner Yaml Emitter ExactCursor EmitterText EmitterProofs.
From Verif Require Import SpecTree SpecStream SpecEmit SpecQuoted FoldedQuotes ExactPlain EagerScan ScanSteps NodeScan DumpScan ScalarDocs ScalarDocsRead LoadText.
From Verif Require Import SpecBlock BlockScan BlockStep.
From Coq Require Import String Lia ZifyBool ZifyNat ZifyN.
Local Open Scope list_scope.

Lemma block_doc fuel (literal : bool) r m' l' sp st v :
  scan_block_scalar_body fuel literal 0 (Marker 0 1 1) (cur [block_sign literal] r (mark_add 1 (Marker 0 1 1)) false true)
  = (cur (block_sign literal :: r) [] m' l' true, Ok (Token sp (TScalar st v))) ->
  List.length r + 4 < fuel -> scalar_doc fuel (block_sign literal :: r) st v.
Proof.
  intros E F. set (b := block_sign literal) in *.
  set (z0 := zs (cur [] (b :: r) (Marker 0 1 1) true true) [Token (Span (Marker 0 1 1) (Marker 0 1 1)) TStreamStart] (skey_new (Marker 0 0 0)) 0 [] false 0).
  destruct (round_at fuel z0 [] b r (Marker 0 1 1) true true [TStreamStart] (skey_new (Marker 0 0 0)) 0 [] 0 [] 0
    (fun z2 => exists toks k' fs adj, z2 = zs (cur (b :: r) [] m' l' true) toks k' 0 [] fs adj /\
       map k_type toks = [TStreamStart; TScalar st v] /\ idle k')) as (z2 & R & P).
  - now apply At_here.
  - unfold b. destruct literal; intros H; cbn in H; intuition discriminate.
  - unfold b. destruct literal; reflexivity.
  - cbn. lia.
  - intros H. discriminate.
  - apply unrolls_none. cbn. lia.
  - intros toks fs adj ET _. cbn [repeat] in ET. rewrite app_nil_r in ET.
    unfold b at 1. rewrite main_block. fold b.
    unfold b at 1. erewrite (zs_block fuel literal [] r _ _ _ _ _ _ (Marker 0 1 1) true true toks _ 0 [] fs adj 0 []); [|now left|exact I|exact E].
    match goal with |- context [zs ?c ?d ?e ?f ?g ?h ?j] => destruct (zs_stale_idle c d e f g h j) as (k' & ES & K) end.
    { eapply (saved_idle _ _ _ _ _ _ 0%N []); [left; split; reflexivity|cbn; lia|apply idle_impossible]. }
    do 2 eexists. split; [reflexivity|]. split; [exact ES|]. split; [cbn [zs z_tokens]; rewrite app_length; cbn [List.length]; lia|].
    do 4 eexists. split; [reflexivity|]. split; [rewrite map_app, ET; reflexivity|].
    destruct K as [-> | ->]; [|apply idle_impossible].
    eapply (saved_idle _ _ _ _ _ _ 0%N []); [left; split; reflexivity|cbn; lia|apply idle_impossible].
  - destruct P as (toks & k' & fs & adj & -> & ET & I).
    eapply (end_of_scalar fuel (b :: r) m' l' true toks k' fs adj st v); eauto; [cbn [List.length]; lia|].
    eapply rounds_more; [apply round_start|]. apply rounds_one. exact R.
Qed.
(** A document that is one block scalar. *)
Lemma block_scalar_doc literal h e digit ht b first more tail n s fuel :
  indicators h e digit -> header_rest ht -> indentation 0 digit n first -> good_line n first -> Forall (good_line n) more ->
  Forall (fun b => fst b <= n) tail -> s <= n -> s = n \/ n < 125 ->
  (nth 0 (words first) 0%N <> 9%N \/ n <> 0 \/ before first <> []) ->
  List.length (h ++ ht ++ eol b ++ block_lines n (first :: more) tail s []) + 5 < fuel ->
  scalar_doc fuel (block_sign literal :: h ++ ht ++ eol b ++ block_lines n (first :: more) tail s []) (if literal then Literal else Folded) (block_value literal e first more tail).
Proof.
  intros HI HR HD HF HM HT HS HW HTab F.
  destruct (e_block_scalar literal h e digit ht b first more tail n s [] 0 (Marker 0 1 1) fuel [block_sign literal] (mark_add 1 (Marker 0 1 1)) false true) as (m' & sp & E & _); auto.
  { left. auto. }
  eapply block_doc; [exact E|lia].
Qed.
