(** The read-back theorems in the form of the properties. *)
From Verif Require Import Base Tokens Chars Scalar Source Cursor ExactCursor Yaml SpecScalar SpecEmit Emitter.
From Verif Require Import EmitterText EmitterProofs.
From Coq Require Import String Lia ZifyBool ZifyNat ZifyN.
Local Open Scope list_scope.

Lemma follow_ends f after : may_follow_quotes f after -> ends_quoted f after = true.
Proof.
  destruct after as [|c r]; [destruct f; reflexivity|]. unfold may_follow_quotes, ends_quoted. cbn [nth In].
  unfold is_breakz, is_break. destruct f; lia.
Qed.
Lemma escaped_text_reads_back :
  forall (t : text) (level : Z) (out : text),
  exists written,
    escape_str any_writer t (Emitter.Emitter level out)
      = (Emitter.Emitter level (out ++ written), EmitOk) /\
    forall (before after : text) (in_flow : bool) (indent : N) (m : marker) (lead ska : bool) (fuel : nat),
      may_follow_quotes in_flow after -> (0 < m_col m)%N -> (indent <= m_col m + 1)%N ->
      List.length t + 1 < fuel ->
      let doc := before ++ written ++ after in
      let m' := Marker (m_pos m + N.of_nat (List.length written)) (m_col m + N.of_nat (List.length written)) (m_line m) in
      scan_flow_scalar fuel false indent in_flow (Cur (StrSrc doc (List.length before)) m lead ska)
      = (Cur (StrSrc doc (List.length before + List.length written)) m' false ska,
         Ok (Token (Span m m') (TScalar DoubleQuote t))).
Proof.
  intros t level out. exists (quoted t). split; [apply emits_escape|].
  intros before after f indent m lead ska fuel A C I F doc m'.
  pose proof (double_scan indent f after t fuel before m lead ska (follow_ends f after A) F C I) as H.
  cbv zeta in H. unfold cur in H. rewrite app_length, <- app_assoc in H. exact H.
Qed.
Lemma double_quotes_enc t : double_quotes t = flat_map single_enc t.
Proof. induction t as [|c t IH]; [reflexivity|]. cbn [double_quotes flat_map]. now rewrite IH. Qed.
Lemma single_quoted_text_reads_back :
  forall (t before after : text) (in_flow : bool) (indent : N) (m : marker) (lead ska : bool) (fuel : nat),
  ~ In 10%N t -> ~ In 13%N t -> ~ In 0%N t ->
  may_follow_quotes in_flow after -> (0 < m_col m)%N -> (indent <= m_col m + 1)%N ->
  List.length t + 1 < fuel ->
  let written := in_single_quotes t in
  let doc := before ++ written ++ after in
  let m' := Marker (m_pos m + N.of_nat (List.length written)) (m_col m + N.of_nat (List.length written)) (m_line m) in
  scan_flow_scalar fuel true indent in_flow (Cur (StrSrc doc (List.length before)) m lead ska)
  = (Cur (StrSrc doc (List.length before + List.length written)) m' false ska,
     Ok (Token (Span m m') (TScalar SingleQuote t))).
Proof.
  intros t before after f indent m lead ska fuel N1 N2 N3 A C I F written doc m'.
  pose proof (single_scan indent f after t fuel before m lead ska N1 N2 N3 (follow_ends f after A) F C I) as H.
  cbv zeta in H. unfold cur in H. rewrite app_length, <- app_assoc in H.
  rewrite <- double_quotes_enc in H. exact H.
Qed.
