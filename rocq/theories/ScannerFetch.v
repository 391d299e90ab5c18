(** The fetching methods of the scanner keep the invariant and consume at least a byte. *)
From Verif Require Import Base Tokens Scalar Chars Source SourceProofs Cursor Scanner SpecScan
  CursorProofs CursorRuns CursorScalars HeadersOnly ScannerInv.
From Coq Require Import Lia ZifyBool ZifyNat ZifyN String.

(** The texts on which scanning is shown to end. *)
Definition good (i : text) : Prop :=
  nice i /\ ((indents_within 124 i /\ headers_within 115 i) \/ (~ In 124%N i /\ ~ In 62%N i)).
Definition fs (i : text) (fuel : nat) : Prop := good i -> fuel < List.length i + 3.
Definition big (i : text) : Prop := In 37%N i /\ three_digits i.
Definition moved (z z' : scanner) : Prop :=
  cpos (z_cur z) < cpos (z_cur z') /\ size z' <= size z + 6.
(** A fetching method started at [z]. *)
Definition fetches (i : text) (D : list token) (m : SM unit) (fuel : nat) (z : scanner) : Prop :=
  zruns i D m z (fun z' _ => moved z z') (fs i fuel) (big i) (reserved_near_end i).

Ltac unfr :=
  repeat match goal with F : fr _ _ _ |- _ => destruct F as [?FC ?FP ?FT ?FS] end;
  unfold moved, size in *;
  cbn [set_cur set_keys set_tokens set_adjacent set_implicit set_flow_started set_flow
       z_cur z_tokens z_indents z_parsed] in *;
  repeat match goal with H : z_cur ?a = _ |- _ => is_var a; rewrite H in *; clear H end.
Ltac fin := unfr; bounds; lia.
Lemma short_fs i fuel c k : short fuel i c k -> k <= 3 -> fs i fuel.
Proof. intros S K (N & _). specialize (S N). lia. Qed.
Ltac fsf := first [ intros ?S; apply (short_fs _ _ _ _ S); lia
                  | intros ?S (?N & _); bounds; lia
                  | tauto ].
Lemma big_in i c : cok i c -> peekz str_ops (c_src c) 0 = 37%N -> three_digits i -> big i.
Proof.
  intros C P T. split; auto. eapply nth_error_In. eapply peekz_some; eauto. discriminate.
Qed.
Lemma peek_src c c' n : c_src c' = c_src c -> peekz str_ops (c_src c') n = peekz str_ops (c_src c) n.
Proof. intros ->. reflexivity. Qed.

Lemma f_anchor i D fuel alias z : live i D z ->
  peekz str_ops (c_src (z_cur z)) 0 <> 0%N -> peekz str_ops (c_src (z_cur z)) 0 <> 10%N ->
  fetches i D (fetch_anchor fuel alias) fuel z.
Proof.
  intros L P0 P1. unfold fetches, fetch_anchor.
  apply zr_save; [auto|]. intros z1 L1 F1.
  apply zr_set_ska; [auto|]. intros c2 C2 E2 S2 M2 L2.
  assert (SRC : c_src c2 = c_src (z_cur z)) by (unfr; auto).
  eapply zr_lift; [auto|apply runs_anchor; [auto| |]|fsf|tauto|]; cbn [set_cur z_cur];
    try (rewrite (peek_src _ _ 0 SRC); auto).
  intros c3 t C3 LE3 (Q3 & T3 & PR3) L3. destruct t as [s t]. cbn [k_span k_type].
  apply zr_push_last; auto.
  - eapply tok_in_ge; [exact T3|lia].
  - intros z4 L4 F4. fin.
Qed.
Lemma f_tag i D fuel z : live i D z -> peekz str_ops (c_src (z_cur z)) 0 = 33%N ->
  fetches i D (fetch_tag fuel) fuel z.
Proof.
  intros L P0. unfold fetches, fetch_tag.
  apply zr_save; [auto|]. intros z1 L1 F1.
  apply zr_set_ska; [auto|]. intros c2 C2 E2 S2 M2 L2.
  assert (SRC : c_src c2 = c_src (z_cur z)) by (unfr; auto).
  apply zr_gets.
  eapply zr_lift; [auto|apply runs_tag; [auto| ]|fsf|tauto|]; cbn [set_cur z_cur];
    try (rewrite (peek_src _ _ 0 SRC); auto).
  intros c3 t C3 LE3 (Q3 & T3 & PR3) L3. destruct t as [s t]. cbn [k_span k_type].
  apply zr_push_last; auto.
  - eapply tok_in_ge; [exact T3|lia].
  - intros z4 L4 F4. fin.
Qed.
Lemma f_plain i D fuel z : live i D z -> fetches i D (fetch_plain_scalar fuel) fuel z.
Proof.
  intros L. unfold fetches, fetch_plain_scalar.
  apply zr_save; [auto|]. intros z1 L1 F1.
  apply zr_set_ska; [auto|]. intros c2 C2 E2 S2 M2 L2.
  apply zr_non_block; [auto|]. intros z3 L3 F3 _ _.
  do 2 apply zr_gets.
  eapply zr_lift; [auto|apply runs_plain; apply L3|fsf|tauto|].
  intros c4 t C4 LE4 (Q4 & T4 & PR4) L4. destruct t as [s t]. cbn [k_span k_type].
  apply zr_push_last; auto.
  - eapply tok_in_ge; [exact T4|lia].
  - intros z5 L5 F5. fin.
Qed.
Lemma f_block_scalar i D fuel literal z : live i D z ->
  peekz str_ops (c_src (z_cur z)) 0 = 124%N \/ peekz str_ops (c_src (z_cur z)) 0 = 62%N ->
  (z_indent z <= m_col (c_mark (z_cur z)))%N ->
  fetches i D (fetch_block_scalar fuel literal) fuel z.
Proof.
  intros L P0 LI. unfold fetches, fetch_block_scalar.
  assert (IN : In 124%N i \/ In 62%N i).
  { assert (C := l_cur _ _ _ L). destruct P0 as [P0|P0]; [left|right];
      (eapply nth_error_In; eapply peekz_some; [exact C|exact P0|discriminate]). }
  apply zr_save_at; [auto|]. intros z1 L1 F1 I1.
  apply zr_set_ska; [auto|]. intros c2 C2 E2 S2 M2 L2.
  assert (SRC : c_src c2 = c_src (z_cur z)) by (unfr; auto).
  assert (PK := peek_src _ _ 0 SRC).
  apply zr_mark. apply zr_skip1; [auto|cbn [set_cur z_cur]; lia..|]. intros c3 C3 E3 _ L3.
  cbn [set_cur z_cur] in *.
  apply zr_non_block; [auto|]. intros z4 L4 F4 _ I4. apply zr_gets.
  assert (EC : z_cur z4 = c3) by (unfr; auto).
  eapply zr_lift; [auto|apply (runs_block i fuel literal (z_indent z4) (c_mark c2) (z_cur z4) (l_cur _ _ _ L4) (cpos c2));
    [rewrite EC; lia|apply C2]|  |tauto|].
  - intros SW (N & G). assert (LW : indents_within 124 i /\ headers_within 115 i) by tauto. destruct LW as [IW HW].
    refine (_ (SW IW _ N)); [clear; lia|]. intros HR.
    assert (C := l_cur _ _ _ L). assert (NS : exists sign, nth_error i (cpos (z_cur z)) = Some sign /\ In sign [124; 62]%N).
    { destruct P0 as [P0|P0]; (eexists; split; [rewrite <- (Nat.add_0_r (cpos (z_cur z))); eapply peekz_some; [exact C|exact P0|discriminate]|cbn [In]; tauto]). }
    destruct NS as (sign & NS & IS). assert (EP : cpos (z_cur z4) = S (cpos (z_cur z))) by (rewrite EC, E3; unfold cpos; rewrite SRC; lia).
    assert (X := header_low i 115 _ sign _ _ _ (l_cur _ _ _ L4) EP NS IS HR (proj2 N) HW).
    destruct C as (_ & _ & CM). rewrite <- CM in X. cbn [set_cur z_indent] in I4. lia.
  - intros c5 t C5 LE5 (Q5 & T5) L5. destruct t as [s t]. cbn [k_span k_type].
    apply zr_push_last; auto.
    + eapply tok_in_ge; [exact T5|lia].
    + intros z6 L6 F6. fin.
Qed.
Lemma zr_next_token {B} i D fuel (k : unit -> SM B) z Q (F X U : Prop) : live i D z ->
  (short fuel i (z_cur z) 2 -> F) ->
  (forall c, cok i c -> cpos (z_cur z) <= cpos c ->
     is_blank (peekz str_ops (c_src c) 0) = false /\ is_break (peekz str_ops (c_src c) 0) = false ->
     live i D (set_cur c z) -> zruns i D (k tt) (set_cur c z) Q F X U) ->
  zruns i D (bind (zskip_to_next_token fuel) k) z Q F X U.
Proof.
  intros L HF Hk. unfold zskip_to_next_token.
  enough (R : zruns i D (bind (lift (skip_to_next_token fuel
     (match z_indents z with [] => false | _ => true end) (z_indent z) (z_flow z))) k) z Q F X U) by exact R.
  eapply zr_lift; [auto|apply runs_next_token; apply L|auto|tauto|].
  intros c [] C LE (B1 & B2 & _) LV. apply Hk; auto.
Qed.
Lemma f_quoted i D fuel single z : live i D z ->
  peekz str_ops (c_src (z_cur z)) 0 <> 0%N -> peekz str_ops (c_src (z_cur z)) 0 <> 10%N ->
  fetches i D (fetch_flow_scalar fuel single) fuel z.
Proof.
  intros L P0 P1. unfold fetches, fetch_flow_scalar.
  apply zr_save; [auto|]. intros z1 L1 F1.
  apply zr_set_ska; [auto|]. intros c2 C2 E2 S2 M2 L2.
  assert (SRC : c_src c2 = c_src (z_cur z)) by (unfr; auto).
  do 2 apply zr_gets.
  eapply zr_lift; [auto|apply runs_quoted; [auto| |]|fsf|tauto|]; cbn [set_cur z_cur];
    try (rewrite (peek_src _ _ 0 SRC); auto).
  intros c3 t C3 LE3 (Q3 & T3 & PR3) L3.
  apply zr_next_token; [auto|cbn [set_cur z_cur]; fsf|]. intros c4 C4 LE4 _ L4.
  apply zr_mod; [reflexivity|]. cbn [set_cur z_cur] in *.
  destruct t as [s t]. cbn [k_span k_type].
  apply zr_push_last; auto.
  - fields.
  - cbn [set_adjacent set_cur z_cur]. eapply tok_in_le; [eapply tok_in_ge; [exact T3|lia]|lia].
  - intros z5 L5 F5. fin.
Qed.
Lemma f_directive i D fuel z : live i D z -> peekz str_ops (c_src (z_cur z)) 0 = 37%N ->
  fetches i D (fetch_directive fuel) fuel z.
Proof.
  intros L P0. unfold fetches, fetch_directive.
  assert (BG := big_in i _ (l_cur _ _ _ L) P0).
  apply zr_unroll; [auto|]. intros z1 L1 F1 _ _.
  apply zr_remove; [auto|]. intros l2 L2.
  apply zr_set_ska; [auto|]. intros c3 C3 E3 S3 M3 L3.
  assert (SRC : c_src c3 = c_src (z_cur z)) by (unfr; auto).
  eapply zr_lift; [auto|apply runs_directive; [auto| ]|fsf|auto|]; cbn [set_cur z_cur];
    try (rewrite (peek_src _ _ 0 SRC); auto).
  intros c4 t C4 LE4 (Q4 & T4 & PR4) L4. destruct t as [s t]. cbn [k_span k_type].
  apply zr_push_last; auto.
  - eapply tok_in_ge; [exact T4|lia].
  - intros z5 L5 F5. fin.
Qed.

(** ** Indicators *)
Lemma zr_ws {B} i D fuel tabs prev (k : bool * bool -> SM B) z Q (F X U : Prop) : live i D z ->
  (fs i fuel -> F) ->
  (forall c r, cok i c -> cpos (z_cur z) <= cpos c -> live i D (set_cur c z) ->
     zruns i D (k r) (set_cur c z) Q F X U) ->
  zruns i D (bind (lift (skip_ws_to_eol fuel tabs prev)) k) z Q F X U.
Proof.
  intros L HF Hk. eapply zr_lift; [auto|apply runs_ws; apply L|intros S; apply HF; intros _; lia|tauto|].
  intros c a C LE _ LV. apply Hk; auto.
Qed.
Lemma zr_skipn {B} i D n (k : unit -> SM B) z Q (F X U : Prop) : live i D z ->
  walk i (cpos (z_cur z)) (cpos (z_cur z) + n) ->
  (forall c, cok i c -> cpos c = cpos (z_cur z) + n -> live i D (set_cur c z) ->
     zruns i D (k tt) (set_cur c z) Q F X U) ->
  zruns i D (bind (lift (skip_n_non_blank n)) k) z Q F X U.
Proof.
  intros L W Hk.
  eapply (zr_lift _ _ _ _ _ (fun c (_ : unit) => cpos c = cpos (z_cur z) + n) False False);
    [auto| |tauto|tauto|].
  - apply runs_tail. apply runs_skip_n; [apply L|auto|]. intros c C E _ _. apply runs_ret; auto.
  - intros c [] C LE E LV. apply Hk; auto.
Qed.
(** A token from a marker recorded earlier up to the cursor. *)
Lemma span_to i c m t : cok i c -> between i 0 (cpos c) m -> tok_in i 0 (cpos c) (Token (Span m (c_mark c)) t).
Proof. intros (_ & _ & M) (n & Hn & ->). exists n, (cpos c). cbn [k_span]. rewrite M. split; [lia|]. split; [lia|reflexivity]. Qed.
Lemma between_mark_in i n m : between i 0 n m -> mark_in i n m.
Proof. intros (k & Hk & ->). exists k. split; [lia|reflexivity]. Qed.
Lemma next_is_three_peeks s c : next_is_three str_ops s c = true ->
  peekz str_ops s 0 = c /\ peekz str_ops s 1 = c /\ peekz str_ops s 2 = c.
Proof. unfold next_is_three. lia. Qed.

Lemma f_document_indicator i D t z (k : unit -> SM unit) Q (F X U : Prop) : live i D z ->
  walk i (cpos (z_cur z)) (cpos (z_cur z) + 3) -> t = TDocumentStart \/ t = TDocumentEnd ->
  (forall z', live i D z' -> cpos (z_cur z') = cpos (z_cur z) + 3 -> size z' <= size z + 1 ->
     zruns i D (k tt) z' Q F X U) ->
  zruns i D (bind (fetch_document_indicator t) k) z Q F X U.
Proof.
  intros L W Ht Hk. unfold fetch_document_indicator.
  apply zr_assoc. apply zr_unroll; [auto|]. intros z1 L1 F1 _ _. cbv beta.
  apply zr_assoc. apply zr_remove; [auto|]. intros l2 L2. cbv beta.
  apply zr_assoc. apply zr_set_ska; [auto|]. intros c3 C3 E3 S3 M3 L3. cbv beta.
  apply zr_assoc. apply zr_mark. cbv beta. apply zr_assoc.
  assert (EC : cpos c3 = cpos (z_cur z)) by (unfr; auto).
  apply zr_skipn; [auto|cbn [set_cur z_cur]; rewrite EC; auto|]. intros c4 C4 E4 L4. cbv beta.
  cbn [set_cur z_cur] in *.
  apply zr_assoc. apply zr_mark. cbv beta.
  apply zr_push; [auto| |destruct Ht; subst t; repeat split; discriminate|].
  - cbn [set_cur z_cur]. apply span_to; auto. eapply between_le; [apply between_self; [exact C3|lia]|lia].
  - intros z5 L5 F5. apply Hk; auto; fin.
Qed.
Lemma zr_last i D (m : SM unit) z (Q : scanner -> unit -> Prop) F X U :
  zruns i D (bind m (fun _ => ret tt)) z Q F X U -> zruns i D m z Q F X U.
Proof. unfold zruns, bind, ret. destruct (m z) as [z' [[]| | | |]]; auto. Qed.
Lemma f_document_start i D fuel z : live i D z -> walk i (cpos (z_cur z)) (cpos (z_cur z) + 3) ->
  fetches i D (fetch_document_indicator TDocumentStart) fuel z.
Proof.
  intros L W. apply zr_last. apply f_document_indicator; auto. intros z1 L1 E1 S1.
  apply zr_ret; [auto|]. fin.
Qed.
Lemma f_finish i D fuel z : live i D z -> walk i (cpos (z_cur z)) (cpos (z_cur z) + 3) ->
  fetches i D (finish_document fuel) fuel z.
Proof.
  intros L W. unfold fetches, finish_document. apply f_document_indicator; auto. intros z1 L1 E1 S1. cbv beta.
  apply zr_ws; [auto|auto|]. intros c2 r C2 LE2 L2. cbv beta.
  apply zr_peek. apply zr_mark. destruct (_ || _).
  - apply zr_ret; [auto|]. fin.
  - apply zr_err; [auto|]. apply mark_in_self. auto.
Qed.

Lemma f_collection_start i D fuel is_map z : live i D z ->
  peekz str_ops (c_src (z_cur z)) 0 <> 0%N -> peekz str_ops (c_src (z_cur z)) 0 <> 10%N ->
  fetches i D (fetch_flow_collection_start fuel is_map) fuel z.
Proof.
  intros L P0 P1. unfold fetches, fetch_flow_collection_start.
  apply zr_save; [auto|]. intros z1 L1 F1.
  apply zr_roll_one; [auto|]. intros z2 L2 F2 _.
  apply zr_increase; [auto|]. intros z3 L3 F3.
  apply zr_set_ska; [auto|]. intros c4 C4 E4 S4 M4 L4.
  assert (SRC : c_src c4 = c_src (z_cur z)) by (unfr; auto).
  assert (PK := peek_src _ _ 0 SRC).
  apply zr_mark. apply zr_skip1; [auto|cbn [set_cur z_cur]; congruence..|]. intros c5 C5 E5 _ L5.
  cbn [set_cur z_cur] in *.
  apply zr_mod; [destruct is_map; reflexivity|].
  match goal with |- zruns _ _ _ ?Z _ _ _ _ => assert (L6 : live i D Z) by (destruct is_map; fields); assert (F6 : fr 0 (set_cur c5 (set_cur c4 z3)) Z) by (destruct is_map; constructor; auto; unfold size; cbn; lia); set (z6 := Z) in *; clearbody z6 end.
  apply zr_ws; [auto|auto|]. intros c7 r C7 LE7 L7. cbv beta. apply zr_mark.
  assert (LE : cpos c4 <= cpos c7) by fin.
  apply zr_push_last; [auto| |destruct is_map; repeat split; discriminate|].
  - cbn [set_cur z_cur]. apply span_to; auto. eapply between_le; [apply between_self; [exact C4|lia]|lia].
  - intros z8 L8 F8. fin.
Qed.
Lemma f_collection_end i D fuel is_map z : live i D z ->
  peekz str_ops (c_src (z_cur z)) 0 <> 0%N -> peekz str_ops (c_src (z_cur z)) 0 <> 10%N ->
  fetches i D (fetch_flow_collection_end fuel is_map) fuel z.
Proof.
  intros L P0 P1. unfold fetches, fetch_flow_collection_end.
  apply zr_remove; [auto|]. intros l1 L1.
  apply zr_decrease; [auto|]. intros z2 L2 F2.
  apply zr_set_ska; [auto|]. intros c3 C3 E3 S3 M3 L3. apply zr_mark.
  assert (SRC : c_src c3 = c_src (z_cur z)) by (unfr; auto).
  assert (PK := peek_src _ _ 0 SRC). cbn [set_cur z_cur] in *.
  assert (G : forall z4, live i D z4 -> fr 1 (set_cur c3 z2) z4 ->
    zruns i D (bind (lift skip_non_blank) (fun _ => bind (lift (skip_ws_to_eol fuel true false))
      (fun _ => bind (modify (fun z => if (0 <? z_flow z)%N then set_adjacent (m_pos (c_mark (z_cur z))) z else z))
      (fun _ => bind zmark (fun e => push_token (Span (c_mark c3) e) (if is_map then TFlowMappingEnd else TFlowSequenceEnd))))))
      z4 (fun z' _ => moved z z') (fs i fuel) (big i) (reserved_near_end i)).
  { intros z4 L4 F4. assert (EC : z_cur z4 = c3) by apply F4.
    apply zr_skip1; [auto|rewrite EC; congruence..|]. intros c5 C5 E5 _ L5.
    apply zr_ws; [auto|auto|]. intros c6 r C6 LE6 L6. cbv beta. cbn [set_cur z_cur] in *.
    apply zr_mod; [destruct (0 <? _)%N; reflexivity|].
    match goal with |- zruns _ _ _ ?Z _ _ _ _ => assert (L7 : live i D Z) by (destruct (0 <? _)%N; fields); assert (F7 : fr 0 (set_cur c6 (set_cur c5 z4)) Z) by (destruct (0 <? _)%N; constructor; auto; unfold size; cbn; lia); set (z7 := Z) in *; clearbody z7 end.
    apply zr_mark. assert (C7 := l_cur _ _ _ L7).
    assert (LE : cpos c3 <= cpos (z_cur z7)) by fin.
    apply zr_push_last; [auto| |destruct is_map; repeat split; discriminate|].
    - apply span_to; auto. eapply between_le; [apply between_self; [exact C3|lia]|lia].
    - intros z8 L8 F8. fin. }
  destruct is_map.
  - apply zr_ret_bind. apply G; [auto|apply fr_refl].
  - apply zr_assoc. apply zr_end_implicit; [auto|cbn [set_cur z_cur]; apply between_self; [auto|lia]|]. intros z4 L4 F4.
    apply zr_mod; [reflexivity|]. apply G; [fields|]. destruct F4. constructor; auto.
Qed.
Lemma f_flow_entry i D fuel z : live i D z ->
  peekz str_ops (c_src (z_cur z)) 0 <> 0%N -> peekz str_ops (c_src (z_cur z)) 0 <> 10%N ->
  fetches i D (fetch_flow_entry fuel) fuel z.
Proof.
  intros L P0 P1. unfold fetches, fetch_flow_entry.
  apply zr_remove; [auto|]. intros l1 L1.
  apply zr_set_ska; [auto|]. intros c3 C3 E3 S3 M3 L3. apply zr_mark.
  assert (SRC : c_src c3 = c_src (z_cur z)) by (unfr; auto).
  assert (PK := peek_src _ _ 0 SRC). cbn [set_cur z_cur] in *.
  apply zr_end_implicit; [auto|cbn [set_cur z_cur]; apply between_self; [auto|lia]|]. intros z4 L4 F4.
  assert (EC : z_cur z4 = c3) by apply F4.
  apply zr_skip1; [auto|rewrite EC; congruence..|]. intros c5 C5 E5 _ L5.
  apply zr_ws; [auto|auto|]. intros c6 r C6 LE6 L6. cbv beta. cbn [set_cur z_cur] in *.
  apply zr_mark.
  assert (LE : cpos c3 <= cpos c6) by fin.
  apply zr_push_last; [auto| |repeat split; discriminate|].
  - cbn [set_cur z_cur]. apply span_to; auto. eapply between_le; [apply between_self; [exact C3|lia]|lia].
  - intros z8 L8 F8. fin.
Qed.
Lemma col_mark i c : cok i c -> (m_col (c_mark c) <= colmax i)%N.
Proof. intros (_ & L & ->). apply colmax_le. auto. Qed.
Lemma f_block_entry i D fuel z : live i D z ->
  peekz str_ops (c_src (z_cur z)) 0 <> 0%N -> peekz str_ops (c_src (z_cur z)) 0 <> 10%N ->
  fetches i D (fetch_block_entry fuel) fuel z.
Proof.
  intros L P0 P1. unfold fetches, fetch_block_entry.
  assert (C0 := l_cur _ _ _ L).
  apply zr_mark. do 3 apply zr_gets.
  destruct (0 <? _)%N; [apply zr_err; auto with scan|].
  destruct (negb _); [apply zr_err; auto with scan|].
  destruct (g9hc z); [apply zr_err; auto with scan|].
  apply zr_skip1; [auto..|]. intros c1 C1 E1 _ L1.
  apply zr_roll; [auto|auto|cbn [set_cur z_cur]; eapply between_le; [apply between_self; [exact C0|lia]|lia]|apply col_mark; auto|auto|].
  intros z2 L2 F2 _.
  apply zr_ws; [auto|auto|]. intros c3 [any has] C3 LE3 L3. cbv beta iota.
  do 2 apply zr_peek. apply zr_mark.
  destruct (_ && _ && _); [apply zr_err; auto with scan|].
  apply zr_ws; [auto|auto|]. intros c4 r C4 LE4 L4. cbv beta. apply zr_peek. cbn [set_cur z_cur] in *.
  assert (G : forall z5, live i D z5 -> fr 1 (set_cur c4 (set_cur c3 z2)) z5 ->
    zruns i D (bind remove_simple_key (fun _ => bind (lift (set_ska true))
      (fun _ => bind zmark (fun e => push_token (Span (c_mark (z_cur z)) e) TBlockEntry))))
      z5 (fun z' _ => moved z z') (fs i fuel) (big i) (reserved_near_end i)).
  { intros z5 L5 F5. apply zr_remove; [auto|]. intros l6 L6.
    apply zr_set_ska; [auto|]. intros c7 C7 E7 S7 M7 L7. apply zr_mark. cbn [set_cur set_keys z_cur] in *.
    assert (LE : cpos (z_cur z) <= cpos c7) by fin.
    apply zr_push_last; [auto| |repeat split; discriminate|].
    - cbn [set_cur z_cur]. apply span_to; auto. eapply between_le; [apply between_self; [exact C0|lia]|lia].
    - intros z8 L8 F8. fin. }
  destruct (_ || _).
  - apply zr_roll_one; [auto|]. intros z5 L5 F5 _. apply G; auto.
  - apply zr_ret_bind. apply G; [auto|apply fr_refl].
Qed.
Lemma f_key i D fuel z : live i D z ->
  peekz str_ops (c_src (z_cur z)) 0 <> 0%N -> peekz str_ops (c_src (z_cur z)) 0 <> 10%N ->
  fetches i D (fetch_key fuel) fuel z.
Proof.
  intros L P0 P1. unfold fetches, fetch_key.
  assert (C0 := l_cur _ _ _ L).
  apply zr_mark. do 2 apply zr_gets.
  assert (G : forall z1, live i D z1 -> fr 2 z z1 -> zruns i D
     (bind remove_simple_key (fun _ => bind (lift (set_ska (z_flow z =? 0)%N)) (fun _ =>
        bind (lift skip_non_blank) (fun _ => bind (lift (skip_yaml_whitespace fuel (z_flow z))) (fun _ =>
        bind (zpeek 0) (fun c => bind zmark (fun e =>
          if (c =? 9)%N then zerr e "tabs disallowed in this context"
          else push_token (Span (c_mark (z_cur z)) e) TKey)))))))
     z1 (fun z' _ => moved z z') (fs i fuel) (big i) (reserved_near_end i)).
  { intros z1 L1 F1. apply zr_remove; [auto|]. intros l2 L2.
    apply zr_set_ska; [auto|]. intros c3 C3 E3 S3 M3 L3.
    assert (SRC : c_src c3 = c_src (z_cur z)) by (unfr; auto).
    assert (PK := peek_src _ _ 0 SRC). cbn [set_cur z_cur] in *.
    apply zr_skip1; [auto|cbn [set_cur z_cur]; congruence..|]. intros c4 C4 E4 _ L4. cbn [set_cur z_cur] in *.
    eapply zr_lift; [auto|apply runs_yaml_ws; auto|fsf|tauto|].
    intros c5 [] C5 LE5 _ L5. apply zr_peek. apply zr_mark. cbn [set_cur z_cur] in *.
    destruct (_ =? 9)%N; [apply zr_err; auto with scan|].
    assert (LE : cpos (z_cur z) <= cpos c5) by fin.
    apply zr_push_last; [auto| |repeat split; discriminate|].
    - cbn [set_cur z_cur]. apply span_to; auto. eapply between_le; [apply between_self; [exact C0|lia]|lia].
    - intros z8 L8 F8. fin. }
  destruct (z_flow z =? 0)%N.
  - destruct (negb _); [apply zr_err_bind; auto with scan|].
    apply zr_roll; [auto|auto|apply between_self; [auto|lia]|apply col_mark; auto|auto|].
    intros z1 L1 F1 _. apply G; auto.
  - apply zr_mod; [reflexivity|]. apply G; [fields|]. constructor; auto. unfold size. cbn. lia.
Qed.
Lemma zr_value_tab {B} i D fuel (k : unit -> SM B) z Q (F X U : Prop) : live i D z -> (fs i fuel -> F) ->
  (forall c, cok i c -> cpos (z_cur z) <= cpos c -> live i D (set_cur c z) ->
     zruns i D (k tt) (set_cur c z) Q F X U) ->
  zruns i D (bind (value_tab_check fuel) k) z Q F X U.
Proof.
  intros L HF Hk. unfold value_tab_check.
  assert (C0 := l_cur _ _ _ L).
  assert (S0 : zruns i D (k tt) z Q F X U).
  { assert (R := Hk (z_cur z) C0 (Nat.le_refl _)). rewrite set_cur_self in R. auto. }
  apply zr_assoc. apply zr_peek. cbv beta. destruct (_ =? 9)%N; [|exact S0].
  apply zr_assoc. apply zr_ws; [auto|auto|]. intros c1 [any has] C1 LE1 L1. cbv beta iota.
  apply zr_assoc. apply zr_peek. cbv beta. apply zr_assoc. apply zr_mark. cbv beta.
  destruct (_ && _); [apply zr_err_bind; auto with scan|].
  apply zr_ret_bind. apply Hk; auto.
Qed.
Lemma value_key_eq z : set_keys (match z_keys z with k :: r => impossible k :: r | [] => [] end) z =
  set_keys (match z_keys z with k :: r => impossible k :: r | [] => [] end) z.
Proof. reflexivity. Qed.
Lemma f_value i D fuel z : live i D z ->
  peekz str_ops (c_src (z_cur z)) 0 <> 0%N -> peekz str_ops (c_src (z_cur z)) 0 <> 10%N ->
  fetches i D (fetch_value fuel) fuel z.
Proof.
  intros L P0 P1. unfold fetches, fetch_value. apply zr_gets.
  assert (C0 := l_cur _ _ _ L). assert (K0 := l_keys _ _ _ L). assert (D0 := l_depth_keys _ _ _ L).
  destruct (z_keys z) as [|sk kr]; [discriminate|].
  apply Forall_inv in K0. clear D0. apply zr_mark. apply zr_gets.
  set (implicit := match z_implicit z with [] => false | _ => true end && negb (z_flow_started z)). clearbody implicit.
  apply zr_mod; [destruct implicit; reflexivity|].
  match goal with |- zruns _ _ _ ?Z _ _ _ _ => assert (L1 : live i D Z) by (destruct implicit; [fields|exact L]); assert (F1 : fr 0 z Z) by (destruct implicit; [constructor; auto; unfold size; cbn; lia|apply fr_refl]); set (z1 := Z) in *; clearbody z1 end.
  assert (EC : z_cur z1 = z_cur z) by apply F1.
  apply zr_skip1; [auto|rewrite EC; auto..|]. intros c2 C2 E2 _ L2.
  apply zr_value_tab; [auto|auto|]. intros c3 C3 LE3 L3. cbn [set_cur z_cur] in *. rewrite EC in E2.
  set (z3 := set_cur c3 (set_cur c2 z1)) in *.
  assert (B3 : forall m, between i 0 (cpos (z_cur z)) m -> between i 0 (cpos c3) m).
  { intros m B. eapply between_le; [exact B|lia]. }
  assert (BS : between i 0 (cpos c3) (c_mark (z_cur z))) by (apply B3; apply between_self; [auto|lia]).
  assert (P3 : z_cur z3 = c3 /\ z_parsed z3 = z_parsed z /\ List.length (z_tokens z) <= List.length (z_tokens z3) /\ size z3 <= size z).
  { unfold z3. clear -F1. unfr. split; [auto|]. split; [auto|]. lia. }
  clearbody z3. destruct P3 as (EC3 & EP3 & ET3 & ES3).
  assert (G : forall z4, live i D z4 -> cpos (z_cur z4) = cpos c3 -> size z4 <= size z + 5 ->
    zruns i D (push_token (span_empty (c_mark (z_cur z))) TValue) z4 (fun z' _ => moved z z') (fs i fuel) (big i) (reserved_near_end i)).
  { intros z4 L4 E4 S4. apply zr_push_last; [auto| |repeat split; discriminate|].
    - apply tok_in_mark. rewrite E4. auto.
    - intros z5 L5 F5. destruct F5 as [A1 A2 A3 A4]. split; [rewrite A1; lia|lia]. }
  destruct (sk_possible sk) eqn:PO.
  - destruct (K0 PO) as (NB & MB). apply B3 in MB.
    apply zr_assoc.
    apply zr_insert; [auto|lia|rewrite EC3; apply tok_in_mark; auto|repeat split; discriminate|].
    intros z4 L4 F4. cbv beta. destruct F4 as [A1 A2 A3 A4].
    assert (G2 : forall z5, live i D z5 -> cpos (z_cur z5) = cpos c3 -> z_parsed z5 = z_parsed z ->
       List.length (z_tokens z) <= List.length (z_tokens z5) -> size z5 <= size z + 2 ->
      zruns i D (bind (bind (roll_indent (m_col (sk_mark sk)) (Some (sk_number sk)) TBlockMappingStart (sk_mark sk))
         (fun _ => bind roll_one_col_indent (fun _ => bind (modify
          (fun z => set_keys (match z_keys z with k :: r => impossible k :: r | [] => [] end) z))
          (fun _ => lift (set_ska false))))) (fun _ => push_token (span_empty (c_mark (z_cur z))) TValue))
        z5 (fun z' _ => moved z z') (fs i fuel) (big i) (reserved_near_end i)).
    { intros z5 L5 E5 P5 T5 S5.
      apply zr_assoc. apply zr_roll; [auto|lia|rewrite E5; auto| |auto|].
      { destruct MB as (n & Hn & ->). apply colmax_le. destruct C3 as (_ & ? & _). lia. }
      intros z6 L6 [B1 B2 B4 B5] _. cbv beta. apply zr_assoc. apply zr_roll_one; [auto|].
      intros z7 L7 [D1 D2 D3 D4] _. cbv beta. apply zr_assoc. apply zr_mod; [reflexivity|].
      set (z8 := set_keys _ z7).
      assert (L8 : live i D z8).
      { unfold z8. assert (Y0 := l_keys _ _ _ L7). destruct (z_keys z7) as [|y ys] eqn:EY.
        - apply live_keys; auto. rewrite EY. reflexivity.
        - apply live_keys; [auto| |rewrite EY; reflexivity]. inversion Y0; subst. constructor; [apply impossible_ok|auto]. }
      assert (E8 : z_cur z8 = z_cur z7) by reflexivity.
      assert (S8 : size z8 = size z7) by reflexivity. clearbody z8.
      apply zr_set_ska; [auto|]. intros c9 C9 E9 S9 M9 L9. apply G; [auto| |].
      - cbn [set_cur z_cur]. rewrite E9, E8, D1, B1. auto.
      - change (size (set_cur c9 z8)) with (size z8). lia. }
    apply zr_assoc. destruct implicit.
    + destruct (_ <? _)%N.
      * apply zr_err_bind; [auto|]. rewrite A1, EC3. apply between_mark_in. auto.
      * apply zr_insert; [auto|lia|rewrite A1, EC3; apply tok_in_mark; auto|repeat split; discriminate|].
        intros z5 L5 [B1 B2 B4 B5]. apply G2; [auto|rewrite B1, A1, EC3; auto|lia..].
    + apply zr_ret_bind. apply G2; [auto|rewrite A1, EC3; auto|lia..].
  - assert (G2 : forall z5, live i D z5 -> cpos (z_cur z5) = cpos c3 -> size z5 <= size z + 1 ->
      zruns i D (bind (bind (gets z_flow) (fun flow => bind (gets (fun z => c_ska (z_cur z))) (fun ska =>
         bind (if (flow =? 0)%N then
            if negb ska then zerr (c_mark (z_cur z)) "mapping values are not allowed in this context"
            else roll_indent (m_col (c_mark (z_cur z))) None TBlockMappingStart (c_mark (z_cur z))
          else ret tt) (fun _ => bind roll_one_col_indent (fun _ => lift (set_ska (flow =? 0)%N))))))
          (fun _ => push_token (span_empty (c_mark (z_cur z))) TValue))
        z5 (fun z' _ => moved z z') (fs i fuel) (big i) (reserved_near_end i)).
    { intros z5 L5 E5 S5. apply zr_assoc. apply zr_gets. cbv beta. apply zr_assoc. apply zr_gets. cbv beta. apply zr_assoc.
      assert (G3 : forall z6, live i D z6 -> cpos (z_cur z6) = cpos c3 -> size z6 <= size z + 3 ->
        zruns i D (bind (bind roll_one_col_indent (fun _ => lift (set_ska (z_flow z5 =? 0)%N)))
          (fun _ => push_token (span_empty (c_mark (z_cur z))) TValue))
          z6 (fun z' _ => moved z z') (fs i fuel) (big i) (reserved_near_end i)).
      { intros z6 L6 E6 S6. apply zr_assoc. apply zr_roll_one; [auto|]. intros z7 L7 [D1 D2 D3 D4] _. cbv beta.
        apply zr_set_ska; [auto|]. intros c9 C9 E9 S9 M9 L9. apply G; [auto| |].
        - cbn [set_cur z_cur]. rewrite E9, D1. auto.
        - change (size (set_cur c9 z7)) with (size z7). lia. }
      destruct (z_flow z5 =? 0)%N.
      - destruct (negb _).
        + apply zr_err_bind; [auto|]. rewrite E5. apply between_mark_in. auto.
        + apply zr_roll; [auto|auto|rewrite E5; auto|apply col_mark; auto|auto|].
          intros z6 L6 [B1 B2 B4 B5] _. apply G3; [auto|rewrite B1; auto|lia].
      - apply zr_ret_bind. apply G3; [auto|auto|lia]. }
    apply zr_assoc. destruct implicit.
    + apply zr_push; [auto|rewrite EC3; apply tok_in_mark; auto|repeat split; discriminate|].
      intros z5 L5 [B1 B2 B4 B5]. apply G2; [auto|rewrite B1, EC3; auto|lia].
    + apply zr_ret_bind. apply G2; [auto|rewrite EC3; auto|lia].
Qed.
Lemma f_flow_value i D fuel z : live i D z ->
  peekz str_ops (c_src (z_cur z)) 0 <> 0%N -> peekz str_ops (c_src (z_cur z)) 0 <> 10%N ->
  fetches i D (fetch_flow_value fuel) fuel z.
Proof.
  intros L P0 P1. unfold fetches, fetch_flow_value. apply zr_peek. apply zr_mark. apply zr_gets.
  destruct (_ && _); [apply zr_err; auto; apply mark_in_self; apply L|]. apply f_value; auto.
Qed.
Lemma f_unexpected i D fuel z b : live i D z -> peekz str_ops (c_src (z_cur z)) 0 = b ->
  (b = 37 \/ b = 64 \/ b = 96)%N -> fetches i D unexpected_character fuel z.
Proof.
  intros L P0 HB. unfold fetches, zruns, unexpected_character.
  assert (C := l_cur _ _ _ L).
  assert (N0 : nth_error i (cpos (z_cur z) + 0) = Some b) by (eapply peekz_some; [exact C|exact P0|lia]).
  assert (M := mark_in_self i _ C).
  rewrite Nat.add_0_r in N0. unfold str_peek_char. rewrite (proj1 C).
  change (ss_pos (c_src (z_cur z))) with (cpos (z_cur z)).
  destruct (Nat.leb_spec (cpos (z_cur z) + 4) (List.length i)).
  - split; [exact C|]. exact M.
  - split; [exact C|]. exists (cpos (z_cur z)), b. auto.
Qed.

(** ** One token *)
Lemma f_main i D fuel z : live i D z -> (z_indent z <= m_col (c_mark (z_cur z)))%N -> fetches i D (fetch_main_loop fuel) fuel z.
Proof.
  intros L LI. unfold fetches, fetch_main_loop. do 2 apply zr_peek. apply zr_gets. apply zr_mark. apply zr_gets.
  set (b := peekz str_ops (c_src (z_cur z)) 0). set (x := peekz str_ops (c_src (z_cur z)) 1).
  assert (PB : peekz str_ops (c_src (z_cur z)) 0 = b) by reflexivity. clearbody b x.
  assert (Q : (b <> 0 -> b <> 10 -> peekz str_ops (c_src (z_cur z)) 0 <> 0 /\ peekz str_ops (c_src (z_cur z)) 0 <> 10)%N)
    by (rewrite PB; auto).
  destruct (b =? 91)%N eqn:B0; [apply f_collection_start; auto; apply Q; lia|].
  destruct (b =? 123)%N eqn:B1; [apply f_collection_start; auto; apply Q; lia|].
  destruct (b =? 93)%N eqn:B2; [apply f_collection_end; auto; apply Q; lia|].
  destruct (b =? 125)%N eqn:B3; [apply f_collection_end; auto; apply Q; lia|].
  destruct (b =? 44)%N eqn:B4; [apply f_flow_entry; auto; apply Q; lia|].
  destruct ((b =? 45)%N && is_blank_or_breakz x) eqn:B5; [apply f_block_entry; auto; apply Q; lia|].
  destruct ((b =? 63)%N && is_blank_or_breakz x) eqn:B6; [apply f_key; auto; apply Q; lia|].
  destruct ((b =? 58)%N && is_blank_or_breakz x) eqn:B7; [apply f_value; auto; apply Q; lia|].
  destruct ((b =? 58)%N && (_ && _)) eqn:B8; [apply f_flow_value; auto; apply Q; lia|].
  destruct (b =? 42)%N eqn:B9; [apply f_anchor; auto; apply Q; lia|].
  destruct (b =? 38)%N eqn:B10; [apply f_anchor; auto; apply Q; lia|].
  destruct (b =? 33)%N eqn:B11; [apply f_tag; auto; lia|].
  destruct ((b =? 124)%N && _) eqn:B12; [apply f_block_scalar; auto; lia|].
  destruct ((b =? 62)%N && _) eqn:B13; [apply f_block_scalar; auto; lia|].
  destruct (b =? 39)%N eqn:B14; [apply f_quoted; auto; apply Q; lia|].
  destruct (b =? 34)%N eqn:B15; [apply f_quoted; auto; apply Q; lia|].
  destruct ((b =? 45)%N && negb _); [apply f_plain; auto|].
  destruct (((b =? 58)%N || (b =? 63)%N) && _); [apply f_plain; auto|].
  destruct ((b =? 37)%N || (b =? 64)%N || (b =? 96)%N) eqn:B16; [eapply f_unexpected; eauto; lia|apply f_plain; auto].
Qed.
Lemma f_start i D fuel z r : live i D z -> process_start fuel z = Some r ->
  exists m, r = m z /\ fetches i D m fuel z.
Proof.
  intros L. unfold process_start. cbv zeta.
  destruct (_ =? 37)%N eqn:B0.
  { intros E. injection E as <-. eexists. split; [reflexivity|]. apply f_directive; auto. lia. }
  assert (W : forall b, (b <> 0 -> b <> 10 -> next_is_three str_ops (c_src (z_cur z)) b = true ->
    walk i (cpos (z_cur z)) (cpos (z_cur z) + 3))%N).
  { intros b N0 N1 T. apply next_is_three_peeks in T as (T0 & T1 & T2).
    eapply walk3; [apply L|exact T0|exact T1|exact T2|auto..]. }
  destruct (next_is_three str_ops (c_src (z_cur z)) 45 && _) eqn:B1.
  { intros E. injection E as <-. eexists. split; [reflexivity|]. apply f_document_start; auto. apply (W 45%N); lia. }
  destruct (next_is_three str_ops (c_src (z_cur z)) 46 && _) eqn:B2; [|discriminate].
  intros E. injection E as <-. eexists. split; [reflexivity|]. apply f_finish; auto. apply (W 46%N); lia.
Qed.
Lemma f_content i D fuel z : live i D z -> cpos (z_cur z) < List.length i ->
  fetches i D (fetch_next_content fuel) fuel z.
Proof.
  intros L LT. unfold fetches, zruns, fetch_next_content. cbv zeta.
  assert (C := l_cur _ _ _ L).
  rewrite (empty_here i _ C). destruct (Nat.leb_spec (List.length i) (cpos (z_cur z))); [lia|].
  assert (R : fetches i D (fun z => if (m_col (c_mark (z_cur z)) <? z_indent z)%N
     then zerr (c_mark (z_cur z)) "invalid indentation" z else fetch_main_loop fuel z) fuel z).
  { unfold fetches, zruns. destruct (N.ltb_spec (m_col (c_mark (z_cur z))) (z_indent z)) as [_|LI].
    - assert (E : zruns (A := unit) i D (zerr (c_mark (z_cur z)) "invalid indentation") z (fun z' _ => moved z z') (fs i fuel) (big i) (reserved_near_end i))
        by (apply zr_err; auto with scan). exact E.
    - exact (f_main i D fuel z L LI). }
  destruct (_ =? 1)%N; [|exact R].
  destruct (process_start fuel z) as [r|] eqn:PS; [|exact R].
  destruct (f_start i D fuel z r L PS) as (m & -> & R1). exact R1.
Qed.

(** ** The end of the stream *)
(** The marker set by [fetch_stream_end]: one line below the end of the text. *)
Definition end_mark (i : text) : marker :=
  Marker (m_pos (at_pos i (List.length i))) 1 (m_line (at_pos i (List.length i)) + 1).
Definition at_end (i : text) (c : cursor) : Prop :=
  ss_input (c_src c) = i /\ cpos c = List.length i /\ c_mark c = end_mark i.
Definition end_tok (i : text) (t : token) : Prop :=
  tok_in i 0 (List.length i) t \/ (k_type t = TBlockEnd /\ k_span t = span_empty (end_mark i)).
Definition the_end (i : text) : token := Token (span_empty (end_mark i)) TStreamEnd.
(** [ended i D z]: the end of the stream has been fetched but not delivered. *)
Record ended (i : text) (D : list token) (z : scanner) : Prop := Ended {
  e_cur : at_end i (z_cur z);
  e_keys : Forall (fun k => sk_possible k = false) (z_keys z);
  e_chain : chain (colmax i) (z_indent z) (z_indents z);
  e_nonneg : nonneg (D ++ z_tokens z);
  e_depth : block_depth (D ++ z_tokens z) = opens (z_indents z);
  e_flow : z_flow z = 0%N -> z_indents z = [];
  e_toks : exists q, z_tokens z = q ++ [the_end i] /\ Forall (fun t => k_type t <> TStreamEnd) (D ++ q) /\
     Forall (end_tok i) (D ++ q);
  e_flags : z_started z = true /\ z_end_reached z = false /\ z_end_produced z = false /\ z_error z = None }.
Definition end_err (i : text) (e : yerr) : Prop :=
  match e with ScannerErr m _ => m = end_mark i | _ => False end.

(** What a call of [fetch_next_token] leaves. *)
Definition after (i : text) (D : list token) (z : scanner) (F X U : Prop) (r : scanner * out unit) : Prop :=
  let (z', o) := r in
  (cok i (z_cur z') \/ at_end i (z_cur z')) /\
  match o with
  | Ok _ => (live i D z' /\ moved z z') \/ (ended i D z' /\ List.length (z_tokens z') <= size z + 1)
  | Err e => (cok i (z_cur z') /\ stopped i z' e) \/ (at_end i (z_cur z') /\ end_err i e)
  | Panic => X
  | Ub => U
  | Fuel => F
  end.
Lemma after_fetches i D fuel m z : fetches i D m fuel z ->
  after i D z (fs i fuel) (big i) (reserved_near_end i) (m z).
Proof.
  unfold fetches, zruns, after. destruct (m z) as [z' []]; intros (H1 & H2); split; auto; left; tauto.
Qed.
Lemma end_keys_ok : forall l, snd (end_keys_loop l) = false ->
  Forall (fun k => sk_possible k = false) (fst (end_keys_loop l)) /\ List.length (fst (end_keys_loop l)) = List.length l.
Proof.
  induction l as [|k l IH]; cbn [end_keys_loop]; [cbn [fst snd]; auto|].
  destruct (sk_required k && sk_possible k); cbn [snd fst]; [discriminate|].
  destruct (end_keys_loop l) as [r e]. cbn [snd fst] in *. intros E. destruct (IH E) as [H1 H2].
  split; [constructor; auto|]. cbn [List.length]. lia.
Qed.
Lemma unroll_gen K m pre : forall l ind toks, chain K ind l -> nonneg (pre ++ toks) ->
  block_depth (pre ++ toks) = opens l ->
  exists e, unroll_loop 0 m ind l toks = Some (0%N, [], toks ++ e) /\
    Forall (fun t => t = Token (span_empty m) TBlockEnd) e /\ nonneg (pre ++ toks ++ e) /\
    block_depth (pre ++ toks ++ e) = 0%Z /\ List.length e <= List.length l.
Proof.
  induction l as [|[j b] l IH]; intros ind toks CH NN BD; cbn [chain opens unroll_loop] in *.
  - subst ind. exists []. rewrite app_nil_r. auto.
  - destruct (N.ltb_spec 0 ind); [|lia]. destruct CH as (C1 & C2 & C3). destruct b.
    + assert (BD' : block_depth (pre ++ toks ++ [Token (span_empty m) TBlockEnd]) = opens l).
      { rewrite app_assoc, depth_app, BD. unfold block_depth. cbn [fold_right block_change k_type]. lia. }
      destruct (IH j (toks ++ [Token (span_empty m) TBlockEnd]) C3) as (e & E1 & E2 & E3 & E4 & E5).
      * rewrite app_assoc. apply nonneg_snoc; auto. rewrite <- app_assoc, BD'. apply opens_nonneg.
      * exact BD'.
      * exists (Token (span_empty m) TBlockEnd :: e). rewrite <- app_assoc in *. cbn [app] in *.
        split; [exact E1|]. split; [constructor; auto|]. split; [auto|]. split; [auto|]. cbn [List.length]. lia.
    + destruct (IH j toks C3 NN BD) as (e & E1 & E2 & E3 & E4 & E5).
      exists e. split; [auto|]. split; [auto|]. split; [auto|]. split; [auto|]. cbn [List.length]. lia.
Qed.
Lemma f_stream_end i D F X U z : live i D z -> cpos (z_cur z) = List.length i ->
  after i D z F X U (fetch_stream_end z).
Proof.
  intros L PE. unfold fetch_stream_end.
  assert (C := l_cur _ _ _ L). destruct C as (C1 & C2 & C3).
  assert (CP := col_pos i (cpos (z_cur z))).
  set (c1 := Cur (c_src (z_cur z)) (end_mark i) (c_lead (z_cur z)) (c_ska (z_cur z))).
  unfold bind at 1. unfold modify at 1.
  assert (E1 : (if negb (m_col (c_mark (z_cur z)) =? 0)%N then
      set_cur (Cur (c_src (z_cur z)) (Marker (m_pos (c_mark (z_cur z))) 1 (m_line (c_mark (z_cur z)) + 1))
        (c_lead (z_cur z)) (c_ska (z_cur z))) z else z) = set_cur c1 z).
  { rewrite C3. destruct (N.eqb_spec (m_col (at_pos i (cpos (z_cur z)))) 0); [lia|]. cbn [negb].
    unfold c1, end_mark. rewrite PE. reflexivity. }
  cbv zeta. rewrite E1.
  assert (AE : at_end i c1) by (split; [exact C1|split; [exact PE|reflexivity]]).
  unfold bind at 1. cbn [set_cur z_keys].
  assert (EK := end_keys_ok (rev (z_keys z))).
  destruct (end_keys_loop (rev (z_keys z))) as [keys e]. cbn [fst snd] in EK.
  destruct e.
  { cbn [after]. split; [right; exact AE|]. right. split; [exact AE|reflexivity]. }
  specialize (EK eq_refl) as [EK1 EK2].
  assert (DK := l_depth_keys _ _ _ L). rewrite rev_length in EK2.
  apply Forall_rev in EK1. rewrite <- (rev_length keys) in EK2.
  destruct (rev keys) as [|k kr]; [cbn [List.length] in EK2; lia|].
  assert (PK : sk_possible k = false) by (inversion EK1; auto).
  (* the indentation *)
  set (z2 := set_keys (k :: kr) (set_cur c1 z)).
  destruct (unroll_gen (colmax i) (end_mark i) D (z_indents z) (z_indent z) (z_tokens z)
    (l_chain _ _ _ L) (l_nonneg _ _ _ L) (l_depth _ _ _ L)) as (e & U1 & U2 & U3 & U4 & U5).
  assert (UR : exists ind l e, unroll_indent 0 z2 = (set_indent ind (set_indents l (set_tokens (z_tokens z ++ e) z2)), Ok tt) /\
    Forall (fun t => t = Token (span_empty (end_mark i)) TBlockEnd) e /\ chain (colmax i) ind l /\
    nonneg (D ++ z_tokens z ++ e) /\ block_depth (D ++ z_tokens z ++ e) = opens l /\ List.length e <= List.length (z_indents z) /\
    (z_flow z = 0%N -> l = [])).
  { unfold unroll_indent. change (z_flow z2) with (z_flow z).
    destruct (N.ltb_spec 0 (z_flow z)) as [FL|FL].
    - exists (z_indent z), (z_indents z), []. rewrite app_nil_r.
      split; [f_equal|]. split; [auto|]. split; [apply L|]. split; [apply L|]. split; [apply L|]. split; [cbn [List.length]; lia|lia].
    - change (c_mark (z_cur z2)) with (end_mark i). change (z_indent z2) with (z_indent z).
      change (z_indents z2) with (z_indents z). change (z_tokens z2) with (z_tokens z). rewrite U1.
      exists 0%N, [], e. split; [reflexivity|]. split; [auto|]. split; [reflexivity|]. auto. }
  clear e U1 U2 U3 U4 U5. destruct UR as (ind & l & e & UR & U2 & U3 & U4 & U5 & U6 & U7).
  fold z2. unfold bind at 1. rewrite UR.
  set (z3 := set_indent ind (set_indents l (set_tokens (z_tokens z ++ e) z2))).
  unfold bind at 1. unfold remove_simple_key. change (z_keys z3) with (k :: kr). cbv beta iota.
  rewrite PK. cbn [andb]. unfold bind, lift, set_ska, modify, zmark, get_mark, gets, push_token. cbv beta iota.
  cbn [after]. split; [right; exact AE|]. right.
  assert (TE : Token (span_empty (end_mark i)) TStreamEnd = the_end i) by reflexivity.
  split.
  - constructor.
    + exact AE.
    + change (Forall (fun k => sk_possible k = false) (impossible k :: kr)). constructor; [reflexivity|]. inversion EK1; auto.
    + exact U3.
    + change (nonneg (D ++ (z_tokens z ++ e) ++ [the_end i])). rewrite app_assoc. apply nonneg_snoc; auto.
      rewrite depth_app, U5. unfold block_depth. cbn [fold_right the_end block_change k_type]. assert (O := opens_nonneg l). lia.
    + change (block_depth (D ++ (z_tokens z ++ e) ++ [the_end i]) = opens l). rewrite app_assoc, depth_app, U5.
      unfold block_depth. cbn [fold_right the_end block_change k_type]. lia.
    + exact U7.
    + exists (z_tokens z ++ e). split; [reflexivity|]. rewrite app_assoc. split; apply Forall_app; split.
      * apply L.
      * eapply Forall_impl; [|exact U2]. intros t ->. discriminate.
      * eapply Forall_impl; [|exact (l_toks _ _ _ L)]. intros t T. left. rewrite PE in T. exact T.
      * eapply Forall_impl; [|exact U2]. intros t ->. right. auto.
    + apply L.
  - cbn [set_tokens z_tokens set_cur z3 z2 set_indent set_indents set_keys]. rewrite !app_length. cbn [List.length].
    unfold size. lia.
Qed.
Lemma after_le i D z0 z F X U r : size z <= size z0 -> cpos (z_cur z0) <= cpos (z_cur z) ->
  after i D z F X U r -> after i D z0 F X U r.
Proof.
  unfold after. destruct r as [z' []]; auto. intros H1 H2 (H3 & [(H4 & H5 & H6)|(H4 & H5)]); split; auto.
  - left. split; auto. split; lia.
  - right. split; auto. lia.
Qed.
Lemma f_next i D fuel z : live i D z ->
  after i D z (fs i fuel) (big i) (reserved_near_end i) (fetch_next_token fuel z).
Proof.
  intros L. unfold fetch_next_token. unfold bind at 1, gets at 1. cbv beta iota.
  rewrite (proj1 (l_flags _ _ _ L)). cbn [negb].
  assert (R : zruns i D (bind (zskip_to_next_token fuel) (fun _ => bind stale_simple_keys (fun _ =>
     bind zmark (fun mark => unroll_indent (m_col mark))))) z (fun z' _ => size z' <= size z) (fs i fuel) False False).
  { apply zr_next_token; [auto|fsf|]. intros c1 C1 LE1 _ L1.
    apply zr_stale; [auto|]. intros l2 L2. apply zr_mark.
    apply zr_last. apply zr_unroll; [auto|]. intros z3 L3 F3 _ _. apply zr_ret; [auto|].
    unfr. lia. }
  assert (E : bind (zskip_to_next_token fuel) (fun _ => bind stale_simple_keys (fun _ =>
     bind zmark (fun mark => bind (unroll_indent (m_col mark)) (fun _ => fetch_next_content fuel)))) z =
     bind (bind (zskip_to_next_token fuel) (fun _ => bind stale_simple_keys (fun _ =>
     bind zmark (fun mark => unroll_indent (m_col mark))))) (fun _ => fetch_next_content fuel) z).
  { unfold bind. destruct (zskip_to_next_token fuel z) as [za []]; auto.
    destruct (stale_simple_keys za) as [zb []]; auto. }
  unfold bind in E |- *. rewrite E. clear E. unfold zruns, bind in R.
  match type of R with let (_, _) := ?r in _ => destruct r as [z1 o1] end.
  destruct R as (C1 & R). destruct o1 as [a|e| | |].
  - destruct R as (L1 & LE1 & S1).
    apply (after_le i D z z1); [auto|auto|].
    destruct (Nat.ltb_spec (cpos (z_cur z1)) (List.length i)) as [LT|GE].
    + apply (after_fetches i D fuel (fetch_next_content fuel)). apply f_content; auto.
    + assert (LE := proj1 (proj2 C1)).
      unfold fetch_next_content. cbv zeta. rewrite (empty_here i _ C1).
      destruct (Nat.leb_spec (List.length i) (cpos (z_cur z1))); [|lia].
      apply f_stream_end; auto. lia.
  - cbn [after]. auto.
  - tauto.
  - tauto.
  - cbn [after]. auto.
Qed.
