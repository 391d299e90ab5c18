(** Every token of the scanner stands in the text at its place. *)
From Verif Require Import Base Tokens Scalar Chars Source SourceProofs Cursor Scanner SpecScan CursorProofs CursorRuns CursorScalars ScannerInv ScannerFetch ScannerRun ScannerTheorems
  SpecScalar SpecJson SpecQuoted SpecBlock SpecPlain SpecStrings SpecProps SpecAccept ExactCursor FoldedQuotes QuotedOnly PropsOnly PlainOnly BlockOnly.
From Coq Require Import String Lia ZifyBool ZifyNat ZifyN.
Local Open Scope list_scope.
Local Open Scope m_scope.

(** ** Places *)
Lemma mark_after_place q : forall pre, marker_after q (mark_of pre) = mark_of (pre ++ q).
Proof.
  induction q as [|b q IH]; intros pre; [now rewrite app_nil_r|]. replace (pre ++ b :: q) with ((pre ++ [b]) ++ q) by now rewrite <- app_assoc.
  rewrite <- IH, mark_of_snoc. destruct (N.eqb_spec b 10) as [-> |NE]; [reflexivity|now rewrite marker_step].
Qed.
Lemma place_of i pre rest : i = pre ++ rest -> place i (List.length pre) (mark_of pre).
Proof. intros ->. split; [rewrite app_length; lia|]. rewrite firstn_app, Nat.sub_diag, firstn_all, app_nil_r. apply mark_of_place. Qed.
Lemma mark_col pre : m_col (mark_of pre) = 1%N -> on_new_line pre.
Proof.
  intros C. destruct (mark_of_place pre) as (_ & _ & b & ln & -> & _ & B & EC). rewrite C in EC. destruct ln; [|cbn [List.length] in EC; lia]. rewrite app_nil_r. exact B.
Qed.
Lemma cok_cur i c : cok i c -> exists pre rest l s, i = pre ++ rest /\ c = cur pre rest (mark_of pre) l s.
Proof.
  intros (E & L & M). destruct c as [[inp p] m l s]. unfold cpos in *. cbn [c_src ss_input ss_pos c_mark] in *. subst.
  exists (firstn p i), (skipn p i), l, s. rewrite firstn_skipn. split; [reflexivity|]. unfold cur, at_pos. rewrite firstn_skipn, firstn_length, Nat.min_l by exact L. reflexivity.
Qed.

Lemma col_pos' pre : (0 < m_col (mark_of pre))%N.
Proof. unfold mark_of. cbn [m_col]. lia. Qed.
(** ** Steps *)
Definition keep (i : text) (z : scanner) : Prop := Forall (stands i) (z_tokens z).
Definition here (pre rest : text) (z : scanner) : Prop := exists l s, z_cur z = cur pre rest (mark_of pre) l s.
(** Neither the cursor's place nor the tokens change. *)
Definition still {A} (m : SM A) : Prop := forall z z' a, m z = (z', Ok a) -> z_tokens z' = z_tokens z /\ forall pre rest, here pre rest z -> here pre rest z'.
(** The cursor's place does not change, and only standing tokens are added. *)
Definition calm {A} (i : text) (m : SM A) : Prop := forall z z' a, m z = (z', Ok a) -> keep i z -> keep i z' /\ forall pre rest, here pre rest z -> here pre rest z'.
Lemma same_cur z z' : z_cur z' = z_cur z -> forall pre rest, here pre rest z -> here pre rest z'.
Proof. intros E pre rest (l & s & H). exists l, s. congruence. Qed.
Ltac same := intros z z' a H; injection H as <- _; split; [reflexivity|apply same_cur; reflexivity].
Lemma still_save : still save_simple_key.
Proof. intros z z' a H. injection H as <- _. destruct (c_ska (z_cur z)); (split; [reflexivity|apply same_cur; reflexivity]). Qed.
Lemma still_remove : still remove_simple_key.
Proof.
  intros z z' a H. unfold remove_simple_key in H. destruct (z_keys z) as [|k r]; [discriminate|]. destruct (sk_possible k && sk_required k); [discriminate|]. injection H as <- _.
  split; [reflexivity|apply same_cur; reflexivity].
Qed.
Lemma still_one_col : still roll_one_col_indent.
Proof.
  intros z z' a H. injection H as <- _. destruct (z_indents z) as [|[j []] r]; try (split; [reflexivity|apply same_cur; reflexivity]).
  destruct (z_flow z =? 0)%N; (split; [reflexivity|apply same_cur; reflexivity]).
Qed.
Lemma still_non_block : still unroll_non_block_indents.
Proof. intros z z' a H. injection H as <- _. destruct (unroll_non_block_loop (z_indent z) (z_indents z)). split; [reflexivity|apply same_cur; reflexivity]. Qed.
Lemma still_increase : still increase_flow_level.
Proof. intros z z' a H. unfold increase_flow_level in H. cbv zeta in H. destruct (z_flow _ =? 4294967295)%N; [discriminate|]. injection H as <- _. split; [reflexivity|apply same_cur; reflexivity]. Qed.
Lemma still_decrease : still decrease_flow_level.
Proof.
  intros z z' a H. unfold decrease_flow_level in H. destruct (0 <? z_flow z)%N; [destruct (z_keys z); [discriminate|]|]; injection H as <- _; (split; [reflexivity|apply same_cur; reflexivity]).
Qed.
Lemma still_stale : still stale_simple_keys.
Proof.
  intros z z' a H. unfold stale_simple_keys in H. destruct (stale_loop _ _ _) as [k []]; [discriminate|]. injection H as <- _. split; [reflexivity|apply same_cur; reflexivity].
Qed.
Lemma still_gets {A} (f : scanner -> A) : still (gets f).
Proof. same. Qed.
Lemma still_ret {A} (x : A) : still (ret x).
Proof. same. Qed.
Lemma still_ska b : still (lift (set_ska b)).
Proof. intros z z' a H. injection H as <- _. split; [reflexivity|]. intros pre rest (l & s & E). exists l, b. cbn [set_cur z_cur]. unfold set_ska, modify. rewrite E. reflexivity. Qed.
Lemma still_mark : still zmark.
Proof. intros z z' a H. injection H as <- _. split; [reflexivity|apply same_cur; reflexivity]. Qed.
Lemma lift_ok {A} (m : CM A) z z' a : lift m z = (z', Ok a) -> exists c, m (z_cur z) = (c, Ok a) /\ z' = set_cur c z.
Proof. unfold lift. destruct (m (z_cur z)) as [c o]. intros H. injection H as <- ->. now exists c. Qed.
Lemma mark_here pre rest z z' m : zmark z = (z', Ok m) -> here pre rest z -> m = mark_of pre.
Proof. intros H (l & s & E). unfold zmark, lift, get_mark, gets in H. rewrite E in H. now injection H as _ <-. Qed.
Lemma still_calm {A} i (m : SM A) : still m -> calm i m.
Proof. intros S z z' a H K. destruct (S _ _ _ H) as [T P]. split; [unfold keep; now rewrite T|exact P]. Qed.

Lemma stands_implied i m t : implied t -> stands i (Token (span_empty m) t).
Proof. intros I. right. split; [exact I|reflexivity]. Qed.
Ltac implies := unfold implied; cbn; tauto.
Lemma calm_push i s t : stands i (Token s t) -> calm i (push_token s t).
Proof. intros P z z' a H K. injection H as <- _. split; [|apply same_cur; reflexivity]. apply Forall_app. split; [exact K|]. constructor; [exact P|constructor]. Qed.
Lemma calm_insert i n s t : stands i (Token s t) -> calm i (insert_token n s t).
Proof.
  intros P z z' a H K. unfold insert_token in H. destruct (Nat.ltb n (z_parsed z)); [discriminate|]. cbv zeta in H. destruct (Nat.leb _ _); [|discriminate]. injection H as <- _.
  split; [|apply same_cur; reflexivity]. unfold keep in *. cbn [set_tokens z_tokens]. rewrite <- (firstn_skipn (n - z_parsed z) (z_tokens z)) in K. apply Forall_app in K. destruct K as [K1 K2].
  apply Forall_app. split; [exact K1|now constructor].
Qed.
Lemma calm_roll i col n t m : stands i (Token (span_empty m) t) -> calm i (roll_indent col n t m).
Proof.
  intros P z z' a H K. unfold roll_indent in H. destruct (0 <? z_flow z)%N; [injection H as <- _; split; [exact K|apply same_cur; reflexivity]|]. cbv zeta in H.
  assert (D : z_tokens (drop_one_col col z) = z_tokens z /\ z_cur (drop_one_col col z) = z_cur z).
  { unfold drop_one_col. destruct (z_indent z <=? col)%N; [|now split]. destruct (z_indents z) as [|[j []] r]; now split. }
  destruct D as [DT DC]. destruct (z_indent (drop_one_col col z) <? col)%N.
  - remember (set_indent col (set_indents ((z_indent (drop_one_col col z), true) :: z_indents (drop_one_col col z)) (drop_one_col col z))) as z1 eqn:E1.
    assert (K1 : keep i z1) by (unfold keep; rewrite E1; cbn [set_indent set_indents z_tokens]; now rewrite DT).
    assert (C1 : z_cur z1 = z_cur z) by (rewrite E1; exact DC).
    destruct n as [n|]; [destruct (calm_insert i n _ _ P _ _ _ H K1) as [H1 H2]|destruct (calm_push i _ _ P _ _ _ H K1) as [H1 H2]];
      (split; [exact H1|]; intros pre rest HE; apply H2; now apply (same_cur z)).
  - injection H as <- _. split; [unfold keep; now rewrite DT|now apply same_cur].
Qed.
Lemma unroll_loop_stands i m : forall l col ind toks ind' l' toks', unroll_loop col m ind l toks = Some (ind', l', toks') -> Forall (stands i) toks -> Forall (stands i) toks'.
Proof.
  induction l as [|[j b] l IH]; intros col ind toks ind' l' toks' H F; cbn [unroll_loop] in H; (destruct (col <? ind)%N; [|injection H as <- <- <-; exact F]); [discriminate|].
  apply IH in H; [exact H|]. destruct b; [|exact F]. apply Forall_app. split; [exact F|]. constructor; [|constructor]. apply stands_implied. implies.
Qed.
Lemma calm_unroll i col : calm i (unroll_indent col).
Proof.
  intros z z' a H K. unfold unroll_indent in H. destruct (0 <? z_flow z)%N; [injection H as <- _; split; [exact K|apply same_cur; reflexivity]|].
  destruct (unroll_loop _ _ _ _ _) as [[[ind l] toks]|] eqn:E; [|discriminate]. injection H as <- _. split; [|apply same_cur; reflexivity]. exact (unroll_loop_stands i _ _ _ _ _ _ _ _ E K).
Qed.
Lemma calm_end_implicit i pre rest z z' a : end_implicit_mapping (mark_of pre) z = (z', Ok a) -> keep i z -> here pre rest z -> keep i z' /\ here pre rest z'.
Proof.
  intros H K HE. pose proof HE as (l & s & E). unfold end_implicit_mapping in H. destruct (z_implicit z) as [|[] r]; try (injection H as <- _; now split).
  assert (P : stands i (Token (Span (mark_of pre) (c_mark (z_cur (set_implicit (IPossible :: r) (set_flow_started false z))))) TFlowMappingEnd)).
  { cbn [set_implicit set_flow_started z_cur]. rewrite E. apply (stands_implied i (mark_of pre)). implies. }
  destruct (calm_push i _ _ P _ _ _ H K) as [H1 H2]. split; [exact H1|]. apply H2. now exists l, s.
Qed.

(** What happens to the cursor after the token's place is known does not matter. *)
Definition only {A} (i : text) (m : SM A) : Prop := forall z z' a, m z = (z', Ok a) -> keep i z -> keep i z'.
Lemma calm_only {A} i (m : SM A) : calm i m -> only i m.
Proof. intros C z z' a H K. exact (proj1 (C _ _ _ H K)). Qed.
Lemma only_lift {A} i (m : CM A) : only i (lift m).
Proof. intros z z' a H K. apply lift_ok in H. destruct H as (c & _ & ->). exact K. Qed.
Lemma only_bind {A B} i (m : SM A) (k : A -> SM B) : only i m -> (forall a, only i (k a)) -> only i (bind m k).
Proof. intros M K z z' a H KZ. next_step H z1 x E. exact (K _ _ _ _ H (M _ _ _ E KZ)). Qed.
Lemma only_err {A} i m msg : only (A := A) i (zerr m msg).
Proof. intros z z' a H. discriminate. Qed.
Lemma only_modify i f : (forall z, z_tokens (f z) = z_tokens z) -> only i (modify f).
Proof. intros F z z' a H K. injection H as <- _. unfold keep. now rewrite F. Qed.
Lemma only_next i fuel : only i (zskip_to_next_token fuel).
Proof. intros z z' a H. unfold zskip_to_next_token in H. exact (only_lift i _ _ _ _ H). Qed.
Ltac onlys :=
  repeat match goal with
  | |- only _ (bind _ _) => apply only_bind; [|intros ?]
  | |- only _ (lift _) => apply only_lift
  | |- only _ zmark => apply only_lift
  | |- only _ (zpeek _) => apply only_lift
  | |- only _ (zskip_to_next_token _) => apply only_next
  | |- only _ (zerr _ _) => apply only_err
  | |- only _ (ret _) => apply calm_only, still_calm, still_ret
  | |- only _ (gets _) => apply calm_only, still_calm, still_gets
  | |- only _ remove_simple_key => apply calm_only, still_calm, still_remove
  | |- only _ roll_one_col_indent => apply calm_only, still_calm, still_one_col
  | |- only _ (modify _) => apply only_modify; intros ?; repeat match goal with |- context [if ?b then _ else _] => destruct b end; reflexivity
  | |- only _ (roll_indent _ _ _ _) => apply calm_only, calm_roll, stands_implied; implies
  | |- only _ (insert_token _ (span_empty _) _) => apply calm_only, calm_insert, stands_implied; implies
  | |- only _ (push_token (span_empty _) TFlowMappingStart) => apply calm_only, calm_push, stands_implied; implies
  | |- only _ (if ?b then _ else _) => destruct b
  | |- only _ (let (_, _) := ?p in _) => destruct p
  | |- only _ (push_token _ _) => apply calm_only, calm_push
  end.
(** Walking through a method: [H] says that it succeeds, [K] that the tokens stand, [P] where the cursor is. *)
Ltac walk H K P L := let z := fresh "z" in let a := fresh "a" in let E := fresh "E" in let K1 := fresh "K" in let P1 := fresh "P" in
  next_step H z a E; destruct (still_calm _ _ L _ _ _ E K) as [K1 P1]; clear K; rename K1 into K; apply P1 in P; clear P1 E.
Ltac marked H K P := let z := fresh "z" in let m := fresh "m" in let E := fresh "E" in let EM := fresh "EM" in let K1 := fresh "K" in let P1 := fresh "P" in
  next_step H z m E; pose proof (mark_here _ _ _ _ _ E P) as EM; destruct (still_calm _ _ still_mark _ _ _ E K) as [K1 P1]; clear K; rename K1 into K; apply P1 in P; clear P1 E; subst m.

Lemma signed_in i pre q after k m e t p r : i = pre ++ q ++ after -> written pre after q t k -> q = p ++ r -> List.length p = k -> m = mark_of (pre ++ p) -> (ends_with_text t -> e = mark_of (pre ++ q)) ->
  stands i (Token (Span m e) t).
Proof.
  intros -> W EQ EK -> EN. left. exists pre, q, after, k. cbn [k_span k_type s_start s_end]. split; [reflexivity|]. split; [exact W|]. split; [subst; rewrite app_length; lia|]. split.
  - rewrite <- EK, <- app_length. apply (place_of _ _ (r ++ after)). subst q. now rewrite <- !app_assoc.
  - intros N. rewrite (EN N). apply (place_of _ _ after). now rewrite <- app_assoc.
Qed.
Lemma signed i pre q after m e t : i = pre ++ q ++ after -> m = mark_of pre -> written pre after q t 0 -> (ends_with_text t -> e = mark_of (pre ++ q)) -> stands i (Token (Span m e) t).
Proof. intros EI -> W EN. apply (signed_in i pre q after 0 _ e t [] q); auto. now rewrite app_nil_r. Qed.
Ltac sign t := apply (signed _ _ t); [reflexivity|reflexivity|try constructor|intros []].
Ltac fin H K := refine ((_ : only _ _) _ _ _ H K); onlys.

Lemma s_open i pre rest fuel (is_map : bool) z z' a : fetch_flow_collection_start fuel is_map z = (z', Ok a) -> keep i z -> here pre ((if is_map then 123 else 91)%N :: rest) z ->
  i = pre ++ (if is_map then 123 else 91)%N :: rest -> keep i z'.
Proof.
  intros H K P EI. unfold fetch_flow_collection_start in H. walk H K P still_save. walk H K P still_one_col. walk H K P still_increase. walk H K P (still_ska true). marked H K P.
  fin H K. destruct is_map; [apply (signed i pre (str "{") rest)|apply (signed i pre (str "[") rest)]; try (exact EI || reflexivity || constructor); now intros [].
Qed.
Lemma s_close i pre rest fuel (is_map : bool) z z' a : fetch_flow_collection_end fuel is_map z = (z', Ok a) -> keep i z -> here pre ((if is_map then 125 else 93)%N :: rest) z ->
  i = pre ++ (if is_map then 125 else 93)%N :: rest -> keep i z'.
Proof.
  intros H K P EI. unfold fetch_flow_collection_end in H. walk H K P still_remove. walk H K P still_decrease. walk H K P (still_ska false). marked H K P.
  next_step H z4 u E. assert (K4 : keep i z4).
  { destruct is_map; [injection E as <- _; exact K|]. next_step E z5 u1 E1. destruct (calm_end_implicit i _ _ _ _ _ E1 K P) as [K5 _]. injection E as <- _. exact K5. }
  fin H K4. destruct is_map; [apply (signed i pre (str "}") rest)|apply (signed i pre (str "]") rest)]; try (exact EI || reflexivity || constructor); now intros [].
Qed.
Lemma s_comma i pre rest fuel z z' a : fetch_flow_entry fuel z = (z', Ok a) -> keep i z -> here pre (44%N :: rest) z -> i = pre ++ 44%N :: rest -> keep i z'.
Proof.
  intros H K P EI. unfold fetch_flow_entry in H. walk H K P still_remove. walk H K P (still_ska true). marked H K P.
  next_step H z4 u E. destruct (calm_end_implicit i _ _ _ _ _ E K P) as [K4 _]. fin H K4. apply (signed i pre (str ",") rest); try (exact EI || reflexivity || constructor). now intros [].
Qed.
Lemma s_dash i pre rest fuel z z' a : fetch_block_entry fuel z = (z', Ok a) -> keep i z -> here pre (45%N :: rest) z -> i = pre ++ 45%N :: rest -> In (nth 0 rest 0%N) white_or_end -> keep i z'.
Proof.
  intros H K P EI W. unfold fetch_block_entry in H. marked H K P.
  fin H K. apply (signed i pre (str "-") rest); try (exact EI || reflexivity). now constructor. now intros [].
Qed.
Lemma s_question i pre rest fuel z z' a : fetch_key fuel z = (z', Ok a) -> keep i z -> here pre (63%N :: rest) z -> i = pre ++ 63%N :: rest -> In (nth 0 rest 0%N) white_or_end -> keep i z'.
Proof.
  intros H K P EI W. unfold fetch_key in H. marked H K P.
  fin H K. apply (signed i pre (str "?") rest); try (exact EI || reflexivity). now constructor. now intros [].
Qed.
Lemma s_colon i pre rest fuel z z' a : fetch_value fuel z = (z', Ok a) -> keep i z -> here pre (58%N :: rest) z -> i = pre ++ 58%N :: rest -> keep i z'.
Proof.
  intros H K P EI. unfold fetch_value in H. walk H K P (still_gets z_keys). destruct a0 as [|k r]; [discriminate|]. marked H K P.
  fin H K. all: try (unfold value_tab_check; onlys).
  apply (signed i pre (str ":") rest); try (exact EI || reflexivity || constructor); now intros [].
Qed.
Lemma s_flow_value i pre rest fuel z z' a : fetch_flow_value fuel z = (z', Ok a) -> keep i z -> here pre (58%N :: rest) z -> i = pre ++ 58%N :: rest -> keep i z'.
Proof.
  intros H K P EI. unfold fetch_flow_value in H. next_step H z1 nc E. injection E as <- _. marked H K P. walk H K P (still_gets z_adjacent).
  match type of H with (if ?b then _ else _) _ = _ => destruct b; [discriminate|] end. eapply s_colon; [exact H|exact K|exact P|exact EI].
Qed.
Lemma lifted {A B} (m : CM A) (k : A -> SM B) pre rest z z' b : bind (lift m) k z = (z', Ok b) -> here pre rest z ->
  exists l s c a, m (cur pre rest (mark_of pre) l s) = (c, Ok a) /\ k a (set_cur c z) = (z', Ok b).
Proof. intros H (l & s & E). next_step H z1 a E1. apply lift_ok in E1. destruct E1 as (c & E1 & ->). rewrite E in E1. now exists l, s, c, a. Qed.
Lemma flat_place pre q : ~ In 10%N q -> mark_add (List.length q) (mark_of pre) = mark_of (pre ++ q).
Proof. intros N. now rewrite <- mark_after_place, marker_flat. Qed.
Lemma set_cur_keep i c z : keep i z -> keep i (set_cur c z).
Proof. exact (fun H => H). Qed.
Lemma three_is c pre rest m l s : next_is_three str_ops (c_src (cur pre rest m l s)) c = true -> c <> 0%N -> exists r, rest = c :: c :: c :: r.
Proof.
  unfold next_is_three. rewrite !cur_peek. intros H N. destruct rest as [|a0 [|a1 [|a2 r]]]; cbn [nth] in H; try lia. exists r. f_equal; [lia|]. f_equal; [lia|]. f_equal. lia.
Qed.
Lemma s_marker i pre rest c t z z' a : fetch_document_indicator t z = (z', Ok a) -> keep i z -> here pre (c :: c :: c :: rest) z -> i = pre ++ c :: c :: c :: rest -> c <> 10%N ->
  written pre rest [c; c; c] t 0 -> keep i z'.
Proof.
  intros H K P EI N W. unfold fetch_document_indicator in H. next_step H z1 u E. destruct (calm_unroll i 0 _ _ _ E K) as [K1 P1]. apply P1 in P. clear P1 E K.
  walk H K1 P still_remove. walk H K1 P (still_ska false). marked H K1 P. apply (lifted _ _ _ _ _ _ _) with (1 := H) in P. destruct P as (l & s & c1 & u1 & E & H').
  change (c :: c :: c :: rest) with ([c; c; c] ++ rest) in E. rewrite (e_skip_n [c; c; c] pre rest (mark_of pre) l s 3 eq_refl) in E. injection E as <- _. clear H. rename H' into H. next_step H z5 m E. unfold zmark in E. apply lift_ok in E. destruct E as (c2 & E & ->).
  cbn [set_cur z_cur] in E. rewrite e_get_mark in E. injection E as <- <-. injection H as <- _.
  apply Forall_app. split; [exact K1|]. constructor; [|constructor]. apply (signed i pre [c; c; c] rest); [exact EI|reflexivity|exact W|]. intros _. apply (flat_place pre [c; c; c]).
  intros [X|[X|[X|[]]]]; congruence.
Qed.
Lemma s_finish i pre rest fuel z z' a : finish_document fuel z = (z', Ok a) -> keep i z -> here pre (46%N :: 46%N :: 46%N :: rest) z -> i = pre ++ 46%N :: 46%N :: 46%N :: rest ->
  on_new_line pre -> In (nth 0 rest 0%N) white_or_end -> keep i z'.
Proof.
  intros H K P EI N W. unfold finish_document in H. next_step H z1 u E. assert (K1 : keep i z1) by (apply (s_marker i _ _ _ _ _ _ _ E K P EI); [discriminate|now apply (wr_document_end pre rest)]).
  fin H K1.
Qed.
(** Texts within a line. *)
Definition flat (w : text) : Prop := Forall (fun b => b <> 10%N) w.
Lemma flat_no w : flat w -> ~ In 10%N w.
Proof. intros F I. unfold flat in F. rewrite Forall_forall in F. now apply (F _ I). Qed.
Lemma flat_of (P : N -> Prop) w : (forall b, P b -> b <> 10%N) -> Forall P w -> flat w.
Proof. intros H F. apply (Forall_impl _ H F). Qed.
Ltac flats := repeat first [assumption|apply Forall_nil|(apply Forall_cons; [discriminate|])|(apply Forall_app; split)].
Lemma word_flat b : SpecProps.word_byte b -> b <> 10%N.
Proof. intros [H|[H|[H|H]]]; lia. Qed.
Lemma handle_flat b : handle_byte b -> b <> 10%N.
Proof. intros [H| ->]; [now apply word_flat|discriminate]. Qed.
Lemma uri_flat b : uri_byte b -> b <> 10%N.
Proof. intros [H|H]; [now apply word_flat|]. intros ->. vm_compute in H. repeat (destruct H as [H|H]; [discriminate|]). exact H. Qed.
Lemma tag_flat b : tag_byte b -> b <> 10%N.
Proof. intros [H _]. now apply uri_flat. Qed.
Lemma white_flat b : white_byte b -> b <> 10%N.
Proof. intros [-> | ->]; discriminate. Qed.
Lemma percent_flat b x : percent b x -> flat x.
Proof. intros (h & -> & _ & F & _). constructor; [discriminate|]. apply (flat_of hex_digit); [|exact F]. unfold hex_digit. intros; lia. Qed.
Lemma uri_text_flat (plain : N -> Prop) w v : (forall b, plain b -> b <> 10%N) -> taken_uri plain w v -> flat w.
Proof.
  intros P. induction 1 as [|b w v B _ IH|b x w v _ PX _ IH|a b x y u w v _ _ PX PY _ _ IH]; [constructor|constructor; [now apply P|exact IH]|apply Forall_app; split; [exact (percent_flat _ _ PX)|exact IH]|].
  apply Forall_app. split; [exact (percent_flat _ _ PX)|]. apply Forall_app. split; [exact (percent_flat _ _ PY)|exact IH].
Qed.
Lemma tag_text_flat q h v : taken_tag q h v -> flat q.
Proof.
  intros [w v' U|h' w v' F _ U|w v' _ U|].
  - assert (X := uri_text_flat _ _ _ uri_flat U). change (str "!<") with [33; 60]%N. change (str ">") with [62%N]. cbn [app]. flats.
  - assert (X := uri_text_flat _ _ _ tag_flat U). assert (Y := flat_of _ _ handle_flat F). change (str "!") with [33%N]. cbn [app]. flats.
  - assert (X := uri_text_flat _ _ _ tag_flat U). change (str "!") with [33%N]. cbn [app]. flats.
  - change (str "!") with [33%N]. flats.
Qed.
Lemma directive_flat q t : taken_directive q t -> flat q.
Proof.
  intros [s wa a wb b [_ S] A B|s h s' w p' [_ S] TH S' TP|n r _ N _ _ R].
  - assert (X := flat_of _ _ white_flat S).
    assert (D : forall w n, version_number false w n -> flat w). { intros w n (_ & F & _). refine (flat_of _ _ _ F). unfold digit_byte. intros; lia. }
    apply D in A, B. change (str "%YAML") with [37; 89; 65; 77; 76]%N. change (str ".") with [46%N]. cbn [app]. flats.
  - assert (X := flat_of _ _ white_flat S). assert (X' := flat_of _ _ white_flat S').
    assert (Y : flat h). { destruct TH as [|h F]; [change (str "!") with [33%N]; flats|]. assert (Z := flat_of _ _ handle_flat F). change (str "!") with [33%N]. cbn [app]. flats. }
    assert (Z : flat w). { destruct TP as [w v U|w v _ U]; assert (Z := uri_text_flat _ _ _ uri_flat U); [change (str "!") with [33%N]; cbn [app]; flats|exact Z]. }
    change (str "%TAG") with [37; 84; 65; 71]%N. cbn [app]. flats.
  - assert (X := flat_of _ _ handle_flat N). assert (Y : flat r). { destruct R as [-> |[_ F]]; [constructor|]. refine (flat_of _ _ _ F); intros x HX ->; apply HX; cbn; tauto. }
    change (str "%") with [37%N]. cbn [app]. flats.
Qed.
Lemma anchor_flat n : anchor_name n -> flat n.
Proof. intros [_ F]. refine (flat_of _ _ _ F); intros x HX ->; apply HX; cbn; tauto. Qed.

Lemma pushed i s t z z' a : push_token s t z = (z', Ok a) -> keep i z -> stands i (Token s t) -> keep i z'.
Proof. intros H K S. exact (proj1 (calm_push i s t S _ _ _ H K)). Qed.
Lemma s_directive i pre rest fuel z z' a : fetch_directive fuel z = (z', Ok a) -> keep i z -> here pre (37%N :: rest) z -> i = pre ++ 37%N :: rest -> on_new_line pre -> keep i z'.
Proof.
  intros H K P EI N. unfold fetch_directive in H. next_step H z1 u E. destruct (calm_unroll i 0 _ _ _ E K) as [K1 P1]. apply P1 in P. clear P1 E K.
  walk H K1 P still_remove. walk H K1 P (still_ska false). destruct (lifted _ _ _ _ _ _ _ H P) as (l & s & c & tok & E & H'). clear H.
  apply directive_only in E. destruct E as (q & after & EQ & T & LD & _ & SP). refine (pushed i _ _ _ _ _ H' K1 _). rewrite SP.
  apply (signed i pre q after); [now rewrite <- EQ|reflexivity|now apply wr_directive|]. intros _. apply flat_place, flat_no, (directive_flat _ _ T).
Qed.
Lemma s_anchor i pre rest fuel (alias : bool) z z' a : fetch_anchor fuel alias z = (z', Ok a) -> keep i z -> here pre ((if alias then 42 else 38)%N :: rest) z ->
  i = pre ++ (if alias then 42 else 38)%N :: rest -> keep i z'.
Proof.
  intros H K P EI. unfold fetch_anchor in H. walk H K P still_save. walk H K P (still_ska false). destruct (lifted _ _ _ _ _ _ _ H P) as (l & s & c & tok & E & H'). clear H.
  apply anchor_only in E. destruct E as (n & after & -> & A & S & _ & ->). refine (pushed i _ _ _ _ _ H' K _). cbn [k_span k_type].
  assert (F := anchor_flat _ A). destruct alias; [apply (signed i pre (42%N :: n) after)|apply (signed i pre (38%N :: n) after)];
    try (exact EI || reflexivity || (now constructor)); intros _; (apply (flat_place pre (_ :: n)), flat_no; constructor; [discriminate|exact F]).
Qed.
Lemma s_tag i pre rest fuel z z' a : fetch_tag fuel z = (z', Ok a) -> keep i z -> here pre (33%N :: rest) z -> i = pre ++ 33%N :: rest -> keep i z'.
Proof.
  intros H K P EI. unfold fetch_tag in H. walk H K P still_save. walk H K P (still_ska false). walk H K P (still_gets z_flow). destruct (lifted _ _ _ _ _ _ _ H P) as (l & s & c & tok & E & H'). clear H.
  apply tag_only in E. destruct E as (q & after & h & v & EQ & T & S & _ & ->). refine (pushed i _ _ _ _ _ H' K _). cbn [k_span k_type].
  apply (signed i pre q after); [now rewrite <- EQ|reflexivity|now apply (wr_tag _ _ _ _ _ _ T S)|]. intros _. apply flat_place, flat_no, (tag_text_flat _ _ _ T).
Qed.
Lemma s_quoted i pre rest fuel single z z' a : fetch_flow_scalar fuel single z = (z', Ok a) -> keep i z -> here pre (quote_byte single :: rest) z -> i = pre ++ quote_byte single :: rest -> keep i z'.
Proof.
  intros H K P EI. unfold fetch_flow_scalar in H. walk H K P still_save. walk H K P (still_ska false). walk H K P (still_gets z_indent). walk H K P (still_gets z_flow).
  destruct (lifted _ _ _ _ _ _ _ H P) as (l & s & c & tok & E & H'). clear H.
  apply quoted_only in E; [|apply col_pos'].
  destruct E as (q & v & r & after & EQ & T & _ & _ & _ & _ & _ & ->). refine ((_ : only i _) _ _ _ H' K). onlys. cbn [k_span k_type].
  apply (signed i pre q (r ++ after)); [now rewrite <- EQ|reflexivity|destruct single; [apply (wr_quoted _ _ true _ _ _ T)|apply (wr_quoted _ _ false _ _ _ T)]|]. destruct single; now intros [].
Qed.
Lemma s_plain i pre rest fuel z z' a : fetch_plain_scalar fuel z = (z', Ok a) -> keep i z -> here pre rest z -> i = pre ++ rest -> no_blank rest ->
  (forall z1 b, unroll_non_block_indents z = (z1, b) -> (z_indent z1 <= m_col (mark_of pre))%N) -> keep i z'.
Proof.
  intros H K P EI NB CO. unfold fetch_plain_scalar in H.
  next_step H z1 u E. assert (I1 : z_indents z1 = z_indents z /\ z_indent z1 = z_indent z) by (injection E as <- _; destruct (c_ska (z_cur z)); now split).
  destruct (still_calm i _ still_save _ _ _ E K) as [K1 P1]. apply P1 in P. clear P1 E K.
  next_step H z2 u2 E. assert (I2 : z_indents z2 = z_indents z /\ z_indent z2 = z_indent z) by (injection E as <- _; exact I1).
  destruct (still_calm i _ (still_ska false) _ _ _ E K1) as [K2 P1]. apply P1 in P. clear P1 E K1.
  next_step H z3 u3 E. assert (I3 : (z_indent z3 <= m_col (mark_of pre))%N).
  { destruct I2 as [IA IB]. injection E as <- _. destruct (unroll_non_block_loop (z_indent z2) (z_indents z2)) as [ii rr] eqn:EU. cbn [set_indent z_indent].
    rewrite IA, IB in EU. specialize (CO _ _ eq_refl). rewrite EU in CO. exact CO. }
  destruct (still_calm i _ still_non_block _ _ _ E K2) as [K3 P1]. apply P1 in P. clear P1 E K2.
  next_step H z4 ind E. injection E as <- <-. next_step H z4 flv E. injection E as <- <-.
  destruct (lifted _ _ _ _ _ _ _ H P) as (l & s & c & tok & E & H'). clear H.
  apply plain_only in E; [|exact NB|now intros _]. destruct E as (q & v & after & -> & T & _ & _ & ->). refine (pushed i _ _ _ _ _ H' K3 _). cbn [k_span k_type].
  apply (signed i pre q after); [exact EI|reflexivity|now apply (wr_plain _ _ _ _ _ _ T)|]. intros _. apply mark_after_place.
Qed.
Lemma s_block i pre rest fuel (literal : bool) z z' a : fetch_block_scalar fuel literal z = (z', Ok a) -> keep i z -> here pre (block_sign literal :: rest) z ->
  i = pre ++ block_sign literal :: rest -> keep i z'.
Proof.
  intros H K P EI. unfold fetch_block_scalar in H. walk H K P still_save. walk H K P (still_ska true). marked H K P.
  next_step H z3 u E. apply lift_ok in E. destruct E as (c & E & ->). destruct P as (l & s & EC). rewrite EC, e_skip_non_blank in E. injection E as <- <-.
  next_step H z4 u1 E1. assert (P4 : here (pre ++ [block_sign literal]) rest (set_cur (cur (pre ++ [block_sign literal]) rest (mark_add 1 (mark_of pre)) false s) z2)).
  { exists false, s. cbn [set_cur z_cur]. f_equal. rewrite <- mark_after_place. symmetry. apply marker_flat. destruct literal; cbn; intros [X|[]]; discriminate X. }
  destruct (still_calm i _ still_non_block _ _ _ E1 K) as [K4 P4']. apply P4' in P4. clear E1 P4' EC.
  next_step H z5 ind E2. injection E2 as <- _. destruct (lifted _ _ _ _ _ _ _ H P4) as (l2 & s2 & c & tok & E2 & H'). clear H.
  apply block_only in E2; [|rewrite <- mark_after_place; rewrite marker_flat; [reflexivity|destruct literal; cbn; intros [X|[]]; discriminate X]].
  destruct E2 as (q & v & k & after & p & r & -> & T & EQ & EK & ->). refine (pushed i _ _ _ _ _ H' K4 _). cbn [k_span k_type].
  apply (signed_in i pre (block_sign literal :: q) after k _ _ _ p r).
  - rewrite EI. reflexivity.
  - apply (wr_block pre after literal _ _ _ _ T).
  - exact EQ.
  - exact EK.
  - destruct p as [|b p]; subst k; [now rewrite app_nil_r|]. cbn [List.length tl]. cbn [app] in EQ. injection EQ as <- _. rewrite mark_after_place, <- app_assoc. reflexivity.
  - intros _. rewrite mark_after_place, <- app_assoc. reflexivity.
Qed.

(** ** The next token *)
Lemma wb_white b : is_blank_or_breakz b = true -> In b white_or_end.
Proof. unfold is_blank_or_breakz, is_breakz, is_blank_or_break, is_blank, is_break, white_or_end. cbn [In]. lia. Qed.
Lemma s_main i pre b rest fuel z z' a : fetch_main_loop fuel z = (z', Ok a) -> keep i z -> here pre (b :: rest) z -> i = pre ++ b :: rest -> no_blank (b :: rest) ->
  (forall z1 u, unroll_non_block_indents z = (z1, u) -> (z_indent z1 <= m_col (mark_of pre))%N) -> keep i z'.
Proof.
  intros H K P EI NB CO. pose proof P as (l & s & EC). unfold fetch_main_loop in H.
  next_step H z1 c E. unfold zpeek in E. apply lift_ok in E. destruct E as (c1 & E & ->). rewrite EC, e_peek in E. injection E as <- <-. rewrite <- EC, set_cur_self in H.
  next_step H z1 x E. unfold zpeek in E. apply lift_ok in E. destruct E as (c1 & E & ->). rewrite EC, e_peek in E. injection E as <- <-. rewrite <- EC, set_cur_self in H.
  next_step H z1 flv E. injection E as <- <-. next_step H z1 m E. unfold zmark in E. apply lift_ok in E. destruct E as (c1 & E & ->). injection E as <- <-. rewrite set_cur_self in H.
  next_step H z1 adj E. injection E as <- <-. cbn [nth] in H.
  destruct (b =? 91)%N eqn:Q; [apply N.eqb_eq in Q; subst b; exact (s_open i pre rest fuel false _ _ _ H K P EI)|clear Q].
  destruct (b =? 123)%N eqn:Q; [apply N.eqb_eq in Q; subst b; exact (s_open i pre rest fuel true _ _ _ H K P EI)|clear Q].
  destruct (b =? 93)%N eqn:Q; [apply N.eqb_eq in Q; subst b; exact (s_close i pre rest fuel false _ _ _ H K P EI)|clear Q].
  destruct (b =? 125)%N eqn:Q; [apply N.eqb_eq in Q; subst b; exact (s_close i pre rest fuel true _ _ _ H K P EI)|clear Q].
  destruct (b =? 44)%N eqn:Q; [apply N.eqb_eq in Q; subst b; exact (s_comma i pre rest fuel _ _ _ H K P EI)|clear Q].
  destruct ((b =? 45)%N && is_blank_or_breakz (nth 0 rest 0%N)) eqn:Q; [apply andb_prop in Q; destruct Q as [Q W]; apply N.eqb_eq in Q; apply wb_white in W; subst b; exact (s_dash i pre rest fuel _ _ _ H K P EI W)|clear Q].
  destruct ((b =? 63)%N && is_blank_or_breakz (nth 0 rest 0%N)) eqn:Q; [apply andb_prop in Q; destruct Q as [Q W]; apply N.eqb_eq in Q; apply wb_white in W; subst b; exact (s_question i pre rest fuel _ _ _ H K P EI W)|clear Q].
  destruct ((b =? 58)%N && is_blank_or_breakz (nth 0 rest 0%N)) eqn:Q; [apply andb_prop in Q; destruct Q as [Q W]; apply N.eqb_eq in Q; subst b; exact (s_colon i pre rest fuel _ _ _ H K P EI)|clear Q].
  match type of H with (if ?t then _ else _) _ = _ => destruct t eqn:Q end; [apply andb_prop in Q; destruct Q as [Q W]; apply N.eqb_eq in Q; subst b; exact (s_flow_value i pre rest fuel _ _ _ H K P EI)|clear Q].
  destruct (b =? 42)%N eqn:Q; [apply N.eqb_eq in Q; subst b; exact (s_anchor i pre rest fuel true _ _ _ H K P EI)|clear Q].
  destruct (b =? 38)%N eqn:Q; [apply N.eqb_eq in Q; subst b; exact (s_anchor i pre rest fuel false _ _ _ H K P EI)|clear Q].
  destruct (b =? 33)%N eqn:Q; [apply N.eqb_eq in Q; subst b; exact (s_tag i pre rest fuel _ _ _ H K P EI)|clear Q].
  match type of H with (if ?t then _ else _) _ = _ => destruct t eqn:Q end; [apply andb_prop in Q; destruct Q as [Q W]; apply N.eqb_eq in Q; subst b; exact (s_block i pre rest fuel true _ _ _ H K P EI)|clear Q].
  match type of H with (if ?t then _ else _) _ = _ => destruct t eqn:Q end; [apply andb_prop in Q; destruct Q as [Q W]; apply N.eqb_eq in Q; subst b; exact (s_block i pre rest fuel false _ _ _ H K P EI)|clear Q].
  destruct (b =? 39)%N eqn:Q; [apply N.eqb_eq in Q; subst b; exact (s_quoted i pre rest fuel true _ _ _ H K P EI)|clear Q].
  destruct (b =? 34)%N eqn:Q; [apply N.eqb_eq in Q; subst b; exact (s_quoted i pre rest fuel false _ _ _ H K P EI)|clear Q].
  repeat match type of H with (if ?t then _ else _) _ = _ => destruct t end; try exact (s_plain i pre (b :: rest) fuel _ _ _ H K P EI NB CO).
  unfold unexpected_character in H. destruct (str_peek_char _); discriminate.
Qed.
Lemma s_content i pre rest fuel z z' a : fetch_next_content fuel z = (z', Ok a) -> keep i z -> here pre rest z -> i = pre ++ rest -> no_blank rest ->
  (forall z1 u, (z_indent z <= m_col (mark_of pre))%N -> unroll_non_block_indents z = (z1, u) -> (z_indent z1 <= m_col (mark_of pre))%N) -> keep i z'.
Proof.
  intros H K P EI NB CO. pose proof P as (l & s & EC). unfold fetch_next_content in H. cbv zeta in H.
  destruct (str_buf_is_empty (c_src (z_cur z))) eqn:EE.
  { clear - H K. unfold fetch_stream_end in H. next_step H z1 u E. assert (K1 : keep i z1) by (injection E as <- _; destruct (negb _); exact K). clear E K.
    next_step H z2 u2 E. assert (K2 : keep i z2) by (destruct (end_keys_loop _) as [kk []]; [discriminate|injection E as <- _; exact K1]). clear E K1.
    next_step H z3 u3 E. destruct (calm_unroll i 0 _ _ _ E K2) as [K3 _]. clear E K2. next_step H z4 u4 E. destruct (still_calm i _ still_remove _ _ _ E K3) as [K4 _]. clear E K3.
    next_step H z5 u5 E. assert (K5 := only_lift i _ _ _ _ E K4). next_step H z6 m E1. assert (K6 := only_lift i _ _ _ _ E1 K5). refine (pushed i _ _ _ _ _ H K6 _). apply stands_implied. implies. }
  assert (R : forall zz, (if (m_col (c_mark (z_cur z)) <? z_indent z)%N then zerr (c_mark (z_cur z)) "invalid indentation" z else fetch_main_loop fuel z) = (zz, Ok a) -> keep i zz).
  { intros zz HZ. destruct (m_col (c_mark (z_cur z)) <? z_indent z)%N eqn:LT; [discriminate|]. rewrite EC in LT. cbn [cur c_mark] in LT.
    destruct rest as [|b rest].
    - exfalso. rewrite EC in EE. unfold str_buf_is_empty, cur in EE. cbn [c_src ss_input ss_pos] in EE. rewrite app_nil_r in EE. lia.
    - apply (s_main i pre b rest fuel _ _ _ HZ K P EI NB). intros z1 u U. apply (CO z1 u); [lia|exact U]. }
  destruct (m_col (c_mark (z_cur z)) =? 1)%N eqn:C1; [|now apply R].
  assert (NL : on_new_line pre) by (apply mark_col; rewrite EC in C1; cbn [cur c_mark] in C1; lia).
  unfold process_start in H. destruct (peekz str_ops (c_src (z_cur z)) 0 =? 37)%N eqn:Q.
  { rewrite EC, cur_peek in Q. apply N.eqb_eq in Q. destruct rest as [|b rest]; [discriminate|]. cbn [nth] in Q. subst b. exact (s_directive i pre rest fuel _ _ _ H K P EI NL). }
  clear Q. destruct (next_is_three str_ops (c_src (z_cur z)) 45 && is_blank_or_breakz (peekz str_ops (c_src (z_cur z)) 3)) eqn:Q.
  { rewrite EC, cur_peek in Q. apply andb_prop in Q. destruct Q as [Q W]. apply three_is in Q; [|discriminate]. destruct Q as (r & ->). apply wb_white in W.
    apply (s_marker i pre r 45 _ _ _ _ H K P EI); [discriminate|]. now apply (wr_document pre r). }
  clear Q. destruct (next_is_three str_ops (c_src (z_cur z)) 46 && is_blank_or_breakz (peekz str_ops (c_src (z_cur z)) 3)) eqn:Q; [|now apply R].
  rewrite EC, cur_peek in Q. apply andb_prop in Q. destruct Q as [Q W]. apply three_is in Q; [|discriminate]. destruct Q as (r & ->). apply wb_white in W.
  exact (s_finish i pre r fuel _ _ _ H K P EI NL W).
Qed.

Lemma non_block_le K : forall l ind, chain K ind l -> (fst (unroll_non_block_loop ind l) <= ind)%N.
Proof. induction l as [|[j []] l IH]; intros ind C; cbn [unroll_non_block_loop fst]; try lia. cbn [chain] in C. destruct C as (C1 & _ & C2). specialize (IH _ C2). lia. Qed.
Lemma s_next i D fuel z z' a : live i D z -> fetch_next_token fuel z = (z', Ok a) -> keep i z -> keep i z'.
Proof.
  intros L H K. unfold fetch_next_token in H. next_step H z0 st E. injection E as <- <-. rewrite (proj1 (l_flags _ _ _ L)) in H. cbn [negb] in H.
  next_step H z1 u1 E. assert (K1 := only_next i fuel _ _ _ E K).
  assert (R : zruns i D (zskip_to_next_token fuel) z (fun z' _ => is_blank (peekz str_ops (c_src (z_cur z')) 0) = false /\ is_break (peekz str_ops (c_src (z_cur z')) 0) = false) True True True).
  { apply zr_last, zr_next_token; [exact L|auto|]. intros c C1 _ B L1. now apply zr_ret. }
  unfold zruns in R. rewrite E in R. destruct R as (_ & L1 & _ & B1). clear E K L.
  next_step H z2 u2 E. destruct (still_calm i _ still_stale _ _ _ E K1) as [K2 _].
  assert (R : zruns i D stale_simple_keys z1 (fun z' _ => z_cur z' = z_cur z1) True True True) by (apply zr_last, zr_stale; [exact L1|]; intros ks L2; now apply zr_ret).
  unfold zruns in R. rewrite E in R. destruct R as (_ & L2 & _ & C2). clear E K1 L1. rewrite <- C2 in B1. clear C2 z1.
  next_step H z3 mm E. unfold zmark in E. apply lift_ok in E. destruct E as (c & E & ->). injection E as <- <-. rewrite set_cur_self in H.
  next_step H z4 u4 E. destruct (calm_unroll i _ _ _ _ E K2) as [K4 P4].
  assert (R : zruns i D (unroll_indent (m_col (c_mark (z_cur z2)))) z2 (fun _ _ => True) True True True) by (apply zr_last, zr_unroll; [exact L2|]; intros z5 L5 _ _ _; now apply zr_ret).
  unfold zruns in R. rewrite E in R. destruct R as (_ & L4 & _ & _). clear E K2.
  destruct (cok_cur i _ (l_cur _ _ _ L2)) as (pre & rest & l & s & EI & EC). assert (P : here pre rest z4) by (apply P4; now exists l, s). clear P4.
  rewrite EC, !cur_peek in B1.
  refine (s_content i pre rest fuel _ _ _ H K4 P EI _ _).
  - unfold no_blank. destruct B1 as [B1 B2]. unfold is_blank in B1. unfold is_break in B2. cbn [In]. lia.
  - intros z5 u LE U. unfold unroll_non_block_indents, modify in U. pose proof (non_block_le _ _ _ (l_chain _ _ _ L4)) as NB. destruct (unroll_non_block_loop (z_indent z4) (z_indents z4)) as [ind r]. cbn [fst] in NB.
    injection U as <- _. cbn [set_indent set_indents z_indent]. lia.
Qed.
Lemma s_more i D fuel : forall n z z' a, live i D z \/ ended i D z -> fetch_more_tokens n fuel z = (z', Ok a) -> keep i z -> keep i z'.
Proof.
  induction n as [|n IH]; intros z z' a S H K; [discriminate|]. cbn [fetch_more_tokens] in H. next_step H z0 toks E. injection E as <- <-.
  destruct S as [L|EN].
  - assert (G : forall z1, live i D z1 -> keep i z1 -> bind (fetch_next_token fuel) (fun _ => fetch_more_tokens n fuel) z1 = (z', Ok a) -> keep i z').
    { intros z1 L1 K1 H1. next_step H1 z2 u E. assert (K2 := s_next i D fuel _ _ _ L1 E K1). assert (A := f_next i D fuel z1 L1). unfold after in A. rewrite E in A. destruct A as (_ & A).
      apply (IH z2 z' a); [|exact H1|exact K2]. destruct A as [(A & _)|(A & _)]; [now left|now right]. }
    next_step H z1 need E. destruct (z_tokens z) as [|t r] eqn:ET; [injection E as <- <-; now apply (G z)|].
    next_step E z2 u E2. destruct (still_calm i _ still_stale _ _ _ E2 K) as [K2 _].
    assert (R : zruns i D stale_simple_keys z (fun z' _ => True) True True True) by (apply zr_last, zr_stale; [exact L|]; intros ks L2; now apply zr_ret).
    unfold zruns in R. rewrite E2 in R. destruct R as (_ & L2 & _). injection E as <- <-. destruct (key_pending z2); [now apply (G z2)|]. injection H as <- _. exact K2.
  - next_step H z1 need E. destruct (e_toks _ _ _ EN) as (q & Q & _). destruct (z_tokens z) as [|t r] eqn:ET; [destruct q; discriminate|].
    next_step E z2 u E2. destruct (still_calm i _ still_stale _ _ _ E2 K) as [K2 _]. assert (KI := e_keys _ _ _ EN).
    unfold stale_simple_keys in E2. rewrite stale_impossible in E2 by (apply Forall_rev; exact KI). rewrite rev_involutive in E2. cbv beta iota zeta in E2. injection E2 as <- _. injection E as <- <-.
    assert (KP : key_pending (set_keys (z_keys z) z) = false).
    { unfold key_pending. cbn [set_keys z_keys]. clear - KI. induction KI as [|k l P _ IH]; [reflexivity|]. cbn [existsb]. rewrite P. exact IH. }
    rewrite KP in H. injection H as <- _. exact K2.
Qed.
Lemma s_step i D p fuel z z' t : ready i D p z -> next fuel z = (z', Ok (Some t)) -> keep i z -> stands i t /\ keep i z'.
Proof.
  intros R H K. destruct (ready_flags_ok _ _ _ _ R) as (F1 & F2 & F3 & F4). unfold next in H. rewrite F1, F2 in H. destruct (next_token fuel z) as [z1 o] eqn:E.
  destruct o as [t1| | | |]; try discriminate. injection H as -> ->. unfold next_token in E. next_step E z2 pr E1. injection E1 as <- <-. rewrite F3 in E. next_step E z2 av E1. injection E1 as <- <-. rewrite F4 in E. cbn [negb] in E.
  next_step E z2 u E1. assert (K2 : keep i z2).
  { destruct R as (_ & [(-> & _)|[(L & _)|(EN & _)]]); [|exact (s_more i D fuel _ _ _ _ (or_introl L) E1 K)|exact (s_more i D fuel _ _ _ _ (or_intror EN) E1 K)].
    destruct fuel as [|fuel]; [discriminate|]. cbn [fetch_more_tokens] in E1. next_step E1 z3 toks E2. injection E2 as <- <-. change (z_tokens (scanner_new i)) with (@nil token) in E1. cbv iota in E1.
    next_step E1 z3 need E2. injection E2 as <- <-. next_step E1 z3 u3 E2. destruct (start_fetch i (S fuel)) as (z4 & E4 & L4 & _). rewrite E4 in E2. injection E2 as <- _.
    refine (s_more i [] (S fuel) _ _ _ _ (or_introl L4) E1 _). unfold fetch_next_token in E4. next_step E4 z5 st E5. injection E5 as <- <-. change (negb (z_started (scanner_new i))) with true in E4. cbv iota in E4.
    injection E4 as <- . constructor; [|constructor]. apply (stands_implied i). implies. }
  unfold keep in K2. destruct (z_tokens z2) as [|t2 r] eqn:ET; [discriminate|]. inversion_clear K2 as [|? ? S1 S2]. cbv zeta in E. injection E as <- <-. split; [exact S1|]. destruct (is_stream_end t2); exact S2.
Qed.
Theorem all_stand i fuel : Forall (stands i) (fst (scan fuel i)).
Proof.
  unfold scan. destruct (scan_run fuel fuel (scanner_new i)) as [l [z' o]] eqn:E. cbn [fst]. destruct (scan_run_delivered _ _ _ _ _ _ E) as (z1 & DL & _). clear E.
  enough (G : forall z l z1, delivered fuel z l z1 -> forall D p, ready i D p z -> keep i z -> Forall (stands i) l) by exact (G _ _ _ DL [] _ (ready_new i) (Forall_nil _)).
  clear. induction 1 as [z|z z1 z2 t l N1 D1 IH]; intros D p R K; [constructor|]. destruct (s_step i D p fuel _ _ _ R N1 K) as [S1 K1]. constructor; [exact S1|].
  assert (P := next_ok i D p fuel z R). rewrite N1 in P. destruct P as (_ & [(q & Q & R1)|O]); [exact (IH _ _ R1 K1)|]. inversion D1; subst; [constructor|].
  match goal with H : next fuel z1 = _ |- _ => rewrite (over_next _ _ _ _ O) in H; discriminate end.
Qed.
