(** Scanning all tokens at once gives what scanning on demand gives: the tokens that have been handed
    out do not influence the scanner. *)
From Verif Require Import Base Tokens Chars Source Cursor Scanner.
From Coq Require Import String Lia.
Local Open Scope list_scope.

(** The state after [p] tokens have been handed out. *)
Definition lag (p : nat) (a : bool) (z : scanner) : scanner :=
  set_available a (set_parsed p (set_tokens (skipn p (z_tokens z)) z)).
Definition keys_from (p : nat) (ks : list skey) : Prop :=
  Forall (fun k => sk_possible k = true -> p <= sk_number k) ks.
Definition running (z : scanner) : Prop :=
  z_parsed z = 0 /\ z_error z = None /\ z_end_reached z = false /\ z_end_produced z = false.
Definition pinv (p : nat) (z : scanner) : Prop :=
  running z /\ p <= List.length (z_tokens z) /\ keys_from p (z_keys z).
Definition lags {A} (p : nat) (m : SM A) : Prop := forall a z z1 x, pinv p z -> m z = (z1, Ok x) ->
  pinv p z1 /\ firstn p (z_tokens z1) = firstn p (z_tokens z) /\ m (lag p a z) = (lag p a z1, Ok x).

Lemma lags_bind {A B} p (m : SM A) (k : A -> SM B) : lags p m -> (forall x, lags p (k x)) -> lags p (bind m k).
Proof.
  intros H1 H2 a z z1 x I E. unfold bind in *. destruct (m z) as [z2 o] eqn:Em. destruct o; try discriminate.
  destruct (H1 a z z2 a0 I Em) as (I2 & F2 & E2). destruct (H2 a0 a z2 z1 x I2 E) as (I3 & F3 & E3).
  rewrite E2. split; [exact I3|]. split; [congruence|exact E3].
Qed.
Lemma lags_ret {A} p (x : A) : lags p (ret x).
Proof. intros a z z1 y I E. injection E as <- <-. auto. Qed.
Lemma lags_zerr {A} p m s : lags (A := A) p (zerr m s).
Proof. intros a z z1 y I E. discriminate. Qed.
Lemma lags_panic {A} p : lags (A := A) p panic.
Proof. intros a z z1 y I E. discriminate. Qed.
Lemma lags_lift {A} p (c : CM A) : lags p (lift c).
Proof.
  intros a z z1 x I E. unfold lift in *. cbn [z_cur lag set_available set_parsed set_tokens] in *.
  destruct (c (z_cur z)) as [c1 o]. injection E as <- ->. auto.
Qed.
Lemma lags_gets {A} p (f : scanner -> A) : (forall a z, f (lag p a z) = f z) -> lags p (gets f).
Proof. intros H a z z1 x I E. unfold gets in *. injection E as <- <-. rewrite H. auto. Qed.
Lemma lags_modify p (f : scanner -> scanner) :
  (forall a z, f (lag p a z) = lag p a (f z)) ->
  (forall z, z_tokens (f z) = z_tokens z) -> (forall z, running (f z) = running z) ->
  (forall z, keys_from p (z_keys z) -> keys_from p (z_keys (f z))) -> lags p (modify f).
Proof.
  intros H T P K a z z1 x (I1 & I2 & I3) E. unfold modify in *. injection E as <- <-.
  split; [|split; [now rewrite T|now rewrite H]]. split; [now rewrite P|]. split; [now rewrite T|auto].
Qed.
Lemma lags_keys {A} p (k : list skey -> SM A) : (forall ks, keys_from p ks -> lags p (k ks)) -> lags p (bind (gets z_keys) k).
Proof.
  intros H a z z1 x I E. unfold bind, gets in *. cbn [z_keys lag set_available set_parsed set_tokens].
  apply (H (z_keys z) (proj2 (proj2 I)) a z z1 x I E).
Qed.
Lemma lags_if {A} p (b : bool) (m n : SM A) : lags p m -> lags p n -> lags p (if b then m else n).
Proof. destruct b; auto. Qed.

Lemma skipn_app_le {A} p (l r : list A) : p <= List.length l -> skipn p (l ++ r) = skipn p l ++ r.
Proof. intros H. rewrite skipn_app. replace (p - List.length l) with 0 by lia. reflexivity. Qed.
Lemma firstn_app_le {A} p (l r : list A) : p <= List.length l -> firstn p (l ++ r) = firstn p l.
Proof. intros H. rewrite firstn_app. replace (p - List.length l) with 0 by lia. cbn [firstn]. now rewrite app_nil_r. Qed.
Lemma lags_push p s t : lags p (push_token s t).
Proof.
  intros a z z1 x (I1 & I2 & I3) E. unfold push_token, modify in *. injection E as <- <-.
  cbn [z_tokens set_tokens]. split; [|split].
  - split; [exact I1|]. cbn [z_tokens set_tokens]. split; [rewrite app_length; lia|exact I3].
  - now apply firstn_app_le.
  - unfold lag. cbn [z_tokens set_tokens set_available set_parsed]. rewrite skipn_app_le by assumption. reflexivity.
Qed.
Lemma skipn_insert {A} (p n : nat) (l : list A) t : p <= n -> n <= List.length l ->
  skipn p (firstn n l ++ t :: skipn n l) = firstn (n - p) (skipn p l) ++ t :: skipn (n - p) (skipn p l).
Proof.
  intros H1 H2. rewrite skipn_app_le by (rewrite firstn_length; lia).
  rewrite skipn_firstn_comm. do 2 f_equal. clear H2. revert n H1 l. induction p as [|p IH]; intros n H1 l.
  - now rewrite Nat.sub_0_r.
  - destruct n as [|n]; [lia|]. destruct l as [|x l]; [now rewrite !skipn_nil|]. cbn [skipn Nat.sub]. apply IH. lia.
Qed.
Lemma lags_insert p n s t : p <= n -> lags p (insert_token n s t).
Proof.
  intros H a z z1 x (I1 & I2 & I3) E. unfold insert_token in *. rewrite (proj1 I1) in E. cbn [Nat.ltb Nat.leb] in E.
  rewrite Nat.sub_0_r in E. destruct (Nat.leb_spec n (List.length (z_tokens z))) as [L|L]; [|discriminate].
  injection E as <- <-. cbn [z_tokens set_tokens]. split; [|split].
  - split; [exact I1|]. cbn [z_tokens set_tokens]. split; [|exact I3]. rewrite app_length, firstn_length. cbn [List.length].
    rewrite skipn_length. lia.
  - rewrite firstn_app_le by (rewrite firstn_length; lia). rewrite firstn_firstn. f_equal. lia.
  - cbn [z_parsed z_tokens lag set_available set_parsed set_tokens].
    replace (Nat.ltb n p) with false by (symmetry; apply Nat.ltb_ge; lia).
    rewrite skipn_length. replace (Nat.leb (n - p) (List.length (z_tokens z) - p)) with true by (symmetry; apply Nat.leb_le; lia).
    unfold lag. cbn [z_tokens set_tokens set_available set_parsed]. rewrite skipn_insert by assumption. reflexivity.
Qed.
Lemma unroll_toks col m : forall l i toks, unroll_loop col m i l toks =
  match unroll_loop col m i l [] with Some (i', l', e) => Some (i', l', toks ++ e) | None => None end.
Proof.
  induction l as [|[j b] l IH]; intros i toks; cbn [unroll_loop].
  - destruct (col <? i)%N; [reflexivity|]. now rewrite app_nil_r.
  - destruct (col <? i)%N; [|now rewrite app_nil_r]. destruct b; [|apply IH].
    rewrite IH. rewrite (IH j ([] ++ _)). destruct (unroll_loop col m j l []) as [[[i' l'] e]|]; [|reflexivity].
    now rewrite <- app_assoc.
Qed.
Lemma lags_unroll p col : lags p (unroll_indent col).
Proof.
  intros a z z1 x (I1 & I2 & I3) E. unfold unroll_indent in *.
  cbn [z_cur z_flow z_indent z_indents z_tokens lag set_available set_parsed set_tokens].
  destruct (0 <? z_flow z)%N; [injection E as <- <-; split; [split; auto|split; reflexivity]|].
  rewrite unroll_toks in E. rewrite unroll_toks.
  destruct (unroll_loop col (c_mark (z_cur z)) (z_indent z) (z_indents z) []) as [[[i' l'] e]|]; [|discriminate].
  injection E as <- <-. split; [|split].
  - split; [exact I1|]. cbn [z_tokens set_tokens set_indent set_indents]. split; [rewrite app_length; lia|exact I3].
  - cbn [z_tokens set_tokens set_indent set_indents]. now apply firstn_app_le.
  - unfold lag. cbn [z_tokens set_tokens set_available set_parsed set_indent set_indents]. rewrite skipn_app_le by assumption. reflexivity.
Qed.
Lemma drop_one_lag p a col z : drop_one_col col (lag p a z) = lag p a (drop_one_col col z).
Proof.
  unfold drop_one_col. cbn [z_indent z_indents lag set_available set_parsed set_tokens].
  destruct (z_indent z <=? col)%N; [|reflexivity]. destruct (z_indents z) as [|[j [|]] l]; reflexivity.
Qed.
Lemma drop_one_pinv p col z : pinv p z -> pinv p (drop_one_col col z).
Proof.
  unfold drop_one_col. destruct (z_indent z <=? col)%N; [|auto]. destruct (z_indents z) as [|[j [|]] l]; auto.
Qed.
Lemma drop_one_tokens col z : z_tokens (drop_one_col col z) = z_tokens z.
Proof.
  unfold drop_one_col. destruct (z_indent z <=? col)%N; [|auto]. destruct (z_indents z) as [|[j [|]] l]; auto.
Qed.
Lemma lags_roll p col number t m : match number with Some n => p <= n | None => True end -> lags p (roll_indent col number t m).
Proof.
  intros H a z z1 x I E. unfold roll_indent in *. rewrite drop_one_lag.
  cbn [z_flow lag set_available set_parsed set_tokens]. fold (lag p a z).
  destruct (0 <? z_flow z)%N; [injection E as <- <-; auto|].
  pose proof (drop_one_pinv p col z I) as I'. pose proof (drop_one_tokens col z) as T.
  set (d := drop_one_col col z) in *. cbv zeta in *.
  change (z_indent (lag p a d)) with (z_indent d). destruct (z_indent d <? col)%N.
  2:{ injection E as <- <-. rewrite T. auto. }
  rewrite <- T. change (z_indents (lag p a d)) with (z_indents d).
  assert (I2 : pinv p (set_indent col (set_indents ((z_indent d, true) :: z_indents d) d))) by exact I'.
  destruct number as [n|].
  - destruct (lags_insert p n (span_empty m) t H a _ z1 x I2 E) as (J1 & J2 & J3). split; [exact J1|]. split; [exact J2|exact J3].
  - destruct (lags_push p (span_empty m) t a _ z1 x I2 E) as (J1 & J2 & J3). split; [exact J1|]. split; [exact J2|exact J3].
Qed.
Ltac lagmod := apply lags_modify; [intros a z|intros z|intros z; unfold running|intros z K];
  cbn [z_cur z_tokens z_error z_keys z_indents z_implicit z_end_reached z_available z_started z_end_produced z_flow_started z_adjacent z_parsed z_flow z_indent
       lag set_cur set_tokens set_error set_keys set_indents set_implicit set_end_reached set_available set_started set_end_produced set_flow_started set_adjacent set_parsed set_flow set_indent];
  try reflexivity; try assumption.
Lemma lags_roll_one p : lags p roll_one_col_indent.
Proof.
  unfold roll_one_col_indent. lagmod.
  all: destruct (z_indents z) as [|[j [|]] l]; try reflexivity; try exact K; destruct (z_flow z =? 0)%N; try reflexivity; exact K.
Qed.
Lemma lags_non_block p : lags p unroll_non_block_indents.
Proof.
  unfold unroll_non_block_indents. lagmod.
  all: destruct (unroll_non_block_loop (z_indent z) (z_indents z)); try reflexivity; exact K.
Qed.
Lemma key_new_from p m ks : keys_from p ks -> keys_from p (skey_new m :: ks).
Proof. intros K. constructor; [discriminate|exact K]. Qed.
Lemma lags_increase p : lags p increase_flow_level.
Proof.
  intros a z z1 x (I1 & I2 & I3) E. unfold increase_flow_level in *.
  cbn [z_flow lag set_available set_parsed set_tokens z_keys set_keys] in *.
  destruct (z_flow z =? 4294967295)%N; [discriminate|]. injection E as <- <-.
  split; [|split; reflexivity]. split; [exact I1|]. split; [exact I2|]. cbn [z_keys set_keys set_flow]. now apply key_new_from.
Qed.
Lemma keys_tail p k ks : keys_from p (k :: ks) -> keys_from p ks.
Proof. now inversion 1. Qed.
Lemma lags_decrease p : lags p decrease_flow_level.
Proof.
  intros a z z1 x (I1 & I2 & I3) E. unfold decrease_flow_level in *.
  cbn [z_flow lag set_available set_parsed set_tokens z_keys set_keys] in *.
  destruct (0 <? z_flow z)%N; [|injection E as <- <-; split; [|split]; auto; split; auto].
  destruct (z_keys z) as [|k ks] eqn:EK; [discriminate|]. injection E as <- <-.
  split; [|split; reflexivity]. split; [exact I1|]. split; [exact I2|]. cbn [z_keys set_keys set_flow]. now apply keys_tail in I3.
Qed.
Lemma impossible_from p k ks : keys_from p ks -> keys_from p (impossible k :: ks).
Proof. intros K. constructor; [discriminate|exact K]. Qed.
Lemma keys_rev p ks : keys_from p ks -> keys_from p (rev ks).
Proof. unfold keys_from. rewrite !Forall_forall. intros H x I. apply H. now apply in_rev. Qed.
Lemma stale_from p f m : forall ks, keys_from p ks -> keys_from p (fst (stale_loop f m ks)).
Proof.
  induction ks as [|k ks IH]; intros K; [exact K|]. cbn [stale_loop]. pose proof (IH (keys_tail _ _ _ K)) as K'.
  destruct (_ && _ && _).
  - destruct (sk_required k); [exact K|]. destruct (stale_loop f m ks) as [r e]. cbn [fst] in *. now apply impossible_from.
  - destruct (stale_loop f m ks) as [r e]. cbn [fst] in *. constructor; [now inversion K|exact K'].
Qed.
Lemma lags_stale p : lags p stale_simple_keys.
Proof.
  intros a z z1 x (I1 & I2 & I3) E. unfold stale_simple_keys in *.
  cbn [z_cur z_flow z_keys lag set_available set_parsed set_tokens].
  pose proof (stale_from p (z_flow z) (c_mark (z_cur z)) (rev (z_keys z)) (keys_rev _ _ I3)) as S.
  destruct (stale_loop (z_flow z) (c_mark (z_cur z)) (rev (z_keys z))) as [ks e]. cbn [fst] in S.
  destruct e; [discriminate|]. injection E as <- <-. split; [|split; reflexivity].
  split; [exact I1|]. split; [exact I2|]. cbn [z_keys set_keys]. now apply keys_rev.
Qed.
Lemma lags_remove p : lags p remove_simple_key.
Proof.
  intros a z z1 x (I1 & I2 & I3) E. unfold remove_simple_key in *.
  cbn [z_cur z_flow z_keys lag set_available set_parsed set_tokens].
  destruct (z_keys z) as [|k ks]; [discriminate|].
  destruct (sk_possible k && sk_required k); [discriminate|]. injection E as <- <-. split; [|split; reflexivity].
  split; [exact I1|]. split; [exact I2|]. cbn [z_keys set_keys]. apply impossible_from. now apply keys_tail in I3.
Qed.
Lemma lags_save p : lags p save_simple_key.
Proof.
  intros a z z1 x (I1 & I2 & I3) E. unfold save_simple_key, modify in *. injection E as <- <-.
  cbn [z_cur z_flow z_keys z_indent z_indents z_parsed z_tokens lag set_available set_parsed set_tokens].
  destruct (c_ska (z_cur z)); [|split; [|split]; auto; split; auto].
  rewrite (proj1 I1), skipn_length. replace (p + (List.length (z_tokens z) - p)) with (List.length (z_tokens z)) by lia.
  cbn [Nat.add]. split; [|split; reflexivity].
  split; [exact I1|]. split; [exact I2|]. cbn [z_keys set_keys]. constructor; [intros _; exact I2|].
  destruct (z_keys z); [constructor|now apply keys_tail in I3].
Qed.
Lemma lags_end_implicit p m : lags p (end_implicit_mapping m).
Proof.
  intros a z z1 x I E. unfold end_implicit_mapping in *.
  cbn [z_implicit z_cur lag set_available set_parsed set_tokens]. destruct (z_implicit z) as [|[|] r]; [injection E as <- <-; auto|injection E as <- <-; auto|].
  exact (lags_push p _ _ a (set_implicit (IPossible :: r) (set_flow_started false z)) _ _ I E).
Qed.
Lemma lags_skip_next p fuel : lags p (zskip_to_next_token fuel).
Proof. intros a z z1 x I E. exact (lags_lift p _ a z z1 x I E). Qed.
Lemma lags_mark p : lags p zmark. Proof. apply lags_lift. Qed.
Lemma lags_peek p n : lags p (zpeek n). Proof. apply lags_lift. Qed.
#[export] Hint Resolve lags_ret lags_zerr lags_panic lags_lift lags_push lags_insert lags_unroll lags_roll lags_roll_one lags_non_block
  lags_increase lags_decrease lags_stale lags_remove lags_save lags_end_implicit lags_skip_next lags_mark lags_peek : lags.
Ltac lg := repeat first
  [ solve [auto with lags] | apply lags_bind; [|intros ?] | apply lags_if
  | solve [apply lags_gets; reflexivity] | solve [lagmod] ].
Lemma lags_stream_start p : lags p fetch_stream_start.
Proof. unfold fetch_stream_start. lg. lagmod. now apply key_new_from. Qed.
Lemma end_keys_from p : forall ks, keys_from p ks -> keys_from p (fst (end_keys_loop ks)).
Proof.
  induction ks as [|k ks IH]; intros K; [exact K|]. cbn [end_keys_loop]. pose proof (IH (keys_tail _ _ _ K)) as K'.
  destruct (_ && _); [exact K|]. destruct (end_keys_loop ks) as [r e]. cbn [fst] in *. now apply impossible_from.
Qed.
Lemma lags_stream_end p : lags p fetch_stream_end.
Proof.
  unfold fetch_stream_end. apply lags_bind.
  { lagmod; destruct (negb _); try reflexivity; exact K. }
  intros _. apply lags_bind; [|intros _; lg].
  intros a z z1 x (I1 & I2 & I3) E. cbn [z_cur z_keys lag set_available set_parsed set_tokens].
  pose proof (end_keys_from p (rev (z_keys z)) (keys_rev _ _ I3)) as S.
  destruct (end_keys_loop (rev (z_keys z))) as [ks e]. cbn [fst] in S. destruct e; [discriminate|].
  injection E as <- <-. split; [|split; reflexivity].
  split; [exact I1|]. split; [exact I2|]. cbn [z_keys set_keys]. now apply keys_rev.
Qed.
Lemma lags_indicator p t : lags p (fetch_document_indicator t).
Proof. unfold fetch_document_indicator. lg. Qed.
#[export] Hint Resolve lags_indicator : lags.
Lemma lags_finish p fuel : lags p (finish_document fuel).
Proof. unfold finish_document. lg. Qed.
Lemma lags_directive p fuel : lags p (fetch_directive fuel).
Proof. unfold fetch_directive. lg. Qed.
Lemma lags_coll_start p fuel b : lags p (fetch_flow_collection_start fuel b).
Proof. unfold fetch_flow_collection_start. lg. lagmod; destruct b; try reflexivity; exact K. Qed.
Lemma lags_coll_end p fuel b : lags p (fetch_flow_collection_end fuel b).
Proof. unfold fetch_flow_collection_end. lg. lagmod; destruct (0 <? z_flow z)%N; try reflexivity; exact K. Qed.
Lemma lags_plain p fuel : lags p (fetch_plain_scalar fuel).
Proof. unfold fetch_plain_scalar. lg. Qed.
Lemma lags_flow_entry p fuel : lags p (fetch_flow_entry fuel).
Proof. unfold fetch_flow_entry. lg. Qed.
Lemma g9hc_lag p a z : g9hc z = false -> g9hc (lag p a z) = false.
Proof.
  unfold g9hc. cbn [z_cur z_indent z_tokens lag set_available set_parsed set_tokens]. intros H.
  rewrite <- (firstn_skipn p (z_tokens z)), rev_app_distr in H.
  destruct (rev (skipn p (z_tokens z))); [reflexivity|]. exact H.
Qed.
Lemma lags_bad p {A} (k : bool -> SM A) : lags p (k false) -> (forall z z1 x, k true z <> (z1, Ok x)) -> lags p (bind (gets g9hc) k).
Proof.
  intros H N a z z1 x I E. unfold bind, gets in *. destruct (g9hc z) eqn:G; [exfalso; exact (N _ _ _ E)|].
  rewrite (g9hc_lag p a z G). exact (H a z z1 x I E).
Qed.
Lemma lags_block_entry p fuel : lags p (fetch_block_entry fuel).
Proof.
  unfold fetch_block_entry. apply lags_bind; [auto with lags|intros mark]. apply lags_bind; [apply lags_gets; reflexivity|intros flow].
  apply lags_bind; [apply lags_gets; reflexivity|intros ska].
  destruct (0 <? flow)%N. { apply lags_bad; [auto with lags|discriminate]. }
  destruct (negb ska). { apply lags_bad; [auto with lags|discriminate]. }
  apply lags_bad; [|discriminate].
  apply lags_bind; [lg|intros _]. apply lags_bind; [now apply lags_roll|intros _].
  apply lags_bind; [lg|intros [any_tabs has_ws]]. lg.
Qed.
Lemma lags_key p fuel : lags p (fetch_key fuel).
Proof. unfold fetch_key. lg; now apply lags_roll. Qed.
Lemma lags_tab p fuel : lags p (value_tab_check fuel).
Proof. unfold value_tab_check. apply lags_bind; [lg|intros c]. apply lags_if; [|lg]. apply lags_bind; [lg|intros [u has_ws]]. lg. Qed.
#[export] Hint Resolve lags_tab : lags.
Lemma lags_value p fuel : lags p (fetch_value fuel).
Proof.
  unfold fetch_value. apply lags_keys. intros [|sk ks] KS; [lg|].
  apply lags_bind; [lg|intros start]. apply lags_bind; [apply lags_gets; reflexivity|intros implicit].
  apply lags_bind; [lagmod; destruct implicit; try reflexivity; exact K|intros _].
  apply lags_bind; [lg|intros _]. apply lags_bind; [lg|intros _]. apply lags_bind; [|intros _; lg].
  destruct (sk_possible sk) eqn:P.
  - assert (L : p <= sk_number sk) by (inversion KS; auto).
    apply lags_bind; [now apply lags_insert|intros _]. apply lags_bind; [lg|intros _]. apply lags_bind; [now apply lags_roll|intros _].
    apply lags_bind; [lg|intros _]. apply lags_bind; [|intros _; lg].
    lagmod. all: destruct (z_keys z) as [|s0 l0]; try reflexivity; [constructor|]. exact (impossible_from p s0 l0 (keys_tail p s0 l0 K)).
  - apply lags_bind; [lg|intros _]. apply lags_bind; [lg|intros flow]. apply lags_bind; [lg|intros ska].
    apply lags_bind; [|intros _; lg]. lg; now apply lags_roll.
Qed.
#[export] Hint Resolve lags_value : lags.
Lemma lags_flow_value p fuel : lags p (fetch_flow_value fuel).
Proof. unfold fetch_flow_value. lg. Qed.
Lemma lags_anchor p fuel b : lags p (fetch_anchor fuel b).
Proof. unfold fetch_anchor. lg. Qed.
Lemma lags_tag p fuel : lags p (fetch_tag fuel).
Proof. unfold fetch_tag. lg. Qed.
Lemma lags_block_scalar p fuel b : lags p (fetch_block_scalar fuel b).
Proof. unfold fetch_block_scalar. lg. Qed.
Lemma lags_flow_scalar p fuel b : lags p (fetch_flow_scalar fuel b).
Proof. unfold fetch_flow_scalar. lg. Qed.
Lemma lags_unexpected p : lags p unexpected_character.
Proof. intros a z z1 x I E. unfold unexpected_character in *. destruct (str_peek_char _); discriminate. Qed.
#[export] Hint Resolve lags_stream_start lags_stream_end lags_finish lags_directive lags_coll_start lags_coll_end lags_plain lags_flow_entry lags_block_entry
  lags_key lags_value lags_flow_value lags_anchor lags_tag lags_block_scalar lags_flow_scalar lags_unexpected : lags.
Lemma lags_main p fuel : lags p (fetch_main_loop fuel).
Proof. unfold fetch_main_loop. lg. Qed.
Lemma lags_content p fuel : lags p (fetch_next_content fuel).
Proof.
  intros a z z1 x I. unfold fetch_next_content, process_start.
  change (z_cur (lag p a z)) with (z_cur z). change (z_indent (lag p a z)) with (z_indent z).
  destruct (str_buf_is_empty _). { apply (lags_stream_end p a z z1 x I). }
  assert (R : (if (m_col (c_mark (z_cur z)) <? z_indent z)%N then zerr (c_mark (z_cur z)) "invalid indentation" z else fetch_main_loop fuel z) = (z1, Ok x) ->
    pinv p z1 /\ firstn p (z_tokens z1) = firstn p (z_tokens z) /\
    (if (m_col (c_mark (z_cur z)) <? z_indent z)%N then zerr (c_mark (z_cur z)) "invalid indentation" (lag p a z) else fetch_main_loop fuel (lag p a z)) = (lag p a z1, Ok x)).
  { destruct (_ <? _)%N; [discriminate|]. apply (lags_main p fuel a z z1 x I). }
  destruct (_ =? 1)%N; [|exact R].
  destruct (_ =? 37)%N. { apply (lags_directive p fuel a z z1 x I). }
  destruct (_ && _). { apply (lags_indicator p TDocumentStart a z z1 x I). }
  destruct (_ && _). { apply (lags_finish p fuel a z z1 x I). }
  exact R.
Qed.
#[export] Hint Resolve lags_content : lags.
Lemma lags_fetch p fuel : lags p (fetch_next_token fuel).
Proof. unfold fetch_next_token. lg. Qed.

(** ** All tokens at once *)
(** One round: at least one token is fetched and keys out of reach are dropped. *)
Definition round (fuel : nat) (z z' : scanner) : Prop :=
  exists z1, fetch_next_token fuel z = (z1, Ok tt) /\ stale_simple_keys z1 = (z', Ok tt) /\
             List.length (z_tokens z) < List.length (z_tokens z1).
Inductive rounds (fuel : nat) : nat -> scanner -> scanner -> Prop :=
| rounds_none z : rounds fuel 0 z z
| rounds_more n z z1 z2 : round fuel z z1 -> rounds fuel n z1 z2 -> rounds fuel (S n) z z2.
Lemma rounds_trans fuel n m z1 z2 z3 : rounds fuel n z1 z2 -> rounds fuel m z2 z3 -> rounds fuel (n + m) z1 z3.
Proof. induction 1; intros; [assumption|]. cbn [Nat.add]. econstructor; eauto. Qed.
Lemma rounds_one fuel z z' : round fuel z z' -> rounds fuel 1 z z'.
Proof. intros H. econstructor; [exact H|constructor]. Qed.

(** Dropping keys again changes nothing. *)
Lemma stale_loop_again f m : forall ks ks', stale_loop f m ks = (ks', false) -> stale_loop f m ks' = (ks', false).
Proof.
  induction ks as [|k ks IH]; intros ks' E; cbn [stale_loop] in E.
  - injection E as <-. reflexivity.
  - destruct (sk_possible k && (f =? 0)%N && _) eqn:C.
    + destruct (sk_required k) eqn:R; [discriminate|]. destruct (stale_loop f m ks) as [r e] eqn:S. injection E as <- ->.
      cbn [stale_loop impossible sk_possible andb]. fold (impossible k). rewrite (IH r eq_refl). reflexivity.
    + destruct (stale_loop f m ks) as [r e] eqn:S. injection E as <- ->. cbn [stale_loop]. rewrite C, (IH r eq_refl). reflexivity.
Qed.
Lemma set_keys_self z : set_keys (z_keys z) z = z.
Proof. destruct z; reflexivity. Qed.
Lemma stale_again z z' : stale_simple_keys z = (z', Ok tt) -> stale_simple_keys z' = (z', Ok tt).
Proof.
  unfold stale_simple_keys. destruct (stale_loop (z_flow z) (c_mark (z_cur z)) (rev (z_keys z))) as [ks e] eqn:S.
  destruct e; [discriminate|]. intros E. injection E as <-. cbn [z_flow z_cur z_keys set_keys]. rewrite rev_involutive.
  rewrite (stale_loop_again _ _ _ _ S). cbn [set_keys z_cur z_tokens z_error z_keys z_indents z_implicit z_end_reached z_available z_started z_end_produced z_flow_started z_adjacent z_parsed z_flow z_indent].
  reflexivity.
Qed.
(** A settled state; a state in which everything has been scanned. *)
Definition settled (z : scanner) : Prop := stale_simple_keys z = (z, Ok tt).
Definition finished (z : scanner) : Prop :=
  running z /\ settled z /\ Forall (fun k => sk_possible k = false) (z_keys z) /\
  exists T e, z_tokens z = T ++ [e] /\ is_stream_end e = true /\ Forall (fun t => is_stream_end t = false) T.
Lemma round_lag fuel p z z' : pinv p z -> round fuel z z' ->
  pinv p z' /\ firstn p (z_tokens z') = firstn p (z_tokens z) /\ settled z' /\
  exists z1, pinv p z1 /\ (forall a, fetch_next_token fuel (lag p a z) = (lag p a z1, Ok tt)) /\
    (forall a, stale_simple_keys (lag p a z1) = (lag p a z', Ok tt)) /\ skipn p (z_tokens z1) <> [].
Proof.
  intros I (z1 & E1 & E2 & L). destruct (lags_fetch p fuel true z z1 tt I E1) as (I1 & F1 & _).
  destruct (lags_stale p true z1 z' tt I1 E2) as (I2 & F2 & _).
  split; [exact I2|]. split; [congruence|]. split; [eapply stale_again; eauto|]. exists z1. split; [exact I1|]. split.
  { intros a. now apply (lags_fetch p fuel a z z1 tt I E1). } split.
  { intros a. now apply (lags_stale p a z1 z' tt I1 E2). }
  intros H. apply (f_equal (@List.length token)) in H. rewrite skipn_length in H. destruct I as (_ & I & _).
  cbn [List.length] in H. lia.
Qed.
Lemma rounds_lag fuel n z z' : rounds fuel n z z' -> forall p, pinv p z ->
  pinv p z' /\ firstn p (z_tokens z') = firstn p (z_tokens z).
Proof.
  induction 1 as [z|n z z1 z2 R RS IH]; intros p I; [auto|].
  destruct (round_lag fuel p z z1 I R) as (I1 & F1 & _). destruct (IH p I1) as (I2 & F2). split; [exact I2|congruence].
Qed.
Lemma settled_lag p a z : pinv p z -> settled z -> stale_simple_keys (lag p a z) = (lag p a z, Ok tt).
Proof. intros I S. now apply (lags_stale p a z z tt I S). Qed.
Lemma fetch_more_start k fuel z : z_tokens z <> [] -> forall z', stale_simple_keys z = (z', Ok tt) -> z_tokens z' <> [] ->
  fetch_more_tokens (S k) fuel z = fetch_more_tokens (S k) fuel z'.
Proof.
  intros N z' S N'. cbn [fetch_more_tokens]. unfold bind, gets. destruct (z_tokens z); [congruence|]. destruct (z_tokens z'); [congruence|].
  rewrite S, (stale_again _ _ S). reflexivity.
Qed.
Lemma fetch_more_lag fuel zf : finished zf -> forall n z, rounds fuel n z zf -> forall p a, pinv p z -> settled z ->
  p < List.length (z_tokens zf) ->
  exists i zi, i <= n /\ rounds fuel (n - i) zi zf /\ pinv p zi /\ settled zi /\ skipn p (z_tokens zi) <> [] /\
    key_pending (lag p true zi) = false /\
    forall k, n < k -> fetch_more_tokens k fuel (lag p a z) = (lag p true zi, Ok tt).
Proof.
  intros (FR & FS & FK & _). induction n as [|n IH]; intros z R p a I ST L.
  - inversion R; subst. exists 0, zf. split; [lia|]. split; [exact R|]. split; [exact I|]. split; [exact ST|].
    assert (N : skipn p (z_tokens zf) <> []).
    { intros H. apply (f_equal (@List.length token)) in H. rewrite skipn_length in H. cbn [List.length] in H. lia. }
    assert (K : forall b, key_pending (lag p b zf) = false).
    { intros b. unfold key_pending. cbn [z_keys z_parsed lag set_available set_parsed set_tokens].
      revert FK. generalize (z_keys zf). induction 1 as [|x l Hx _ IHl]; [reflexivity|]. cbn [existsb]. rewrite Hx. exact IHl. }
    split; [exact N|]. split; [apply K|]. intros [|k] Hk; [lia|]. cbn [fetch_more_tokens]. unfold bind, gets.
    cbn [z_tokens lag set_available set_parsed set_tokens]. fold (lag p a zf).
    destruct (skipn p (z_tokens zf)) as [|x l] eqn:X; [congruence|].
    rewrite (settled_lag p a zf I ST). rewrite K. reflexivity.
  - inversion R as [|n' z0 z2 z3 R1 RS]; subst.
    destruct (round_lag fuel p z z2 I R1) as (I2 & F2 & S2 & z1 & I1 & E1 & E2 & N1).
    destruct (IH z2 RS p a I2 S2 L) as (i & zi & Hi & Ri & Ii & Si & Ni & Ki & Ei).
    assert (GO : forall k, S n < k -> fetch_more_tokens (Nat.pred k) fuel (lag p a z1) = (lag p true zi, Ok tt)).
    { intros [|[|k]] Hk; try lia. cbn [Nat.pred].
      assert (N2 : z_tokens (lag p a z2) <> []).
      { intros H. pose proof (E2 a) as E. unfold stale_simple_keys in E. destruct (stale_loop _ _ _) as [ks e]. destruct e; [discriminate|].
        apply (f_equal (fun x => z_tokens (fst x))) in E. cbn [fst z_tokens set_keys] in E. rewrite H in E. apply N1. exact E. }
      rewrite (fetch_more_start k fuel (lag p a z1) N1 (lag p a z2) (E2 a) N2). apply Ei. lia. }
    assert (FETCH : (z_tokens (lag p a z) = [] \/ key_pending (lag p a z) = true) ->
      forall k, S n < k -> fetch_more_tokens k fuel (lag p a z) = (lag p true zi, Ok tt)).
    { intros C [|k] Hk; [lia|]. specialize (GO (S k) Hk). cbn [Nat.pred] in GO. cbn [fetch_more_tokens]. unfold bind at 1, gets at 1.
      destruct (z_tokens (lag p a z)) as [|x l] eqn:X.
      - unfold bind at 1, ret at 1. unfold bind at 1. rewrite E1. exact GO.
      - destruct C as [C|C]; [discriminate|]. unfold bind at 1. unfold bind at 1. rewrite (settled_lag p a z I ST).
        unfold gets. rewrite C. unfold bind at 1. rewrite E1. exact GO. }
    destruct (z_tokens (lag p a z)) as [|x l] eqn:X; [|destruct (key_pending (lag p a z)) eqn:K].
    + exists (S i), zi. split; [lia|]. split; [exact Ri|]. repeat (split; [assumption|]). auto.
    + exists (S i), zi. split; [lia|]. split; [exact Ri|]. repeat (split; [assumption|]). auto.
    + exists 0, z. split; [lia|]. split; [exact R|]. split; [exact I|]. split; [exact ST|].
      change (z_tokens (lag p a z)) with (skipn p (z_tokens z)) in X. split; [congruence|]. split; [exact K|].
      intros [|k] Hk; [lia|]. cbn [fetch_more_tokens]. unfold bind, gets. change (z_tokens (lag p a z)) with (skipn p (z_tokens z)).
      rewrite X. rewrite (settled_lag p a z I ST). rewrite K. reflexivity.
Qed.
Lemma pending_next p a z : pinv p z -> key_pending (lag p a z) = false -> skipn p (z_tokens z) <> [] -> pinv (S p) z.
Proof.
  intros (I1 & I2 & I3) K N. split; [exact I1|]. split.
  - apply Nat.nle_gt. intros C. apply N. apply skipn_all2. lia.
  - unfold key_pending in K. cbn [z_keys z_parsed lag set_available set_parsed set_tokens] in K.
    unfold keys_from in *. rewrite Forall_forall in *. intros k Hk P. specialize (I3 k Hk P).
    destruct (Nat.eq_dec (sk_number k) p) as [E|NE]; [|lia]. exfalso.
    assert (existsb (fun k => sk_possible k && Nat.eqb (sk_number k) p) (z_keys z) = true).
    { apply existsb_exists. exists k. rewrite P, E, Nat.eqb_refl. auto. }
    congruence.
Qed.
Lemma skipn_cons {A} p (l : list A) x r : skipn p l = x :: r -> skipn (S p) l = r /\ nth_error l p = Some x.
Proof.
  revert l. induction p as [|p IH]; intros l E.
  - cbn [skipn] in E. subst l. auto.
  - destruct l as [|y l]; [discriminate|]. cbn [skipn nth_error] in *. now apply IH.
Qed.
Lemma nth_firstn_same {A} p (l l' : list A) x : firstn (S p) l = firstn (S p) l' -> nth_error l p = Some x -> nth_error l' p = Some x.
Proof.
  revert l l'. induction p as [|p IH]; intros l l' E N; (destruct l as [|y l]; [discriminate N|]); (destruct l' as [|y' l']; [discriminate E|]).
  - injection E as E. cbn [nth_error] in *. congruence.
  - injection E as _ E. cbn [nth_error] in *. eapply IH; eauto.
Qed.
Lemma nth_skipn {A} p (l : list A) x : nth_error l p = Some x -> skipn p l = x :: skipn (S p) l.
Proof.
  revert l. induction p as [|p IH]; intros l N; (destruct l as [|y l]; [discriminate|]); cbn [nth_error] in N; [injection N as ->; reflexivity|].
  cbn [skipn]. now apply IH.
Qed.
Lemma scan_run_lag fuel zf : finished zf -> forall m n z p k, rounds fuel n z zf -> pinv p z -> settled z -> n < fuel ->
  p + m = List.length (z_tokens zf) -> 0 < m -> m < k ->
  exists z', scan_run k fuel (lag p false z) = (skipn p (z_tokens zf), (z', Ok tt)).
Proof.
  intros FIN. pose proof FIN as (FR & FS & FK & T & e & FT & FE & FN).
  induction m as [|m IH]; intros n z p k R I S Hn Hm M0 Hk; [lia|]. destruct k as [|k]; [lia|].
  destruct (fetch_more_lag fuel zf FIN n z R p false I S ltac:(lia)) as (i & zi & Hi & Ri & Ii & Si & Ni & Ki & Ei).
  specialize (Ei fuel Hn). cbn [scan_run]. unfold next.
  destruct I as (IR & I2 & I3). pose proof IR as (R1 & R2 & R3 & R4).
  change (z_error (lag p false z)) with (z_error z). rewrite R2.
  change (z_end_reached (lag p false z)) with (z_end_reached z). rewrite R3.
  unfold next_token. unfold bind at 1, gets at 1. change (z_end_produced (lag p false z)) with (z_end_produced z). rewrite R4.
  unfold bind at 1, gets at 1. change (z_available (lag p false z)) with false. cbn [negb]. unfold bind at 1. rewrite Ei.
  change (z_tokens (lag p true zi)) with (skipn p (z_tokens zi)).
  destruct (skipn p (z_tokens zi)) as [|t r] eqn:X; [congruence|].
  destruct (skipn_cons p _ _ _ X) as [X1 X2]. pose proof (pending_next p true zi Ii Ki ltac:(congruence)) as I'.
  destruct (rounds_lag fuel _ zi zf Ri (Datatypes.S p) I') as (_ & FF).
  pose proof (nth_firstn_same p _ _ t (eq_sym FF) X2) as NT. rewrite (nth_skipn p _ t NT).
  destruct (is_stream_end t) eqn:SE.
  - assert (m = 0).
    { rewrite FT in NT, Hm. rewrite app_length in Hm. cbn [List.length] in Hm. destruct m as [|m]; [reflexivity|].
      rewrite nth_error_app1 in NT by lia. apply nth_error_In in NT. rewrite Forall_forall in FN. rewrite (FN t NT) in SE. discriminate. }
    subst m. rewrite (skipn_all2 (n := Datatypes.S p)) by lia.
    destruct k as [|k]; [lia|]. cbn [scan_run]. unfold next at 1.
    change (z_error (set_end_produced true (set_parsed (z_parsed (set_end_reached true (set_tokens r (lag p true zi))) + 1) (set_available false (set_end_reached true (set_tokens r (lag p true zi)))))))
      with (z_error zi).
    destruct Ii as ((_ & RE & _) & _). rewrite RE. eexists. reflexivity.
  - assert (L : set_parsed (z_parsed (set_tokens r (lag p true zi)) + 1) (set_available false (set_tokens r (lag p true zi))) = lag (Datatypes.S p) false zi).
    { unfold lag. rewrite X1. cbn [z_parsed set_tokens set_available set_parsed z_cur z_tokens z_error z_keys z_indents z_implicit z_end_reached z_available z_started z_end_produced z_flow_started z_adjacent z_flow z_indent].
      rewrite Nat.add_1_r. reflexivity. }
    rewrite L. destruct m as [|m].
    { exfalso. rewrite FT in NT, Hm. rewrite app_length in Hm. cbn [List.length] in Hm. rewrite nth_error_app2 in NT by lia.
      replace (p - List.length T) with 0 in NT by lia. injection NT as ->. congruence. }
    destruct (IH (n - i) zi (Datatypes.S p) k Ri I' Si ltac:(lia) ltac:(lia) ltac:(lia) ltac:(lia)) as (z' & Ez). rewrite Ez. eauto.
Qed.
Theorem scan_all fuel n input zf : rounds fuel n (scanner_new input) zf -> finished zf ->
  n < fuel -> List.length (z_tokens zf) < fuel ->
  exists z', scan fuel input = (z_tokens zf, (z', Ok tt)).
Proof.
  intros R FIN Hn Ht. pose proof FIN as (_ & _ & _ & T & e & FT & _).
  assert (I : pinv 0 (scanner_new input)). { split; [repeat split|]. split; [apply Nat.le_0_l|constructor]. }
  assert (0 < List.length (z_tokens zf)) by (rewrite FT, app_length; cbn [List.length]; lia).
  destruct (scan_run_lag fuel zf FIN (List.length (z_tokens zf)) n (scanner_new input) 0 fuel R I eq_refl Hn eq_refl) as (z' & E); auto.
  exists z'. exact E.
Qed.
