(** Lemmas about the buffered source. *)
From Verif Require Import Base Chars Escaper Source Simd Buffered SpecSource SourceProofs SimdProofs.
From Coq Require Import Lia ZifyBool ZifyNat ZifyN String.

Lemma buf_view_buf s t : buf_view s t -> b_buf s = firstn 32 t.
Proof.
  intros (<- & L & [E|E]).
  - rewrite <- E, firstn_app, Nat.sub_diag, firstn_all. cbn [firstn]. rewrite app_nil_r. reflexivity.
  - rewrite E, app_nil_r. symmetry. apply firstn_all2. auto.
Qed.

Lemma fill_view buf inp : List.length buf <= 32 -> buf_view (fill_buf_to_max (BufSrc inp buf)) (buf ++ inp).
Proof.
  intros L. unfold fill_buf_to_max, buf_view. cbn [b_buf b_input]. unfold MAX_LEN.
  split; [|split].
  - rewrite <- app_assoc, firstn_skipn. reflexivity.
  - rewrite app_length, firstn_length. lia.
  - rewrite app_length, firstn_length. destruct (Nat.le_gt_cases (32 - List.length buf) (List.length inp)).
    + left. lia.
    + right. apply skipn_all2. lia.
Qed.

Lemma new_view t : buf_view (buf_new t) t.
Proof. unfold buf_new. apply (fill_view [] t). cbn. lia. Qed.

Lemma skip_view n s t : n <> 33 -> buf_view s t -> buf_view (buf_skip n s) (skipn n t).
Proof.
  intros Hn (<- & L & H). unfold buf_skip.
  destruct (Nat.eqb_spec n 0) as [->|N0]; [repeat split; auto|].
  cbv zeta. unfold MAX_LEN.
  assert (LL : List.length (skipn (Nat.min n (List.length (b_buf s))) (b_buf s)) <= 32) by (rewrite skipn_length; lia).
  replace (skipn n (b_buf s ++ b_input s)) with
    (skipn (Nat.min n (List.length (b_buf s))) (b_buf s) ++
     (if Nat.ltb 0 (n - 33) then skipn (S (n - 33)) (b_input s) else b_input s)).
  - apply fill_view. exact LL.
  - rewrite skipn_app. f_equal.
    + destruct (Nat.le_gt_cases n (List.length (b_buf s))).
      * rewrite Nat.min_l by auto. reflexivity.
      * rewrite Nat.min_r by lia. rewrite !skipn_all2 by lia. reflexivity.
    + destruct H as [E| ->]; [|rewrite !skipn_nil; destruct (Nat.ltb 0 (n - 33)); reflexivity].
      rewrite E. destruct (Nat.ltb_spec 0 (n - 33)).
      * f_equal. lia.
      * replace (n - 32) with 0 by lia. reflexivity.
Qed.

Lemma peek_view n s t : n < 32 -> buf_view s t -> buf_peek s n = nth_error t n.
Proof.
  intros Hn (<- & L & H). unfold buf_peek. destruct H as [E|E].
  - rewrite nth_error_app1 by lia. reflexivity.
  - rewrite E, app_nil_r. reflexivity.
Qed.

Lemma buf_follows : follows buf_ops buf_view.
Proof.
  intros s t H. split.
  - cbn [buf_ops o_peek]. apply peek_view; [lia|auto].
  - cbn [buf_ops o_skip]. apply skip_view; [lia|auto].
Qed.

Lemma skips_view t ks : Forall (fun k => k <> 33) ks ->
  buf_view (fold_left (fun s k => buf_skip k s) ks (buf_new t)) (skipn (list_sum ks) t).
Proof.
  assert (G : forall ks s t, buf_view s t -> Forall (fun k => k <> 33) ks ->
    buf_view (fold_left (fun s k => buf_skip k s) ks s) (skipn (list_sum ks) t)).
  { intros ks'; induction ks' as [|k ks' IH]; intros s t' V H.
    - exact V.
    - inversion H; subst. cbn [fold_left].
      change (list_sum (k :: ks')) with (k + list_sum ks'). rewrite <- skipn_skipn'.
      apply IH; auto. apply skip_view; auto. }
  intros. apply G; auto. apply new_view.
Qed.

Lemma buffered_peek t ks n : Forall (fun k => k <> 33) ks -> n < 32 ->
  buf_peek (fold_left (fun s k => buf_skip k s) ks (buf_new t)) n =
  str_peek (fold_left (fun s k => str_skip k s) ks (str_new t)) n.
Proof.
  intros H Hn. rewrite (peek_view n _ _ Hn (skips_view t ks H)). rewrite str_skips. unfold str_peek.
  cbn [ss_input ss_pos]. apply nth_error_skipn'.
Qed.

Lemma buffered_empty t ks : Forall (fun k => k <> 33) ks ->
  buf_is_empty (fold_left (fun s k => buf_skip k s) ks (buf_new t)) =
  str_buf_is_empty (fold_left (fun s k => str_skip k s) ks (str_new t)).
Proof.
  intros H. assert (V := skips_view t ks H). rewrite str_skips.
  set (s := fold_left _ _ _) in *. clearbody s. unfold buf_is_empty, str_buf_is_empty. cbn [ss_input ss_pos].
  destruct V as (E & L & C).
  assert (LE : List.length (b_buf s) + List.length (b_input s) = List.length t - list_sum ks).
  { rewrite <- app_length, E, skipn_length. reflexivity. }
  destruct C as [C|C]; [|rewrite C in LE; cbn in LE];
  destruct (Nat.eqb_spec (List.length (b_buf s)) 0), (Nat.leb_spec (List.length t) (list_sum ks)); auto; lia.
Qed.

(** Collecting a line. *)
Lemma break_mask x : mask_of 32 (fun i => N.eqb (lane x i) 13 || N.eqb (lane x i) 10)
  (N.lor (comp_to_bitmask32 x 13) (comp_to_bitmask32 x 10)).
Proof. apply mask_lor; apply comp_bitmask_mask. Qed.

Lemma firstn_eq_app {A} n (l r : list A) : List.length l = n -> firstn n (l ++ r) = l.
Proof. intros <-. rewrite firstn_app, Nat.sub_diag, firstn_all. apply app_nil_r. Qed.

Lemma buf_push_spec : forall fuel l r s acc,
  buf_view s (l ++ r) -> Forall (fun c => ~ break_byte c) l -> starts break_byte r ->
  List.length l < fuel ->
  exists s', buf_push_loop fuel s acc = Some (s', acc ++ l) /\ buf_view s' r.
Proof.
  induction fuel as [|fuel IH]; intros l r s acc V Hl Hr Hf; [lia|].
  cbn [buf_push_loop]. unfold get_max_buf, MAX_LEN.
  assert (B := buf_view_buf _ _ V).
  assert (SK : List.length l < 33 -> buf_view (buf_skip (List.length l) s) r).
  { intros. replace r with (skipn (List.length l) (l ++ r)) at 1
      by (rewrite skipn_app, skipn_all, Nat.sub_diag; reflexivity).
    apply skip_view; [lia|exact V]. }
  destruct r as [|c r]; [destruct Hr|]. cbn [starts] in Hr.
  destruct (Nat.ltb_spec (List.length (b_buf s)) 32) as [Hlt|Hge].
  - (* short buffer: the whole rest is in it *)
    assert (E : b_buf s = l ++ c :: r).
    { destruct V as (E & _ & [Q|Q]); [lia|]. rewrite Q, app_nil_r in E. exact E. }
    rewrite E, (position_break l (c :: r)) by auto. rewrite firstn_eq_app by auto.
    eexists. split; [reflexivity|]. apply SK. rewrite E, app_length in Hlt. lia.
  - assert (LB : List.length (b_buf s) = 32) by (destruct V; lia).
    cbv zeta.
    destruct (Nat.lt_ge_cases (List.length l) 32) as [H32|H32].
    + (* break inside the buffer *)
      assert (E : b_buf s = l ++ firstn (32 - List.length l) (c :: r)).
      { rewrite B, firstn_app, firstn_all2 by lia. reflexivity. }
      assert (P1 : (N.eqb (lane (b_buf s) (List.length l)) 13 || N.eqb (lane (b_buf s) (List.length l)) 10) = true).
      { unfold lane. rewrite E, app_nth2, Nat.sub_diag by lia.
        destruct (32 - List.length l) eqn:D; [lia|]. cbn [firstn nth]. unfold break_byte in Hr. lia. }
      assert (P2 : forall j, j < List.length l -> (N.eqb (lane (b_buf s) j) 13 || N.eqb (lane (b_buf s) j) 10) = false).
      { intros j Hj. unfold lane. rewrite E, app_nth1 by auto.
        assert (In (nth j l 0%N) l) as I by (apply nth_In; auto).
        rewrite Forall_forall in Hl. specialize (Hl _ I). unfold break_byte in Hl. lia. }
      assert (NZ := mask_nonzero _ _ _ _ (break_mask (b_buf s)) H32 P1).
      apply N.eqb_neq in NZ. rewrite NZ.
      rewrite (mask_trailing _ _ _ (List.length l) (le_n _) (break_mask (b_buf s)) H32 P1 P2).
      eexists. split; [|apply SK; lia].
      rewrite E at 1. rewrite firstn_eq_app by auto. reflexivity.
    + (* no break in the buffer *)
      assert (E : b_buf s = firstn 32 l).
      { rewrite B, firstn_app. replace (32 - List.length l) with 0 by lia. cbn. apply app_nil_r. }
      assert (Z : N.lor (comp_to_bitmask32 (b_buf s) 13) (comp_to_bitmask32 (b_buf s) 10) = 0%N).
      { eapply mask_zero; [apply break_mask|]. intros i Hi. cbn beta. unfold lane. rewrite E.
        assert (In (nth i (firstn 32 l) 0%N) l) as I.
        { assert (J : In (nth i (firstn 32 l) 0%N) (firstn 32 l)) by (apply nth_In; rewrite firstn_length; lia).
          assert (IN : forall x, In x (firstn 32 l) -> In x l).
          { intros x Hx. rewrite <- (firstn_skipn 32 l). apply in_or_app. left. exact Hx. }
          exact (IN _ J). }
        rewrite Forall_forall in Hl. specialize (Hl _ I). unfold break_byte in Hl. lia. }
      rewrite Z. cbn [N.eqb].
      destruct (IH (skipn 32 l) (c :: r) (buf_skip 32 s) (acc ++ b_buf s)) as (s' & ES & VS).
      * replace (skipn 32 l ++ c :: r) with (skipn 32 (l ++ c :: r))
          by (rewrite skipn_app; replace (32 - List.length l) with 0 by lia; reflexivity).
        apply skip_view; [lia|exact V].
      * rewrite <- (firstn_skipn 32 l) in Hl. apply Forall_app in Hl. tauto.
      * exact Hr.
      * rewrite skipn_length. lia.
      * exists s'. split; [|exact VS]. rewrite ES. rewrite E, <- app_assoc, firstn_skipn. reflexivity.
Qed.

(** White space in the vectorised source. *)
Lemma nth_firstn {A} n (l : list A) i d : i < n -> nth i (firstn n l) d = nth i l d.
Proof.
  revert l i; induction n as [|n IH]; intros l i H; [lia|]. destruct l; [reflexivity|].
  destruct i; [reflexivity|]. cbn [firstn nth]. apply IH. lia.
Qed.
Lemma nth_skipn {A} n (l : list A) i d : nth i (skipn n l) d = nth (n + i) l d.
Proof.
  revert l; induction n as [|n IH]; intros l; [reflexivity|]. destruct l; [destruct i; reflexivity|]. apply IH.
Qed.

Lemma class_lane v i : i < 16 -> Forall is_byte v -> lane (ws_class v) i = class_of (lane v i).
Proof.
  intros Hi HB. unfold ws_class, and16 at 1. rewrite lane_map by auto.
  unfold swizzle16. rewrite !lane_map by auto. unfold swizzle_lane, and16. rewrite !lane_map by auto.
  unfold shr16. rewrite !lane_map by auto.
  assert (S15 : lane (splat16 15) i = 15%N) by (unfold lane, splat16; apply nth_repeat_lt || (do 16 (destruct i; [reflexivity|]); lia)).
  assert (S127 : lane (splat16 127) i = 127%N) by (unfold lane, splat16; apply nth_repeat_lt || (do 16 (destruct i; [reflexivity|]); lia)).
  rewrite S15, S127. apply class_byte.
  unfold lane. destruct (Nat.lt_ge_cases i (List.length v)).
  - rewrite Forall_forall in HB. apply HB. apply nth_In. auto.
  - rewrite nth_overflow by auto. unfold is_byte. lia.
Qed.

Lemma and_byte_lane v b i : lane (and_byte v b) i = N.land (lane v i) b.
Proof.
  unfold lane, and_byte. destruct (Nat.lt_ge_cases i (List.length v)).
  - rewrite (nth_indep _ 0%N (N.land 0 b)) by (rewrite map_length; auto). apply (map_nth (fun x : N => N.land x b)).
  - rewrite !nth_overflow by (rewrite ?map_length; auto). symmetry. apply N.land_0_l.
Qed.

Lemma ws_mask_mask x flag : List.length x = 32 -> Forall is_byte x ->
  mask_of 32 (fun i => negb (N.eqb (N.land (class_of (lane x i)) flag) 0)) (ws_mask x flag).
Proof.
  intros L HB. unfold ws_mask, split32.
  assert (HB1 : Forall is_byte (firstn 16 x) /\ Forall is_byte (skipn 16 x)).
  { rewrite <- (firstn_skipn 16 x) in HB. apply Forall_app in HB. exact HB. }
  destruct HB1 as [HB1 HB2].
  set (mv := merge32 _ _).
  assert (LM : forall i, i < 32 -> lane mv i = N.land (class_of (lane x i)) flag).
  { intros i Hi. subst mv. unfold merge32, lane at 1.
    assert (L16 : forall f : nat -> N, List.length (map f (seq 0 16)) = 16) by (intros; rewrite map_length, seq_length; reflexivity).
    destruct (Nat.lt_ge_cases i 16).
    - rewrite app_nth1 by (rewrite L16; auto).
      fold (lane (map (lane (and_byte (ws_class (firstn 16 x)) flag)) (seq 0 16)) i).
      rewrite lane_map by auto. rewrite and_byte_lane, class_lane by auto. unfold lane. rewrite nth_firstn by auto. reflexivity.
    - rewrite app_nth2 by (rewrite L16; auto). rewrite L16.
      fold (lane (map (lane (and_byte (ws_class (skipn 16 x)) flag)) (seq 0 16)) (i - 16)).
      rewrite lane_map by lia. rewrite and_byte_lane, class_lane by (auto; lia). unfold lane. rewrite nth_skipn.
      replace (16 + (i - 16)) with i by lia. reflexivity. }
  clearbody mv.
  intros k. rewrite (mask_not _ _ (comp_to_mask mv 0)).
  destruct (Nat.ltb_spec k 32); [|reflexivity]. cbn [andb]. rewrite LM by auto. reflexivity.
Qed.

Lemma class_sp b tabs : negb (N.eqb (N.land (class_of b) (4 + (if tabs : bool then 1 else 0))) 0)
  = (N.eqb b 32 || (tabs && N.eqb b 9)).
Proof.
  unfold class_of. destruct (N.eqb_spec b 32) as [->|]; [destruct tabs; reflexivity|].
  destruct (N.eqb_spec b 9) as [->|]; [destruct tabs; reflexivity|].
  destruct (N.eqb_spec b 10); [destruct tabs; reflexivity|]. destruct (N.eqb_spec b 13); destruct tabs; reflexivity.
Qed.
Lemma class_nl b : negb (N.eqb (N.land (class_of b) 2) 0) = (N.eqb b 10 || N.eqb b 13).
Proof.
  unfold class_of. destruct (N.eqb_spec b 32) as [->|]; [reflexivity|].
  destruct (N.eqb_spec b 9) as [->|]; [reflexivity|].
  destruct (N.eqb_spec b 10); [reflexivity|]. destruct (N.eqb_spec b 13); reflexivity.
Qed.
Lemma class_hash b : N.land (class_of b) 8 = 0%N.
Proof.
  unfold class_of. repeat match goal with |- context [if ?c then _ else _] => destruct c end; reflexivity.
Qed.

Lemma eol_mask x m : List.length x = 32 -> Forall is_byte x ->
  mask_of 32 (fun i => N.eqb (lane x i) 10 || N.eqb (lane x i) 13)
    (N.lor (N.land (ws_mask x 8) m) (ws_mask x 2)).
Proof.
  intros L HB. assert (Z : ws_mask x 8 = 0%N).
  { eapply mask_zero; [apply ws_mask_mask; auto|]. intros i _. cbn beta. rewrite class_hash. reflexivity. }
  rewrite Z, N.land_0_l, N.lor_0_l. intros k. rewrite (ws_mask_mask x 2 L HB k), class_nl. reflexivity.
Qed.
Lemma sp_mask x tabs : List.length x = 32 -> Forall is_byte x ->
  mask_of 32 (fun i => N.eqb (lane x i) 32 || (tabs && N.eqb (lane x i) 9))
    (ws_mask x (4 + (if tabs : bool then 1 else 0))).
Proof. intros L HB k. rewrite (ws_mask_mask x _ L HB k), class_sp. reflexivity. Qed.

Lemma nth_repeat_lt' {A} (a d : A) n i : i < n -> nth i (repeat a n) d = a.
Proof. revert i; induction n; intros i H; [lia|]. destruct i; [reflexivity|]. cbn. apply IHn. lia. Qed.

Lemma buf_spaces_spec tabs : forall fuel n after s has consumed,
  buf_view s (repeat 32%N n ++ after) -> Forall is_byte after ->
  after = [] \/ starts break_byte after -> has = true \/ 0 < n -> n < fuel ->
  exists s', buf_skip_loop fuel s tabs has consumed = Some (s', (consumed + n, SkipOk false true)) /\ buf_view s' after.
Proof.
  induction fuel as [|fuel IH]; intros n after s has consumed V HB Ha Hn Hf; [lia|].
  cbn [buf_skip_loop]. unfold get_max_buf, MAX_LEN.
  assert (B := buf_view_buf _ _ V).
  assert (NB : ~ starts (blank_for tabs) after).
  { destruct Ha as [->|Ha]; [intros []|]. destruct after; [destruct Ha|]. cbn in *. unfold blank_for, break_byte in *. lia. }
  assert (NH : ~ starts (fun c => c = 35%N) after).
  { destruct Ha as [->|Ha]; [intros []|]. destruct after; [destruct Ha|]. cbn in *. unfold break_byte in *. lia. }
  assert (FB : Forall (blank_for tabs) (repeat 32%N n)).
  { apply Forall_forall. intros c Hc. apply repeat_spec in Hc. left. auto. }
  assert (ANY : existsb (N.eqb 9) (repeat 32%N n) = false).
  { clear. induction n; [reflexivity|exact IHn]. }
  assert (HAS : has || existsb (N.eqb 32) (repeat 32%N n) = true).
  { destruct Hn as [->|Hn]; [reflexivity|]. destruct n; [lia|]. cbn. apply orb_true_r. }
  destruct (Nat.ltb_spec (List.length (b_buf s)) 32) as [Hlt|Hge].
  - assert (TL : List.length (repeat 32%N n ++ after) < 32).
    { destruct V as (E & _ & [Q|Q]); [lia|]. rewrite Q, app_nil_r in E. rewrite <- E. exact Hlt. }
    assert (G : forall f, List.length (repeat 32%N n) + List.length after < f -> exists s', shared_skip_ws_to_eol buf_ops f s tabs consumed false has
      = Some (s', (consumed + n, SkipOk false true)) /\ buf_view s' after).
    { intros f Hff. destruct (shared_spec buf_ops buf_view tabs buf_follows (repeat 32%N n) after s f consumed false has V FB NB Hff)
        as (I1 & _ & _).
      destruct (I1 NH) as (s' & E & VS). cbn [orb] in E. rewrite ANY, HAS, repeat_length in E. eauto. }
    assert (MONO : exists s', shared_skip_ws_to_eol buf_ops (S fuel) s tabs consumed false has
      = Some (s', (consumed + n, SkipOk false true)) /\ buf_view s' after).
    { (* the loop stops at the break, so fuel above the number of spaces is enough *)
      clear - V Hf ANY HAS NB NH Ha.
      revert n s has consumed fuel V Hf ANY HAS. induction n as [|n IHn]; intros s has consumed fuel V Hf ANY HAS.
      - cbn [shared_skip_ws_to_eol]. cbv zeta. rewrite (follows_peekz _ _ _ _ buf_follows V). cbn [repeat app].
        assert (T : (nth 0 after 0 =? 32)%N = false /\ (nth 0 after 0 =? 9)%N = false /\ (nth 0 after 0 =? 35)%N = false).
        { destruct Ha as [->|Ha]; [repeat split|]. destruct after; [destruct Ha|]. cbn in *. unfold break_byte in *. lia. }
        destruct T as (-> & -> & ->). cbn [andb]. cbn [repeat existsb] in HAS. rewrite orb_false_r in HAS. subst has.
        rewrite Nat.add_0_r. eauto.
      - cbn [shared_skip_ws_to_eol]. cbv zeta. rewrite (follows_peekz _ _ _ _ buf_follows V). cbn [repeat app nth N.eqb Pos.eqb].
        destruct (buf_follows _ _ V) as [_ V']. cbn [repeat app skipn] in V'.
        destruct fuel as [|fuel]; [lia|].
        destruct (IHn (o_skip buf_ops 1 s) true (consumed + 1) fuel V' ltac:(lia)) as (s' & E & VS).
        + exact ANY.
        + reflexivity.
        + rewrite E. exists s'. split; auto. do 3 f_equal. lia. }
    exact MONO.
  - assert (LB : List.length (b_buf s) = 32) by (destruct V; lia).
    assert (FBB : Forall is_byte (b_buf s)).
    { rewrite B. apply Forall_forall. intros c Hc.
      assert (In c (repeat 32%N n ++ after)) as I by (rewrite <- (firstn_skipn 32); apply in_or_app; left; exact Hc).
      apply in_app_or in I as [I|I]; [apply repeat_spec in I; subst; unfold is_byte; lia|].
      rewrite Forall_forall in HB. auto. }
    cbv zeta. set (m := not32 _).
    assert (EM := eol_mask (b_buf s) m LB FBB). assert (SM := sp_mask (b_buf s) tabs LB FBB).
    set (eol := N.lor _ _) in *. set (sp := ws_mask _ (4 + _)) in *.
    assert (HS : has || negb (N.eqb sp 0) = true).
    { destruct Hn as [->|Hn]; [reflexivity|].
      assert (NZ := mask_nonzero _ _ _ 0 SM ltac:(lia)). cbn beta in NZ.
      assert (L0 : lane (b_buf s) 0 = 32%N).
      { unfold lane. rewrite B, nth_firstn by lia. destruct n; [lia|]. reflexivity. }
      rewrite L0 in NZ. specialize (NZ eq_refl). apply N.eqb_neq in NZ. rewrite NZ. apply orb_true_r. }
    rewrite HS.
    destruct (Nat.lt_ge_cases n 32) as [H32|H32].
    + destruct after as [|c after].
      { exfalso. rewrite app_nil_r in *. rewrite B in LB. rewrite firstn_length, repeat_length in LB. lia. }
      destruct Ha as [Ha|Ha]; [discriminate|]. cbn [starts] in Ha.
      assert (P1 : (N.eqb (lane (b_buf s) n) 10 || N.eqb (lane (b_buf s) n) 13) = true).
      { unfold lane. rewrite B, nth_firstn by auto. rewrite app_nth2 by (rewrite repeat_length; lia).
        rewrite repeat_length, Nat.sub_diag. cbn. unfold break_byte in Ha. lia. }
      assert (P2 : forall j, j < n -> (N.eqb (lane (b_buf s) j) 10 || N.eqb (lane (b_buf s) j) 13) = false).
      { intros j Hj. unfold lane. rewrite B, nth_firstn by lia. rewrite app_nth1 by (rewrite repeat_length; auto).
        rewrite nth_repeat_lt' by auto. reflexivity. }
      assert (NZ := mask_nonzero _ _ _ _ EM H32 P1). apply N.eqb_neq in NZ. rewrite NZ.
      rewrite (mask_trailing _ _ _ n (le_n _) EM H32 P1 P2).
      eexists. split; [reflexivity|].
      replace (c :: after) with (skipn n (repeat 32%N n ++ c :: after)) at 1
        by (rewrite skipn_app, repeat_length, Nat.sub_diag, skipn_all2 by (rewrite repeat_length; auto); reflexivity).
      apply skip_view; [lia|exact V].
    + assert (Z : eol = 0%N).
      { eapply mask_zero; [exact EM|]. intros i Hi. cbn beta. unfold lane. rewrite B, nth_firstn by auto.
        rewrite app_nth1 by (rewrite repeat_length; lia). rewrite nth_repeat_lt' by lia. reflexivity. }
      rewrite Z. cbn [N.eqb].
      destruct (IH (n - 32) after (buf_skip 32 s) true (consumed + 32)) as (s' & E & VS); auto; try lia.
      * replace (repeat 32%N (n - 32) ++ after) with (skipn 32 (repeat 32%N n ++ after)).
        -- apply skip_view; [lia|exact V].
        -- replace n with (32 + (n - 32)) at 1 by lia. rewrite repeat_app, <- app_assoc, skipn_app.
           rewrite repeat_length, Nat.sub_diag, skipn_all2 by (rewrite repeat_length; auto). reflexivity.
      * exists s'. split; [|exact VS]. rewrite E. do 3 f_equal. lia.
Qed.

(** With fewer than 32 bytes left the byte-wise code runs. *)
Lemma buf_short fuel s t tabs has : buf_view s t -> List.length t < 32 -> 0 < fuel ->
  buf_skip_ws_to_eol fuel s tabs has = shared_skip_ws_to_eol buf_ops fuel s tabs 0 false has.
Proof.
  intros V L Hf. unfold buf_skip_ws_to_eol. destruct fuel as [|fuel]; [lia|]. cbn [buf_skip_loop].
  unfold get_max_buf, MAX_LEN. rewrite (buf_view_buf _ _ V), firstn_length.
  destruct (Nat.ltb_spec (Nat.min 32 (List.length t)) 32); [reflexivity|lia].
Qed.

(** Two sources that deliver the same text skip white space alike. *)
Lemma shared_same {S1 S2} (o1 : ops S1) (o2 : ops S2) R1 R2 : follows o1 R1 -> follows o2 R2 ->
  forall fuel s1 s2 t tabs bytes any has, R1 s1 t -> R2 s2 t ->
  match shared_skip_ws_to_eol o1 fuel s1 tabs bytes any has, shared_skip_ws_to_eol o2 fuel s2 tabs bytes any has with
  | Some (s1', r1), Some (s2', r2) => r1 = r2 /\ exists t', R1 s1' t' /\ R2 s2' t'
  | None, None => True
  | _, _ => False
  end.
Proof.
  intros F1 F2.
  assert (TW : forall p fuel s1 s2 t, R1 s1 t -> R2 s2 t ->
    match take_while o1 p fuel s1, take_while o2 p fuel s2 with
    | Some (l1, s1'), Some (l2, s2') => l1 = l2 /\ exists t', R1 s1' t' /\ R2 s2' t'
    | None, None => True
    | _, _ => False
    end).
  { intros p; induction fuel as [|fuel IH]; intros s1 s2 t V1 V2; [exact I|]. cbn [take_while].
    rewrite (follows_peekz _ _ _ _ F1 V1), (follows_peekz _ _ _ _ F2 V2).
    destruct (p (nth 0 t 0%N)); [|split; eauto].
    specialize (IH _ _ _ (proj2 (F1 _ _ V1)) (proj2 (F2 _ _ V2))).
    destruct (take_while o1 p fuel (o_skip o1 1 s1)) as [[? ?]|], (take_while o2 p fuel (o_skip o2 1 s2)) as [[? ?]|]; auto.
    destruct IH as [-> ?]; auto. }
  induction fuel as [|fuel IH]; intros s1 s2 t tabs bytes any has V1 V2; [exact I|].
  cbn [shared_skip_ws_to_eol]. cbv zeta.
  rewrite (follows_peekz _ _ _ _ F1 V1), (follows_peekz _ _ _ _ F2 V2).
  repeat match goal with |- context [if ?b then _ else _] => match type of b with bool => destruct b end end.
  - apply (IH _ _ (skipn 1 t)); [apply F1|apply F2]; auto.
  - apply (IH _ _ (skipn 1 t)); [apply F1|apply F2]; auto.
  - split; eauto.
  - unfold skip_while_non_breakz.
    specialize (TW (fun c => negb (is_breakz c)) fuel _ _ _ (proj2 (F1 _ _ V1)) (proj2 (F2 _ _ V2))).
    destruct (take_while o1 _ fuel (o_skip o1 1 s1)) as [[? ?]|], (take_while o2 _ fuel (o_skip o2 1 s2)) as [[? ?]|]; auto; try contradiction.
    destruct TW as [-> (t' & ? & ?)]. eapply IH; eauto.
  - split; eauto.
Qed.
