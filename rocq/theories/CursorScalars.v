(** The scalars read by the scanner: plain, quoted and block scalars. *)
From Verif Require Import Base Tokens Scalar Chars Source SourceProofs Cursor SpecScan CursorProofs CursorRuns.
From Coq Require Import Lia ZifyBool ZifyNat ZifyN String.

(** A marker at a place between [a] and [b]. *)
Definition between (i : text) (a b : nat) (m : marker) : Prop := exists n, a <= n <= b /\ m = at_pos i n.
Lemma between_le i a b b' m : between i a b m -> b <= b' -> between i a b' m.
Proof. intros (n & Hn & ->) H. exists n. split; [lia|reflexivity]. Qed.
Lemma between_self i a c : cok i c -> a <= cpos c -> between i a (cpos c) (c_mark c).
Proof. intros (_ & _ & ->) H. exists (cpos c). split; [lia|reflexivity]. Qed.

(** ** Plain scalars *)
Lemma nbbz_ok b : is_blank_or_breakz b = false -> b <> 0%N /\ b <> 10%N.
Proof. unfold is_blank_or_breakz, is_break. lia. Qed.
Lemma runs_plain_content i in_flow : forall fuel s c, cok i c ->
  runs i (plain_content fuel in_flow s) c (fun _ r => s <> [] -> r <> []) (short fuel i c 1) False.
Proof.
  induction fuel as [|fuel IH]; intros s c H; cbn [plain_content].
  { apply runs_fuel; auto. sh. }
  do 2 rstep. rstep; [apply runs_ret; auto|].
  apply orb_false_iff in Heqb as [B _]. destruct (nbbz_ok _ B) as [Z0 Z1].
  rstep. apply runs_skip1; auto. intros c1 H1 E1 _ _.
  eapply runs_weaken; [apply IH; auto| |sh|auto]. cbv beta. intros c2 r _ _ R _. apply R.
  destruct s; discriminate.
Qed.
Lemma runs_plain_blanks i indent start : forall fuel ws lb tb c, cok i c -> mark_in i (cpos c) start ->
  runs i (plain_blanks fuel indent start ws lb tb) c
    (fun c' _ => is_blank_or_break (peekz str_ops (c_src c') 0) = false) (short fuel i c 2) False.
Proof.
  induction fuel as [|fuel IH]; intros ws lb tb c H M; cbn [plain_blanks].
  { apply runs_fuel; auto. sh. }
  do 3 rstep. rstep; [|apply runs_ret; auto].
  assert (BR : forall c1, cok i c1 -> cpos c <= cpos c1 ->
      (is_break (peekz str_ops (c_src c) 0) = true -> crlf_only i -> cpos c < cpos c1) ->
      is_break (peekz str_ops (c_src c) 0) = true ->
      forall ws lb tb, runs i (plain_blanks fuel indent start ws lb tb) c1
        (fun c' _ => is_blank_or_break (peekz str_ops (c_src c') 0) = false) (short (S fuel) i c 2) False).
  { intros c1 H1 L1 PR B ws' lb' tb'. eapply runs_weaken; [apply IH; auto; mk|auto| |auto].
    intros S0 N. assert (cpos c < cpos c1) by (apply PR; auto; apply N). sh. }
  rstep.
  - assert (peekz str_ops (c_src c) 0 <> 0%N /\ peekz str_ops (c_src c) 0 <> 10%N) as [Z0 Z1]
      by (apply blank_ok; auto).
    rstep.
    + rstep. apply runs_skipb; auto. intros c1 H1 E1 _ _.
      eapply runs_weaken; [apply IH; auto; mk|auto|sh|auto].
    + rstep.
      * eapply runs_bind; [apply runs_ws; auto|sh|tauto|].
        intros c1 a H1 L1 (A1 & A2 & A3 & A4 & A5 & A6). cbv beta. rstep. rstep; [rstep; mk|].
        assert (cpos c < cpos c1).
        { apply (forward i c c1 (fun b => b = 9%N)); auto. lia. }
        eapply runs_weaken; [apply IH; auto; mk|auto|sh|auto].
      * apply runs_skipb; auto. intros c1 H1 E1 _ _.
        eapply runs_weaken; [apply IH; auto; mk|auto|sh|auto].
  - assert (is_break (peekz str_ops (c_src c) 0) = true).
    { unfold is_blank_or_break, is_blank, is_break in *. lia. }
    rstep.
    + apply runs_linebreak; [assumption|]. intros c1 K1 L1 P1 _. apply BR; auto.
    + apply runs_linebreak; [assumption|]. intros c1 K1 L1 P1 _. apply runs_set_lead; auto.
      intros c2 K2 E2 _ _. apply BR; auto; [lia|]. intros; rewrite E2; auto.
Qed.
Lemma runs_plain_loop i in_flow indent start a : forall fuel s ws lb tb e c, cok i c ->
  mark_in i (cpos c) start -> a <= cpos c -> between i a (cpos c) e ->
  runs i (plain_loop fuel indent in_flow start s ws lb tb e) c
    (fun c' r => (fst r <> [] -> s <> [] \/ cpos c < cpos c') /\ between i a (cpos c') (snd r))
    (short fuel i c 3) False.
Proof.
  induction fuel as [|fuel IH]; intros s ws lb tb e c H M A E; cbn [plain_loop].
  { apply runs_fuel; auto. sh. }
  do 5 rstep. rstep; [apply runs_ret; auto; cbn [fst snd]; auto|].
  rstep; [rstep; mk|]. rstep.
  apply (runs_bind i _ _ c
    (fun c' r => let '(s', ws', lb', tb', e') := r in
       (s' <> [] -> s <> [] \/ cpos c < cpos c') /\ between i a (cpos c') e')
    (short fuel i c 1) False); [|sh|auto|].
  - rstep.
    + apply andb_true_iff in Heqb1 as [B _]. apply negb_true_iff in B. destruct (nbbz_ok _ B) as [Z0 Z1].
      apply (runs_bind i _ _ c (fun c' _ => cpos c' = cpos c) False False); [|tauto|auto|].
      * rstep.
        -- rstep. destruct lb; apply runs_ret; auto.
        -- destruct ws; apply runs_ret; auto.
      * intros c1 [[[s1 ws1] lb1] tb1] H1 L1 E1. cbv beta in *. rstep.
        assert (PS := peek_same i c c1 0 H H1 E1).
        apply runs_skip1; auto; [congruence..|]. intros c2 H2 E2 _ _.
        eapply runs_bind; [apply runs_plain_content; auto|sh|auto|].
        intros c3 s3 H3 L3 R3. cbv beta in *. rstep. apply runs_ret; auto. split; [intros _; right; lia|].
        apply between_self; auto; lia.
    + apply runs_ret; auto.
  - intros c1 [[[[s1 ws1] lb1] tb1] e1] H1 L1 [R1 E1]. cbv beta in *. rstep.
    rstep; [apply runs_ret; auto|].
    eapply runs_bind; [apply runs_plain_blanks; auto; mk|sh|auto|].
    intros c2 [[ws2 lb2] tb2] H2 L2 B2. cbv beta in *. rstep.
    assert (cpos c1 < cpos c2).
    { apply (forward i c1 c2 (fun b => is_blank_or_break b = true)); auto; [|congruence].
      unfold is_blank_or_break, is_blank, is_break in *. lia. }
    rstep.
    + apply runs_ret; auto. cbn [fst snd]. split; [intros X; destruct (R1 X); [auto|right; lia]|].
      eapply between_le; eauto; lia.
    + eapply runs_weaken; [apply IH; auto; [mk|lia|eapply between_le; eauto; lia]| |sh|auto].
      cbv beta. intros c3 r _ L3 [X1 X2]. split; [intros _; right; lia|auto].
Qed.
Lemma runs_plain i fuel self_indent in_flow c : cok i c ->
  runs i (scan_plain_scalar fuel self_indent in_flow) c
    (fun c' t => quiet t /\ tok_in i (cpos c) (cpos c') t /\ cpos c < cpos c') (short fuel i c 3) False.
Proof.
  intros H. unfold scan_plain_scalar. rstep. rstep; [rstep; mk|].
  assert (M : mark_in i (cpos c) (c_mark c)) by mk.
  eapply runs_bind; [apply (runs_plain_loop i in_flow _ _ (cpos c)); auto; apply between_self; auto|auto|auto|].
  intros c1 [s e] H1 L1 [R (n & Hn & E)]. cbn [fst snd] in *. rstep.
  assert (G : forall c2, cok i c2 -> cpos c2 = cpos c1 -> runs i
    match s with
    | [] => err (c_mark c) "unexpected end of plain scalar"
    | _ => ret (Token (Span (c_mark c) e) (TScalar Plain s))
    end c2 (fun c' t => quiet t /\ tok_in i (cpos c) (cpos c') t /\ cpos c < cpos c') (short fuel i c 3) False).
  { intros c2 H2 E2. destruct s as [|b s]; [rstep; mk|]. apply runs_ret; auto.
    split; [repeat split; discriminate|]. split.
    - exists (cpos c), n. split; [lia|]. split; [lia|]. cbn [k_span]. f_equal; [apply H|exact E].
    - destruct R; [discriminate|contradiction|lia]. }
  rstep; rstep; apply G; auto.
Qed.

(** ** Quoted scalars *)
Lemma runs_hex_value i start : forall n k v c, cok i c -> mark_in i (cpos c) start ->
  runs i (hex_value start n k v) c
    (fun c' _ => c' = c /\ forall j, j < n -> is_ascii_hexdigit (peekz str_ops (c_src c) (k + j)) = true) False False.
Proof.
  induction n as [|n IH]; intros k v c H M; cbn [hex_value].
  { apply runs_ret; auto. split; [auto|lia]. }
  rstep. rstep; [rstep; mk|]. apply negb_false_iff in Heqb. destruct (hex_ok _ Heqb) as [_ [d D]].
  rewrite D. eapply runs_weaken; [apply IH; auto| |auto|auto]. cbv beta. intros c1 a _ _ [-> R].
  split; [auto|]. intros [|j] Hj; [rewrite Nat.add_0_r; auto|].
  replace (k + S j) with (S k + j) by lia. apply R. lia.
Qed.
Lemma escape_code_ok b x : escape_code b = Some x -> b <> 0%N /\ b <> 10%N.
Proof. intros H. split; intros ->; vm_compute in H; discriminate. Qed.
Lemma walk2 i c p q : cok i c -> peekz str_ops (c_src c) 0 = p -> peekz str_ops (c_src c) 1 = q ->
  p <> 0%N /\ p <> 10%N -> q <> 0%N /\ q <> 10%N -> walk i (cpos c) (cpos c + 2).
Proof.
  intros H E0 E1 [A0 B0] [A1 B1] n Hn.
  apply (peekz_some i c _ _ H) in E0; auto. apply (peekz_some i c _ _ H) in E1; auto.
  destruct (Nat.eq_dec n (cpos c + 0)) as [->|]; [eauto|].
  destruct (Nat.eq_dec n (cpos c + 1)) as [->|]; [eauto|]. lia.
Qed.
Lemma runs_escape i start c : cok i c -> mark_in i (cpos c) start -> peekz str_ops (c_src c) 0 = 92%N ->
  runs i (resolve_escape start) c (fun c' _ => cpos c < cpos c') False False.
Proof.
  intros H M P. unfold resolve_escape. rstep.
  destruct (escape_code (peekz str_ops (c_src c) 1)) as [[ch|n]|] eqn:E; [| |rstep; mk].
  - assert (EO := escape_code_ok _ _ E). apply runs_skip_n; auto; [eapply walk2; eauto; lia|].
    intros c1 H1 E1 _ _. apply runs_ret; [auto|lia].
  - assert (EO := escape_code_ok _ _ E). apply runs_skip_n; auto; [eapply walk2; eauto; lia|].
    intros c1 H1 E1 _ _.
    eapply runs_bind; [apply runs_hex_value; auto; mk|auto|auto|]. intros c2 v H2 L2 [-> R]. cbv beta.
    destruct (char_from_u32 v); [|rstep; mk].
    apply runs_skip_n; [assumption| |].
    { intros m Hm. specialize (R (m - cpos c1) ltac:(lia)). destruct (hex_ok _ R) as [[Z0 Z1] _].
      exists (peekz str_ops (c_src c1) (0 + (m - cpos c1))). split; [|exact Z1].
      rewrite <- (peekz_some i c1 (0 + (m - cpos c1)) _ H1 eq_refl Z0). f_equal. lia. }
    intros c3 H3 E3 _ _. apply runs_ret; [auto|lia].
Qed.
Definition closing (single : bool) (b : N) : bool := ((b =? 39)%N && single) || ((b =? 34)%N && negb single).
Lemma runs_consume i single start : forall fuel s c, cok i c -> mark_in i (cpos c) start ->
  runs i (consume_chars fuel single start s) c
    (fun c' r => if snd r then cpos c < cpos c'
                 else is_blank_or_breakz (peekz str_ops (c_src c') 0) = true \/
                      closing single (peekz str_ops (c_src c') 0) = true)
    (short fuel i c 1) False.
Proof.
  induction fuel as [|fuel IH]; intros s c H M; cbn [consume_chars].
  { apply runs_fuel; auto. sh. }
  assert (REC : forall c1 s1, cok i c1 -> cpos c < cpos c1 ->
    runs i (consume_chars fuel single start s1) c1
    (fun c' r => if snd r then cpos c < cpos c'
                 else is_blank_or_breakz (peekz str_ops (c_src c') 0) = true \/
                      closing single (peekz str_ops (c_src c') 0) = true)
    (short (S fuel) i c 1) False).
  { intros c1 s1 H1 L1. eapply runs_weaken; [apply IH; auto; mk| |sh|auto].
    cbv beta. intros c2 [s2 []] _ L2 R; cbn [snd] in *; [lia|auto]. }
  do 2 rstep. rstep; [apply runs_ret; cbn [snd]; auto|].
  destruct (nbbz_ok _ Heqb) as [Z0 Z1].
  rstep.
  { apply runs_skip_n; auto. { eapply (walk2 i c); eauto; lia. } intros c1 H1 E1 _ _. apply REC; auto; lia. }
  rstep; [apply runs_ret; cbn [snd]; auto; right; unfold closing; lia|].
  rstep; [apply runs_ret; cbn [snd]; auto; right; unfold closing; lia|].
  rstep.
  { apply runs_skip1; auto. intros c1 H1 E1 _ _. apply runs_linebreak; [assumption|]. intros c2 H2 L2 _ _.
    apply runs_ret; cbn [snd]; auto; lia. }
  rstep.
  { eapply runs_bind; [apply runs_escape; auto; lia|tauto|auto|]. intros c1 ch H1 L1 P1. apply REC; auto. }
  apply runs_skip1; auto. intros c1 H1 E1 _ _. apply REC; auto; lia.
Qed.
Lemma runs_flow_blanks i indent : forall fuel lbl ws lb tb c, cok i c ->
  runs i (flow_blanks fuel indent lbl ws lb tb) c
    (fun c' _ => is_blank (peekz str_ops (c_src c') 0) || is_break (peekz str_ops (c_src c') 0) = false)
    (short fuel i c 1) False.
Proof.
  induction fuel as [|fuel IH]; intros lbl ws lb tb c H; cbn [flow_blanks].
  { apply runs_fuel; auto. sh. }
  assert (BR : forall c1, cok i c1 -> cpos c <= cpos c1 ->
      (is_break (peekz str_ops (c_src c) 0) = true -> crlf_only i -> cpos c < cpos c1) ->
      is_break (peekz str_ops (c_src c) 0) = true ->
      forall lbl ws lb tb, runs i (flow_blanks fuel indent lbl ws lb tb) c1
    (fun c' _ => is_blank (peekz str_ops (c_src c') 0) || is_break (peekz str_ops (c_src c') 0) = false)
    (short (S fuel) i c 1) False).
  { intros c1 H1 L1 PR B lbl' ws' lb' tb'. eapply runs_weaken; [apply IH; auto|auto| |auto].
    intros S0 N. assert (cpos c < cpos c1) by (apply PR; auto; apply N). sh. }
  do 2 rstep. rstep; [|apply runs_ret; auto].
  rstep.
  - destruct (blank_ok _ Heqb0) as [Z0 Z1]. rstep.
    + rstep; [rstep; mk|]. apply runs_skipb; auto. intros c1 H1 E1 _ _.
      eapply runs_weaken; [apply IH; auto|auto|sh|auto].
    + rstep. apply runs_skipb; auto. intros c1 H1 E1 _ _.
      eapply runs_weaken; [apply IH; auto|auto|sh|auto].
  - rstep; rstep; rstep; rstep; rstep; apply BR; auto.
Qed.
Lemma runs_flow_loop i single indent start : forall fuel s ws lb tb c, cok i c ->
  mark_in i (cpos c) start ->
  runs i (flow_loop fuel single indent start s ws lb tb) c
    (fun c' _ => closing single (peekz str_ops (c_src c') 0) = true) (short fuel i c 2) False.
Proof.
  induction fuel as [|fuel IH]; intros s ws lb tb c H M; cbn [flow_loop].
  { apply runs_fuel; auto. sh. }
  do 3 rstep. rstep; [rstep; mk|].
  destruct (nth_error i (cpos c + 0)) as [b|] eqn:NB; [|rstep; mk].
  apply nth_some_lt in NB. rstep; [rstep; mk|].
  eapply runs_bind; [apply runs_consume; auto|sh|auto|]. intros c1 [s1 lbl] H1 L1 P1. cbn [snd] in P1. cbv beta.
  rstep. rstep; [apply runs_ret; auto|].
  eapply runs_bind; [apply runs_flow_blanks; auto|sh|auto|].
  intros c2 [[[lbl2 ws2] lb2] tb2] H2 L2 P2. cbv beta in *.
  assert (PR : nice i -> cpos c < cpos c2).
  { intros N. destruct lbl; [lia|]. destruct P1 as [P1|P1]; [|unfold closing in P1; congruence].
    destruct (is_blank (peekz str_ops (c_src c1) 0) || is_break (peekz str_ops (c_src c1) 0)) eqn:BB.
    - assert (cpos c1 < cpos c2); [|lia].
      apply (forward i c1 c2 (fun b => is_blank b || is_break b = true)); auto; congruence.
    - assert (Z : peekz str_ops (c_src c1) 0 = 0%N) by (unfold is_blank_or_breakz in P1; lia).
      apply (at_end i c1 H1 N) in Z. lia. }
  assert (REC : forall s ws lb tb, runs i (flow_loop fuel single indent start s ws lb tb) c2
    (fun c' _ => closing single (peekz str_ops (c_src c') 0) = true) (short (S fuel) i c 2) False).
  { intros. eapply runs_weaken; [apply IH; auto; mk|auto| |auto]. intros S0 N. specialize (PR N). sh. }
  destruct lbl2; [destruct lb2|]; apply REC.
Qed.
Lemma runs_quoted i fuel single indent in_flow c : cok i c ->
  peekz str_ops (c_src c) 0 <> 0%N -> peekz str_ops (c_src c) 0 <> 10%N ->
  runs i (scan_flow_scalar fuel single indent in_flow) c
    (fun c' t => quiet t /\ tok_in i (cpos c) (cpos c') t /\ cpos c < cpos c') (short fuel i c 2) False.
Proof.
  intros H Z0 Z1. unfold scan_flow_scalar. rstep. assert (M : mark_in i (cpos c) (c_mark c)) by mk.
  apply runs_skip1; auto. intros c1 H1 E1 _ _.
  eapply runs_bind; [apply runs_flow_loop; auto; mk|sh|auto|]. intros c2 s H2 L2 P2. cbv beta in *.
  unfold closing in P2. apply runs_skip1; auto; [lia..|]. intros c3 H3 E3 _ _.
  eapply runs_bind; [apply runs_ws; auto|sh|tauto|]. intros c4 r H4 L4 _. cbv beta.
  do 2 rstep. rstep; [|rstep; mk]. apply runs_ret; auto.
  split; [destruct single; repeat split; discriminate|]. split; [|lia]. apply (span_from i c c4 c4); auto; lia.
Qed.

(** ** Block scalars *)
Lemma runs_skip_spaces i : forall fuel c, cok i c ->
  runs i (skip_spaces fuel) c (fun c' _ => forall n, cpos c <= n < cpos c' -> nth_error i n = Some 32%N) (short fuel i c 1) False.
Proof.
  induction fuel as [|fuel IH]; intros c H; cbn [skip_spaces].
  { apply runs_fuel; auto. sh. }
  rstep. rstep; [|apply runs_ret; auto; lia].
  assert (S0 : nth_error i (cpos c + 0) = Some 32%N) by (apply (peekz_some i); [assumption|lia|discriminate]). rewrite Nat.add_0_r in S0.
  apply runs_skipb; auto; [lia..|]. intros c1 H1 E1 _ _.
  eapply runs_weaken; [apply IH; auto| |sh|auto]. cbv beta. intros c2 _ _ _ R n Hn. destruct (Nat.eq_dec n (cpos c)) as [->|NE]; [exact S0|apply R; lia].
Qed.
Lemma to_lf_bound l : exists p q, l = p ++ q /\ ~ In 10%N p /\ to_lf l = List.length p.
Proof.
  induction l as [|c l (p & q & -> & Hp & E)].
  - exists [], []. repeat split; auto.
  - cbn [to_lf]. destruct (N.eqb_spec c 10) as [->|Hc].
    + exists [], (10%N :: p ++ q). repeat split; auto.
    + exists (c :: p), q. split; [reflexivity|]. split; [intros [X|X]; auto|cbn [List.length]; lia].
Qed.
(** At the start of a line. *)
Definition line_start (i : text) (n : nat) : Prop := m_col (at_pos i n) = 1%N.
Lemma firstn_step {A} : forall n (l : list A) x, nth_error l n = Some x -> firstn (S n) l = firstn n l ++ [x].
Proof.
  induction n as [|n IH]; intros [|y l] x H; try discriminate; cbn [nth_error] in H; [injection H as ->; reflexivity|].
  change (firstn (S (S n)) (y :: l)) with (y :: firstn (S n) l). change (firstn (S n) (y :: l)) with (y :: firstn n l). rewrite (IH _ _ H). reflexivity.
Qed.
Lemma spaces_between i n : forall d, (forall j, n <= j < n + d -> nth_error i j = Some 32%N) ->
  firstn (n + d) i = firstn n i ++ repeat 32%N d /\ m_col (at_pos i (n + d)) = (m_col (at_pos i n) + N.of_nat d)%N.
Proof.
  induction d as [|d IH]; intros H.
  - rewrite Nat.add_0_r. cbn [repeat]. rewrite app_nil_r. split; [reflexivity|lia].
  - destruct (IH ltac:(intros j Hj; apply H; lia)) as [I1 I2]. assert (X := H (n + d) ltac:(lia)). replace (n + S d) with (S (n + d)) by lia.
    split.
    + rewrite (firstn_step _ _ _ X), I1, <- app_assoc. f_equal. change [32%N] with (repeat 32%N 1). rewrite <- repeat_app. f_equal. lia.
    + rewrite (at_pos_step _ _ _ X). change (32 =? 10)%N with false. cbv iota. unfold mark_add. cbn [m_col]. rewrite I2. lia.
Qed.
Lemma lead_bound i k n n' : indents_within k i -> line_start i n -> n <= n' -> (forall j, n <= j < n' -> nth_error i j = Some 32%N) ->
  (m_col (at_pos i n') <= N.of_nat (k + 1))%N.
Proof.
  intros H L LE S. replace n' with (n + (n' - n)) in S |- * by lia. destruct (spaces_between i n (n' - n) S) as [E1 E2]. rewrite E2. unfold line_start in L. rewrite L.
  enough (n' - n <= k) by lia. apply (H (firstn n i) (n' - n) (skipn (n + (n' - n)) i)).
  - rewrite app_assoc, <- E1, firstn_skipn. reflexivity.
  - unfold at_pos, mark_of in L. cbn [m_col] in L. destruct (to_lf_bound (rev (firstn n i))) as (p & q & E & NP & LP). rewrite LP in L.
    destruct p as [|x p]; [|cbn [List.length] in L; lia]. cbn [app] in E. assert (X : firstn n i = rev q) by (rewrite <- E, rev_involutive; reflexivity). rewrite X. destruct q as [|x q]; [left; reflexivity|]. right.
    rewrite E in LP. cbn [to_lf List.length] in LP. destruct (N.eqb_spec x 10) as [->|]; [|discriminate]. exists (rev q). reflexivity.
Qed.
Lemma runs_linebreak_at {B} i (k : unit -> CM B) c Q F X : cok i c ->
  (forall c', cok i c' -> cpos c <= cpos c' ->
     (is_break (peekz str_ops (c_src c) 0) = true -> crlf_only i -> cpos c < cpos c' /\ line_start i (cpos c')) ->
     runs i (k tt) c' Q F X) ->
  runs i (bind skip_linebreak k) c Q F X.
Proof.
  intros H Hk.
  assert (R : runs i (bind skip_linebreak ret) c (fun c' _ => is_break (peekz str_ops (c_src c) 0) = true -> crlf_only i -> cpos c < cpos c') True True).
  { apply runs_linebreak; [exact H|]. intros c' C1 C2 C3 _. apply runs_ret; auto. }
  assert (M : snd (skip_linebreak c) = Ok tt) by reflexivity.
  assert (ML : fst (skip_linebreak c) = c \/ m_col (c_mark (fst (skip_linebreak c))) = 1%N).
  { unfold skip_linebreak, modify. cbn [fst]. destruct (_ && _); [right; reflexivity|]. destruct (_ =? 10)%N; [right; reflexivity|left; reflexivity]. }
  unfold runs, bind in *. destruct (skip_linebreak c) as [c1 o]. cbn [fst snd] in M, ML. subst o. cbn [ret] in R. destruct R as (R1 & R2 & R3).
  assert (K := Hk c1 R1 R2). destruct (k tt c1) as [c2 o2]. destruct K as (K1 & K2 & K3).
  - intros B1 CR. split; [auto|]. specialize (R3 B1 CR). destruct ML as [-> |ML]; [lia|]. unfold line_start. destruct R1 as (_ & _ & <-). exact ML.
  - split; [exact K1|]. split; [lia|exact K3].
Qed.
Lemma runs_bind_eq {A B} i (m : CM A) (k : A -> CM B) c P F1 X1 Q (F X : Prop) :
  runs i m c P F1 X1 -> (F1 -> F) -> (X1 -> X) ->
  (forall c' a, m c = (c', Ok a) -> cok i c' -> cpos c <= cpos c' -> P c' a -> runs i (k a) c' Q F X) ->
  runs i (bind m k) c Q F X.
Proof.
  unfold runs, bind. intros H HF HX Hk. destruct (m c) as [c' o].
  destruct H as (H1 & H2 & H3). destruct o; auto.
  specialize (Hk _ _ eq_refl H1 H2 H3). destruct (k a c') as [c'' o''].
  destruct Hk as (K1 & K2 & K3). split; [auto|split; [lia|auto]].
Qed.
(** What bounds the indentation found in front of the first line. *)
Definition from_start (i : text) (c : cursor) : Prop := line_start i (cpos c) \/ cpos c = List.length i.
Lemma runs_first_line_loop i : forall fuel mx br c, cok i c ->
  runs i (first_line_loop fuel mx br) c
    (fun c' r => nice i -> indents_within 124 i -> from_start i c -> (mx <= 125)%N -> cpos c' = List.length i \/ (fst r <= 125)%N)
    (short fuel i c 2) False.
Proof.
  induction fuel as [|fuel IH]; intros mx br c H; cbn [first_line_loop].
  { apply runs_fuel; auto. sh. }
  eapply runs_bind; [apply runs_skip_spaces; auto|sh|auto|]. intros c1 [] H1 L1 SP. cbv beta in *. rstep. cbv zeta.
  assert (CB : indents_within 124 i -> from_start i c -> cpos c1 = List.length i \/ (m_col (c_mark c1) <= 125)%N).
  { intros Hi [LS|E]; [|left; bounds; lia]. right. destruct H1 as (_ & _ & ->). exact (lead_bound i 124 _ _ Hi LS L1 SP). }
  rstep. destruct (is_break (peekz str_ops (c_src c1) 0)) eqn:B.
  - unfold read_break. rstep. apply runs_linebreak_at; [assumption|]. intros c2 H2 L2 P2. rstep.
    eapply runs_weaken; [apply IH; auto| | |auto].
    + cbv beta. intros c3 r C3 L3 R N Hi FS Hm. destruct (P2 B (proj1 N)) as [P3 P4]. apply R; auto; [left; exact P4|].
      destruct (CB Hi FS) as [E|CB']; [bounds; lia|]. destruct (mx <? m_col (c_mark c1))%N; auto.
    + intros S0 N. assert (cpos c1 < cpos c2) by (apply P2; auto; apply N). sh.
  - apply runs_ret; auto. cbn [fst]. intros N Hi FS Hm. destruct (CB Hi FS) as [E|CB']; [left; exact E|right].
    destruct (mx <? m_col (c_mark c1))%N; auto.
Qed.
Lemma runs_first_line i fuel self br c : cok i c ->
  runs i (skip_block_scalar_first_line_indent fuel self br) c
    (fun c' r => nice i -> indents_within 124 i -> from_start i c -> (self <= 116)%N -> cpos c' = List.length i \/ (fst r < 126)%N)
    (short fuel i c 2) False.
Proof.
  intros H. unfold skip_block_scalar_first_line_indent.
  eapply runs_bind; [apply runs_first_line_loop; auto|auto|auto|]. intros c1 [mx br1] H1 L1 P1. cbv beta zeta.
  apply runs_ret; auto. cbn [fst] in *. intros N Hi FS Hs. destruct (P1 N Hi FS ltac:(lia)) as [E|E]; [left; exact E|right].
  destruct (0 <? self)%N; lia.
Qed.
Lemma runs_indent_spaces i indent : forall fuel c, cok i c ->
  runs i (indent_spaces fuel indent) c (fun _ _ => True) (short fuel i c 1) False.
Proof.
  induction fuel as [|fuel IH]; intros c H; cbn [indent_spaces].
  { apply runs_fuel; auto. sh. }
  do 2 rstep. rstep; [|apply runs_ret; auto]. apply runs_skipb; auto; [lia..|]. intros c1 H1 E1 _ _.
  eapply runs_weaken; [apply IH; auto|auto|sh|auto].
Qed.
Lemma runs_wide_spaces i indent : forall fuel c, cok i c ->
  runs i (wide_spaces fuel indent) c (fun _ _ => True) True False.
Proof.
  induction fuel as [|fuel IH]; intros c H; cbn [wide_spaces].
  { apply runs_fuel; auto. }
  eapply runs_bind; [apply runs_indent_spaces; auto|auto|auto|]. intros c1 [] H1 L1 _. cbv beta.
  do 3 rstep. rstep; [apply runs_ret; auto|apply IH; auto].
Qed.
(** Exhaustion is excluded for an indentation below 126 only. *)
Lemma runs_block_indent i indent : forall fuel br c, cok i c ->
  runs i (skip_block_scalar_indent fuel indent br) c (fun _ _ => True)
    ((indent < 126)%N -> short fuel i c 2) False.
Proof.
  induction fuel as [|fuel IH]; intros br c H; cbn [skip_block_scalar_indent].
  { apply runs_fuel; auto. sh. }
  apply (runs_bind i _ _ c (fun _ _ => True) ((indent < 126)%N -> short fuel i c 1) False); [|sh|auto|].
  - rstep.
    + eapply runs_weaken; [apply runs_indent_spaces; auto|auto|auto|auto].
    + eapply runs_weaken; [apply runs_wide_spaces; auto|auto| |auto]. intros; lia.
  - intros c1 [] H1 L1 _. cbv beta. rstep. destruct (is_break (peekz str_ops (c_src c1) 0)) eqn:B.
    + unfold read_break. rstep. apply runs_linebreak; [assumption|]. intros c2 H2 L2 P2 _. rstep.
      eapply runs_weaken; [apply IH; auto|auto| |auto].
      intros S0 Hi N. specialize (S0 Hi N). assert (cpos c1 < cpos c2) by (apply P2; auto; apply N). sh.
    + apply runs_ret; auto.
Qed.
Lemma runs_content_chars i : forall fuel s c, cok i c ->
  runs i (content_chars fuel s) c
    (fun c' _ => cpos c' = List.length i \/ is_break (peekz str_ops (c_src c') 0) = true) (short fuel i c 1) False.
Proof.
  induction fuel as [|fuel IH]; intros s c H; cbn [content_chars].
  { apply runs_fuel; auto. sh. }
  do 2 rstep. rstep.
  - rstep. apply runs_skip_blank; auto.
    { intros n Hn. assert (n = cpos c) by lia. subst n.
      destruct (nth_error i (cpos c)) as [b|] eqn:E.
      - exists b. split; auto. rewrite (peekz_here i), Nat.add_0_r, E in Heqb by auto. unfold is_break in Heqb. lia.
      - apply nth_error_None in E. lia. }
    intros c1 H1 E1 _ _. eapply runs_weaken; [apply IH; auto|auto|sh|auto].
  - apply runs_ret; auto. destruct H as (_ & L & _). lia.
Qed.
Lemma runs_content_line i fuel s c : cok i c ->
  runs i (scan_block_scalar_content_line fuel s) c
    (fun c' _ => cpos c' = List.length i \/ is_break (peekz str_ops (c_src c') 0) = true) (short fuel i c 1) False.
Proof.
  intros H. unfold scan_block_scalar_content_line.
  eapply runs_bind; [apply runs_content_chars; auto|auto|auto|]. intros c1 s1 H1 L1 P1. cbv beta in *.
  rstep. rstep; [|apply runs_ret; auto].
  assert (E : push_line c1 = (Cur (str_skip 0 (c_src c1)) (mark_add 0 (c_mark c1)) (c_lead c1) (c_ska c1), Ok [])).
  { unfold push_line, str_push_non_breakz_chr. destruct H1 as (I1 & L & _). fold (cpos c1). rewrite I1.
    destruct (Nat.ltb_spec (List.length i) (cpos c1)); [lia|].
    rewrite skipn_all2 by lia. reflexivity. }
  unfold runs, bind. rewrite E. unfold ret.
  assert (W := cok_move i c1 0 (c_lead c1) (c_ska c1) H1 ltac:(rewrite Nat.add_0_r; apply walk_refl)).
  split; [exact W|]. unfold cpos at 1 2. cbn [c_src str_skip ss_pos]. fold (cpos c1). split; [lia|].
  left. change (cpos c1 + 0 = List.length i). bounds. lia.
Qed.
Lemma runs_block_loop i literal indent : forall fuel s lb tb bl c, cok i c ->
  runs i (block_loop fuel literal indent s lb tb bl) c (fun _ _ => True)
    ((indent < 126)%N -> short fuel i c 3) False.
Proof.
  induction fuel as [|fuel IH]; intros s lb tb bl c H; cbn [block_loop].
  { apply runs_fuel; auto. sh. }
  do 2 rstep. destruct (nth_error i (cpos c + 0)) as [b|] eqn:NB; [|apply runs_ret; auto].
  rstep. rstep; [apply runs_ret; auto|]. rstep. cbv zeta.
  eapply runs_bind; [apply runs_content_line; auto|sh|auto|]. intros c1 s1 H1 L1 P1. cbv beta in *.
  rstep. destruct (nth_error i (cpos c1 + 0)) as [b1|] eqn:NB1; [|apply runs_ret; auto].
  assert (B1 : is_break (peekz str_ops (c_src c1) 0) = true).
  { destruct P1 as [P1|P1]; auto. apply nth_some_lt in NB1. lia. }
  unfold read_break. rstep. apply runs_linebreak; [assumption|]. intros c2 H2 L2 P2 _. rstep.
  assert (PR : nice i -> cpos c1 < cpos c2) by (intros N; apply P2; auto; apply N).
  eapply runs_bind; [apply runs_block_indent; auto| |auto|].
  { intros S0 Hi N. specialize (S0 Hi N). specialize (PR N). sh. }
  intros c3 tb3 H3 L3 _. cbv beta.
  eapply runs_weaken; [apply IH; auto|auto| |auto].
  intros S0 Hi N. specialize (S0 Hi N). specialize (PR N). sh.
Qed.
Lemma runs_header i start c : cok i c -> mark_in i (cpos c) start ->
  runs i (block_header start) c (fun _ r => (snd r <= 9)%N) False False.
Proof.
  intros H M. unfold block_header. rstep. rstep.
  - cbv zeta. apply runs_skip1; auto; [lia..|]. intros c1 H1 E1 _ _. rstep. rstep.
    + rstep; [rstep; mk|]. assert (DB := digit_bounds _ Heqb0).
      apply runs_skip1; auto; [lia..|]. intros c2 H2 E2 _ _. apply runs_ret; auto. cbn [snd]. lia.
    + apply runs_ret; auto. cbn [snd]. lia.
  - rstep.
    + assert (DB := digit_bounds _ Heqb0). rstep; [rstep; mk|].
      apply runs_skip1; auto; [lia..|]. intros c1 H1 E1 _ _. rstep. rstep.
      * apply runs_skip1; auto; [lia..|]. intros c2 H2 E2 _ _. apply runs_ret; auto. cbn [snd]. lia.
      * apply runs_ret; auto. cbn [snd]. lia.
    + apply runs_ret; auto. cbn [snd]. lia.
Qed.
(** The header of a block scalar has been read to the end of its line. *)
Definition header_read (fuel : nat) (start : marker) (c : cursor) : Prop := exists c1 r c2 r2,
  block_header start c = (c1, Ok r) /\ skip_ws_to_eol fuel true false c1 = (c2, Ok r2) /\ is_breakz (peekz str_ops (c_src c2) 0) = true.
(** What excludes exhaustion in a block scalar. *)
Definition shortw (fuel : nat) (i : text) (c : cursor) (k : nat) (low : Prop) : Prop :=
  indents_within 124 i -> low -> short fuel i c k.
Lemma runs_block i fuel literal self start c : cok i c ->
  forall a, a <= cpos c -> start = at_pos i a ->
  runs i (scan_block_scalar_body fuel literal self start) c
    (fun c' t => quiet t /\ tok_in i a (cpos c') t) (shortw fuel i c 3 (header_read fuel start c -> (self <= 116)%N)) False.
Proof.
  intros H a LA EA. unfold scan_block_scalar_body. cbv zeta.
  assert (M : mark_in i (cpos c) start) by (exists a; auto).
  eapply runs_bind_eq; [apply runs_header; auto|tauto|auto|]. intros c1 [ch inc] HE H1 L1 P1. cbn [snd] in P1. cbv beta.
  eapply runs_bind_eq; [apply runs_ws; auto|unfold shortw; sh|tauto|]. intros c2 r WE H2 L2 _. cbv beta.
  rstep. rstep; [rstep; mk|]. destruct (is_breakz (peekz str_ops (c_src c2) 0)) eqn:BZ; [|discriminate].
  assert (LOW : (header_read fuel start c -> (self <= 116)%N) -> (self <= 116)%N).
  { intros G. apply G. exists c1, (ch, inc), c2, r. auto. }
  set (low := header_read fuel start c -> (self <= 116)%N) in *. clearbody low. clear HE WE.
  apply (runs_bind i _ _ c2 (fun c3 _ => nice i -> from_start i c3) False False); [|tauto|auto|].
  { destruct (is_break (peekz str_ops (c_src c2) 0)) eqn:B2.
    - unfold read_break. apply runs_linebreak_at; [assumption|].
      intros c3 H3 L3 P3. apply runs_ret; auto. intros N. left. apply (P3 B2). apply N.
    - apply runs_ret; auto. intros N. right. apply (at_end i); auto. unfold is_breakz, is_break in *. lia. }
  intros c3 cbk H3 L3 FS. cbv beta in *. rstep. rstep; [rstep; mk|]. cbv zeta.
  set (ind := if (0 <? inc)%N then if (1 <=? self)%N then (self + inc)%N else inc else 0%N).
  apply (runs_bind i _ _ c3
    (fun c' r => nice i -> indents_within 124 i -> low -> cpos c' = List.length i \/ (fst r < 126)%N) (shortw fuel i c3 2 low) False);
    [|unfold shortw; sh|auto|].
  { rstep.
    - eapply runs_weaken; [apply runs_first_line; auto| |unfold shortw; sh|auto].
      cbv beta. intros c4 r4 _ _ R N Hl Hs. apply R; auto.
    - assert (IB : low -> (ind < 126)%N).
      { intros Hs. specialize (LOW Hs). unfold ind. destruct (0 <? inc)%N, (1 <=? self)%N; lia. }
      eapply runs_bind; [apply runs_block_indent; auto|unfold shortw; auto|auto|].
      intros c4 tb H4 L4 _. apply runs_ret; auto. }
  intros c4 [ind4 tb4] H4 L4 IB. cbn [fst] in IB. cbv beta. do 2 rstep.
  destruct (nth_error i (cpos c4 + 0)) as [b|] eqn:NB.
  - rstep; [rstep; mk|].
    eapply runs_bind; [apply runs_block_loop; auto| |auto|].
    { intros S0 Hl Hs N. assert (IB4 : (ind4 < 126)%N) by (destruct (IB N Hl Hs) as [E|E]; [apply nth_some_lt in NB; lia|exact E]). specialize (S0 IB4). sh. }
    intros c5 [[s5 lb5] tb5] H5 L5 _. cbv beta. do 2 rstep. cbv zeta. apply runs_ret; auto.
    split; [destruct literal; repeat split; discriminate|].
    exists (cpos c4), (cpos c5). split; [lia|]. split; [lia|]. cbn [k_span]. f_equal; [apply H4|apply H5].
  - apply runs_ret; auto. split; [destruct literal; repeat split; discriminate|].
    exists a, (cpos c4). split; [lia|]. split; [lia|]. cbn [k_span]. f_equal; [auto|apply H4].
Qed.
