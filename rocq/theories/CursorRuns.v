(** Every reading method of the scanner keeps to the text, goes forward and makes progress. *)
From Verif Require Import Base Tokens Scalar Chars Source SourceProofs Cursor SpecScan CursorProofs.
From Coq Require Import Lia ZifyBool ZifyNat ZifyN String.

Ltac bounds :=
  repeat match goal with
  | H : cok ?i ?c |- _ =>
      lazymatch goal with
      | _ : cpos c <= List.length i |- _ => fail
      | _ => pose proof (proj1 (proj2 H))
      end
  end.
Ltac sh :=
  unfold short in *; intros;
  repeat match goal with
  | H : nice ?i -> _, N : nice ?i |- _ => specialize (H N)
  end; bounds; try lia.
Ltac rstep :=
  lazymatch goal with
  | |- runs _ (bind (peek _) _) _ _ _ _ => apply runs_peek
  | |- runs _ (bind get_mark _) _ _ _ _ => apply runs_mark
  | |- runs _ (bind (peek_checked _) _) _ _ _ _ => apply runs_checked; [assumption|]
  | |- runs _ (bind buf_is_empty _) _ _ _ _ => apply runs_empty; [assumption|]
  | |- runs _ (bind peek_or_space _) _ _ _ _ => apply runs_gets
  | |- runs _ (bind next_is_document_end _) _ _ _ _ => apply runs_gets
  | |- runs _ (bind (gets _) _) _ _ _ _ => apply runs_gets
  | |- runs _ (bind (bind _ _) _) _ _ _ _ => apply runs_assoc
  | |- runs _ (bind (ret _) _) _ _ _ _ => apply runs_ret_bind
  | |- runs _ (bind (err _ _) _) _ _ _ _ => apply runs_err_bind; [assumption|]
  | |- runs _ (err _ _) _ _ _ _ => apply runs_err; [assumption|]
  | |- runs _ (bind skip_linebreak _) _ _ _ _ =>
      apply runs_linebreak; [assumption|]; intros ? ? ? ? ?
  | |- runs _ (bind (read_break _) _) _ _ _ _ => unfold read_break
  | |- runs _ (bind (set_ska _) _) _ _ _ _ =>
      apply runs_set_ska; [assumption|]; intros ? ? ? ? ?
  | |- runs _ (bind (set_lead _) _) _ _ _ _ =>
      apply runs_set_lead; [assumption|]; intros ? ? ? ? ?
  | |- runs _ (bind (if ?b then _ else _) _) _ _ _ _ => destruct b eqn:?
  | |- runs _ (if ?b then _ else _) _ _ _ _ => destruct b eqn:?
  end; cbv beta.
Ltac rsteps := repeat rstep.

Lemma peek_same i c c' n : cok i c -> cok i c' -> cpos c' = cpos c ->
  peekz str_ops (c_src c') n = peekz str_ops (c_src c) n.
Proof. intros H H' E. rewrite !(peekz_here i) by auto. rewrite E. reflexivity. Qed.
Lemma forward i c c' (P : N -> Prop) : cok i c -> cok i c' -> cpos c <= cpos c' ->
  P (peekz str_ops (c_src c) 0) -> ~ P (peekz str_ops (c_src c') 0) -> cpos c < cpos c'.
Proof.
  intros H H' L HP HN. destruct (Nat.eq_dec (cpos c') (cpos c)) as [E|]; [|lia].
  rewrite (peek_same i c c' 0 H H' E) in HN. contradiction.
Qed.
(** Under [nice], a zero byte means the end of the text. *)
Lemma at_end i c : cok i c -> nice i -> peekz str_ops (c_src c) 0 = 0%N -> cpos c = List.length i.
Proof.
  intros H [_ N0] E. rewrite (peekz_here i), Nat.add_0_r in E by auto.
  destruct (nth_error i (cpos c)) eqn:X.
  - subst n. apply nth_error_In in X. contradiction.
  - apply nth_error_None in X. destruct H as (_ & L & _). lia.
Qed.
Lemma not_end i c b : cok i c -> peekz str_ops (c_src c) 0 = b -> b <> 0%N -> cpos c < List.length i.
Proof.
  intros H E Hb. assert (X := peekz_some i c 0 b H E Hb). rewrite Nat.add_0_r in X.
  eapply nth_some_lt; eauto.
Qed.

Lemma runs_next_token i in_block indent flow : forall fuel c, cok i c ->
  runs i (skip_to_next_token fuel in_block indent flow) c
    (fun c' _ => let b := peekz str_ops (c_src c') 0 in is_blank b = false /\ is_break b = false /\ b <> 35%N)
    (short fuel i c 2) False.
Proof.
  induction fuel as [|fuel IH]; intros c H; cbn [skip_to_next_token].
  { apply runs_fuel; auto. sh. }
  do 3 rstep. rstep.
  - eapply runs_bind; [apply runs_ws; exact H|sh|tauto|].
    intros c1 a H1 L1 (A1 & A2 & A3 & A4 & A5 & A6). cbv beta. do 2 rstep. rstep.
    + rstep. apply mark_in_self. auto.
    + eapply runs_weaken; [apply IH; auto|auto| |auto].
      assert (cpos c < cpos c1); [|sh].
      apply (forward i c c1 (fun b => b = 9%N)); auto. lia.
  - rstep.
    + apply runs_skip_blank; auto. { eapply walk1; eauto; lia. }
      intros c1 H1 E1 _ _. eapply runs_weaken; [apply IH; auto|auto| |auto]. sh.
    + rstep.
      * rstep. rstep; rsteps.
        -- eapply runs_weaken; [apply IH; auto|auto| |auto].
           intros S N. assert (cpos c < cpos c').
           { apply H2; [unfold is_break; lia|apply N]. } sh.
        -- eapply runs_weaken; [apply IH; auto|auto| |auto].
           intros S N. assert (cpos c < cpos c').
           { apply H2; [unfold is_break; lia|apply N]. } sh.
      * rstep.
        -- unfold skip_line. eapply runs_bind; [apply runs_while; [|exact H]|sh|tauto|].
           { intros b Hb; unfold is_breakz in Hb; lia. }
           intros c1 l H1 L1 (A1 & A2 & A3 & A4 & A5). cbv beta.
           eapply runs_weaken; [apply IH; auto|auto| |auto].
           assert (cpos c < cpos c1); [|sh].
           apply (forward i c c1 (fun b => b = 35%N)); auto; [lia|]. intros X. rewrite X in A5. discriminate.
        -- apply runs_ret; auto. cbv zeta. unfold is_blank, is_break. lia.
Qed.

Lemma runs_yaml_ws_loop i flow : forall fuel need c, cok i c ->
  runs i (skip_yaml_whitespace_loop fuel flow need) c (fun _ _ => True) (short fuel i c 2) False.
Proof.
  induction fuel as [|fuel IH]; intros need c H; cbn [skip_yaml_whitespace_loop].
  { apply runs_fuel; auto. sh. }
  rstep. rstep.
  - apply runs_skip_blank; auto. { eapply walk1; eauto; lia. }
    intros c1 H1 E1 _ _. eapply runs_weaken; [apply IH; auto|auto| |auto]. sh.
  - rstep.
    + rstep. rstep; rsteps.
      * eapply runs_weaken; [apply IH; auto|auto| |auto].
        intros S N. assert (cpos c < cpos c').
        { apply H2; [unfold is_break; lia|apply N]. } sh.
      * eapply runs_weaken; [apply IH; auto|auto| |auto].
        intros S N. assert (cpos c < cpos c').
        { apply H2; [unfold is_break; lia|apply N]. } sh.
    + rstep.
      * unfold skip_line. eapply runs_bind; [apply runs_while; [|exact H]|sh|tauto|].
        { intros b Hb; unfold is_breakz in Hb; lia. }
        intros c1 l H1 L1 (A1 & A2 & A3 & A4 & A5). cbv beta.
        eapply runs_weaken; [apply IH; auto|auto| |auto].
        assert (cpos c < cpos c1); [|sh].
        apply (forward i c c1 (fun b => b = 35%N)); auto; [lia|]. intros X. rewrite X in A5. discriminate.
      * apply runs_ret; auto.
Qed.
Lemma runs_yaml_ws i flow fuel c : cok i c ->
  runs i (skip_yaml_whitespace fuel flow) c (fun _ _ => True) (short fuel i c 2) False.
Proof.
  intros H. unfold skip_yaml_whitespace.
  eapply runs_bind; [apply runs_yaml_ws_loop; auto|auto|auto|]. intros c1 need H1 L1 _. cbv beta.
  rstep. rstep; [rstep; apply mark_in_self; auto|apply runs_ret; auto].
Qed.

(** ** Skipping the byte at the cursor *)
Lemma runs_skip1 {B} i (k : unit -> CM B) c Q F X : cok i c ->
  peekz str_ops (c_src c) 0 <> 0%N -> peekz str_ops (c_src c) 0 <> 10%N ->
  (forall c', cok i c' -> cpos c' = cpos c + 1 -> c_lead c' = false -> c_ska c' = c_ska c ->
     runs i (k tt) c' Q F X) ->
  runs i (bind skip_non_blank k) c Q F X.
Proof. intros. apply runs_skip_n; auto. eapply walk1; eauto. Qed.
Lemma runs_skipb {B} i (k : unit -> CM B) c Q F X : cok i c ->
  peekz str_ops (c_src c) 0 <> 0%N -> peekz str_ops (c_src c) 0 <> 10%N ->
  (forall c', cok i c' -> cpos c' = cpos c + 1 -> c_lead c' = c_lead c -> c_ska c' = c_ska c ->
     runs i (k tt) c' Q F X) ->
  runs i (bind skip_blank k) c Q F X.
Proof. intros. apply runs_skip_blank; auto. eapply walk1; eauto. Qed.
Ltac mk := first [apply mark_in_self; assumption
                 | match goal with H : mark_in ?i ?n ?m |- mark_in ?i ?n' ?m =>
                     apply (mark_in_le i n n' m H); lia end].

(** The token lies between the positions [a] and [b], and is not about blocks or the stream. *)
Definition quiet (t : token) : Prop :=
  block_change t = 0%Z /\ k_type t <> TStreamEnd /\ k_type t <> TStreamStart.
Definition tok_in (i : text) (a b : nat) (t : token) : Prop :=
  exists s e, a <= s <= e /\ e <= b /\ k_span t = Span (at_pos i s) (at_pos i e).

(** ** Directives *)
Lemma digit_bounds c : is_ascii_digit c = true -> (48 <= c <= 57)%N.
Proof. unfold is_ascii_digit. lia. Qed.
Lemma digits3 i n a b c : nth_error i n = Some a -> nth_error i (S n) = Some b ->
  nth_error i (S (S n)) = Some c -> is_ascii_digit a = true -> is_ascii_digit b = true ->
  is_ascii_digit c = true -> three_digits i.
Proof.
  intros A B C Da Db Dc. exists (firstn n i), a, b, c, (skipn (3 + n) i). split.
  - rewrite <- (firstn_skipn n i) at 1. f_equal.
    assert (SK : forall k x, nth_error i k = Some x -> skipn k i = x :: skipn (S k) i).
    { clear. induction i as [|y i IH]; intros [|k] x H; try discriminate.
      - injection H as ->. reflexivity.
      - change (skipn (S k) (y :: i)) with (skipn k i). rewrite (IH _ _ H). reflexivity. }
    rewrite (SK _ _ A), (SK _ _ B), (SK _ _ C). reflexivity.
  - repeat constructor; apply digit_bounds; auto.
Qed.
Lemma runs_version_loop i mark : forall fuel val length c, cok i c -> mark_in i (cpos c) mark ->
  (length = 0 -> val = 0%N) -> (length = 1 -> (val <= 9)%N) ->
  (forall k, k < length -> k < 2 -> exists d, nth_error i (cpos c - 1 - k) = Some d /\ is_ascii_digit d = true) ->
  length <= cpos c ->
  runs i (version_loop fuel mark val length) c (fun _ _ => True) (short fuel i c 1) (three_digits i).
Proof.
  induction fuel as [|fuel IH]; intros val length c H M L0 L1 D LE; cbn [version_loop].
  { apply runs_fuel; auto. sh. }
  rstep. rstep.
  - assert (DB := digit_bounds _ Heqb). rstep; [rstep; mk|]. cbv zeta. rstep.
    + apply runs_skip1; auto; [lia..|]. intros c1 H1 E1 _ _.
      eapply runs_weaken; [apply (IH _ (length + 1))|auto|sh|auto]; auto; try lia.
      * mk.
      * intros k K1 K2. destruct k as [|k].
        -- exists (peekz str_ops (c_src c) 0). split; auto. replace (cpos c1 - 1 - 0) with (cpos c + 0) by lia.
           eapply peekz_some; eauto. lia.
        -- replace (cpos c1 - 1 - S k) with (cpos c - 1 - k) by lia. apply D; lia.
    + apply runs_panic; auto.
      assert (2 <= length) by (destruct length as [|[|l]]; [rewrite L0 in Heqb1 by lia|specialize (L1 eq_refl)|]; lia).
      destruct (D 0 ltac:(lia) ltac:(lia)) as (d0 & E0 & X0).
      destruct (D 1 ltac:(lia) ltac:(lia)) as (d1 & E1 & X1).
      apply (digits3 i (cpos c - 2) d1 d0 (peekz str_ops (c_src c) 0)); auto.
      * rewrite <- E1. f_equal. lia.
      * rewrite <- E0. f_equal. lia.
      * replace (S (S (cpos c - 2))) with (cpos c + 0) by lia. eapply peekz_some; eauto. lia.
  - apply runs_ret; auto.
Qed.
Lemma runs_version_number i mark fuel c : cok i c -> mark_in i (cpos c) mark ->
  runs i (scan_version_directive_number fuel mark) c (fun _ _ => True) (short fuel i c 1) (three_digits i).
Proof.
  intros H M. unfold scan_version_directive_number.
  eapply runs_bind; [apply runs_version_loop; auto; lia|auto|auto|]. intros c1 [v l] H1 L1 _. cbv beta.
  destruct l; [rstep; mk|apply runs_ret; auto].
Qed.
Lemma blank_ok b : is_blank b = true -> b <> 0%N /\ b <> 10%N.
Proof. unfold is_blank. lia. Qed.
Lemma alpha_ok b : is_alpha b = true -> b <> 0%N /\ b <> 10%N.
Proof. unfold is_alpha, is_ascii_alphanumeric, is_ascii_digit. lia. Qed.
Lemma nonbreakz_ok b : negb (is_breakz b) = true -> b <> 0%N /\ b <> 10%N.
Proof. unfold is_breakz. lia. Qed.
Lemma anchor_ok b : is_anchor_char b = true -> b <> 0%N /\ b <> 10%N.
Proof. unfold is_anchor_char, is_yaml_non_space, is_break. lia. Qed.
Lemma uri_ok b : is_uri_char b = true -> b <> 0%N /\ b <> 10%N.
Proof.
  intros H. split; intros ->; vm_compute in H; discriminate.
Qed.
Lemma tag_ok b : is_tag_char b = true -> b <> 0%N /\ b <> 10%N.
Proof. unfold is_tag_char. intros H. apply uri_ok. lia. Qed.
Lemma hex_ok b : is_ascii_hexdigit b = true -> (b <> 0%N /\ b <> 10%N) /\ exists d, as_hex b = Some d.
Proof.
  unfold is_ascii_hexdigit, as_hex, is_ascii_digit. intros H. split; [lia|].
  destruct ((48 <=? b)%N && (b <=? 57)%N) eqn:E1; [eauto|].
  destruct ((97 <=? b)%N && (b <=? 102)%N) eqn:E2; [eauto|].
  destruct ((65 <=? b)%N && (b <=? 70)%N) eqn:E3; [eauto|]. lia.
Qed.

Lemma runs_version i mark fuel c : cok i c -> mark_in i (cpos c) mark ->
  runs i (scan_version_directive_value fuel mark) c
    (fun c' t => quiet t /\ k_span t = Span mark (c_mark c')) (short fuel i c 1) (three_digits i).
Proof.
  intros H M. unfold scan_version_directive_value.
  eapply runs_bind; [apply runs_while; [apply blank_ok|auto]|sh|tauto|]. intros c1 l H1 L1 _. cbv beta.
  eapply runs_bind; [apply runs_version_number; auto; mk|sh|auto|]. intros c2 v H2 L2 _. cbv beta.
  rstep. rstep; [rstep; mk|].
  apply runs_skip1; auto; [lia..|]. intros c3 H3 E3 _ _.
  eapply runs_bind; [apply runs_version_number; auto; mk|sh|auto|]. intros c4 v4 H4 L4 _. cbv beta.
  rstep. apply runs_ret; auto. repeat split; discriminate.
Qed.

Lemma walk3 i c p q r : cok i c -> peekz str_ops (c_src c) 0 = p -> peekz str_ops (c_src c) 1 = q ->
  peekz str_ops (c_src c) 2 = r -> p <> 0%N /\ p <> 10%N -> q <> 0%N /\ q <> 10%N -> r <> 0%N /\ r <> 10%N ->
  walk i (cpos c) (cpos c + 3).
Proof.
  intros H E0 E1 E2 [A0 B0] [A1 B1] [A2 B2] n Hn.
  apply (peekz_some i c _ _ H) in E0; auto. apply (peekz_some i c _ _ H) in E1; auto.
  apply (peekz_some i c _ _ H) in E2; auto.
  destruct (Nat.eq_dec n (cpos c + 0)) as [->|]; [eauto|].
  destruct (Nat.eq_dec n (cpos c + 1)) as [->|]; [eauto|].
  destruct (Nat.eq_dec n (cpos c + 2)) as [->|]; [eauto|]. lia.
Qed.
Lemma runs_uri_loop i mark : forall fuel width code c, cok i c -> mark_in i (cpos c) mark ->
  runs i (uri_loop fuel mark width code) c (fun c' _ => cpos c < cpos c') (short fuel i c 1) False.
Proof.
  induction fuel as [|fuel IH]; intros width code c H M; cbn [uri_loop].
  { apply runs_fuel; auto. sh. }
  do 3 rstep. rstep; [rstep; mk|].
  apply negb_false_iff in Heqb. apply andb_true_iff in Heqb as [Heqb H2]. apply andb_true_iff in Heqb as [H0 H1].
  destruct (hex_ok _ H1) as [O1 [d1 D1]]. destruct (hex_ok _ H2) as [O2 [d2 D2]].
  unfold hex2. rewrite D1, D2. rstep.
  assert (STEP : forall w code', runs i
     (skip_n_non_blank 3 ;;; match w with S (S w') => uri_loop fuel mark (S w') code' | _ => ret code' end)%m c
     (fun c' _ => cpos c < cpos c') (short (S fuel) i c 1) False).
  { intros w code'. apply runs_skip_n; auto. { eapply walk3; eauto. lia. }
    intros c1 C1 E1 _ _. destruct w as [|[|w]]; try (apply runs_ret; [auto|lia]).
    eapply runs_weaken; [apply IH; auto; mk| |sh|auto]. cbv beta. intros. lia. }
  destruct width as [|w].
  - destruct (uri_width _); [rstep; apply STEP|apply runs_err_bind; auto].
  - destruct (negb _); [apply runs_err_bind; auto|rstep; apply (STEP (S w))].
Qed.
Lemma runs_uri_escapes i mark fuel c : cok i c -> mark_in i (cpos c) mark ->
  runs i (scan_uri_escapes fuel mark) c (fun c' _ => cpos c < cpos c') (short fuel i c 1) False.
Proof.
  intros H M. unfold scan_uri_escapes.
  eapply runs_bind; [apply runs_uri_loop; auto|auto|auto|]. intros c1 u H1 L1 P1. cbv beta in *.
  destruct (char_from_u32 u); [apply runs_ret; auto|apply runs_err; auto; mk].
Qed.
Lemma runs_uri_one i mark fuel s c : cok i c -> mark_in i (cpos c) mark ->
  is_uri_char (peekz str_ops (c_src c) 0) = true ->
  runs i (uri_scans_or_non_blank fuel mark s) c (fun c' _ => cpos c < cpos c') (short fuel i c 1) False.
Proof.
  intros H M U. destruct (uri_ok _ U) as [U0 U10]. unfold uri_scans_or_non_blank.
  assert (E := peekz_some i c 0 _ H eq_refl U0). rstep. rewrite E. rstep.
  - eapply runs_bind; [apply runs_uri_escapes; auto|auto|auto|]. intros c1 u H1 L1 P1. apply runs_ret; auto.
  - apply runs_skip1; auto. intros c1 H1 E1 _ _. apply runs_ret; [auto|lia].
Qed.
Lemma runs_uri_chars i mark : forall fuel s c, cok i c -> mark_in i (cpos c) mark ->
  runs i (uri_chars fuel mark s) c (fun _ _ => True) (short fuel i c 2) False.
Proof.
  induction fuel as [|fuel IH]; intros s c H M; cbn [uri_chars].
  { apply runs_fuel; auto. sh. }
  rstep. rstep; [|apply runs_ret; auto].
  eapply runs_bind; [apply runs_uri_one; auto|sh|auto|]. intros c1 s1 H1 L1 P1. cbv beta in *.
  eapply runs_weaken; [apply IH; auto; mk|auto|sh|auto].
Qed.
Lemma runs_tag_handle i d mark fuel c : cok i c -> mark_in i (cpos c) mark ->
  runs i (scan_tag_handle fuel d mark) c (fun c' _ => cpos c < cpos c') (short fuel i c 1) False.
Proof.
  intros H M. unfold scan_tag_handle. rstep. rstep; [rstep; mk|].
  apply runs_skip1; auto; [lia..|]. intros c1 H1 E1 _ _.
  eapply runs_bind; [apply runs_while; [apply alpha_ok|auto]|sh|tauto|]. intros c2 l H2 L2 _. cbv beta zeta.
  rstep. rstep.
  - apply runs_skip1; auto; [lia..|]. intros c3 H3 E3 _ _. apply runs_ret; [auto|lia].
  - rstep; [rstep; mk|apply runs_ret; [auto|lia]].
Qed.
Lemma runs_tag_prefix i mark fuel c : cok i c -> mark_in i (cpos c) mark ->
  runs i (scan_tag_prefix fuel mark) c (fun _ _ => True) (short fuel i c 2) False.
Proof.
  intros H M. unfold scan_tag_prefix. rstep. rstep.
  - apply runs_skip1; auto; [lia..|]. intros c1 H1 E1 _ _.
    eapply runs_weaken; [apply runs_uri_chars; auto; mk|auto|sh|auto].
  - rstep; [rstep; mk|].
    assert (is_uri_char (peekz str_ops (c_src c) 0) = true).
    { apply negb_false_iff in Heqb0. unfold is_tag_char in Heqb0. lia. }
    eapply runs_bind; [apply runs_uri_one; auto|sh|auto|]. intros c1 s1 H1 L1 P1. cbv beta in *.
    eapply runs_weaken; [apply runs_uri_chars; auto; mk|auto|sh|auto].
Qed.
Lemma runs_tag_directive i mark fuel c : cok i c -> mark_in i (cpos c) mark ->
  runs i (scan_tag_directive_value fuel mark) c
    (fun c' t => quiet t /\ k_span t = Span mark (c_mark c')) (short fuel i c 2) False.
Proof.
  intros H M. unfold scan_tag_directive_value.
  eapply runs_bind; [apply runs_while; [apply blank_ok|auto]|sh|tauto|]. intros c1 l H1 L1 _. cbv beta.
  eapply runs_bind; [apply runs_tag_handle; auto; mk|sh|auto|]. intros c2 v H2 L2 _. cbv beta.
  eapply runs_bind; [apply runs_while; [apply blank_ok|auto]|sh|tauto|]. intros c3 l3 H3 L3 _. cbv beta.
  eapply runs_bind; [apply runs_tag_prefix; auto; mk|sh|auto|]. intros c4 v4 H4 L4 _. cbv beta.
  do 2 rstep. rstep; [|rstep; mk]. apply runs_ret; auto. repeat split; discriminate.
Qed.
Lemma runs_directive_name i fuel c : cok i c ->
  runs i (scan_directive_name fuel) c (fun _ _ => True) (short fuel i c 1) False.
Proof.
  intros H. unfold scan_directive_name. rstep.
  eapply runs_bind; [apply runs_while; [apply alpha_ok|auto]|sh|tauto|]. intros c1 l H1 L1 _. cbv beta.
  assert (mark_in i (cpos c1) (c_mark c)) by (eapply mark_in_le; [apply mark_in_self; auto|lia]).
  rstep. destruct l; [rstep; mk|]. rstep; [rstep; mk|apply runs_ret; auto].
Qed.
Lemma span_from i c c1 c2 t : cok i c -> cok i c1 -> cpos c <= cpos c1 -> cpos c1 <= cpos c2 ->
  k_span t = Span (c_mark c) (c_mark c1) -> tok_in i (cpos c) (cpos c2) t.
Proof.
  intros (_ & _ & M) (_ & _ & M1) L1 L2 E. exists (cpos c), (cpos c1). rewrite M, M1 in E.
  split; [lia|]. split; [lia|exact E].
Qed.
Lemma runs_directive i fuel c : cok i c -> peekz str_ops (c_src c) 0 = 37%N ->
  runs i (scan_directive fuel) c
    (fun c' t => quiet t /\ tok_in i (cpos c) (cpos c') t /\ cpos c < cpos c') (short fuel i c 2) (three_digits i).
Proof.
  intros H P. unfold scan_directive. rstep.
  apply runs_skip1; auto; [lia..|]. intros c1 H1 E1 _ _.
  assert (M : mark_in i (cpos c) (c_mark c)) by mk.
  eapply runs_bind; [apply runs_directive_name; auto|sh|tauto|]. intros c2 name H2 L2 _. cbv beta.
  apply (runs_bind i _ _ c2 (fun c' t => quiet t /\ k_span t = Span (c_mark c) (c_mark c'))
    (short fuel i c2 2) (three_digits i)); [|sh|auto|].
  - rstep; [eapply runs_weaken; [apply runs_version; auto; mk|auto|sh|auto]|].
    rstep; [eapply runs_weaken; [apply runs_tag_directive; auto; mk|auto|sh|tauto]|].
    eapply runs_bind; [apply runs_while; [apply nonbreakz_ok|auto]|sh|tauto|]. intros c3 l H3 L3 _. cbv beta.
    rstep. apply runs_ret; auto. repeat split; discriminate.
  - intros c3 t H3 L3 [Q T]. cbv beta.
    eapply runs_bind; [apply runs_ws; auto|sh|tauto|]. intros c4 a H4 L4 _. cbv beta.
    rstep. rstep; [|rstep; mk]. apply runs_linebreak; auto. intros c5 H5 L5 _ _.
    apply runs_ret; auto. split; [auto|]. split; [|lia]. apply (span_from i c c3 c5); auto; lia.
Qed.

(** ** Anchors and tags *)
Lemma runs_anchor_chars i : forall fuel s c, cok i c ->
  runs i (anchor_chars fuel s) c (fun _ _ => True) (short fuel i c 1) False.
Proof.
  induction fuel as [|fuel IH]; intros s c H; cbn [anchor_chars].
  { apply runs_fuel; auto. sh. }
  rstep. rstep; [|apply runs_ret; auto]. destruct (anchor_ok _ Heqb) as [Z0 Z1].
  apply runs_skip1; auto. intros c1 H1 E1 _ _.
  eapply runs_weaken; [apply IH; auto|auto|sh|auto].
Qed.
Lemma runs_anchor i fuel alias c : cok i c ->
  peekz str_ops (c_src c) 0 <> 0%N -> peekz str_ops (c_src c) 0 <> 10%N ->
  runs i (scan_anchor fuel alias) c
    (fun c' t => quiet t /\ tok_in i (cpos c) (cpos c') t /\ cpos c < cpos c') (short fuel i c 1) False.
Proof.
  intros H P0 P1. unfold scan_anchor. rstep.
  apply runs_skip1; auto. intros c1 H1 E1 _ _.
  eapply runs_bind; [apply runs_anchor_chars; auto|sh|tauto|]. intros c2 s H2 L2 _. cbv beta.
  assert (M : mark_in i (cpos c) (c_mark c)) by mk.
  rstep. destruct s; [rstep; mk|]. apply runs_ret; auto.
  split; [destruct alias; repeat split; discriminate|]. split; [|lia].
  apply (span_from i c c2 c2); auto; lia.
Qed.
Lemma runs_verbatim i mark fuel c : cok i c -> mark_in i (cpos c) mark ->
  peekz str_ops (c_src c) 0 = 33%N -> peekz str_ops (c_src c) 1 = 60%N ->
  runs i (scan_verbatim_tag fuel mark) c (fun c' _ => cpos c < cpos c') (short fuel i c 2) False.
Proof.
  intros H M P0 P1. unfold scan_verbatim_tag.
  apply runs_skip1; auto; [lia..|]. intros c1 H1 E1 _ _.
  assert (X : peekz str_ops (c_src c1) 0 = 60%N).
  { rewrite (peekz_here i) by auto. replace (cpos c1 + 0) with (cpos c + 1) by lia.
    rewrite <- P1. rewrite (peekz_here i) by auto. reflexivity. }
  apply runs_skip1; auto; [lia..|]. intros c2 H2 E2 _ _.
  eapply runs_bind; [apply runs_uri_chars; auto; mk|sh|auto|]. intros c3 s H3 L3 _. cbv beta.
  rstep. rstep; [rstep; mk|]. apply runs_skip1; auto; [lia..|]. intros c4 H4 E4 _ _.
  apply runs_ret; [auto|lia].
Qed.
Lemma runs_suffix_chars i mark : forall fuel s n c, cok i c -> mark_in i (cpos c) mark ->
  runs i (suffix_chars fuel mark s n) c (fun _ _ => True) (short fuel i c 2) False.
Proof.
  induction fuel as [|fuel IH]; intros s n c H M; cbn [suffix_chars].
  { apply runs_fuel; auto. sh. }
  rstep. rstep; [|apply runs_ret; auto]. destruct (tag_ok _ Heqb) as [Z0 Z1].
  apply (runs_bind i _ _ c (fun c' _ => cpos c < cpos c') (short fuel i c 1) False); [|sh|auto|].
  - rstep.
    + eapply runs_bind; [apply runs_uri_escapes; auto|auto|auto|]. intros c1 u H1 L1 P1. apply runs_ret; auto.
    + rstep. apply runs_skip1; auto. intros c1 H1 E1 _ _. apply runs_ret; [auto|lia].
  - intros c1 s1 H1 L1 P1. cbv beta in *. eapply runs_weaken; [apply IH; auto; mk|auto|sh|auto].
Qed.
Lemma runs_suffix i mark head fuel c : cok i c -> mark_in i (cpos c) mark ->
  runs i (scan_tag_shorthand_suffix fuel head mark) c (fun _ _ => True) (short fuel i c 2) False.
Proof.
  intros H M. unfold scan_tag_shorthand_suffix.
  eapply runs_bind; [apply runs_suffix_chars; auto|auto|auto|]. intros c1 [s n] H1 L1 _. cbv beta.
  destruct n; [rstep; mk|apply runs_ret; auto].
Qed.
Lemma runs_tag i fuel in_flow c : cok i c -> peekz str_ops (c_src c) 0 = 33%N ->
  runs i (scan_tag fuel in_flow) c
    (fun c' t => quiet t /\ tok_in i (cpos c) (cpos c') t /\ cpos c < cpos c') (short fuel i c 2) False.
Proof.
  intros H P. unfold scan_tag. do 2 rstep. assert (M : mark_in i (cpos c) (c_mark c)) by mk.
  apply (runs_bind i _ _ c (fun c' _ => cpos c < cpos c') (short fuel i c 2) False); [|sh|auto|].
  - rstep.
    + eapply runs_bind; [apply runs_verbatim; auto; lia|auto|auto|]. intros c1 u H1 L1 P1. apply runs_ret; auto.
    + eapply runs_bind; [apply runs_tag_handle; auto|sh|auto|]. intros c1 u H1 L1 P1. cbv beta in *. rstep.
      * eapply runs_bind; [apply runs_suffix; auto; mk|sh|auto|]. intros c2 s H2 L2 _. apply runs_ret; [auto|lia].
      * eapply runs_bind; [apply runs_suffix; auto; mk|sh|auto|]. intros c2 s H2 L2 _. cbv beta.
        destruct s; apply runs_ret; auto; lia.
  - intros c1 [h s] H1 L1 P1. cbv beta in *. do 2 rstep. rstep; [|rstep; mk]. apply runs_ret; auto.
    split; [repeat split; discriminate|]. split; [|lia]. apply (span_from i c c1 c1); auto; lia.
Qed.
