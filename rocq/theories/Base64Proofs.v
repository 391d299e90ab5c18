(** Lemmas about base64 coding. *)
From Verif Require Import Base Base64 SpecBase64.
From Coq Require Import String Lia ZifyBool ZifyN ZifyNat.
Local Open Scope N_scope.
Local Open Scope list_scope.

Ltac Zify.zify_post_hook ::= Z.div_mod_to_equations.

Lemma lor_shift a n b : b < 2 ^ n -> N.lor (N.shiftl a n) b = a * 2 ^ n + b.
Proof.
  intros H.
  assert (E : N.land (N.shiftl a n) b = 0).
  { apply N.bits_inj. intros i. rewrite N.land_spec, N.bits_0.
    destruct (N.ltb_spec i n) as [L|L].
    - rewrite N.shiftl_spec_low by exact L. reflexivity.
    - destruct (N.eq_dec b 0) as [->|Hb]; [rewrite N.bits_0; apply andb_false_r|].
      rewrite (N.bits_above_log2 b i); [apply andb_false_r|].
      apply N.lt_le_trans with n; [|exact L]. apply N.log2_lt_pow2; [lia|exact H]. }
  rewrite <- N.lxor_lor by exact E. rewrite <- N.add_nocarry_lxor by exact E.
  rewrite N.shiftl_mul_pow2. reflexivity.
Qed.

Lemma charset_char x : charset_at x = b64_char (x mod 64).
Proof.
  unfold charset_at. change 63 with (N.ones 6). rewrite N.land_ones. change (2 ^ 6) with 64.
  assert (H : x mod 64 < 64) by (apply N.mod_lt; discriminate).
  set (n := x mod 64) in *. clearbody n.
  assert (Q : forallb (fun n => N.eqb (nth n charset 0) (b64_char (N.of_nat n))) (seq 0 64) = true)
    by (vm_compute; reflexivity).
  rewrite forallb_forall in Q. specialize (Q (N.to_nat n)).
  rewrite N2Nat.id in Q. apply N.eqb_eq, Q. apply in_seq. lia.
Qed.

Lemma position_char n : n < 64 -> charset_position (b64_char n) charset 0 = Some n.
Proof.
  intros H.
  assert (Q : forallb (fun n => match charset_position (b64_char (N.of_nat n)) charset 0 with
                                | Some m => N.eqb m (N.of_nat n) | None => false end) (seq 0 64) = true)
    by (vm_compute; reflexivity).
  rewrite forallb_forall in Q. specialize (Q (N.to_nat n)). rewrite N2Nat.id in Q.
  assert (I : In (N.to_nat n) (seq 0 64)) by (apply in_seq; lia). specialize (Q I). cbv beta in Q.
  destruct (charset_position (b64_char n) charset 0) as [m|]; [|discriminate].
  apply N.eqb_eq in Q. subst. reflexivity.
Qed.

(** ** Encoding *)

(** The state between groups: nothing collected; the buffer holds old bits that no longer matter. *)
Lemma flush_8 B a : a < 256 ->
  flush 4 (u32 (N.lor (N.shiftl B 8) a)) (0 + 8) = ([b64_char (a / 4)], 2).
Proof.
  intros H. rewrite lor_shift by exact H. unfold u32. cbn -[charset_at N.modulo N.mul N.pow N.shiftr].
  rewrite charset_char, N.shiftr_div_pow2. change (2 ^ 8) with 256. change (2 ^ 2) with 4.
  replace (((B * 256 + a) mod 4294967296 / 4) mod 64) with (a / 4) by lia. reflexivity.
Qed.

Lemma flush_10 B a b : a < 256 -> b < 256 ->
  flush 4 (u32 (N.lor (N.shiftl (u32 (N.lor (N.shiftl B 8) a)) 8) b)) (2 + 8) =
  ([b64_char (a mod 4 * 16 + b / 16)], 4).
Proof.
  intros H1 H2. rewrite !lor_shift by assumption. unfold u32. cbn -[charset_at N.modulo N.mul N.pow N.shiftr].
  rewrite charset_char, N.shiftr_div_pow2. change (2 ^ 8) with 256. change (2 ^ 4) with 16.
  replace ((((B * 256 + a) mod 4294967296 * 256 + b) mod 4294967296 / 16) mod 64)
    with (a mod 4 * 16 + b / 16) by lia. reflexivity.
Qed.

Lemma flush_12 B b c : b < 256 -> c < 256 ->
  flush 4 (u32 (N.lor (N.shiftl (u32 (N.lor (N.shiftl B 8) b)) 8) c)) (4 + 8) =
  ([b64_char (b mod 16 * 4 + c / 64); b64_char (c mod 64)], 0).
Proof.
  intros H1 H2. rewrite !lor_shift by assumption. unfold u32. cbn -[charset_at N.modulo N.mul N.pow N.shiftr].
  rewrite !charset_char, !N.shiftr_div_pow2. change (2 ^ 8) with 256. change (2 ^ 6) with 64. change (2 ^ 0) with 1.
  replace ((((B * 256 + b) mod 4294967296 * 256 + c) mod 4294967296 / 64) mod 64)
    with (b mod 16 * 4 + c / 64) by lia.
  replace ((((B * 256 + b) mod 4294967296 * 256 + c) mod 4294967296 / 1) mod 64)
    with (c mod 64) by lia. reflexivity.
Qed.

Lemma last_1 B a : a < 256 ->
  charset_at (u32 (N.shiftl (u32 (N.lor (N.shiftl B 8) a)) (6 - 2))) = b64_char (a mod 4 * 16).
Proof.
  intros H. rewrite lor_shift by assumption. rewrite charset_char, N.shiftl_mul_pow2. unfold u32.
  change (2 ^ (6 - 2)) with 16. change (2 ^ 8) with 256. f_equal. lia.
Qed.
Lemma last_2 B b : b < 256 ->
  charset_at (u32 (N.shiftl (u32 (N.lor (N.shiftl B 8) b)) (6 - 4))) = b64_char (b mod 16 * 4).
Proof.
  intros H. rewrite lor_shift by assumption. rewrite charset_char, N.shiftl_mul_pow2. unfold u32.
  change (2 ^ (6 - 4)) with 4. change (2 ^ 8) with 256. f_equal. lia.
Qed.

Definition finish (x : text * N * N) : text :=
  let '(output, buffer, bits) := x in
  if 0 <? bits then pad 4 (output ++ [charset_at (u32 (N.shiftl buffer (6 - bits)))]) else output.

Lemma len_app {A} (a b : list A) : List.length (a ++ b) = (List.length a + List.length b)%nat.
Proof. apply app_length. Qed.

Lemma pad_2 o x y : Nat.modulo (List.length o) 4 = 0%nat -> pad 4 (o ++ [x; y]) = o ++ [x; y; 61; 61].
Proof.
  intros H. apply Nat.mod_divide in H; [|discriminate]. destruct H as [k H].
  cbn [pad]. rewrite !len_app, H. cbn [List.length].
  destruct (Nat.eqb_spec ((k * 4 + 2) mod 4) 0) as [E|E]; [exfalso; lia|].
  destruct (Nat.eqb_spec ((k * 4 + 2 + 1) mod 4) 0) as [E'|E']; [exfalso; lia|].
  destruct (Nat.eqb_spec ((k * 4 + 2 + 1 + 1) mod 4) 0) as [E''|E'']; [|exfalso; lia].
  rewrite <- !app_assoc. reflexivity.
Qed.
Lemma pad_1 o x y z : Nat.modulo (List.length o) 4 = 0%nat -> pad 4 (o ++ [x; y; z]) = o ++ [x; y; z; 61].
Proof.
  intros H. apply Nat.mod_divide in H; [|discriminate]. destruct H as [k H].
  cbn [pad]. rewrite !len_app, H. cbn [List.length].
  destruct (Nat.eqb_spec ((k * 4 + 3) mod 4) 0) as [E|E]; [exfalso; lia|].
  destruct (Nat.eqb_spec ((k * 4 + 3 + 1) mod 4) 0) as [E'|E']; [|exfalso; lia].
  rewrite <- !app_assoc. reflexivity.
Qed.

Lemma encode_groups n : forall l B o, (List.length l <= n)%nat -> Forall is_byte l ->
  Nat.modulo (List.length o) 4 = 0%nat ->
  finish (encode_loop l B 0 o) = o ++ b64 l.
Proof.
  induction n as [n IH] using lt_wf_ind. intros l B o Hn Hb Ho.
  destruct l as [|a [|b [|c r]]].
  - cbn. rewrite app_nil_r. reflexivity.
  - apply Forall_inv in Hb. cbn [encode_loop]. rewrite flush_8 by exact Hb.
    cbn [finish]. change (0 <? 2) with true. cbv iota. rewrite last_1 by exact Hb.
    rewrite <- app_assoc. cbn [app]. rewrite pad_2 by exact Ho. reflexivity.
  - assert (Ha := Forall_inv Hb). assert (Hb' := Forall_inv (Forall_inv_tail Hb)). clear Hb.
    cbn [encode_loop]. rewrite flush_8 by exact Ha. rewrite flush_10 by assumption.
    cbn [finish]. change (0 <? 4) with true. cbv iota. rewrite last_2 by exact Hb'.
    rewrite <- !app_assoc. cbn [app]. rewrite pad_1 by exact Ho. cbn [b64].
    unfold is_byte in *. do 2 f_equal; [|f_equal; [|f_equal]]; f_equal; lia.
  - assert (Ha := Forall_inv Hb). assert (Hb' := Forall_inv (Forall_inv_tail Hb)).
    assert (Hc := Forall_inv (Forall_inv_tail (Forall_inv_tail Hb))).
    assert (Hr := Forall_inv_tail (Forall_inv_tail (Forall_inv_tail Hb))).
    cbn [encode_loop]. rewrite flush_8 by exact Ha. rewrite flush_10 by assumption.
    rewrite flush_12 by assumption.
    rewrite (IH (List.length r)); auto.
    + rewrite <- !app_assoc. cbn [app b64]. unfold is_byte in *.
      f_equal. f_equal; [f_equal; lia|]. f_equal; [f_equal; lia|]. f_equal; [f_equal; lia|].
      f_equal. f_equal. lia.
    + cbn [List.length] in Hn. lia.
    + rewrite !len_app. cbn [List.length]. clear -Ho. lia.
Qed.

Lemma encode_is_b64 l : Forall is_byte l -> encode_as_base64 l = b64 l.
Proof. intros H. apply (encode_groups (List.length l) l 0 []); auto. Qed.

(** ** Decoding *)

Lemma b64_not_special n : n < 64 ->
  (b64_char n =? 61) = false /\ ((b64_char n =? 32) || (b64_char n =? 10) || (b64_char n =? 13)) = false.
Proof.
  intros H. unfold b64_char.
  destruct (n <? 26) eqn:?; [lia|]. destruct (n <? 52) eqn:?; [lia|]. destruct (n <? 62) eqn:?; [lia|].
  destruct (n =? 62) eqn:?; lia.
Qed.

Lemma decode_char n r B bits : n < 64 ->
  decode_loop (b64_char n :: r) B bits =
  let buffer := u32 (B * 64 + n) in
  if 8 <=? bits + 6 then (buffer / 2 ^ (bits - 2) mod 256) :: decode_loop r buffer (bits - 2)
  else decode_loop r buffer (bits + 6).
Proof.
  intros H. cbn [decode_loop]. destruct (b64_not_special n H) as [-> ->]. rewrite position_char by exact H.
  rewrite lor_shift by exact H. change (2 ^ 6) with 64. cbv zeta.
  destruct (8 <=? bits + 6) eqn:E; [|reflexivity].
  rewrite N.shiftr_div_pow2. replace (bits + 6 - 8) with (bits - 2) by lia. reflexivity.
Qed.

Lemma decode_4 w x y z r B : w < 64 -> x < 64 -> y < 64 -> z < 64 ->
  exists B', decode_loop (b64_char w :: b64_char x :: b64_char y :: b64_char z :: r) B 0 =
    (w * 4 + x / 16) :: (x mod 16 * 16 + y / 4) :: (y mod 4 * 64 + z) :: decode_loop r B' 0.
Proof.
  intros. rewrite decode_char by assumption. cbv zeta. change (8 <=? 0 + 6) with false. cbv iota.
  rewrite decode_char by assumption. cbv zeta. change (8 <=? 0 + 6 + 6) with true. cbv iota.
  rewrite decode_char by assumption. cbv zeta. change (0 + 6 - 2) with 4. change (8 <=? 4 + 6) with true. cbv iota.
  rewrite decode_char by assumption. cbv zeta. change (4 - 2) with 2. change (8 <=? 2 + 6) with true. cbv iota.
  change (2 - 2) with 0. change (2 ^ 4) with 16. change (2 ^ 2) with 4. change (2 ^ 0) with 1. unfold u32.
  eexists. f_equal; [lia|]. f_equal; [lia|]. f_equal. lia.
Qed.
Lemma decode_3 w x y r B : w < 64 -> x < 64 -> y < 64 ->
  decode_loop (b64_char w :: b64_char x :: b64_char y :: 61 :: r) B 0 =
    [w * 4 + x / 16; x mod 16 * 16 + y / 4].
Proof.
  intros. rewrite decode_char by assumption. cbv zeta. change (8 <=? 0 + 6) with false. cbv iota.
  rewrite decode_char by assumption. cbv zeta. change (8 <=? 0 + 6 + 6) with true. cbv iota.
  rewrite decode_char by assumption. cbv zeta. change (0 + 6 - 2) with 4. change (8 <=? 4 + 6) with true. cbv iota.
  change (4 - 2) with 2. change (2 ^ 4) with 16. change (2 ^ 2) with 4. unfold u32.
  cbn [decode_loop]. change (61 =? 61) with true. cbv iota.
  f_equal; [lia|]. f_equal. lia.
Qed.
Lemma decode_2 w x r B : w < 64 -> x < 64 ->
  decode_loop (b64_char w :: b64_char x :: 61 :: r) B 0 = [w * 4 + x / 16].
Proof.
  intros. rewrite decode_char by assumption. cbv zeta. change (8 <=? 0 + 6) with false. cbv iota.
  rewrite decode_char by assumption. cbv zeta. change (8 <=? 0 + 6 + 6) with true. cbv iota.
  change (0 + 6 - 2) with 4. change (2 ^ 4) with 16. unfold u32.
  cbn [decode_loop]. change (61 =? 61) with true. cbv iota.
  f_equal. lia.
Qed.

Lemma decode_b64 n : forall l B, (List.length l <= n)%nat -> Forall is_byte l -> decode_loop (b64 l) B 0 = l.
Proof.
  induction n as [n IH] using lt_wf_ind. intros l B Hn Hb.
  destruct l as [|a [|b [|c r]]].
  - reflexivity.
  - apply Forall_inv in Hb. unfold is_byte in *. cbn [b64]. rewrite decode_2 by lia. f_equal. lia.
  - assert (Ha := Forall_inv Hb). assert (Hb' := Forall_inv (Forall_inv_tail Hb)). clear Hb.
    unfold is_byte in *. cbn [b64]. rewrite decode_3 by lia. f_equal; [lia|]. f_equal. lia.
  - assert (Ha := Forall_inv Hb). assert (Hb' := Forall_inv (Forall_inv_tail Hb)).
    assert (Hc := Forall_inv (Forall_inv_tail (Forall_inv_tail Hb))).
    assert (Hr := Forall_inv_tail (Forall_inv_tail (Forall_inv_tail Hb))).
    unfold is_byte in *. cbn [b64].
    set (w := ((a * 256 + b) * 256 + c) / 262144).
    set (x := ((a * 256 + b) * 256 + c) / 4096 mod 64).
    set (y := ((a * 256 + b) * 256 + c) / 64 mod 64).
    set (z := ((a * 256 + b) * 256 + c) mod 64).
    destruct (decode_4 w x y z (b64 r) B) as [B' ->]; try (subst w x y z; lia).
    rewrite (IH (List.length r)); auto; [|cbn [List.length] in Hn; lia].
    f_equal; [subst w x y z; lia|]. f_equal; [subst w x y z; lia|]. f_equal. subst w x y z; lia.
Qed.

Lemma base64_roundtrip l : Forall is_byte l -> decode_as_base64 (encode_as_base64 l) = l.
Proof. intros H. rewrite encode_is_b64 by exact H. apply (decode_b64 (List.length l)); auto. Qed.

Lemma b64_length l : List.length (b64 l) = (4 * ((List.length l + 2) / 3))%nat.
Proof.
  remember (List.length l) as n eqn:E. revert l E. induction n as [n IH] using lt_wf_ind. intros l E.
  destruct l as [|a [|b [|c r]]]; cbn [List.length] in E; subst; try reflexivity.
  cbn [b64 List.length]. rewrite (IH (List.length r)) by lia. lia.
Qed.


Lemma b64_char_alphabet n : n < 64 -> b64_alphabet (b64_char n).
Proof.
  unfold b64_char, b64_alphabet. intros H.
  destruct (n <? 26) eqn:?; [lia|]. destruct (n <? 52) eqn:?; [lia|]. destruct (n <? 62) eqn:?; [lia|].
  destruct (n =? 62) eqn:?; lia.
Qed.

(** Characters of the alphabet, then at most two [=]. *)
Lemma b64_shape l : Forall is_byte l ->
  exists body k, b64 l = body ++ repeat 61 k /\ (k <= 2)%nat /\ Forall b64_alphabet body.
Proof.
  remember (List.length l) as n eqn:E. revert l E. induction n as [n IH] using lt_wf_ind. intros l E Hb.
  destruct l as [|a [|b [|c r]]]; cbn [List.length] in E; subst.
  - exists [], 0%nat. cbn; auto.
  - apply Forall_inv in Hb. unfold is_byte in *. cbn [b64].
    exists [b64_char (a / 4); b64_char (a mod 4 * 16)], 2%nat. split; [reflexivity|]. split; [lia|].
    repeat (apply Forall_cons; [apply b64_char_alphabet; lia|]). apply Forall_nil.
  - assert (Ha := Forall_inv Hb). assert (Hb' := Forall_inv (Forall_inv_tail Hb)). clear Hb.
    unfold is_byte in *. cbn [b64]. eexists [_; _; _], 1%nat. split; [reflexivity|]. split; [lia|].
    repeat (apply Forall_cons; [apply b64_char_alphabet; lia|]). apply Forall_nil.
  - assert (Ha := Forall_inv Hb). assert (Hb' := Forall_inv (Forall_inv_tail Hb)).
    assert (Hc := Forall_inv (Forall_inv_tail (Forall_inv_tail Hb))).
    assert (Hr := Forall_inv_tail (Forall_inv_tail (Forall_inv_tail Hb))).
    destruct (IH (List.length r) ltac:(lia) r eq_refl Hr) as (body & k & E & Hk & Hf).
    unfold is_byte in *. cbn [b64]. rewrite E.
    eexists (_ :: _ :: _ :: _ :: body), k. split; [reflexivity|]. split; [exact Hk|].
    do 4 (apply Forall_cons; [apply b64_char_alphabet; lia|]). exact Hf.
Qed.

Lemma decode_spaces t : forall B bits, decode_loop t B bits = decode_loop (filter (fun c => negb (b64_space c)) t) B bits.
Proof.
  induction t as [|c t IH]; intros B bits; [reflexivity|]. cbn [filter]. unfold b64_space at 1.
  cbn [decode_loop]. destruct ((c =? 32) || (c =? 10) || (c =? 13)) eqn:E; cbn [negb].
  - destruct (c =? 61) eqn:E1; [exfalso; lia|]. apply IH.
  - cbn [decode_loop]. rewrite E. destruct (c =? 61); [reflexivity|].
    destruct (charset_position c charset 0); rewrite ?IH; [|reflexivity].
    destruct (8 <=? bits + 6); rewrite ?IH; reflexivity.
Qed.
