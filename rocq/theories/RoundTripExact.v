(** Which scalars survive, and the round trip of whole values. *)
From Verif Require Import Base Tokens Scalar Yaml LoadText Emitter EmitterProofs EmitterPlain SpecScalar ScalarProofs ScalarTags SpecEmit SpecRoundTrip SpecTree SpecBlock.
From Verif Require Import EmitterLayout NodeScan DumpScan RoundTripScalars RoundTrip.
From Coq Require Import String Lia ZifyBool ZifyNat ZifyN.
Local Open Scope list_scope.

(** ** Misread strings are never quoted *)
Definition number_byte (c : N) : Prop := (48 <= c <= 57)%N \/ In c [43; 45; 46; 111; 105; 110; 102; 73; 78; 70]%N.
Lemma signed_bytes (p : N -> Prop) base t z : (forall c, p c -> (48 <= c <= 57)%N) -> signed p base t z -> Forall number_byte t /\ t <> [].
Proof.
  intros P S. assert (D : forall ds, all_digits p ds -> Forall number_byte ds).
  { intros ds [_ F]. eapply Forall_impl; [|exact F]. intros c H. left. now apply P. }
  destruct S as [ds A|ds A|ds A]; pose proof (D _ A) as F; destruct A as [N _].
  - auto.
  - split; [|discriminate]. constructor; [right; cbn; auto|exact F].
  - split; [|discriminate]. constructor; [right; cbn; auto|exact F].
Qed.
Lemma misread_unquoted t : misread t -> need_quotes t = false.
Proof.
  intros M.
  assert (NB : Forall number_byte t /\ (exists a b r, t = a :: b :: r /\
     ((a = 48 /\ b = 111) \/ (a = 43 /\ (b = 43 \/ b = 45)) \/ In t [str "+.inf"; str "+.Inf"; str "+.INF"]))%N).
  { destruct M as [ds z S R|ds z S R (r & H)|t I].
    - assert (O : forall c, oct_digit c -> (48 <= c <= 57)%N) by (intros c H; unfold oct_digit in H; lia).
      destruct (signed_bytes _ _ _ _ O S) as [F _].
      split; [|exists 48%N, 111%N, ds; auto]. constructor; [left; vm_compute; split; discriminate|]. constructor; [right; cbn; tauto|exact F].
    - destruct (signed_bytes _ _ _ _ (fun c (H : dec_digit c) => H) S) as [F _].
      split; [constructor; [right; cbn; tauto|exact F]|]. destruct H as [-> | ->].
      + exists 43%N, 43%N, r. split; [reflexivity|]. right. left. auto.
      + exists 43%N, 45%N, r. split; [reflexivity|]. right. left. auto.
    - cbn [In] in I. split.
      + destruct I as [<-|[<-|[<-|[]]]]; repeat (constructor; [right; cbn; tauto|]); constructor.
      + destruct I as [<-|[<-|[<-|[]]]]; (exists 43%N, 46%N; eexists; split; [reflexivity|]; right; right; cbn; tauto). }
  destruct NB as [F (a & b & r & E & C)].
  assert (NI : In t [str "+.inf"; str "+.Inf"; str "+.INF"] -> need_quotes t = false).
  { cbn [In]. intros [<-|[<-|[<-|[]]]]; vm_compute; reflexivity. }
  assert (C' : ((a = 48 /\ b = 111) \/ (a = 43 /\ (b = 43 \/ b = 45)))%N \/ In t [str "+.inf"; str "+.Inf"; str "+.INF"]) by tauto.
  clear C. destruct C' as [C|C]; [|auto]. clear NI.
  assert (Q : existsb needs_quotes_byte t = false).
  { destruct (existsb needs_quotes_byte t) eqn:X; [|reflexivity]. exfalso. apply existsb_exists in X as (x & I & X).
    rewrite Forall_forall in F. specialize (F x I). unfold number_byte in F. cbn [In] in F.
    unfold needs_quotes_byte in X. cbn in X. lia. }
  assert (L : Emitter.ends_with 32 t = false).
  { unfold Emitter.ends_with. destruct (rev t) as [|x l] eqn:X; [reflexivity|].
    assert (I : In x t) by (apply in_rev; rewrite X; now left). rewrite Forall_forall in F. specialize (F x I).
    unfold number_byte in F. cbn [In] in F. lia. }
  assert (PI : parse_i64 t = None).
  { destruct (parse_i64 t) as [z|] eqn:X; [|reflexivity]. exfalso. apply from_str_radix_iff in X; [|auto]. destruct X as [X _].
    change (digit_of 10) with dec_digit in X. rewrite E in X.
    inversion X as [ds [_ A] Y|ds [_ A] Y|ds [_ A] Y]; subst ds || (injection Y; intros; subst).
    - inversion_clear A as [|? ? A1 A2]. inversion_clear A2 as [|? ? A2' _]. unfold dec_digit in *. lia.
    - inversion_clear A as [|? ? A1 _]. unfold dec_digit in *. lia.
    - lia. }
  assert (PF : parses_as_f64 t = false).
  { unfold parses_as_f64. destruct (parse_f64 t) as [f|] eqn:X.
    - exfalso. destruct (parse_f64_fnum t f X) as (n & m & e & ->). apply parse_f64_iff in X.
      destruct (float_second t (FNum n m e) a b r X E) as [H1 H2]. lia.
    - rewrite E. unfold split_sign. destruct C as [[-> ->]|[-> C]]; cbn [N.eqb Pos.eqb].
      + reflexivity.
      + destruct C as [-> | ->]; reflexivity. }
  unfold need_quotes. rewrite E in *. rewrite L, Q, PI, PF.
  destruct C as [[-> ->]|[-> C]]; [reflexivity|]. destruct C as [-> | ->]; reflexivity.
Qed.
Lemma misread_reread t : misread t -> forall u, reread (SString t) <> SString u.
Proof.
  intros M u. cbn [reread]. rewrite (misread_unquoted t M). intros E. pose proof (parse_string_exact _ _ E) as ->.
  exact (misread_not_string t M E).
Qed.
Lemma reread_string_cases t : (reread (SString t) = SString t /\ ~ misread t) \/ (misread t /\ forall u, reread (SString t) <> SString u).
Proof.
  destruct (need_quotes t) eqn:Q.
  - left. split; [cbn [reread]; now rewrite Q|]. intros M. rewrite (misread_unquoted t M) in Q. discriminate.
  - destruct (unquoted_cases t Q) as [E|M].
    + left. split; [cbn [reread]; now rewrite Q|]. intros M. exact (misread_not_string t M E).
    + right. split; [exact M|]. exact (misread_reread t M).
Qed.

(** ** Superfluous zeros are not written *)
Lemma digit_number c : dec_digit c -> number 10 [c] = (Z.of_N c - 48)%Z.
Proof.
  intros D. rewrite <- digits_num_number by (constructor; [exact D|constructor]). unfold digits_num. cbn [fold_left].
  unfold dec_digit in D. lia.
Qed.
Lemma digits_unique a : forall b, Forall dec_digit a -> Forall dec_digit b -> List.length a = List.length b ->
  number 10 a = number 10 b -> a = b.
Proof.
  induction a as [|c a IH] using rev_ind; intros b A B L E.
  - destruct b; [reflexivity|discriminate].
  - destruct b as [|d b _] using rev_ind; [rewrite app_length in L; cbn in L; lia|].
    apply Forall_app in A as [A1 A2]. apply Forall_app in B as [B1 B2].
    rewrite !number_app in E by auto. inversion_clear A2 as [|? ? A _]. inversion_clear B2 as [|? ? B _].
    rewrite !digit_number in E by auto. cbn [List.length] in E. unfold dec_digit in A, B.
    rewrite !app_length in L. cbn [List.length] in L. change (10 ^ Z.of_nat 1)%Z with 10%Z in E.
    assert (c = d /\ number 10 a = number 10 b) as [-> E'] by lia. rewrite (IH b) by (auto; lia). reflexivity.
Qed.
(** [x] in [k] digits. *)
Definition padded (k : nat) (x : N) : text := repeat 48%N (k - List.length (display_N x)) ++ display_N x.
Lemma padded_facts k x : 0 < k -> (x < 10 ^ N.of_nat k)%N ->
  List.length (padded k x) = k /\ Forall dec_digit (padded k x) /\ number 10 (padded k x) = Z.of_N x.
Proof.
  intros K X.
  assert (L : List.length (display_N x) <= k).
  { rewrite display_show_N. unfold show_N. etransitivity; [apply (show_N_short _ _ _ k); auto|cbn; lia]. }
  assert (Z0 : Forall dec_digit (repeat 48%N (k - List.length (display_N x)))).
  { apply Forall_forall. intros y I. apply repeat_spec in I. unfold dec_digit. lia. }
  assert (Z1 : Forall dec_digit (display_N x)) by (apply display_N_digits).
  unfold padded. split; [rewrite app_length, repeat_length; lia|]. split; [apply Forall_app; auto|].
  rewrite number_app, number_zeros by auto. rewrite display_show_N. destruct (show_N_spec x) as [_ ->]. lia.
Qed.
Lemma padded_ten k x : 0 < k -> (x < 10 ^ N.of_nat k)%N -> padded (S k) (10 * x) = padded k x ++ [48%N].
Proof.
  intros K X. destruct (padded_facts k x K X) as (L1 & D1 & N1).
  destruct (padded_facts (S k) (10 * x)) as (L2 & D2 & N2); [lia|rewrite Nat2N.inj_succ, N.pow_succ_r'; lia|].
  assert (D0 : Forall dec_digit [48%N]) by (constructor; [unfold dec_digit; lia|constructor]).
  apply digits_unique; auto.
  - apply Forall_app; auto.
  - rewrite app_length. cbn [List.length]. lia.
  - rewrite number_app, N2, N1, digit_number by (auto; unfold dec_digit; lia). cbn [List.length].
    change (10 ^ Z.of_nat 1)%Z with 10%Z. lia.
Qed.
Lemma strip_zero t : strip_zeros (t ++ [48%N]) = strip_zeros t.
Proof. unfold strip_zeros. rewrite rev_app_distr. reflexivity. Qed.
Lemma display_ten neg m k : display_f64 (FNum neg (10 * m) (- Z.of_nat (S k))) = display_f64 (FNum neg m (- Z.of_nat k)).
Proof.
  cbn [display_f64]. rewrite (proj2 (Z.leb_gt 0 (- Z.of_nat (S k)))) by lia.
  replace (Z.to_nat (- - Z.of_nat (S k))) with (S k) by lia.
  assert (P : (10 ^ N.of_nat k <> 0)%N) by (apply N.pow_nonzero; lia).
  assert (E : (10 ^ N.of_nat (S k) = 10 * 10 ^ N.of_nat k)%N) by (rewrite Nat2N.inj_succ, N.pow_succ_r'; reflexivity).
  rewrite !E. rewrite N.div_mul_cancel_l, N.mul_mod_distr_l by lia.
  destruct k as [|k].
  - change (10 ^ N.of_nat 0)%N with 1%N. rewrite N.div_1_r, N.mod_1_r. change (- Z.of_nat 0)%Z with 0%Z.
    cbn [Z.leb Z.compare]. change (10 ^ Z.to_N 0)%N with 1%N. rewrite N.mul_1_r. f_equal. rewrite <- (app_nil_r (display_N m)) at 2. reflexivity.
  - rewrite (proj2 (Z.leb_gt 0 (- Z.of_nat (S k)))) by lia.
    replace (Z.to_nat (- - Z.of_nat (S k))) with (S k) by lia.
    set (d := (10 ^ N.of_nat (S k))%N) in *. assert (X : (m mod d < d)%N) by (apply N.mod_upper_bound; lia).
    fold (padded (S (S k)) (10 * (m mod d))) (padded (S k) (m mod d)).
    rewrite padded_ten, strip_zero by (auto; lia). reflexivity.
Qed.
(** Any number with a negative exponent is written like one without superfluous zeros. *)
Lemma display_normal (neg : bool) k : forall m, exists m' k', k' <= k /\ (m = m' * 10 ^ N.of_nat (k - k'))%N /\
  (k' = 0 \/ (m' mod 10 <> 0)%N) /\ display_f64 (FNum neg m (- Z.of_nat k)) = display_f64 (FNum neg m' (- Z.of_nat k')).
Proof.
  induction k as [|k IH]; intros m.
  - exists m, 0. change (10 ^ N.of_nat (0 - 0))%N with 1%N. repeat split; auto. lia.
  - destruct (N.eq_dec (m mod 10) 0) as [Z|Z].
    + assert (M : m = (10 * (m / 10))%N) by (rewrite (N.div_mod m 10) at 1 by lia; lia).
      destruct (IH (m / 10)%N) as (m' & k' & K & E & N & D). exists m', k'. split; [lia|]. split; [|split; [exact N|]].
      * rewrite M, E. replace (S k - k') with (S (k - k')) by lia. rewrite Nat2N.inj_succ, N.pow_succ_r'. lia.
      * rewrite M, display_ten. exact D.
    + exists m, (S k). replace (S k - S k) with 0 by lia. change (10 ^ N.of_nat 0)%N with 1%N. repeat split; auto. lia.
Qed.
Lemma reread_large (neg : bool) (m : N) : ~ i64_range ((if neg then -1 else 1) * Z.of_N m) ->
  reread (SFloat (FNum neg m 0)) = SFloat (FNum neg m 0).
Proof.
  intros R. cbn [reread swrite snd display_f64 Z.leb Z.compare]. change (10 ^ Z.to_N 0)%N with 1%N. rewrite N.mul_1_r.
  rewrite display_show_N. destruct (show_N_spec m) as [S1 S2]. destruct S1 as [NE S1].
  apply parse_float_iff. split.
  - cbn [denotes_float]. rewrite <- S2. rewrite <- (app_nil_r (show_N m)) at 2.
    change 0%Z with (0 - Z.of_nat (@List.length N []))%Z.
    replace (show_N m) with (show_N m ++ []) at 1 by apply app_nil_r.
    apply fn_intro; [destruct neg; constructor|now constructor|constructor].
  - intros (z & S & Rz). apply R. replace ((if neg then -1 else 1) * Z.of_N m)%Z with z; [exact Rz|].
    assert (U : forall w, signed dec_digit 10 ((if neg then [45%N] else []) ++ show_N m) w -> w = ((if neg then -1 else 1) * Z.of_N m)%Z).
    { clear z S Rz R. intros w S. destruct (show_N m) as [|c r] eqn:E; [congruence|]. rewrite Forall_forall in S1.
      assert (C : dec_digit c) by (apply S1; now left). unfold dec_digit in C.
      destruct neg; cbn [app] in S; inversion S as [ds [_ A] Y|ds A Y|ds A Y].
      - inversion_clear A as [|? ? A' _]. unfold dec_digit in A'. lia.
      - rewrite S2. lia.
      - rewrite S2. lia.
      - lia.
      - lia. }
    exact (U z S).
Qed.

(** ** Floats *)
Lemma pow_nat k : Z.of_N (10 ^ N.of_nat k) = (10 ^ Z.of_nat k)%Z.
Proof. rewrite N2Z.inj_pow, nat_N_Z. reflexivity. Qed.
Lemma float_normal (neg : bool) (m : N) (e : Z) : exists m' k,
  same_scalar (SFloat (FNum neg m e)) (SFloat (FNum neg m' (- Z.of_nat k))) /\
  (k = 0 \/ (m' mod 10 <> 0)%N) /\
  reread (SFloat (FNum neg m e)) = reread (SFloat (FNum neg m' (- Z.of_nat k))) /\
  forall z, whole neg m e z <-> whole neg m' (- Z.of_nat k) z.
Proof.
  destruct (Z_le_gt_dec 0 e) as [He|He].
  - exists (m * 10 ^ Z.to_N e)%N, 0. change (- Z.of_nat 0)%Z with 0%Z.
    assert (E : Z.of_N (m * 10 ^ Z.to_N e) = (Z.of_N m * 10 ^ e)%Z) by (rewrite N2Z.inj_mul, N2Z.inj_pow, Z2N.id by lia; reflexivity).
    split; [|split; [now left|split]].
    + split; [reflexivity|]. rewrite E. rewrite Z.sub_0_r, Z.max_r, Z.max_l by lia. change (10 ^ 0)%Z with 1%Z. lia.
    + cbn [reread swrite snd display_f64]. rewrite (proj2 (Z.leb_le 0 e) He). cbn [Z.leb Z.compare].
      change (10 ^ Z.to_N 0)%N with 1%N. now rewrite N.mul_1_r.
    + intros z. unfold whole. rewrite E. change (Z.max 0 (- (0)))%Z with 0%Z. change (Z.max 0 0)%Z with 0%Z.
      rewrite (Z.max_l 0 (- e)), (Z.max_r 0 e) by lia. change (10 ^ 0)%Z with 1%Z.
      replace ((if neg then -1 else 1) * (Z.of_N m * 10 ^ e) * 1)%Z with ((if neg then -1 else 1) * Z.of_N m * 10 ^ e)%Z by lia. tauto.
  - assert (exists k, e = (- Z.of_nat k)%Z) as [k ->] by (exists (Z.to_nat (- e)); lia). clear He.
    destruct (display_normal neg k m) as (m' & k' & L & E & N & D). exists m', k'.
    assert (EZ : Z.of_N m = (Z.of_N m' * 10 ^ Z.of_nat (k - k'))%Z) by (rewrite E, N2Z.inj_mul, pow_nat; reflexivity).
    split; [|split; [exact N|split]].
    + split; [reflexivity|]. rewrite EZ. rewrite Z.max_l, Z.max_r by lia. change (10 ^ 0)%Z with 1%Z.
      replace (- Z.of_nat k' - - Z.of_nat k)%Z with (Z.of_nat (k - k')) by lia. lia.
    + cbn [reread swrite snd]. now rewrite D.
    + intros z. unfold whole. rewrite !Z.opp_involutive, EZ. rewrite (Z.max_r 0 (Z.of_nat k)), (Z.max_r 0 (Z.of_nat k')), (Z.max_l 0 (- Z.of_nat k)), (Z.max_l 0 (- Z.of_nat k')) by lia. change (10 ^ 0)%Z with 1%Z.
      assert (P : (10 ^ Z.of_nat k = 10 ^ Z.of_nat k' * 10 ^ Z.of_nat (k - k'))%Z).
      { rewrite <- Z.pow_add_r by lia. f_equal. lia. }
      rewrite P. assert (Q : (0 < 10 ^ Z.of_nat (k - k'))%Z) by (apply Z.pow_pos_nonneg; lia).
      set (p := (10 ^ Z.of_nat (k - k'))%Z) in *. set (q := (10 ^ Z.of_nat k')%Z) in *. clearbody p q. clear - Q.
      set (w := (if neg then -1 else 1)%Z). clearbody w. split; intros H.
      * apply (Z.mul_reg_r _ _ p); [lia|]. rewrite <- (Z.mul_assoc z q p), H. ring.
      * rewrite Z.mul_assoc, H. ring.
Qed.
Lemma float_back (neg : bool) (m : N) (e : Z) :
  let v := SFloat (FNum neg m e) in
  (exists z, i64_range z /\ whole neg m e z /\ reread v = SInt z) \/
  (survives v /\ same_scalar v (reread v)).
Proof.
  intros v. destruct (float_normal neg m e) as (m' & k & S & N & R & W). unfold v in *.
  rewrite R. destruct k as [|k].
  - change (- Z.of_nat 0)%Z with 0%Z in *. set (z := ((if neg then -1 else 1) * Z.of_N m')%Z).
    assert (W0 : forall x, whole neg m' 0 x <-> x = z).
    { intros x. unfold whole, z. cbn [Z.max Z.opp Z.compare]. change (10 ^ 0)%Z with 1%Z. lia. }
    assert (DR : i64_range z \/ ~ i64_range z) by (unfold i64_range; lia).
    destruct DR as [D|D].
    + left. exists z. split; [exact D|]. split; [apply W, W0; reflexivity|].
      pose proof (reread_integral neg m' 0 ltac:(lia)) as X. cbv zeta in X. change (10 ^ 0)%Z with 1%Z in X. rewrite Z.mul_1_r in X. exact (X D).
    + right. split.
      * cbn [survives]. intros (x & Rx & Wx). apply W, W0 in Wx. subst x. contradiction.
      * rewrite (reread_large neg m' D). exact S.
  - destruct N as [N|N]; [discriminate|]. right. rewrite (reread_fraction neg m' (- Z.of_nat (Datatypes.S k))) by (auto; lia). split; [|exact S].
    cbn [survives]. intros (x & _ & Wx). apply W in Wx. unfold whole in Wx. rewrite Z.opp_involutive in Wx.
    rewrite Z.max_r, Z.max_l in Wx by lia. change (10 ^ 0)%Z with 1%Z in Wx.
    rewrite Nat2Z.inj_succ, Z.pow_succ_r in Wx by lia. apply N.
    assert (X : (Z.of_N m' mod 10 = 0)%Z).
    { destruct neg.
      - replace (Z.of_N m') with ((- x * 10 ^ Z.of_nat k) * 10)%Z by lia. apply Z.mod_mul. lia.
      - replace (Z.of_N m') with ((x * 10 ^ Z.of_nat k) * 10)%Z by lia. apply Z.mod_mul. lia. }
    change 10%Z with (Z.of_N 10) in X. rewrite <- N2Z.inj_mod in X. lia.
Qed.

(** ** Scalars *)
Lemma reread_back v : valid_scalar v -> comes_back v (reread v).
Proof.
  destruct v as [|t|b|f|z]; intros V.
  - apply cb_same; [exact I|]. reflexivity.
  - destruct (reread_string_cases t) as [[E M]|[M E]].
    + rewrite E. apply cb_same; [exact M|reflexivity].
    + exact (cb_misread t _ M E).
  - apply cb_same; [exact I|]. destruct b; reflexivity.
  - destruct f as [neg| |neg m e].
    + destruct neg; [exact (cb_inf true)|exact (cb_inf false)].
    + exact cb_nan.
    + destruct (float_back neg m e) as [(z & R & W & E)|[S1 S2]].
      * rewrite E. now apply cb_whole.
      * now apply cb_same.
  - rewrite (reread_int z V). apply cb_same; [exact I|reflexivity].
Qed.
Lemma same_back v w : comes_back v w -> (same_scalar v w <-> survives v).
Proof.
  intros C. split; intros H.
  - destruct C as [v w S _|t v M N|neg m e z R W|neg|]; auto.
    + exfalso. exact (N t (eq_sym H)).
    + exfalso. discriminate.
    + exfalso. discriminate.
    + exfalso. discriminate.
  - destruct C as [v w _ S|t v M N|neg m e z R W|neg|]; auto; cbn [survives] in H.
    + contradiction.
    + exfalso. apply H. eauto.
    + contradiction.
    + contradiction.
Qed.

(** ** Values *)
Lemma fold_Forall {A} (P : A -> Prop) (l : list A) : fold_right (fun x r => P x /\ r) True l <-> Forall P l.
Proof.
  induction l as [|x l IH]; cbn [fold_right]; split; intros H; auto.
  - destruct H as [H1 H2]. constructor; [exact H1|now apply IH].
  - inversion_clear H as [|? ? H1 H2]. split; [exact H1|now apply IH].
Qed.
Lemma value_alike y : all_scalars valid_scalar y -> alike comes_back y (reread_all y).
Proof.
  induction y as [| v | id | l IH | l IH | t y IH] using yaml_induction; intros V; try contradiction.
  - constructor. now apply reread_back.
  - cbn [all_scalars] in V. apply fold_Forall in V. cbn [reread_all]. constructor.
    induction l as [|x l IHl]; [constructor|]. inversion_clear IH as [|? ? I1 I2]. inversion_clear V as [|? ? V1 V2].
    cbn [map]. constructor; auto.
  - cbn [all_scalars] in V. apply (fold_Forall (fun x => all_scalars valid_scalar (fst x) /\ all_scalars valid_scalar (snd x))) in V.
    cbn [reread_all]. constructor.
    induction l as [|x l IHl]; [constructor|]. inversion_clear IH as [|? ? I1 I2]. inversion_clear V as [|? ? V1 V2].
    cbn [map]. constructor; [|auto]. cbn [fst snd]. split; [exact (proj1 I1 (proj1 V1))|exact (proj2 I1 (proj2 V1))].
Qed.
Lemma alike_same y : forall y', alike comes_back y y' -> (alike same_scalar y y' <-> all_scalars survives y).
Proof.
  induction y as [| v | id | l IH | l IH | t y IH] using yaml_induction; intros y' A; inversion A as [v' w C E1 E2|l1 l' F E1 E2|l1 l' F E1 E2]; subst.
  - cbn [all_scalars]. rewrite <- (same_back _ _ C). split; intros H; [now inversion H|now constructor].
  - cbn [all_scalars]. rewrite fold_Forall. clear A.
    transitivity (Forall2 (alike same_scalar) l l'); [split; intros H; [now inversion H|now constructor]|].
    induction F as [|x x' l l' F1 F2 IHF]; [split; constructor|]. inversion_clear IH as [|? ? I1 I2]. specialize (IHF I2). specialize (I1 x' F1).
    split; intros H; inversion_clear H as [|? ? ? ? H1 H2] || inversion_clear H as [|? ? H1 H2]; (constructor; [now apply I1|now apply IHF]).
  - cbn [all_scalars]. rewrite (fold_Forall (fun x => all_scalars survives (fst x) /\ all_scalars survives (snd x))). clear A.
    transitivity (Forall2 (fun x x' => alike same_scalar (fst x) (fst x') /\ alike same_scalar (snd x) (snd x')) l l');
      [split; intros H; [now inversion H|now constructor]|].
    induction F as [|x x' l l' F1 F2 IHF]; [split; constructor|]. inversion_clear IH as [|? ? I1 I2]. specialize (IHF I2).
    destruct F1 as [F1a F1b]. destruct I1 as [I1a I1b]. specialize (I1a _ F1a). specialize (I1b _ F1b).
    split; intros H; inversion_clear H as [|? ? ? ? H1 H2] || inversion_clear H as [|? ? H1 H2]; (constructor; [split; [now apply I1a|now apply I1b]|now apply IHF]).
Qed.

(** ** The round trip *)
Definition short_key (s : settings) (v : scalar) : Prop := List.length (dumped s (YScalar v)) <= 1028.
Lemma fits_inline s v : (multiline_strings s = true -> single_line v) -> inline_scalar s v.
Proof.
  intros F. destruct v as [|t|b|f|z]; try exact I. cbn [inline_scalar]. destruct (should_emit_string_as_block s t) eqn:B; [|reflexivity].
  destruct (block_break s t B) as [M I]. now elim (F M I).
Qed.
Lemma key_level s v l : inline_scalar s v -> accepts s = any_writer ->
  List.length (dumped s (YScalar v)) = 4 + List.length (ntext s l (YScalar v)).
Proof.
  intros M W. rewrite dumped_text by exact W. unfold dump_text. rewrite app_length. cbn [List.length].
  change (List.length (str "---")) with 3.
  assert (E : ntext s (-1) (YScalar v) = ntext s l (YScalar v)).
  { cbn [ntext]. destruct v as [|t|b|f|z]; try reflexivity. cbn [stext]. cbn [inline_scalar] in M. rewrite M. reflexivity. }
  rewrite E. lia.
Qed.
Lemma short_legible s y : accepts s = any_writer ->
  all_scalars (fun v => multiline_strings s = true -> block_string v) y ->
  scalar_keys (fun v => (multiline_strings s = true -> single_line v) /\ short_key s v) y -> legible s y.
Proof.
  set (P := fun v => _). set (Q := fun v => _).
  intros W. induction y as [| v | id | l IH | l IH | t y IH] using yaml_induction; intros V K; try contradiction.
  - cbn [legible]. cbn [all_scalars] in V.
    assert (D : inline_scalar s v \/ exists t, v = SString t /\ should_emit_string_as_block s t = true).
    { destruct v as [|t|b|f|z]; try (left; exact I). cbn [inline_scalar]. destruct (should_emit_string_as_block s t) eqn:B; eauto. }
    destruct D as [D|(t & -> & B)]; [left; now apply scalar_one_line|right]. destruct (block_break s t B) as [M I].
    exists t. split; [reflexivity|]. split; [exact B|exact (V M I)].
  - cbn [all_scalars scalar_keys legible] in *. apply fold_Forall in V, K. apply all_of_Forall.
    induction l as [|x l IHl]; [constructor|]. inversion_clear IH as [|? ? I1 I2]. inversion_clear V as [|? ? V1 V2].
    inversion_clear K as [|? ? K1 K2]. constructor; auto.
  - cbn [all_scalars scalar_keys legible] in *.
    apply (fold_Forall (fun x => all_scalars P (fst x) /\ all_scalars P (snd x))) in V.
    apply (fold_Forall (fun x => match fst x with YScalar v => Q v | _ => True end /\
       scalar_keys Q (fst x) /\ scalar_keys Q (snd x))) in K.
    apply all_of_Forall.
    induction l as [|x l IHl]; [constructor|]. inversion_clear IH as [|? ? I1 I2]. inversion_clear V as [|? ? V1 V2].
    inversion_clear K as [|? ? K1 K2]. constructor; [|exact (IHl I2 V2 K2)].
    destruct K1 as (S & Ka & Kb). split; [exact (proj1 I1 (proj1 V1) Ka)|]. split; [exact (proj2 I1 (proj2 V1) Kb)|].
    destruct (fst x) as [|v| | | |]; try exact I. destruct S as [S1 S2]. apply fits_inline in S1.
    split; [now apply scalar_one_line|]. intros lv. unfold short_key in S2. rewrite (key_level s _ lv S1 W) in S2. lia.
Qed.
Lemma all_scalars_impl (P Q : scalar -> Prop) : (forall v, P v -> Q v) -> forall y, all_scalars P y -> all_scalars Q y.
Proof.
  intros H. induction y as [| v | id | l IH | l IH | t y IH] using yaml_induction; intros V; try contradiction; cbn [all_scalars] in *.
  - auto.
  - apply fold_Forall in V. apply fold_Forall. rewrite Forall_forall in *. auto.
  - apply (fold_Forall (fun x => all_scalars P (fst x) /\ all_scalars P (snd x))) in V.
    apply (fold_Forall (fun x => all_scalars Q (fst x) /\ all_scalars Q (snd x))).
    rewrite Forall_forall in *. intros x Hx. destruct (IH x Hx), (V x Hx). auto.
Qed.
Lemma scalar_keys_all (P Q R : scalar -> Prop) : (forall v, P v -> Q v -> R v) -> forall y, scalar_keys P y -> scalar_keys Q y -> scalar_keys R y.
Proof.
  intros H. induction y as [| v | id | l IH | l IH | t y IH] using yaml_induction; intros V W; try exact I; cbn [scalar_keys] in *.
  - apply fold_Forall in V, W. apply fold_Forall. rewrite Forall_forall in *. auto.
  - apply (fold_Forall (fun x => match fst x with YScalar v => P v | _ => True end /\ scalar_keys P (fst x) /\ scalar_keys P (snd x))) in V.
    apply (fold_Forall (fun x => match fst x with YScalar v => Q v | _ => True end /\ scalar_keys Q (fst x) /\ scalar_keys Q (snd x))) in W.
    apply (fold_Forall (fun x => match fst x with YScalar v => R v | _ => True end /\ scalar_keys R (fst x) /\ scalar_keys R (snd x))).
    rewrite Forall_forall in *. intros x Hx. destruct (IH x Hx) as [I1 I2], (V x Hx) as (V1 & V2 & V3), (W x Hx) as (W1 & W2 & W3).
    split; [|auto]. destruct (fst x); auto.
Qed.
Lemma scalar_keys_True (P : scalar -> Prop) : (forall v, P v) -> forall y, scalar_keys P y.
Proof.
  intros H. induction y as [| v | id | l IH | l IH | t y IH] using yaml_induction; try exact I; cbn [scalar_keys].
  - apply fold_Forall. exact IH.
  - apply (fold_Forall (fun x => match fst x with YScalar v => P v | _ => True end /\ scalar_keys P (fst x) /\ scalar_keys P (snd x))).
    rewrite Forall_forall in *. intros x Hx. destruct (IH x Hx). split; [|auto]. destruct (fst x); auto.
Qed.
Lemma fits_legible s y : accepts s = any_writer -> all_scalars (fun _ => True) y ->
  (multiline_strings s = true -> fits_blocks y) -> scalar_keys (short_key s) y -> legible s y /\ top_fits s y.
Proof.
  intros W V F K. destruct (multiline_strings s) eqn:M.
  - destruct (F eq_refl) as (F1 & F2 & F3). split.
    + apply short_legible; [exact W| |].
      * revert F1. apply all_scalars_impl. auto.
      * revert F2 K. apply scalar_keys_all. auto.
    + destruct y as [|[| t | | |]| | | |]; try exact I. intros B. exact (F3 (proj2 (block_break s t B))).
  - split.
    + apply short_legible; [exact W| |].
      * revert V. apply all_scalars_impl. intros v _ X. congruence.
      * revert K. apply (scalar_keys_all (fun _ => True)); [intros v _ X; split; [congruence|exact X]|]. now apply scalar_keys_True.
    + destruct y as [|[| t | | |]| | | |]; try exact I. intros B. destruct (block_break s t B). congruence.
Qed.
Theorem round_trip s y fuel : accepts s = any_writer -> best_indent s = 2 ->
  all_scalars valid_scalar y -> (multiline_strings s = true -> fits_blocks y) -> scalar_keys (short_key s) y ->
  32 * List.length (dumped s y) + 65 <= fuel ->
  exists y', load_text fuel (dumped s y) = Ok [y'] /\ alike comes_back y y' /\
    (alike same_scalar y y' <-> all_scalars survives y).
Proof.
  intros W B V M K F. exists (reread_all y). split; [|split].
  - destruct (fits_legible s y W) as [L T]; auto; [revert V; now apply all_scalars_impl|]. now apply load_dumped.
  - now apply value_alike.
  - apply alike_same. now apply value_alike.
Qed.
Lemma not_misread_quoted t : existsb (fun c => (c =? 10)%N || (c =? 32)%N) t = true -> ~ misread t.
Proof.
  intros E M. assert (B : Forall number_byte t).
  { destruct M as [ds z S R|ds z S R (r & H)|t I].
    - assert (O : forall c, oct_digit c -> (48 <= c <= 57)%N) by (intros c H; unfold oct_digit in H; lia).
      destruct (signed_bytes _ _ _ _ O S) as [F _].
      constructor; [left; vm_compute; split; discriminate|]. constructor; [right; cbn; tauto|exact F].
    - destruct (signed_bytes _ _ _ _ (fun c (H : dec_digit c) => H) S) as [F _].
      constructor; [right; cbn; tauto|exact F].
    - cbn [In] in I. destruct I as [<-|[<-|[<-|[]]]]; repeat (constructor; [right; cbn; tauto|]); constructor. }
  apply existsb_exists in E as (x & I & X). rewrite Forall_forall in B. specialize (B x I).
  unfold number_byte in B. cbn [In] in B. lia.
Qed.
