(** Scalar resolution: which texts resolve to which values. *)
From Verif Require Import Base Tokens Scalar SpecScalar.
From Coq Require Import String Lia ZifyBool ZifyNat ZifyN.
Local Open Scope N_scope.

Lemma text_eqb_iff a b : text_eqb a b = true <-> a = b.
Proof.
  revert b; induction a as [|x a IH]; destruct b as [|y b]; cbn [text_eqb];
    try (split; [discriminate|discriminate]); try tauto.
  rewrite andb_true_iff, N.eqb_eq, IH. split; [intros [-> ->]; auto|injection 1; auto].
Qed.

Lemma one_of_iff t l : one_of t l = true <-> In t l.
Proof.
  unfold one_of. rewrite existsb_exists. split.
  - intros [x [Hx E]]. apply text_eqb_iff in E. subst; auto.
  - intros H. exists t. rewrite text_eqb_iff. auto.
Qed.

(** ** Digits *)

Definition digit_of (radix c : N) : Prop :=
  if radix =? 16 then hex_digit c else if radix =? 8 then oct_digit c else dec_digit c.

Lemma to_digit_iff radix c d : radix = 8 \/ radix = 10 \/ radix = 16 ->
  (to_digit radix c = Some d <-> digit_of radix c /\ d = digit_val c).
Proof.
  unfold to_digit, digit_of, hex_digit, oct_digit, dec_digit, digit_val.
  intros [->|[->| ->]]; cbn [N.eqb Pos.eqb];
  repeat match goal with |- context [if ?b then _ else _] => destruct b eqn:? end;
  (split; [intros H; try discriminate; injection H; intros; subst; lia
          | intros [H ->]; try (f_equal; lia); try lia]).
Qed.

(** ** Numbers *)

Fixpoint horner (b acc : N) (ds : text) : N :=
  match ds with [] => acc | c :: r => horner b (acc * b + digit_val c) r end.

Lemma positional_app b l1 : forall w l2,
  positional b w (l1 ++ l2) = positional b w l1 + positional b (w * b ^ N.of_nat (List.length l1)) l2.
Proof.
  induction l1 as [|c l1 IH]; intros w l2; cbn [app positional List.length].
  - rewrite N.pow_0_r, N.mul_1_r. lia.
  - rewrite IH, <- N.add_assoc. do 2 f_equal. f_equal.
    rewrite Nat2N.inj_succ, N.pow_succ_r'. lia.
Qed.

Lemma horner_positional b ds : forall acc,
  horner b acc ds = acc * b ^ N.of_nat (List.length ds) + positional b 1 (rev ds).
Proof.
  induction ds as [|c ds IH]; intros acc; cbn [horner rev List.length].
  - cbn [positional]. rewrite N.pow_0_r. lia.
  - rewrite IH, positional_app, rev_length. cbn [positional].
    rewrite Nat2N.inj_succ, N.pow_succ_r'. lia.
Qed.

Lemma number_horner b ds : number b ds = Z.of_N (horner b 0 ds).
Proof. unfold number. rewrite horner_positional. f_equal. Qed.

Lemma horner_ge b ds : forall acc, 1 <= b -> acc <= horner b acc ds.
Proof.
  induction ds as [|c ds IH]; intros acc Hb; cbn [horner]; [lia|].
  specialize (IH (acc * b + digit_val c) Hb). nia.
Qed.

Definition sg (neg : bool) (n : N) : Z := if neg then (- Z.of_N n)%Z else Z.of_N n.

Lemma in_i64_iff z : in_i64 z = true <-> i64_range z.
Proof. unfold in_i64, i64_range, i64_min, i64_max. change (2 ^ 63)%Z with 9223372036854775808%Z. lia. Qed.

Lemma in_i64_mono neg a b : a <= b -> in_i64 (sg neg b) = true -> in_i64 (sg neg a) = true.
Proof. unfold in_i64, sg, i64_min, i64_max. destruct neg; lia. Qed.

Lemma radix_loop_iff radix neg t : (radix = 8 \/ radix = 10 \/ radix = 16) -> forall acc z,
  in_i64 (sg neg acc) = true ->
  (radix_loop neg radix (sg neg acc) t = Some z <->
   Forall (digit_of radix) t /\ z = sg neg (horner radix acc t) /\ in_i64 z = true).
Proof.
  intros Hr. induction t as [|c t IH]; intros acc z Ha; cbn [radix_loop horner].
  - split; [injection 1; intros <-; auto|intros [_ [-> _]]; auto].
  - destruct (to_digit radix c) as [d|] eqn:Ed.
    + apply to_digit_iff in Ed; auto. destruct Ed as [Hd ->].
      assert (E1 : (sg neg acc * Z.of_N radix)%Z = sg neg (acc * radix)).
      { unfold sg. destruct neg; rewrite N2Z.inj_mul; lia. }
      assert (E2 : forall x y, (if neg then sg neg x - Z.of_N y else sg neg x + Z.of_N y)%Z
                         = sg neg (x + y)).
      { intros. unfold sg. destruct neg; rewrite N2Z.inj_add; lia. }
      rewrite E1, E2.
      destruct (in_i64 (sg neg (acc * radix))) eqn:E3.
      * destruct (in_i64 (sg neg (acc * radix + digit_val c))) eqn:E4.
        -- rewrite IH by auto. split; intros [H1 H2]; split; auto.
           inversion H1; auto.
        -- split; [discriminate|]. intros [_ [-> H]].
           exfalso. apply in_i64_mono with (a := acc * radix + digit_val c) in H; [congruence|].
           apply horner_ge. lia.
      * split; [discriminate|]. intros [_ [-> H]].
        exfalso. apply in_i64_mono with (a := acc * radix) in H; [congruence|].
        etransitivity; [|apply horner_ge; lia]. lia.
    + split; [discriminate|]. intros [H _]. inversion H as [|? ? Hc]; subst.
      assert (X : to_digit radix c = Some (digit_val c)) by (apply to_digit_iff; auto).
      congruence.
Qed.

Lemma digit_not_sign radix c : (radix = 8 \/ radix = 10 \/ radix = 16) -> digit_of radix c ->
  c <> 43 /\ c <> 45.
Proof.
  intros [->|[->| ->]]; cbv [digit_of N.eqb Pos.eqb]; unfold hex_digit, oct_digit, dec_digit; lia.
Qed.

Lemma from_str_radix_iff radix t z : (radix = 8 \/ radix = 10 \/ radix = 16) ->
  (from_str_radix radix t = Some z <-> signed (digit_of radix) radix t z /\ i64_range z).
Proof.
  intros Hr.
  assert (P : forall neg ds z, radix_loop neg radix 0 ds = Some z <->
            Forall (digit_of radix) ds /\ z = sg neg (horner radix 0 ds) /\ in_i64 z = true).
  { intros neg ds z'. replace 0%Z with (sg neg 0) at 1 by (destruct neg; reflexivity).
    apply radix_loop_iff; auto. destruct neg; reflexivity. }
  split.
  - destruct t as [|c t]; [discriminate|].
    intros H.
    assert (H' : (c = 43 /\ t <> [] /\ radix_loop false radix 0 t = Some z) \/
                 (c = 45 /\ t <> [] /\ radix_loop true radix 0 t = Some z) \/
                 (c <> 43 /\ c <> 45 /\ radix_loop false radix 0 (c :: t) = Some z)).
    { destruct t as [|c' t]; cbn [from_str_radix] in H;
      destruct (c =? 43) eqn:E1; destruct (c =? 45) eqn:E2; cbn [orb] in H;
      try discriminate; try lia.
      - right; right; split; [lia|split; [lia|exact H]].
      - left; split; [lia|split; [discriminate|exact H]].
      - right; left; split; [lia|split; [discriminate|exact H]].
      - right; right; split; [lia|split; [lia|exact H]]. }
    destruct H' as [[-> [Hn H']]|[[-> [Hn H']]|[H1 [H2 H']]]];
      apply P in H'; destruct H' as [HF [-> Hi]]; apply in_i64_iff in Hi; (split; [|exact Hi]);
      unfold sg; rewrite <- number_horner.
    + apply (signed_plus (digit_of radix) radix t). split; auto.
    + apply (signed_minus (digit_of radix) radix t). split; auto.
    + apply signed_none. split; [discriminate|auto].
  - intros [H Hi]. rewrite <- in_i64_iff in Hi.
    destruct H as [ds [Hn HF]|ds [Hn HF]|ds [Hn HF]].
    + destruct ds as [|c ds]; [congruence|].
      assert (Hc := digit_not_sign radix c Hr (Forall_inv HF)).
      replace (from_str_radix radix (c :: ds)) with (radix_loop false radix 0 (c :: ds)).
      * apply P. rewrite number_horner in *. auto.
      * destruct ds; cbn [from_str_radix];
          destruct (c =? 43) eqn:?; try lia; destruct (c =? 45) eqn:?; try lia; reflexivity.
    + destruct ds as [|c ds]; [congruence|]. cbn [plus app from_str_radix N.eqb Pos.eqb].
      apply P. rewrite number_horner in *. auto.
    + destruct ds as [|c ds]; [congruence|]. cbn [minus app from_str_radix N.eqb Pos.eqb].
      apply P. rewrite number_horner in *. auto.
Qed.

(** ** Integers *)

Definition signed_shape (t : text) : Prop := exists r, t = plus ++ r \/ t = minus ++ r.

Lemma signed_cases p base t z : signed p base t z ->
  (all_digits p t /\ z = number base t) \/ signed_shape t.
Proof.
  destruct 1; [left; auto|right|right]; unfold signed_shape; eauto.
Qed.

Lemma prefixed_int_sound t z : prefixed_int t = Some z ->
  (core_int t z \/ extra_int t z) /\ i64_range z.
Proof.
  unfold prefixed_int. destruct t as [|a [|b r]]; try discriminate.
  destruct ((a =? 48) && (b =? 120)) eqn:E1.
  { intros H. apply from_str_radix_iff in H; [|auto]. destruct H as [H Hi]. split; auto.
    assert (a = 48) by lia. assert (b = 120) by lia. subst a b.
    destruct (signed_cases _ _ _ _ H) as [[Hd ->]|Hs].
    - left. exact (core_hex r Hd).
    - right. exact (extra_hex r z H Hs). }
  destruct ((a =? 48) && (b =? 111)) eqn:E2.
  { intros H. apply from_str_radix_iff in H; [|auto]. destruct H as [H Hi]. split; auto.
    assert (a = 48) by lia. assert (b = 111) by lia. subst a b.
    destruct (signed_cases _ _ _ _ H) as [[Hd ->]|Hs].
    - left. exact (core_oct r Hd).
    - right. exact (extra_oct r z H Hs). }
  destruct (a =? 43) eqn:E3; [|discriminate].
  intros H. apply from_str_radix_iff in H; [|auto]. destruct H as [H Hi]. split; auto.
  assert (a = 43) by lia. subst a.
  destruct (signed_cases _ _ _ _ H) as [[Hd ->]|Hs].
  - left. apply core_dec. exact (signed_plus dec_digit 10 (b :: r) Hd).
  - right. exact (extra_plus (b :: r) z H Hs).
Qed.

Lemma keyword_iff t s : keyword t = Some s <->
  (s = SNull /\ null_spelling t) \/ (exists b, s = SBool b /\ bool_spelling t b).
Proof.
  split.
  - unfold keyword.
    destruct t as [|a [|b [|c [|d [|e [|f r]]]]]]; try discriminate.
    + destruct (a =? 126) eqn:E; [|discriminate]. injection 1; intros <-.
      left; split; auto. left. assert (a = 126) by lia. subst; reflexivity.
    + cbv zeta. destruct ((N.land a 223 =? 78) && _)%bool eqn:E.
      * injection 1; intros <-. apply andb_true_iff in E. destruct E as [_ E].
        apply one_of_iff in E. left; split; auto. right. exact E.
      * destruct ((N.land a 223 =? 84) && _)%bool eqn:E'; [|discriminate].
        injection 1; intros <-. apply andb_true_iff in E'. destruct E' as [_ E'].
        apply one_of_iff in E'. right. exists true. auto.
    + destruct (one_of _ _) eqn:E; [|discriminate]. injection 1; intros <-.
      apply one_of_iff in E. right. exists false. auto.
  - intros [[-> H]|[b [-> H]]].
    + repeat (destruct H as [<-|H]; [reflexivity|]). destruct H.
    + destruct b; repeat (destruct H as [<-|H]; [reflexivity|]); destruct H.
Qed.

Definition head_in (t : text) (l : list N) : Prop := exists c r, t = c :: r /\ In c l.

Lemma keyword_head t s : keyword t = Some s -> head_in t [126; 110; 78; 116; 84; 102; 70].
Proof.
  intros H. apply keyword_iff in H. unfold head_in.
  destruct H as [[-> H]|[b [-> H]]]; [|destruct b];
  repeat (destruct H as [<-|H]; [vm_compute; eexists; eexists; split; [reflexivity|tauto]|]);
  destruct H.
Qed.

Lemma core_dec_parse t z : signed dec_digit 10 t z -> i64_range z -> parse_from_cow t = SInt z.
Proof.
  intros H Hi.
  assert (HP : parse_i64 t = Some z) by (apply from_str_radix_iff; auto).
  unfold parse_from_cow.
  destruct (prefixed_int t) as [z'|] eqn:E.
  - (* only the [+] form can have a prefix *)
    f_equal. unfold prefixed_int in E.
    inversion H as [ds [Hn HF] Ht|ds [Hn HF] Ht|ds [Hn HF] Ht]; subst.
    + destruct t as [|a [|b r]]; try discriminate.
      inversion HF as [|? ? Ha HF']; subst. inversion HF' as [|? ? Hb _]; subst.
      unfold dec_digit in Ha, Hb.
      destruct ((a =? 48) && (b =? 120)) eqn:?; [lia|].
      destruct ((a =? 48) && (b =? 111)) eqn:?; [lia|].
      destruct (a =? 43) eqn:?; [lia|discriminate].
    + destruct ds as [|c ds]; [congruence|].
      cbn [plus app N.eqb Pos.eqb andb] in E.
      assert (Hs : from_str_radix 10 (c :: ds) = Some (number 10 (c :: ds))).
      { apply from_str_radix_iff; auto. split; auto.
        exact (signed_none dec_digit 10 (c :: ds) (conj Hn HF)). }
      congruence.
    + destruct ds as [|c ds]; [congruence|]. cbn [minus app N.eqb Pos.eqb andb] in E. discriminate.
  - destruct (keyword t) as [s|] eqn:K.
    + exfalso. apply keyword_head in K. destruct K as [c [r [-> Hc]]].
      inversion H as [ds [Hn HF] Ht|ds [Hn HF] Ht|ds [Hn HF] Ht]; subst.
      * inversion HF as [|? ? Hd _]; subst. unfold dec_digit in Hd. cbn [In] in Hc. lia.
      * cbn [In] in Hc. lia.
      * cbn [In] in Hc. lia.
    + rewrite HP. reflexivity.
Qed.

Lemma parse_int_iff t z :
  parse_from_cow t = SInt z <-> (core_int t z \/ extra_int t z) /\ i64_range z.
Proof.
  split.
  - unfold parse_from_cow. destruct (prefixed_int t) as [z'|] eqn:E1.
    + injection 1; intros ->. apply prefixed_int_sound; auto.
    + destruct (keyword t) as [s|] eqn:K.
      * intros ->. apply keyword_iff in K.
        destruct K as [[K _]|[b [K _]]]; discriminate.
      * destruct (parse_i64 t) as [z'|] eqn:E2.
        -- injection 1; intros ->. apply from_str_radix_iff in E2; auto.
           destruct E2 as [E2 Hi]. split; auto. left. apply core_dec. exact E2.
        -- destruct (parse_core_schema_fp t); discriminate.
  - intros [[H|H] Hi].
    + destruct H as [t z H|ds H|ds H].
      * apply core_dec_parse; auto.
      * unfold parse_from_cow.
        assert (E : prefixed_int (str "0o" ++ ds) = Some (number 8 ds)).
        { change (prefixed_int (str "0o" ++ ds)) with (from_str_radix 8 ds).
          apply from_str_radix_iff; auto. split; auto. exact (signed_none oct_digit 8 ds H). }
        rewrite E. reflexivity.
      * unfold parse_from_cow.
        assert (E : prefixed_int (str "0x" ++ ds) = Some (number 16 ds)).
        { change (prefixed_int (str "0x" ++ ds)) with (from_str_radix 16 ds).
          apply from_str_radix_iff; auto. split; auto. exact (signed_none hex_digit 16 ds H). }
        rewrite E. reflexivity.
    + destruct H as [ds z H Hs|ds z H Hs|ds z H Hs]; unfold parse_from_cow.
      * assert (E : prefixed_int (plus ++ ds) = Some z).
        { destruct ds as [|c ds]; [destruct Hs as [? [?|?]]; discriminate|].
          change (prefixed_int (plus ++ c :: ds)) with (from_str_radix 10 (c :: ds)).
          apply from_str_radix_iff; auto. }
        rewrite E. reflexivity.
      * assert (E : prefixed_int (str "0o" ++ ds) = Some z).
        { change (prefixed_int (str "0o" ++ ds)) with (from_str_radix 8 ds).
          apply from_str_radix_iff; auto. }
        rewrite E. reflexivity.
      * assert (E : prefixed_int (str "0x" ++ ds) = Some z).
        { change (prefixed_int (str "0x" ++ ds)) with (from_str_radix 16 ds).
          apply from_str_radix_iff; auto. }
        rewrite E. reflexivity.
Qed.

Lemma parse_keyword_iff t s :
  (s = SNull \/ exists b, s = SBool b) ->
  (parse_from_cow t = s <->
   (s = SNull /\ null_spelling t) \/ (exists b, s = SBool b /\ bool_spelling t b)).
Proof.
  intros Hs. split.
  - unfold parse_from_cow. destruct (prefixed_int t) as [z'|] eqn:E1.
    { intros <-. destruct Hs as [Hs|[b Hs]]; discriminate. }
    destruct (keyword t) as [s'|] eqn:K.
    { intros <-. apply keyword_iff; auto. }
    destruct (parse_i64 t); [intros <-; destruct Hs as [Hs|[b Hs]]; discriminate|].
    destruct (parse_core_schema_fp t); intros <-; destruct Hs as [Hs|[b Hs]]; discriminate.
  - intros [[-> H]|[b [-> H]]].
    + repeat (destruct H as [<-|H]; [reflexivity|]). destruct H.
    + destruct b; repeat (destruct H as [<-|H]; [reflexivity|]); destruct H.
Qed.

(** ** Floats *)

Definition no_digit_head (t : text) : Prop :=
  match t with [] => True | c :: _ => is_ascii_digit c = false end.

Lemma is_ascii_digit_iff c : is_ascii_digit c = true <-> dec_digit c.
Proof. unfold is_ascii_digit, dec_digit. lia. Qed.

Lemma take_digits_app ds rest : Forall dec_digit ds -> no_digit_head rest ->
  take_digits (ds ++ rest) = (ds, rest).
Proof.
  induction 1 as [|c ds Hc _ IH]; intros Hr; cbn [app].
  - destruct rest as [|c r]; [reflexivity|]. cbn [take_digits]. cbn in Hr. rewrite Hr. reflexivity.
  - cbn [take_digits]. apply is_ascii_digit_iff in Hc. rewrite Hc, IH by auto. reflexivity.
Qed.

Lemma take_digits_spec t ds rest : take_digits t = (ds, rest) ->
  t = ds ++ rest /\ Forall dec_digit ds /\ no_digit_head rest.
Proof.
  revert ds rest; induction t as [|c t IH]; intros ds rest; cbn [take_digits].
  - injection 1; intros <- <-. cbn. auto.
  - destruct (is_ascii_digit c) eqn:E.
    + destruct (take_digits t) as [d r]. injection 1; intros <- <-.
      destruct (IH d r eq_refl) as [-> [H1 H2]].
      split; [reflexivity|]. split; auto. constructor; auto. apply is_ascii_digit_iff; auto.
    + injection 1; intros <- <-. cbn. auto.
Qed.

Lemma digits_num_number ds : Forall dec_digit ds -> Z.of_N (digits_num ds) = number 10 ds.
Proof.
  intros H. rewrite number_horner. unfold digits_num.
  enough (E : forall acc, fold_left (fun a c => a * 10 + (c - 48)) ds acc = horner 10 acc ds)
    by (rewrite E; reflexivity).
  induction H as [|c ds Hc _ IH]; intros acc; cbn [fold_left horner]; [reflexivity|].
  rewrite IH. f_equal. unfold digit_val, dec_digit in *.
  destruct (c <=? 57) eqn:?; lia.
Qed.

Lemma split_sign_spec t neg r : split_sign t = (neg, r) ->
  exists sgn, opt_sign sgn neg /\ t = sgn ++ r.
Proof.
  unfold split_sign. destruct t as [|s r'].
  - injection 1; intros <- <-. exists []. split; [constructor|reflexivity].
  - destruct (s =? 45) eqn:E1.
    { injection 1; intros <- <-. exists minus. split; [constructor|].
      assert (s = 45) by lia. subst; reflexivity. }
    destruct (s =? 43) eqn:E2.
    { injection 1; intros <- <-. exists plus. split; [constructor|].
      assert (s = 43) by lia. subst; reflexivity. }
    injection 1; intros <- <-. exists []. split; [constructor|reflexivity].
Qed.

Lemma parse_exp_iff t e : parse_exp t = Some e <-> exponent t e.
Proof.
  split.
  - unfold parse_exp. destruct t as [|c r]; [injection 1; intros <-; constructor|].
    destruct ((c =? 101) || (c =? 69)) eqn:Ec; [|discriminate].
    assert (Hc : c = 101 \/ c = 69) by lia.
    destruct (split_sign r) as [neg r1] eqn:Es.
    apply split_sign_spec in Es. destruct Es as [sgn [Hs ->]].
    destruct (take_digits r1) as [ds rest] eqn:Ed.
    apply take_digits_spec in Ed. destruct Ed as [-> [HF _]].
    destruct ds as [|d ds]; [discriminate|]. destruct rest; [|discriminate].
    injection 1; intros <-. rewrite app_nil_r.
    rewrite digits_num_number by auto. apply ex_some; auto. split; [discriminate|auto].
  - destruct 1 as [|e sgn neg ds He Hs [Hn HF]]; [reflexivity|].
    unfold parse_exp.
    replace ((e =? 101) || (e =? 69))%bool with true by lia.
    destruct ds as [|d ds]; [congruence|].
    assert (Hd : dec_digit d) by (inversion HF; auto). unfold dec_digit in Hd.
    assert (T := take_digits_app (d :: ds) [] HF I). rewrite app_nil_r in T.
    destruct Hs; cbn [plus minus app split_sign].
    + replace (d =? 45) with false by lia. replace (d =? 43) with false by lia.
      rewrite T, digits_num_number by auto. reflexivity.
    + cbn [N.eqb Pos.eqb]. rewrite T, digits_num_number by auto. reflexivity.
    + cbn [N.eqb Pos.eqb]. rewrite T, digits_num_number by auto. reflexivity.
Qed.

Lemma exponent_head t e : exponent t e -> match t with [] => True | c :: _ => c = 101 \/ c = 69 end.
Proof. destruct 1; auto. Qed.

Lemma parse_f64_iff t neg m e :
  parse_f64 t = Some (FNum neg m e) <-> float_number t neg (Z.of_N m) e.
Proof.
  split.
  - unfold parse_f64.
    destruct (split_sign t) as [ng t1] eqn:Es.
    apply split_sign_spec in Es. destruct Es as [sgn [Hs ->]].
    destruct (take_digits t1) as [ip t2] eqn:E1.
    apply take_digits_spec in E1. destruct E1 as [-> [Hip Ht2]].
    destruct (match t2 with c :: r => _ | [] => _ end) as [fp t3] eqn:E2.
    assert (Hm : (ip ++ fp)%list <> [] ->
       exists mt, mantissa mt ip fp /\ Forall dec_digit fp /\ ip ++ t2 = mt ++ t3).
    { intros Hne. destruct t2 as [|c r].
      - injection E2; intros <- <-. exists ip. rewrite app_nil_r in Hne.
        split; [constructor; auto|]. split; auto.
      - destruct (c =? 46) eqn:Ec.
        + apply take_digits_spec in E2. destruct E2 as [-> [Hfp _]].
          assert (c = 46) by lia. subst c.
          exists (ip ++ [46] ++ fp). split.
          * apply ma_point; auto. destruct ip; [right; exact Hne|left; discriminate].
          * split; auto. rewrite <- !app_assoc. reflexivity.
        + injection E2; intros <- <-. rewrite app_nil_r in Hne. exists ip.
          split; [constructor; auto|]. split; auto. }
    destruct (ip ++ fp)%list as [|x l] eqn:Eip; [discriminate|].
    destruct (Hm ltac:(discriminate)) as [mt [Hmt [Hfp Ht]]].
    destruct (parse_exp t3) as [ee|] eqn:Ee; [|discriminate].
    injection 1; intros <- <- <-. apply parse_exp_iff in Ee.
    rewrite <- Eip, digits_num_number by (apply Forall_app; auto).
    rewrite Ht. apply fn_intro; auto.
  - intros H. inversion H as [sgn ng mt ip fp et ee Hs Hm He Ht Hng Hnum Hexp]; subst.
    assert (Hip : Forall dec_digit ip) by (inversion Hm; auto).
    assert (Hfp : Forall dec_digit fp) by (inversion Hm; subst; auto).
    assert (Hne : (ip ++ fp)%list <> []).
    { inversion Hm; subst; [rewrite app_nil_r; auto|]. destruct ip; [|discriminate].
      destruct fp; [|discriminate]. tauto. }
    assert (Heh := exponent_head _ _ He).
    unfold parse_f64.
    assert (Es : split_sign (sgn ++ mt ++ et) = (neg, mt ++ et)).
    { destruct Hs; cbn [plus minus app split_sign N.eqb Pos.eqb]; try reflexivity.
      assert (Hh : exists c r, mt = c :: r /\ (dec_digit c \/ c = 46)).
      { destruct Hm as [ip Hn HF|ip fp HF HF' Hn].
        - destruct ip as [|c r]; [congruence|]. inversion HF; subst. eauto.
        - destruct ip as [|c r]; cbn [app].
          + exists 46, fp. auto.
          + inversion HF; subst. exists c. eauto. }
      destruct Hh as [c [r [-> Hc]]]. cbn [app split_sign]. unfold dec_digit in Hc.
      replace (c =? 45) with false by lia. replace (c =? 43) with false by lia. reflexivity. }
    rewrite Es.
    assert (E2 : exists t2, take_digits (mt ++ et) = (ip, t2) /\
       (match t2 with c :: r => if c =? 46 then take_digits r else ([], t2) | [] => ([], t2) end)
       = (fp, et)).
    { destruct Hm as [ip Hn HF|ip fp HF HF' Hn].
      - exists et. split.
        + apply take_digits_app; auto. destruct et as [|c r]; cbn; auto.
          unfold is_ascii_digit. lia.
        + destruct et as [|c r]; auto. replace (c =? 46) with false by lia. reflexivity.
      - exists ([46] ++ fp ++ et). split.
        + rewrite <- !app_assoc. apply take_digits_app; auto. reflexivity.
        + cbn [app]. rewrite N.eqb_refl. apply take_digits_app; auto.
          destruct et as [|c r]; cbn; auto. unfold is_ascii_digit. lia. }
    destruct E2 as [t2 [E2 E3]]. rewrite E2, E3.
    destruct (ip ++ fp)%list as [|x l] eqn:Eip; [congruence|].
    apply parse_exp_iff in He. rewrite He. do 2 f_equal.
    apply N2Z.inj. rewrite <- Hnum, <- Eip.
    apply digits_num_number. apply Forall_app; auto.
Qed.

Lemma float_number_has_digit t neg m e : float_number t neg m e -> existsb is_ascii_digit t = true.
Proof.
  destruct 1 as [sgn neg mt ip fp et ee Hs Hm He].
  rewrite !existsb_app. apply orb_true_iff. right. apply orb_true_iff. left.
  assert (D : forall l, l <> [] -> Forall dec_digit l -> existsb is_ascii_digit l = true).
  { intros l Hn HF. destruct l as [|c l]; [congruence|]. cbn [existsb].
    inversion HF; subst. apply orb_true_iff. left. apply is_ascii_digit_iff; auto. }
  destruct Hm as [ip Hn HF|ip fp HF HF' Hn]; [auto|].
  rewrite !existsb_app. destruct Hn as [Hn|Hn]; [rewrite D by auto; reflexivity|].
  rewrite (D fp) by auto. rewrite !orb_true_r. reflexivity.
Qed.

Lemma no_digit_spelling t l : existsb is_ascii_digit t = true ->
  forallb (fun x => negb (existsb is_ascii_digit x)) l = true -> one_of t l = false.
Proof.
  intros H Hl. destruct (one_of t l) eqn:E; auto. apply one_of_iff in E.
  rewrite forallb_forall in Hl. specialize (Hl t E). rewrite H in Hl. discriminate.
Qed.

Lemma parse_f64_fnum t f : parse_f64 t = Some f -> exists n m e, f = FNum n m e.
Proof.
  unfold parse_f64.
  destruct (split_sign t) as [ng t1].
  destruct (take_digits t1) as [ip t2].
  destruct (match t2 with c :: r => _ | [] => _ end) as [fp t3].
  destruct (ip ++ fp)%list; [discriminate|].
  destruct (parse_exp t3); [|discriminate]. injection 1; intros <-. eauto.
Qed.

Lemma parse_fp_iff t f : parse_core_schema_fp t = Some f <-> denotes_float t f.
Proof.
  split.
  - unfold parse_core_schema_fp.
    destruct (one_of t [str ".inf"; _; _; _; _; _]) eqn:E1.
    { injection 1; intros <-. apply one_of_iff in E1. exact E1. }
    destruct (one_of t [str "-.inf"; _; _]) eqn:E2.
    { injection 1; intros <-. apply one_of_iff in E2. exact E2. }
    destruct (one_of t [str ".nan"; _; _]) eqn:E3.
    { injection 1; intros <-. apply one_of_iff in E3. exact E3. }
    destruct (existsb is_ascii_digit t) eqn:E4; [|discriminate].
    intros H. destruct (parse_f64_fnum t f H) as [n [m [e ->]]].
    apply parse_f64_iff. exact H.
  - destruct f as [neg| |neg m e]; cbn [denotes_float].
    + unfold inf_spelling. destruct neg; intros H;
      repeat (destruct H as [<-|H]; [reflexivity|]); destruct H.
    + unfold nan_spelling; intros H;
      repeat (destruct H as [<-|H]; [reflexivity|]); destruct H.
    + intros H. assert (HD := float_number_has_digit _ _ _ _ H).
      apply parse_f64_iff in H.
      unfold parse_core_schema_fp. rewrite !no_digit_spelling by (auto; reflexivity).
      rewrite HD. exact H.
Qed.

Lemma float_head t f : denotes_float t f ->
  exists c r, t = c :: r /\ (dec_digit c \/ In c [43; 45; 46]).
Proof.
  destruct f as [neg| |neg m e]; cbn [denotes_float].
  - unfold inf_spelling. destruct neg; intros H;
    repeat (destruct H as [<-|H]; [vm_compute; eexists; eexists; split; [reflexivity|tauto]|]);
    destruct H.
  - unfold nan_spelling; intros H;
    repeat (destruct H as [<-|H]; [vm_compute; eexists; eexists; split; [reflexivity|tauto]|]);
    destruct H.
  - remember (Z.of_N m) as zm. destruct 1 as [sgn neg mt ip fp et ee Hs Hm He].
    destruct Hs; cbn [plus minus app].
    + destruct Hm as [ip Hn HF|ip fp HF HF' Hn].
      * destruct ip as [|c r]; [congruence|]. inversion HF; subst. cbn [app]. eauto.
      * destruct ip as [|c r]; cbn [app].
        -- eexists; eexists; split; [reflexivity|]. cbn [In]; auto.
        -- inversion HF; subst. eauto.
    + eexists; eexists; split; [reflexivity|]. cbn [In]; auto.
    + eexists; eexists; split; [reflexivity|]. cbn [In]; auto.
Qed.

(** A float spelling starting with [0] does not go on with [x] or [o], and one starting with [+]
    does not go on with a sign. *)
Lemma float_second t f a b r : denotes_float t f -> t = a :: b :: r ->
  (a = 48 -> b <> 120 /\ b <> 111) /\ (a = 43 -> b <> 43 /\ b <> 45).
Proof.
  destruct f as [neg| |neg m e]; cbn [denotes_float].
  - unfold inf_spelling. destruct neg; intros H;
    repeat (destruct H as [<-|H]; [vm_compute; injection 1; intros; subst; split; try discriminate; split; discriminate|]);
    destruct H.
  - unfold nan_spelling; intros H;
    repeat (destruct H as [<-|H]; [vm_compute; injection 1; intros; subst; split; try discriminate; split; discriminate|]);
    destruct H.
  - remember (Z.of_N m) as zm. destruct 1 as [sgn neg mt ip fp et ee Hs Hm He].
    assert (HE := exponent_head _ _ He).
    assert (HM : exists c q, mt = c :: q /\ (dec_digit c \/ c = 46) /\
       match q with [] => True | d :: _ => dec_digit d \/ d = 46 end).
    { destruct Hm as [ip Hn HF|ip fp HF HF' Hn].
      - destruct ip as [|c q]; [congruence|]. inversion HF as [|? ? Hc HF2]; subst.
        exists c, q. split; auto. split; auto. destruct q; auto. inversion HF2; auto.
      - destruct ip as [|c q]; cbn [app].
        + exists 46, fp. split; auto. split; auto. destruct fp; auto. inversion HF'; auto.
        + inversion HF as [|? ? Hc HF2]; subst. eexists; eexists; split; [reflexivity|].
          split; auto. destruct q as [|d q]; cbn [app]; auto. inversion HF2; auto. }
    destruct HM as [c [q [-> [Hc Hq]]]]. unfold dec_digit in *.
    destruct Hs; cbn [plus minus app].
    + destruct q as [|d q]; cbn [app].
      * destruct et as [|d et]; [discriminate|]. injection 1; intros; subst. lia.
      * injection 1; intros; subst. lia.
    + injection 1; intros; subst. lia.
    + injection 1; intros; subst. lia.
Qed.

Lemma float_prefixed t f z : denotes_float t f -> prefixed_int t = Some z ->
  signed dec_digit 10 t z /\ i64_range z.
Proof.
  intros Hf H.
  destruct (prefixed_int_sound t z H) as [[C|X] Hi]; (split; [|exact Hi]).
  - destruct C as [t z C|ds C|ds C]; auto;
    exfalso; destruct (float_second _ _ _ _ _ Hf eq_refl) as [Q _];
    destruct (Q eq_refl) as [Q1 Q2]; solve [apply Q1; reflexivity|apply Q2; reflexivity].
  - exfalso. destruct X as [ds z X Hs|ds z X Hs|ds z X Hs].
    + destruct Hs as [r [-> | ->]];
      destruct (float_second _ _ _ _ _ Hf eq_refl) as [_ Q]; destruct (Q eq_refl) as [Q1 Q2]; solve [apply Q1; reflexivity|apply Q2; reflexivity].
    + destruct (float_second _ _ _ _ _ Hf eq_refl) as [Q _]; destruct (Q eq_refl) as [Q1 Q2]; solve [apply Q1; reflexivity|apply Q2; reflexivity].
    + destruct (float_second _ _ _ _ _ Hf eq_refl) as [Q _]; destruct (Q eq_refl) as [Q1 Q2]; solve [apply Q1; reflexivity|apply Q2; reflexivity].
Qed.

Lemma parse_float_iff t f :
  parse_from_cow t = SFloat f <->
  denotes_float t f /\ ~ (exists z, signed dec_digit 10 t z /\ i64_range z).
Proof.
  split.
  - intros H. assert (NI : forall z, parse_from_cow t <> SInt z) by (intros z; congruence).
    split.
    + unfold parse_from_cow in H. destruct (prefixed_int t); [discriminate|].
      destruct (keyword t) as [s|] eqn:K.
      { subst s. apply keyword_iff in K. destruct K as [[K _]|[b [K _]]]; discriminate. }
      destruct (parse_i64 t); [discriminate|].
      destruct (parse_core_schema_fp t) eqn:E; [|discriminate].
      injection H; intros <-. apply parse_fp_iff; auto.
    + intros [z [Hs Hi]]. apply (NI z). apply core_dec_parse; auto.
  - intros [Hf Hn]. unfold parse_from_cow.
    destruct (prefixed_int t) as [z|] eqn:E.
    { exfalso. apply Hn. exists z. eapply float_prefixed; eauto. }
    destruct (keyword t) as [s|] eqn:K.
    { exfalso. apply keyword_head in K. destruct K as [c [r [-> Hc]]].
      destruct (float_head _ _ Hf) as [c' [r' [E' Hc']]]. injection E'; intros; subst.
      unfold dec_digit in Hc'. cbn [In] in *. lia. }
    destruct (parse_i64 t) as [z|] eqn:P.
    { exfalso. apply Hn. exists z. apply from_str_radix_iff in P; auto. }
    apply parse_fp_iff in Hf. rewrite Hf. reflexivity.
Qed.

Lemma parse_string_exact t u : parse_from_cow t = SString u -> u = t.
Proof.
  unfold parse_from_cow. destruct (prefixed_int t); [discriminate|].
  destruct (keyword t) as [s|] eqn:K.
  { intros ->. apply keyword_iff in K. destruct K as [[K _]|[b [K _]]]; discriminate. }
  destruct (parse_i64 t); [discriminate|].
  destruct (parse_core_schema_fp t); [discriminate|]. injection 1; auto.
Qed.

(** ** Canonical decimal notation *)

Lemma dec_digits_spec fuel : forall n acc, n < 10 ^ N.of_nat fuel -> (0 < fuel)%nat ->
  exists ds, dec_digits fuel n acc = ds ++ acc /\ all_digits dec_digit ds /\ number 10 ds = Z.of_N n.
Proof.
  induction fuel as [|f IH]; intros n acc Hn Hf; [lia|]. cbn [dec_digits].
  destruct (n <? 10) eqn:E.
  - exists [48 + n]. split; [reflexivity|]. split.
    + split; [discriminate|]. constructor; [unfold dec_digit; lia|constructor].
    + unfold number. cbn [rev app positional]. unfold digit_val.
      destruct (48 + n <=? 57) eqn:?; lia.
  - destruct f as [|f]; [cbn in Hn; lia|].
    rewrite Nat2N.inj_succ, N.pow_succ_r' in Hn.
    destruct (IH (n / 10) ((48 + n mod 10) :: acc)) as [ds [E1 [[Hne HF] E3]]]; [|lia|].
    { apply N.div_lt_upper_bound; [lia|exact Hn]. }
    exists (ds ++ [48 + n mod 10]).
    assert (Hm := N.mod_upper_bound n 10 ltac:(lia)).
    split; [rewrite E1, <- app_assoc; reflexivity|]. split.
    + split; [destruct ds; discriminate|]. apply Forall_app; split; auto.
      constructor; [unfold dec_digit; lia|constructor].
    + unfold number in *. rewrite rev_app_distr. cbn [rev app positional].
      assert (Hw : forall l w, positional 10 (w * 10) l = 10 * positional 10 w l).
      { induction l as [|c l IHl]; intros w; cbn [positional]; [lia|]. rewrite IHl. lia. }
      rewrite Hw. unfold digit_val. destruct (48 + n mod 10 <=? 57) eqn:?; [|lia].
      assert (D := N.div_mod n 10 ltac:(lia)). lia.
Qed.

Lemma show_N_spec n : all_digits dec_digit (show_N n) /\ number 10 (show_N n) = Z.of_N n.
Proof.
  unfold show_N.
  destruct (dec_digits_spec (S (N.size_nat n)) n []) as [ds [E [H1 H2]]]; [|lia|].
  - apply N.lt_le_trans with (2 ^ N.of_nat (S (N.size_nat n))).
    + rewrite Nat2N.inj_succ, N.pow_succ_r'.
      assert (H : n < 2 ^ N.of_nat (N.size_nat n)).
      { destruct n as [|p]; [reflexivity|]. cbn [N.size_nat].
        assert (X := N.size_gt (N.pos p)). cbn [N.size] in X.
        replace (N.of_nat (Pos.size_nat p)) with (N.pos (Pos.size p)); auto.
        rewrite <- positive_nat_N. f_equal.
        clear. induction p; cbn [Pos.size Pos.size_nat]; try rewrite Pos2Nat.inj_succ; lia. }
      lia.
    + apply N.pow_le_mono_l. lia.
  - rewrite E, app_nil_r. auto.
Qed.

Lemma show_Z_signed z : signed dec_digit 10 (show_Z z) z.
Proof.
  unfold show_Z. destruct (z <? 0)%Z eqn:E.
  - destruct (show_N_spec (Z.to_N (- z))) as [H1 H2].
    replace z with (- number 10 (show_N (Z.to_N (- z))))%Z at 2.
    + apply signed_minus; auto.
    + rewrite H2. lia.
  - destruct (show_N_spec (Z.to_N z)) as [H1 H2].
    replace z with (number 10 (show_N (Z.to_N z)))%Z at 2.
    + apply signed_none; auto.
    + rewrite H2. lia.
Qed.

(** A signed decimal denotes one number. *)
Lemma signed_unique t z1 z2 : signed dec_digit 10 t z1 -> signed dec_digit 10 t z2 -> z1 = z2.
Proof.
  assert (N : forall ds, all_digits dec_digit ds -> forall q, ds <> 43 :: q /\ ds <> 45 :: q).
  { intros ds [_ HF] q. split; intros ->; inversion HF as [|? ? H _]; subst; unfold dec_digit in H; lia. }
  intros H1 H2.
  inversion H1 as [d1 D1 E1|d1 D1 E1|d1 D1 E1]; inversion H2 as [d2 D2 E2|d2 D2 E2|d2 D2 E2]; subst;
  auto; try discriminate;
  try (destruct (N _ D1 d2); unfold plus, minus in *; cbn [app] in *; congruence);
  try (destruct (N _ D2 d1); unfold plus, minus in *; cbn [app] in *; congruence);
  try (apply app_inv_head in E2; congruence).
Qed.

(** ** Tags *)

Lemma tag_core_iff g : is_yaml_core_schema g = true <-> t_handle g = str "tag:yaml.org,2002:".
Proof. apply text_eqb_iff. Qed.
