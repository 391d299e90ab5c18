(** How the scalars the emitter writes are scanned and read back. *)
From Verif Require Import Base Tokens Scalar Chars Source Cursor Scanner Yaml Emitter ExactCursor EmitterText EmitterProofs EmitterPlain EmitterLayout.
From Verif Require Import SpecScalar ScalarProofs ScalarTags SpecTree SpecEmit SpecQuoted FoldedQuotes ExactPlain EagerScan ScanSteps NodeScan.
From Coq Require Import String Lia ZifyBool ZifyNat ZifyN.
Local Open Scope list_scope.

(** ** Decimal notation *)
Lemma decimal_show fuel : forall n acc, (n < 2 ^ N.of_nat fuel)%N -> decimal fuel n acc = dec_digits fuel n acc.
Proof.
  induction fuel as [|fuel IH]; intros n acc H; [reflexivity|]. cbn [decimal dec_digits].
  destruct (N.ltb_spec n 10) as [L|L].
  - now rewrite N.mod_small by lia.
  - apply IH. rewrite Nat2N.inj_succ, N.pow_succ_r' in H.
    assert (n / 10 <= n / 2)%N by (apply N.div_le_compat_l; lia).
    assert (n / 2 < 2 ^ N.of_nat fuel)%N by (apply N.div_lt_upper_bound; lia). lia.
Qed.
Lemma display_show_N n : display_N n = show_N n.
Proof.
  apply decimal_show. destruct n as [|p]; [reflexivity|].
  rewrite Nat2N.inj_succ, N.pow_succ_r'. pose proof (N.size_gt (N.pos p)).
  assert (E : N.of_nat (N.size_nat (N.pos p)) = N.size (N.pos p)).
  { clear. cbn [N.size_nat N.size]. induction p as [p IH|p IH|]; cbn [Pos.size_nat Pos.size]; rewrite ?Nat2N.inj_succ, ?IH; reflexivity. }
  rewrite E. lia.
Qed.
Lemma display_show_Z z : display_Z z = show_Z z.
Proof.
  unfold display_Z, show_Z. rewrite !display_show_N. destruct (Z.ltb_spec z 0).
  - unfold minus. cbn [app]. do 2 f_equal. lia.
  - f_equal. lia.
Qed.

(** ** Plain texts *)
Definition plain_text (w : text) : Prop := plain_line w /\ plain_first w.
Lemma digit_facts c : (48 <= c <= 57)%N -> inner_byte c /\ ~ blank_byte c /\
  ~ In c [91; 123; 93; 125; 44; 63; 58; 42; 38; 33; 124; 62; 39; 34; 37; 64; 96; 35; 46; 0]%N /\ c <> 45%N /\
  ~ In c [45; 32; 9; 10; 13; 0]%N.
Proof. intros H. unfold inner_byte, blank_byte. cbn [In]. repeat split; lia. Qed.
Definition num_byte (c : N) : Prop := (48 <= c <= 57)%N \/ c = 46%N.
Lemma num_inner c : num_byte c -> inner_byte c /\ ~ blank_byte c.
Proof. intros [H| ->]; [split; apply digit_facts; auto|]. unfold inner_byte, blank_byte. cbn [In]. split; lia. Qed.
(** A sign, digits and points, beginning with a digit. *)
Lemma number_text (neg : bool) w : Forall num_byte w -> (48 <= nth 0 w 0%N <= 57)%N ->
  plain_text ((if neg then [45%N] else []) ++ w).
Proof.
  intros F H. destruct w as [|c r]; [cbn in H; lia|]. cbn [nth] in H.
  assert (L : ~ blank_byte (last (c :: r) 32%N)).
  { apply (forall_last (fun b => ~ blank_byte b)); [|discriminate]. eapply Forall_impl; [|exact F]. intros b Hb. apply num_inner, Hb. }
  assert (I : Forall inner_byte (c :: r)) by (eapply Forall_impl; [|exact F]; intros b Hb; apply num_inner, Hb).
  destruct (digit_facts c H) as (_ & D2 & D3 & D4 & D5). destruct neg; cbn [app].
  - split; [split; [constructor; [unfold inner_byte; cbn [In]; lia|exact I]|split; [unfold blank_byte; cbn [nth]; lia|exact L]]|].
    split; cbn [nth]; [cbn [In]; lia|auto].
  - split; [split; [exact I|split; [exact D2|exact L]]|]. split; cbn [nth]; [exact D3|intros ->; lia].
Qed.
Lemma display_N_num n : Forall num_byte (display_N n) /\ (48 <= nth 0 (display_N n) 0%N <= 57)%N.
Proof.
  split.
  - eapply Forall_impl; [|apply display_N_digits]. intros b H. left. exact H.
  - destruct (display_N_cons n) as (c & r & -> & H). exact H.
Qed.
Lemma display_Z_plain z : plain_text (display_Z z).
Proof.
  unfold display_Z. destruct (display_N_num (Z.abs_N z)) as [F H]. destruct (z <? 0)%Z.
  - exact (number_text true _ F H).
  - exact (number_text false _ F H).
Qed.
Lemma display_f64_plain f : plain_text (display_f64 f).
Proof.
  destruct f as [neg| |neg m e]; cbn [display_f64].
  - destruct neg; (split; [split; [repeat constructor; unfold inner_byte; cbn; lia|split; unfold blank_byte; cbn; lia]|split; cbn; lia]).
  - split; [split; [repeat constructor; unfold inner_byte; cbn; lia|split; unfold blank_byte; cbn; lia]|split; cbn; lia].
  - destruct (0 <=? e)%Z.
    + destruct (display_N_num (m * 10 ^ Z.to_N e)) as [F H]. exact (number_text neg _ F H).
    + destruct (display_N_num (m / 10 ^ N.of_nat (Z.to_nat (- e)))) as [F H].
      apply number_text.
      * apply Forall_app. split; [exact F|].
        match goal with |- Forall _ match ?x with _ => _ end => assert (X : Forall num_byte x) end.
        { apply Forall_forall. intros b I. apply strip_zeros_incl in I. apply in_app_iff in I. left.
          destruct I as [I|I]; [apply repeat_spec in I; lia|].
          pose proof (display_N_digits (m mod 10 ^ N.of_nat (Z.to_nat (- e)))) as D. rewrite Forall_forall in D. exact (D _ I). }
        destruct (strip_zeros _); [constructor|]. constructor; [right; reflexivity|exact X].
      * destruct (display_N_cons (m / 10 ^ N.of_nat (Z.to_nat (- e)))) as (c & r & E & C). rewrite E. exact C.
Qed.
Lemma unquoted_plain t : need_quotes t = false -> plain_text t.
Proof.
  intros Q. destruct (unquoted_facts t Q) as (c & r & E & C & EN & IL & B & W & D & _).
  assert (I : Forall (fun b => inner_byte b /\ b <> 9%N) t).
  { apply Forall_forall. intros b Hb.
    assert (X : needs_quotes_byte b = false).
    { destruct (needs_quotes_byte b) eqn:Y; [|reflexivity]. rewrite <- B. symmetry. apply existsb_exists. eauto. }
    unfold needs_quotes_byte in X. cbn [str existsb] in X. cbn in X. unfold inner_byte. cbn [In]. lia. }
  assert (Hc : needs_quotes_byte c = false).
  { destruct (needs_quotes_byte c) eqn:Y; [|reflexivity]. rewrite <- B. symmetry. apply existsb_exists. exists c. rewrite E. split; [now left|exact Y]. }
  assert (I1 : Forall inner_byte t) by (eapply Forall_impl; [|exact I]; intros b Hb; apply Hb).
  split; [split; [exact I1|]|].
  - assert (L : ~ blank_byte (last t 32%N)).
    { unfold blank_byte. intros [X|X].
      - unfold Emitter.ends_with in EN. destruct (rev t) as [|x l] eqn:R.
        + apply (f_equal (@rev N)) in R. rewrite rev_involutive in R. rewrite E in R. discriminate.
        + apply (f_equal (@rev N)) in R. rewrite rev_involutive in R. cbn [rev] in R. rewrite R, last_last in X. lia.
      - rewrite Forall_forall in I. destruct (I 9%N) as [_ X']; [|congruence]. rewrite <- X.
        destruct t as [|y t]; [discriminate|]. apply (forall_last (fun b => In b (y :: t))); [|discriminate].
        apply Forall_forall. auto. }
    split; [|exact L]. rewrite E. cbn [nth]. unfold blank_byte. rewrite E in I. inversion_clear I as [|? ? [_ X] _]. lia.
  - rewrite E. split; cbn [nth].
    + unfold needs_quotes_byte in Hc. unfold is_leading_indicator in IL. cbn in Hc, IL. cbn [In]. lia.
    + intros ->. discriminate.
Qed.
Lemma simple_plain w : In w [str "~"; str "true"; str "false"] -> plain_text w.
Proof.
  cbn [In]. intros [<-|[<-|[<-|[]]]]; (split; [split; [repeat constructor; unfold inner_byte; cbn; lia|split; unfold blank_byte; cbn; lia]|split; cbn; lia]).
Qed.
Lemma block_break s t : should_emit_string_as_block s t = true -> multiline_strings s = true /\ In 10%N t.
Proof.
  unfold should_emit_string_as_block. intros H. apply andb_prop in H as [H _]. apply andb_prop in H as [M H].
  split; [exact M|]. apply existsb_exists in H as (x & I & X). apply N.eqb_eq in X. now subst x.
Qed.
Lemma break_quoted t : In 10%N t -> need_quotes t = true.
Proof.
  intros I. destruct (need_quotes t) eqn:Q; [reflexivity|]. destruct (unquoted_plain t Q) as [[F _] _].
  pose proof (proj1 (Forall_forall _ _) F 10%N I) as X. unfold inner_byte in X. cbn [In] in X. lia.
Qed.
(** The scalar is not written as a literal block. *)
Definition inline_scalar (s : settings) (v : scalar) : Prop :=
  match v with SString t => should_emit_string_as_block s t = false | _ => True end.
Lemma scalar_one_line s v : inline_scalar s v -> one_line s v.
Proof.
  intros M l.
  assert (P : forall w, plain_text w -> scalar_text Plain w w) by (intros w [A B]; now constructor).
  destruct v as [|t|b|f|z]; cbn [swrite stext fst snd].
  - apply P, simple_plain. cbn [In]; auto.
  - cbn [inline_scalar] in M. rewrite M. destruct (need_quotes t) eqn:Q; cbn [fst snd].
    + constructor.
    + apply P, unquoted_plain, Q.
  - apply P, simple_plain. destruct b; cbn [In]; auto.
  - apply P, display_f64_plain.
  - apply P, display_Z_plain.
Qed.

(** ** Reading back *)
(** The scalar that is read for the text written for a scalar. *)
Definition reread (v : scalar) : scalar :=
  match v with
  | SString t => if need_quotes t then SString t else parse_from_cow t
  | _ => parse_from_cow (snd (swrite (default_settings any_writer) v))
  end.
Lemma reread_value s v : value_from_cow_and_metadata (snd (swrite s v)) (fst (swrite s v)) None = YScalar (reread v).
Proof. destruct v as [|t|b|f|z]; cbn [swrite reread fst snd]; try reflexivity. 
  destruct (should_emit_string_as_block s t) eqn:B; [rewrite (break_quoted t (proj2 (block_break s t B)))|destruct (need_quotes t)]; reflexivity.
Qed.

Lemma scalar_eq v w : value_from_cow_and_metadata v Plain None = YScalar w -> parse_from_cow v = w.
Proof. rewrite untagged_plain. apply scalar_inj. Qed.
Lemma reread_int z : i64_range z -> reread (SInt z) = SInt z.
Proof. intros H. cbn [reread swrite snd]. rewrite display_show_Z. apply scalar_eq, integers_survive, H. Qed.
Lemma reread_string t : ~ misread t -> reread (SString t) = SString t.
Proof. intros M. cbn [reread]. destruct (need_quotes t) eqn:Q; [reflexivity|]. now apply unquoted_string. Qed.

(** A decimal fraction is written with all its digits. *)
Lemma number_app a b : Forall dec_digit a -> Forall dec_digit b ->
  number 10 (a ++ b) = (number 10 a * 10 ^ Z.of_nat (List.length b) + number 10 b)%Z.
Proof.
  intros A B. rewrite <- (digits_num_number (a ++ b)) by (apply Forall_app; auto).
  rewrite <- (digits_num_number a), <- (digits_num_number b) by auto. unfold digits_num. rewrite fold_left_app.
  generalize (fold_left (fun a c => a * 10 + (c - 48))%N a 0%N) as x. clear A.
  assert (G : forall x y, Z.of_N (fold_left (fun a c => a * 10 + (c - 48))%N b (x + y)%N) =
     (Z.of_N x * 10 ^ Z.of_nat (List.length b) + Z.of_N (fold_left (fun a c => a * 10 + (c - 48))%N b y))%Z).
  { clear B. induction b as [|c b IH]; intros x y; cbn [fold_left List.length]; [cbn; lia|].
    replace ((x + y) * 10 + (c - 48))%N with (x * 10 + (y * 10 + (c - 48)))%N by lia.
    rewrite IH, Nat2Z.inj_succ, Z.pow_succ_r by lia. lia. }
  intros x. specialize (G x 0%N). rewrite N.add_0_r in G. exact G.
Qed.
Lemma number_zeros n : number 10 (repeat 48%N n) = 0%Z.
Proof.
  rewrite <- digits_num_number by (apply Forall_forall; intros x I; apply repeat_spec in I; unfold dec_digit; lia).
  unfold digits_num. assert (G : fold_left (fun a c => a * 10 + (c - 48))%N (repeat 48%N n) 0%N = 0%N); [|now rewrite G].
  induction n as [|n IH]; [reflexivity|]. cbn [repeat fold_left]. exact IH.
Qed.
Lemma strip_none t c : (c <> 48)%N -> strip_zeros (t ++ [c]) = t ++ [c].
Proof.
  intros H. unfold strip_zeros. rewrite rev_app_distr. cbn [rev app].
  transitivity (rev (c :: rev t)); [f_equal|cbn [rev]; now rewrite rev_involutive].
  destruct c as [|p]; [reflexivity|]. do 6 (destruct p as [p|p|]; try reflexivity). congruence.
Qed.
Lemma show_N_short fuel : forall n acc k, (n < 10 ^ N.of_nat k)%N -> 0 < k ->
  List.length (dec_digits fuel n acc) <= k + List.length acc.
Proof.
  induction fuel as [|fuel IH]; intros n acc k H K; cbn [dec_digits]; [lia|].
  destruct (N.ltb_spec n 10); [cbn [List.length]; lia|].
  destruct k as [|[|k]]; [lia|cbn in H; lia|].
  etransitivity; [apply (IH _ _ (S k))|cbn [List.length]; lia]; [|lia].
  apply N.div_lt_upper_bound; [lia|]. rewrite (Nat2N.inj_succ (S k)), N.pow_succ_r' in H. lia.
Qed.
Lemma last_digit fuel : forall n acc, (n < 10 ^ N.of_nat fuel)%N -> 0 < fuel ->
  exists a, dec_digits fuel n acc = a ++ (48 + n mod 10)%N :: acc.
Proof.
  induction fuel as [|fuel IH]; intros n acc H F; [lia|]. cbn [dec_digits].
  destruct (N.ltb_spec n 10); [exists []; now rewrite N.mod_small by lia|].
  destruct fuel as [|fuel]; [cbn in H; lia|].
  destruct (IH (n / 10)%N ((48 + n mod 10)%N :: acc)) as [a ->]; [|lia|].
  - apply N.div_lt_upper_bound; [lia|]. rewrite (Nat2N.inj_succ (S fuel)), N.pow_succ_r' in H. lia.
  - exists (a ++ [(48 + (n / 10) mod 10)%N]). now rewrite <- app_assoc.
Qed.
Lemma size_bound n : (n < 10 ^ N.of_nat (S (N.size_nat n)))%N.
Proof.
  destruct n as [|p]; [reflexivity|].
  assert (E : N.of_nat (N.size_nat (N.pos p)) = N.size (N.pos p)).
  { clear. cbn [N.size_nat N.size]. induction p as [p IH|p IH|]; cbn [Pos.size_nat Pos.size]; rewrite ?Nat2N.inj_succ, ?IH; reflexivity. }
  rewrite Nat2N.inj_succ, E. pose proof (N.size_gt (N.pos p)).
  assert (2 ^ N.size (N.pos p) <= 10 ^ N.size (N.pos p))%N by (apply N.pow_le_mono_l; lia).
  rewrite N.pow_succ_r'. lia.
Qed.

Lemma fraction_text m k : 0 < k -> (m mod 10 <> 0)%N ->
  let d := (10 ^ N.of_nat k)%N in
  let fp := display_N (m mod d) in
  let fp' := strip_zeros (repeat 48%N (k - List.length fp) ++ fp) in
  List.length fp' = k /\ Forall dec_digit fp' /\ number 10 fp' = Z.of_N (m mod d).
Proof.
  intros K H d fp.
  assert (D : (m mod d < d)%N) by (apply N.mod_upper_bound; unfold d; apply N.pow_nonzero; lia).
  assert (L : List.length fp <= k).
  { unfold fp. rewrite display_show_N. unfold show_N. etransitivity; [apply (show_N_short _ _ _ k); auto|cbn; lia]. }
  assert (E : ((m mod d) mod 10 = m mod 10)%N).
  { unfold d. destruct k as [|k]; [lia|]. rewrite Nat2N.inj_succ, N.pow_succ_r'.
    set (b := (10 ^ N.of_nat k)%N). assert (b <> 0)%N by (apply N.pow_nonzero; lia).
    rewrite N.mod_mul_r by lia. rewrite (N.mul_comm 10 (_ mod _)), N.mod_add by lia. now rewrite N.mod_mod by lia. }
  assert (F : exists a, fp = a ++ [(48 + m mod 10)%N]).
  { unfold fp. rewrite display_show_N. unfold show_N.
    destruct (last_digit (S (N.size_nat (m mod d)%N)) (m mod d)%N [] (size_bound _) ltac:(lia)) as [a X]. rewrite X, E. eauto. }
  destruct F as [a F]. cbv zeta.
  assert (X : strip_zeros (repeat 48%N (k - List.length fp) ++ fp) = repeat 48%N (k - List.length fp) ++ fp).
  { generalize (k - List.length fp) as j. intros j. rewrite F, app_assoc. apply strip_none. lia. }
  rewrite X.
  split; [rewrite app_length, repeat_length; lia|].
  assert (Z0 : Forall dec_digit (repeat 48%N (k - List.length fp))).
  { apply Forall_forall. intros x I. apply repeat_spec in I. unfold dec_digit. lia. }
  assert (Z1 : Forall dec_digit fp) by (apply display_N_digits).
  split; [apply Forall_app; auto|]. rewrite number_app, number_zeros by auto.
  unfold fp at 2. rewrite display_show_N. destruct (show_N_spec (m mod d)%N) as [_ ->]. lia.
Qed.

Lemma reread_fraction neg m e : (e < 0)%Z -> (m mod 10 <> 0)%N ->
  reread (SFloat (FNum neg m e)) = SFloat (FNum neg m e).
Proof.
  intros He Hm. cbn [reread swrite snd display_f64]. rewrite (proj2 (Z.leb_gt 0 e) He).
  set (k := Z.to_nat (- e)). assert (K : 0 < k) by lia.
  pose proof (fraction_text m k K Hm) as FT. cbv zeta in FT.
  set (d := (10 ^ N.of_nat k)%N) in *. set (fp := strip_zeros _) in *. destruct FT as (F1 & F2 & F3).
  assert (NE : fp <> []) by (intros X; rewrite X in F1; cbn in F1; lia).
  set (sgn := if neg then [45%N] else []).
  assert (T : sgn ++ display_N (m / d) ++ match fp with [] => [] | _ => 46%N :: fp end
              = sgn ++ (display_N (m / d) ++ [46%N] ++ fp) ++ []).
  { rewrite app_nil_r. destruct fp; [congruence|]. reflexivity. }
  rewrite T. apply parse_float_iff.
  assert (Z1 : Forall dec_digit (display_N (m / d))) by apply display_N_digits.
  split.
  - cbn [denotes_float].
    assert (D0 : (d <> 0)%N) by (apply N.pow_nonzero; lia).
    assert (M : number 10 (display_N (m / d) ++ fp) = Z.of_N m).
    { rewrite number_app, F3, F1 by auto. rewrite display_show_N. destruct (show_N_spec (m / d)%N) as [_ ->].
      pose proof (N.div_mod m d D0) as DM. apply (f_equal Z.of_N) in DM.
      rewrite N2Z.inj_add, N2Z.inj_mul in DM.
      assert (DE : Z.of_N d = (10 ^ Z.of_nat k)%Z) by (unfold d; rewrite N2Z.inj_pow, nat_N_Z; reflexivity).
      rewrite DM, DE. lia. }
    rewrite <- M. replace e with (0 - Z.of_nat (List.length fp))%Z by (rewrite F1; unfold k; lia).
    apply fn_intro; [|constructor 2; auto|constructor].
    unfold sgn. destruct neg; constructor.
  - intros (z & S & _). assert (P : In 46%N (sgn ++ (display_N (m / d) ++ [46%N] ++ fp) ++ [])).
    { rewrite app_nil_r. apply in_app_iff. right. apply in_app_iff. right. left. reflexivity. }
    set (w := sgn ++ _) in *. clearbody w. clear - S P.
    destruct S as [ds [_ A]|ds [_ A]|ds [_ A]]; rewrite Forall_forall in A.
    + specialize (A _ P). unfold dec_digit in A. lia.
    + destruct P as [P|P]; [discriminate|]. specialize (A _ P). unfold dec_digit in A. lia.
    + destruct P as [P|P]; [discriminate|]. specialize (A _ P). unfold dec_digit in A. lia.
Qed.

(** A float without fraction is written without point and read back as an integer. *)
Lemma reread_integral (neg : bool) (m : N) (e : Z) : (0 <= e)%Z ->
  let z := ((if neg then -1 else 1) * Z.of_N m * 10 ^ e)%Z in
  i64_range z -> reread (SFloat (FNum neg m e)) = SInt z.
Proof.
  intros He z Hz. cbn [reread swrite snd display_f64]. rewrite (proj2 (Z.leb_le 0 e) He).
  apply parse_int_iff. split; [left; constructor|exact Hz].
  rewrite display_show_N. destruct (show_N_spec (m * 10 ^ Z.to_N e)%N) as [S1 S2].
  assert (E : Z.of_N (m * 10 ^ Z.to_N e) = (Z.of_N m * 10 ^ e)%Z) by (rewrite N2Z.inj_mul, N2Z.inj_pow, Z2N.id by lia; reflexivity).
  unfold z. destruct neg.
  - replace (-1 * Z.of_N m * 10 ^ e)%Z with (- number 10 (show_N (m * 10 ^ Z.to_N e)))%Z by (rewrite S2, E; lia).
    now constructor 3.
  - replace (1 * Z.of_N m * 10 ^ e)%Z with (number 10 (show_N (m * 10 ^ Z.to_N e)))%Z by (rewrite S2, E; lia).
    now constructor 1.
Qed.
Lemma reread_misread t : misread t -> need_quotes t = false -> reread (SString t) <> SString t.
Proof. intros M Q. cbn [reread]. rewrite Q. now apply misread_not_string. Qed.
