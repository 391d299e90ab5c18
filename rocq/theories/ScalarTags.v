(** Resolution of tagged and untagged scalars, in terms of the loaded value. *)
From Verif Require Import Base Tokens Scalar SpecScalar Yaml ScalarProofs.
From Coq Require Import String Lia.
Local Open Scope list_scope.

(** No digit. *)
Ltac nodig Q := exfalso; vm_compute in Q; intuition congruence.

Lemma untagged_plain t : value_from_cow_and_metadata t Plain None = YScalar (parse_from_cow t).
Proof. reflexivity. Qed.

Lemma quoted_is_string t style : style <> Plain ->
  value_from_cow_and_metadata t style None = YScalar (SString t).
Proof. destruct style; try congruence; reflexivity. Qed.

Lemma scalar_inj a b : YScalar a = YScalar b <-> a = b.
Proof. split; congruence. Qed.

Lemma decimal_notations t z : signed dec_digit 10 t z ->
  (i64_range z -> value_from_cow_and_metadata t Plain None = YScalar (SInt z)) /\
  (~ i64_range z -> forall z', value_from_cow_and_metadata t Plain None <> YScalar (SInt z')).
Proof.
  intros H. rewrite untagged_plain. split.
  - intros Hi. f_equal. apply core_dec_parse; auto.
  - intros Hi z' E. apply scalar_inj in E. assert (E' := E). apply parse_int_iff in E' as [[C|X] Hr].
    + inversion C as [t' z'' S|ds Hd|ds Hd]; subst.
      * rewrite (signed_unique _ _ _ H S) in Hi. auto.
      * exfalso. inversion H as [ds' [Q1 Q2] E1|ds' _ E1|ds' _ E1]; subst; try (vm_compute in E1; discriminate).
        apply Forall_inv_tail in Q2. apply Forall_inv in Q2. nodig Q2.
      * exfalso. inversion H as [ds' [Q1 Q2] E1|ds' _ E1|ds' _ E1]; subst; try (vm_compute in E1; discriminate).
        apply Forall_inv_tail in Q2. apply Forall_inv in Q2. nodig Q2.
    + exfalso. inversion X as [ds z'' S Hsh|ds z'' S Hsh|ds z'' S Hsh]; subst;
      inversion H as [ds' [Q1 Q2] E1|ds' [Q1 Q2] E1|ds' [Q1 Q2] E1]; subst;
      try (vm_compute in E1; discriminate).
      * apply Forall_inv in Q2. nodig Q2.
      * destruct Hsh as [r [-> | ->]];
        apply Forall_inv in Q2; nodig Q2.
      * apply Forall_inv_tail in Q2. apply Forall_inv in Q2. nodig Q2.
      * apply Forall_inv_tail in Q2. apply Forall_inv in Q2. nodig Q2.
Qed.

Lemma integers_survive z : i64_range z ->
  signed dec_digit 10 (show_Z z) z /\
  value_from_cow_and_metadata (show_Z z) Plain None = YScalar (SInt z).
Proof.
  intros H. pose proof (show_Z_signed z) as S. split; [exact S|].
  apply (decimal_notations _ _ S); exact H.
Qed.

Lemma hexadecimal ds : all_digits hex_digit ds ->
  (i64_range (number 16 ds) ->
   value_from_cow_and_metadata (str "0x" ++ ds) Plain None = YScalar (SInt (number 16 ds))) /\
  (~ i64_range (number 16 ds) ->
   forall z, value_from_cow_and_metadata (str "0x" ++ ds) Plain None <> YScalar (SInt z)).
Proof.
  intros H. rewrite untagged_plain. split.
  - intros Hi. f_equal. apply parse_int_iff. split; [left; constructor; exact H|exact Hi].
  - intros Hi z E. apply scalar_inj in E. apply parse_int_iff in E as [[C|X] Hr].
    + inversion C as [t' z'' S|ds' Hd E1|ds' Hd E1]; subst.
      * inversion S as [ds' [Q1 Q2] E1|ds' _ E1|ds' _ E1]; subst; try (vm_compute in E1; discriminate).
        apply Forall_inv_tail in Q2. apply Forall_inv in Q2. nodig Q2.
      * auto.
    + inversion X as [ds' z'' S Hsh E1|ds' z'' S Hsh E1|ds' z'' S Hsh E1]; subst; try (vm_compute in E1; discriminate).
      destruct H as [_ H]. destruct Hsh as [r [-> | ->]];
      apply Forall_inv in H; nodig H.
Qed.

Lemma octal ds : all_digits oct_digit ds ->
  (i64_range (number 8 ds) ->
   value_from_cow_and_metadata (str "0o" ++ ds) Plain None = YScalar (SInt (number 8 ds))) /\
  (~ i64_range (number 8 ds) ->
   forall z, value_from_cow_and_metadata (str "0o" ++ ds) Plain None <> YScalar (SInt z)).
Proof.
  intros H. rewrite untagged_plain. split.
  - intros Hi. f_equal. apply parse_int_iff. split; [left; constructor; exact H|exact Hi].
  - intros Hi z E. apply scalar_inj in E. apply parse_int_iff in E as [[C|X] Hr].
    + inversion C as [t' z'' S|ds' Hd E1|ds' Hd E1]; subst.
      * inversion S as [ds' [Q1 Q2] E1|ds' _ E1|ds' _ E1]; subst; try (vm_compute in E1; discriminate).
        apply Forall_inv_tail in Q2. apply Forall_inv in Q2. nodig Q2.
      * auto.
    + inversion X as [ds' z'' S Hsh E1|ds' z'' S Hsh E1|ds' z'' S Hsh E1]; subst; try (vm_compute in E1; discriminate).
      destruct H as [_ H]. destruct Hsh as [r [-> | ->]];
      apply Forall_inv in H; nodig H.
Qed.

Lemma null_spellings t : value_from_cow_and_metadata t Plain None = YScalar SNull <-> null_spelling t.
Proof.
  rewrite untagged_plain, scalar_inj, (parse_keyword_iff t SNull (or_introl eq_refl)).
  split; [intros [[_ H]|[b [H _]]]; [exact H|discriminate]|auto].
Qed.

Lemma bool_spellings t b :
  value_from_cow_and_metadata t Plain None = YScalar (SBool b) <-> bool_spelling t b.
Proof.
  rewrite untagged_plain, scalar_inj, (parse_keyword_iff t (SBool b)) by eauto.
  split; [intros [[H _]|[b' [H1 H2]]]; [discriminate|congruence]|eauto].
Qed.

Lemma integer_spellings t z :
  value_from_cow_and_metadata t Plain None = YScalar (SInt z) <->
  (core_int t z \/ extra_int t z) /\ i64_range z.
Proof. rewrite untagged_plain, scalar_inj. apply parse_int_iff. Qed.

Lemma plus_plus_is_integer :
  exists t z, value_from_cow_and_metadata t Plain None = YScalar (SInt z) /\ forall z', ~ core_int t z'.
Proof.
  exists (str "++5"), 5%Z. split; [vm_compute; reflexivity|].
  intros z' C. inversion C as [t' z'' S|ds' Hd E1|ds' Hd E1]; subst; try (vm_compute in E1; discriminate).
  inversion S as [ds' [Q1 Q2] E1|ds' [Q1 Q2] E1|ds' [Q1 Q2] E1]; subst.
  - apply Forall_inv in Q2. nodig Q2.
  - apply Forall_inv in Q2. nodig Q2.
Qed.

(** ** Tags *)

Lemma core_value t g name : core_tag g name ->
  value_from_cow_and_metadata t Plain (Some g) =
  match parse_core_tagged t (Tag (str "tag:yaml.org,2002:") name) with Some s => YScalar s | None => YBad end.
Proof.
  destruct g as [h s]. intros [H1 H2]. cbn [t_handle t_suffix] in *. subst.
  unfold value_from_cow_and_metadata, parse_from_cow_and_metadata.
  assert (E : is_yaml_core_schema (Tag (str "tag:yaml.org,2002:") name) = true)
    by (unfold is_yaml_core_schema; cbn [t_handle]; apply text_eqb_iff; reflexivity).
  rewrite E. cbn [negb is_plain]. reflexivity.
Qed.

Lemma int_tag t g : core_tag g (str "int") ->
  let y := value_from_cow_and_metadata t Plain (Some g) in
  (forall z, y = YScalar (SInt z) <-> signed dec_digit 10 t z /\ i64_range z) /\
  (y = YBad \/ exists z, y = YScalar (SInt z)).
Proof.
  intros H. cbv zeta. rewrite (core_value t g _ H).
  change (parse_core_tagged t (Tag (str "tag:yaml.org,2002:") (str "int"))) with (option_map SInt (parse_i64 t)).
  assert (Q : forall z, parse_i64 t = Some z <-> signed dec_digit 10 t z /\ i64_range z)
    by (intros z; apply (from_str_radix_iff 10 t z); auto).
  destruct (parse_i64 t) as [z|]; cbn [option_map].
  - split; [|right; eauto]. intros z'. rewrite <- Q. split; congruence.
  - split; [|left; reflexivity]. intros z'. rewrite <- Q. split; congruence.
Qed.

Lemma float_tag t g : core_tag g (str "float") ->
  let y := value_from_cow_and_metadata t Plain (Some g) in
  (forall f, y = YScalar (SFloat f) <-> denotes_float t f) /\
  (y = YBad \/ exists f, y = YScalar (SFloat f)).
Proof.
  intros H. cbv zeta. rewrite (core_value t g _ H).
  change (parse_core_tagged t (Tag (str "tag:yaml.org,2002:") (str "float")))
    with (option_map SFloat (parse_core_schema_fp t)).
  pose proof (parse_fp_iff t) as Q.
  destruct (parse_core_schema_fp t) as [z|]; cbn [option_map].
  - split; [|right; eauto]. intros z'. rewrite <- Q. split; congruence.
  - split; [|left; reflexivity]. intros z'. rewrite <- Q. split; congruence.
Qed.

Lemma bool_tag t g : core_tag g (str "bool") ->
  let y := value_from_cow_and_metadata t Plain (Some g) in
  (forall b, y = YScalar (SBool b) <-> t = (if b then str "true" else str "false")) /\
  (y = YBad \/ exists b, y = YScalar (SBool b)).
Proof.
  intros H. cbv zeta. rewrite (core_value t g _ H).
  change (parse_core_tagged t (Tag (str "tag:yaml.org,2002:") (str "bool"))) with
    (if text_eqb t (str "true") then Some (SBool true)
     else if text_eqb t (str "false") then Some (SBool false) else None).
  destruct (text_eqb t (str "true")) eqn:E1.
  - apply text_eqb_iff in E1. split; [|right; eauto]. intros b. destruct b; subst; split; try congruence; auto.
    intros X. vm_compute in X. discriminate.
  - destruct (text_eqb t (str "false")) eqn:E2.
    + apply text_eqb_iff in E2. split; [|right; eauto]. intros b. destruct b; subst; split; try congruence; auto.
      intros X. vm_compute in X. discriminate.
    + split; [|left; reflexivity]. intros b. split; [discriminate|].
      intros ->. destruct b; vm_compute in *; discriminate.
Qed.

Lemma null_tag t g : core_tag g (str "null") ->
  let y := value_from_cow_and_metadata t Plain (Some g) in
  (y = YScalar SNull <-> In t [[]; str "null"; str "~"]) /\ (y = YBad \/ y = YScalar SNull).
Proof.
  intros H. cbv zeta. rewrite (core_value t g _ H).
  change (parse_core_tagged t (Tag (str "tag:yaml.org,2002:") (str "null"))) with
    (if is_null_tagged t (Tag (str "tag:yaml.org,2002:") (str "null")) then Some SNull else None).
  assert (Q : is_null_tagged t (Tag (str "tag:yaml.org,2002:") (str "null")) = true <->
              In t [[]; str "null"; str "~"]).
  { unfold is_null_tagged.
    change (is_yaml_core_schema (Tag (str "tag:yaml.org,2002:") (str "null"))) with true. cbv iota.
    pose proof (text_eqb_iff t []) as E1. pose proof (text_eqb_iff t (str "null")) as E2.
    pose proof (text_eqb_iff t (str "~")) as E3. cbn [In].
    destruct (text_eqb t []); destruct (text_eqb t (str "null")); destruct (text_eqb t (str "~")); cbn [orb];
      intuition (subst; auto; try congruence; try discriminate). }
  destruct (is_null_tagged t _).
  - split; [|right; reflexivity]. rewrite <- Q. tauto.
  - split; [|left; reflexivity]. rewrite <- Q. split; congruence.
Qed.

Lemma str_tag t style g : core_tag g (str "str") ->
  value_from_cow_and_metadata t style (Some g) = YScalar (SString t).
Proof.
  intros H. destruct style; try (rewrite (core_value t g _ H); reflexivity);
  destruct g as [h s]; destruct H as [H1 H2]; cbn [t_handle t_suffix] in *; subst;
  unfold value_from_cow_and_metadata;
  change (is_yaml_core_schema (Tag (str "tag:yaml.org,2002:") (str "str"))) with true; reflexivity.
Qed.

Lemma unknown_core_tag t g name : core_tag g name ->
  ~ In name [str "int"; str "float"; str "bool"; str "null"; str "str"] ->
  value_from_cow_and_metadata t Plain (Some g) = YBad.
Proof.
  intros H Hn. rewrite (core_value t g _ H). unfold parse_core_tagged. cbn [t_suffix].
  assert (Q : forall s, In s [str "int"; str "float"; str "bool"; str "null"; str "str"] -> text_eqb name s = false).
  { intros s Hs. destruct (text_eqb name s) eqn:E; auto. apply text_eqb_iff in E. subst. tauto. }
  rewrite !Q by (cbn [In]; tauto). reflexivity.
Qed.

Lemma other_tag t style g : t_handle g <> str "tag:yaml.org,2002:" ->
  value_from_cow_and_metadata t style (Some g) =
  YTagged g (value_from_cow_and_metadata t style None).
Proof.
  intros H. unfold value_from_cow_and_metadata.
  assert (E : is_yaml_core_schema g = false).
  { unfold is_yaml_core_schema. destruct (text_eqb _ _) eqn:E; auto. apply text_eqb_iff in E. congruence. }
  rewrite E. reflexivity.
Qed.

Lemma float_spellings t f :
  value_from_cow_and_metadata t Plain None = YScalar (SFloat f) <->
  denotes_float t f /\ ~ (exists z, signed dec_digit 10 t z /\ i64_range z).
Proof. rewrite untagged_plain, scalar_inj. apply parse_float_iff. Qed.

Lemma everything_else t :
  (~ null_spelling t) -> (forall b, ~ bool_spelling t b) -> (forall z, ~ core_int t z /\ ~ extra_int t z) ->
  (forall f, ~ denotes_float t f) ->
  value_from_cow_and_metadata t Plain None = YScalar (SString t).
Proof.
  intros H1 H2 H3 H4. rewrite untagged_plain. f_equal.
  destruct (parse_from_cow t) as [|u|b|f|z] eqn:E.
  - exfalso. apply H1. apply null_spellings. rewrite untagged_plain, E. reflexivity.
  - f_equal. apply (parse_string_exact _ _ E).
  - exfalso. apply (H2 b). apply bool_spellings. rewrite untagged_plain, E. reflexivity.
  - exfalso. apply (H4 f). apply parse_float_iff in E. tauto.
  - exfalso. apply parse_int_iff in E. destruct (H3 z). tauto.
Qed.
