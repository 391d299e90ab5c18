(** Comparing, copying and converting values; nodes with their place. *)
From Verif Require Import Base Tokens Scalar Yaml Values SpecEqual ParserProofs EmitterProofs.

Lemma scalar_same feq a b :
  scalar_eqb feq a b = true <-> same (fun f g => feq f g = true) (YScalar a) (YScalar b).
Proof.
  destruct a, b; cbn [scalar_eqb];
    (split; [intros H|intros H; inversion H; subst]);
    try discriminate; try reflexivity; try constructor; try assumption.
  - apply text_eqb_eq in H. subst. constructor.
  - apply text_eqb_refl.
  - apply Bool.eqb_prop in H. subst. constructor.
  - apply Bool.eqb_reflx.
  - apply Z.eqb_eq in H. subst. constructor.
  - apply Z.eqb_refl.
Qed.
Lemma tag_same a b : tag_eqb a b = true <-> a = b.
Proof.
  destruct a as [h s], b as [h' s']. unfold tag_eqb. cbn [t_handle t_suffix].
  rewrite andb_true_iff, !text_eqb_eq. split; [intros [-> ->]; reflexivity|intros E; injection E; auto].
Qed.
Lemma vec_same {A} (eqb : A -> A -> bool) (R : A -> A -> Prop) l :
  Forall (fun a => forall b, eqb a b = true <-> R a b) l ->
  forall m, vec_eqb eqb l m = true <-> Forall2 R l m.
Proof.
  induction 1 as [|a l Ha _ IH]; intros [|b m]; cbn [vec_eqb];
    try (split; [discriminate|intros H; inversion H]).
  - split; [intros _; constructor|reflexivity].
  - rewrite andb_true_iff, Ha, IH. split.
    + intros [P Q]. constructor; assumption.
    + intros H. inversion H; subst. split; assumption.
Qed.
Theorem equal_same feq a b : yaml_eqb feq a b = true <-> same (fun f g => feq f g = true) a b.
Proof.
  revert b. induction a as [| v | id | l IH | l IH | t y IH] using yaml_induction; intros b.
  - destruct b; cbn [yaml_eqb]; (split; [intros H|intros H; inversion H]);
      try discriminate; try reflexivity; constructor.
  - destruct b; cbn [yaml_eqb]; try (split; [discriminate|intros H; inversion H]).
    apply scalar_same.
  - destruct b; cbn [yaml_eqb]; try (split; [discriminate|intros H; inversion H]).
    rewrite Nat.eqb_eq. split; [intros ->; constructor|intros H; inversion H; reflexivity].
  - destruct b as [| | m | | |]; cbn [yaml_eqb]; try (split; [discriminate|intros H; inversion H]).
    rewrite (vec_same _ (same (fun f g => feq f g = true)) l IH).
    split; [apply same_seq|intros H; inversion H; assumption].
  - destruct b as [| | | m | |]; cbn [yaml_eqb]; try (split; [discriminate|intros H; inversion H]).
    rewrite (vec_same _ (fun p q => same (fun f g => feq f g = true) (fst p) (fst q) /\
                                   same (fun f g => feq f g = true) (snd p) (snd q)) l).
    + split; [apply same_map|intros H; inversion H; assumption].
    + revert IH. apply Forall_impl. intros p [P Q] q. now rewrite andb_true_iff, P, Q.
  - destruct b; cbn [yaml_eqb]; try (split; [discriminate|intros H; inversion H]).
    rewrite andb_true_iff, tag_same, IH. split.
    + intros [-> H]. constructor. exact H.
    + intros H. inversion H; subst. split; [reflexivity|assumption].
Qed.

Lemma same_symmetric (R : fl -> fl -> Prop) a b : (forall f g, R f g -> R g f) -> same R a b -> same R b a.
Proof.
  intros S. revert b. induction a as [| v | id | l IH | l IH | t y IH] using yaml_induction;
    intros b H; inversion H; subst; try (constructor; auto; fail).
  - constructor. clear H.
    match goal with H : Forall2 _ l _ |- _ => revert IH; induction H end; intros IH; inversion IH; subst;
      constructor; auto.
  - constructor. clear H.
    match goal with H : Forall2 _ l _ |- _ => revert IH; induction H as [|p q l m [P Q] _ IHl] end;
      intros IH; inversion IH as [|? ? [I J] K]; subst; constructor; auto.
Qed.
Lemma same_transitive (R : fl -> fl -> Prop) a b c :
  (forall f g h, R f g -> R g h -> R f h) -> same R a b -> same R b c -> same R a c.
Proof.
  intros T. revert b c. induction a as [| v | id | l IH | l IH | t y IH] using yaml_induction;
    intros b c H K; inversion H; subst; inversion K; subst; try (constructor; eauto; fail).
  - constructor. clear H K.
    match goal with H : Forall2 _ l ?m, K : Forall2 _ ?m ?n |- _ => revert n K IH; induction H end;
      intros n K IH; inversion K; subst; inversion IH; subst; constructor; eauto.
  - constructor. clear H K.
    match goal with H : Forall2 _ l ?m, K : Forall2 _ ?m ?n |- _ =>
      revert n K IH; induction H as [|p q l m [P Q] _ IHl] end;
      intros n K IH; inversion K as [|? ? ? ? [P' Q'] ?]; subst; inversion IH as [|? ? [I J] ?]; subst;
      constructor; eauto.
Qed.
Lemma same_reflexive (R : fl -> fl -> Prop) a : same R a a <-> floats (fun f => R f f) a.
Proof.
  induction a as [| v | id | l IH | l IH | t y IH] using yaml_induction.
  - split; constructor.
  - split.
    + intros H. constructor. intros f ->. inversion H. assumption.
    + intros H. inversion H as [|s F E| | | |]; subst. destruct v; try constructor. now apply F.
  - split; constructor.
  - split; intros H; inversion H; subst; constructor.
    + match goal with H : Forall2 _ l l |- _ => rename H into F end. clear H.
      apply Forall_forall. intros x I. rewrite Forall_forall in IH. apply (IH x I).
      clear IH. assert (D : forall A (P : A -> A -> Prop) m, Forall2 P m m -> forall x, In x m -> P x x).
      { clear. induction m as [|a m IHm]; intros F x I; [destruct I|].
        inversion F; subst. destruct I as [->|I]; [assumption|now apply IHm]. }
      exact (D _ _ _ F x I).
    + match goal with H : Forall _ l |- _ => revert IH; induction H end; intros IH; inversion IH; subst;
        constructor; [tauto|auto].
      apply IHForall; [constructor|]; assumption.
  - split; intros H; inversion H; subst; constructor.
    + match goal with H : Forall2 _ l l |- _ => rename H into F end. clear H.
      apply Forall_forall. intros x I. rewrite Forall_forall in IH.
      assert (D : forall A (P : A -> A -> Prop) m, Forall2 P m m -> forall x, In x m -> P x x).
      { clear. induction m as [|a m IHm]; intros F x I; [destruct I|].
        inversion F; subst. destruct I as [->|I]; [assumption|now apply IHm]. }
      destruct (D _ _ _ F x I) as [P Q]. destruct (IH x I) as [P' Q']. split; [now apply P'|now apply Q'].
    + match goal with H : Forall _ l |- _ => revert IH; rename H into F end. clear H.
      induction F as [|p l [P Q] _ IHl]; intros IH; inversion IH as [|? ? [I J] ?]; subst;
        constructor; [tauto|auto].
  - split; intros H; inversion H; subst; constructor; tauto.
Qed.

Lemma clone_id y : clone y = y.
Proof.
  induction y as [| v | id | l IH | l IH | t y IH] using yaml_induction; cbn [clone]; try reflexivity.
  - now destruct v.
  - f_equal. induction IH as [|a l E _ IHl]; [reflexivity|]. cbn [map]. now rewrite E, IHl.
  - f_equal. induction IH as [|[a b] l [E F] _ IHl]; [reflexivity|]. cbn [map fst snd] in *.
    now rewrite E, F, IHl.
  - rewrite IH. now destruct t.
Qed.
Lemma key_eqb_same feq x ind : (exists z, ind = YScalar (SInt z)) \/ (exists t, ind = YScalar (SString t)) ->
  key_eqb x ind = yaml_eqb feq x ind.
Proof. intros [[z ->]|[t ->]]; destruct x as [|[]| | | |]; reflexivity. Qed.

(** ** Nodes with their place *)
Fixpoint snode_induction (P : snode -> Prop)
  (Hb : forall sp, P (SNode sp DBad)) (Hs : forall sp s, P (SNode sp (DScalar s)))
  (Hl : forall sp l, Forall P l -> P (SNode sp (DSeq l)))
  (Hm : forall sp l, Forall (fun p => P (fst p) /\ P (snd p)) l -> P (SNode sp (DMap l)))
  (Ht : forall sp t n, P n -> P (SNode sp (DTagged t n)))
  (Ha : forall sp i, P (SNode sp (DAlias i))) (n : snode) : P n :=
  let rec := snode_induction P Hb Hs Hl Hm Ht Ha in
  match n with
  | SNode sp d =>
      match d with
      | DBad => Hb sp
      | DScalar s => Hs sp s
      | DSeq l =>
          Hl sp l ((fix go l : Forall P l :=
            match l with [] => Forall_nil _ | a :: l => Forall_cons a (rec a) (go l) end) l)
      | DMap l =>
          Hm sp l ((fix go l : Forall (fun p => P (fst p) /\ P (snd p)) l :=
            match l with
            | [] => Forall_nil _
            | p :: l => Forall_cons p (conj (rec (fst p)) (rec (snd p))) (go l)
            end) l)
      | DTagged t x => Ht sp t x (rec x)
      | DAlias i => Ha sp i
      end
  end.
Lemma sn_clone_id n : sn_clone n = n.
Proof.
  induction n as [sp|sp s|sp l IH|sp l IH|sp t n IH|sp i] using snode_induction; cbn [sn_clone];
    try reflexivity.
  - now destruct s.
  - f_equal. f_equal. induction IH as [|a l E _ IHl]; [reflexivity|]. cbn [map]. now rewrite E, IHl.
  - f_equal. f_equal. induction IH as [|[a b] l [E F] _ IHl]; [reflexivity|]. cbn [map fst snd] in *.
    now rewrite E, F, IHl.
  - rewrite IH. now destruct t.
Qed.
Lemma spanned_reads n :
  sn_get_type n = get_type (forget n) /\
  sn_is_non_empty_collection n = is_non_empty_collection (forget n) /\
  sn_as_bool n = as_bool (forget n) /\
  sn_as_i64 n = as_i64 (forget n) /\
  sn_as_f64 n = as_f64 (forget n) /\
  sn_as_str n = as_str (forget n) /\
  option_map (map forget) (sn_as_sequence n) = as_sequence (forget n) /\
  option_map forget_pairs (sn_as_mapping n) = as_mapping (forget n) /\
  sn_into_sequence n = sn_as_sequence n /\
  sn_into_mapping n = sn_as_mapping n /\
  (forall l, sn_sequence n = Ok l <-> sn_as_sequence n = Some l) /\
  (forall l, sn_mapping n = Ok l <-> sn_as_mapping n = Some l) /\
  (sn_sequence n = Panic <-> sn_as_sequence n = None) /\
  (sn_mapping n = Panic <-> sn_as_mapping n = None) /\
  sn_get_tag n = get_tag (forget n).
Proof.
  destruct n as [sp [|s|l|l|t x|i]]; [|destruct s|destruct l|destruct l| |];
    repeat match goal with |- _ /\ _ => split end; try reflexivity; intros;
    unfold sn_sequence, sn_as_sequence, sn_mapping, sn_as_mapping; cbn [sn_data];
    split; congruence.
Qed.
Lemma spanned_makes n t :
  forget (sn_into_tagged n t) = into_tagged (forget n) t /\ sn_span (sn_into_tagged n t) = sn_span n /\
  (forall i, forget (sn_key_from_usize i) = key_from_usize i) /\
  (forall k, forget (sn_key_from_str k) = key_from_str k) /\
  forget sn_null = YScalar SNull /\
  (forall sp, forget (sn_bad_span_value sp) = YBad /\ sn_span (sn_bad_span_value sp) = sp) /\
  sn_clone n = n /\
  fst (sn_take n) = n /\ forget (snd (sn_take n)) = YBad.
Proof. repeat split. apply sn_clone_id. Qed.
Lemma spanned_writes n n' :
  (forall b, sn_set_bool n b = Some n' -> sn_span n' = sn_span n /\ set_bool (forget n) b = Some (forget n')) /\
  (forall z, sn_set_i64 n z = Some n' -> sn_span n' = sn_span n /\ set_i64 (forget n) z = Some (forget n')) /\
  (forall f, sn_set_f64 n f = Some n' -> sn_span n' = sn_span n /\ set_f64 (forget n) f = Some (forget n')) /\
  (forall l, sn_set_sequence n l = Some n' ->
     sn_span n' = sn_span n /\ set_sequence (forget n) (map forget l) = Some (forget n')) /\
  (forall l, sn_set_mapping n l = Some n' ->
     sn_span n' = sn_span n /\ set_mapping (forget n) (forget_pairs l) = Some (forget n')).
Proof.
  destruct n as [sp [|s|l|l|t x|i]]; [|destruct s| | | |]; repeat split; intros;
    match goal with H : _ = Some _ |- _ => first [discriminate H | injection H; intros <-; reflexivity] end.
Qed.

(** ** Converting and writing *)
Lemma conversions :
  (forall t, into_string (from_str t) = Some t /\ as_str (from_str t) = Some t) /\
  (forall b, into_bool (from_bool b) = Some b) /\
  (forall f, into_f64 (from_float f) = Some f) /\
  (forall z, into_i64 (from_int z) = Some z) /\
  (forall l, into_sequence (from_vec l) = Some l /\ sequence (from_vec l) = Ok l).
Proof. repeat split. Qed.
Lemma conversions_back y :
  (forall t, into_string y = Some t <-> y = from_str t) /\
  (forall b, into_bool y = Some b <-> y = from_bool b) /\
  (forall f, into_f64 y = Some f <-> y = from_float f) /\
  (forall z, into_i64 y = Some z <-> y = from_int z) /\
  (forall l, into_sequence y = Some l <-> y = from_vec l) /\
  (forall l, into_mapping y = Some l <-> y = YMap l).
Proof.
  destruct y as [|s| | | |]; [|destruct s| | | |]; repeat split; intros H;
    first [discriminate H | injection H; intros <-; reflexivity].
Qed.
Lemma writes y y' :
  (forall b, set_bool y b = Some y' <-> (exists c, as_bool y = Some c) /\ y' = YScalar (SBool b)) /\
  (forall z, set_i64 y z = Some y' <-> (exists c, as_i64 y = Some c) /\ y' = YScalar (SInt z)) /\
  (forall f, set_f64 y f = Some y' <-> (exists c, as_f64 y = Some c) /\ y' = YScalar (SFloat f)) /\
  (forall t, set_str y t = Some y' <->
     (exists s, as_str y = Some s /\ List.length s = List.length t) /\ y' = YScalar (SString t)) /\
  (forall l, set_sequence y l = Some y' <-> (exists c, as_sequence y = Some c) /\ y' = YSeq l) /\
  (forall l, set_mapping y l = Some y' <-> (exists c, as_mapping y = Some c) /\ y' = YMap l).
Proof.
  destruct y as [|s| | | |]; [|destruct s| | | |]; repeat split; intros;
    repeat match goal with
           | H : exists _, _ |- _ => destruct H
           | H : _ /\ _ |- _ => destruct H
           end; subst; try discriminate; cbn in *; eauto; try congruence.
  - destruct (Nat.eqb_spec (List.length t) (List.length t0)); [eauto|discriminate].
  - destruct (Nat.eqb_spec (List.length t) (List.length t0)); congruence.
  - match goal with H : Some _ = Some _ |- _ => injection H; intros -> end.
    match goal with H : List.length _ = _ |- _ => now rewrite H, Nat.eqb_refl end.
Qed.
