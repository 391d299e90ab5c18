(** Lemmas about values: types, accessors and indexing. *)
From Verif Require Import Base Tokens Scalar Yaml ScalarProofs.
From Coq Require Import String Lia.
Local Open Scope list_scope.

Lemma key_eqb_str y k : key_eqb y (key_from_str k) = true <-> y = YScalar (SString k).
Proof.
  destruct y as [|s| | | |]; cbn; try (split; discriminate).
  destruct s; cbn; try (split; discriminate). rewrite text_eqb_iff. split; congruence.
Qed.

Lemma find_key_spec k l n : find_key (key_from_str k) l = Some n ->
  exists l1 w l2, l = l1 ++ (YScalar (SString k), w) :: l2 /\ List.length l1 = n /\
    (forall w', ~ In (YScalar (SString k), w') l1).
Proof.
  revert n; induction l as [|[a b] l IH]; intros n H; [discriminate|]. cbn [find_key] in H.
  destruct (key_eqb a (key_from_str k)) eqn:E.
  - injection H; intros <-. apply key_eqb_str in E. subst. exists [], b, l. auto.
  - destruct (find_key (key_from_str k) l) as [m|] eqn:F; [|discriminate]. injection H; intros <-.
    destruct (IH m eq_refl) as (l1 & w & l2 & -> & <- & Hn). exists ((a, b) :: l1), w, l2.
    split; [reflexivity|]. split; [reflexivity|]. intros w' [X|X]; [|exact (Hn w' X)].
    injection X; intros <- ->. apply (proj2 (key_eqb_str _ k)) in H1 || idtac.
    rewrite (proj2 (key_eqb_str (YScalar (SString k)) k) eq_refl) in E. discriminate.
Qed.

Lemma find_key_here k l1 w l2 : (forall w', ~ In (YScalar (SString k), w') l1) ->
  find_key (key_from_str k) (l1 ++ (YScalar (SString k), w) :: l2) = Some (List.length l1).
Proof.
  induction l1 as [|[a b] l1 IH]; intros H; cbn [app find_key].
  - rewrite (proj2 (key_eqb_str (YScalar (SString k)) k) eq_refl). reflexivity.
  - destruct (key_eqb a (key_from_str k)) eqn:E.
    + apply key_eqb_str in E. subst. exfalso. apply (H b). left. reflexivity.
    + rewrite IH; [reflexivity|]. intros w' X. apply (H w'). right. exact X.
Qed.

Lemma set_nth_app {A} (l1 : list A) x l2 a : set_nth (l1 ++ x :: l2) (List.length l1) a = l1 ++ a :: l2.
Proof. induction l1 as [|y l1 IH]; cbn [app List.length set_nth]; [reflexivity|rewrite IH; reflexivity]. Qed.

Lemma nth_here {A} (l1 : list A) x l2 : nth_error (l1 ++ x :: l2) (List.length l1) = Some x.
Proof. rewrite nth_error_app2 by lia. rewrite Nat.sub_diag. reflexivity. Qed.

Lemma find_key_other k' l1 k0 w w' l2 :
  find_key (key_from_str k') (l1 ++ (k0, w) :: l2) = find_key (key_from_str k') (l1 ++ (k0, w') :: l2).
Proof.
  induction l1 as [|[a b] l1 IH]; cbn [app find_key]; [reflexivity|]. rewrite IH. reflexivity.
Qed.

Lemma nth_other {A} (l1 : list A) x y l2 n : n <> List.length l1 ->
  nth_error (l1 ++ x :: l2) n = nth_error (l1 ++ y :: l2) n.
Proof.
  revert n; induction l1 as [|z l1 IH]; intros [|n] H; cbn [app List.length nth_error] in *; auto; try lia.
Qed.

Lemma write_str l k v y' : index_mut_str (YMap l) k v = Ok y' ->
  index_str y' k = Ok v /\
  (forall k', k' <> k -> index_str y' k' = index_str (YMap l) k') /\
  exists l1 w l2, l = l1 ++ (YScalar (SString k), w) :: l2 /\
    y' = YMap (l1 ++ (YScalar (SString k), v) :: l2) /\
    index_str (YMap l) k = Ok w.
Proof.
  cbn [index_mut_str]. destruct (find_key (key_from_str k) l) as [n|] eqn:F; [|discriminate].
  destruct (find_key_spec k l n F) as (l1 & w & l2 & -> & <- & Hn).
  rewrite nth_here, set_nth_app. injection 1; intros <-.
  cbn [index_str]. rewrite (find_key_here k l1 v l2 Hn), nth_here.
  split; [reflexivity|]. split.
  - intros k' Hk. rewrite (find_key_other k' l1 _ w v l2).
    destruct (find_key (key_from_str k') (l1 ++ (YScalar (SString k), v) :: l2)) as [m|] eqn:F'; [|reflexivity].
    assert (m <> List.length l1).
    { intros ->. destruct (find_key_spec _ _ _ F') as (m1 & w1 & m2 & E & El & _).
      assert (X : nth_error (l1 ++ (YScalar (SString k), v) :: l2) (List.length l1) =
                  Some (YScalar (SString k'), w1)) by (rewrite E, <- El; apply nth_here).
      rewrite nth_here in X. congruence. }
    rewrite (nth_other l1 (YScalar (SString k), v) (YScalar (SString k), w) l2 m H0). reflexivity.
  - exists l1, w, l2. rewrite F, nth_here. auto.
Qed.

Lemma write_str_defined y k v :
  (exists y', index_mut_str y k v = Ok y') <-> (exists w, index_str y k = Ok w).
Proof.
  destruct y; cbn; try (split; intros [? ?]; discriminate).
  destruct (find_key (key_from_str k) l) as [n|] eqn:F; [|split; intros [? ?]; discriminate].
  destruct (find_key_spec k l n F) as (l1 & w & l2 & -> & <- & Hn). rewrite nth_here. split; eauto.
Qed.

Lemma set_nth_split {A} (l : list A) n a x : nth_error l n = Some x ->
  exists l1 l2, l = l1 ++ x :: l2 /\ List.length l1 = n /\ set_nth l n a = l1 ++ a :: l2.
Proof.
  intros H. destruct (nth_error_split l n H) as (l1 & l2 & -> & <-). exists l1, l2.
  rewrite set_nth_app. auto.
Qed.

Lemma write_seq l i v y' : index_mut_usize (YSeq l) i v = Ok y' ->
  index_usize y' i = Ok v /\
  (forall j, j <> i -> index_usize y' j = index_usize (YSeq l) j) /\
  exists l1 w l2, l = l1 ++ w :: l2 /\ N.of_nat (List.length l1) = i /\ y' = YSeq (l1 ++ v :: l2).
Proof.
  cbn [index_mut_usize]. destruct (Nat.ltb (N.to_nat i) (List.length l)) eqn:E; [|discriminate].
  apply Nat.ltb_lt in E. injection 1; intros <-.
  destruct (nth_error l (N.to_nat i)) as [x|] eqn:Ex; [|apply nth_error_None in Ex; lia].
  destruct (set_nth_split l _ v x Ex) as (l1 & l2 & -> & El & ->).
  cbn [index_usize]. unfold vec_index. rewrite <- El, nth_here. split; [reflexivity|]. split.
  - intros j Hj. rewrite (nth_other l1 v x l2 (N.to_nat j)); [reflexivity|]. lia.
  - exists l1, x, l2. split; auto. split; [lia|reflexivity].
Qed.

Lemma write_seq_defined l i v :
  (exists y', index_mut_usize (YSeq l) i v = Ok y') <-> (exists w, index_usize (YSeq l) i = Ok w).
Proof.
  cbn [index_mut_usize index_usize]. unfold vec_index. destruct (Nat.ltb (N.to_nat i) (List.length l)) eqn:E.
  - apply Nat.ltb_lt in E. destruct (nth_error l (N.to_nat i)) as [x|] eqn:Ex; [split; intros _; eexists; reflexivity|].
    apply nth_error_None in Ex. lia.
  - apply Nat.ltb_ge in E. apply nth_error_None in E. rewrite E. split; intros [? ?]; discriminate.
Qed.

(** Reading a mapping by an integer: the value of the first entry with that integer key. *)
Lemma key_eqb_int y z : key_eqb y (YScalar (SInt z)) = true <-> y = YScalar (SInt z).
Proof.
  destruct y as [|s| | | |]; cbn; try (split; discriminate).
  destruct s; cbn; try (split; discriminate). rewrite Z.eqb_eq. split; congruence.
Qed.
Lemma read_map_usize l i w : (Z.of_N i < 2 ^ 63)%Z ->
  (index_usize (YMap l) i = Ok w <->
   exists l1 l2, l = l1 ++ (YScalar (SInt (Z.of_N i)), w) :: l2 /\
     forall w', ~ In (YScalar (SInt (Z.of_N i)), w') l1).
Proof.
  intros Hi. cbn [index_usize].
  assert (E : key_from_usize i = YScalar (SInt (Z.of_N i))).
  { unfold key_from_usize, i64_max. change (2 ^ 63)%Z with 9223372036854775808%Z in Hi.
    destruct (Z.leb_spec (Z.of_N i) 9223372036854775807); [reflexivity|lia]. }
  rewrite E. set (z := Z.of_N i) in *. clearbody z. clear E Hi i. induction l as [|[a b] l IH]; cbn [find_key].
  - split; [discriminate|]. intros (l1 & l2 & X & _). destruct l1; discriminate.
  - destruct (key_eqb a (YScalar (SInt z))) eqn:Ea.
    + apply key_eqb_int in Ea. subst. cbn [nth_error]. split.
      * injection 1; intros <-. exists [], l. split; auto.
      * intros (l1 & l2 & X & Hn). destruct l1 as [|[c d] l1]; cbn [app] in X.
        -- congruence.
        -- injection X; intros -> <- <-. exfalso. apply (Hn b). left; reflexivity.
    + destruct (find_key (YScalar (SInt z)) l) as [n|]; cbn [option_map nth_error].
      * rewrite IH. split.
        -- intros (l1 & l2 & -> & Hn). exists ((a, b) :: l1), l2. split; [reflexivity|].
           intros w' [X|X]; [|exact (Hn w' X)]. injection X; intros -> ->.
           rewrite (proj2 (key_eqb_int (YScalar (SInt z)) z) eq_refl) in Ea. discriminate.
        -- intros (l1 & l2 & X & Hn). destruct l1 as [|[c d] l1]; cbn [app] in X.
           ++ injection X; intros -> -> ->.
              rewrite (proj2 (key_eqb_int (YScalar (SInt z)) z) eq_refl) in Ea. discriminate.
           ++ injection X; intros -> <- <-. exists l1, l2. split; auto.
              intros w' Y. apply (Hn w'). right; exact Y.
      * split; [discriminate|]. intros (l1 & l2 & X & Hn). destruct l1 as [|[c d] l1]; cbn [app] in X.
        -- injection X; intros -> -> ->.
           rewrite (proj2 (key_eqb_int (YScalar (SInt z)) z) eq_refl) in Ea. discriminate.
        -- injection X; intros -> <- <-. apply IH. exists l1, l2. split; auto.
           intros w' Y. apply (Hn w'). right; exact Y.
Qed.
