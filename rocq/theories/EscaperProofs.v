(** Lemmas about the escaper and the expansion limits. *)
From Verif Require Import Base Tokens Escaper SpecEscaper Lazy SpecLazy.
From Coq Require Import String Lia ZifyBool ZifyN ZifyNat.
Local Open Scope list_scope.

(** What a pair of closures must satisfy to implement [S]. *)
Definition implements (f : N -> bool) (m : text -> control) (S : text -> text) : Prop :=
  S [] = [] /\
  (forall c r, f c = false -> S (c :: r) = c :: S r) /\
  (forall c r, f c = true ->
     match m (c :: r) with
     | Append st b => st = 1 /\ S (c :: r) = b ++ S r
     | Skip n => n = 2 /\ exists d r', r = d :: r' /\ S (c :: r) = c :: d :: S r'
     | Break => False
     end).

Lemma position_spec f t :
  match position f t with
  | None => forall c, In c t -> f c = false
  | Some k => exists a c r, t = a ++ c :: r /\ List.length a = k /\ f c = true /\ (forall x, In x a -> f x = false)
  end.
Proof.
  induction t as [|c t IH]; cbn [position]; [intros c []|].
  destruct (f c) eqn:E.
  - exists [], c, t. split; [reflexivity|]. split; [reflexivity|]. split; [exact E|intros x []].
  - destruct (position f t) as [k|]; cbn [option_map].
    + destruct IH as (a & d & r & -> & <- & Hd & Ha). exists (c :: a), d, r.
      split; [reflexivity|]. split; [reflexivity|]. split; [exact Hd|].
      intros x [<-|X]; auto.
    + intros x [<-|X]; auto.
Qed.

Lemma clean_app f m S a : implements f m S -> (forall x, In x a -> f x = false) ->
  forall r, S (a ++ r) = a ++ S r.
Proof.
  intros (_ & H1 & _). induction a as [|c a IH]; intros Ha r; [reflexivity|]. cbn [app].
  rewrite H1 by (apply Ha; left; reflexivity). rewrite IH; [reflexivity|].
  intros x X; apply Ha; right; exact X.
Qed.

Lemma skipn_at {A} (a b : list A) n : n = List.length a -> skipn n (a ++ b) = b.
Proof.
  intros ->. rewrite skipn_app, skipn_all, Nat.sub_diag. reflexivity.
Qed.

Lemma next_spec f m S fuel : implements f m S -> forall done rest pos,
  pos = List.length done -> List.length rest < fuel ->
  exists sk r', rest = sk ++ r' /\ S rest = sk ++ S r' /\
    match escape_next fuel f m (done ++ rest) pos with
    | Ok (_, None) => r' = []
    | Ok (pos', Some (p, st, b)) => exists c r, r' = c :: r /\ S r' = b ++ S r /\
        p = pos + List.length sk /\ st = 1 /\ pos' = p + 1
    | _ => False
    end.
Proof.
  intros HS. induction fuel as [|fuel IH]; intros done rest pos Hp Hl; [lia|]. cbn [escape_next].
  destruct (Nat.ltb_spec (List.length (done ++ rest)) pos) as [L|L]; [rewrite app_length in L; lia|].
  rewrite (skipn_at done rest pos Hp). pose proof (position_spec f rest) as HP.
  destruct (position f rest) as [k|].
  - destruct HP as (a & c & r & -> & <- & Hc & Ha).
    replace (done ++ a ++ c :: r) with ((done ++ a) ++ c :: r) by (rewrite <- app_assoc; reflexivity).
    rewrite (skipn_at (done ++ a) (c :: r)) by (rewrite app_length; lia).
    pose proof (clean_app f m S a HS Ha) as HC.
    destruct HS as (S0 & S1 & S2). pose proof (S2 c r Hc) as HM.
    destruct (m (c :: r)) as [n|st b|].
    + destruct HM as (-> & d & r' & -> & HE).
      rewrite app_length in Hl. cbn [List.length] in Hl.
      destruct (IH (done ++ a ++ [c; d]) r' (pos + (2 + List.length a))) as (sk & r2 & -> & E2 & H2).
      { rewrite !app_length. cbn [List.length]. lia. }
      { lia. }
      exists (a ++ c :: d :: sk), r2. split; [rewrite <- app_assoc; reflexivity|]. split.
      * rewrite HC, HE, E2, <- app_assoc. reflexivity.
      * replace ((done ++ a) ++ c :: d :: sk ++ r2) with ((done ++ a ++ [c; d]) ++ sk ++ r2)
          by (rewrite <- !app_assoc; reflexivity).
        destruct (escape_next fuel f m ((done ++ a ++ [c; d]) ++ sk ++ r2) (pos + (2 + List.length a)))
          as [[pos' [[[p st] b]|]]| | | |]; auto.
        destruct H2 as (c' & r3 & -> & E3 & -> & -> & ->). exists c', r3.
        rewrite app_length. cbn [List.length]. repeat split; auto; lia.
    + destruct HM as (-> & HE). exists a, (c :: r). split; [reflexivity|]. split; [apply HC|].
      exists c, r. repeat split; auto.
    + destruct HM.
  - exists rest, []. rewrite app_nil_r. split; [reflexivity|]. split; [|reflexivity].
    pose proof (clean_app f m S rest HS HP []) as X. rewrite app_nil_r in X. rewrite X. reflexivity.
Qed.

Lemma loop_spec f m S fuel : implements f m S -> forall (done pend rest : text) (esc : option text) (e : text),
  List.length rest < fuel ->
  (esc = Some e \/ (esc = None /\ e = [] /\ done = [])) ->
  match escape_loop fuel f m (done ++ pend ++ rest) (List.length (done ++ pend)) (List.length done) esc with
  | Ok (old, Some e') => e' ++ skipn old (done ++ pend ++ rest) = e ++ pend ++ S rest
  | Ok (_, None) => done ++ pend ++ rest = e ++ pend ++ S rest
  | _ => False
  end.
Proof.
  intros HS. induction fuel as [|fuel IH]; intros done pend rest esc e Hl He; [lia|]. cbn [escape_loop].
  set (raw := done ++ pend ++ rest).
  destruct (next_spec f m S (Datatypes.S (List.length raw)) HS (done ++ pend) rest (List.length (done ++ pend)) eq_refl)
    as (sk & r' & -> & ES & HN).
  { unfold raw. rewrite !app_length. lia. }
  rewrite <- app_assoc in HN. fold raw in HN.
  destruct (escape_next (Datatypes.S (List.length raw)) f m raw (List.length (done ++ pend)))
    as [[pos' [[[p st] b]|]]| | | |]; try (destruct HN; fail).
  - destruct HN as (c & r & -> & ER & -> & -> & ->).
    assert (HSl : slice raw (List.length done) (List.length (done ++ pend) + List.length sk) = Ok (pend ++ sk)).
    { unfold slice. rewrite (app_length done pend).
      assert (HL : List.length raw = List.length done + List.length pend + List.length sk + Datatypes.S (List.length r)).
      { unfold raw. rewrite !app_length. cbn [List.length]. lia. }
      destruct (Nat.leb_spec (List.length done) (List.length done + List.length pend + List.length sk)) as [L1|L1]; [|lia].
      destruct (Nat.leb_spec (List.length done + List.length pend + List.length sk) (List.length raw)) as [L2|L2]; [|lia].
      cbn [andb]. unfold raw. rewrite (skipn_at done) by reflexivity.
      replace (List.length done + List.length pend + List.length sk - List.length done)
        with (List.length (pend ++ sk)) by (rewrite app_length; lia).
      replace (pend ++ sk ++ c :: r) with ((pend ++ sk) ++ c :: r) by (rewrite <- app_assoc; reflexivity).
      rewrite firstn_app, Nat.sub_diag, firstn_all. cbn [firstn]. rewrite app_nil_r. reflexivity. }
    rewrite HSl. rewrite (app_length done pend).
    match goal with |- context [Some (?x ++ (pend ++ sk) ++ b)] =>
      replace x with e by (destruct He as [->|(-> & -> & _)]; reflexivity) end.
    specialize (IH (done ++ pend ++ sk ++ [c]) [] r (Some (e ++ (pend ++ sk) ++ b)) (e ++ (pend ++ sk) ++ b)).
    cbn [app] in IH. rewrite app_nil_r in IH.
    replace (done ++ pend ++ sk ++ [c]) with ((done ++ pend ++ sk) ++ [c]) in IH by (rewrite <- !app_assoc; reflexivity).
    replace (((done ++ pend ++ sk) ++ [c]) ++ r) with raw in IH by (unfold raw; rewrite <- !app_assoc; reflexivity).
    replace (List.length ((done ++ pend ++ sk) ++ [c]))
      with (List.length done + List.length pend + List.length sk + 1) in IH
      by (rewrite !app_length; cbn [List.length]; lia).
    assert (Q : List.length r < fuel) by (rewrite app_length in Hl; cbn [List.length] in Hl; lia).
    specialize (IH Q (or_introl eq_refl)).
    destruct (escape_loop fuel f m raw _ _ (Some (e ++ (pend ++ sk) ++ b))) as [[old [e'|]]| | | |]; auto.
    + etransitivity; [exact IH|]. rewrite ES, ER, <- !app_assoc. reflexivity.
    + rewrite ES, ER. rewrite <- !app_assoc in *. exact IH.
  - subst r'. assert (S0 : S [] = []) by apply HS. rewrite S0, app_nil_r in ES.
    destruct He as [->|(-> & -> & ->)].
    + unfold raw. rewrite (skipn_at done) by reflexivity. rewrite app_nil_r, ES. reflexivity.
    + unfold raw. cbn [app]. rewrite app_nil_r, ES. reflexivity.
Qed.

Lemma escape_spec f m S raw : implements f m S -> escape raw f m = Ok (S raw).
Proof.
  intros HS. unfold escape.
  pose proof (loop_spec f m S (Datatypes.S (List.length raw)) HS [] [] raw None [] (le_n _)
                (or_intror (conj eq_refl (conj eq_refl eq_refl)))) as H.
  cbn [app List.length] in H.
  destruct (escape_loop _ f m raw 0 0 None) as [[old [e'|]]| | | |]; try (destruct H; fail).
  - rewrite H. reflexivity.
  - rewrite <- H. reflexivity.
Qed.

Lemma single_implements : implements single_find single_match single_spec.
Proof.
  unfold implements, single_find, single_match, single_spec. split; [reflexivity|]. split.
  - intros c r H. cbn [flat_map]. unfold esc_byte.
    destruct (N.eqb c 9); [discriminate|]. destruct (N.eqb c 92); [discriminate|].
    destruct (N.eqb c 10); [discriminate|]. destruct (N.eqb c 13); [discriminate|]. reflexivity.
  - intros c r H. cbn [flat_map]. unfold esc_byte.
    destruct (N.eqb c 13) eqn:E13.
    { split; [reflexivity|]. assert (c = 13)%N by lia. subst. reflexivity. }
    destruct (N.eqb c 9) eqn:E9; [split; reflexivity|].
    destruct (N.eqb c 10) eqn:E10; [split; reflexivity|].
    destruct (N.eqb c 92) eqn:E92; [split; reflexivity|]. discriminate.
Qed.

Lemma plain_implements : implements plain_find plain_match plain_spec.
Proof.
  unfold implements, plain_find, plain_match. split; [reflexivity|]. split.
  - intros c r H. cbn [plain_spec]. unfold esc_byte.
    destruct (N.eqb c 9); [discriminate|]. destruct (N.eqb c 92); [discriminate|].
    destruct (N.eqb c 10); [discriminate|]. cbn [andb].
    destruct (N.eqb c 13); destruct r; reflexivity.
  - intros c r H. cbn [plain_spec]. unfold esc_byte.
    destruct (N.eqb c 92) eqn:E92; cbn [andb].
    + assert (c = 92)%N by lia. subst. cbn [N.eqb Pos.eqb].
      destruct r as [|b r].
      * split; [reflexivity|]. reflexivity.
      * destruct (N.eqb b 116 || N.eqb b 114)%bool eqn:Eb; cbn [andb].
        -- split; [reflexivity|]. exists b, r. auto.
        -- split; reflexivity.
    + destruct (N.eqb c 13) eqn:E13; [exfalso; lia|].
      destruct (N.eqb c 9) eqn:E9; [split; [reflexivity|destruct r; reflexivity]|].
      destruct (N.eqb c 10) eqn:E10; [split; [reflexivity|destruct r; reflexivity]|]. discriminate.
Qed.

Lemma single_escape t : escape_single_quotes t = Ok (single_spec t).
Proof. apply escape_spec, single_implements. Qed.
Lemma plain_escape t : escape_plain t = Ok (plain_spec t).
Proof. apply escape_spec, plain_implements. Qed.

(** ** Unchanged texts *)

Lemma single_unchanged t : Forall (fun c => ~ special_single c) t -> single_spec t = t.
Proof.
  unfold single_spec. induction 1 as [|c t Hc _ IH]; [reflexivity|]. cbn [flat_map]. rewrite IH.
  unfold esc_byte. unfold special_single, special_plain in Hc.
  destruct (N.eqb_spec c 9); [tauto|]. destruct (N.eqb_spec c 10); [tauto|].
  destruct (N.eqb_spec c 13); [tauto|]. destruct (N.eqb_spec c 92); [tauto|]. reflexivity.
Qed.

Lemma plain_unchanged t : Forall (fun c => ~ special_plain c) t -> plain_spec t = t.
Proof.
  induction 1 as [|c t Hc _ IH]; [reflexivity|].
  destruct plain_implements as (_ & H & _). rewrite H, IH; [reflexivity|].
  unfold plain_find, special_plain in *. lia.
Qed.

(** ** Reversibility *)

Lemma esc_byte_cases c : (special_single c /\ exists d, esc_byte c = [92%N; d]) \/ (~ special_single c /\ esc_byte c = [c]).
Proof.
  unfold esc_byte, special_single, special_plain.
  destruct (N.eqb_spec c 9); [left; split; [tauto|eauto]|]. destruct (N.eqb_spec c 10); [left; split; [tauto|eauto]|].
  destruct (N.eqb_spec c 13); [left; split; [tauto|eauto]|]. destruct (N.eqb_spec c 92); [left; split; [tauto|eauto]|].
  right. split; [tauto|reflexivity].
Qed.

Lemma esc_byte_prefix c1 c2 r1 r2 : esc_byte c1 ++ r1 = esc_byte c2 ++ r2 -> c1 = c2 /\ r1 = r2.
Proof.
  unfold esc_byte.
  destruct (N.eqb_spec c1 9); [|destruct (N.eqb_spec c1 10); [|destruct (N.eqb_spec c1 13); [|destruct (N.eqb_spec c1 92)]]];
  (destruct (N.eqb_spec c2 9); [|destruct (N.eqb_spec c2 10); [|destruct (N.eqb_spec c2 13); [|destruct (N.eqb_spec c2 92)]]]);
  cbn [app]; intros H; injection H; intros; subst; try (split; congruence); try discriminate; try congruence.
Qed.

Lemma single_injective t1 : forall t2, single_spec t1 = single_spec t2 -> t1 = t2.
Proof.
  unfold single_spec. induction t1 as [|c1 t1 IH]; intros [|c2 t2] H; cbn [flat_map] in H.
  - reflexivity.
  - exfalso. destruct (esc_byte_cases c2) as [[_ [d E]]|[_ E]]; rewrite E in H; discriminate.
  - exfalso. destruct (esc_byte_cases c1) as [[_ [d E]]|[_ E]]; rewrite E in H; discriminate.
  - apply esc_byte_prefix in H as [-> H]. f_equal. apply IH. exact H.
Qed.

(** Without a backslash pair plain mode is bytewise too. *)
Definition plain_byte (c : N) : text := if N.eqb c 13 then [c] else esc_byte c.

Lemma plain_bytewise t : ~ has_escape_pair t -> plain_spec t = flat_map plain_byte t.
Proof.
  induction t as [|a t IH]; intros H; [reflexivity|]. cbn [plain_spec flat_map].
  assert (Ht : ~ has_escape_pair t).
  { intros (x & y & c & -> & Hc). apply H. exists (a :: x), y, c. auto. }
  destruct t as [|b t].
  - cbn [flat_map]. rewrite app_nil_r. reflexivity.
  - destruct (N.eqb a 92 && (N.eqb b 116 || N.eqb b 114))%bool eqn:E.
    + exfalso. apply H. exists [], t, b. split; [cbn [app]; f_equal; lia|lia].
    + rewrite IH by exact Ht. reflexivity.
Qed.

Lemma plain_byte_prefix c1 c2 r1 r2 : plain_byte c1 ++ r1 = plain_byte c2 ++ r2 -> c1 = c2 /\ r1 = r2.
Proof.
  unfold plain_byte. destruct (N.eqb_spec c1 13); destruct (N.eqb_spec c2 13); subst.
  - cbn [app]. injection 1; auto.
  - intros H. exfalso. destruct (esc_byte_cases c2) as [[_ [d E]]|[_ E]]; rewrite E in H; cbn [app] in H;
    injection H; intros; try discriminate; congruence.
  - intros H. exfalso. destruct (esc_byte_cases c1) as [[_ [d E]]|[_ E]]; rewrite E in H; cbn [app] in H;
    injection H; intros; try discriminate; congruence.
  - apply esc_byte_prefix.
Qed.

Lemma plain_byte_ne c : plain_byte c <> [].
Proof.
  unfold plain_byte. destruct (N.eqb c 13); [discriminate|].
  destruct (esc_byte_cases c) as [[_ [d E]]|[_ E]]; rewrite E; discriminate.
Qed.

Lemma plain_injective t1 : forall t2, ~ has_escape_pair t1 -> ~ has_escape_pair t2 ->
  plain_spec t1 = plain_spec t2 -> t1 = t2.
Proof.
  intros t2 H1 H2. rewrite (plain_bytewise t1 H1), (plain_bytewise t2 H2). clear H1 H2.
  revert t2. induction t1 as [|c1 t1 IH]; intros [|c2 t2] H; cbn [flat_map] in H.
  - reflexivity.
  - exfalso. symmetry in H. apply app_eq_nil in H as [H _]. exact (plain_byte_ne c2 H).
  - exfalso. apply app_eq_nil in H as [H _]. exact (plain_byte_ne c1 H).
  - apply plain_byte_prefix in H as [-> H]. f_equal. apply IH. exact H.
Qed.

(** ** Expansion limits *)

Fixpoint lsize (x : lazy_expander) : nat :=
  match x with
  | LScalar _ => 1
  | LVector l => S (list_sum (map lsize l))
  | LMap l => S (list_sum (map (fun p => let '(a, b) := p in lsize a + lsize b) l))
  end.

Lemma in_sum {A} (f : A -> nat) x l : In x l -> f x <= list_sum (map f l).
Proof.
  induction l as [|y l IH]; [intros []|]. cbn [map]. change (list_sum (f y :: map f l)) with (f y + list_sum (map f l)).
  intros [->|H]; [lia|]. specialize (IH H). lia.
Qed.

Lemma fold_limit {A} (f : A -> nat) (g : A -> list scalar_value) l :
  (forall x, In x l -> f x = List.length (g x)) ->
  forall acc, fold_left (fun acc e => acc + f e) l acc = acc + List.length (flat_map g l).
Proof.
  induction l as [|x l IH]; intros H acc; cbn [fold_left flat_map List.length]; [lia|].
  rewrite IH by (intros y Hy; apply H; right; exact Hy). rewrite app_length.
  rewrite (H x) by (left; reflexivity). lia.
Qed.

Lemma limit_counts x : calculate_limit x = List.length (leaves x).
Proof.
  remember (lsize x) as n eqn:E. assert (H : lsize x <= n) by lia. clear E. revert x H.
  induction n as [|n IH]; intros x H; [destruct x; cbn in H; lia|].
  destruct x as [v|l|l]; cbn [calculate_limit leaves]; [reflexivity| |].
  - rewrite (fold_limit calculate_limit leaves l); [reflexivity|].
    intros y Hy. apply IH. cbn [lsize] in H. pose proof (in_sum lsize y l Hy). lia.
  - assert (G : forall acc, fold_left (fun acc e => let '(a, b) := e in acc + calculate_limit a + calculate_limit b) l acc
        = fold_left (fun acc e => acc + (let '(a, b) := e in calculate_limit a + calculate_limit b)) l acc).
    { clear. induction l as [|[a b] l IH]; intros acc; cbn [fold_left]; [reflexivity|]. rewrite IH. f_equal. lia. }
    rewrite G, (fold_limit _ (fun p => let '(a, b) := p in leaves a ++ leaves b) l); [reflexivity|].
    intros [a b] Hy. cbn [lsize] in H.
    pose proof (in_sum (fun p => let '(a, b) := p in lsize a + lsize b) (a, b) l Hy) as Q. cbv beta iota in Q.
    rewrite app_length, (IH a) by lia. rewrite (IH b) by lia. reflexivity.
Qed.

Lemma can_expand_iff x limit : can_expand x limit = true <-> List.length (leaves x) < limit.
Proof. unfold can_expand. rewrite limit_counts. apply Nat.ltb_lt. Qed.
