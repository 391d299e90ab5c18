(** Repeated calls of [next]. *)
From Verif Require Import Base Tokens Scalar Chars Source SourceProofs Cursor Scanner SpecScan
  CursorProofs CursorRuns CursorScalars ScannerInv ScannerFetch.
From Coq Require Import Lia ZifyBool ZifyNat ZifyN String.

Definition curs (i : text) (c : cursor) : Prop := cok i c \/ at_end i c.
Definition failure (i : text) (c : cursor) (e : yerr) : Prop :=
  (cok i c /\ err_in i (cpos c) e) \/ (at_end i c /\ end_err i e).

(** ** The start *)
Definition first_token (i : text) : token := Token (Span (Marker 0 1 1) (Marker 0 1 1)) TStreamStart.
Lemma new_cok i : cok i (z_cur (scanner_new i)).
Proof. split; [reflexivity|]. split; [unfold cpos; cbn; lia|]. reflexivity. Qed.
Lemma start_fetch i fuel :
  exists z, fetch_next_token fuel (scanner_new i) = (z, Ok tt) /\ live i [] z /\ size z = 1 /\
    cpos (z_cur z) = 0 /\ z_available z = false.
Proof.
  eexists. split; [reflexivity|]. split; [|split; [reflexivity|split; reflexivity]].
  constructor; cbn [z_cur z_parsed z_keys z_flow z_tokens z_indent z_indents app].
  - exact (new_cok i).
  - reflexivity.
  - reflexivity.
  - apply Forall_cons; [apply key_new_ok|apply Forall_nil].
  - reflexivity.
  - change (nonneg [first_token i]). intros p s E. destruct p as [|t p]; [cbn; lia|]. destruct p; [|destruct p; discriminate].
    injection E as <- _. cbn. lia.
  - reflexivity.
  - apply Forall_cons; [|apply Forall_nil]. exists 0, 0. split; [lia|]. split; [lia|reflexivity].
  - apply Forall_cons; [discriminate|apply Forall_nil].
  - auto.
Qed.

(** ** Fetching until a token can be delivered *)
Definition pot (i : text) (z : scanner) : nat := size z + 6 * (List.length i - cpos (z_cur z)) + 2.
Definition quiet_keys (z : scanner) : Prop :=
  Forall (fun k => sk_possible k = true -> sk_number k <> z_parsed z) (z_keys z).
(** A token can be delivered, with at most [p] calls of [next] to follow. *)
Definition loaded (i : text) (D : list token) (p : nat) (z : scanner) : Prop :=
  (live i D z /\ z_tokens z <> [] /\ quiet_keys z /\ pot i z <= p) \/
  (ended i D z /\ List.length (z_tokens z) <= p).
Definition more_post (i : text) (D : list token) (p fuel : nat) (r : scanner * out unit) : Prop :=
  let (z', o) := r in
  curs i (z_cur z') /\
  match o with
  | Ok _ => loaded i D p z'
  | Err e => failure i (z_cur z') e
  | Panic => big i
  | Ub => reserved_near_end i
  | Fuel => fs i fuel
  end.
Lemma pending_false z : key_pending z = false -> quiet_keys z.
Proof.
  unfold key_pending, quiet_keys. intros H. apply Forall_forall. intros k IN P E.
  assert (X : existsb (fun k => sk_possible k && Nat.eqb (sk_number k) (z_parsed z)) (z_keys z) = true).
  { apply existsb_exists. exists k. split; auto. rewrite P, E, Nat.eqb_refl. reflexivity. }
  congruence.
Qed.
Lemma stale_impossible flow m : forall l, Forall (fun k => sk_possible k = false) l ->
  stale_loop flow m l = (l, false).
Proof.
  induction l as [|k l IH]; intros H; [reflexivity|]. inversion H; subst. cbn [stale_loop].
  rewrite (ltac:(assumption) : sk_possible k = false). cbn [andb]. rewrite IH; auto.
Qed.
Lemma pending_impossible z : Forall (fun k => sk_possible k = false) (z_keys z) -> key_pending z = false.
Proof.
  unfold key_pending. intros H. apply not_true_iff_false. intros E. apply existsb_exists in E as (k & IN & E).
  rewrite Forall_forall in H. rewrite (H k IN) in E. discriminate.
Qed.

Lemma more_step i D p fuel n z : (live i D z /\ pot i z <= p) \/ (ended i D z /\ List.length (z_tokens z) <= p) ->
  (live i D z -> n <= S (List.length i - cpos (z_cur z)) -> fs i fuel) -> (ended i D z -> n = 0 -> fs i fuel) ->
  more_post i D p fuel (fetch_more_tokens n fuel z).
Proof.
  revert z. induction n as [|n IH]; intros z H HL HE.
  - cbn [fetch_more_tokens]. unfold zout_of_fuel, more_post.
    destruct H as [(L & P)|(E & P)].
    + split; [left; apply L|]. apply HL; auto. lia.
    + split; [right; apply E|]. apply HE; auto.
  - cbn [fetch_more_tokens]. unfold bind at 1, gets at 1. cbv beta iota.
    assert (G : forall z1, live i D z1 -> pot i z1 <= p -> cpos (z_cur z1) = cpos (z_cur z) -> live i D z ->
      more_post i D p fuel (bind (fetch_next_token fuel) (fun _ => fetch_more_tokens n fuel) z1)).
    { intros z1 L1 P1 E1 L. unfold bind. assert (A := f_next i D fuel z1 L1). unfold after in A.
      destruct (fetch_next_token fuel z1) as [z2 o2]. destruct A as (A0 & A). destruct o2 as [u|e| | |];
        try (cbn [more_post]; split; [exact A0|exact A]).
      - apply IH.
        + destruct A as [(A1 & A2 & A3)|(A1 & A2)].
          * left. split; auto. destruct (l_cur _ _ _ A1) as (_ & LE & _). unfold pot in *. lia.
          * right. split; auto. unfold pot in *. lia.
        + intros L2 N2. apply HL; auto.
          destruct A as [(_ & A2 & A3)|(A1 & A2)]; [destruct (l_cur _ _ _ L2) as (_ & LE & _); lia|].
          exfalso. destruct (e_toks _ _ _ A1) as (q & Q & _). assert (X := l_no_end _ _ _ L2).
          rewrite Q, app_assoc in X. apply Forall_app in X as [_ X]. inversion X; subst. cbn in *. congruence.
        + intros E2 ->. apply HL; auto. lia. }
    destruct (z_tokens z) as [|t r] eqn:ET.
    + unfold bind at 1, ret at 1. cbv beta iota.
      destruct H as [(L & P)|(E & P)].
      * apply G; auto.
      * destruct (e_toks _ _ _ E) as (q & Q & _). rewrite ET in Q. destruct q; discriminate.
    + destruct H as [(L & P)|(E & P)].
      * assert (R : zruns i D (bind stale_simple_keys (fun _ => gets key_pending)) z
           (fun z' b => pot i z' <= p /\ cpos (z_cur z') = cpos (z_cur z) /\ z_tokens z' = z_tokens z /\ b = key_pending z') False False False).
        { apply zr_stale; [auto|]. intros l1 L1. unfold zruns, gets. split; [apply L1|]. split; [auto|].
          split; [auto|]. split; [exact P|auto]. }
        unfold bind at 1. unfold zruns in R.
        destruct (bind stale_simple_keys (fun _ => gets key_pending) z) as [z1 o1].
        destruct R as (C1 & R). destruct o1 as [b|e| | |]; try tauto.
        -- destruct R as (L1 & LE1 & P1 & E1 & T1 & B). destruct b.
           ++ apply G; auto.
           ++ unfold modify, more_post. split; [left; apply L1|]. left.
              split; [fields|]. cbn [set_available z_tokens]. rewrite T1, ET. split; [discriminate|].
              split; [exact (pending_false z1 (eq_sym B))|exact P1].
        -- cbn [more_post]. split; [left; auto|]. left. auto.
      * assert (KI := e_keys _ _ _ E).
        unfold bind at 1. unfold bind at 1, stale_simple_keys. rewrite stale_impossible by (apply Forall_rev; auto).
        rewrite rev_involutive. cbv beta iota zeta. unfold gets at 1.
        assert (SK : set_keys (z_keys z) z = z) by (destruct z; reflexivity). rewrite SK.
        rewrite pending_impossible by auto. unfold modify, more_post. split; [right; apply E|]. right.
        destruct E. split; [constructor; auto|cbn [set_available z_tokens]; rewrite ET; exact P].
Qed.

(** ** One call of [next] *)
(** Between two calls, after the delivery of [D]; at most [p] tokens are still to come. *)
Definition ready (i : text) (D : list token) (p : nat) (z : scanner) : Prop :=
  z_available z = false /\
  ((z = scanner_new i /\ D = [] /\ 6 * List.length i + 4 <= p) \/
   (live i D z /\ pot i z <= p) \/ (ended i D z /\ List.length (z_tokens z) <= p)).
(** The end of the stream has been delivered. *)
Record over (i : text) (D : list token) (z : scanner) : Prop := Over {
  o_cur : at_end i (z_cur z);
  o_chain : chain (colmax i) (z_indent z) (z_indents z);
  o_nonneg : nonneg D;
  o_depth : block_depth D = opens (z_indents z);
  o_flow : z_flow z = 0%N -> z_indents z = [];
  o_toks : exists q, D = q ++ [the_end i] /\ Forall (fun t => k_type t <> TStreamEnd) q /\ Forall (end_tok i) q;
  o_flags : z_end_reached z = true /\ z_error z = None }.
Definition next_post (i : text) (D : list token) (p fuel : nat) (r : scanner * out (option token)) : Prop :=
  let (z', o) := r in
  curs i (z_cur z') /\
  match o with
  | Ok (Some t) => (exists q, q < p /\ ready i (D ++ [t]) q z') \/ over i (D ++ [t]) z'
  | Ok None => exists e, z_error z' = Some e /\ failure i (z_cur z') e
  | Err _ => False
  | Panic => big i
  | Ub => reserved_near_end i
  | Fuel => fs i fuel
  end.
Definition ready_flags (z : scanner) : Prop :=
  z_error z = None /\ z_end_reached z = false /\ z_end_produced z = false /\ z_available z = false.
Lemma ready_flags_ok i D p z : ready i D p z -> ready_flags z.
Proof.
  intros (A & [(-> & _)|[(L & _)|(E & _)]]); split; try reflexivity;
    repeat match goal with |- _ /\ _ => split end; auto; try reflexivity;
    first [apply (l_flags _ _ _ L)|apply (e_flags _ _ _ E)].
Qed.
Definition popped (t : token) (r : list token) (z : scanner) : scanner :=
  let z := if is_stream_end t then set_end_reached true (set_tokens r z) else set_tokens r z in
  let z := set_parsed (z_parsed z + 1) (set_available false z) in
  if is_stream_end t then set_end_produced true z else z.
Lemma pop_loaded i D p z t r : loaded i D p z -> z_tokens z = t :: r ->
  (exists q, q < p /\ ready i (D ++ [t]) q (popped t r z)) \/ over i (D ++ [t]) (popped t r z).
Proof.
  intros [(L & NE & QK & P)|(E & P)] ET.
  - left. assert (NS : is_stream_end t = false).
    { assert (X := l_no_end _ _ _ L). rewrite ET in X. apply Forall_app in X as [_ X]. apply Forall_inv in X.
      unfold is_stream_end. destruct (k_type t); auto. congruence. }
    unfold popped. rewrite NS. cbv zeta.
    assert (AS : (D ++ [t]) ++ r = D ++ z_tokens z) by (rewrite <- app_assoc, ET; reflexivity).
    exists (p - 1). assert (P2 : 0 < p) by (unfold pot in P; lia). split; [lia|]. split; [reflexivity|]. right. left. split.
    + destruct L. constructor;
        cbn [set_parsed set_available set_tokens z_cur z_parsed z_keys z_flow z_tokens z_indent z_indents z_started z_end_reached z_end_produced z_error];
        rewrite ?AS; auto.
      * rewrite app_length. cbn [List.length]. lia.
      * unfold quiet_keys in QK. rewrite ET in l_keys. cbn [List.length] in l_keys.
        rewrite Forall_forall in *. intros k IN PO. destruct (l_keys k IN PO) as (K1 & K2). specialize (QK k IN PO).
        split; [lia|auto].
    + unfold pot, size in *. cbn [set_parsed set_available set_tokens z_cur z_tokens z_indents]. rewrite ET in P. cbn [List.length] in P. lia.
  - destruct (e_toks _ _ _ E) as (q & Q & Q1 & Q2). rewrite ET in Q.
    assert (AS : (D ++ [t]) ++ r = D ++ z_tokens z) by (rewrite <- app_assoc, ET; reflexivity).
    destruct q as [|x q]; cbn [app] in Q; injection Q as -> ->.
    + right. change (is_stream_end (the_end i)) with true. unfold popped. change (is_stream_end (the_end i)) with true. cbv zeta iota.
      rewrite app_nil_r in *. destruct E. rewrite <- AS in *.
      constructor; cbn [set_end_produced set_end_reached set_parsed set_available set_tokens z_cur z_flow z_indent z_indents z_end_reached z_error]; auto.
      * exists D. auto.
      * split; [auto|]. apply e_flags.
    + left. assert (NS : is_stream_end x = false).
      { apply Forall_app in Q1 as [_ X]. apply Forall_inv in X.
        unfold is_stream_end. destruct (k_type x); auto. congruence. }
      unfold popped. rewrite NS. cbv zeta.
      rewrite ET in P. cbn [List.length] in P.
      exists (p - 1). split; [lia|]. split; [reflexivity|]. right. right. split.
      * destruct E. rewrite <- AS in *. constructor;
          cbn [set_parsed set_available set_tokens z_cur z_parsed z_keys z_flow z_tokens z_indent z_indents z_started z_end_reached z_end_produced z_error]; auto.
        exists q. split; [auto|]. rewrite <- !app_assoc. split; auto.
      * cbn [set_parsed set_available set_tokens z_tokens]. lia.
Qed.
Lemma loaded_nonempty i D p z : loaded i D p z -> exists t r, z_tokens z = t :: r.
Proof.
  intros [(_ & NE & _)|(E & _)].
  - destruct (z_tokens z); [tauto|eauto].
  - destruct (e_toks _ _ _ E) as (q & -> & _). destruct q; cbn [app]; eauto.
Qed.
Lemma more_ready i D p fuel z : ready i D p z -> more_post i D p fuel (fetch_more_tokens fuel fuel z).
Proof.
  intros (A & [(-> & -> & P)|H]).
  - destruct fuel as [|fuel].
    + cbn [fetch_more_tokens more_post]. unfold zout_of_fuel. split; [left; apply new_cok|]. intros _. lia.
    + cbn [fetch_more_tokens]. unfold bind at 1, gets at 1. cbv beta iota.
      change (z_tokens (scanner_new i)) with (@nil token). cbv iota. unfold bind at 1, ret at 1. cbv beta iota.
      unfold bind. destruct (start_fetch i (S fuel)) as (z1 & E1 & L1 & S1 & P1 & _). rewrite E1. apply more_step.
      * left. split; auto. unfold pot. lia.
      * intros _ N _. lia.
      * intros _ -> _. lia.
  - apply more_step; auto.
    + intros L N _. lia.
    + intros E -> _. lia.
Qed.
Lemma next_ok i D p fuel z : ready i D p z -> next_post i D p fuel (next fuel z).
Proof.
  intros R. destruct (ready_flags_ok _ _ _ _ R) as (F1 & F2 & F3 & F4).
  unfold next. rewrite F1, F2. unfold next_token. unfold bind at 1, gets at 1. cbv beta iota. rewrite F3. cbv iota.
  unfold bind at 1, gets at 1. cbv beta iota. rewrite F4. cbn [negb]. unfold bind at 1.
  assert (M := more_ready i D p fuel z R).
  destruct (fetch_more_tokens fuel fuel z) as [z1 o1]. destruct M as (C1 & M).
  destruct o1 as [u|e| | |]; try (split; [exact C1|exact M]).
  - destruct (loaded_nonempty _ _ _ _ M) as (t & r & ET). rewrite ET.
    assert (PO := pop_loaded i D p z1 t r M ET). unfold next_post.
    change (let z0 := if is_stream_end t then set_end_reached true (set_tokens r z1) else set_tokens r z1 in _) with (popped t r z1) in *.
    cbv zeta. unfold popped in *. cbv zeta in PO.
    split; [|exact PO]. destruct (is_stream_end t); exact C1.
  - unfold next_post. split; [exact C1|]. exists e. split; [reflexivity|exact M].
Qed.
