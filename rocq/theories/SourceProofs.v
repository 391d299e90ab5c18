(** Lemmas about sources. *)
From Verif Require Import Base Chars Escaper Source SpecSource.
From Coq Require Import Lia ZifyBool ZifyNat ZifyN String.

(** [R s t]: the source [s] still delivers the text [t]. *)
Definition follows {S} (o : ops S) (R : S -> text -> Prop) : Prop :=
  forall s t, R s t -> o_peek o s 0 = nth_error t 0 /\ R (o_skip o 1 s) (skipn 1 t).

Lemma nth_error_skipn' {A} k (l : list A) n : nth_error (skipn k l) n = nth_error l (k + n).
Proof.
  revert k; induction l as [|x l IH]; intros k.
  - rewrite skipn_nil. destruct n; destruct k; reflexivity.
  - destruct k; [reflexivity|]. cbn [skipn Nat.add]. rewrite IH. reflexivity.
Qed.

Lemma skipn_skipn' {A} a b (l : list A) : skipn a (skipn b l) = skipn (b + a) l.
Proof.
  revert b; induction l as [|x l IH]; intros b.
  - rewrite !skipn_nil. reflexivity.
  - destruct b; [reflexivity|]. cbn [skipn Nat.add]. apply IH.
Qed.

Lemma str_follows : follows str_ops str_view.
Proof.
  intros s t <-. split.
  - cbn [str_ops o_peek]. unfold str_peek. rewrite nth_error_skipn'. reflexivity.
  - unfold str_view. cbn [str_ops o_skip str_skip ss_pos ss_input]. rewrite skipn_skipn'. reflexivity.
Qed.

Lemma follows_peekz {S} (o : ops S) R s t : follows o R -> R s t -> peekz o s 0 = nth 0 t 0%N.
Proof.
  intros F H. destruct (F _ _ H) as [E _]. unfold peekz. rewrite E. destruct t; reflexivity.
Qed.

Lemma take_while_spec {S} (o : ops S) (R : S -> text -> Prop) p :
  follows o R -> p 0%N = false ->
  forall l r s fuel, R s (l ++ r) -> forallb p l = true -> p (nth 0 r 0%N) = false ->
  List.length l < fuel ->
  exists s', take_while o p fuel s = Some (l, s') /\ R s' r.
Proof.
  intros F P0; induction l as [|c l IH]; intros r s fuel H Hl Hr Hf.
  - destruct fuel; [lia|]. cbn [take_while].
    rewrite (follows_peekz _ _ _ _ F H). cbn [app]. rewrite Hr. eauto.
  - destruct fuel; [lia|]. cbn [take_while].
    rewrite (follows_peekz _ _ _ _ F H). cbn [app nth].
    cbn [forallb] in Hl. apply andb_true_iff in Hl as [Hc Hl]. rewrite Hc.
    destruct (F _ _ H) as [_ H']. cbn [app skipn] in H'. cbn [List.length] in Hf.
    destruct (IH r _ fuel H' Hl Hr ltac:(lia)) as (s' & -> & Hs'). eauto.
Qed.

Lemma breakz_false c : in_line c -> negb (is_breakz c) = true.
Proof. unfold in_line, is_breakz. lia. Qed.
Lemma line_end_breakz r : line_end r -> negb (is_breakz (nth 0 r 0%N)) = false.
Proof.
  intros [->|H]; [reflexivity|]. destruct r as [|c r]; [reflexivity|]. cbn [starts] in H. cbn [nth].
  unfold is_breakz. lia.
Qed.

Lemma shared_spec {S} (o : ops S) (R : S -> text -> Prop) (tabs : bool) :
  follows o R ->
  forall blanks after s fuel bytes any has,
  R s (blanks ++ after) -> Forall (blank_for tabs) blanks -> ~ starts (blank_for tabs) after ->
  List.length blanks + List.length after < fuel ->
  let any' := any || existsb (N.eqb 9) blanks in
  let has' := has || existsb (N.eqb 32) blanks in
  (~ starts (fun c => c = 35%N) after ->
    exists s', shared_skip_ws_to_eol o fuel s tabs bytes any has
               = Some (s', (bytes + List.length blanks, SkipOk any' has')) /\ R s' after) /\
  (forall comment tail, after = 35%N :: comment ++ tail -> any' || has' = true ->
    Forall in_line comment -> line_end tail ->
    exists s', shared_skip_ws_to_eol o fuel s tabs bytes any has
               = Some (s', (bytes + (List.length blanks + Datatypes.S (List.length comment)), SkipOk any' has')) /\
               R s' tail) /\
  (starts (fun c => c = 35%N) after -> any' || has' = false ->
    shared_skip_ws_to_eol o fuel s tabs bytes any has
    = Some (s, (bytes, SkipErr "comments must be separated from other tokens by whitespace"))).
Proof.
  intros F; induction blanks as [|c blanks IH]; intros after s fuel bytes any has H Hb Ha Hf any' has'.
  - assert (EA : any' = any) by (subst any'; cbn; apply orb_false_r).
    assert (EH : has' = has) by (subst has'; cbn; apply orb_false_r).
    clearbody any' has'. subst any' has'.
    destruct fuel as [|fuel]; [lia|]. cbn [app] in H.
    assert (P := follows_peekz _ _ _ _ F H).
    assert (N1 : (nth 0 after 0 =? 32)%N = false /\ ((nth 0 after 0 =? 9)%N && tabs) = false).
    { destruct after as [|c after]; cbn [nth]; [split; destruct tabs; reflexivity|].
      cbn [starts] in Ha. unfold blank_for in Ha. destruct tabs; lia. }
    destruct N1 as [N1 N2].
    cbn [shared_skip_ws_to_eol]. cbv zeta. rewrite P, N1, N2.
    repeat split.
    + intros NH. assert (N3 : (nth 0 after 0 =? 35)%N = false).
      { destruct after; cbn [nth]; [reflexivity|]. cbn [starts] in NH. lia. }
      rewrite N3. cbn [andb List.length]. rewrite Nat.add_0_r. eauto.
    + intros comment tail -> HW Hc Ht. cbn [nth N.eqb Pos.eqb andb].
      rewrite <- negb_orb. rewrite HW. cbn [negb].
      destruct (F _ _ H) as [_ H1]. cbn [skipn] in H1.
      destruct (take_while_spec o R (fun c => negb (is_breakz c)) F eq_refl comment tail
                  (o_skip o 1 s) fuel H1) as (s' & E & Hs').
      * apply forallb_forall. rewrite Forall_forall in Hc. intros x Hx. apply breakz_false; auto.
      * apply line_end_breakz; auto.
      * cbn [List.length] in Hf. rewrite app_length in Hf. lia.
      * unfold skip_while_non_breakz. rewrite E.
        destruct fuel as [|fuel]; [cbn [List.length] in Hf; lia|].
        cbn [shared_skip_ws_to_eol]. cbv zeta. rewrite (follows_peekz _ _ _ _ F Hs').
        assert (T : (nth 0 tail 0 =? 32)%N = false /\ (nth 0 tail 0 =? 9)%N = false /\
                    (nth 0 tail 0 =? 35)%N = false).
        { destruct Ht as [->|Ht]; [repeat split|]. destruct tail as [|c0 tail]; [repeat split|].
          cbn [starts] in Ht. cbn [nth]. lia. }
        destruct T as (-> & -> & ->). cbn [andb List.length].
        exists s'. split; [|auto]. do 3 f_equal. lia.
    + intros HS HW. destruct after as [|c after]; [destruct HS|]. cbn [starts] in HS. subst c.
      cbn [nth N.eqb Pos.eqb andb]. apply orb_false_iff in HW as [-> ->]. reflexivity.
  - inversion Hb as [|? ? Hc Hb']; subst.
    destruct fuel as [|fuel]; [cbn [List.length] in Hf; lia|].
    assert (P := follows_peekz _ _ _ _ F H). cbn [app nth] in P.
    destruct (F _ _ H) as [_ H1]. cbn [app skipn] in H1.
    cbn [List.length] in Hf.
    destruct Hc as [->|[-> ->]].
    + specialize (IH after (o_skip o 1 s) fuel (bytes + 1) any true H1 Hb' Ha ltac:(lia)).
      cbv zeta in IH. cbn [orb] in IH.
      assert (EA : any' = any || existsb (N.eqb 9) blanks) by (subst any'; reflexivity).
      assert (EH : has' = true) by (subst has'; cbn; rewrite orb_true_r; reflexivity).
      clearbody any' has'. subst any' has'.
      cbn [shared_skip_ws_to_eol]. cbv zeta. rewrite P. cbn [N.eqb Pos.eqb].
      destruct IH as (I1 & I2 & I3). repeat split.
      * intros NH. destruct (I1 NH) as (s' & E & Hs'). rewrite E. exists s'. split; auto.
        do 3 f_equal. cbn [List.length]. lia.
      * intros comment tail E0 HW Hc Ht.
        destruct (I2 comment tail E0 HW Hc Ht) as (s' & E & Hs'). rewrite E. exists s'. split; auto.
        do 3 f_equal. cbn [List.length]. lia.
      * intros _ HW. rewrite orb_true_r in HW. discriminate.
    + specialize (IH after (o_skip o 1 s) fuel (bytes + 1) true has H1 Hb' Ha ltac:(lia)).
      cbv zeta in IH. cbn [orb] in IH.
      assert (EA : any' = true) by (subst any'; cbn; rewrite orb_true_r; reflexivity).
      assert (EH : has' = has || existsb (N.eqb 32) blanks) by (subst has'; reflexivity).
      clearbody any' has'. subst any' has'.
      cbn [shared_skip_ws_to_eol]. cbv zeta. rewrite P. cbn [N.eqb Pos.eqb andb].
      destruct IH as (I1 & I2 & I3). repeat split.
      * intros NH. destruct (I1 NH) as (s' & E & Hs'). rewrite E. exists s'. split; auto.
        do 3 f_equal. cbn [List.length]. lia.
      * intros comment tail E0 HW Hc Ht.
        destruct (I2 comment tail E0 HW Hc Ht) as (s' & E & Hs'). rewrite E. exists s'. split; auto.
        do 3 f_equal. cbn [List.length]. lia.
      * intros _ HW. discriminate.
Qed.

(** Every text splits into its leading white space and the rest. *)
Lemma blanks_split tabs t : exists blanks after,
  t = blanks ++ after /\ Forall (blank_for tabs) blanks /\ ~ starts (blank_for tabs) after.
Proof.
  induction t as [|c t (b & a & -> & Hb & Ha)].
  - exists [], []. repeat split; auto.
  - destruct ((c =? 32)%N || ((c =? 9)%N && tabs)) eqn:E.
    + exists (c :: b), a. repeat split; auto. constructor; auto. unfold blank_for. destruct tabs; lia.
    + exists [], (c :: b ++ a). repeat split; auto. cbn [starts]. unfold blank_for. destruct tabs; lia.
Qed.
Lemma comment_split t : exists comment tail, t = comment ++ tail /\ Forall in_line comment /\ line_end tail.
Proof.
  induction t as [|c t (b & a & -> & Hb & Ha)].
  - exists [], []. repeat split; auto. left; auto.
  - destruct (is_breakz c) eqn:E.
    + exists [], (c :: b ++ a). repeat split; auto. right. cbn [starts]. unfold is_breakz in E. lia.
    + exists (c :: b), a. repeat split; auto. constructor; auto. unfold in_line. unfold is_breakz in E. lia.
Qed.

Lemma str_skip_ws_spec (fuel : nat) (s : strsrc) (tabs has : bool) (blanks after : text) :
  skipn (ss_pos s) (ss_input s) = blanks ++ after ->
  Forall (blank_for tabs) blanks -> ~ starts (blank_for tabs) after ->
  List.length (ss_input s) < fuel ->
  let any' := existsb (N.eqb 9) blanks in
  let has' := has || existsb (N.eqb 32) blanks in
  (~ starts (fun c => c = 35%N) after ->
    str_skip_ws_to_eol fuel s tabs has
    = Some (StrSrc (ss_input s) (ss_pos s + List.length blanks), (List.length blanks, SkipOk any' has'))) /\
  (forall comment tail, after = 35%N :: comment ++ tail -> has = true \/ blanks <> [] ->
    Forall in_line comment -> line_end tail ->
    let n := List.length blanks + S (List.length comment) in
    str_skip_ws_to_eol fuel s tabs has
    = Some (StrSrc (ss_input s) (ss_pos s + n), (n, SkipOk any' has'))) /\
  (starts (fun c => c = 35%N) after -> has = false -> blanks = [] ->
    str_skip_ws_to_eol fuel s tabs has
    = Some (s, (0, SkipErr "comments must be separated from other tokens by whitespace"))).
Proof.
  intros E Hb Ha Hf any' has'.
  (* a stronger view: input fixed and position counted *)
  set (R := fun (s' : strsrc) (t : text) => ss_input s' = ss_input s /\ str_view s' t /\
              exists k, ss_pos s' = ss_pos s + k /\ k + List.length t = List.length (blanks ++ after)).
  assert (L : List.length (blanks ++ after) <= List.length (ss_input s)).
  { rewrite <- E, skipn_length. lia. }
  set (R2 := fun (s' : strsrc) (t : text) => ss_input s' = ss_input s /\ str_view s' t).
  assert (F2 : follows str_ops R2).
  { intros s' t (I & V). destruct (str_follows _ _ V) as [P V']. split; [exact P|]. split; [exact I|exact V']. }
  assert (Rs : R2 s (blanks ++ after)) by (split; [reflexivity|exact E]).
  assert (FIN : forall s' tail n, R2 s' tail -> ss_pos s' = ss_pos s + n -> s' = StrSrc (ss_input s) (ss_pos s + n)).
  { intros [i p] tail n [I _] Hp. cbn in *. subst. reflexivity. }
  destruct (shared_spec str_ops R2 tabs F2 blanks after s fuel 0 false has Rs Hb Ha) as (I1 & I2 & I3).
  { rewrite app_length in L. lia. }
  cbn [orb] in I1, I2, I3. fold any' has' in I1, I2, I3.
  assert (POS : forall fuel s0 bytes any0 has0 s' n r, ss_pos s0 = ss_pos s + bytes ->
    shared_skip_ws_to_eol str_ops fuel s0 tabs bytes any0 has0 = Some (s', (n, r)) -> ss_pos s' = ss_pos s + n).
  { clear. induction fuel as [|fuel IH]; intros s0 bytes any0 has0 s' n r H0 HE; [discriminate|].
    cbn [shared_skip_ws_to_eol] in HE. cbv zeta in HE.
    repeat match type of HE with context [if ?b then _ else _] => destruct b end.
    - eapply IH; [|exact HE]. cbn. lia.
    - eapply IH; [|exact HE]. cbn. lia.
    - inversion HE; subst; auto.
    - destruct (skip_while_non_breakz str_ops fuel (o_skip str_ops 1 s0)) as [[l s1]|] eqn:EW; [|discriminate].
      eapply IH; [|exact HE].
      assert (TP : forall p fuel s0 l s1, take_while str_ops p fuel s0 = Some (l, s1) ->
                   ss_pos s1 = ss_pos s0 + List.length l).
      { clear. induction fuel as [|fuel IH]; intros s0 l s1 H; [discriminate|]. cbn [take_while] in H.
        destruct (p (peekz str_ops s0 0)).
        - destruct (take_while str_ops p fuel (o_skip str_ops 1 s0)) as [[l' s']|] eqn:E; [|discriminate].
          inversion H; subst. apply IH in E. cbn in E. cbn [List.length]. lia.
        - inversion H; subst. cbn. lia. }
      apply TP in EW. cbn in EW. lia.
    - inversion HE; subst; auto. }
  unfold str_skip_ws_to_eol.
  split; [|split].
  - intros NH. destruct (I1 NH) as (s' & Es & Hs'). rewrite Es. cbn [Nat.add] in *.
    do 2 f_equal. eapply FIN; [exact Hs'|]. eapply POS; [|exact Es]. lia.
  - intros comment tail E0 HW Hc Ht.
    assert (W : any' || has' = true).
    { destruct HW as [->|HW]; [cbn in has'; subst has'; apply orb_true_r|].
      destruct blanks as [|c b]; [contradiction|]. apply Forall_inv in Hb. subst any' has'.
      destruct Hb as [->|[_ ->]]; cbn; rewrite ?orb_true_r; reflexivity. }
    destruct (I2 comment tail E0 W Hc Ht) as (s' & Es & Hs'). rewrite Es. cbn [Nat.add] in *.
    do 2 f_equal. eapply FIN; [exact Hs'|]. eapply POS; [|exact Es]. lia.
  - intros HS -> ->. apply I3; auto.
Qed.

(** Peeking after skips. *)
Lemma str_skips (input : text) (ks : list nat) :
  fold_left (fun s k => str_skip k s) ks (str_new input) = StrSrc input (list_sum ks).
Proof.
  assert (G : forall ks p, fold_left (fun s k => str_skip k s) ks (StrSrc input p) = StrSrc input (p + list_sum ks)).
  { intros ks'; induction ks' as [|k ks' IH]; intros p.
    - cbn. f_equal. lia.
    - cbn [fold_left]. change (str_skip k (StrSrc input p)) with (StrSrc input (p + k)). rewrite IH. f_equal. change (list_sum (k :: ks')) with (k + list_sum ks'). lia. }
  apply G.
Qed.

Lemma peekz_str s n : peekz str_ops s n = nth n (skipn (ss_pos s) (ss_input s)) 0%N.
Proof.
  unfold peekz. cbn [str_ops o_peek]. unfold str_peek. rewrite <- nth_error_skipn'.
  generalize (skipn (ss_pos s) (ss_input s)). intros l.
  destruct (nth_error l n) eqn:E.
  - symmetry. apply nth_error_nth. auto.
  - symmetry. apply nth_overflow. apply nth_error_None. auto.
Qed.

Lemma separated_iff t : separated t <-> is_blank_or_breakz (nth 0 t 0%N) = true.
Proof.
  unfold separated, is_blank_or_breakz, is_blank, is_break.
  destruct t as [|c t]; cbn [nth starts].
  - split; auto.
  - split; [intros [|]; [discriminate|lia]|intros; right; lia].
Qed.

Lemma document_indicator_iff s :
  next_is_document_indicator str_ops s = true <->
  exists c tail, (c = 45%N \/ c = 46%N) /\
    skipn (ss_pos s) (ss_input s) = c :: c :: c :: tail /\ separated tail.
Proof.
  unfold next_is_document_indicator, next_is_three. rewrite !peekz_str.
  set (t := skipn (ss_pos s) (ss_input s)). clearbody t.
  split.
  - intros H. apply andb_true_iff in H as [H1 H2].
    assert (exists c, (c = 45 \/ c = 46)%N /\ nth 0 t 0%N = c /\ nth 1 t 0%N = c /\ nth 2 t 0%N = c) as (c & Hc & A & B & C).
    { apply orb_true_iff in H1. destruct H1 as [H1|H1]; repeat (apply andb_true_iff in H1 as [H1 ?]);
        [exists 45%N | exists 46%N]; lia. }
    destruct t as [|x [|y [|z t]]]; cbn [nth] in A, B, C; try (exfalso; lia).
    subst x y z. exists c, t. repeat split; auto. apply separated_iff. exact H2.
  - intros (c & tail & Hc & -> & HS). apply separated_iff in HS. cbn [nth] in *. 
    assert (nth 3 (c :: c :: c :: tail) 0%N = nth 0 tail 0%N) as E by reflexivity.
    cbn [nth] in E. rewrite HS, andb_true_r. destruct Hc as [->| ->]; reflexivity.
Qed.

Lemma flow_iff c : is_flow c = true <-> flow_byte c.
Proof. unfold is_flow, flow_byte. lia. Qed.

Lemma can_be_plain_iff s in_flow :
  next_can_be_plain_scalar str_ops s in_flow = false <->
  (exists tail, skipn (ss_pos s) (ss_input s) = 58%N :: tail /\
     (separated tail \/ (in_flow = true /\ starts flow_byte tail))) \/
  (in_flow = true /\ starts flow_byte (skipn (ss_pos s) (ss_input s))).
Proof.
  unfold next_can_be_plain_scalar. rewrite !peekz_str.
  set (t := skipn (ss_pos s) (ss_input s)). clearbody t. cbv zeta.
  destruct t as [|c t].
  - cbn [nth]. split.
    + rewrite andb_false_r. cbn. destruct in_flow; cbn; discriminate.
    + intros [(tl & H & _)|[_ []]]; discriminate.
  - cbn [nth starts]. 
    assert (S1 := separated_iff t). 
    destruct (N.eqb_spec c 58) as [->|NC].
    + cbn [andb]. destruct (is_blank_or_breakz (nth 0 t 0%N)) eqn:E1.
      * cbn [orb]. split; [intros _|reflexivity]. left. exists t. split; auto. left. apply S1; auto.
      * cbn [orb]. destruct in_flow; cbn [andb].
        -- destruct (is_flow (nth 0 t 0%N)) eqn:E2.
           ++ split; [intros _|reflexivity]. left. exists t. split; auto. right. split; auto.
              destruct t; [discriminate|]. cbn. apply flow_iff; auto.
           ++ change (is_flow 58) with false. cbn iota. split; [discriminate|].
              intros [(tl & H & [H'|[_ H']])|[_ H]].
              ** inversion H; subst. apply S1 in H'. congruence.
              ** inversion H; subst. destruct tl; [destruct H'|]. cbn in H'. apply flow_iff in H'. cbn in E2. congruence.
              ** apply flow_iff in H. discriminate.
        -- split; [discriminate|]. intros [(tl & H & [H'|[H' _]])|[H _]]; try discriminate.
           inversion H; subst. apply S1 in H'. congruence.
    + cbn [andb]. destruct in_flow; cbn [andb].
      * destruct (is_flow c) eqn:E.
        -- split; [intros _|reflexivity]. right. split; auto. apply flow_iff; auto.
        -- split; [discriminate|]. intros [(tl & H & _)|[_ H]].
           ++ inversion H; congruence.
           ++ apply flow_iff in H. congruence.
      * split; [discriminate|]. intros [(tl & H & _)|[H _]]; [|discriminate]. inversion H; congruence.
Qed.

(** Collecting a line. *)
Lemma position_break l r : Forall (fun c => ~ break_byte c) l -> starts break_byte r ->
  position is_break (l ++ r) = Some (List.length l).
Proof.
  intros Hl Hr; induction Hl as [|c l Hc Hl IH].
  - destruct r as [|c r]; [destruct Hr|]. cbn in Hr. cbn [app position List.length].
    assert (E : is_break c = true) by (unfold is_break; unfold break_byte in Hr; lia). rewrite E. reflexivity.
  - cbn [app position List.length].
    assert (E : is_break c = false) by (unfold is_break; unfold break_byte in Hc; lia).
    rewrite E, IH. reflexivity.
Qed.
Lemma position_no_break l : Forall (fun c => ~ break_byte c) l -> position is_break l = None.
Proof.
  induction 1 as [|c l Hc Hl IH]; [reflexivity|]. cbn [position].
  assert (E : is_break c = false) by (unfold is_break; unfold break_byte in Hc; lia).
  rewrite E, IH. reflexivity.
Qed.

Lemma str_push_line s l r :
  skipn (ss_pos s) (ss_input s) = l ++ r -> ss_pos s <= List.length (ss_input s) ->
  Forall (fun c => ~ break_byte c) l -> starts break_byte r ->
  str_push_non_breakz_chr s = (StrSrc (ss_input s) (ss_pos s + List.length l), Ok l).
Proof.
  intros E Hp Hl Hr. unfold str_push_non_breakz_chr.
  destruct (Nat.ltb_spec (List.length (ss_input s)) (ss_pos s)); [lia|].
  rewrite E, (position_break l r Hl Hr). cbv zeta. rewrite firstn_app, Nat.sub_diag, firstn_all.
  cbn [firstn]. rewrite app_nil_r. reflexivity.
Qed.
Lemma str_push_last s :
  ss_pos s <= List.length (ss_input s) -> Forall (fun c => ~ break_byte c) (skipn (ss_pos s) (ss_input s)) ->
  str_push_non_breakz_chr s = (s, Ok []).
Proof.
  intros Hp Hl. unfold str_push_non_breakz_chr.
  destruct (Nat.ltb_spec (List.length (ss_input s)) (ss_pos s)); [lia|].
  rewrite (position_no_break _ Hl). cbv zeta. unfold str_skip. rewrite Nat.add_0_r.
  destruct s. reflexivity.
Qed.

Lemma peek_char_bounds s : str_peek_char s <> Ub <-> ss_pos s + 4 <= List.length (ss_input s).
Proof.
  unfold str_peek_char. destruct (Nat.leb_spec (ss_pos s + 4) (List.length (ss_input s))).
  - split; [intros; lia|discriminate].
  - split; [intros H'; contradiction|lia].
Qed.
