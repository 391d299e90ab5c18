(** Deserialising what was dumped gives the value of the type. *)
From Verif Require Import Base Tokens Scalar Yaml Loader Emitter Chars SpecScalar SpecEmit SpecValue SpecRoundTrip NodeScan RoundTripScalars RoundTrip RoundTripExact ScalarProofs ScalarTags EmitterProofs.
From Verif Require Import ParserIter Serde SpecSerde SerdeProofs FromText TextDocs SpecFromText.
From Coq Require Import String Lia ZifyBool ZifyNat ZifyN List.
Local Open Scope list_scope.

(** The node seen for a value. *)
Definition seen (s : settings) (y : yaml) : dnode := seen_node (to_node s y).
Definition sval (s : settings) (v : scalar) : scalar_value := ScalarValue (snd (swrite s v)) (fst (swrite s v)) 0 None.
Lemma seen_scalar s v : seen s (YScalar v) = NScalar (sval s v). Proof. reflexivity. Qed.
Lemma seen_seq s l : seen s (YSeq l) = NSeq 0 None (map (seen s) l).
Proof. unfold seen. cbn [to_node seen_node]. now rewrite map_map. Qed.
Lemma seen_map s l : seen s (YMap l) = NMap 0 None (map (fun x => (seen s (fst x), seen s (snd x))) l).
Proof. unfold seen. cbn [to_node seen_node]. now rewrite map_map. Qed.
Lemma sval_resolves s v : resolves (sval s v) (reread v).
Proof.
  unfold resolves, sval. cbn [sv_value sv_type sv_tag].
  destruct v as [|t|b|f|z]; cbn [swrite reread fst snd]; try reflexivity.
  destruct (should_emit_string_as_block s t) eqn:B; [rewrite (break_quoted t (proj2 (block_break s t B)))|destruct (need_quotes t)]; reflexivity.
Qed.
Lemma swrite_string s t : snd (swrite s (SString t)) = t.
Proof. cbn [swrite]. destruct (should_emit_string_as_block s t); [reflexivity|]. destruct (need_quotes t); reflexivity. Qed.
Lemma resolves_as s v w : reread v = w -> resolves (sval s v) w.
Proof. intros <-. apply sval_resolves. Qed.
Lemma resolves_unique v a b : resolves v a -> resolves v b -> a = b.
Proof. unfold resolves. congruence. Qed.

Lemma clear_value s v : fine v -> clear (YScalar v) -> seen_as_value (NScalar (sval s v)).
Proof.
  intros F C.
  assert (NT : ~ In (snd (swrite s v)) [[]; str "null"]).
  { intros H. destruct v as [|t|b|f|z].
    - apply C. now left.
    - apply C. replace (snd (swrite s (SString t))) with t in H by (symmetry; apply swrite_string).
      destruct H as [<-|[<-|[]]]; [right; left|right; right; left]; reflexivity.
    - destruct b; destruct H as [H|[H|[]]]; discriminate.
    - destruct f as [neg| |neg m e]; [contradiction|contradiction|].
      destruct (float_back neg m e) as [(z & _ & _ & E)|[_ E]]; cbn [reread swrite snd] in *;
        destruct H as [H|[H|[]]]; rewrite <- H in E; vm_compute in E; discriminate.
    - pose proof (reread_int z F) as E. cbn [reread swrite snd] in *. destruct H as [H|[H|[]]]; rewrite <- H in E; vm_compute in E; discriminate. }
  split; [|split].
  - intros (w & E & [[_ N]|R]).
    + injection E as <-. apply NT. cbn [sval sv_value] in N. rewrite N. now left.
    + injection E as <-. pose proof (resolves_unique _ _ _ R (sval_resolves s v)) as E.
      destruct v as [|t|b|f|z].
      * apply C. now left.
      * rewrite reread_string in E by exact F. discriminate.
      * destruct b; discriminate.
      * destruct f as [neg| |neg m e]; [contradiction|contradiction|].
        destruct (float_back neg m e) as [(z & _ & _ & E')|[_ E']]; rewrite <- E in E'; try discriminate.
      * rewrite (reread_int z F) in E. discriminate.
  - intros (w & E & _ & H). injection E as <-. exact (NT H).
  - intros w E. injection E as <-. reflexivity.
Qed.
Lemma clear_seen s y : all_scalars fine y -> clear y -> seen_as_value (seen s y).
Proof.
  destruct y as [|v|l|l|t y|id]; intros F C; try contradiction.
  - now apply clear_value.
  - rewrite seen_seq. split; [|split].
    + intros (w & E & _). discriminate.
    + intros (w & E & _). discriminate.
    + intros w E. discriminate.
  - rewrite seen_map. split; [|split].
    + intros (w & E & _). discriminate.
    + intros (w & E & _). discriminate.
    + intros w E. discriminate.
Qed.
Lemma same_refl v : same_scalar v v.
Proof. destruct v as [|t|b|[n| |n m e]|z]; cbn [same_scalar]; auto. Qed.
Lemma float_read s (neg : bool) m e : (neg = true -> m <> 0%N) -> exists f, same_scalar (SFloat (FNum neg m e)) (SFloat f) /\
  (resolves (sval s (SFloat (FNum neg m e))) (SFloat f) \/
   exists z, resolves (sval s (SFloat (FNum neg m e))) (SInt z) /\ f = FNum (z <? 0)%Z (Z.abs_N z) 0).
Proof.
  intros NZ. destruct (float_back neg m e) as [(z & _ & W & E)|[_ S]].
  - exists (FNum (z <? 0)%Z (Z.abs_N z) 0). split.
    + cbn [same_scalar]. unfold whole in W. rewrite Z.sub_0_r. replace (0 - e)%Z with (- e)%Z by lia.
      assert (P1 : (0 < 10 ^ Z.max 0 (- e))%Z) by (apply Z.pow_pos_nonneg; lia).
      assert (P2 : (0 < 10 ^ Z.max 0 e)%Z) by (apply Z.pow_pos_nonneg; lia).
      rewrite N2Z.inj_abs_N. set (p := (10 ^ Z.max 0 (- e))%Z) in *. set (q := (10 ^ Z.max 0 e)%Z) in *. clearbody p q.
      destruct neg.
      * specialize (NZ eq_refl). assert (0 < Z.of_N m * q)%Z by (apply Z.mul_pos_pos; lia).
        assert (z < 0)%Z by nia. split; [lia|]. rewrite Z.abs_neq by lia. nia.
      * assert (0 <= Z.of_N m * q)%Z by (apply Z.mul_nonneg_nonneg; lia).
        assert (0 <= z)%Z by nia. split; [lia|]. rewrite Z.abs_eq by lia. nia.
    + right. exists z. split; [|reflexivity]. rewrite <- E. apply sval_resolves.
  - pose proof (sval_resolves s (SFloat (FNum neg m e))) as R. destruct (reread (SFloat (FNum neg m e))) as [|t|b|f|z]; try discriminate S.
    exists f. split; [exact S|]. left. exact R.
Qed.

(** ** Types *)
Definition lossless (s : settings) (t : target) : Prop := forall y x0, all_scalars fine y -> typed nothing clear t y x0 ->
  exists x, typed nothing clear t y x /\ denotes (fun n => yaml_null n /\ seen_as_null n) seen_as_value t (seen s y) x.
Lemma fine_seq l : all_scalars fine (YSeq l) -> Forall (all_scalars fine) l.
Proof. cbn [all_scalars]. apply fold_Forall. Qed.
Lemma fine_map l : all_scalars fine (YMap l) -> Forall (fun x => all_scalars fine (fst x) /\ all_scalars fine (snd x)) l.
Proof. cbn [all_scalars]. apply (fold_Forall (fun x => all_scalars fine (fst x) /\ all_scalars fine (snd x))). Qed.
Lemma key_seen s name e : all_scalars fine (fst e) -> (key_is name (seen s (fst e), seen s (snd e)) <-> named name e) .
Proof.
  intros F. unfold key_is, named. cbn [fst]. split.
  - intros (w & E & R). destruct (fst e) as [|v|l|l|t y|id]; try contradiction F; try (rewrite ?seen_seq, ?seen_map in E; discriminate).
    injection E as <-. pose proof (resolves_unique _ _ _ R (sval_resolves s v)) as E. f_equal.
    destruct v as [|t|b|f|z].
    + discriminate.
    + rewrite reread_string in E by exact F. congruence.
    + destruct b; discriminate.
    + destruct f as [neg| |neg m e']; [contradiction|contradiction|].
      destruct (float_back neg m e') as [(z & _ & _ & E')|[_ E']]; rewrite <- E in E'; discriminate.
    + rewrite (reread_int z F) in E. discriminate.
  - intros E. rewrite E in *. exists (sval s (SString name)). split; [reflexivity|]. apply resolves_as, (reread_string name F).
Qed.
Lemma types_lossless s t : lossless s t.
Proof.
  induction t as [lo hi| | | | |t IH|t IH|k v IHk IHv|ts IH|fs IH|vs IH|] using target_induction; intros y x0 F T.
  - destruct T as (z & -> & -> & B). exists (VInt z). split; [exists z; auto|].
    exists (sval s (SInt z)), z. split; [reflexivity|]. split; [reflexivity|]. cbn [sval sv_value swrite snd].
    rewrite display_show_Z. split; [apply show_Z_signed|]. split; [exact B|].
    intros (r & E). unfold show_Z in E. destruct (z <? 0)%Z eqn:Z0; [lia|].
    exfalso. destruct (show_N_spec (Z.to_N z)) as [[_ D] _]. rewrite E in D. cbn [minus app] in D. inversion_clear D as [|? ? D1 _]. unfold dec_digit in D1. lia.
  - destruct T as (b & -> & ->). exists (VBool b). split; [exists b; auto|]. exists (sval s (SBool b)), b.
    split; [reflexivity|]. split; [reflexivity|]. destruct b; reflexivity.
  - destruct T as [(f & f' & -> & -> & _)|(z & -> & ->)].
    + destruct f as [neg| |neg m e]; [contradiction|contradiction|].
      destruct (float_read s neg m e F) as (f & S & R). exists (VFloat f). split; [left; eauto|].
      eexists _, f. split; [reflexivity|]. split; [reflexivity|exact R].
    + eexists. split; [right; eauto|]. eexists _, _. split; [reflexivity|]. split; [reflexivity|]. right. exists z.
      split; [|reflexivity]. apply resolves_as, (reread_int z F).
  - destruct T as (t & -> & ->). exists (VString t). split; [exists t; auto|]. exists (sval s (SString t)), t.
    split; [reflexivity|]. split; [reflexivity|]. apply resolves_as, (reread_string t F).
  - destruct T as [[] _].
  - destruct T as [[[] _]|(C & x' & -> & T)]. destruct (IH y x' F T) as (x & T' & D). exists (VSome x). split.
    + right. eauto.
    + right. split; [now apply clear_seen|]. eauto.
  - destruct T as (l & xs & -> & -> & T). apply fine_seq in F.
    assert (X : exists xs, Forall2 (typed nothing clear t) l xs /\ Forall2 (denotes (fun n => yaml_null n /\ seen_as_null n) seen_as_value t) (map (seen s) l) xs).
    { induction T as [|y x l xs T1 T IHl]; [exists []; split; constructor|]. inversion_clear F as [|? ? F1 F2].
      destruct (IH y x F1 T1) as (x' & A & B). destruct (IHl F2) as (xs' & A' & B'). exists (x' :: xs'). split; constructor; auto. }
    destruct X as (xs' & A & B). exists (VSeq xs'). split; [exists l, xs'; auto|]. rewrite seen_seq. exists 0, None, (map (seen s) l), xs'. auto.
  - destruct T as (l & xs & -> & -> & T). apply fine_map in F.
    assert (X : exists xs, Forall2 (fun e p => typed nothing clear k (fst e) (fst p) /\ typed nothing clear v (snd e) (snd p)) l xs /\
       Forall2 (fun e y => denotes (fun n => yaml_null n /\ seen_as_null n) seen_as_value k (fst e) (fst y) /\ denotes (fun n => yaml_null n /\ seen_as_null n) seen_as_value v (snd e) (snd y)) (map (fun x => (seen s (fst x), seen s (snd x))) l) xs).
    { induction T as [|y x l xs T1 T IHl]; [exists []; split; constructor|]. inversion_clear F as [|? ? F1 F2].
      destruct (IHk _ _ (proj1 F1) (proj1 T1)) as (x1 & A1 & B1). destruct (IHv _ _ (proj2 F1) (proj2 T1)) as (x2 & A2 & B2).
      destruct (IHl F2) as (xs' & A' & B'). exists ((x1, x2) :: xs'). split; constructor; auto. }
    destruct X as (xs' & A & B). exists (VMap xs'). split; [exists l, xs'; auto|]. rewrite seen_map.
    eexists 0, None, _, xs'. split; [reflexivity|]. split; [reflexivity|]. exact B.
  - destruct T as (l & xs & -> & -> & T). apply fine_seq in F. rewrite seen_seq.
    enough (X : exists x, typed nothing clear (DTuple ts) (YSeq l) x /\ denotes (fun n => yaml_null n /\ seen_as_null n) seen_as_value (DTuple ts) (NSeq 0 None (map (seen s) l)) x) by exact X.
    revert l xs F T. induction IH as [|t ts IHt IHts IHl]; intros [|y l] [|x xs] F T; try contradiction.
    + exists (VSeq []). split; [exists [], []; auto|]. exists 0, None, [], []. auto.
    + destruct T as [T1 T2]. inversion_clear F as [|? ? F1 F2]. destruct (IHt y x F1 T1) as (x' & A & B).
      destruct (IHl l xs F2 T2) as (xx & (l' & xs' & E & -> & A') & (a & g & n & xs'' & E' & E'' & B')).
      injection E as <-. injection E'' as <-. injection E' as <- <- <-. exists (VSeq (x' :: xs')). split.
      * exists (y :: l), (x' :: xs'). split; [reflexivity|]. split; [reflexivity|]. split; [exact A|exact A'].
      * exists 0, None, (map (seen s) (y :: l)), (x' :: xs'). split; [reflexivity|]. split; [reflexivity|]. split; [exact B|exact B'].
  - destruct T as (l & xs & -> & -> & N1 & N2 & K & T). apply fine_map in F. rewrite seen_map.
    assert (X : exists xs,
      (fix all fs xs := match fs, xs with
         | [], [] => True
         | (name, t) :: fs, (name', x) :: xs =>
             name = name' /\
             ((exists e, In e l /\ named name e /\ typed nothing clear t (snd e) x) \/
              (Forall (fun e => ~ named name e) l /\ (exists t', t = DOption t') /\ x = VNone)) /\
             all fs xs
         | _, _ => False
         end) fs xs /\
      (fix all fs xs := match fs, xs with
         | [], [] => True
         | (name, t) :: fs, (name', x) :: xs =>
             name = name' /\
             ((exists e, In e (map (fun x => (seen s (fst x), seen s (snd x))) l) /\ key_is name e /\ denotes (fun n => yaml_null n /\ seen_as_null n) seen_as_value t (snd e) x) \/
              (Forall (fun e => ~ key_is name e) (map (fun x => (seen s (fst x), seen s (snd x))) l) /\ (exists t', t = DOption t') /\ x = VNone)) /\
             all fs xs
         | _, _ => False
         end) fs xs).
    { clear N1 K. revert xs T. induction IH as [|[name t] fs IHt IHfs IHl]; intros [|[name' x] xs] T; try contradiction.
      - exists []. auto.
      - destruct T as (<- & T1 & T2). destruct (IHl xs T2) as (xs' & A & B).
        destruct T1 as [(e & He & Ne & Te)|(Ne & Oe & ->)].
        + rewrite Forall_forall in F. destruct (F e He) as [F1 F2]. destruct (IHt (snd e) x F2 Te) as (x' & A1 & B1).
          exists ((name, x') :: xs'). split; (split; [reflexivity|]); split; auto; left.
          * eauto.
          * exists (seen s (fst e), seen s (snd e)). split; [apply in_map_iff; eauto|]. split; [now apply (key_seen s)|exact B1].
        + exists ((name, VNone) :: xs'). split; (split; [reflexivity|]); split; auto; right; auto.
          split; [|auto]. apply Forall_map. rewrite Forall_forall in *. intros e He Ke. apply (Ne e He). apply (key_seen s); [exact (proj1 (F e He))|exact Ke]. }
    destruct X as (xs' & A & B). exists (VStruct xs'). split.
    + exists l, xs'. auto 10.
    + exists 0, None, (map (fun x => (seen s (fst x), seen s (snd x))) l), xs'. split; [reflexivity|]. split; [reflexivity|]. split; [exact N1|]. split; [|split; [|exact B]].
      * apply Forall_map. rewrite Forall_forall in *. intros e He. destruct (K e He) as (name & Ne & In_). exists name. split; [|exact In_].
        apply (key_seen s); [exact (proj1 (F e He))|exact Ne].
      * intros l1 e l2 name E Ke. apply map_eq_app in E. destruct E as (m1 & m2 & -> & <- & E). apply map_eq_cons in E.
        destruct E as (e' & m3 & -> & <- & <-). rewrite <- map_app. apply Forall_map. apply Forall_forall. intros e2 He2 Ke2.
        rewrite Forall_forall in F.
        assert (F1 : all_scalars fine (fst e')) by (apply F, in_app_iff; right; now left).
        assert (F2 : all_scalars fine (fst e2)) by (apply F; rewrite in_app_iff in *; cbn; tauto).
        apply (key_seen s) in Ke; [|exact F1]. apply (key_seen s) in Ke2; [|exact F2].
        rewrite map_app in N2. cbn [map] in N2. apply NoDup_remove_2 in N2. apply N2. rewrite <- map_app. apply in_map_iff.
        exists e2. split; [|exact He2]. unfold named in *. congruence.
  - destruct T as [(name & t & -> & -> & Hin & ND)|(name & c & x' & kind & t & -> & -> & ND & Hin & NK & T)].
    + exists (VEnum name VUnit). split; [left; eauto 10|]. left. exists (sval s (SString name)).
      split; [reflexivity|]. replace (sv_value (sval s (SString name))) with name by (symmetry; apply swrite_string).
      split; [reflexivity|]. exists t. clear IH F. induction vs as [|[n a] vs IHv]; [contradiction|]. cbn [assoc].
      destruct Hin as [E|Hin].
      * injection E as -> ->. now rewrite text_eqb_refl.
      * cbn [map fst] in ND. inversion_clear ND as [|? ? N1 N2]. destruct (text_eqb name n) eqn:E.
        -- apply text_eqb_iff in E. subst n. exfalso. apply N1. apply in_map_iff. exists (name, (KUnit, t)). auto.
        -- auto.
    + apply fine_map in F. inversion_clear F as [|? ? [F1 F2] _]. cbn [fst snd] in *.
      assert (X : exists x, (fix content vs := match vs with
           | [] => False
           | (name', (_, t)) :: vs => (name = name' /\ typed nothing clear t c x) \/ content vs
           end) vs /\
         (fix some_variant vs := match vs with
           | [] => False
           | (name', (kind, t)) :: vs =>
               (name = name' /\ kind <> KUnit /\ denotes (fun n => yaml_null n /\ seen_as_null n) seen_as_value t (seen s c) x) \/ (name <> name' /\ some_variant vs)
           end) vs).
      { clear F1. induction IH as [|[n [kd t']] vs IHt IHvs IHl]; [contradiction|]. cbn [map fst] in ND. inversion_clear ND as [|? ? N1 N2].
        destruct T as [[<- T]|T].
        - destruct (IHt c x' F2 T) as (x & A & B). exists x. split; [left; auto|]. left. split; [reflexivity|]. split; [|exact B].
          destruct Hin as [E|Hin]; [injection E; congruence|]. exfalso. apply N1. apply in_map_iff. eexists. split; [|exact Hin]. reflexivity.
        - assert (NE : name <> n).
          { intros ->. apply N1. clear - T. induction vs as [|[n' [k' t'']] vs I]; [contradiction|]. destruct T as [[-> _]|T]; [now left|right; auto]. }
          destruct Hin as [E|Hin]; [injection E; congruence|]. destruct (IHl N2 Hin T) as (x & A & B). exists x. split; [right; exact A|]. right. auto. }
      destruct X as (x & A & B). exists (VEnum name x). split.
      * right. exists name, c, x, kind, t. auto 10.
      * right. exists 0, None, (seen s (YScalar (SString name))), (seen s c), name, x. rewrite seen_map. split; [reflexivity|]. split; [reflexivity|].
        split; [|exact B]. apply (key_seen s name (YScalar (SString name), c)); [exact F1|reflexivity].
  - exists VIgnored. split; [reflexivity|]. reflexivity.
Qed.
Lemma typed_mono (null some null' some' : yaml -> Prop) :
  (forall y, null y -> null' y) -> (forall y, some y -> some' y) ->
  forall t y x, typed null some t y x -> typed null' some' t y x.
Proof.
  intros HN HS. induction t as [lo hi| | | | |t IH|t IH|k v IHk IHv|ts IH|fs IH|vs IH|] using target_induction; intros y x T; try exact T.
  - destruct T as [N E]. split; auto.
  - destruct T as [[N E]|(S & x' & E & T)]; [left; auto|right]. split; [auto|]. exists x'. auto.
  - destruct T as (l & xs & E1 & E2 & T). exists l, xs. split; [exact E1|]. split; [exact E2|]. revert T. now apply forall2_mono.
  - destruct T as (l & xs & E1 & E2 & T). exists l, xs. split; [exact E1|]. split; [exact E2|]. revert T. apply forall2_mono. intros e p [A B]. auto.
  - destruct T as (l & xs & E1 & E2 & T). exists l, xs. split; [exact E1|]. split; [exact E2|]. clear E1 E2.
    revert l xs T. induction IH as [|t ts Ht H I]; intros [|m l] [|z xs] T; try contradiction; [exact Logic.I|].
    destruct T as [T1 T2]. split; [now apply Ht|]. now apply I.
  - destruct T as (l & xs & E1 & E2 & N1 & N2 & K & T). exists l, xs. split; [exact E1|]. split; [exact E2|]. split; [exact N1|]. split; [exact N2|]. split; [exact K|].
    clear E1 E2 N1 N2 K. revert xs T. induction IH as [|[nm t] fs Ht H I]; intros [|[nm' z] xs] T; try contradiction; [exact Logic.I|].
    destruct T as (T1 & T2 & T3). split; [exact T1|]. split; [|now apply I].
    destruct T2 as [(e & I1 & K & T2)|T2]; [left|right; exact T2]. exists e. split; [exact I1|]. split; [exact K|]. now apply Ht.
  - destruct T as [T|(name & c & x' & kind & t & E1 & E2 & N & I1 & K & T)]; [left; exact T|right].
    exists name, c, x', kind, t. split; [exact E1|]. split; [exact E2|]. split; [exact N|]. split; [exact I1|]. split; [exact K|]. clear E1 E2 N I1 K.
    induction IH as [|[nm [kd t']] vs Ht H I]; [contradiction|]. destruct T as [(T1 & T2)|T]; [left; split; [exact T1|now apply Ht]|right; exact (I T)].
Qed.
Lemma fine_valid y : all_scalars fine y -> all_scalars valid_scalar y.
Proof.
  induction y as [| v | id | l IH | l IH | t y IH] using yaml_induction; intros V; try contradiction.
  - destruct v; cbn in *; auto.
  - apply fine_seq in V. cbn [all_scalars]. apply fold_Forall. rewrite Forall_forall in *. auto.
  - apply fine_map in V. cbn [all_scalars]. apply (fold_Forall (fun x => all_scalars valid_scalar (fst x) /\ all_scalars valid_scalar (snd x))).
    rewrite Forall_forall in *. intros x Hx. destruct (IH x Hx), (V x Hx). auto.
Qed.
Theorem from_dumped_typed s y t x0 fuel : accepts s = any_writer -> best_indent s = 2 ->
  all_scalars fine y -> (multiline_strings s = true -> fits_blocks y) -> scalar_keys (short_key s) y -> reads false t = true -> typed nothing clear t y x0 ->
  4 * List.length (dumped s y) + 4 < fuel ->
  exists x, from_text fuel t (dumped s y) = Ok (DOk x) /\ typed is_null no_null t y x.
Proof.
  intros W BI FN M SK R T F. destruct (types_lossless s t y x0 FN T) as (x & T' & D). exists x. split.
  - destruct (fits_legible s y W) as [L TF]; auto; [revert FN; now apply all_scalars_impl|]. now apply (from_dumped s y t x).
  - revert T'. apply typed_mono; [intros ? []|]. intros z C ->. apply C. now left.
Qed.
