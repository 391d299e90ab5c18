(** Deserialising what was serialised. *)
From Verif Require Import Base Tokens Scalar Yaml Loader Emitter Chars SpecScalar SpecEmit SpecQuoted SpecValue SpecRoundTrip NodeScan RoundTripScalars RoundTrip RoundTripExact ScalarProofs ScalarTags EmitterProofs EmitterStated ExactCursor ExactPlain.
From Verif Require Import ParserIter Serde SpecSerde SerdeProofs FromText TextDocs SpecFromText FromTextProofs ScalarDocsRead SerdeSer SpecSer SpecSerRead.
From Coq Require Import String Lia ZifyBool ZifyNat ZifyN List.
Local Open Scope list_scope.

(** The written text is a scalar document and reads as the value; in an option too, if [some]. *)
Definition fits (some : Prop) (fuel : nat) (w : text) (t : target) (x : value) : Prop :=
  exists st v, scalar_doc fuel w st v /\ reads true t = true /\ reads false t = true /\
    denotes (fun n => yaml_null n /\ seen_as_null n) seen_as_value t (NScalar (ScalarValue v st 0 None)) x /\
    (some -> seen_as_value (NScalar (ScalarValue v st 0 None))).
Lemma fits_from (some : Prop) fuel w t x : fits some fuel w t x -> 5 <= fuel -> from_text fuel t w = Ok (DOk x).
Proof. intros (st & v & S & _ & R & D & _) F. exact (from_scalar fuel w st v t x S F R D). Qed.
Lemma fits_from_some (some : Prop) fuel w t x : fits some fuel w t x -> some -> 5 <= fuel -> from_text fuel (DOption t) w = Ok (DOk (VSome x)).
Proof.
  intros (st & v & S & R & _ & D & V) O F. apply (from_scalar fuel w st v (DOption t) (VSome x) S F); [exact R|].
  right. split; [exact (V O)|]. exists x. auto.
Qed.
Lemma resolves_null w : null_spelling w -> resolves (ScalarValue w Plain 0 None) SNull.
Proof. intros H. unfold resolves. cbn [sv_value sv_type sv_tag]. destruct H as [<-|[<-|[<-|[<-|[]]]]]; reflexivity. Qed.
Lemma plain_value_seen w : w <> [] -> ~ null_spelling w -> seen_as_value (NScalar (ScalarValue w Plain 0 None)).
Proof.
  intros NE H. split; [|split].
  - intros (v & E & N). injection E as <-. cbn [sv_type sv_value] in N. destruct N as [[_ N]|N].
    + contradiction.
    + apply H, null_spellings. unfold resolves in N. cbn [sv_value sv_type sv_tag] in N.
      unfold value_from_cow_and_metadata. rewrite N. reflexivity.
  - intros (v & E & _ & N). injection E as <-. cbn [sv_value] in N. destruct N as [<-|[<-|[]]]; [contradiction|]. apply H. right. now left.
  - intros v E. injection E as <-. reflexivity.
Qed.
Lemma resolved_value_seen w s : resolves (ScalarValue w Plain 0 None) s -> s <> SNull -> (forall t, s <> SString t) ->
  seen_as_value (NScalar (ScalarValue w Plain 0 None)).
Proof.
  intros R N1 N2. apply plain_value_seen.
  - intros ->. apply (N2 []). eapply resolves_unique; [exact R|reflexivity].
  - intros H. apply N1. eapply resolves_unique; [exact R|]. now apply resolves_null.
Qed.
Lemma number_value_seen w z : signed dec_digit 10 w z -> seen_as_value (NScalar (ScalarValue w Plain 0 None)).
Proof.
  intros H. apply plain_value_seen.
  - intros ->. inversion H as [ds [A _] E| |]. contradiction.
  - intros N.
    assert (X : forall ds, w = ds -> all_digits dec_digit ds -> False).
    { intros ds -> [_ A]. destruct N as [<-|[<-|[<-|[<-|[]]]]]; inversion_clear A as [|? ? A1 _]; unfold dec_digit in A1; lia. }
    inversion H as [ds A E|ds A E|ds A E]; subst.
    + eapply X; eauto.
    + destruct N as [N|[N|[N|[N|[]]]]]; discriminate.
    + destruct N as [N|[N|[N|[N|[]]]]]; discriminate.
Qed.
Lemma quoted_value st v : st <> Plain -> ~ In v [[]; str "null"] -> seen_as_value (NScalar (ScalarValue v st 0 None)).
Proof.
  intros ST H. split; [|split].
  - intros (w & E & N). injection E as <-. cbn [sv_type sv_value] in N. destruct N as [[N _]|N]; [congruence|].
    unfold resolves in N. cbn [sv_value sv_type sv_tag] in N. destruct st; try congruence; discriminate N.
  - intros (w & E & _ & N). injection E as <-. exact (H N).
  - intros w E. injection E as <-. reflexivity.
Qed.
Lemma quoted_string st v : st <> Plain -> denotes (fun n => yaml_null n /\ seen_as_null n) seen_as_value DString (NScalar (ScalarValue v st 0 None)) (VString v).
Proof. intros ST. exists (ScalarValue v st 0 None), v. split; [reflexivity|]. split; [reflexivity|]. destruct st; try congruence; reflexivity. Qed.
Lemma utf8_bytes c : ~ In c [10; 13; 0]%N -> c <> 39%N -> ~ In 10%N (utf8 c) /\ ~ In 13%N (utf8 c) /\ ~ In 0%N (utf8 c) /\
  in_single_quotes (utf8 c) = [39%N] ++ utf8 c ++ [39%N] /\ ~ In (utf8 c) [[]; str "null"].
Proof.
  intros N Q. unfold utf8. change (str "null") with [110; 117; 108; 108]%N.
  assert (X : forall a, ((128 <= a) -> a <> 10 /\ a <> 13 /\ a <> 0 /\ a <> 110 /\ (a =? 39) = false)%N) by (intros; lia).
  assert (Y : forall k x, (128 <= k -> k + x <> 10 /\ k + x <> 13 /\ k + x <> 0 /\ k + x <> 110 /\ (k + x =? 39) = false)%N) by (intros; apply X; lia).
  clear X. generalize (c / 64)%N (c mod 64)%N (c / 4096)%N ((c / 64) mod 64)%N (c / 262144)%N ((c / 4096) mod 64)%N. intros x1 x2 x3 x4 x5 x6.
  assert (A1 := Y 192%N x1 ltac:(lia)). assert (A2 := Y 128%N x2 ltac:(lia)). assert (A3 := Y 224%N x3 ltac:(lia)).
  assert (A4 := Y 128%N x4 ltac:(lia)). assert (A5 := Y 240%N x5 ltac:(lia)). assert (A6 := Y 128%N x6 ltac:(lia)). clear Y.
  destruct (c <? 128)%N; [|destruct (c <? 2048)%N; [|destruct (c <? 65536)%N]]; unfold in_single_quotes; cbn [double_quotes In app].
  - cbn [In] in N. rewrite (proj2 (N.eqb_neq c 39) Q). repeat split; intuition congruence.
  - destruct A1 as (? & ? & ? & ? & ->), A2 as (? & ? & ? & ? & ->). repeat split; intuition congruence.
  - destruct A3 as (? & ? & ? & ? & ->), A2 as (? & ? & ? & ? & ->), A4 as (? & ? & ? & ? & ->). repeat split; intuition congruence.
  - destruct A5 as (? & ? & ? & ? & ->), A2 as (? & ? & ? & ? & ->), A4 as (? & ? & ? & ? & ->), A6 as (? & ? & ? & ? & ->).
    repeat split; intuition congruence.
Qed.
Lemma null_plain : plain_text (str "null").
Proof.
  change (str "null") with [110; 117; 108; 108]%N. split; [split; [|split; unfold blank_byte; cbn; lia]|split; cbn; lia].
  repeat apply Forall_cons; try apply Forall_nil; unfold inner_byte; cbn; lia.
Qed.

Lemma simple_fits f v w t x0 fuel : returns f v -> serialize f v = Ok w -> same_value v t x0 -> List.length w + 5 < fuel ->
  exists x, same_value v t x /\ ((exists t', t = DOption t' /\ v = SerNone /\ x = VNone /\ w = str "null") \/ fits (returns_some f v) fuel w t x).
Proof.
  intros R E S F. destruct v as [b|z|fl|c|ws| | |v].
  - destruct S as [-> ->]. exists (VBool b). split; [split; reflexivity|]. right. injection E as <-.
    exists Plain, (if b then str "true" else str "false"). split; [|split; [reflexivity|split; [reflexivity|]]].
    + apply plain_scalar_doc; [|exact F]. apply simple_plain. destruct b; cbn; auto.
    + split; [eexists _, b; split; [reflexivity|]; split; [reflexivity|]; destruct b; reflexivity|].
      intros _. apply (resolved_value_seen _ (SBool b)); [destruct b; reflexivity|discriminate|discriminate].
  - destruct S as (lo & hi & -> & B & ->). exists (VInt z). split; [exists lo, hi; auto|]. right. injection E as <-.
    exists Plain, (display_Z z). split; [|split; [reflexivity|split; [reflexivity|]]].
    + apply plain_scalar_doc; [apply display_Z_plain|exact F].
    + split; [|intros _; apply (number_value_seen _ z); rewrite display_show_Z; apply show_Z_signed].
      eexists _, z. split; [reflexivity|]. split; [reflexivity|]. cbn [sv_value].
      rewrite display_show_Z. split; [apply show_Z_signed|]. split; [exact B|].
      intros (r & E). unfold show_Z in E. destruct (z <? 0)%Z eqn:Z0; [lia|].
      exfalso. destruct (show_N_spec (Z.to_N z)) as [[_ D] _]. rewrite E in D. cbn [minus app] in D.
      inversion_clear D as [|? ? D1 _]. unfold dec_digit in D1. lia.
  - destruct fl as [neg| |neg m e]; [contradiction|contradiction|]. destruct S as [-> (f' & -> & _)]. injection E as <-.
    destruct (float_read (Emitter.default_settings Emitter.any_writer) neg m e R) as (g & SM & RS). exists (VFloat g). split; [split; [reflexivity|]; exists g; auto|]. right.
    exists Plain, (display_f64 (FNum neg m e)). split; [|split; [reflexivity|split; [reflexivity|]]].
    + apply plain_scalar_doc; [apply display_f64_plain|exact F].
    + split; [eexists _, g; split; [reflexivity|]; split; [reflexivity|]; exact RS|].
      intros _. destruct RS as [RS|(z & RS & _)]; (eapply resolved_value_seen; [exact RS|discriminate|discriminate]).
  - destruct S as [-> ->]. exists (VString (utf8 c)). split; [split; reflexivity|]. right. cbn [serialize] in E.
    destruct (N.eq_dec c 39) as [->|N39].
    + injection E as <-. exists DoubleQuote, [39%N]. split; [|split; [reflexivity|split; [reflexivity|]]].
      * apply (double_lines_doc fuel [39%N] []); [repeat constructor; cbn; intuition discriminate|constructor|exact I|cbn in *; lia].
      * split; [now apply quoted_string|]. intros _. apply quoted_value; [discriminate|]. intros [H|[H|[]]]; discriminate.
    + replace (c =? 39)%N with false in E by lia. injection E as <-.
      destruct (utf8_bytes c R N39) as (B1 & B2 & B3 & B4 & B5). cbn [app] in B4.
      exists SingleQuote, (utf8 c). split; [|split; [reflexivity|split; [reflexivity|]]].
      * rewrite <- B4 in *. apply single_doc; auto. lia.
      * split; [now apply quoted_string|]. intros _. now apply quoted_value.
  - destruct S as [-> ->]. cbn [returns] in R. destruct R as (NE & P & B & M).
    exists (VString (List.concat (map fst ws))). split; [split; reflexivity|]. right.
    destruct (serialized_doc f ws _ fuel NE eq_refl P B M) as (w' & E' & D). rewrite E in E'. injection E' as <-.
    exists DoubleQuote, (List.concat (map fst ws)). split; [apply D; lia|]. split; [reflexivity|]. split; [reflexivity|].
    split; [now apply quoted_string|]. intros [_ O]. now apply quoted_value.
  - destruct S as [-> ->]. cbn [serialize returns] in *. injection E as <-. rewrite R in *. exists VUnit. split; [split; reflexivity|]. right.
    exists Plain, (str "null"). split; [|split; [reflexivity|split; [reflexivity|]]].
    + apply plain_scalar_doc; [exact null_plain|exact F].
    + split; [|intros []]. split; [|reflexivity]. split.
      * exists (ScalarValue (str "null") Plain 0 None). split; [reflexivity|]. right. reflexivity.
      * exists (ScalarValue (str "null") Plain 0 None). split; [reflexivity|]. split; [reflexivity|]. right. now left.
  - destruct S as (t' & -> & ->). cbn [serialize returns] in *. injection E as <-. exists VNone. split; [exists t'; auto|]. left. exists t'. auto.
  - contradiction.
Qed.
Theorem serialized_read f v w t x0 fuel : comes_back_as_it_was f v -> serialize f v = Ok w -> same_value v t x0 ->
  List.length w + 5 < fuel -> (v = SerNone -> reads false t = true) ->
  exists x, same_value v t x /\ from_text fuel t w = Ok (DOk x).
Proof.
  intros C E S F RN.
  assert (SI : forall v t x0, returns f v -> serialize f v = Ok w -> same_value v t x0 ->
     (v = SerNone -> reads false t = true) ->
     exists x, same_value v t x /\ from_text fuel t w = Ok (DOk x)).
  { clear v t x0 C E S RN. intros v t x0 R E S RN. destruct (simple_fits f v w t x0 fuel R E S F) as (x & SV & [(t' & -> & -> & -> & ->)|X]).
    - exists VNone. split; [exact SV|]. apply (from_scalar fuel _ Plain (str "null")).
      + apply plain_scalar_doc; [exact null_plain|exact F].
      + lia.
      + exact (RN eq_refl).
      + left. split; [|reflexivity]. split.
        * exists (ScalarValue (str "null") Plain 0 None). split; [reflexivity|]. right. reflexivity.
        * exists (ScalarValue (str "null") Plain 0 None). split; [reflexivity|]. split; [reflexivity|]. right. now left.
    - exists x. split; [exact SV|]. eapply fits_from; [exact X|lia]. }
  destruct v as [b|z|fl|c|ws| | |v]; try (eapply SI; eassumption).
  destruct S as (t' & x' & -> & -> & S). cbn [comes_back_as_it_was] in C. cbn [serialize] in E.
  assert (R : returns f v) by (destruct v; try contradiction; try exact C; exact (proj1 C)).
  destruct (simple_fits f v w t' x' fuel R E S F) as (x & SV & [(t2 & _ & -> & _)|X]); [contradiction|].
  exists (VSome x). split; [exists t', x; auto|]. eapply fits_from_some; [exact X|exact C|lia].
Qed.
