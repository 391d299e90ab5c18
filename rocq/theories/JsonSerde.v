(** Deserialising JSON texts. *)
From Verif Require Import Base Tokens Scalar Yaml Chars Source Cursor Scanner SpecScalar ScalarProofs ScalarTags.
From Verif Require Import SpecTree SpecStream SpecEvents Parser ParserRun ParserIter Loader SpecValue Pipeline ParserStream NodeScan.
From Verif Require Import Serde SpecSerde SerdeProofs FromText TextDocs LayoutSerde SpecJson SpecJsonSerde JsonScan JsonLoad.
From Coq Require Import String Lia ZifyBool ZifyNat ZifyN.
Local Open Scope list_scope.

(** ** Scalars *)
Lemma word_resolves t s : json_word t s -> resolves (ScalarValue t Plain 0 None) s.
Proof.
  intros [N|[[-> ->]|[[-> ->]|[-> ->]]]]; try reflexivity. destruct (number_value t s N) as [_ V]. revert V.
  unfold resolves, value_from_cow_and_metadata. cbn [sv_value sv_type sv_tag].
  destruct (parse_from_cow_and_metadata t Plain None) as [s'|]; [|discriminate]. now intros [= ->].
Qed.
Lemma word_integer t z : json_word t (SInt z) -> signed dec_digit 10 t z /\ ((exists r, t = minus ++ r) -> (z <= 0)%Z).
Proof.
  intros [N|[[-> E]|[[-> E]|[-> E]]]]; try discriminate. inversion N as [sg neg ds S D R|]; subst.
  destruct (natural_digits ds D) as [NE DD]. assert (NN : (0 <= number 10 ds)%Z) by (rewrite number_horner; lia). inversion S; subst; cbn [negated].
  - split; [now apply signed_none|]. intros (r & E). exfalso. destruct ds as [|d ds]; [congruence|]. injection E as -> ->. apply Forall_inv in DD. unfold dec_digit in DD. lia.
  - split; [now apply signed_minus|lia].
Qed.
Lemma word_no_string t s : ~ json_word t (SString s).
Proof. intros [N|[[_ E]|[[_ E]|[_ E]]]]; try discriminate. inversion N. Qed.

(** ** Values *)
Notation the_nulls := (fun n => yaml_null n /\ seen_as_null n).
Notation seen_pair := (fun x : vnode * vnode => (seen_node (fst x), seen_node (snd x))).
Lemma noted_scalar n s : noted n (YScalar s) -> exists v, n = NdScalar v /\ sv_tag v = None /\ resolves v s /\
  ((sv_type v = Plain /\ json_word (sv_value v) s) \/ s = SString (sv_value v)).
Proof.
  intros H. inversion H as [t s' W|x| |]; subst; eexists; (split; [reflexivity|]); (split; [reflexivity|]).
  - split; [now apply word_resolves|]. left. auto.
  - split; [reflexivity|]. now right.
Qed.
Lemma noted_string n s : noted n (YScalar (SString s)) -> n = NdScalar (ScalarValue s DoubleQuote 0 None).
Proof. intros H. inversion H as [t s' W|x| |]; subst; [elim (word_no_string _ _ W)|reflexivity]. Qed.
Lemma noted_null n : noted n (YScalar SNull) -> n = NdScalar (ScalarValue (str "null") Plain 0 None).
Proof. intros H. inversion H as [t s' W|x| |]; subst. destruct W as [N|[[-> _]|[[_ E]|[_ E]]]]; try discriminate; [inversion N|reflexivity]. Qed.
Lemma noted_seq n l : noted n (YSeq l) -> exists ns, n = NdSeq 0 None ns /\ Forall2 noted ns l.
Proof. intros H. inversion H; subst. eauto. Qed.
Definition member_noted (n : vnode * vnode) (y : yaml * yaml) : Prop :=
  exists k m z, n = (NdScalar (ScalarValue k DoubleQuote 0 None), m) /\ y = (YScalar (SString k), z) /\ noted m z.
Lemma noted_map n l : noted n (YMap l) -> exists ns, n = NdMap 0 None ns /\ Forall2 member_noted ns l.
Proof. intros H. inversion H; subst. eauto. Qed.
Lemma noted_value n y : noted n y -> y <> YScalar SNull -> ~ In y [YScalar (SString []); YScalar (SString (str "null"))] -> seen_as_value (seen_node n).
Proof.
  intros H NN NS. inversion H as [t s W|x|ns ys F|ns ys F]; subst; cbn [seen_node].
  - pose proof (word_resolves _ _ W) as R. assert (NU : ~ resolves (ScalarValue t Plain 0 None) SNull) by (intros R'; apply NN; unfold resolves in R, R'; congruence).
    assert (T : ~ In t [[]; str "null"]).
    { intros [<-|[<-|[]]].
      - destruct W as [N|[[E _]|[[E _]|[E _]]]]; try discriminate. destruct (number_value _ _ N) as [[_ B] _]. cbn in B. unfold dec_digit in B. lia.
      - apply NU. reflexivity. }
    split; [|split].
    + intros (v & [= <-] & [[_ E]|E]); [apply T; left; symmetry; exact E|exact (NU E)].
    + intros (v & [= <-] & _ & E). exact (T E).
    + now intros v [= <-].
  - split; [|split].
    + intros (v & [= <-] & [[E _]|E]); discriminate E.
    + intros (v & [= <-] & _ & E). apply NS. destruct E as [E|[E|[]]]; cbn [sv_value] in E; rewrite <- E; cbn; auto.
    + now intros v [= <-].
  - split; [|split]; [intros (v & E & _)|intros (v & E & _)|intros v E]; discriminate E.
  - split; [|split]; [intros (v & E & _)|intros (v & E & _)|intros v E]; discriminate E.
Qed.
Lemma key_of_member n name c z : member_noted n (c, z) -> (key_is name (seen_pair n) <-> c = YScalar (SString name)).
Proof.
  intros (k & m & z' & -> & [= -> ->] & _). unfold key_is. cbn [fst snd seen_node]. split.
  - intros (v & [= <-] & R). unfold resolves in R. cbn in R. congruence.
  - intros [= ->]. eexists. split; reflexivity.
Qed.
Lemma members_in ns l e : Forall2 member_noted ns l -> In e l -> exists n, In n ns /\ member_noted n e.
Proof. intros F. induction F as [|n y ns l M F IH]; [contradiction|]. intros [<-|I]; [exists n; split; [now left|exact M]|]. destruct (IH I) as (m & I' & M'). exists m. split; [now right|exact M']. Qed.
Lemma members_from ns l n : Forall2 member_noted ns l -> In n ns -> exists e, In e l /\ member_noted n e.
Proof. intros F. induction F as [|m y ns l M F IH]; [contradiction|]. intros [<-|I]; [exists y; split; [now left|exact M]|]. destruct (IH I) as (e & I' & M'). exists e. split; [now right|exact M']. Qed.
Lemma members_keys ns l e name : Forall2 member_noted ns l -> In e (map seen_pair ns) -> key_is name e -> In (YScalar (SString name)) (map fst l).
Proof.
  intros F I K. apply in_map_iff in I. destruct I as (m & <- & I). destruct (members_from _ _ _ F I) as ([c z] & I' & M).
  apply (key_of_member _ _ _ _ M) in K. subst c. exact (in_map fst _ _ I').
Qed.
Lemma unique_members ns l : Forall2 member_noted ns l -> NoDup (map fst l) ->
  forall l1 e l2 name, map seen_pair ns = l1 ++ e :: l2 -> key_is name e -> Forall (fun e => ~ key_is name e) (l1 ++ l2).
Proof.
  intros F. induction F as [|n [c z] ns l M F IH]; intros ND l1 e l2 name E K; [destruct l1; discriminate E|].
  cbn [map fst] in ND. apply NoDup_cons_iff in ND. destruct ND as [NI ND]. destruct l1 as [|e0 l1]; cbn [app map] in E; injection E as E1 E2.
  - cbn [app]. subst l2. rewrite Forall_forall. intros e' I' K'. apply NI. rewrite <- E1 in K. apply (key_of_member _ _ _ _ M) in K. subst c. exact (members_keys _ _ _ _ F I' K').
  - cbn [app]. constructor; [|exact (IH ND l1 e l2 name E2 K)]. intros K'. rewrite <- E1 in K'. apply (key_of_member _ _ _ _ M) in K'. subst c. apply NI.
    apply (members_keys _ _ e _ F); [rewrite E2; apply in_app_iff; right; now left|exact K].
Qed.

Theorem json_denotes : forall t n y x, noted n y -> json_is false t y x -> denotes the_nulls seen_as_value t (seen_node n) x.
Proof.
  induction t using target_induction; intros n y x N D.
  - destruct D as (z & -> & -> & B & Z0). destruct (noted_scalar _ _ N) as (v & -> & _ & _ & [[_ W]|E]); [|discriminate].
    destruct (word_integer _ _ W) as [S M]. cbn [seen_node denotes]. exists v, z. split; [reflexivity|]. split; [reflexivity|]. split; [exact S|]. split; [exact B|].
    intros E. specialize (M E). destruct Z0 as [Z0|[Z0|Z0]]; [discriminate|lia|exact Z0].
  - destruct D as (b & -> & ->). destruct (noted_scalar _ _ N) as (v & -> & _ & R & _). exists v, b. auto.
  - destruct D as (f & -> & D). destruct D as [->|(z & -> & ->)]; destruct (noted_scalar _ _ N) as (v & -> & _ & R & _); exists v; eexists; (split; [reflexivity|]); (split; [reflexivity|]); [now left|].
    right. exists z. auto.
  - destruct D as (s & -> & ->). destruct (noted_scalar _ _ N) as (v & -> & _ & R & _). exists v, s. auto.
  - destruct D as (-> & ->). rewrite (noted_null _ N). cbn [seen_node denotes]. split; [|reflexivity]. split.
    + eexists. split; [reflexivity|]. right. reflexivity.
    + eexists. split; [reflexivity|]. split; [reflexivity|]. cbn; auto.
  - destruct D as [(-> & ->)|(NN & NS & x' & -> & D)].
    + left. rewrite (noted_null _ N). split; [|reflexivity]. split.
      * eexists. split; [reflexivity|]. right. reflexivity.
      * eexists. split; [reflexivity|]. split; [reflexivity|]. cbn; auto.
    + right. destruct NS as [NS|NS]; [discriminate|]. split; [exact (noted_value _ _ N NN NS)|]. exists x'. split; [reflexivity|]. exact (IHt _ _ _ N D).
  - destruct D as (l & xs & -> & -> & D). destruct (noted_seq _ _ N) as (ns & -> & F). exists 0, None, (map seen_node ns), xs. split; [reflexivity|]. split; [reflexivity|].
    clear N. revert xs D. induction F as [|n y ns l M F IH]; intros xs D; inversion D as [|? ? ? ? D1 D2]; subst; [constructor|]. constructor; [exact (IHt _ _ _ M D1)|now apply IH].
  - destruct D as (l & xs & -> & -> & D). destruct (noted_map _ _ N) as (ns & -> & F). exists 0, None, (map seen_pair ns), xs. split; [reflexivity|]. split; [reflexivity|].
    clear N. revert xs D. induction F as [|n y ns l M F IH]; intros xs D; inversion D as [|e p l0 xs0 [D1 D2] D3]; subst; [constructor|]. constructor; [|now apply IH].
    destruct M as (k & m & z & -> & -> & M). cbn [fst snd] in *. split; [|exact (IHt2 _ _ _ M D2)]. exact (IHt1 (NdScalar (ScalarValue k DoubleQuote 0 None)) _ _ (nd_string k) D1).
  - destruct D as (l & xs & -> & -> & D). destruct (noted_seq _ _ N) as (ns & -> & F). exists 0, None, (map seen_node ns), xs. split; [reflexivity|]. split; [reflexivity|].
    clear N. revert ns l xs F D. induction H as [|t ts Ht H IH]; intros ns l xs F D; destruct F as [|n y ns l M F], xs as [|x xs]; try contradiction; [exact I|].
    destruct D as [D1 D2]. split; [exact (Ht _ _ _ M D1)|]. exact (IH _ _ _ F D2).
  - destruct D as (l & xs & -> & -> & ND & NL & K & D). destruct (noted_map _ _ N) as (ns & -> & F). exists 0, None, (map seen_pair ns), xs. split; [reflexivity|]. split; [reflexivity|].
    split; [exact ND|]. split; [|split].
    + rewrite Forall_forall in *. intros e I. apply in_map_iff in I. destruct I as (m & <- & I). destruct (members_from _ _ _ F I) as ([c z] & I' & M).
      destruct (K _ I') as (name & E & IN). exists name. split; [apply (key_of_member _ _ _ _ M); exact E|exact IN].
    + exact (unique_members ns l F NL).
    + clear N K NL ND. revert xs D. induction H as [|[nm t] fs Ht H IH]; intros [|[nm' x] xs] D; try contradiction; [exact I|].
      destruct D as (D1 & D2 & D3). split; [exact D1|]. split; [|now apply IH].
      destruct D2 as [(v & IV & D2)|(NI & O & E)].
      * left. destruct (members_in _ _ _ F IV) as (m & IM & M). exists (seen_pair m). split; [exact (in_map seen_pair _ _ IM)|]. split; [apply (proj2 (key_of_member _ nm _ _ M)); reflexivity|].
        destruct M as (k & m' & z & -> & [= -> ->] & M). exact (Ht _ _ _ M D2).
      * right. split; [|auto]. rewrite Forall_forall. intros e I KE. apply in_map_iff in I. destruct I as (m & <- & I). destruct (members_from _ _ _ F I) as ([c z] & I' & M).
        apply (key_of_member _ _ _ _ M) in KE. subst c. apply NI. exact (in_map fst _ _ I').
  - destruct D as [(s & -> & -> & D)|(name & c & x' & -> & -> & D)].
    + left. rewrite (noted_string _ _ N). eexists. split; [reflexivity|]. auto.
    + right. destruct (noted_map _ _ N) as (ns & -> & F). inversion F as [|m e ns' l M F']; subst. inversion F'; subst. destruct M as (k & m' & z & -> & [= -> ->] & M).
      exists 0, None, (NScalar (ScalarValue k DoubleQuote 0 None)), (seen_node m'), k, x'. split; [reflexivity|]. split; [reflexivity|].
      split; [eexists; split; reflexivity|]. clear N F F'.
      induction H as [|[nm [kind t]] vs Ht H IH]; [contradiction|]. destruct D as [(D1 & D2 & D3)|(D1 & D2)]; [left|right; split; [exact D1|exact (IH D2)]].
      split; [exact D1|]. split; [exact D2|]. exact (Ht _ _ _ M D3).
  - exact D.
Qed.

(** ** Texts *)
Theorem json_deserialises w y t x fuel : json_text false w y -> (N.of_nat (List.length w) < 4294967295)%N -> reads false t = true -> json_is false t y x ->
  12 * List.length w + 20 < fuel -> from_text fuel t w = Ok (DOk x).
Proof.
  intros J L R D F. destruct (json_text_scans w y fuel J L ltac:(clear - F; lia)) as (toks & z & tr & n & E & T & M & LT).
  assert (B : block_tree false tr) by (destruct M as (FT & _); destruct tr; try exact FT; contradiction).
  apply (from_document_events fuel w toks z false n t x E).
  - intros er mk. exact (doc_events toks er mk false tr n B (fun tags => proj1 (proj2 M) tags []) T).
  - apply M.
  - exact R.
  - apply (json_denotes t n y x); [apply M|exact D].
  - pose proof (tree_events_few tr false B (fun _ _ => None) [] _ (proj1 (proj2 M) _ _)) as FE.
    assert (LL : List.length (tree_toks tr) <= List.length toks).
    { rewrite <- (map_length k_type toks), T. unfold stream_toks, doc_toks. cbn [repeat app flat_map map d_dirs d_explicit d_root d_ends opt_list List.length].
      rewrite !app_length. clear. lia. }
    clear - FE LL LT F. lia.
Qed.

(** ** Examples *)
Lemma letters_json t : Forall (fun b => 97 <= b <= 122)%N t -> json_chars false t t.
Proof. induction 1 as [|b t B _ IH]; [constructor|]. apply jc_byte; [lia|lia|lia|exact IH]. Qed.
Lemma null_string_json : json_text false (str """null""") (YScalar (SString (str "null"))).
Proof.
  refine (jt_intro false [] (str """null""") _ [] (jw_none _) _ (jw_none _)). refine (j_string false (str "null") _ _).
  apply letters_json. cbn. repeat (constructor; [lia|]). constructor.
Qed.
Lemma null_string_refutes fuel : from_text fuel (DOption DString) (str """null""") <> Ok (DOk (VSome (VString (str "null")))).
Proof. do 30 (destruct fuel as [|fuel]; [vm_compute; discriminate|]). vm_compute. discriminate. Qed.
Lemma minus_zero_json : json_text false (str "-0") (YScalar (SInt 0)).
Proof.
  refine (jt_intro false [] (str "-0") _ [] (jw_none _) _ (jw_none _)). apply j_number.
  refine (jn_integer minus true [48%N] jsg_minus jnat_zero _). unfold i64_range. cbn. lia.
Qed.
Lemma minus_zero_refutes fuel : from_text fuel (DInt 0 255) (str "-0") <> Ok (DOk (VInt 0)).
Proof. do 30 (destruct fuel as [|fuel]; [vm_compute; discriminate|]). vm_compute. discriminate. Qed.
Definition person : text := str "{""tags"":[1,-2], ""note"": null,""in"":{""x"":true}}".
Definition person_value : yaml :=
  YMap [(YScalar (SString (str "tags")), YSeq [YScalar (SInt 1); YScalar (SInt (-2))]);
    (YScalar (SString (str "note")), YScalar SNull);
    (YScalar (SString (str "in")), YMap [(YScalar (SString (str "x")), YScalar (SBool true))])].
Definition person_type : target :=
  DStruct [(str "note", DOption DString); (str "nick", DOption DString); (str "tags", DVec (DInt (-128) 127)); (str "in", DMap DString DBool)].
Definition person_read : value :=
  VStruct [(str "note", VNone); (str "nick", VNone); (str "tags", VSeq [VInt 1; VInt (-2)]); (str "in", VMap [(VString (str "x"), VBool true)])].
Lemma person_json : json_text false person person_value.
Proof.
  assert (SP : json_white false [32%N]) by (apply jw_byte; [cbn; auto|constructor]).
  assert (AC : forall full v, after_colon full [] v) by (intros; right; now left).
  refine (jt_intro false [] person _ [] (jw_none _) _ (jw_none _)).
  refine (j_object false (str """tags"":[1,-2], ""note"": null,""in"":{""x"":true}") _ _).
  refine (jm_more false [] (str "tags") (str "tags") [] [] (str "[1,-2]") _ [] (str " ""note"": null,""in"":{""x"":true}") _ (jw_none _) _ (jw_none _) (jw_none _) (AC _ _) _ (jw_none _) _).
  - apply letters_json. cbn. repeat (constructor; [lia|]). constructor.
  - refine (j_array false (str "1,-2") _ _). refine (je_more false [] (str "1") _ [] (str "-2") _ (jw_none _) _ (jw_none _) _).
    + apply j_number. refine (jn_integer [] false [49%N] jsg_none _ _); [apply jnat_more; [lia|constructor]|]. unfold i64_range. cbn. lia.
    + refine (je_last false [] (str "-2") _ [] (jw_none _) _ (jw_none _)). apply j_number.
      refine (jn_integer minus true [50%N] jsg_minus _ _); [apply jnat_more; [lia|constructor]|]. unfold i64_range. cbn. lia.
  - refine (jm_more false [32%N] (str "note") (str "note") [] [32%N] (str "null") _ [] (str """in"":{""x"":true}") _ SP _ (jw_none _) SP _ _ (jw_none _) _).
    + apply letters_json. cbn. repeat (constructor; [lia|]). constructor.
    + right. right. left. intros H. inversion H. discriminate.
    + constructor.
    + refine (jm_last false [] (str "in") (str "in") [] [] (str "{""x"":true}") _ [] (jw_none _) _ (jw_none _) (jw_none _) (AC _ _) _ (jw_none _)).
      * apply letters_json. cbn. repeat (constructor; [lia|]). constructor.
      * refine (j_object false (str """x"":true") _ _).
        refine (jm_last false [] (str "x") (str "x") [] [] (str "true") _ [] (jw_none _) _ (jw_none _) (jw_none _) (AC _ _) _ (jw_none _)).
        -- apply letters_json. cbn. repeat (constructor; [lia|]). constructor.
        -- constructor.
Qed.
Lemma person_is : json_is false person_type person_value person_read.
Proof.
  cbn [json_is person_type]. eexists. eexists. split; [reflexivity|]. split; [reflexivity|].
  split; [cbn; repeat constructor; cbn; intuition discriminate|]. split; [cbn; repeat constructor; cbn; intuition discriminate|].
  split; [repeat constructor; eexists; (split; [reflexivity|]); cbn; auto|].
  split; [reflexivity|]. split; [left; eexists; split; [right; left; reflexivity|left; auto]|].
  split; [reflexivity|]. split; [right; split; [cbn; intuition discriminate|]; split; [eexists; reflexivity|reflexivity]|].
  split; [reflexivity|]. split.
  { left. eexists. split; [left; reflexivity|]. eexists. eexists. split; [reflexivity|]. split; [reflexivity|].
    constructor; [exists 1%Z|constructor; [exists (-2)%Z|constructor]]; (split; [reflexivity|]); (split; [reflexivity|]); lia. }
  split; [reflexivity|]. split; [|exact I].
  left. eexists. split; [right; right; left; reflexivity|]. eexists. eexists. split; [reflexivity|]. split; [reflexivity|].
  constructor; [|constructor]. split; eexists; split; reflexivity.
Qed.
