(** Which values a JSON text is deserialised as. *)
From Verif Require Import Base Tokens Scalar Yaml Chars Source Cursor Scanner SpecScalar ScalarProofs ScalarTags.
From Verif Require Import SpecTree SpecStream SpecEvents Parser ParserRun ParserIter Loader SpecValue Pipeline ParserStream NodeScan.
From Verif Require Import Serde SpecSerde SerdeProofs FromText TextDocs LayoutSerde SpecJson SpecJsonSerde JsonScan JsonLoad JsonSerde.
From Verif Require Import SpecSerdeOnly SerdeOnly OnlyText SpecJsonOnly.
From Coq Require Import String Lia ZifyBool ZifyNat ZifyN.
Local Open Scope list_scope.

(** ** Scalars *)
Lemma resolved v y s : noted (NdScalar v) y -> resolves v s -> y = YScalar s.
Proof.
  intros N R. inversion N as [t s' W|x| |]; subst; unfold resolves in R.
  - pose proof (word_resolves _ _ W) as R'. unfold resolves in R'. congruence.
  - cbn in R. congruence.
Qed.
Lemma spelled v y : noted (NdScalar v) y -> json_spelling y (sv_value v).
Proof.
  intros N. inversion N as [t s' W|x| |]; subst; cbn [sv_value]; [|now left]. right. destruct W as [W|[[-> ->]|[[-> ->]|[-> ->]]]]; [left; eauto|right..]; auto.
Qed.
Lemma no_string_word t s : json_word t s -> t <> [] .
Proof. intros [N|[[-> _]|[[-> _]|[-> _]]]]; try discriminate. destruct N as [sg neg ds S D R|sg neg ds ft fp et e m S D]; destruct S, D; discriminate. Qed.
Lemma integer_given v y z : noted (NdScalar v) y -> signed dec_digit 10 (sv_value v) z ->
  y = YScalar (SInt z) \/ (exists neg m, y = YScalar (SFloat (FNum neg m 0)) /\ z = (if neg : bool then - Z.of_N m else Z.of_N m)%Z) \/
  (exists s, y = YScalar (SString s) /\ signed dec_digit 10 s z).
Proof.
  intros N S. inversion N as [t s' W|x| |]; subst; cbn [sv_value] in S; [|right; right; eauto]. pose proof (signed_bytes _ _ S) as B.
  destruct W as [W|[[-> ->]|[[-> ->]|[-> ->]]]];
    try (exfalso; cbn in B; apply Forall_inv in B; unfold dec_digit in B; lia).
  inversion W as [sg neg ds SG DS R|sg neg ds ft fp et e m SG DS FR EX O M]; subst.
  - left. destruct (natural_digits ds DS) as [NE DD]. inversion SG; subst; cbn [negated app].
    + now rewrite (signed_unique _ _ _ S (signed_none _ _ ds (conj NE DD))).
    + now rewrite (signed_unique _ _ _ S (signed_minus _ _ ds (conj NE DD))).
  - right. left. apply Forall_app in B. destruct B as [_ B]. apply Forall_app in B. destruct B as [_ B]. apply Forall_app in B. destruct B as [B1 B2].
    inversion FR; subst; [|apply Forall_inv in B1; unfold dec_digit in B1; lia].
    assert (et = [] /\ e = 0%Z) as [-> ->].
    { destruct EX as [|c sg' neg' ds' C _ _]; [auto|]. apply Forall_inv in B2. clear - B2 C. unfold dec_digit in B2. lia. }
    rewrite app_nil_r in M. cbn [app List.length] in S. rewrite app_nil_r in S. destruct (natural_digits ds DS) as [NE DD].
    exists neg, m. split; [reflexivity|]. rewrite M. inversion SG; subst; cbn [app] in S.
    + exact (signed_unique _ _ _ S (signed_none _ _ ds (conj NE DD))).
    + exact (signed_unique _ _ _ S (signed_minus _ _ ds (conj NE DD))).
Qed.
Lemma null_taken n y : noted n y -> taken_for_null (seen_node n) -> json_null y.
Proof.
  intros N (v & E & H). destruct n as [v'|id|a g l|a g l]; try discriminate E. injection E as ->. inversion N as [t s W|x| |]; subst; cbn [sv_value sv_tag] in H.
  - destruct H as [[E|[E|[]]]|(_ & g & H & _)]; [|..|discriminate H].
    + subst. elim (no_string_word _ _ W). reflexivity.
    + subst. destruct W as [W|[[_ ->]|[[E _]|[E _]]]]; [|now left|discriminate E..].
      exfalso. destruct (number_value _ _ W) as [_ V]. vm_compute in V. injection V as <-. inversion W.
  - destruct H as [[E|[E|[]]]|(_ & g & H & _)]; [..|discriminate H]; subst; unfold json_null; cbn; auto.
Qed.
Lemma null_is_taken n y : noted n y -> json_null y -> taken_for_null (seen_node n).
Proof.
  intros N [<-|[<-|[<-|[]]]]; [rewrite (noted_null _ N)|rewrite (noted_string _ _ N)..]; (eexists; split; [reflexivity|]); left; cbn; auto.
Qed.
Lemma scalar_back n v : seen_node n = NScalar v -> n = NdScalar v.
Proof. destruct n; try discriminate. now intros [= ->]. Qed.
Lemma seq_back n a g l y : noted n y -> seen_node n = NSeq a g l -> exists ns ys, l = map seen_node ns /\ y = YSeq ys /\ Forall2 noted ns ys.
Proof. intros N E. inversion N; subst; try discriminate E. injection E as <- <- <-. eauto. Qed.
Lemma map_back n a g l y : noted n y -> seen_node n = NMap a g l -> exists ns ys, l = map seen_pair ns /\ y = YMap ys /\ Forall2 member_noted ns ys.
Proof. intros N E. inversion N; subst; try discriminate E. injection E as <- <- <-. eauto. Qed.

(** ** Members *)
Theorem members_fields t : forall n y, noted n y -> members_known t y -> known_fields t (seen_node n).
Proof.
  induction t using target_induction; intros n y N K; cbn [known_fields members_known] in *; auto.
  - exact (IHt _ _ N K).
  - intros a g l E. destruct (seq_back _ _ _ _ _ N E) as (ns & ys & -> & -> & F). specialize (K _ eq_refl). clear N E.
    induction F as [|m z ns ys M F IH]; [constructor|]. constructor; [exact (IHt _ _ M (Forall_inv K))|exact (IH (Forall_inv_tail K))].
  - intros a g l E. destruct (map_back _ _ _ _ _ N E) as (ns & ys & -> & -> & F). specialize (K _ eq_refl). clear N E.
    induction F as [|m z ns ys M F IH]; [constructor|]. constructor; [|exact (IH (Forall_inv_tail K))]. apply Forall_inv in K. destruct K as [K1 K2].
    destruct M as (k & m' & z' & -> & -> & M). cbn [fst snd] in *. split; [exact (IHt1 (NdScalar (ScalarValue k DoubleQuote 0 None)) _ (nd_string k) K1)|exact (IHt2 _ _ M K2)].
  - intros a g l E. destruct (seq_back _ _ _ _ _ N E) as (ns & ys & -> & -> & F). specialize (K _ eq_refl). clear N E.
    revert ns ys F K. induction H as [|t ts Ht H IH]; intros ns ys F K; [exact I|]. destruct F as [|m z ns ys M F]; [exact I|]. destruct K as [K1 K2].
    split; [exact (Ht _ _ M K1)|exact (IH _ _ F K2)].
  - destruct K as (ND & NS & K). split; [exact ND|]. split.
    + intros a g l E. destruct (seq_back _ _ _ _ _ N E) as (ns & ys & _ & -> & _). exact (NS _ eq_refl).
    + intros a g l E. destruct (map_back _ _ _ _ _ N E) as (ns & ys & -> & -> & F). destruct (K _ eq_refl) as [K1 K2]. clear N E K ND NS. split.
      * rewrite Forall_forall in *. intros e I. apply in_map_iff in I. destruct I as (m & <- & I). destruct (members_from _ _ _ F I) as ([c z] & I' & M).
        destruct (K1 _ I') as (name & E & IN). exists name. split; [apply (key_of_member _ _ _ _ M); exact E|exact IN].
      * clear K1. induction H as [|[nm t] fs Ht H IH]; [exact I|]. destruct K2 as [K2 K3]. split; [|exact (IH K3)]. cbn [snd] in Ht.
        rewrite Forall_forall in *. intros e I KE. apply in_map_iff in I. destruct I as (m & <- & I). destruct (members_from _ _ _ F I) as ([c z] & I' & M).
        apply (key_of_member _ _ _ _ M) in KE. subst c. specialize (K2 _ I' eq_refl). destruct M as (k & m' & z' & -> & [= -> ->] & M). exact (Ht _ _ M K2).
Qed.
Lemma unique_back ns l : Forall2 member_noted ns l ->
  (forall l1 e l2 name, map seen_pair ns = l1 ++ e :: l2 -> key_is name e -> Forall (fun e => ~ key_is name e) (l1 ++ l2)) -> NoDup (map fst l).
Proof.
  intros F. induction F as [|n [c z] ns l M F IH]; intros U; [constructor|]. cbn [map fst]. constructor.
  - intros I. apply in_map_iff in I. destruct I as ([c' z'] & E & I). cbn [fst] in E. subst c'. destruct (members_in _ _ _ F I) as (m & IM & MM).
    destruct M as (k & m0 & z0 & -> & [= -> ->] & M).
    specialize (U [] (seen_pair (NdScalar (ScalarValue k DoubleQuote 0 None), m0)) (map seen_pair ns) k eq_refl). cbn [app] in U.
    assert (KE : key_is k (seen_pair (NdScalar (ScalarValue k DoubleQuote 0 None), m0))) by (eexists; split; reflexivity).
    specialize (U KE). rewrite Forall_forall in U. apply (U (seen_pair m)); [exact (in_map seen_pair _ _ IM)|]. now apply (key_of_member _ k _ _ MM).
  - apply IH. intros l1 e l2 name E K. specialize (U (seen_pair n :: l1) e l2 name). cbn [map app] in U. rewrite E in U. specialize (U eq_refl K). exact (Forall_inv_tail U).
Qed.

(** ** Values *)
Theorem denoted_given : forall t n y x, noted n y -> denotes taken_for_null (fun n => ~ taken_for_null n) t (seen_node n) x -> json_given false t y x.
Proof.
  induction t using target_induction; intros n y x N D; cbn [denotes json_given] in *.
  - destruct D as (v & z & E & -> & S & B & _). apply scalar_back in E. subst n. exists z. split; [reflexivity|]. split; [exact B|].
    destruct (integer_given _ _ _ N S) as [H|[H|H]]; auto.
  - destruct D as (v & b & E & -> & R). apply scalar_back in E. subst n. exists b. split; [exact (resolved _ _ _ N R)|reflexivity].
  - destruct D as (v & f & E & -> & R). apply scalar_back in E. subst n. exists f. split; [reflexivity|]. destruct R as [R|(z & R & ->)]; [left; exact (resolved _ _ _ N R)|].
    right. exists z. split; [exact (resolved _ _ _ N R)|reflexivity].
  - destruct D as (v & s & E & -> & R). apply scalar_back in E. subst n. exists s. split; [exact (resolved _ _ _ N R)|reflexivity].
  - destruct D as [D ->]. split; [|reflexivity]. right. split; [reflexivity|exact (null_taken _ _ N D)].
  - destruct D as [(D & ->)|(D & x' & -> & D')].
    + left. split; [|reflexivity]. right. split; [reflexivity|exact (null_taken _ _ N D)].
    + right. split; [intros ->; exact (D (null_is_taken _ _ N (or_introl eq_refl)))|]. split; [right; intros J; exact (D (null_is_taken _ _ N J))|]. exists x'. split; [reflexivity|exact (IHt _ _ _ N D')].
  - destruct D as (a & g & l & xs & E & -> & D). destruct (seq_back _ _ _ _ _ N E) as (ns & ys & -> & -> & F). exists ys, xs. split; [reflexivity|]. split; [reflexivity|].
    clear N E. revert xs D. induction F as [|m z ns ys M F IH]; intros xs D; inversion D as [|? ? ? ? D1 D2]; subst; [constructor|]. constructor; [exact (IHt _ _ _ M D1)|now apply IH].
  - destruct D as (a & g & l & xs & E & -> & D). destruct (map_back _ _ _ _ _ N E) as (ns & ys & -> & -> & F). exists ys, xs. split; [reflexivity|]. split; [reflexivity|].
    clear N E. revert xs D. induction F as [|m z ns ys M F IH]; intros xs D; inversion D as [|e p l0 xs0 [D1 D2] D3]; subst; [constructor|]. constructor; [|now apply IH].
    destruct M as (k & m' & z' & -> & -> & M). cbn [fst snd] in *. split; [|exact (IHt2 _ _ _ M D2)]. exact (IHt1 (NdScalar (ScalarValue k DoubleQuote 0 None)) _ _ (nd_string k) D1).
  - destruct D as (a & g & l & xs & E & -> & D). destruct (seq_back _ _ _ _ _ N E) as (ns & ys & -> & -> & F). exists ys, xs. split; [reflexivity|]. split; [reflexivity|].
    clear N E. revert ns ys xs F D. induction H as [|t ts Ht H IH]; intros ns ys xs F D; destruct F as [|m z ns ys M F], xs as [|x xs]; try contradiction; [exact I|].
    destruct D as [D1 D2]. split; [exact (Ht _ _ _ M D1)|]. exact (IH _ _ _ F D2).
  - destruct D as (a & g & l & xs & E & -> & ND & K & U & D). destruct (map_back _ _ _ _ _ N E) as (ns & ys & -> & -> & F). exists ys, xs. split; [reflexivity|]. split; [reflexivity|].
    split; [exact (unique_back _ _ F U)|]. split.
    + rewrite Forall_forall in *. intros [c z] I. destruct (members_in _ _ _ F I) as (m & IM & M). destruct (K _ (in_map seen_pair _ _ IM)) as (name & KE & IN).
      exists name. split; [|exact IN]. now apply (key_of_member _ _ _ _ M).
    + clear N E K U ND. revert xs D. induction H as [|[nm t] fs Ht H IH]; intros [|[nm' x] xs] D; try contradiction; [exact I|].
      destruct D as (D1 & D2 & D3). split; [exact D1|]. split; [|now apply IH].
      destruct D2 as [(e & IE & KE & D2)|(NI & O & E)].
      * left. apply in_map_iff in IE. destruct IE as (m & <- & IM). destruct (members_from _ _ _ F IM) as ([c z] & I' & M). apply (key_of_member _ _ _ _ M) in KE. subst c.
        exists z. split; [exact I'|]. destruct M as (k & m' & z' & -> & [= -> ->] & M). exact (Ht _ _ _ M D2).
      * right. split; [|auto]. intros I. apply in_map_iff in I. destruct I as ([c z] & E' & I). cbn [fst] in E'. subst c. destruct (members_in _ _ _ F I) as (m & IM & M).
        rewrite Forall_forall in NI. apply (NI (seen_pair m)); [exact (in_map seen_pair _ _ IM)|]. now apply (key_of_member _ nm _ _ M).
  - destruct D as [(v & E & -> & t & A)|(a & g & k & c & name & x' & E & -> & KE & D)].
    + apply scalar_back in E. subst n. left. exists (sv_value v), t. split; [right; split; [reflexivity|exact (spelled _ _ N)]|auto].
    + right. destruct (map_back _ _ _ _ _ N E) as (ns & ys & EL & -> & F). destruct F as [|m [c0 z] ns ys M F]; [discriminate EL|]. destruct F; [|discriminate EL].
      injection EL as -> ->. apply (key_of_member _ _ _ _ M) in KE. subst c0. exists name, z, x'. split; [reflexivity|]. split; [reflexivity|]. clear N E.
      destruct M as (k' & m' & z' & -> & [= -> ->] & M). cbn [fst snd] in *.
      induction H as [|[nm [kind t]] vs Ht H IH]; [contradiction|]. destruct D as [(D1 & D2 & D3)|(D1 & D2)]; [left|right; split; [exact D1|exact (IH D2)]].
      split; [exact D1|]. split; [exact D2|]. exact (Ht _ _ _ M D3).
  - exact D.
Qed.

(** ** Texts *)
Theorem json_only w y t x fuel : json_text false w y -> (N.of_nat (List.length w) < 4294967295)%N -> reads false t = true -> members_known t y ->
  12 * List.length w + 20 < fuel -> from_text fuel t w = Ok (DOk x) -> json_given false t y x.
Proof.
  intros J L R K F FT. destruct (json_text_scans w y fuel J L ltac:(clear - F; lia)) as (toks & z & tr & n & E & T & M & LT).
  assert (B : block_tree false tr) by (destruct M as (FL & _); destruct tr; try exact FL; contradiction).
  assert (NT : noted n y) by apply M.
  destruct (document_is_read fuel w toks z false n t E) as [X LF].
  - intros er mk. exact (doc_events toks er mk false tr n B (fun tags => proj1 (proj2 M) tags []) T).
  - apply M.
  - pose proof (tree_events_few tr false B (fun _ _ => None) [] _ (proj1 (proj2 M) _ _)) as FE.
    assert (LL : List.length (tree_toks tr) <= List.length toks).
    { rewrite <- (map_length k_type toks), T. unfold stream_toks, doc_toks. cbn [repeat app flat_map map d_dirs d_explicit d_root d_ends opt_list List.length].
      rewrite !app_length. clear. lia. }
    clear - FE LL LT F. lia.
  - rewrite X in FT. injection FT as FT. apply (denoted_given t n y x NT). rewrite <- (exactly t (seen_node n) x fuel [YDocEnd] YDocStart R (members_fields t n y NT K) LF). exact FT.
Qed.

(** ** Examples *)
Lemma digits_json : json_text false (str """7""") (YScalar (SString (str "7"))).
Proof.
  refine (jt_intro false [] (str """7""") _ [] (jw_none _) _ (jw_none _)). refine (j_string false (str "7") _ _).
  apply jc_byte; [vm_compute; discriminate|discriminate|discriminate|constructor].
Qed.
Lemma digits_no_integer : ~ json_given true (DInt 0 255) (YScalar (SString (str "7"))) (VInt 7).
Proof. intros (z & _ & _ & [H|[(neg & m & H & _)|(H & _)]]); discriminate H. Qed.
Lemma person_known : members_known person_type person_value.
Proof.
  cbn [members_known person_type]. split; [repeat constructor; cbn; intuition discriminate|]. split; [discriminate|]. intros l [= <-]. split.
  - repeat constructor; eexists; (split; [reflexivity|]); cbn; auto.
  - repeat split; repeat (apply Forall_cons; [|]); try apply Forall_nil; intros E; try discriminate E; cbn [snd members_known]; try exact I.
    + intros l [= <-]. repeat constructor.
    + intros l [= <-]. repeat constructor.
Qed.
