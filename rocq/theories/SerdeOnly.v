(** What is deserialised is what the node denotes. *)
From Verif Require Import Base Tokens Scalar ParserIter SpecScalar ScalarProofs Serde SpecSerde SerdeProofs SpecSerdeOnly.
From Coq Require Import String Lia ZifyBool ZifyNat ZifyN.
Local Open Scope list_scope.

Lemma dbind_inv {A B} (m : DM A) (k : A -> DM B) d d' b : dbind m k d = (d', DOk b) -> exists a d1, m d = (d1, DOk a) /\ k a d1 = (d', DOk b).
Proof. unfold dbind. destruct (m d) as [d1 [a|e| |]]; intros E; try discriminate E. eauto. Qed.

(** ** Nulls *)
Lemma taken_iff v : sv_is_null v = true <-> taken_for_null (NScalar v).
Proof.
  unfold sv_is_null, is_null_tagged, taken_for_null. split.
  - intros H. exists v. split; [reflexivity|]. destruct (text_eqb (sv_value v) [] || text_eqb (sv_value v) (str "null")) eqn:E.
    + left. apply orb_prop in E. destruct E as [E|E]; apply text_eqb_iff in E; rewrite E; cbn; auto.
    + right. apply orb_false_iff in E. destruct E as [_ E]. destruct (sv_tag v) as [g|].
      * destruct (is_yaml_core_schema g) eqn:C; [|discriminate]. rewrite E, orb_false_r in H. apply text_eqb_iff in H. split; [exact H|]. exists g. split; [reflexivity|].
        unfold is_yaml_core_schema in C. now apply text_eqb_iff in C.
      * exfalso. revert H. vm_compute (is_yaml_core_schema _). discriminate.
  - intros (v' & [= <-] & [I|(E & g & T & G)]).
    + destruct I as [<-|[<-|[]]]; reflexivity.
    + rewrite E, T. unfold is_yaml_core_schema. rewrite G. reflexivity.
Qed.
Lemma taken_null_ok : null_ok taken_for_null.
Proof. intros n H. pose proof H as (v & -> & _). exists v. split; [reflexivity|now apply taken_iff]. Qed.
Lemma taken_some_ok : some_ok (fun n => ~ taken_for_null n).
Proof. intros n H v ->. destruct (sv_is_null v) eqn:E; [elim H; now apply taken_iff|reflexivity]. Qed.

(** ** Scalars *)
Lemma parse_int_only lo hi t z : parse_int lo hi t = Some z ->
  signed dec_digit 10 t z /\ (lo <= z <= hi)%Z /\ ((exists r, t = minus ++ r) -> lo < 0)%Z.
Proof.
  unfold parse_int. intros H.
  assert (G : forall (neg : bool) ds, match ds with [] => None | _ => if forallb is_ascii_digit ds then
      let z := (if neg then - Z.of_N (digits_num ds) else Z.of_N (digits_num ds))%Z in if ((lo <=? z) && (z <=? hi))%Z then Some z else None else None end = Some z ->
      all_digits dec_digit ds /\ z = (if neg then - number 10 ds else number 10 ds)%Z /\ (lo <= z <= hi)%Z).
  { intros neg ds E. destruct ds as [|c r]; [discriminate|]. destruct (forallb is_ascii_digit (c :: r)) eqn:F; [|discriminate].
    assert (D : Forall dec_digit (c :: r)) by (apply Forall_forall; intros x I; rewrite forallb_forall in F; apply is_ascii_digit_iff; now apply F).
    cbv zeta in E. rewrite (digits_num_number _ D) in E. split; [split; [discriminate|exact D]|].
    destruct neg; match type of E with (if ?c then _ else _) = _ => destruct c eqn:R end; try discriminate E; injection E as <-; (split; [reflexivity|lia]). }
  destruct t as [|c r]; [discriminate|]. destruct (N.eq_dec c 43) as [->|N1].
  { apply (G false) in H. destruct H as (D & -> & R). split; [exact (signed_plus dec_digit 10 r D)|]. split; [exact R|]. intros (r' & E). discriminate E. }
  destruct (N.eq_dec c 45) as [->|N2].
  { destruct (lo <? 0)%Z eqn:L; [apply (G true) in H|apply (G false (45%N :: r)) in H]; destruct H as (D & -> & R).
    - split; [exact (signed_minus dec_digit 10 r D)|]. split; [exact R|]. intros _. lia.
    - exfalso. destruct D as [_ D]. apply Forall_inv in D. unfold dec_digit in D. lia. }
  assert (Q : match c :: r with
             | 43%N :: r => (false, r)
             | 45%N :: r => if (lo <? 0)%Z then (true, r) else (false, c :: 45%N :: r)
             | _ => (false, c :: r)
             end = (false, c :: r)).
  { destruct c as [|p]; [reflexivity|]. do 6 (destruct p as [p|p|]; try reflexivity; try congruence). }
  assert (H' : match c :: r with [] => None | _ => if forallb is_ascii_digit (c :: r) then
      let z := (if false then - Z.of_N (digits_num (c :: r)) else Z.of_N (digits_num (c :: r)))%Z in if ((lo <=? z) && (z <=? hi))%Z then Some z else None else None end = Some z).
  { rewrite <- H. clear H G Q. destruct c as [|p]; [reflexivity|]. do 6 (destruct p as [p|p|]; try reflexivity; try congruence). }
  apply (G false (c :: r)) in H'. destruct H' as (D & -> & R). split; [exact (signed_none dec_digit 10 _ D)|]. split; [exact R|]. intros (r' & E). injection E as -> _. congruence.
Qed.
Lemma any_scalar_only visit p n rest last d x : deserialize_any visit no_visit no_visit (at_node p n rest last) = (d, DOk x) ->
  exists v s, n = NScalar v /\ resolves v s /\ visit s = Some x /\ d = Des rest (last_ev n) false.
Proof.
  unfold deserialize_any. rewrite skip_skip_doc. destruct n as [v|a g l|a g l]; cbn [first_ev more app].
  - intros H. apply dbind_inv in H. destruct H as (u & d1 & E & H). cbn [dskip d_rest d_last] in E. injection E as E <-. subst d1. unfold resolve_scalar in H.
    destruct (parse_from_cow_and_metadata (sv_value v) (sv_type v) (sv_tag v)) as [s|] eqn:P; [|discriminate]. destruct (visit s) as [y|] eqn:V; [|discriminate].
    injection H as <- <-. exists v, s. auto.
  - intros H. exfalso. unfold deserialize_seq in H. apply dbind_inv in H. destruct H as (e & d1 & _ & H).
    destruct e as [[]|]; discriminate H.
  - intros H. exfalso. unfold deserialize_map in H. apply dbind_inv in H. destruct H as (e & d1 & _ & H).
    destruct e as [[]|]; discriminate H.
Qed.

(** ** Collections *)
Lemma seq_inv (visit : DM value) b n rest last d x : deserialize_seq visit (at_node b n rest last) = (d, DOk x) ->
  exists a g l d1, n = NSeq a g l /\
    visit (Des (flat_map node_yams l ++ YSeqEnd :: rest) (YSeqStart a g) false) = (d1, DOk x) /\
    ((d_last d1 = YSeqEnd /\ d = Des (d_rest d1) YSeqEnd false) \/
     (d_last d1 <> YSeqEnd /\ exists d2, next_el d1 = (d2, DOk (Some YSeqEnd)) /\ d = Des (d_rest d2) (d_last d2) false)).
Proof.
  unfold deserialize_seq. rewrite skip_skip_doc. destruct n as [v|a g l|a g l]; cbn [first_ev more]; try discriminate.
  unfold dbind at 1. cbn [dskip d_rest d_last]. rewrite <- app_assoc. cbn [app]. intros H.
  apply dbind_inv in H. destruct H as (y & d1 & V & H). exists a, g, l, d1. split; [reflexivity|].
  assert (C : d_last d1 = YSeqEnd \/ d_last d1 <> YSeqEnd) by (destruct (d_last d1); auto; right; discriminate).
  destruct C as [C|C].
  - rewrite C in H. cbn [dbind dskip dret] in H. unfold dbind, dskip, dret in H. injection H as <- <-. split; [exact V|]. left. rewrite C. auto.
  - assert (H' : (let! e := next_el in match e with Some YSeqEnd => dskip ;! dret y | _ => dfail (DUnexpected "SeqEnd") end) d1 = (d, DOk x)).
    { destruct (d_last d1); try exact H. congruence. }
    apply dbind_inv in H'. destruct H' as (e & d2 & E & H'). destruct e as [[]|]; try discriminate H'.
    unfold dbind, dskip, dret in H'. injection H' as <- <-. split; [exact V|]. right. split; [exact C|]. exists d2. auto.
Qed.
Lemma map_inv (visit : DM value) b n rest last d x : deserialize_map visit (at_node b n rest last) = (d, DOk x) ->
  exists a g l d1, n = NMap a g l /\
    visit (Des (flat_map (fun x => node_yams (fst x) ++ node_yams (snd x)) l ++ YMapEnd :: rest) (YMapStart a g) false) = (d1, DOk x) /\
    (d_last d1 = YMapEnd -> d = Des (d_rest d1) YMapEnd false).
Proof.
  unfold deserialize_map. rewrite skip_skip_doc. destruct n as [v|a g l|a g l]; cbn [first_ev more]; try discriminate.
  unfold dbind at 1. cbn [dskip d_rest d_last]. rewrite <- app_assoc. cbn [app]. intros H.
  apply dbind_inv in H. destruct H as (y & d1 & V & H). exists a, g, l, d1. split; [reflexivity|].
  destruct (d_last d1) eqn:C; try (unfold dbind, dskip, dret in H; injection H as <- <-; split; [exact V|intros _; rewrite C; reflexivity]);
    (apply dbind_inv in H; destruct H as (e & d2 & E & H); destruct e as [[]|]; try discriminate H;
     unfold dbind, dskip, dret in H; injection H as _ <-; split; [exact V|discriminate]).
Qed.
Lemma vec_only (elem : DM value) (D : node -> value -> Prop) : forall l,
  (forall n x rest last d, In n l -> elem (at_node true n rest last) = (d, DOk x) -> D n x /\ d = Des rest (last_ev n) false) ->
  forall fuel acc rest last d x,
  visit_vec fuel elem acc (Des (flat_map node_yams l ++ YSeqEnd :: rest) last false) = (d, DOk x) ->
  exists xs, x = VSeq (acc ++ xs) /\ Forall2 D l xs /\ d = Des rest YSeqEnd true.
Proof.
  induction l as [|n l IH]; intros E fuel acc rest last d x H; (destruct fuel as [|fuel]; [discriminate|]); cbn [flat_map app visit_vec] in H.
  - unfold dbind in H. rewrite next_element_end in H. injection H as <- <-. exists []. rewrite app_nil_r. auto.
  - rewrite <- app_assoc in H. apply dbind_inv in H. destruct H as (o & d1 & N & H). rewrite next_element_node in N.
    apply dbind_inv in N. destruct N as (y & d2 & N & R). injection R as <- <-.
    apply E in N; [|now left]. destruct N as [DN ->]. apply IH in H; [|intros; eapply E; eauto; now right].
    destruct H as (xs & -> & F & ->). exists (y :: xs). rewrite <- app_assoc. auto.
Qed.
Lemma entries_only (key val : DM value) (DK DV : node -> value -> Prop) : forall l,
  (forall e x rest last d, In e l -> key (at_node true (fst e) rest last) = (d, DOk x) -> DK (fst e) x /\ d = Des rest (last_ev (fst e)) false) ->
  (forall e x rest last d, In e l -> val (at_node false (snd e) rest last) = (d, DOk x) -> DV (snd e) x /\ d = Des rest (last_ev (snd e)) false) ->
  forall fuel acc rest last d x,
  visit_entries fuel key val acc (Des (flat_map (fun x => node_yams (fst x) ++ node_yams (snd x)) l ++ YMapEnd :: rest) last false) = (d, DOk x) ->
  exists xs, x = VMap (acc ++ xs) /\ Forall2 (fun e y => DK (fst e) (fst y) /\ DV (snd e) (snd y)) l xs /\ d = Des rest YMapEnd true.
Proof.
  induction l as [|e l IH]; intros K V fuel acc rest last d x H; (destruct fuel as [|fuel]; [discriminate|]); cbn [flat_map app visit_entries] in H.
  - unfold dbind in H. rewrite next_key_end in H. injection H as <- <-. exists []. rewrite app_nil_r. auto.
  - rewrite <- !app_assoc in H. apply dbind_inv in H. destruct H as (o & d1 & N & H). rewrite next_key_node in N.
    apply dbind_inv in N. destruct N as (y & d2 & N & R). injection R as <- <-.
    apply K in N; [|now left]. destruct N as [DN ->]. apply dbind_inv in H. destruct H as (z & d3 & N & H). unfold next_value in N.
    change (Des (node_yams (snd e) ++ flat_map (fun x => node_yams (fst x) ++ node_yams (snd x)) l ++ YMapEnd :: rest) (last_ev (fst e)) false)
      with (at_node false (snd e) (flat_map (fun x => node_yams (fst x) ++ node_yams (snd x)) l ++ YMapEnd :: rest) (last_ev (fst e))) in N.
    apply V in N; [|now left]. destruct N as [DV' ->].
    apply IH in H; [|intros; eapply K; eauto; now right|intros; eapply V; eauto; now right].
    destruct H as (xs & -> & F & ->). exists ((y, z) :: xs). rewrite <- app_assoc. auto.
Qed.


Lemma NoDup_app_one {A} (l : list A) a : NoDup l -> ~ In a l -> NoDup (l ++ [a]).
Proof.
  induction 1 as [|b l NI N IH]; intros H; cbn [app]; [constructor; [exact H|constructor]|]. constructor.
  - intros I. apply in_app_or in I. destruct I as [I|[->|[]]]; [now apply NI|apply H; now left].
  - apply IH. intros I. apply H. now right.
Qed.
Fixpoint all_known (ts : list target) (l : list node) : Prop :=
  match ts, l with
  | t :: ts, n :: l => known_fields t n /\ all_known ts l
  | _, _ => True
  end.
Lemma known_tuple ts a g l : known_fields (DTuple ts) (NSeq a g l) -> all_known ts l.
Proof.
  intros H. specialize (H a g l eq_refl). revert l H. induction ts as [|t ts IH]; intros [|n l] H; try exact I.
  destruct H as [H1 H2]. split; [exact H1|]. now apply IH.
Qed.
Lemma known_struct fs n : known_fields (DStruct fs) n -> NoDup (map fst fs) /\ (forall a g l, n <> NSeq a g l) /\ forall a g l, n = NMap a g l ->
  Forall (fun e => exists name, key_is name e /\ In name (map fst fs)) l /\
  (forall name t e, In (name, t) fs -> In e l -> key_is name e -> known_fields t (snd e)).
Proof.
  intros (N & S & H). split; [exact N|]. split; [exact S|]. intros a g l E. destruct (H a g l E) as [K F]. split; [exact K|].
  clear - F. induction fs as [|[nm u] fs IH]; intros name t e I J K; [contradiction|]. destruct F as [F1 F2]. destruct I as [[= -> ->]|I]; [|eapply IH; eauto].
  rewrite Forall_forall in F1. auto.
Qed.
Lemma in_assoc {A} name (l : list (text * A)) : In name (map fst l) -> exists a, assoc name l = Some a.
Proof.
  induction l as [|[n b] l IH]; [contradiction|]. cbn [map fst assoc]. intros [->|I]; [rewrite text_eqb_refl; eauto|]. destruct (text_eqb name n); eauto.
Qed.
Lemma struct_only (D : target -> node -> value -> Prop) fs fu : forall l,
  Forall (fun e => exists name, key_is name e /\ In name (map fst fs)) l ->
  (forall e name t x rest last d, In e l -> key_is name e -> assoc name fs = Some t -> de fu t (at_node false (snd e) rest last) = (d, DOk x) ->
     D t (snd e) x /\ d = Des rest (last_ev (snd e)) false) ->
  forall fuel got rest last d x,
  visit_struct fuel (field_readers fu fs) got
    (Des (flat_map (fun x => node_yams (fst x) ++ node_yams (snd x)) l ++ YMapEnd :: rest) last false) = (d, DOk x) ->
  exists ps xs, x = VStruct xs /\ Forall2 (gives D fs) l ps /\ (NoDup (map fst got) -> NoDup (map fst (got ++ ps))) /\
    struct_fields (field_readers fu fs) (got ++ ps) = Some xs /\ d = Des rest YMapEnd true.
Proof.
  induction l as [|e l IH]; intros K E fuel got rest last d x H; (destruct fuel as [|fuel]; [discriminate|]); cbn [flat_map app visit_struct] in H.
  - unfold dbind in H. rewrite next_key_end in H. destruct (struct_fields (field_readers fu fs) got) as [xs|] eqn:S; [|discriminate].
    injection H as <- <-. exists [], xs. rewrite app_nil_r. auto.
  - rewrite <- !app_assoc in H. inversion_clear K as [|? ? (name & KN & KI) K']. unfold dbind at 1 in H. rewrite next_key_node in H.
    unfold dbind at 1 in H. rewrite (identifier_at e name) in H by exact KN. cbn [dret] in H. rewrite field_reader in H.
    destruct (in_assoc name fs KI) as (t & A). rewrite A in H. cbn [option_map] in H.
    destruct (assoc name got) as [v|] eqn:G; [discriminate H|]. apply dbind_inv in H. destruct H as (y & d1 & N & H). unfold next_value in N.
    change (Des (node_yams (snd e) ++ flat_map (fun x => node_yams (fst x) ++ node_yams (snd x)) l ++ YMapEnd :: rest) (last_ev (fst e)) false)
      with (at_node false (snd e) (flat_map (fun x => node_yams (fst x) ++ node_yams (snd x)) l ++ YMapEnd :: rest) (last_ev (fst e))) in N.
    apply (E e name) in N; [|now left|exact KN|exact A]. destruct N as [DN ->].
    apply IH in H; [|exact K'|intros; eapply E; eauto; now right].
    destruct H as (ps & xs & -> & F & ND & S & ->). exists ((name, y) :: ps), xs. split; [reflexivity|].
    split; [constructor; [|exact F]; split; [exact KN|]; exists t; auto|]. rewrite <- app_assoc in ND, S. cbn [app] in ND, S. split; [|split; [exact S|reflexivity]].
    intros NG. apply ND. rewrite map_app. cbn [map fst]. apply NoDup_app_one; [exact NG|].
    intros I. apply in_assoc in I. destruct I as (v & I). congruence.
Qed.
Lemma struct_denotes null some fs fu l ps xs a g : NoDup (map fst fs) ->
  Forall (fun e => exists name, key_is name e /\ In name (map fst fs)) l ->
  Forall2 (gives (denotes null some) fs) l ps -> NoDup (map fst ps) -> struct_fields (field_readers fu fs) ps = Some xs ->
  denotes null some (DStruct fs) (NMap a g l) (VStruct xs).
Proof.
  intros ND KF G NP S. cbn [denotes]. exists a, g, l, xs. split; [reflexivity|]. split; [reflexivity|]. split; [exact ND|]. split; [exact KF|]. split.
  - intros l1 e l2 name -> K. apply Forall2_app_inv_l in G. destruct G as (p1 & p2 & G1 & G2 & ->). inversion G2 as [|? p ? p3 [K' _] G3]; subst.
    assert (fst p = name) by (eapply key_unique; eauto). subst name. rewrite map_app in NP. cbn [map] in NP. apply NoDup_remove_2 in NP.
    apply Forall_forall. intros e' I K2. apply NP. rewrite <- map_app. apply in_app_or in I.
    destruct I as [I|I]; [destruct (forall2_in_l _ _ _ e' G1 I) as (q & J & KQ & _)|destruct (forall2_in_l _ _ _ e' G3 I) as (q & J & KQ & _)];
      (assert (QE : fst q = fst p) by (eapply key_unique; eauto)); rewrite <- QE; apply in_map, in_or_app; auto.
  - assert (SUB : forall name t, In (name, t) fs -> assoc name fs = Some t) by (intros; now apply assoc_nodup).
    clear ND KF. revert xs S.
    assert (Q : forall fs', (forall name t, In (name, t) fs' -> assoc name fs = Some t) -> forall xs, struct_fields (field_readers fu fs') ps = Some xs -> fields_denote null some l fs' xs).
    { induction fs' as [|[nm t] fs' IH]; intros SU xs S; cbn [field_readers map fst snd struct_fields] in S; [injection S as <-; exact I|]. fold (field_readers fu fs') in S.
      destruct (assoc nm ps) as [v|] eqn:A.
      - destruct (struct_fields (field_readers fu fs') ps) as [r|] eqn:SF; [|discriminate]. injection S as <-. split; [reflexivity|].
        split; [|apply IH; [intros; apply SU; now right|reflexivity]]. left. apply assoc_in in A.
        destruct (forall2_in_r _ _ _ _ G A) as (e & Ie & K & t' & At & D). cbn [fst snd] in *. exists e. split; [exact Ie|]. split; [exact K|].
        rewrite (SU nm t) in At by now left. injection At as <-. exact D.
      - destruct (match t with DOption _ => true | _ => false end) eqn:O; [|discriminate]. destruct (struct_fields (field_readers fu fs') ps) as [r|] eqn:SF; [|discriminate].
        injection S as <-. split; [reflexivity|]. split; [|apply IH; [intros; apply SU; now right|reflexivity]]. right. split; [|split; [destruct t; try discriminate; eauto|reflexivity]].
        apply Forall_forall. intros e Ie K. destruct (forall2_in_l _ _ _ e G Ie) as (p & J & K' & _). assert (fst p = nm) by (eapply key_unique; eauto). subst nm.
        apply in_map with (f := fst) in J. destruct (in_assoc _ _ J) as (v & AV). congruence. }
    intros xs S. specialize (Q fs SUB xs S). clear - Q. revert xs Q. induction fs as [|[nm t] fs IH]; intros [|[nm' x] xs] H; try contradiction; [exact I|].
    destruct H as (H1 & H2 & H3). split; [exact H1|]. split; [exact H2|]. now apply IH.
Qed.
Lemma no_structs_known : forall t n, no_structs t = true -> known_fields t n.
Proof.
  induction t using target_induction; intros n S; try exact I.
  - apply IHt. exact S.
  - intros a g l _. apply Forall_forall. auto.
  - cbn [no_structs] in S. apply andb_prop in S. destruct S. intros a g l _. apply Forall_forall. auto.
  - cbn [no_structs] in S. intros a g l _. clear n. revert l. induction H as [|t ts Ht H IH]; intros [|m l]; try exact I.
    cbn [forallb] in S. apply andb_prop in S. destruct S as [S1 S2]. split; [now apply Ht|]. now apply IH.
  - discriminate S.
Qed.

Definition only_ok (t : target) : Prop := forall n x fuel rest last b d, reads b t = true -> known_fields t n ->
  de fuel t (at_node b n rest last) = (d, DOk x) ->
  denotes taken_for_null (fun n => ~ taken_for_null n) t n x /\ d = Des rest (last_ev n) false.
Lemma tuple_only fuel : forall ts l, Forall only_ok ts -> forallb (reads true) ts = true -> all_known ts l ->
  forall acc rest last d x,
  visit_tuple (map (de fuel) ts) acc (Des (flat_map node_yams l ++ YSeqEnd :: rest) last false) = (d, DOk x) ->
  exists l1 l2 xs, l = l1 ++ l2 /\ x = VSeq (acc ++ xs) /\ all_denote taken_for_null (fun n => ~ taken_for_null n) ts l1 xs /\
    d = Des (flat_map node_yams l2 ++ YSeqEnd :: rest) (match rev l1 with n :: _ => last_ev n | [] => last end) false.
Proof.
  induction ts as [|t ts IH]; intros l O R S acc rest last d x H.
  - cbn [map visit_tuple] in H. injection H as <- <-. exists [], l, []. rewrite app_nil_r. repeat split.
  - inversion_clear O as [|? ? O1 O2]. cbn [forallb] in R. apply andb_prop in R. destruct R as [R1 R2].
    cbn [map visit_tuple] in H. apply dbind_inv in H. destruct H as (o & d1 & N & H). destruct l as [|n l].
    + cbn [flat_map app] in N. rewrite next_element_end in N. injection N as <- <-. discriminate H.
    + destruct S as [S1 S2]. cbn [flat_map] in N. rewrite <- app_assoc, next_element_node in N. apply dbind_inv in N. destruct N as (y & d2 & N & Q). injection Q as <- <-.
      apply O1 in N; [|exact R1|exact S1]. destruct N as [DN ->]. apply IH in H; [|exact O2|exact R2|exact S2].
      destruct H as (l1 & l2 & xs & -> & -> & A & ->). exists (n :: l1), l2, (y :: xs). split; [reflexivity|]. split; [now rewrite <- app_assoc|].
      split; [split; assumption|]. cbn [rev]. destruct (rev l1); reflexivity.
Qed.
Lemma tuple_denotes null some ts a g l xs : all_denote null some ts l xs -> denotes null some (DTuple ts) (NSeq a g l) (VSeq xs).
Proof.
  intros H. cbn [denotes]. exists a, g, l, xs. split; [reflexivity|]. split; [reflexivity|].
  revert l xs H. induction ts as [|t ts IH]; intros [|n l] [|x xs] H; try contradiction; [easy|].
  destruct H as [H1 H2]. split; [exact H1|]. now apply IH.
Qed.
Lemma peek_null_inv b n rest last d r : peek_null (at_node b n rest last) = (d, DOk r) ->
  d = Des (more n ++ rest) (first_ev n) (negb b) /\
  (if r then exists v, n = NScalar v /\ sv_is_null v = true else forall v, n = NScalar v -> sv_is_null v = false).
Proof.
  unfold peek_null. rewrite skip_skip_doc. unfold dret. intros [= <- <-]. split; [reflexivity|].
  destruct n as [v|a g l|a g l]; cbn [first_ev]; try discriminate. destruct (sv_is_null v) eqn:E; [now exists v|]. now intros w [= <-].
Qed.
Lemma de_only : forall t, only_ok t.
Proof.
  induction t using target_induction; intros n x fuel rest last b d R S E; cbn [de] in E.
  - unfold deserialize_int in E. rewrite skip_skip_doc in E. destruct n as [v|a g l|a g l]; cbn [first_ev more app] in E; try discriminate E.
    unfold dbind in E. cbn [dskip d_rest d_last] in E. destruct (parse_int lo hi (sv_value v)) as [z|] eqn:P; [|discriminate].
    injection E as <- <-. apply parse_int_only in P. destruct P as (P & Q & M). split; [|reflexivity]. cbn [denotes]. exists v, z. auto.
  - apply any_scalar_only in E. destruct E as (v & s & -> & Q & V & ->). split; [|reflexivity]. destruct s; try discriminate V. injection V as <-. cbn [denotes]. eauto 6.
  - apply any_scalar_only in E. destruct E as (v & s & -> & Q & V & ->). split; [|reflexivity]. destruct s; try discriminate V; injection V as <-; cbn [denotes]; eauto 10.
  - apply any_scalar_only in E. destruct E as (v & s & -> & Q & V & ->). split; [|reflexivity]. destruct s; try discriminate V. injection V as <-. cbn [denotes]. eauto 6.
  - apply dbind_inv in E. destruct E as (r & d1 & P & E). apply peek_null_inv in P. destruct P as [-> P]. destruct r; [|discriminate].
    destruct P as (v & -> & P). unfold dbind, dskip, dret in E. injection E as <- <-. split; [|reflexivity]. split; [now apply taken_iff|reflexivity].
  - cbn [reads] in R. apply andb_prop in R. destruct R as [B R]. destruct b; [discriminate|]. cbn [known_fields] in S.
    apply dbind_inv in E. destruct E as (r & d1 & P & E). apply peek_null_inv in P. destruct P as [-> P]. destruct r.
    + destruct P as (v & -> & P). unfold dbind, dskip, dret in E. injection E as <- <-. split; [|reflexivity]. left. split; [now apply taken_iff|reflexivity].
    + apply dbind_inv in E. destruct E as (y & d2 & E & Q). injection Q as <- <-. cbn [negb] in E.
      change (Des (more n ++ rest) (first_ev n) true) with (at_node true n rest last) in E. apply IHt in E; [|exact R|exact S].
      destruct E as [D ->]. split; [|reflexivity]. right. split; [|eauto]. intros T. pose proof T as (v & -> & _). apply taken_iff in T. rewrite (P v eq_refl) in T. discriminate.
  - cbn [reads known_fields] in R, S. apply seq_inv in E. destruct E as (a & g & l & d1 & -> & V & Q). specialize (S a g l eq_refl). rewrite Forall_forall in S.
    apply (vec_only _ (denotes taken_for_null (fun n => ~ taken_for_null n) t)) in V; [|intros m y r la d' I H; apply (IHt m y fuel r la true d'); auto].
    destruct V as (xs & -> & F & ->). destruct Q as [[_ ->]|[Q _]]; [|cbn [d_last] in Q; congruence].
    split; [|reflexivity]. cbn [denotes]. exists a, g, l, xs. auto.
  - cbn [reads known_fields] in R, S. apply andb_prop in R. destruct R as [RK RV]. apply map_inv in E. destruct E as (a & g & l & d1 & -> & V & Q). specialize (S a g l eq_refl). rewrite Forall_forall in S.
    apply (entries_only _ _ (denotes taken_for_null (fun n => ~ taken_for_null n) t1) (denotes taken_for_null (fun n => ~ taken_for_null n) t2)) in V;
      [|intros e y r la d' I H; apply (IHt1 _ y fuel r la true d'); auto; apply (S e I)|intros e y r la d' I H; apply (IHt2 _ y fuel r la false d'); auto; apply (S e I)].
    destruct V as (xs & -> & F & ->). rewrite (Q eq_refl). split; [|reflexivity]. cbn [denotes]. exists a, g, l, xs. auto.
  - cbn [reads] in R. apply andb_prop in R. destruct R as [R V]. apply andb_prop in R. destruct R as [B R]. destruct b; [discriminate|].
    unfold deserialize_any in E. rewrite skip_skip_doc in E. destruct n as [v|a g l|a g l]; cbn [first_ev negb] in E.
    + exfalso. unfold dbind in E. cbn [dskip] in E. unfold resolve_scalar in E. destruct (parse_from_cow_and_metadata _ _ _); discriminate E.
    + change (Des (more (NSeq a g l) ++ rest) (YSeqStart a g) true) with (at_node true (NSeq a g l) rest last) in E.
      apply seq_inv in E. destruct E as (a' & g' & l' & d1 & Eq & W & Q). injection Eq as <- <- <-.
      apply tuple_only in W; [|exact H|exact R|exact (known_tuple _ _ _ _ S)]. destruct W as (l1 & l2 & xs & -> & -> & A & ->).
      assert (NE : match rev l1 with n :: _ => last_ev n | [] => YSeqStart a g end <> YSeqEnd)
        by (eapply tuple_end; eauto using taken_null_ok; discriminate).
      cbn [d_last d_rest] in Q. destruct Q as [[Q _]|(_ & d2 & Q & ->)]; [congruence|].
      destruct l2 as [|m l2].
      * cbn [flat_map app] in Q. unfold next_el in Q. cbn [d_peeked d_rest] in Q. injection Q as <-. rewrite app_nil_r. split; [|reflexivity].
        now apply tuple_denotes.
      * exfalso. cbn [flat_map] in Q. rewrite yams_first in Q. unfold next_el in Q. cbn [d_peeked d_rest app] in Q. injection Q as _ Q. now destruct m.
    + exfalso. change (Des (more (NMap a g l) ++ rest) (YMapStart a g) true) with (at_node true (NMap a g l) rest last) in E.
      apply map_inv in E. destruct E as (? & ? & ? & ? & _ & E & _). discriminate E.
  - cbn [reads] in R. apply andb_prop in R. destruct R as [B R]. destruct b; [discriminate|]. apply known_struct in S. destruct S as (ND & NSq & S).
    unfold deserialize_any in E. rewrite skip_skip_doc in E. destruct n as [v|a g l|a g l]; cbn [first_ev negb] in E.
    + exfalso. unfold dbind in E. cbn [dskip] in E. unfold resolve_scalar in E. destruct (parse_from_cow_and_metadata _ _ _); discriminate E.
    + now elim (NSq a g l).
    + change (Des (more (NMap a g l) ++ rest) (YMapStart a g) true) with (at_node true (NMap a g l) rest last) in E.
      apply map_inv in E. destruct E as (a' & g' & l' & d1 & Eq & W & Q). injection Eq as <- <- <-. specialize (S a g l eq_refl). destruct S as [KF FF].
      fold (field_readers fuel fs) in W.
      apply (struct_only (denotes taken_for_null (fun n => ~ taken_for_null n)) fs fuel) in W; [|exact KF|].
      * destruct W as (ps & xs & -> & G & N & SF & ->). rewrite (Q eq_refl). split; [|reflexivity]. cbn [app map] in *. exact (struct_denotes _ _ fs fuel l ps xs a g ND KF G (N (NoDup_nil _)) SF).
      * intros e name t y r la d' I K A H'. rewrite forallb_forall in R. apply assoc_in in A. rewrite Forall_forall in H.
        apply (H (name, t) A (snd e) y fuel r la false d'); [exact (R (name, t) A)|exact (FF name t e A I K)|exact H'].
  - cbn [reads] in R. rewrite skip_skip_doc in E. destruct n as [v|a g l|a g l]; cbn [first_ev more app] in E; [| |].
    + unfold dbind in E. cbn [dskip d_rest d_last] in E.
      rewrite (assoc_map (fun x => (fst (snd x), _)) (sv_value v) vs) in E. destruct (assoc (sv_value v) vs) as [[k t]|] eqn:A; [|discriminate E].
      cbn [option_map fst snd] in E. destruct k; try discriminate E. injection E as <- <-. split; [|reflexivity]. left. exists v. eauto.
    + discriminate E.
    + exfalso. apply dbind_inv in E. destruct E as (u & d1 & _ & E). apply dbind_inv in E. destruct E as (name & d2 & _ & E). apply dbind_inv in E. destruct E as (y & d3 & E & _).
      rewrite (assoc_map (fun x => (fst (snd x), _)) name vs) in E. destruct (assoc name vs) as [[k t]|] eqn:A; [|discriminate E].
      apply assoc_in in A. rewrite forallb_forall in R. apply R in A. cbn [fst snd] in A. cbn [option_map fst snd] in E. destruct k; discriminate.
  - discriminate.
Qed.
