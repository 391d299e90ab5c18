(** Deserialisation returns for every type and every stream of events. *)
From Verif Require Import Base Tokens Scalar ParserIter Serde SpecSerde SerdeProofs.
From Coq Require Import String Lia ZifyBool ZifyNat.
Local Open Scope list_scope.

Notation left d := (List.length (d_rest d)).
(** Outcomes: no lack of fuel; a panic only if allowed; a success satisfies [post]. *)
Definition ends {A} (pan : bool) (r : des * dout A) (post : des -> A -> Prop) : Prop :=
  match snd r with DOk a => post (fst r) a | DErr _ => True | DPanic => pan = true | DFuel => False end.
(** A reader: it does not move back, and only looks ahead if it has moved. *)
Definition moves (d d' : des) : Prop := left d' <= left d /\ (d_peeked d' = true -> left d' < left d).
Definition safe {A} (pan : bool) (n : nat) (m : DM A) : Prop :=
  forall d, left d < n -> ends pan (m d) (fun d' _ => moves d d').

Lemma ends_bind {A B} pan (m : DM A) (k : A -> DM B) d post post' :
  ends pan (m d) post -> (forall d' a, post d' a -> ends pan (k a d') post') -> ends pan (dbind m k d) post'.
Proof. unfold ends, dbind. intros H K. destruct (m d) as [d' [a|e| |]]; cbn [fst snd] in *; auto. apply (K d' a H). Qed.
Lemma ends_mono {A} pan (r : des * dout A) (post post' : des -> A -> Prop) :
  ends pan r post -> (forall d a, post d a -> post' d a) -> ends pan r post'.
Proof. unfold ends. intros H K. destruct (snd r); auto. Qed.
Lemma moves_trans d e f : moves d e -> moves e f -> moves d f.
Proof. unfold moves. lia. Qed.
Lemma moves_after d e f : left e <= left d -> moves e f -> moves d f.
Proof. unfold moves. lia. Qed.
Lemma safe_mono {A} pan n k (m : DM A) : safe pan n m -> k <= n -> safe pan k m.
Proof. intros S L d H. apply S. lia. Qed.
Lemma safe_fail {A} pan n e : safe pan n (@dfail A e). Proof. intros d L. exact I. Qed.
Lemma fail_ends {A} pan e d post : ends pan (@dfail A e d) post. Proof. exact I. Qed.

Lemma skip_moves d : d_peeked (fst (dskip d)) = false /\ left (fst (dskip d)) = left d. Proof. split; reflexivity. Qed.
Lemma next_ends pan d : ends pan (next_el d) (fun d' e =>
  match e with
  | None => d_rest d = [] /\ d_rest d' = [] /\ d_peeked d = false
  | Some e => d_last d' = e /\ if d_peeked d then left d' = left d /\ d_peeked d' = false
              else d_peeked d' = true /\ left d = S (left d')
  end).
Proof.
  unfold ends, next_el. destruct d as [r l [|]]; cbn [d_peeked d_rest d_last fst snd]; [auto|].
  destruct r as [|e r]; cbn [fst snd d_rest d_peeked d_last]; auto.
Qed.
(** What asking for an event leaves. *)
Definition asked (d d' : des) (e : option yam_event) : Prop :=
  left d' <= left d /\
  match e with None => True | Some _ => moves d d' /\ (d_peeked d = false -> left d' < left d) end.
Lemma next_asked pan d : ends pan (next_el d) (fun d' e => asked d d' e).
Proof.
  eapply ends_mono; [apply next_ends|]. unfold asked, moves. intros d' [e|]; cbn beta.
  - intros [_ K]. destruct (d_peeked d); lia.
  - intros (K & K2 & _). rewrite K2. cbn. lia.
Qed.
Lemma skip_doc_asked pan d : ends pan (skip_doc d) (fun d' e => asked d d' e).
Proof.
  unfold skip_doc. eapply ends_bind; [apply next_asked|]. intros d1 e H. cbn beta in H.
  assert (Q : ends pan (dret e d1) (fun d' e => asked d d' e)) by exact H.
  destruct e as [[]|]; try exact Q. clear Q.
  eapply ends_mono; [apply next_asked|]. unfold asked, moves in *. intros d2 e K. cbn [d_rest d_peeked] in *.
  destruct H as (H1 & H2 & H3). destruct K as (K1 & K2). destruct e; [|lia]. destruct K2. lia.
Qed.
Lemma skip_doc_bind {B} pan n (k : option yam_event -> DM B) d :
  (forall d' e, left d' <= left d -> (d_peeked d = false -> left d' < left d) -> moves d d' ->
     ends pan (k (Some e) d') (fun d2 _ => moves d d2)) ->
  (forall d', ends pan (k None d') (fun d2 _ => moves d d2)) -> left d < n ->
  ends pan (dbind skip_doc k d) (fun d2 _ => moves d d2).
Proof.
  intros S N L. eapply ends_bind; [apply skip_doc_asked|]. intros d' [e|] (H1 & H2); [|apply N]. destruct H2. now apply S.
Qed.
Lemma skip_then {B} pan d (k : unit -> DM B) post :
  (forall d', left d' = left d -> d_peeked d' = false -> ends pan (k tt d') post) -> ends pan (dbind dskip k d) post.
Proof. intros H. unfold dbind, dskip. now apply H. Qed.
Lemma fresh_moves d d' : left d' <= left d -> d_peeked d' = false -> moves d d'.
Proof. unfold moves. intros L ->. split; [exact L|discriminate]. Qed.

Lemma int_safe pan n lo hi : safe pan n (deserialize_int lo hi).
Proof.
  intros d L. apply skip_doc_bind with (n := n); [|intros; exact I|exact L].
  intros d' e A _ M. destruct e; try exact I. apply skip_then. intros d2 A2 P2.
  destruct (parse_int lo hi (sv_value v)); [|exact I]. cbn. apply fresh_moves; [lia|exact P2].
Qed.
(** A visitor starts with nothing looked at. *)
Definition visits {A} (pan : bool) (n : nat) (m : DM A) : Prop :=
  forall d, left d < n -> d_peeked d = false -> ends pan (m d) (fun d' _ => left d' <= left d).
Lemma safe_visits {A} pan n (m : DM A) : safe pan n m -> visits pan n m.
Proof. intros S d L _. eapply ends_mono; [apply S, L|]. intros d' a M. unfold moves in M. lia. Qed.
Lemma seq_ends {A} pan k (visit : DM A) d : visits pan k visit -> left d + (if d_peeked d then 1 else 0) <= k ->
  ends pan (deserialize_seq visit d) (fun d' _ => moves d d').
Proof.
  intros V L. apply skip_doc_bind with (n := S (left d)); [|intros; exact I|lia].
  intros d1 e A1 B1 M. destruct e; try exact I. apply skip_then. intros d2 A2 P2.
  eapply ends_bind; [apply V; [destruct (d_peeked d); lia|exact P2]|]. intros d3 x M3. cbn beta in M3 |- *.
  assert (L3 : left d3 <= left d) by lia.
  assert (Q : ends pan ((let! e := next_el in match e with Some YSeqEnd => dskip ;! dret x | _ => dfail (DUnexpected "SeqEnd") end) d3)
            (fun d' _ => moves d d')).
  { eapply ends_bind; [apply next_asked|]. intros d4 [[]|] (H1 & H2); try exact I. apply skip_then.
    intros d5 A5 P5. cbn. apply fresh_moves; [lia|exact P5]. }
  destruct (d_last d3); try exact Q. cbn. apply fresh_moves; [exact L3|reflexivity].
Qed.
Lemma map_ends {A} pan k (visit : DM A) d : visits pan k visit -> left d + (if d_peeked d then 1 else 0) <= k ->
  ends pan (deserialize_map visit d) (fun d' _ => moves d d').
Proof.
  intros V L. apply skip_doc_bind with (n := S (left d)); [|intros; exact I|lia].
  intros d1 e A1 B1 M. destruct e; try exact I. apply skip_then. intros d2 A2 P2.
  eapply ends_bind; [apply V; [destruct (d_peeked d); lia|exact P2]|]. intros d3 x M3. cbn beta in M3 |- *.
  assert (L3 : left d3 <= left d) by lia.
  assert (Q : ends pan ((let! e := next_el in match e with Some YMapEnd => dskip ;! dret x | _ => dfail (DUnexpected "MapEnd") end) d3)
            (fun d' _ => moves d d')).
  { eapply ends_bind; [apply next_asked|]. intros d4 [[]|] (H1 & H2); try exact I. apply skip_then.
    intros d5 A5 P5. cbn. apply fresh_moves; [lia|exact P5]. }
  destruct (d_last d3); try exact Q. cbn. apply fresh_moves; [exact L3|reflexivity].
Qed.
Lemma seq_safe {A} pan n (visit : DM A) : visits pan n visit -> safe pan n (deserialize_seq visit).
Proof. intros V d L. apply seq_ends with (k := n); [exact V|]. destruct (d_peeked d); lia. Qed.
Lemma map_safe {A} pan n (visit : DM A) : visits pan n visit -> safe pan n (deserialize_map visit).
Proof. intros V d L. apply map_ends with (k := n); [exact V|]. destruct (d_peeked d); lia. Qed.
Lemma any_safe pan n vs (a b : DM value) : visits pan n a -> visits pan n b -> safe pan (S n) (deserialize_any vs a b).
Proof.
  intros VA VB d L. apply skip_doc_bind with (n := S n); [|intros; exact I|exact L].
  intros d1 e A1 B1 M.
  assert (K : left d1 + (if d_peeked d1 then 1 else 0) <= n) by (unfold moves in M; destruct (d_peeked d1); lia).
  destruct e; try exact I.
  - apply skip_then. intros d2 A2 P2. unfold resolve_scalar.
    destruct (parse_from_cow_and_metadata (sv_value v) (sv_type v) (sv_tag v)); [|exact I].
    destruct (vs s); [|exact I]. cbn. apply fresh_moves; [lia|exact P2].
  - eapply ends_mono; [apply (seq_ends pan n a d1 VA K)|]. intros d2 x M2. eapply moves_after; [exact A1|exact M2].
  - eapply ends_mono; [apply (map_ends pan n b d1 VB K)|]. intros d2 x M2. eapply moves_after; [exact A1|exact M2].
Qed.
Lemma any_safe_same pan n vs (a b : DM value) : visits pan n a -> visits pan n b -> safe pan n (deserialize_any vs a b).
Proof. intros VA VB. exact (safe_mono pan (S n) n _ (any_safe pan n vs a b VA VB) ltac:(lia)). Qed.

(** ** Loops *)
Definition fuel_of (d : des) : nat := 2 * left d + if d_peeked d then 1 else 0.
Lemma element_ends {A} pan n (seed : DM A) d : safe pan n seed -> left d < n ->
  ends pan (next_element seed d) (fun d' x => moves d d' /\ (x <> None -> fuel_of d' < fuel_of d)).
Proof.
  intros S L. unfold next_element. eapply ends_bind; [apply next_ends|]. intros d1 [e|] H; [|exact I].
  destruct H as [_ H].
  assert (Q : ends pan ((let! v := seed in dret (Some v)) d1) (fun d' x => moves d d' /\ (x <> None -> fuel_of d' < fuel_of d))).
  { eapply ends_bind; [apply S; destruct (d_peeked d); lia|]. intros d2 x M. cbn. unfold moves, fuel_of in *.
    destruct (d_peeked d), (d_peeked d1), (d_peeked d2); lia. }
  destruct e; try exact Q; try exact I. cbn. unfold moves, fuel_of. destruct (d_peeked d); (split; [lia|congruence]).
Qed.
Lemma key_ends {A} pan n (seed : DM A) d : safe pan n seed -> left d < n ->
  ends pan (next_key seed d) (fun d' x => moves d d' /\ (x <> None -> fuel_of d' < fuel_of d)).
Proof.
  intros S L. unfold next_key. eapply ends_bind; [apply next_ends|]. intros d1 [e|] H; [|exact I].
  destruct H as [_ H].
  assert (Q : ends pan ((let! v := seed in dret (Some v)) d1) (fun d' x => moves d d' /\ (x <> None -> fuel_of d' < fuel_of d))).
  { eapply ends_bind; [apply S; destruct (d_peeked d); lia|]. intros d2 x M. cbn. unfold moves, fuel_of in *.
    destruct (d_peeked d), (d_peeked d1), (d_peeked d2); lia. }
  destruct e; try exact Q; try exact I. cbn. unfold moves, fuel_of. destruct (d_peeked d); (split; [lia|congruence]).
Qed.
Lemma moves_fuel d d' : moves d d' -> fuel_of d' <= fuel_of d.
Proof. unfold moves, fuel_of. destruct (d_peeked d), (d_peeked d'); lia. Qed.
Lemma vec_ends pan n (elem : DM value) : safe pan n elem -> forall fuel acc d, fuel_of d < fuel -> left d < n ->
  ends pan (visit_vec fuel elem acc d) (fun d' _ => moves d d').
Proof.
  intros E. induction fuel as [|fuel IH]; intros acc d F L; [lia|]. cbn [visit_vec].
  eapply ends_bind; [apply (element_ends pan n elem d E L)|]. intros d1 [x|] (M & G); [|exact M].
  specialize (G ltac:(discriminate)). eapply ends_mono; [apply IH; [lia|unfold moves in M; lia]|].
  intros d2 v M2. exact (moves_trans _ _ _ M M2).
Qed.
Lemma entries_ends pan n (key val : DM value) : safe pan n key -> safe pan n val ->
  forall fuel acc d, fuel_of d < fuel -> left d < n ->
  ends pan (visit_entries fuel key val acc d) (fun d' _ => moves d d').
Proof.
  intros K V. induction fuel as [|fuel IH]; intros acc d F L; [lia|]. cbn [visit_entries].
  eapply ends_bind; [apply (key_ends pan n key d K L)|]. intros d1 [x|] (M & G); [|exact M].
  specialize (G ltac:(discriminate)). eapply ends_bind; [apply V; unfold moves in M; lia|]. intros d2 y M2. cbn beta in M2.
  pose proof (moves_fuel _ _ M2). pose proof (moves_trans _ _ _ M M2) as M3.
  eapply ends_mono; [apply IH; [lia|unfold moves in M3; lia]|]. intros d3 v M4. exact (moves_trans _ _ _ M3 M4).
Qed.
Lemma tuple_ends pan n : forall elems acc d, Forall (safe pan n) elems -> left d < n ->
  ends pan (visit_tuple elems acc d) (fun d' _ => left d' <= left d).
Proof.
  induction elems as [|e elems IH]; intros acc d F L; cbn [visit_tuple]; [cbn; lia|].
  inversion_clear F as [|? ? Fe Fr]. eapply ends_bind; [apply (element_ends pan n e d Fe L)|].
  intros d1 [x|] (M & G); [|exact I]. unfold moves in M. eapply ends_mono; [apply IH; [exact Fr|lia]|]. intros d2 v K. cbn beta in *. lia.
Qed.
Lemma no_visits {A} pan n : visits pan n (@no_visit A). Proof. intros d L P. exact I. Qed.

Lemma ignore_elements_ends pan n elem : safe pan n elem -> forall k d, fuel_of d < k -> left d < n ->
  ends pan (ignore_elements k elem d) (fun d' _ => left d' <= left d).
Proof.
  intros S. induction k as [|k IHk]; intros d Fk L; [lia|]. cbn [ignore_elements].
  eapply ends_bind; [apply (element_ends pan n _ d S L)|]. intros d1 [x|] (M & G); [|cbn; unfold moves in M; lia].
  specialize (G ltac:(discriminate)). eapply ends_mono; [apply IHk; [lia|unfold moves in M; lia]|].
  intros d2 v M2. cbn beta in *. unfold moves in M. lia.
Qed.
Lemma ignore_entries_ends pan n elem : safe pan n elem -> forall k d, fuel_of d < k -> left d < n ->
  ends pan (ignore_entries k elem d) (fun d' _ => left d' <= left d).
Proof.
  intros S. induction k as [|k IHk]; intros d Fk L; [lia|]. cbn [ignore_entries].
  eapply ends_bind; [apply (key_ends pan n _ d S L)|]. intros d1 [x|] (M & G); [|cbn; unfold moves in M; lia].
  specialize (G ltac:(discriminate)). eapply ends_bind; [apply S; unfold moves in M; lia|]. intros d2 y M2. cbn beta in M2.
  pose proof (moves_fuel _ _ M2). unfold moves in M, M2. eapply ends_mono; [apply IHk; lia|].
  intros d3 v M3. cbn beta in *. lia.
Qed.
Lemma ignore_safe pan : forall fuel n, 2 * n <= fuel -> safe pan n (ignore_any fuel).
Proof.
  induction fuel as [fuel IH] using lt_wf_ind. intros n F. destruct n as [|n]; [intros d L; lia|].
  destruct fuel as [|fuel]; [lia|]. cbn [ignore_any].
  assert (S : safe pan n (ignore_any fuel)) by (apply IH; lia).
  apply any_safe; intros d L P.
  - apply (ignore_elements_ends pan n _ S); [unfold fuel_of; rewrite P; lia|exact L].
  - apply (ignore_entries_ends pan n _ S); [unfold fuel_of; rewrite P; lia|exact L].
Qed.
Lemma identifier_safe pan n : safe pan n identifier.
Proof.
  intros d L. unfold identifier. eapply ends_bind; [apply (any_safe_same pan n visit_string no_visit no_visit); [apply no_visits|apply no_visits|exact L]|].
  intros d1 v M. destruct v; try exact I. exact M.
Qed.
Lemma struct_ends pan n (fields : list (text * (bool * DM value))) :
  Forall (fun x => safe pan n (snd (snd x))) fields -> forall fuel got d, fuel_of d < fuel -> left d < n ->
  ends pan (visit_struct fuel fields got d) (fun d' _ => moves d d').
Proof.
  intros A. induction fuel as [|fuel IH]; intros got d F L; [lia|]. cbn [visit_struct].
  eapply ends_bind; [apply (key_ends pan n identifier d (identifier_safe pan n) L)|]. intros d1 [x|] (M & G).
  - specialize (G ltac:(discriminate)). destruct (assoc x fields) as [[o val]|] eqn:E.
    + destruct (assoc x got); [exact I|]. apply assoc_in in E. rewrite Forall_forall in A. specialize (A _ E). cbn [snd] in A.
      eapply ends_bind; [apply A; unfold moves in M; lia|]. intros d2 y M2. cbn beta in M2.
      pose proof (moves_fuel _ _ M2). pose proof (moves_trans _ _ _ M M2) as M3.
      eapply ends_mono; [apply IH; [lia|unfold moves in M3; lia]|]. intros d3 v M4. exact (moves_trans _ _ _ M3 M4).
    + eapply ends_bind; [apply (ignore_safe pan (S fuel) (S (left d1))); [|lia]|].
      { unfold fuel_of in *. unfold moves in M. destruct (d_peeked d), (d_peeked d1); lia. }
      intros d2 y M2. cbn beta in M2.
      pose proof (moves_fuel _ _ M2). pose proof (moves_trans _ _ _ M M2) as M3.
      eapply ends_mono; [apply IH; [lia|unfold moves in M3; lia]|]. intros d3 v M4. exact (moves_trans _ _ _ M3 M4).
  - destruct (struct_fields fields got); [exact M|exact I].
Qed.

(** ** All types *)
Lemma fuel_bound d n : left d < n -> fuel_of d < 2 * n.
Proof. unfold fuel_of. destruct (d_peeked d); lia. Qed.
Lemma tuple_visits pan n fuel ts acc : Forall (fun t => safe pan n (de fuel t)) ts ->
  visits pan n (visit_tuple (map (de fuel) ts) acc).
Proof. intros F d L _. apply tuple_ends with (n := n); [|exact L]. now apply Forall_map. Qed.
Lemma struct_visits pan n fuel fs : 2 * n <= fuel -> Forall (fun x => safe pan n (de fuel (snd x))) fs ->
  visits pan n (visit_struct fuel (field_readers fuel fs) []).
Proof.
  intros B F d L _. eapply ends_mono; [apply (struct_ends pan n (field_readers fuel fs)); [|pose proof (fuel_bound d n L); lia|exact L]|].
  - unfold field_readers. apply Forall_map. exact F.
  - intros d' a M. unfold moves in M. lia.
Qed.

(** The content of a tuple or struct. *)
Definition parts_safe (pan : bool) (n fuel : nat) (t : target) : Prop :=
  match t with
  | DTuple ts => Forall (fun t => safe pan n (de fuel t)) ts
  | DStruct fs => Forall (fun x => safe pan n (de fuel (snd x))) fs
  | _ => True
  end.
Lemma de_safe pan n fuel : 2 * n <= fuel -> forall t, (pan = true \/ no_unit_variants t = true) ->
  parts_safe pan n fuel t /\ safe pan n (de fuel t).
Proof.
  intros B. induction t using target_induction; intros U.
  - split; [exact I|]. apply int_safe.
  - split; [exact I|]. apply any_safe_same; apply no_visits.
  - split; [exact I|]. apply any_safe_same; apply no_visits.
  - split; [exact I|]. apply any_safe_same; apply no_visits.
  - split; [exact I|]. intros d L. cbn [de]. eapply ends_bind.
    { unfold peek_null. eapply ends_bind; [apply skip_doc_asked|]. intros d1 e H. instantiate (1 := fun d' _ => left d' <= left d).
      destruct H as [H _]. exact H. }
    intros d1 b H. cbn beta in H. destruct b; [|exact I]. apply skip_then. intros d2 A2 P2. cbn. apply fresh_moves; [lia|exact P2].
  - split; [exact I|]. intros d L. cbn [de]. eapply ends_bind.
    { unfold peek_null. eapply ends_bind; [apply skip_doc_asked|]. intros d1 e H. instantiate (1 := fun d' _ => left d' <= left d).
      destruct H as [H _]. exact H. }
    intros d1 b H. cbn beta in H. destruct b.
    + apply skip_then. intros d2 A2 P2. cbn. apply fresh_moves; [lia|exact P2].
    + eapply ends_bind; [apply (proj2 (IHt U)); lia|]. intros d2 v M. cbn. exact (moves_after _ _ _ H M).
  - split; [exact I|]. apply seq_safe. intros d L P. eapply ends_mono; [apply (vec_ends pan n (de fuel t) (proj2 (IHt U))); [pose proof (fuel_bound d n L); lia|exact L]|].
    intros d' a M. unfold moves in M. lia.
  - assert (U1 : pan = true \/ no_unit_variants t1 = true) by (destruct U as [U|U]; [now left|right; now apply andb_prop in U]).
    assert (U2 : pan = true \/ no_unit_variants t2 = true) by (destruct U as [U|U]; [now left|right; now apply andb_prop in U]).
    split; [exact I|]. apply map_safe. intros d L P. eapply ends_mono; [apply (entries_ends pan n (de fuel t1) (de fuel t2) (proj2 (IHt1 U1)) (proj2 (IHt2 U2))); [pose proof (fuel_bound d n L); lia|exact L]|].
    intros d' a M. unfold moves in M. lia.
  - cbn [de]. assert (F : Forall (fun t => safe pan n (de fuel t)) ts).
    2: { split; [exact F|]. apply any_safe_same; [|apply no_visits]. now apply tuple_visits. }
    apply Forall_forall. intros t I. rewrite Forall_forall in H.
    apply H; [exact I|]. destruct U as [U|U]; [now left|right]. cbn [no_unit_variants] in U. rewrite forallb_forall in U. auto.
  - cbn [de]. assert (F : Forall (fun x => safe pan n (de fuel (snd x))) fs).
    { apply Forall_forall. intros t I. rewrite Forall_forall in H.
      apply H; [exact I|]. destruct U as [U|U]; [now left|right]. cbn [no_unit_variants] in U. rewrite forallb_forall in U. auto. }
    split; [exact F|]. apply any_safe_same; [|apply (struct_visits pan n fuel fs B F)].
    intros d L P. eapply ends_bind.
    + apply (tuple_ends pan n (map (fun x => de fuel (snd x)) fs) [] d); [|exact L]. now apply Forall_map.
    + intros d1 v M. exact M.
  - split; [exact I|]. intros d L. cbn [de]. apply skip_doc_bind with (n := n); [|intros; exact I|exact L]. intros d1 e A1 B1 M1.
    destruct e; try exact I.
    + apply skip_then. intros d2 A2 P2. destruct (assoc (sv_value v) _) as [[[] ?]|]; try exact I.
      cbn. apply fresh_moves; [lia|exact P2].
    + apply skip_then. intros d2 A2 P2. eapply ends_bind; [apply (identifier_safe pan n); lia|]. intros d3 name M3. cbn beta in M3.
      eapply ends_bind.
      * instantiate (1 := fun d' _ => left d' <= left d).
        match goal with |- context [assoc name (map ?f vs)] => pose proof (assoc_map (fun x => snd (f x)) name vs) as AM end.
        cbn [snd] in AM. rewrite AM. clear AM.
        destruct (assoc name vs) as [[kind t']|] eqn:E; [|exact I]. cbn [option_map fst snd].
        apply assoc_in in E. rewrite Forall_forall in H. specialize (H _ E). cbn [snd] in H.
        assert (UU : pan = true \/ (kind <> KUnit /\ no_unit_variants t' = true)).
        { destruct U as [U|U]; [now left|right]. cbn [no_unit_variants] in U. rewrite forallb_forall in U.
          specialize (U _ E). cbn [fst snd] in U. destruct kind; [discriminate|..]; now split. }
        destruct (H ltac:(tauto)) as [PS ST].
        assert (L3 : left d3 < n) by (unfold moves in M3; lia).
        assert (Many : ends pan (match t' with
                  | DTuple ts => deserialize_seq (visit_tuple (map (de fuel) ts) [])
                  | DStruct fs => deserialize_map (visit_struct fuel (field_readers fuel fs) [])
                  | _ => no_visit
                  end d3) (fun d' _ => left d' <= left d)).
        { clear -B PS L3 M3 A1 A2. unfold moves in M3. destruct t'; try exact I; cbn [parts_safe] in PS.
          - eapply ends_mono; [apply (seq_safe pan n _ (tuple_visits pan n fuel ts [] PS)), L3|].
            intros d4 a M4. unfold moves in *. lia.
          - eapply ends_mono; [apply (map_safe pan n _ (struct_visits pan n fuel fs B PS)), L3|].
            intros d4 a M4. unfold moves in *. lia. }
        destruct kind.
        -- destruct UU as [UU|[UU _]]; [exact UU|congruence].
        -- eapply ends_mono; [apply ST, L3|]. intros d4 a M4. unfold moves in *. lia.
        -- exact Many.
        -- exact Many.
      * intros d4 x M4. cbn beta in M4. eapply ends_bind; [apply next_asked|]. intros d5 [[]|] (H1 & H2); try exact I.
        cbn. destruct H2 as [H2 _]. exact (moves_after _ _ _ M4 H2).
  - split; [exact I|]. apply ignore_safe. exact B.
Qed.

Lemma deserialising_returns t evs fuel : 2 * List.length evs + 2 <= fuel ->
  from_events fuel t evs <> DFuel /\ (no_unit_variants t = true -> from_events fuel t evs <> DPanic).
Proof.
  intros B. unfold from_events. split.
  - destruct (de_safe true (S (List.length evs)) fuel ltac:(lia) t (or_introl eq_refl)) as [_ S].
    specialize (S (des_new evs) ltac:(cbn; lia)). unfold ends in S. intros E. now rewrite E in S.
  - intros U. destruct (de_safe false (S (List.length evs)) fuel ltac:(lia) t (or_intror U)) as [_ S].
    specialize (S (des_new evs) ltac:(cbn; lia)). unfold ends in S. intros E. now rewrite E in S.
Qed.
