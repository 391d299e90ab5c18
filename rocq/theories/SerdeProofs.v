(** Deserialisation reads exactly the events of the value. *)
From Verif Require Import Base Tokens Scalar ParserIter SpecScalar ScalarProofs Serde SpecSerde.
From Coq Require Import String Lia ZifyBool ZifyNat ZifyN.
Local Open Scope list_scope.

Lemma target_induction (P : target -> Prop) :
  (forall lo hi, P (DInt lo hi)) -> P DBool -> P DFloat -> P DString -> P DUnit ->
  (forall t, P t -> P (DOption t)) -> (forall t, P t -> P (DVec t)) ->
  (forall k v, P k -> P v -> P (DMap k v)) ->
  (forall ts, Forall P ts -> P (DTuple ts)) ->
  (forall fs, Forall (fun x => P (snd x)) fs -> P (DStruct fs)) ->
  (forall vs, Forall (fun x => P (snd (snd x))) vs -> P (DEnum vs)) -> P DIgnored -> forall t, P t.
Proof.
  intros HI HB HF HS HU HO HV HM HT HR HE HG. fix IH 1. intros [lo hi| | | | |t|t|k v|ts|fs|vs|].
  - apply HI.
  - apply HB.
  - apply HF.
  - apply HS.
  - apply HU.
  - apply HO. apply IH.
  - apply HV. apply IH.
  - apply HM; apply IH.
  - apply HT. revert ts. fix IL 1. intros [|t ts]; constructor; [apply IH|apply IL].
  - apply HR. revert fs. fix IL 1. intros [|[n t] fs]; constructor; [apply IH|apply IL].
  - apply HE. revert vs. fix IL 1. intros [|[n [k t]] vs]; constructor; [apply IH|apply IL].
  - apply HG.
Qed.

(** ** States at a node *)
Definition first_ev (n : node) : yam_event :=
  match n with NScalar v => YScalarEv v | NSeq a t _ => YSeqStart a t | NMap a t _ => YMapStart a t end.
Definition last_ev (n : node) : yam_event :=
  match n with NScalar v => YScalarEv v | NSeq _ _ _ => YSeqEnd | NMap _ _ _ => YMapEnd end.
Definition more (n : node) : list yam_event :=
  match n with
  | NScalar _ => []
  | NSeq _ _ l => flat_map node_yams l ++ [YSeqEnd]
  | NMap _ _ l => flat_map (fun x => node_yams (fst x) ++ node_yams (snd x)) l ++ [YMapEnd]
  end.
Lemma yams_first n : node_yams n = first_ev n :: more n. Proof. now destruct n. Qed.
Definition at_node (peeked : bool) (n : node) (rest : list yam_event) (last : yam_event) : des :=
  if peeked then Des (more n ++ rest) (first_ev n) true else Des (node_yams n ++ rest) last false.
Lemma at_skip_doc b n rest last :
  skip_doc (at_node b n rest last) = (Des (more n ++ rest) (first_ev n) (negb b), DOk (Some (first_ev n))).
Proof.
  unfold skip_doc, dbind, next_el, at_node. rewrite yams_first.
  destruct b; cbn [d_peeked d_last d_rest app negb]; destruct n; reflexivity.
Qed.
Lemma skip_skip_doc b n rest last {A} (k : option yam_event -> DM A) :
  dbind skip_doc k (at_node b n rest last) = k (Some (first_ev n)) (Des (more n ++ rest) (first_ev n) (negb b)).
Proof. unfold dbind at 1. now rewrite at_skip_doc. Qed.
(** Asking twice. *)
Lemma again_skip_doc n rest {A} (k : option yam_event -> DM A) :
  dbind skip_doc k (Des (more n ++ rest) (first_ev n) true) = k (Some (first_ev n)) (Des (more n ++ rest) (first_ev n) false).
Proof. exact (skip_skip_doc true n rest YDocStart k). Qed.

Definition reads_ok (null some : node -> Prop) (t : target) : Prop :=
  forall n x fuel rest last b, denotes null some t n x -> List.length (node_yams n) < fuel ->
  reads b t = true -> de fuel t (at_node b n rest last) = (Des rest (last_ev n) false, DOk x).

(** ** Scalars *)
Lemma any_scalar v s x visit a b rest last p : resolves v s -> visit s = Some x ->
  deserialize_any visit a b (at_node p (NScalar v) rest last) = (Des rest (YScalarEv v) false, DOk x).
Proof.
  intros R V. unfold deserialize_any. rewrite skip_skip_doc. cbn [first_ev more app].
  unfold dbind at 1. cbn [dskip d_rest d_last]. unfold resolve_scalar. unfold resolves in R. now rewrite R, V.
Qed.
Lemma digits_all ds : Forall dec_digit ds -> forallb is_ascii_digit ds = true.
Proof. intros F. apply forallb_forall. rewrite Forall_forall in F. intros c I. now apply is_ascii_digit_iff, F. Qed.
Lemma parse_int_ok lo hi t z : signed dec_digit 10 t z -> (lo <= z <= hi)%Z ->
  ((exists r, t = minus ++ r) -> lo < 0)%Z -> parse_int lo hi t = Some z.
Proof.
  intros S R M. unfold parse_int. destruct S as [ds [NE F]|ds [NE F]|ds [NE F]].
  - assert (Q : match ds with
             | 43%N :: r => (false, r)
             | 45%N :: r => if (lo <? 0)%Z then (true, r) else (false, ds)
             | _ => (false, ds)
             end = (false, ds)).
    { destruct ds as [|c r]; [congruence|]. inversion_clear F as [|? ? C _]. unfold dec_digit in C.
      destruct c as [|p]; [reflexivity|]. do 6 (destruct p as [p|p|]; try reflexivity; try lia). }
    rewrite Q. destruct ds as [|c r]; [congruence|]. rewrite digits_all by exact F.
    rewrite digits_num_number by exact F. now replace ((lo <=? number 10 (c :: r))%Z && (number 10 (c :: r) <=? hi)%Z) with true by lia.
  - cbn [plus app]. destruct ds as [|c r]; [congruence|]. rewrite digits_all by exact F.
    rewrite digits_num_number by exact F. now replace ((lo <=? number 10 (c :: r))%Z && (number 10 (c :: r) <=? hi)%Z) with true by lia.
  - cbn [minus app]. assert (L : (lo < 0)%Z) by (apply M; now exists ds).
    replace (lo <? 0)%Z with true by lia. destruct ds as [|c r]; [congruence|]. rewrite digits_all by exact F.
    rewrite digits_num_number by exact F. now replace ((lo <=? - number 10 (c :: r))%Z && (- number 10 (c :: r) <=? hi)%Z) with true by lia.
Qed.

(** ** Nulls *)
Definition null_ok (null : node -> Prop) : Prop :=
  forall n, null n -> exists v, n = NScalar v /\ sv_is_null v = true.
Definition some_ok (some : node -> Prop) : Prop :=
  forall n, some n -> forall v, n = NScalar v -> sv_is_null v = false.
Lemma at_peek_null_true b v rest last : sv_is_null v = true ->
  peek_null (at_node b (NScalar v) rest last) = (Des rest (YScalarEv v) (negb b), DOk true).
Proof. intros N. unfold peek_null. rewrite skip_skip_doc. cbn [first_ev more app]. unfold dret. now rewrite N. Qed.
Lemma at_peek_null_false b n rest last : (forall v, n = NScalar v -> sv_is_null v = false) ->
  peek_null (at_node b n rest last) = (Des (more n ++ rest) (first_ev n) (negb b), DOk false).
Proof.
  intros N. unfold peek_null. rewrite skip_skip_doc. unfold dret. destruct n; cbn [first_ev]; try reflexivity.
  now rewrite (N v eq_refl).
Qed.

(** ** Sequences *)
Lemma next_element_end rest last {A} (seed : DM A) :
  next_element seed (Des (YSeqEnd :: rest) last false) = (Des rest YSeqEnd true, DOk None).
Proof. reflexivity. Qed.
Lemma next_element_node n rest last {A} (seed : DM A) :
  next_element seed (Des (node_yams n ++ rest) last false)
  = (let! v := seed in dret (Some v)) (at_node true n rest last).
Proof.
  unfold next_element. unfold dbind at 1, next_el. rewrite yams_first. cbn [app d_peeked d_rest].
  unfold at_node. destruct n; reflexivity.
Qed.
Lemma next_key_end rest last {A} (seed : DM A) :
  next_key seed (Des (YMapEnd :: rest) last false) = (Des rest YMapEnd true, DOk None).
Proof. reflexivity. Qed.
Lemma next_key_node n rest last {A} (seed : DM A) :
  next_key seed (Des (node_yams n ++ rest) last false)
  = (let! v := seed in dret (Some v)) (at_node true n rest last).
Proof.
  unfold next_key. unfold dbind at 1, next_el. rewrite yams_first. cbn [app d_peeked d_rest].
  unfold at_node. destruct n; reflexivity.
Qed.
Lemma seq_of (visit : DM value) a g l rest last b x last' p :
  visit (Des (flat_map node_yams l ++ YSeqEnd :: rest) (YSeqStart a g) false) = (Des (if p : bool then rest else YSeqEnd :: rest) last' p, DOk x) ->
  (last' = YSeqEnd <-> p = true) ->
  deserialize_seq visit (at_node b (NSeq a g l) rest last) = (Des rest YSeqEnd false, DOk x).
Proof.
  intros V P. unfold deserialize_seq. rewrite skip_skip_doc. cbn [first_ev more].
  unfold dbind at 1. cbn [dskip d_rest d_last]. unfold dbind at 1. rewrite <- app_assoc. cbn [app]. rewrite V.
  cbn [d_last]. destruct p.
  - rewrite (proj2 P eq_refl). reflexivity.
  - destruct last'; try reflexivity. exfalso. assert (false = true) by now apply P. discriminate.
Qed.
Lemma map_of (visit : DM value) a g l rest last b x :
  visit (Des (flat_map (fun x => node_yams (fst x) ++ node_yams (snd x)) l ++ YMapEnd :: rest) (YMapStart a g) false)
    = (Des rest YMapEnd true, DOk x) ->
  deserialize_map visit (at_node b (NMap a g l) rest last) = (Des rest YMapEnd false, DOk x).
Proof.
  intros V. unfold deserialize_map. rewrite skip_skip_doc. cbn [first_ev more].
  unfold dbind at 1. cbn [dskip d_rest d_last]. unfold dbind at 1. rewrite <- app_assoc. cbn [app]. rewrite V.
  reflexivity.
Qed.
Lemma yams_pos n : 0 < List.length (node_yams n). Proof. rewrite yams_first. cbn. lia. Qed.
Lemma flat_length {A} (f : A -> list yam_event) l : (forall x, 0 < List.length (f x)) ->
  List.length l <= List.length (flat_map f l).
Proof. intros P. induction l as [|x l IH]; cbn [flat_map List.length]; [lia|]. rewrite app_length. specialize (P x). lia. Qed.
Lemma flat_elem {A} (f : A -> list yam_event) x l : In x l -> List.length (f x) <= List.length (flat_map f l).
Proof.
  induction l as [|y l IH]; [contradiction|]. cbn [flat_map]. rewrite app_length.
  intros [->|I]; [lia|]. specialize (IH I). lia.
Qed.
Lemma last_not_seq_end n : (last_ev n = YSeqEnd) <-> exists a g l, n = NSeq a g l.
Proof. split; [destruct n; try discriminate; eauto|intros (a & g & l & ->); reflexivity]. Qed.

Lemma vec_loop (elem : DM value) (D : node -> value -> Prop) : forall l xs,
  Forall2 D l xs ->
  (forall n x rest last, In n l -> D n x -> elem (at_node true n rest last) = (Des rest (last_ev n) false, DOk x)) ->
  forall fuel acc rest last, List.length l < fuel ->
  visit_vec fuel elem acc (Des (flat_map node_yams l ++ YSeqEnd :: rest) last false)
  = (Des rest YSeqEnd true, DOk (VSeq (acc ++ xs))).
Proof.
  induction 1 as [|n x l xs H F IH]; intros E fuel acc rest last L.
  - destruct fuel as [|fuel]; [cbn in L; lia|]. cbn [flat_map app visit_vec]. unfold dbind. rewrite next_element_end.
    rewrite app_nil_r. reflexivity.
  - destruct fuel as [|fuel]; [cbn in L; lia|]. cbn [flat_map visit_vec]. rewrite <- app_assoc. unfold dbind at 1.
    rewrite next_element_node. unfold dbind at 1. rewrite (E n x) by (try (now left); exact H). cbn [dret].
    rewrite IH by (try (intros; apply E; [now right|assumption]); cbn [List.length] in L; lia).
    now rewrite <- app_assoc.
Qed.
Lemma map_loop (key val : DM value) (DK DV : node -> value -> Prop) : forall l xs,
  Forall2 (fun e y => DK (fst e) (fst y) /\ DV (snd e) (snd y)) l xs ->
  (forall e x rest last, In e l -> DK (fst e) x -> key (at_node true (fst e) rest last) = (Des rest (last_ev (fst e)) false, DOk x)) ->
  (forall e x rest last, In e l -> DV (snd e) x -> val (at_node false (snd e) rest last) = (Des rest (last_ev (snd e)) false, DOk x)) ->
  forall fuel acc rest last, List.length l < fuel ->
  visit_entries fuel key val acc (Des (flat_map (fun x => node_yams (fst x) ++ node_yams (snd x)) l ++ YMapEnd :: rest) last false)
  = (Des rest YMapEnd true, DOk (VMap (acc ++ xs))).
Proof.
  induction 1 as [|e y l xs [HK HV] F IH]; intros K V fuel acc rest last L.
  - destruct fuel as [|fuel]; [cbn in L; lia|]. cbn [flat_map app visit_entries]. unfold dbind. rewrite next_key_end.
    rewrite app_nil_r. reflexivity.
  - destruct fuel as [|fuel]; [cbn in L; lia|]. cbn [flat_map visit_entries]. rewrite <- !app_assoc. unfold dbind at 1.
    rewrite next_key_node. unfold dbind at 1. rewrite (K e (fst y)) by (try (now left); exact HK). cbn [dret].
    unfold dbind at 1. unfold next_value. change (Des (node_yams (snd e) ++ flat_map (fun x => node_yams (fst x) ++ node_yams (snd x)) l ++ YMapEnd :: rest) (last_ev (fst e)) false)
      with (at_node false (snd e) (flat_map (fun x => node_yams (fst x) ++ node_yams (snd x)) l ++ YMapEnd :: rest) (last_ev (fst e))).
    rewrite (V e (snd y)) by (try (now left); exact HV).
    rewrite IH by (try (intros; first [apply K|apply V]; [now right|assumption]); cbn [List.length] in L; lia).
    rewrite <- app_assoc. now destruct y.
Qed.

Fixpoint all_denote (null some : node -> Prop) (ts : list target) (l : list node) (xs : list value) : Prop :=
  match ts, l, xs with
  | [], [], [] => True
  | t :: ts, n :: l, x :: xs => denotes null some t n x /\ all_denote null some ts l xs
  | _, _, _ => False
  end.
Lemma tuple_loop null some fuel : forall ts l xs,
  all_denote null some ts l xs ->
  Forall (reads_ok null some) ts -> forallb (reads true) ts = true ->
  (forall n, In n l -> List.length (node_yams n) < fuel) ->
  forall acc rest last,
  visit_tuple (map (de fuel) ts) acc (Des (flat_map node_yams l ++ rest) last false)
  = (Des rest (match rev l with n :: _ => last_ev n | [] => last end) false, DOk (VSeq (acc ++ xs))).
Proof.
  induction ts as [|t ts IH]; intros [|n l] [|x xs] H F R L acc rest last; try contradiction.
  - cbn [map visit_tuple flat_map app rev]. now rewrite app_nil_r.
  - destruct H as [H1 H2]. inversion_clear F as [|? ? F1 F2]. cbn [forallb] in R. apply andb_prop in R.
    destruct R as [R1 R2]. cbn [map visit_tuple flat_map]. rewrite <- app_assoc. unfold dbind at 1.
    rewrite next_element_node. unfold dbind at 1. rewrite (F1 n x fuel) by (auto; apply L; now left).
    cbn [dret]. rewrite (IH l xs) by (auto; intros; apply L; now right).
    rewrite <- app_assoc. cbn [app rev]. destruct (rev l); reflexivity.
Qed.

(** ** Structs *)
Lemma text_eqb_refl t : text_eqb t t = true.
Proof. now apply text_eqb_iff. Qed.
Lemma assoc_in {A} name (l : list (text * A)) a : assoc name l = Some a -> In (name, a) l.
Proof.
  induction l as [|[n b] l IH]; cbn [assoc]; [discriminate|].
  destruct (text_eqb name n) eqn:E; [|right; auto]. apply text_eqb_iff in E. intros [= ->]. left. congruence.
Qed.
Lemma assoc_nodup {A} name (l : list (text * A)) a : NoDup (map fst l) -> In (name, a) l -> assoc name l = Some a.
Proof.
  induction l as [|[n b] l IH]; cbn [map fst]; intros N I; [contradiction|]. inversion_clear N as [|? ? NI N'].
  cbn [assoc]. destruct I as [[= -> ->]|I]; [now rewrite text_eqb_refl|].
  destruct (text_eqb name n) eqn:E; [|auto]. apply text_eqb_iff in E. subst.
  exfalso. apply NI. apply in_map_iff. now exists (n, a).
Qed.
Lemma assoc_none {A} name (l : list (text * A)) : ~ In name (map fst l) -> assoc name l = None.
Proof.
  induction l as [|[n b] l IH]; cbn [map fst]; intros N; [reflexivity|]. cbn [assoc].
  destruct (text_eqb name n) eqn:E; [|apply IH; intros I; apply N; now right].
  apply text_eqb_iff in E. subst. exfalso. apply N. now left.
Qed.
Lemma assoc_app {A} name (l r : list (text * A)) :
  assoc name (l ++ r) = match assoc name l with Some a => Some a | None => assoc name r end.
Proof. induction l as [|[n b] l IH]; [reflexivity|]. cbn [app assoc]. now destruct (text_eqb name n). Qed.
Lemma assoc_map {A B} (f : text * A -> B) name (l : list (text * A)) :
  assoc name (map (fun x => (fst x, f x)) l) = option_map (fun a => f (name, a)) (assoc name l).
Proof.
  induction l as [|[n b] l IH]; [reflexivity|]. cbn [map assoc fst].
  destruct (text_eqb name n) eqn:E; [|exact IH]. apply text_eqb_iff in E. now subst.
Qed.
Lemma key_unique a b e : key_is a e -> key_is b e -> a = b.
Proof. intros (v & E & R) (v' & E' & R'). unfold resolves in *. congruence. Qed.
Lemma identifier_at e name rest last b : key_is name e ->
  identifier (at_node b (fst e) rest last) = (Des rest (last_ev (fst e)) false, DOk name).
Proof.
  intros (v & E & R). rewrite E. unfold identifier, dbind at 1.
  rewrite (any_scalar v (SString name) (VString name)) by (auto; reflexivity). reflexivity.
Qed.

Definition is_option (t : target) : bool := match t with DOption _ => true | _ => false end.
Definition field_readers fuel (fs : list (text * target)) :=
  map (fun x => (fst x, (match snd x with DOption _ => true | _ => false end, de fuel (snd x)))) fs.
Lemma field_reader fuel fs name :
  assoc name (field_readers fuel fs) = option_map (fun t => (is_option t, de fuel t)) (assoc name fs).
Proof. exact (assoc_map (fun x => (match snd x with DOption _ => true | _ => false end, de fuel (snd x))) name fs). Qed.

(** The entry [e] gives the field [fst p] the value [snd p]. *)
Definition gives (D : target -> node -> value -> Prop) (fs : list (text * target)) (e : node * node) (p : text * value) : Prop :=
  key_is (fst p) e /\ exists t, assoc (fst p) fs = Some t /\ D t (snd e) (snd p).
Lemma struct_loop (D : target -> node -> value -> Prop) fs fu : forall l ps,
  Forall2 (gives D fs) l ps ->
  (forall e t x rest last, In e l -> In t (map snd fs) -> D t (snd e) x ->
     de fu t (at_node false (snd e) rest last) = (Des rest (last_ev (snd e)) false, DOk x)) ->
  forall fuel got xs rest last, List.length l < fuel -> NoDup (map fst got ++ map fst ps) ->
  struct_fields (field_readers fu fs) (got ++ ps) = Some xs ->
  visit_struct fuel (field_readers fu fs) got
    (Des (flat_map (fun x => node_yams (fst x) ++ node_yams (snd x)) l ++ YMapEnd :: rest) last false)
  = (Des rest YMapEnd true, DOk (VStruct xs)).
Proof.
  induction 1 as [|e p l ps [K (t & A & H)] F IH]; intros E fuel got xs rest last L N S.
  - destruct fuel as [|fuel]; [cbn in L; lia|]. rewrite app_nil_r in S. cbn [flat_map app visit_struct].
    unfold dbind. rewrite next_key_end. now rewrite S.
  - destruct fuel as [|fuel]; [cbn in L; lia|]. cbn [flat_map visit_struct]. rewrite <- !app_assoc. unfold dbind at 1.
    rewrite next_key_node. unfold dbind at 1. rewrite (identifier_at e (fst p)) by exact K. cbn [dret].
    rewrite field_reader, A. cbn [option_map]. cbn [map] in N.
    rewrite (assoc_none (fst p) got) by (intros I; apply NoDup_remove_2 in N; apply N; apply in_or_app; now left).
    unfold dbind at 1. unfold next_value.
    change (Des (node_yams (snd e) ++ flat_map (fun x => node_yams (fst x) ++ node_yams (snd x)) l ++ YMapEnd :: rest) (last_ev (fst e)) false)
      with (at_node false (snd e) (flat_map (fun x => node_yams (fst x) ++ node_yams (snd x)) l ++ YMapEnd :: rest) (last_ev (fst e))).
    rewrite (E e t (snd p)) by (try (now left); try exact H; apply assoc_in in A; apply in_map_iff; now exists (fst p, t)).
    apply IH.
    + intros e' t' x' r' l' I. apply E. now right.
    + cbn [List.length] in L. lia.
    + rewrite map_app. cbn [map fst]. now rewrite <- app_assoc.
    + rewrite <- app_assoc. cbn [app]. destruct p. exact S.
Qed.

(** The fields as the specification gives them. *)
Fixpoint fields_denote (null some : node -> Prop) (l : list (node * node)) (fs : list (text * target)) (xs : list (text * value)) : Prop :=
  match fs, xs with
  | [], [] => True
  | (name, t) :: fs, (name', x) :: xs =>
      name = name' /\
      ((exists e, In e l /\ key_is name e /\ denotes null some t (snd e) x) \/
       (Forall (fun e => ~ key_is name e) l /\ (exists t', t = DOption t') /\ x = VNone)) /\
      fields_denote null some l fs xs
  | _, _ => False
  end.
Lemma fields_names null some l : forall fs xs, fields_denote null some l fs xs -> map fst xs = map fst fs.
Proof.
  induction fs as [|[n t] fs IH]; intros [|[n' x] xs] H; try contradiction; [reflexivity|].
  destruct H as (-> & _ & H). cbn [map fst]. f_equal. auto.
Qed.
Lemma fields_found null some l e name : In e l -> key_is name e ->
  (forall e', In e' l -> key_is name e' -> e' = e) ->
  forall fs xs, fields_denote null some l fs xs -> NoDup (map fst fs) -> In name (map fst fs) ->
  exists t x, assoc name fs = Some t /\ assoc name xs = Some x /\ denotes null some t (snd e) x.
Proof.
  intros I K U. induction fs as [|[n t] fs IH]; intros [|[n' x] xs] H N J; try contradiction.
  destruct H as (<- & C & H). cbn [map fst] in N, J. inversion_clear N as [|? ? NI N'].
  cbn [assoc]. destruct (text_eqb name n) eqn:E.
  - apply text_eqb_iff in E. subst n. exists t, x. split; [reflexivity|]. split; [reflexivity|].
    destruct C as [(e' & I' & K' & D)|(F & _)].
    + now rewrite <- (U e' I' K').
    + rewrite Forall_forall in F. now destruct (F e I).
  - destruct J as [->|J]; [now rewrite text_eqb_refl in E|]. now apply IH.
Qed.
Lemma fields_collect null some l fu ps : forall fs xs, fields_denote null some l fs xs ->
  (forall name t x, In (name, t) fs -> In (name, x) xs ->
     (exists e, In e l /\ key_is name e) -> assoc name ps = Some x) ->
  (forall name, (Forall (fun e => ~ key_is name e) l) -> assoc name ps = None) ->
  struct_fields (field_readers fu fs) ps = Some xs.
Proof.
  induction fs as [|[n t] fs IH]; intros [|[n' x] xs] H A B; try contradiction; [reflexivity|].
  destruct H as (<- & C & H). cbn [field_readers map fst snd struct_fields].
  fold (field_readers fu fs). rewrite (IH xs H (fun a b c i j => A a b c (or_intror i) (or_intror j)) B).
  destruct C as [(e & I & K & D)|(F & (t' & ->) & ->)].
  - rewrite (A n t x) by (try (now left); eauto). reflexivity.
  - now rewrite (B n F).
Qed.
Lemma entries_gives null some fs xs l :
  NoDup (map fst fs) -> fields_denote null some l fs xs ->
  (forall l1 e l2 name, l = l1 ++ e :: l2 -> key_is name e -> Forall (fun e => ~ key_is name e) (l1 ++ l2)) ->
  forall l', (exists l0, l = l0 ++ l') ->
  Forall (fun e => exists name, key_is name e /\ In name (map fst fs)) l' ->
  exists ps, Forall2 (fun e p => gives (denotes null some) fs e p /\ assoc (fst p) xs = Some (snd p)) l' ps /\ NoDup (map fst ps).
Proof.
  intros N D U. induction l' as [|e l' IH]; intros (l0 & E) F.
  - exists []. split; constructor.
  - inversion_clear F as [|? ? (name & K & J) F']. destruct IH as (ps & P & M).
    { exists (l0 ++ [e]). now rewrite <- app_assoc. }
    { exact F'. }
    pose proof (U l0 e l' name E K) as UU. rewrite Forall_forall in UU.
    destruct (fields_found null some l e name) with (fs := fs) (xs := xs) as (t & y & A & B & C); auto.
    { rewrite E. apply in_or_app. right. now left. }
    { intros e' I K'. rewrite E in I. apply in_app_or in I. destruct I as [I|[I|I]]; [|now symmetry|];
      exfalso; refine (UU e' _ K'); apply in_or_app; auto. }
    exists ((name, y) :: ps). split.
    + constructor; [|exact P]. repeat split; cbn [fst snd]; eauto.
    + cbn [map fst]. constructor; [|exact M]. intros I. apply in_map_iff in I. destruct I as ([n' y'] & <- & I).
      cbn [fst] in *. assert (Q : exists e', In e' l' /\ key_is n' e').
      { clear -P I. induction P as [|e' p l' ps [[K _] _] P IH]; [contradiction|].
        destruct I as [->|I]; [exists e'; split; [now left|exact K]|].
        destruct (IH I) as (e'' & I'' & K''). exists e''. split; [now right|exact K'']. }
      destruct Q as (e' & I' & K'). refine (UU e' _ K'). apply in_or_app. now right.
Qed.

(** ** All types *)
Lemma peeked_end null some t n x : null_ok null -> denotes null some t n x -> reads true t = true ->
  match t with DVec _ => false | _ => true end = true -> last_ev n <> YSeqEnd.
Proof.
  intros NO D R V L. destruct t; cbn [reads negb andb] in R; try discriminate; cbn [denotes] in D.
  - destruct D as (? & ? & -> & _). discriminate.
  - destruct D as (? & ? & -> & _). discriminate.
  - destruct D as (? & ? & -> & _). discriminate.
  - destruct D as (? & ? & -> & _). discriminate.
  - destruct D as (N & _). apply NO in N. destruct N as (v & -> & _). discriminate.
  - destruct D as (? & ? & ? & ? & -> & _). discriminate.
  - destruct D as [(v & -> & _)|(? & ? & ? & ? & ? & ? & -> & _)]; discriminate.
Qed.
Lemma all_denote_lengths null some : forall ts l xs, all_denote null some ts l xs ->
  List.length l = List.length ts /\ List.length xs = List.length ts.
Proof.
  induction ts as [|t ts IH]; intros [|n l] [|x xs] H; try contradiction; [easy|]. destruct H as [_ H].
  apply IH in H. cbn [List.length]. lia.
Qed.
Lemma all_denote_snoc null some t n x : forall ts l xs,
  all_denote null some (ts ++ [t]) (l ++ [n]) (xs ++ [x]) -> denotes null some t n x.
Proof.
  induction ts as [|u ts IH]; intros l xs H; pose proof (all_denote_lengths _ _ _ _ _ H) as [L1 L2];
    rewrite !app_length in L1, L2; cbn [List.length] in L1, L2;
    destruct l as [|m l]; destruct xs as [|y xs]; cbn [List.length] in L1, L2; try lia.
  - cbn [app all_denote] in H. tauto.
  - cbn [app all_denote] in H. destruct H as [_ H]. eauto.
Qed.
Lemma tuple_end null some ts l xs last : null_ok null -> all_denote null some ts l xs ->
  forallb (reads true) ts = true -> match rev ts with DVec _ :: _ => false | _ => true end = true ->
  last <> YSeqEnd -> match rev l with n :: _ => last_ev n | [] => last end <> YSeqEnd.
Proof.
  intros NO A R V LN. pose proof (all_denote_lengths _ _ _ _ _ A) as [Ll Lx].
  destruct (rev l) as [|n l'] eqn:El; [exact LN|].
  assert (L' : l = rev l' ++ [n]) by (rewrite <- (rev_involutive l), El; reflexivity).
  destruct (rev ts) as [|t ts'] eqn:Et.
  { assert (ts = []) by (rewrite <- (rev_involutive ts), Et; reflexivity). subst. destruct (rev l'); discriminate. }
  assert (T' : ts = rev ts' ++ [t]) by (rewrite <- (rev_involutive ts), Et; reflexivity).
  destruct (rev xs) as [|x xs'] eqn:Ex.
  { assert (xs = []) by (rewrite <- (rev_involutive xs), Ex; reflexivity). subst. destruct (rev ts'); discriminate. }
  assert (X' : xs = rev xs' ++ [x]) by (rewrite <- (rev_involutive xs), Ex; reflexivity).
  rewrite T', L', X' in A. apply all_denote_snoc in A.
  rewrite T', forallb_app in R. apply andb_prop in R. destruct R as [_ R]. cbn [forallb] in R. apply andb_prop in R.
  refine (peeked_end null some t n x NO A (proj1 R) _). now destruct t.
Qed.
Lemma denotes_tuple null some ts n x : denotes null some (DTuple ts) n x ->
  exists a g l xs, n = NSeq a g l /\ x = VSeq xs /\ all_denote null some ts l xs.
Proof.
  cbn [denotes]. intros (a & g & l & xs & -> & -> & H). exists a, g, l, xs. split; [reflexivity|]. split; [reflexivity|].
  revert l xs H. induction ts as [|t ts IH]; intros [|n l] [|x xs] H; try contradiction; [easy|].
  destruct H as [H1 H2]. split; [exact H1|]. now apply IH.
Qed.
Lemma denotes_struct null some fs n x : denotes null some (DStruct fs) n x ->
  exists a g l xs, n = NMap a g l /\ x = VStruct xs /\ NoDup (map fst fs) /\
    Forall (fun e => exists name, key_is name e /\ In name (map fst fs)) l /\
    (forall l1 e l2 name, l = l1 ++ e :: l2 -> key_is name e -> Forall (fun e => ~ key_is name e) (l1 ++ l2)) /\
    fields_denote null some l fs xs.
Proof.
  cbn [denotes]. intros (a & g & l & xs & -> & -> & N & F & U & H). exists a, g, l, xs.
  split; [reflexivity|]. split; [reflexivity|]. split; [exact N|]. split; [exact F|]. split; [exact U|].
  clear N F U. revert xs H. induction fs as [|[n t] fs IH]; intros [|[n' x] xs] H; try contradiction; [easy|].
  destruct H as (H1 & H2 & H3). split; [exact H1|]. split; [exact H2|]. now apply IH.
Qed.
Lemma forall2_in_l {A B} (R : A -> B -> Prop) l r x : Forall2 R l r -> In x l -> exists y, In y r /\ R x y.
Proof.
  induction 1 as [|a b l r H F IH]; intros I; [contradiction|]. destruct I as [->|I]; [exists b; split; [now left|exact H]|].
  destruct (IH I) as (y & J & K). exists y. split; [now right|exact K].
Qed.
Lemma forall2_in_r {A B} (R : A -> B -> Prop) l r y : Forall2 R l r -> In y r -> exists x, In x l /\ R x y.
Proof.
  induction 1 as [|a b l r H F IH]; intros I; [contradiction|]. destruct I as [->|I]; [exists a; split; [now left|exact H]|].
  destruct (IH I) as (x & J & K). exists x. split; [now right|exact K].
Qed.
Lemma entry_pos (x : node * node) : 0 < List.length (node_yams (fst x) ++ node_yams (snd x)).
Proof. rewrite app_length. pose proof (yams_pos (fst x)). lia. Qed.

Lemma de_reads null some : null_ok null -> some_ok some -> forall t, reads_ok null some t.
Proof.
  intros NO SO. induction t using target_induction; intros n x fuel rest last b D L R.
  - (* integers *)
    cbn [denotes] in D. destruct D as (v & z & -> & -> & S & G & M). cbn [de]. unfold deserialize_int.
    rewrite skip_skip_doc. cbn [first_ev more app]. unfold dbind at 1. cbn [dskip d_rest d_last].
    now rewrite (parse_int_ok lo hi _ z S G M).
  - cbn [denotes] in D. destruct D as (v & z & -> & -> & S). cbn [de]. now apply (any_scalar v (SBool z)).
  - cbn [denotes] in D. destruct D as (v & f & -> & -> & [S|(z & S & ->)]); cbn [de].
    + now apply (any_scalar v (SFloat f)).
    + now apply (any_scalar v (SInt z)).
  - cbn [denotes] in D. destruct D as (v & f & -> & -> & S). cbn [de]. now apply (any_scalar v (SString f)).
  - cbn [denotes] in D. destruct D as (N & ->). apply NO in N. destruct N as (v & -> & N). cbn [de].
    unfold dbind at 1. rewrite at_peek_null_true by exact N. reflexivity.
  - (* options *)
    cbn [reads] in R. apply andb_prop in R. destruct R as [B R]. destruct b; [discriminate|].
    cbn [denotes] in D. cbn [de]. unfold dbind at 1. destruct D as [(N & ->)|(S & y & -> & D)].
    + apply NO in N. destruct N as (v & -> & N). rewrite at_peek_null_true by exact N. reflexivity.
    + rewrite at_peek_null_false by (now apply SO). cbn [negb].
      change (Des (more n ++ rest) (first_ev n) true) with (at_node true n rest last).
      unfold dbind at 1. now rewrite (IHt n y fuel) by auto.
  - (* sequences *)
    cbn [denotes] in D. destruct D as (a & g & l & xs & -> & -> & D). cbn [de reads] in *.
    cbn [node_yams List.length] in L. rewrite app_length in L. cbn [List.length] in L.
    apply seq_of with (last' := YSeqEnd) (p := true); [|easy].
    apply (vec_loop (de fuel t) (denotes null some t) l xs); [exact D| |].
    + intros m y r la I H. apply IHt; auto. pose proof (flat_elem node_yams m l I). lia.
    + pose proof (flat_length node_yams l yams_pos). lia.
  - (* mappings *)
    cbn [denotes] in D. destruct D as (a & g & l & xs & -> & -> & D). cbn [de reads] in *.
    apply andb_prop in R. destruct R as [RK RV].
    cbn [node_yams List.length] in L. rewrite app_length in L. cbn [List.length] in L.
    apply map_of.
    apply (map_loop (de fuel t1) (de fuel t2) (denotes null some t1) (denotes null some t2) l xs); [exact D| | |].
    + intros e y r la I H. apply IHt1; auto.
      pose proof (flat_elem (fun x => node_yams (fst x) ++ node_yams (snd x)) e l I) as FE. cbn beta in FE. rewrite app_length in FE. lia.
    + intros e y r la I H. apply IHt2; auto.
      pose proof (flat_elem (fun x => node_yams (fst x) ++ node_yams (snd x)) e l I) as FE. cbn beta in FE. rewrite app_length in FE. lia.
    + pose proof (flat_length (fun x => node_yams (fst x) ++ node_yams (snd x)) l entry_pos). lia.
  - (* tuples *)
    apply denotes_tuple in D. destruct D as (a & g & l & xs & -> & -> & D).
    cbn [reads] in R. apply andb_prop in R. destruct R as [R V]. apply andb_prop in R. destruct R as [B R].
    destruct b; [discriminate|]. cbn [de].
    cbn [node_yams List.length] in L. rewrite app_length in L. cbn [List.length] in L.
    unfold deserialize_any. rewrite skip_skip_doc. cbn [first_ev negb].
    change (Des (more (NSeq a g l) ++ rest) (YSeqStart a g) true) with (at_node true (NSeq a g l) rest last).
    eapply seq_of with (p := false).
    + rewrite (tuple_loop null some fuel ts l xs); auto. intros m I. pose proof (flat_elem node_yams m l I). lia.
    + split; [|discriminate]. intros E. exfalso. revert E. eapply tuple_end; eauto. discriminate.
  - (* structs *)
    apply denotes_struct in D. destruct D as (a & g & l & xs & -> & -> & N & F & U & D).
    cbn [reads] in R. apply andb_prop in R. destruct R as [B R]. destruct b; [discriminate|]. cbn [de].
    cbn [node_yams List.length] in L. rewrite app_length in L. cbn [List.length] in L.
    unfold deserialize_any. rewrite skip_skip_doc. cbn [first_ev negb].
    change (Des (more (NMap a g l) ++ rest) (YMapStart a g) true) with (at_node true (NMap a g l) rest last).
    apply map_of. fold (field_readers fuel fs).
    destruct (entries_gives null some fs xs l N D U l) as (ps & P & M); [now exists []|exact F|].
    apply struct_loop with (D := denotes null some) (l := l) (ps := ps).
    + clear -P. induction P as [|e p l ps [G _] P IH]; constructor; auto.
    + intros e t y r la I J H'. rewrite Forall_forall in H. apply in_map_iff in J. destruct J as (nt & <- & J).
      rewrite forallb_forall in R. apply (H nt J); auto.
      pose proof (flat_elem (fun x => node_yams (fst x) ++ node_yams (snd x)) e l I) as FE. cbn beta in FE. rewrite app_length in FE. lia.
    + pose proof (flat_length (fun x => node_yams (fst x) ++ node_yams (snd x)) l entry_pos). lia.
    + exact M.
    + cbn [app]. apply fields_collect with (null := null) (some := some) (l := l); [exact D| |].
      * intros name t y I J (e & Ie & K). destruct (forall2_in_l _ _ _ e P Ie) as ((pn & px) & Ip & (K' & _) & A).
        cbn [fst snd] in *. assert (pn = name) by (eapply key_unique; eauto). subst pn.
        rewrite (assoc_nodup name ps px M Ip). rewrite <- A. apply assoc_nodup; [|exact J].
        rewrite (fields_names _ _ _ _ _ D). exact N.
      * intros name NK. apply assoc_none. intros I. apply in_map_iff in I. destruct I as ((pn & px) & <- & I).
        destruct (forall2_in_r _ _ _ _ P I) as (e & Ie & (K' & _) & _). cbn [fst] in *.
        rewrite Forall_forall in NK. exact (NK e Ie K').
  - (* enums *)
    cbn [reads] in R. cbn [denotes] in D. destruct D as [(v & -> & -> & t & A)|(a & g & k & c & name & y & -> & -> & K & D)].
    + cbn [de]. rewrite skip_skip_doc. cbn [first_ev more app]. unfold dbind at 1. cbn [dskip d_rest d_last].
      match goal with |- context [assoc (sv_value v) (map ?f vs)] =>
        rewrite (assoc_map (fun x => (fst (snd x), _)) (sv_value v) vs) end.
      rewrite A. reflexivity.
    + exfalso. clear -R D. induction vs as [|[n' [kind t]] vs IH]; [contradiction|].
      cbn [forallb] in R. apply andb_prop in R. destruct R as [R1 R2]. destruct D as [(_ & N & _)|(_ & D)]; [|auto].
      cbn [fst snd] in R1. destruct kind; congruence.
  - discriminate.
Qed.

(** ** The recognised nulls are nulls *)
Lemma forall2_mono {A B} (R S : A -> B -> Prop) l r : (forall a b, R a b -> S a b) -> Forall2 R l r -> Forall2 S l r.
Proof. intros I. induction 1; constructor; auto. Qed.
Lemma denotes_mono (null some null' some' : node -> Prop) :
  (forall n, null n -> null' n) -> (forall n, some n -> some' n) ->
  forall t n x, denotes null some t n x -> denotes null' some' t n x.
Proof.
  intros HN HS. induction t using target_induction; intros n x D.
  - exact D.
  - exact D.
  - exact D.
  - exact D.
  - destruct D as (N & E). cbn [denotes]. auto.
  - destruct D as [(N & E)|(S & y & E & D)]; [left; auto|right]. split; [auto|]. exists y. auto.
  - destruct D as (a & g & l & xs & E & F & D). exists a, g, l, xs. split; [exact E|]. split; [exact F|].
    revert D. now apply forall2_mono.
  - destruct D as (a & g & l & xs & E & F & D). exists a, g, l, xs. split; [exact E|]. split; [exact F|].
    revert D. apply forall2_mono. intros e y [K V]. auto.
  - destruct D as (a & g & l & xs & E & F & D). exists a, g, l, xs. split; [exact E|]. split; [exact F|].
    clear E F. revert l xs D. induction H as [|t ts Ht H IH]; intros [|m l] [|y xs] D; try contradiction; [exact I|].
    destruct D as [D1 D2]. split; [now apply Ht|]. now apply IH.
  - destruct D as (a & g & l & xs & E & F & N & K & U & D). exists a, g, l, xs. split; [exact E|]. split; [exact F|].
    split; [exact N|]. split; [exact K|]. split; [exact U|]. clear E F N K U.
    revert xs D. induction H as [|[nm t] fs Ht H IH]; intros [|[nm' y] xs] D; try contradiction; [exact I|].
    destruct D as (D1 & D2 & D3). split; [exact D1|]. split; [|now apply IH].
    destruct D2 as [(e & I & K & D2)|D2]; [left|right; exact D2]. exists e. split; [exact I|]. split; [exact K|].
    now apply Ht.
  - destruct D as [D|(a & g & k & c & name & y & E & F & K & D)]; [left; exact D|right].
    exists a, g, k, c, name, y. split; [exact E|]. split; [exact F|]. split; [exact K|]. clear E F K.
    induction H as [|[nm [kind t]] vs Ht H IH]; [contradiction|].
    destruct D as [(D1 & D2 & D3)|(D1 & D2)]; [left|right; split; [exact D1|exact (IH D2)]].
    split; [exact D1|]. split; [exact D2|]. now apply Ht.
  - exact D.
Qed.

(** ** The recognised nulls and values *)
Lemma seen_null_ok : null_ok (fun n => yaml_null n /\ seen_as_null n).
Proof.
  intros n [_ (v & -> & T & I)]. exists v. split; [reflexivity|]. unfold sv_is_null. rewrite T.
  destruct I as [<-|[<-|[]]]; reflexivity.
Qed.
Lemma seen_value_ok : some_ok seen_as_value.
Proof.
  intros n (_ & NS & T) v ->. specialize (T v eq_refl).
  destruct (sv_is_null v) eqn:E; [|reflexivity]. exfalso. apply NS. exists v. split; [reflexivity|]. split; [exact T|].
  unfold sv_is_null, is_null_tagged in E. rewrite T in E.
  destruct (text_eqb (sv_value v) []) eqn:E1; [apply text_eqb_iff in E1; left; congruence|].
  destruct (text_eqb (sv_value v) (str "null")) eqn:E2; [apply text_eqb_iff in E2; right; left; congruence|].
  exfalso. revert E. vm_compute (is_yaml_core_schema _). cbn [orb]. discriminate.
Qed.

(** ** At the start of a document *)
Lemma dbind_same {A B} (m : DM A) (k : A -> DM B) d d' : m d = m d' -> dbind m k d = dbind m k d'.
Proof. intros E. unfold dbind. now rewrite E. Qed.
Lemma de_same fuel t d d' : 0 < fuel -> skip_doc d = skip_doc d' -> de fuel t d = de fuel t d'.
Proof.
  intros F E.
  assert (P : peek_null d = peek_null d') by (now apply dbind_same).
  destruct t; cbn [de]; try (now apply dbind_same).
  destruct fuel; [lia|]. now apply dbind_same.
Qed.
Lemma document_start n rest last :
  skip_doc (Des (YDocStart :: node_yams n ++ rest) last false) = skip_doc (Des (node_yams n ++ rest) YDocStart false).
Proof. rewrite yams_first. now destruct n. Qed.

(** ** C40 *)
Lemma nested_values t n x fuel rest last :
  reads false t = true ->
  denotes (fun n => yaml_null n /\ seen_as_null n) seen_as_value t n x ->
  List.length (node_yams n) < fuel ->
  denotes yaml_null (fun n => ~ yaml_null n) t n x /\
  (exists d, de fuel t (Des (node_yams n ++ rest) last false) = (d, DOk x) /\ d_rest d = rest /\ d_peeked d = false) /\
  (exists d, de fuel t (Des (YDocStart :: node_yams n ++ rest) last false) = (d, DOk x) /\ d_rest d = rest /\ d_peeked d = false).
Proof.
  intros R D L. split; [|split].
  - revert D. apply denotes_mono; [now intros m [N _]|now intros m [N _]].
  - exists (Des rest (last_ev n) false). split; [|easy].
    exact (de_reads _ _ seen_null_ok seen_value_ok t n x fuel rest last false D L R).
  - exists (Des rest (last_ev n) false). split; [|easy]. rewrite (de_same fuel t _ _ ltac:(lia) (document_start n rest last)).
    exact (de_reads _ _ seen_null_ok seen_value_ok t n x fuel rest YDocStart false D L R).
Qed.
