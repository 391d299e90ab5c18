(** Model of deserialisation: [yam-serde/src/de.rs]. *)
From Verif Require Import Base Tokens Scalar ParserIter.
From Coq Require Import String.
Local Open Scope list_scope.

(** ** Target types and values *)
(** The kinds of enum variants of serde ([VariantAccess], de.rs:495-530). *)
Inductive vkind := KUnit | KNewtype | KTuple | KStruct.
(** The types deserialised into, by the [Deserializer] method their [Deserialize] implementation calls
    (serde; de.rs:86-336): integers by their range, [bool], [f32]/[f64], [String], [()], [Option], [Vec],
    maps, tuples, structs, enums, and values that are ignored.  A variant carries its content as a
    type: a tuple for [KTuple], a struct for [KStruct]; it is not used for [KUnit]. *)
Inductive target :=
| DInt (lo hi : Z)
| DBool | DFloat | DString | DUnit
| DOption (t : target)
| DVec (t : target)
| DMap (k v : target)
| DTuple (ts : list target)
| DStruct (fs : list (text * target))
| DEnum (vs : list (text * (vkind * target)))
| DIgnored.
(** The values made by the visitors (serde; de.rs:86-336).  A map is the list of the entries inserted,
    in order; an [f64] is kept as in [Scalar.v]. *)
Inductive value :=
| VInt (z : Z) | VBool (b : bool) | VFloat (f : fl) | VString (t : text) | VUnit
| VNone | VSome (v : value)
| VSeq (l : list value)
| VMap (l : list (value * value))
| VStruct (l : list (text * value))
| VEnum (name : text) (v : value)
| VIgnored.

(** ** The deserialiser *)
(** [de.rs:13-20] [YamIterDeserializer]: what [ParserIter] will still deliver, [last_event],
    [has_peeked]. *)
Record des := Des { d_rest : list yam_event; d_last : yam_event; d_peeked : bool }.
(** [de.rs:353-359] [DeYamlError], without the texts of messages and what was found. *)
Inductive derr := DUnexpected (expected : string) | DCustom | DExpectedNull.
(** Outcomes of the methods of de.rs:86-336; [DPanic] is [todo!()] (de.rs:503), [DFuel] the bound of the
    model. *)
Inductive dout (A : Type) := DOk (a : A) | DErr (e : derr) | DPanic | DFuel.
Arguments DOk {A} a. Arguments DErr {A} e. Arguments DPanic {A}. Arguments DFuel {A}.
(** A method on [&mut YamIterDeserializer] (de.rs:86-336). *)
Definition DM (A : Type) : Type := des -> des * dout A.
(** [Ok(a)] (de.rs:271). *)
Definition dret {A} (a : A) : DM A := fun d => (d, DOk a).
(** [Err(e)] (de.rs:257). *)
Definition dfail {A} (e : derr) : DM A := fun d => (d, DErr e).
(** [?] (de.rs:264). *)
Definition dbind {A B} (m : DM A) (k : A -> DM B) : DM B := fun d =>
  match m d with
  | (d', DOk a) => k a d'
  | (d', DErr e) => (d', DErr e)
  | (d', DPanic) => (d', DPanic)
  | (d', DFuel) => (d', DFuel)
  end.
Notation "'let!' x := m 'in' k" := (dbind m (fun x => k)) (at level 61, x name, right associativity).
Notation "m ';!' k" := (dbind m (fun _ => k)) (at level 61, right associativity).

(** [de.rs:22-30] [new], on what the iterator will deliver. *)
Definition des_new (evs : list yam_event) : des := Des evs YDocStart false.
(** [de.rs:36-45] [next_el]: the flag is set before the iterator is asked. *)
Definition next_el : DM (option yam_event) := fun d =>
  if d_peeked d then (Des (d_rest d) (d_last d) false, DOk (Some (d_last d)))
  else match d_rest d with
       | [] => (Des [] (d_last d) true, DOk None)
       | e :: r => (Des r e true, DOk (Some e))
       end.
(** [de.rs:47-49] [skip]. *)
Definition dskip : DM unit := fun d => (Des (d_rest d) (d_last d) false, DOk tt).
(** [de.rs:342-350] [skip_doc]. *)
Definition skip_doc : DM (option yam_event) :=
  let! e := next_el in
  match e with
  | Some YDocStart => dskip ;! next_el
  | e => dret e
  end.
(** [de.rs:51-57] [peek_null]. *)
Definition peek_null : DM bool :=
  let! e := skip_doc in
  dret match e with Some (YScalarEv v) => sv_is_null v | _ => false end.

(** [str::parse] for integer types (Rust core; de.rs:75-84): a sign ([-] only for signed types) and
    decimal digits, the value in the range of the type. *)
Definition parse_int (lo hi : Z) (t : text) : option Z :=
  let '(neg, ds) := match t with
                    | 43%N :: r => (false, r)
                    | 45%N :: r => if (lo <? 0)%Z then (true, r) else (false, t)
                    | _ => (false, t)
                    end in
  match ds with
  | [] => None
  | _ =>
      if forallb is_ascii_digit ds then
        let z := (if neg : bool then - Z.of_N (digits_num ds) else Z.of_N (digits_num ds))%Z in
        if ((lo <=? z) && (z <=? hi))%Z then Some z else None
      else None
  end.
(** [de.rs:110-220] [deserialize_i8] to [deserialize_u64]. *)
Definition deserialize_int (lo hi : Z) : DM value :=
  let! e := skip_doc in
  match e with
  | Some (YScalarEv v) =>
      dskip ;!
      match parse_int lo hi (sv_value v) with
      | Some z => dret (VInt z)
      | None => dfail DCustom
      end
  | _ => dfail DCustom
  end.
(** [de.rs:59-72] [resolve_scalar]: the value handed to the visitor. *)
Definition resolve_scalar (visit : scalar -> option value) (v : scalar_value) : DM value :=
  match parse_from_cow_and_metadata (sv_value v) (sv_type v) (sv_tag v) with
  | Some s => match visit s with Some x => dret x | None => dfail DCustom end
  | None => dfail DCustom
  end.
(** The visitor of [bool] (serde; called from de.rs:63-70). *)
Definition visit_bool (s : scalar) : option value :=
  match s with SBool b => Some (VBool b) | _ => None end.
(** The visitor of [f32] and [f64] (serde; called from de.rs:63-70): integers are converted. *)
Definition visit_float (s : scalar) : option value :=
  match s with
  | SFloat f => Some (VFloat f)
  | SInt z => Some (VFloat (FNum (z <? 0)%Z (Z.abs_N z) 0))
  | _ => None
  end.
(** The visitor of [String] (serde; called from de.rs:63-70). *)
Definition visit_string (s : scalar) : option value :=
  match s with SString t => Some (VString t) | _ => None end.
(** The visitor of [IgnoredAny] on scalars (serde; called from de.rs:63-70). *)
Definition visit_ignored (s : scalar) : option value := Some VIgnored.

(** [de.rs:252-274] [deserialize_seq]; [visit] is [visitor.visit_seq]. *)
Definition deserialize_seq {A} (visit : DM A) : DM A :=
  let! e := skip_doc in
  match e with
  | Some (YSeqStart _ _) =>
      dskip ;!
      let! v := visit in
      fun d =>
        match d_last d with
        | YSeqEnd => (dskip ;! dret v) d
        | _ => (let! e := next_el in
                match e with
                | Some YSeqEnd => dskip ;! dret v
                | _ => dfail (DUnexpected "SeqEnd")
                end) d
        end
  | _ => dfail (DUnexpected "SeqStart")
  end.
(** [de.rs:276-298] [deserialize_map]; [visit] is [visitor.visit_map]. *)
Definition deserialize_map {A} (visit : DM A) : DM A :=
  let! e := skip_doc in
  match e with
  | Some (YMapStart _ _) =>
      dskip ;!
      let! v := visit in
      fun d =>
        match d_last d with
        | YMapEnd => (dskip ;! dret v) d
        | _ => (let! e := next_el in
                match e with
                | Some YMapEnd => dskip ;! dret v
                | _ => dfail (DUnexpected "MapEnd")
                end) d
        end
  | _ => dfail (DUnexpected "MapStart")
  end.
(** [de.rs:93-108] [deserialize_any], to which [bool], [f32], [f64], [str], tuples, structs and others
    are forwarded (de.rs:246-250); the methods of the visitor as arguments. *)
Definition deserialize_any (visit_scalar : scalar -> option value) (visit_seq visit_map : DM value) : DM value :=
  let! e := skip_doc in
  match e with
  | Some (YMapStart _ _) => deserialize_map visit_map
  | Some (YSeqStart _ _) => deserialize_seq visit_seq
  | Some (YScalarEv v) => dskip ;! resolve_scalar visit_scalar v
  | _ => dfail DCustom
  end.
(** [de.rs:412-427] [next_element_seed]; [seed] is [seed.deserialize]. *)
Definition next_element {A} (seed : DM A) : DM (option A) :=
  let! e := next_el in
  match e with
  | Some YSeqEnd => dret None
  | Some YDocEnd | Some YStreamEnd | None => dfail (DUnexpected "SeqEnd")
  | Some _ => let! v := seed in dret (Some v)
  end.
(** [de.rs:435-449] [next_key_seed]. *)
Definition next_key {A} (seed : DM A) : DM (option A) :=
  let! e := next_el in
  match e with
  | Some YMapEnd => dret None
  | Some YDocEnd | Some YStreamEnd | None => dfail (DUnexpected "MapEnd")
  | Some _ => let! v := seed in dret (Some v)
  end.
(** [de.rs:451-459] [next_value_seed]. *)
Definition next_value {A} (seed : DM A) : DM A := seed.

(** ** Visitors of the target types (serde, called from de.rs:264, 288) *)
(** A default visitor method: invalid type (serde; called from de.rs:264, 288). *)
Definition no_visit {A} : DM A := dfail DCustom.
(** The same for the scalar methods (serde; called from de.rs:63-70). *)
Definition no_scalar (s : scalar) : option value := None.
(** [visit_seq] of [Vec] (serde; called from de.rs:264). *)
Fixpoint visit_vec (fuel : nat) (elem : DM value) (acc : list value) : DM value :=
  match fuel with
  | O => fun d => (d, DFuel)
  | S fuel =>
      let! x := next_element elem in
      match x with
      | None => dret (VSeq acc)
      | Some v => visit_vec fuel elem (acc ++ [v])
      end
  end.
(** [visit_map] of maps (serde; called from de.rs:288). *)
Fixpoint visit_entries (fuel : nat) (key val : DM value) (acc : list (value * value)) : DM value :=
  match fuel with
  | O => fun d => (d, DFuel)
  | S fuel =>
      let! k := next_key key in
      match k with
      | None => dret (VMap acc)
      | Some k => let! v := next_value val in visit_entries fuel key val (acc ++ [(k, v)])
      end
  end.
(** [visit_seq] of tuples (serde; called from de.rs:264): as many elements as the type has; the end is not asked for. *)
Fixpoint visit_tuple (elems : list (DM value)) (acc : list value) : DM value :=
  match elems with
  | [] => dret (VSeq acc)
  | e :: r =>
      let! x := next_element e in
      match x with
      | None => dfail DCustom
      | Some v => visit_tuple r (acc ++ [v])
      end
  end.
(** [visit_seq] of [IgnoredAny] (serde; called from de.rs:264). *)
Fixpoint ignore_elements (fuel : nat) (elem : DM value) : DM value :=
  match fuel with
  | O => fun d => (d, DFuel)
  | S fuel => let! x := next_element elem in
              match x with None => dret VIgnored | Some _ => ignore_elements fuel elem end
  end.
(** [visit_map] of [IgnoredAny] (serde; called from de.rs:288). *)
Fixpoint ignore_entries (fuel : nat) (elem : DM value) : DM value :=
  match fuel with
  | O => fun d => (d, DFuel)
  | S fuel => let! x := next_key elem in
              match x with
              | None => dret VIgnored
              | Some _ => next_value elem ;! ignore_entries fuel elem
              end
  end.
(** [IgnoredAny] (serde; [ignored_any] is forwarded, de.rs:249): everything is visited. *)
Fixpoint ignore_any (fuel : nat) : DM value :=
  match fuel with
  | O => fun d => (d, DFuel)
  | S fuel =>
      deserialize_any visit_ignored (ignore_elements fuel (ignore_any fuel)) (ignore_entries fuel (ignore_any fuel))
  end.
(** [de.rs:330-335] [deserialize_identifier] with the visitor of field and variant names (serde_derive). *)
Definition identifier : DM text :=
  let! v := deserialize_any visit_string no_visit no_visit in
  match v with VString t => dret t | _ => dfail DCustom end.
(** An entry by its name (the match of serde_derive on field names, called from de.rs:288). *)
Fixpoint assoc {A} (name : text) (l : list (text * A)) : option A :=
  match l with
  | [] => None
  | (n, a) :: r => if text_eqb name n then Some a else assoc name r
  end.
(** The end of [visit_map] of a struct (serde_derive, called from de.rs:288): every field in order, [None] for a missing
    [Option]. *)
Fixpoint struct_fields (fields : list (text * (bool * DM value))) (got : list (text * value))
  : option (list (text * value)) :=
  match fields with
  | [] => Some []
  | (n, (opt, _)) :: r =>
      match (match assoc n got with Some v => Some v | None => if opt then Some VNone else None end),
            struct_fields r got with
      | Some v, Some l => Some ((n, v) :: l)
      | _, _ => None
      end
  end.
(** [visit_map] of a struct (serde_derive, called from de.rs:288): known fields once each, others ignored. *)
Fixpoint visit_struct (fuel : nat) (fields : list (text * (bool * DM value))) (got : list (text * value))
  : DM value :=
  match fuel with
  | O => fun d => (d, DFuel)
  | S fuel' =>
      let! k := next_key identifier in
      match k with
      | None =>
          match struct_fields fields got with
          | Some l => dret (VStruct l)
          | None => dfail DCustom
          end
      | Some name =>
          match assoc name fields with
          | Some (_, val) =>
              match assoc name got with
              | Some _ => dfail DCustom
              | None => let! v := next_value val in visit_struct fuel' fields (got ++ [(name, v)])
              end
          | None => next_value (ignore_any fuel) ;! visit_struct fuel' fields got
          end
      end
  end.
(** [visit_seq] of a struct (serde_derive, called from de.rs:264): the fields in order. *)
Definition struct_of_seq (names : list text) (v : value) : value :=
  match v with VSeq l => VStruct (combine names l) | v => v end.

(** [Deserialize::deserialize] of the target types (serde): which method of de.rs:86-336 is called with which
    visitor. *)
Fixpoint de (fuel : nat) (t : target) : DM value :=
  match t with
  | DInt lo hi => deserialize_int lo hi
  | DBool => deserialize_any visit_bool no_visit no_visit
  | DFloat => deserialize_any visit_float no_visit no_visit
  | DString => deserialize_any visit_string no_visit no_visit
  | DUnit =>
      (* de.rs:234-244 [deserialize_unit] *)
      let! n := peek_null in
      if n then dskip ;! dret VUnit else dfail DExpectedNull
  | DOption t =>
      (* de.rs:222-232 [deserialize_option] *)
      let! n := peek_null in
      if n then dskip ;! dret VNone else let! v := de fuel t in dret (VSome v)
  | DVec t => deserialize_seq (visit_vec fuel (de fuel t) [])
  | DMap k v => deserialize_map (visit_entries fuel (de fuel k) (de fuel v) [])
  | DTuple ts => deserialize_any no_scalar (visit_tuple (map (de fuel) ts) []) no_visit
  | DStruct fs =>
      deserialize_any no_scalar
        (let! v := visit_tuple (map (fun x => de fuel (snd x)) fs) [] in dret (struct_of_seq (map fst fs) v))
        (visit_struct fuel
           (map (fun x => (fst x, (match snd x with DOption _ => true | _ => false end, de fuel (snd x)))) fs) [])
  | DEnum vs =>
      (* de.rs:300-328 [deserialize_enum], de.rs:486-530 [variant_seed] and the variants *)
      let vs := map (fun x => (fst x, (fst (snd x), (de fuel (snd (snd x)),
                  match snd (snd x) with
                  | DTuple ts => deserialize_seq (visit_tuple (map (de fuel) ts) [])
                  | DStruct fs =>
                      deserialize_map
                        (visit_struct fuel
                           (map (fun x => (fst x, (match snd x with DOption _ => true | _ => false end,
                                                   de fuel (snd x)))) fs) [])
                  | _ => no_visit
                  end)))) vs in
      let! e := skip_doc in
      match e with
      | Some (YScalarEv v) =>
          dskip ;!
          match assoc (sv_value v) vs with
          | Some (KUnit, _) => dret (VEnum (sv_value v) VUnit)
          | _ => dfail DCustom
          end
      | Some (YMapStart _ _) =>
          dskip ;!
          let! name := identifier in
          let! x := match assoc name vs with
                    | Some (KUnit, _) => fun d => (d, DPanic)
                    | Some (KNewtype, (one, _)) => one
                    | Some (_, (_, many)) => many
                    | None => dfail DCustom
                    end in
          let! e := next_el in
          match e with
          | Some YMapEnd => dret (VEnum name x)
          | _ => dfail (DUnexpected "MapEnd")
          end
      | _ => dfail DCustom
      end
  | DIgnored => ignore_any fuel
  end.
(** [lib.rs:64-72] [from_str], on what the iterator delivers. *)
Definition from_events (fuel : nat) (t : target) (evs : list yam_event) : dout value :=
  snd (de fuel t (des_new evs)).
