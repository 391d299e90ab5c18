(** Model of YAML values and their accessors: [yam-core/src/node/yaml_data.rs],
    [yam-core/src/node/yaml.rs], [yam-core/src/prelude/mod.rs] ([YamlDocAccess]). *)
From Verif Require Import Base Tokens Scalar.
From Coq Require Import String.

(** [node/yaml_data.rs:16-38] [YamlData] inside [Yaml] ([node/yaml.rs:42]), with [FP = f64],
    [INT = i64], [STR = Cow<str>]; a mapping is the [Vec<YamlEntry>] of its pairs. *)
Inductive yaml :=
| YBad
| YScalar (s : scalar)
| YSeq (l : list yaml)
| YMap (l : list (yaml * yaml))
| YTagged (t : tag) (y : yaml)
| YAlias (id : nat).

(** [prelude/mod.rs:194-216] [NodeType]. *)
Inductive node_type :=
| NtBad | NtMapping | NtSequence | NtBool | NtInteger | NtFloating | NtString | NtAlias | NtNull.

(** [node/yaml_data.rs:73-85] [get_type]: a tagged value falls into the last arm. *)
Definition get_type (y : yaml) : node_type :=
  match y with
  | YMap _ => NtMapping
  | YSeq _ => NtSequence
  | YScalar (SBool _) => NtBool
  | YScalar (SInt _) => NtInteger
  | YScalar (SFloat _) => NtFloating
  | YScalar (SString _) => NtString
  | YAlias _ => NtAlias
  | YScalar SNull => NtNull
  | _ => NtBad
  end.

(** [prelude/mod.rs:292-294], [313-315], [335-337], [352-354], [368-370], [384-386], [401-403],
    [425-427], [449-451], [475-477]: the type predicates of [YamlDocAccess]. *)
Definition is_bad_value (y : yaml) : bool := match get_type y with NtBad => true | _ => false end.
Definition is_null (y : yaml) : bool := match get_type y with NtNull => true | _ => false end.
Definition is_string (y : yaml) : bool := match get_type y with NtString => true | _ => false end.
Definition is_bool (y : yaml) : bool := match get_type y with NtBool => true | _ => false end.
Definition is_floating_point (y : yaml) : bool := match get_type y with NtFloating => true | _ => false end.
Definition is_integer (y : yaml) : bool := match get_type y with NtInteger => true | _ => false end.
Definition is_alias (y : yaml) : bool := match get_type y with NtAlias => true | _ => false end.
Definition is_mapping (y : yaml) : bool := match get_type y with NtMapping => true | _ => false end.
Definition is_sequence (y : yaml) : bool := match get_type y with NtSequence => true | _ => false end.
Definition is_collection (y : yaml) : bool :=
  match get_type y with NtSequence | NtMapping => true | _ => false end.

(** [node/yaml.rs:77-83] [is_non_empty_collection]. *)
Definition is_non_empty_collection (y : yaml) : bool :=
  match y with
  | YSeq l => match l with [] => false | _ => true end
  | YMap l => match l with [] => false | _ => true end
  | _ => false
  end.

(** [node/yaml.rs:85-167] [as_bool], [as_i64], [as_f64], [as_str], [as_sequence], [as_mapping];
    [None] also stands for [Err(YamlAccessError::_)]. The [_mut] variants address the same
    component. *)
Definition as_bool (y : yaml) : option bool := match y with YScalar (SBool b) => Some b | _ => None end.
Definition as_i64 (y : yaml) : option Z := match y with YScalar (SInt z) => Some z | _ => None end.
Definition as_f64 (y : yaml) : option fl := match y with YScalar (SFloat f) => Some f | _ => None end.
Definition as_str (y : yaml) : option text := match y with YScalar (SString t) => Some t | _ => None end.
Definition as_sequence (y : yaml) : option (list yaml) := match y with YSeq l => Some l | _ => None end.
Definition as_mapping (y : yaml) : option (list (yaml * yaml)) := match y with YMap l => Some l | _ => None end.

(** [node/yaml.rs:169-195] [sequence]/[sequence_mut], [mapping]/[mapping_mut]: panic otherwise. *)
Definition sequence (y : yaml) : out (list yaml) := match y with YSeq l => Ok l | _ => Panic end.
Definition mapping (y : yaml) : out (list (yaml * yaml)) := match y with YMap l => Ok l | _ => Panic end.

(** [node/yaml.rs:197-202] [get_tag]; [229-231] [into_tagged]. *)
Definition get_tag (y : yaml) : option tag := match y with YTagged t _ => Some t | _ => None end.
Definition into_tagged (y : yaml) (t : tag) : yaml := YTagged t y.

(** [node/yaml_data.rs:97-111] [value_from_cow_and_metadata]. *)
Definition value_from_cow_and_metadata (v : text) (style : scalar_type) (tg : option tag) : yaml :=
  let untagged t := match parse_from_cow_and_metadata v style t with
                    | Some s => YScalar s
                    | None => YBad
                    end in
  match tg with
  | Some g => if negb (is_yaml_core_schema g) then YTagged g (untagged None) else untagged tg
  | None => untagged None
  end.

(** ** Indexing *)

(** [node/yaml.rs:65-69] [key_from_usize]: [index.cast_signed() as i64] wraps from [2^63] on. *)
Definition key_from_usize (i : N) : yaml :=
  let z := Z.of_N i in
  YScalar (SInt (if (z <=? i64_max)%Z then z else z - 18446744073709551616)%Z).
(** [node/yaml.rs:71-75] [key_from_str]. *)
Definition key_from_str (k : text) : yaml := YScalar (SString k).

(** [node/scalar.rs:30-45], [node/yaml_data.rs:40-57]: [x.key == ind], only ever used with an
    integer or a string [ind] (the two functions above), so other scalars are unequal to it. *)
Definition key_eqb (x ind : yaml) : bool :=
  match x, ind with
  | YScalar (SInt a), YScalar (SInt b) => Z.eqb a b
  | YScalar (SString a), YScalar (SString b) => text_eqb a b
  | _, _ => false
  end.

(** [iter().find(|x| x.key == ind)], as the position of the entry. *)
Fixpoint find_key (ind : yaml) (l : list (yaml * yaml)) : option nat :=
  match l with
  | [] => None
  | (k, _) :: r => if key_eqb k ind then Some 0 else option_map S (find_key ind r)
  end.

(** [Vec::index] (Rust alloc): panics out of bounds. *)
Definition vec_index {A} (l : list A) (i : N) : out A :=
  match nth_error l (N.to_nat i) with Some a => Ok a | None => Panic end.

(** [node/yaml.rs:353-367] [Index<usize>]: the value found; panics if there is none. *)
Definition index_usize (y : yaml) (i : N) : out yaml :=
  match y with
  | YMap l => match find_key (key_from_usize i) l with
              | Some n => match nth_error l n with Some (_, v) => Ok v | None => Panic end
              | None => Panic
              end
  | YSeq l => vec_index l i
  | _ => Panic
  end.

(** [node/yaml.rs:396-409] [Index<&str>]. *)
Definition index_str (y : yaml) (k : text) : out yaml :=
  match y with
  | YMap l => match find_key (key_from_str k) l with
              | Some n => match nth_error l n with Some (_, v) => Ok v | None => Panic end
              | None => Panic
              end
  | _ => Panic
  end.

(** Replacing the element at a position (writing through a [&mut] element). *)
Fixpoint set_nth {A} (l : list A) (n : nat) (a : A) : list A :=
  match l, n with
  | [], _ => []
  | _ :: r, O => a :: r
  | x :: r, S n => x :: set_nth r n a
  end.

(** [node/yaml.rs:369-394] [IndexMut<usize>], then [*place = v]: for a mapping the place is the
    [.key] of the entry found. *)
Definition index_mut_usize (y : yaml) (i : N) (v : yaml) : out yaml :=
  match y with
  | YMap l => match find_key (key_from_usize i) l with
              | Some n => match nth_error l n with
                          | Some (_, w) => Ok (YMap (set_nth l n (v, w)))
                          | None => Panic
                          end
              | None => Panic
              end
  | YSeq l => if Nat.ltb (N.to_nat i) (List.length l) then Ok (YSeq (set_nth l (N.to_nat i) v)) else Panic
  | _ => Panic
  end.

(** [node/yaml.rs:411-432] [IndexMut<&str>], then [*place = v]: the [.value] of the entry. *)
Definition index_mut_str (y : yaml) (k : text) (v : yaml) : out yaml :=
  match y with
  | YMap l => match find_key (key_from_str k) l with
              | Some n => match nth_error l n with
                          | Some (k', _) => Ok (YMap (set_nth l n (k', v)))
                          | None => Panic
                          end
              | None => Panic
              end
  | _ => Panic
  end.
