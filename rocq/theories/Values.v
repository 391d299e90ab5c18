(** Model of the operations on values beside reading them: comparing, copying, taking, converting
    and writing in place ([yam-core/src/node/yaml_data.rs], [node/yaml.rs], [node/yaml_owned.rs],
    [node/scalar.rs], [prelude/mod.rs]), and of nodes that carry their place
    ([node/spanned_yaml.rs]). *)
From Verif Require Import Base Tokens Scalar Yaml.

(** ** Comparing *)

(** [node/scalar.rs:30-45] [PartialEq for YamlScalar]; [feq] is the [PartialEq] of the floating
    point type [FP], over which the code is generic. *)
Definition scalar_eqb (feq : fl -> fl -> bool) (a b : scalar) : bool :=
  match a, b with
  | SNull, SNull => true
  | SString x, SString y => text_eqb x y
  | SBool x, SBool y => Bool.eqb x y
  | SInt x, SInt y => Z.eqb x y
  | SFloat x, SFloat y => feq x y
  | _, _ => false
  end.
(** [parsing/mod.rs:187] the derived [PartialEq] of [Tag]. *)
Definition tag_eqb (a b : tag) : bool :=
  text_eqb (t_handle a) (t_handle b) && text_eqb (t_suffix a) (t_suffix b).
(** [PartialEq for Vec<T>] (Rust alloc): the same length and equal elements at every position. *)
Definition vec_eqb {A} (eqb : A -> A -> bool) : list A -> list A -> bool :=
  fix go l m :=
    match l, m with
    | [], [] => true
    | a :: l, b :: m => eqb a b && go l m
    | _, _ => false
    end.
(** [node/yaml_data.rs:40-57] [PartialEq for YamlData] inside the derived one of [Yaml]
    (node/yaml.rs:41) and [YamlOwned] (node/yaml_owned.rs:4); the entries of a mapping are compared
    by the derived [PartialEq] of [YamlEntry] (prelude/mod.rs:1010). *)
Fixpoint yaml_eqb (feq : fl -> fl -> bool) (a b : yaml) : bool :=
  match a, b with
  | YBad, YBad => true
  | YScalar s, YScalar t => scalar_eqb feq s t
  | YSeq l, YSeq m => vec_eqb (yaml_eqb feq) l m
  | YMap l, YMap m =>
      vec_eqb (fun p q => yaml_eqb feq (fst p) (fst q) && yaml_eqb feq (snd p) (snd q)) l m
  | YTagged t x, YTagged u y => tag_eqb t u && yaml_eqb feq x y
  | YAlias i, YAlias j => Nat.eqb i j
  | _, _ => false
  end.

(** ** Copying, taking, converting *)

(** [node/scalar.rs:205-220] [Clone for YamlScalar]. *)
Definition clone_scalar (s : scalar) : scalar :=
  match s with
  | SNull => SNull
  | SString t => SString t
  | SFloat f => SFloat f
  | SBool b => SBool b
  | SInt z => SInt z
  end.
(** [node/yaml_data.rs:112-130] [Clone for YamlData], [node/yaml.rs:44-53] and
    [node/yaml_owned.rs:7-18], which copy arm by arm as it does; vectors, boxes and tags are copied
    component by component (Rust alloc). *)
Fixpoint clone (y : yaml) : yaml :=
  match y with
  | YAlias a => YAlias a
  | YBad => YBad
  | YScalar s => YScalar (clone_scalar s)
  | YSeq l => YSeq (map clone l)
  | YMap m => YMap (map (fun p => (clone (fst p), clone (snd p))) m)
  | YTagged t n => YTagged (Tag (t_handle t) (t_suffix t)) (clone n)
  end.
(** [node/yaml.rs:233-239] [bad_span_value] and [bad_value]. *)
Definition bad_value : yaml := YBad.
(** [node/yaml.rs:242-244] [null]. *)
Definition null : yaml := YScalar SNull.
(** [prelude/mod.rs:923-925] [take]: what is returned and what is left behind. *)
Definition take (y : yaml) : yaml * yaml := (y, bad_value).

(** [prelude/mod.rs:743-745] [into_bool]. *)
Definition into_bool (y : yaml) : option bool := as_bool y.
(** [prelude/mod.rs:766-768] [into_f64]. *)
Definition into_f64 (y : yaml) : option fl := as_f64 y.
(** [prelude/mod.rs:780-782] [into_i64]. *)
Definition into_i64 (y : yaml) : option Z := as_i64 y.
(** [node/yaml.rs:208-213] [into_string]. *)
Definition into_string (y : yaml) : option text :=
  match y with YScalar (SString s) => Some s | _ => None end.
(** [node/yaml.rs:215-220] [into_mapping]. *)
Definition into_mapping (y : yaml) : option (list (yaml * yaml)) :=
  match y with YMap s => Some s | _ => None end.
(** [node/yaml.rs:222-227] [into_sequence]. *)
Definition into_sequence (y : yaml) : option (list yaml) :=
  match y with YSeq s => Some s | _ => None end.

(** [node/yaml.rs:433-437] [From<&str>]. *)
Definition from_str (t : text) : yaml := YScalar (SString t).
(** [node/yaml.rs:439-443] [From<bool>]. *)
Definition from_bool (b : bool) : yaml := YScalar (SBool b).
(** [node/yaml.rs:445-456] [From<f64>] and [From<f32>], whose cast is exact. *)
Definition from_float (f : fl) : yaml := YScalar (SFloat f).
(** [node/yaml.rs:458-483] [From<i8>], [From<i16>], [From<i32>] and [From<i64>], whose casts are
    exact. *)
Definition from_int (z : Z) : yaml := YScalar (SInt z).
(** [node/yaml.rs:485-489] [From<Vec<Yaml>>]. *)
Definition from_vec (l : list yaml) : yaml := YSeq l.

(** ** Writing in place *)

(** [node/yaml.rs:92-97] [as_bool_mut], then [*place = b]; [None] as there. *)
Definition set_bool (y : yaml) (b : bool) : option yaml :=
  match y with YScalar (SBool _) => Some (YScalar (SBool b)) | _ => None end.
(** [node/yaml.rs:106-111] [as_i64_mut], then [*place = z]. *)
Definition set_i64 (y : yaml) (z : Z) : option yaml :=
  match y with YScalar (SInt _) => Some (YScalar (SInt z)) | _ => None end.
(** [node/yaml.rs:120-125] [as_f64_mut], then [*place = f]. *)
Definition set_f64 (y : yaml) (f : fl) : option yaml :=
  match y with YScalar (SFloat _) => Some (YScalar (SFloat f)) | _ => None end.
(** [node/yaml.rs:162-167] [as_str_mut], then an edit of the [&mut str] in place, which keeps its
    length in bytes: a text of another length cannot be written. *)
Definition set_str (y : yaml) (t : text) : option yaml :=
  match y with
  | YScalar (SString s) =>
      if Nat.eqb (List.length s) (List.length t) then Some (YScalar (SString t)) else None
  | _ => None
  end.
(** [node/yaml.rs:134-139] [as_sequence_mut], then [*place = l]; [None] stands for the error. *)
Definition set_sequence (y : yaml) (l : list yaml) : option yaml :=
  match y with YSeq _ => Some (YSeq l) | _ => None end.
(** [node/yaml.rs:148-153] [as_mapping_mut], then [*place = l]. *)
Definition set_mapping (y : yaml) (l : list (yaml * yaml)) : option yaml :=
  match y with YMap _ => Some (YMap l) | _ => None end.

(** ** Nodes with their place *)

(** [node/yaml_data.rs:16-38] [YamlData] over a type of nodes. *)
Inductive data (A : Type) :=
| DBad
| DScalar (s : scalar)
| DSeq (l : list A)
| DMap (l : list (A * A))
| DTagged (t : tag) (n : A)
| DAlias (id : nat).
Arguments DBad {A}.
Arguments DScalar {A} s.
Arguments DSeq {A} l.
Arguments DMap {A} l.
Arguments DTagged {A} t n.
Arguments DAlias {A} id.
(** [node/spanned_yaml.rs:54-57] [SpannedYaml] with [FP = f64]. *)
Inductive snode := SNode (sp : span) (d : data snode).
(** The fields of [SpannedYaml] (node/spanned_yaml.rs:55). *)
Definition sn_span (n : snode) : span := match n with SNode sp _ => sp end.
(** The fields of [SpannedYaml] (node/spanned_yaml.rs:56). *)
Definition sn_data (n : snode) : data snode := match n with SNode _ d => d end.
(** [prelude/mod.rs:29,43] the derived [Default] of [Marker] and [Span]: all zeros. *)
Definition default_span : span := Span (Marker 0 0 0) (Marker 0 0 0).

(** [node/yaml_data.rs:73-85] [get_type] of the data, [node/spanned_yaml.rs:221-223]. *)
Definition sn_get_type (n : snode) : node_type :=
  match sn_data n with
  | DMap _ => NtMapping
  | DSeq _ => NtSequence
  | DScalar (SBool _) => NtBool
  | DScalar (SInt _) => NtInteger
  | DScalar (SFloat _) => NtFloating
  | DScalar (SString _) => NtString
  | DAlias _ => NtAlias
  | DScalar SNull => NtNull
  | _ => NtBad
  end.
(** [node/spanned_yaml.rs:80-85] [key_from_usize]. *)
Definition sn_key_from_usize (i : N) : snode :=
  let z := Z.of_N i in
  SNode default_span (DScalar (SInt (if (z <=? i64_max)%Z then z else z - 18446744073709551616)%Z)).
(** [node/spanned_yaml.rs:87-92] [key_from_str]. *)
Definition sn_key_from_str (k : text) : snode := SNode default_span (DScalar (SString k)).
(** [node/spanned_yaml.rs:94-100] [is_non_empty_collection]. *)
Definition sn_is_non_empty_collection (n : snode) : bool :=
  match sn_data n with
  | DSeq l => match l with [] => false | _ => true end
  | DMap l => match l with [] => false | _ => true end
  | _ => false
  end.
(** [node/spanned_yaml.rs:102-107] [as_bool]. *)
Definition sn_as_bool (n : snode) : option bool :=
  match sn_data n with DScalar (SBool b) => Some b | _ => None end.
(** [node/spanned_yaml.rs:116-121] [as_i64]. *)
Definition sn_as_i64 (n : snode) : option Z :=
  match sn_data n with DScalar (SInt z) => Some z | _ => None end.
(** [node/spanned_yaml.rs:130-135] [as_f64]. *)
Definition sn_as_f64 (n : snode) : option fl :=
  match sn_data n with DScalar (SFloat f) => Some f | _ => None end.
(** [node/spanned_yaml.rs:144-149] [as_sequence]; [None] stands for the error. *)
Definition sn_as_sequence (n : snode) : option (list snode) :=
  match sn_data n with DSeq l => Some l | _ => None end.
(** [node/spanned_yaml.rs:158-163] [as_mapping]; [None] stands for the error. *)
Definition sn_as_mapping (n : snode) : option (list (snode * snode)) :=
  match sn_data n with DMap l => Some l | _ => None end.
(** [node/spanned_yaml.rs:172-177] [as_str], [225-230] [into_string]. *)
Definition sn_as_str (n : snode) : option text :=
  match sn_data n with DScalar (SString t) => Some t | _ => None end.
(** [node/spanned_yaml.rs:186-198] [sequence_mut] and [sequence]. *)
Definition sn_sequence (n : snode) : out (list snode) :=
  match sn_data n with DSeq l => Ok l | _ => Panic end.
(** [node/spanned_yaml.rs:200-212] [mapping_mut] and [mapping]. *)
Definition sn_mapping (n : snode) : out (list (snode * snode)) :=
  match sn_data n with DMap l => Ok l | _ => Panic end.
(** [node/spanned_yaml.rs:214-219] [get_tag]. *)
Definition sn_get_tag (n : snode) : option tag :=
  match sn_data n with DTagged t _ => Some t | _ => None end.
(** [node/spanned_yaml.rs:232-237] [into_mapping]. *)
Definition sn_into_mapping (n : snode) : option (list (snode * snode)) :=
  match sn_data n with DMap l => Some l | _ => None end.
(** [node/spanned_yaml.rs:239-244] [into_sequence]. *)
Definition sn_into_sequence (n : snode) : option (list snode) :=
  match sn_data n with DSeq l => Some l | _ => None end.
(** [node/spanned_yaml.rs:246-251] [into_tagged]. *)
Definition sn_into_tagged (n : snode) (t : tag) : snode := SNode (sn_span n) (DTagged t n).
(** [node/spanned_yaml.rs:253-258] [bad_span_value]. *)
Definition sn_bad_span_value (sp : span) : snode := SNode sp DBad.
(** [prelude/mod.rs:878-880] [bad_value]. *)
Definition sn_bad_value : snode := sn_bad_span_value default_span.
(** [node/spanned_yaml.rs:260-265] [null]. *)
Definition sn_null : snode := SNode default_span (DScalar SNull).
(** [prelude/mod.rs:923-925] [take]. *)
Definition sn_take (n : snode) : snode * snode := (n, sn_bad_value).
(** [prelude/mod.rs:945-947] [with_start], which [SpannedYaml] does not override. *)
Definition sn_with_start (n : snode) (m : marker) : snode := n.
(** [prelude/mod.rs:967-969] [with_end], which [SpannedYaml] does not override. *)
Definition sn_with_end (n : snode) (m : marker) : snode := n.
(** [prelude/mod.rs:989-991] [with_span], which [SpannedYaml] does not override. *)
Definition sn_with_span (n : snode) (sp : span) : snode := n.
(** [node/spanned_yaml.rs:109-114] [as_bool_mut], then [*place = b]. *)
Definition sn_set_bool (n : snode) (b : bool) : option snode :=
  match sn_data n with DScalar (SBool _) => Some (SNode (sn_span n) (DScalar (SBool b))) | _ => None end.
(** [node/spanned_yaml.rs:123-128] [as_i64_mut], then [*place = z]. *)
Definition sn_set_i64 (n : snode) (z : Z) : option snode :=
  match sn_data n with DScalar (SInt _) => Some (SNode (sn_span n) (DScalar (SInt z))) | _ => None end.
(** [node/spanned_yaml.rs:137-142] [as_f64_mut], then [*place = f]. *)
Definition sn_set_f64 (n : snode) (f : fl) : option snode :=
  match sn_data n with DScalar (SFloat _) => Some (SNode (sn_span n) (DScalar (SFloat f))) | _ => None end.
(** [node/spanned_yaml.rs:151-156] [as_sequence_mut], then [*place = l]. *)
Definition sn_set_sequence (n : snode) (l : list snode) : option snode :=
  match sn_data n with DSeq _ => Some (SNode (sn_span n) (DSeq l)) | _ => None end.
(** [node/spanned_yaml.rs:165-170] [as_mapping_mut], then [*place = l]. *)
Definition sn_set_mapping (n : snode) (l : list (snode * snode)) : option snode :=
  match sn_data n with DMap _ => Some (SNode (sn_span n) (DMap l)) | _ => None end.
(** [node/spanned_yaml.rs:59-69] [Clone for SpannedYaml], over [node/yaml_data.rs:112-130]. *)
Fixpoint sn_clone (n : snode) : snode :=
  match n with
  | SNode sp d =>
      SNode sp
        match d with
        | DAlias a => DAlias a
        | DBad => DBad
        | DScalar s => DScalar (clone_scalar s)
        | DSeq l => DSeq (map sn_clone l)
        | DMap m => DMap (map (fun p => (sn_clone (fst p), sn_clone (snd p))) m)
        | DTagged t x => DTagged (Tag (t_handle t) (t_suffix t)) (sn_clone x)
        end
  end.
