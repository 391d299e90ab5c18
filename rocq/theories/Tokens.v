(** Tokens, events, tags and scalar values. *)
From Verif Require Import Base.
From Coq Require Import String.

(** [yam-core/src/prelude/mod.rs] [ScalarType]: the presentation style of a scalar. *)
Inductive scalar_type := Plain | SingleQuote | DoubleQuote | Literal | Folded.

(** [yam-core/src/parsing/mod.rs:182-190] [Tag]. *)
Record tag := Tag { t_handle : text; t_suffix : text }.

(** [parsing/mod.rs:228-236] [Tag::is_yaml_core_schema]: looks at the handle only. *)
Definition is_yaml_core_schema (t : tag) : bool :=
  text_eqb (t_handle t) (str "tag:yaml.org,2002:").

(** [parsing/mod.rs:35-70] [TokenType]. The [Comment] token exists only with the non-default
    feature [comment] (yam-core/Cargo.toml) and is left out. *)
Inductive token_type :=
| TStreamStart | TStreamEnd | TDocumentStart | TDocumentEnd
| TBlockSequenceStart | TBlockMappingStart | TBlockEnd | TBlockEntry
| TFlowEntry | TKey | TValue
| TFlowSequenceStart | TFlowSequenceEnd | TFlowMappingStart | TFlowMappingEnd
| TAlias (name : text) | TAnchor (name : text)
| TVersionDirective (major minor : N)
| TTagDirective (handle prefix : text)
| TTag (handle suffix : text)
| TScalar (st : scalar_type) (value : text).

(** [scanner.rs:43-47] [Token]. *)
Record token := Token { k_span : span; k_type : token_type }.

(** [parser.rs:34-46] [ScalarValue]. *)
Record scalar_value := ScalarValue {
  sv_value : text; sv_type : scalar_type; sv_anchor : nat; sv_tag : option tag }.

(** [parser.rs:56-64] [ScalarValue::empty_scalar]. *)
Definition empty_scalar_value : scalar_value := ScalarValue [] Plain 0 None.
(** [parser.rs:67-77] [ScalarValue::empty_scalar_with_anchor]. *)
Definition empty_scalar_with_anchor (anchor_id : nat) (t : option tag) : scalar_value :=
  ScalarValue [] Plain anchor_id t.

(** [parser.rs:89-97] [ScalarValue::is_null_tagged]. *)
Definition is_null_tagged (v : text) (t : tag) : bool :=
  if text_eqb v [] || text_eqb v (str "null") then true
  else if is_yaml_core_schema t then text_eqb v (str "~") || text_eqb v (str "null")
  else false.
(** [parser.rs:81-85] [ScalarValue::is_null]; a missing tag counts as [Tag::empty()]. *)
Definition sv_is_null (s : scalar_value) : bool :=
  is_null_tagged (sv_value s) (match sv_tag s with Some t => t | None => Tag [] [] end).

(** [parser.rs:134-179] [Event]; [Nothing] is never produced by the parser and [Comment] only
    with the non-default feature [comment]: both are left out. *)
Inductive event :=
| EStreamStart | EStreamEnd
| EDocumentStart (explicit : bool) | EDocumentEnd
| EAlias (id : nat)
| EScalar (v : scalar_value)
| ESequenceStart (anchor : nat) (t : option tag) | ESequenceEnd
| EMappingStart (anchor : nat) (t : option tag) | EMappingEnd.

(** [parser.rs:182-184] [Event::empty_scalar]. *)
Definition ev_empty_scalar : event := EScalar empty_scalar_value.

(** [parser.rs:237-252] [Event::as_simple_str]. *)
Definition event_simple_str (e : event) : string :=
  match e with
  | EStreamStart => "StreamStart" | EStreamEnd => "StreamEnd"
  | EDocumentStart _ => "DocumentStart" | EDocumentEnd => "DocumentEnd"
  | EAlias _ => "Alias" | EScalar _ => "Scalar"
  | ESequenceStart _ _ => "SequenceStart" | ESequenceEnd => "SequenceEnd"
  | EMappingStart _ _ => "MappingStart" | EMappingEnd => "MappingEnd"
  end.
