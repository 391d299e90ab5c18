(** The kinds of a value, read off its constructor (a tag is looked through). *)
From Verif Require Import Base Tokens Scalar Yaml.

Inductive kind := KBad | KNull | KString | KBool | KFloat | KInt | KAlias | KMap | KSeq.
Fixpoint kind_of (y : yaml) : kind :=
  match y with
  | YBad => KBad
  | YScalar SNull => KNull
  | YScalar (SString _) => KString
  | YScalar (SBool _) => KBool
  | YScalar (SFloat _) => KFloat
  | YScalar (SInt _) => KInt
  | YSeq _ => KSeq
  | YMap _ => KMap
  | YAlias _ => KAlias
  | YTagged _ z => kind_of z
  end.
(** The predicate that should hold of a value of the kind. *)
Definition predicate (k : kind) : yaml -> bool :=
  match k with
  | KBad => is_bad_value | KNull => is_null | KString => is_string | KBool => is_bool
  | KFloat => is_floating_point | KInt => is_integer | KAlias => is_alias
  | KMap => is_mapping | KSeq => is_sequence
  end.
Definition untagged (y : yaml) : Prop := match y with YTagged _ _ => False | _ => True end.
