(** When two values are the same, and the value a node with its place carries. *)
From Verif Require Import Base Tokens Scalar Yaml Values.

(** The same value, floating point numbers compared by [same_float]. *)
Inductive same (same_float : fl -> fl -> Prop) : yaml -> yaml -> Prop :=
| same_bad : same same_float YBad YBad
| same_null : same same_float (YScalar SNull) (YScalar SNull)
| same_string t : same same_float (YScalar (SString t)) (YScalar (SString t))
| same_bool b : same same_float (YScalar (SBool b)) (YScalar (SBool b))
| same_int z : same same_float (YScalar (SInt z)) (YScalar (SInt z))
| same_floats f g : same_float f g -> same same_float (YScalar (SFloat f)) (YScalar (SFloat g))
| same_seq l m : Forall2 (same same_float) l m -> same same_float (YSeq l) (YSeq m)
| same_map l m :
    Forall2 (fun p q => same same_float (fst p) (fst q) /\ same same_float (snd p) (snd q)) l m ->
    same same_float (YMap l) (YMap m)
| same_tagged t x y : same same_float x y -> same same_float (YTagged t x) (YTagged t y)
| same_alias i : same same_float (YAlias i) (YAlias i).

(** Every floating point number inside the value has the property. *)
Inductive floats (P : fl -> Prop) : yaml -> Prop :=
| fls_bad : floats P YBad
| fls_scalar s : (forall f, s = SFloat f -> P f) -> floats P (YScalar s)
| fls_seq l : Forall (floats P) l -> floats P (YSeq l)
| fls_map l : Forall (fun p => floats P (fst p) /\ floats P (snd p)) l -> floats P (YMap l)
| fls_tagged t y : floats P y -> floats P (YTagged t y)
| fls_alias i : floats P (YAlias i).

(** The value without the places. *)
Fixpoint forget (n : snode) : yaml :=
  match n with
  | SNode _ d =>
      match d with
      | DBad => YBad
      | DScalar s => YScalar s
      | DSeq l => YSeq (map forget l)
      | DMap l => YMap (map (fun p => (forget (fst p), forget (snd p))) l)
      | DTagged t x => YTagged t (forget x)
      | DAlias i => YAlias i
      end
  end.
(** The pairs without the places. *)
Definition forget_pairs (l : list (snode * snode)) : list (yaml * yaml) :=
  map (fun p => (forget (fst p), forget (snd p))) l.
