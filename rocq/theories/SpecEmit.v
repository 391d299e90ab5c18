(** Specifications about emission, in terms of values and texts alone. *)
From Verif Require Import Base Tokens Scalar Yaml SpecScalar.
From Coq Require Import String.
Local Open Scope list_scope.

(** ** Lines *)
(** A first line and further lines, each made of [n] spaces per level and a content. *)
Definition glue (n : nat) (first : text) (ls : list (Z * text)) : text :=
  first ++ List.concat (map (fun x => 10%N :: repeat 32%N (n * Z.to_nat (fst x)) ++ snd x) ls).
(** The content of a line begins with something other than a space and has no line feed. *)
Definition line_content (t : text) : Prop :=
  ~ In 10%N t /\ exists c r, t = c :: r /\ c <> 32%N.
(** [t] is a first line followed by lines at exactly the levels [levels]. *)
Definition lined (n : nat) (t : text) (levels : list Z) : Prop :=
  exists first ls, t = glue n first ls /\ ~ In 10%N first /\
    Forall (fun x => line_content (snd x)) ls /\ map fst ls = levels.

Definition nonempty_collection (y : yaml) : bool :=
  match y with YSeq (_ :: _) | YMap (_ :: _) => true | _ => false end.
(** A nested collection begins on the line of its parent ([same_line]) or on a line of its own, one
    level deeper. *)
Definition opening (same_line : bool) (level : Z) (y : yaml) : list Z :=
  if nonempty_collection y && negb same_line then [(level + 1)%Z] else [].
(** The levels of the lines of [y] below a parent at [level], after the line it begins on: the items
    of a sequence and the entries of a mapping are at the next level, the first of them on the line
    already begun; an entry with a collection as key has a line for its value.  [compact] allows
    collections to begin behind [-], [?] and [:] of such an entry. *)
Fixpoint line_levels (compact : bool) (level : Z) (y : yaml) : list Z :=
  match y with
  | YSeq l =>
      tl (flat_map (fun x => (level + 1)%Z :: opening compact (level + 1) x
                             ++ line_levels compact (level + 1) x) l)
  | YMap l =>
      tl (flat_map (fun x =>
            (level + 1)%Z ::
            match fst x with
            | YSeq _ | YMap _ =>
                opening compact (level + 1) (fst x) ++ line_levels compact (level + 1) (fst x)
                ++ (level + 1)%Z :: opening compact (level + 1) (snd x)
                ++ line_levels compact (level + 1) (snd x)
            | _ =>
                line_levels compact (level + 1) (fst x)
                ++ opening false (level + 1) (snd x)
                ++ line_levels compact (level + 1) (snd x)
            end) l)
  | YTagged _ y => opening false level y ++ line_levels compact level y
  | _ => []
  end.

(** Tags that fit on a line and do not begin with a space. *)
Definition tag_fits (t : tag) : Prop :=
  ~ In 10%N (t_handle t) /\ ~ In 10%N (t_suffix t) /\ (forall r, t_handle t <> 32%N :: r).
Fixpoint tags_fit (y : yaml) : Prop :=
  match y with
  | YSeq l => fold_right (fun x r => tags_fit x /\ r) True l
  | YMap l => fold_right (fun x r => (tags_fit (fst x) /\ tags_fit (snd x)) /\ r) True l
  | YTagged t y => tag_fits t /\ tags_fit y
  | _ => True
  end.

(** ** Strings the emitter should have quoted *)
(** Octal numbers, decimal numbers with two signs (accepted by the resolver), infinity with a plus
    sign. *)
Inductive misread : text -> Prop :=
| misread_octal ds z : signed oct_digit 8 ds z -> i64_range z -> misread (str "0o" ++ ds)
| misread_signs ds z : signed dec_digit 10 ds z -> i64_range z ->
    (exists r, ds = plus ++ r \/ ds = minus ++ r) -> misread (plus ++ ds)
| misread_inf t : In t [str "+.inf"; str "+.Inf"; str "+.INF"] -> misread t.

(** Enclosing a text in single quotes: every quote is doubled. *)
Fixpoint double_quotes (t : text) : text :=
  match t with
  | [] => []
  | c :: r => (if (c =? 39)%N then [39%N; 39%N] else [c]) ++ double_quotes r
  end.
Definition in_single_quotes (t : text) : text := [39%N] ++ double_quotes t ++ [39%N].
(** What may stand behind a quoted scalar: the end of the line or of the text, a colon, and in a flow
    collection a comma or a closing bracket. *)
Definition may_follow_quotes (in_flow : bool) (after : text) : Prop :=
  match after with
  | [] => True
  | c :: _ => In c [10%N; 13%N; 0%N; 58%N] \/ (in_flow = true /\ In c [44%N; 93%N; 125%N])
  end.
