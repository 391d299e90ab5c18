(** Flow collections (YAML 1.2.2, chapters 6 and 7), stated without the scanner: which texts stand for
    which trees. *)
From Verif Require Import SpecProps.
From Verif Require Import Base Tokens SpecTree SpecBlock SpecQuoted SpecPlain SpecStrings.
From Coq Require Import String.
Local Open Scope list_scope.

(** ** Lines without content *)
(** What may stand behind content in its line: spaces, and behind a space a comment. *)
Inductive line_rest : text -> Prop :=
| lr_spaces k : line_rest (repeat 32%N k)
| lr_comment k c : Forall comment_byte c -> line_rest (repeat 32%N (S k) ++ 35%N :: c).
(** A line of spaces, or with a comment. *)
Inductive empty_line : text -> Prop :=
| el_spaces k : empty_line (repeat 32%N k)
| el_comment k c : Forall comment_byte c -> empty_line (repeat 32%N k ++ 35%N :: c).
(** Lines with their line breaks. *)
Definition empty_ones (ls : list (text * bool)) : Prop := Forall (fun x => empty_line (fst x)) ls.
(** From content to content in a later line, there behind [n] spaces. *)
Inductive next_line (n : nat) : text -> Prop :=
| nl_intro r b ls : line_rest r -> empty_ones ls -> next_line n (r ++ eol b ++ empty_text ls ++ repeat 32%N n).
(** No word that starts a line looks like a document marker. *)
Definition no_marker (w : text) : Prop := w <> str "---" /\ w <> str "...".

(** ** Flow collections *)
(** [full = true] is the grammar of YAML; [full = false] leaves out what the scanner does not read as
    it is meant:
    - a comma inside a mapping that is the value of a single pair, as in [[a: {b: c, d: e}]];
    - a collection directly behind the colon of a plain key, as in [{a:[b]}];
    - a line break between a collection that is a key and its colon;
    - plain scalars that start with a colon or end with the word [-];
    - escaped characters beyond ASCII in tags.
    Further lines are indented by at least [p] spaces. *)
Definition flow_gap (p : nat) (g : text) : Prop :=
  (exists k, g = repeat 32%N k) \/ (exists n, p <= n /\ next_line n g).
Definition flow_word (w : text) : Prop :=
  w <> [] /\ Forall (word_char true) w /\ nth 0 w 0%N <> 35%N /\ last w 0%N <> 58%N.
Definition flow_more (p : nat) (ws : list (fold_gap * text)) : Prop :=
  Forall (fun x => white_gap (fst x) /\ fold_text (fst x) <> [] /\ indented (N.of_nat p) (fst x) /\
                   flow_word (snd x) /\ (breaks (fst x) = true -> no_marker (snd x))) ws.
(** The word before [ws] is [w]. *)
Definition last_word (w : text) (ws : list (fold_gap * text)) : text := snd (last ws (Inline [], w)).
Inductive flow_scalar (full : bool) (p : nat) : scalar_type -> text -> text -> Prop :=
| fs_plain w ws : plain_start w -> flow_word w -> no_marker w -> flow_more p ws ->
    (full = false -> nth 0 w 0%N <> 58%N /\ last_word w ws <> [45%N]) ->
    flow_scalar full p Plain (w ++ more_text ws) (w ++ more_value ws)
| fs_quoted single w v : quoted_scalar single p w v -> flow_scalar full p (if single then SingleQuote else DoubleQuote) w v.
(** The value of a key that is quoted or a collection may stand directly behind the colon. *)
Definition json_like (t : tree) : bool := match t with TrScalar _ Plain _ | TrAlias _ | TrEmpty _ => false | _ => true end.
Definition collection (t : tree) : bool := match t with TrScalar _ _ _ | TrAlias _ | TrEmpty _ => false | _ => true end.
(** A name or a tag would take up a colon directly behind it. *)
Definition apart (t : tree) (g : text) : Prop := match t with TrAlias _ | TrEmpty _ => g <> [] | _ => True end.
(** [c]: whether commas may stand between the entries of a mapping here. *)
Inductive flow_node (full : bool) (p : nat) : bool -> text -> tree -> Prop :=
| fn_scalar c st w v : flow_scalar full p st w v -> flow_node full p c w (TrScalar no_props st v)
| fn_no_items c g : flow_gap p g -> flow_node full p c (91%N :: g ++ [93%N]) (TrFlowSeq no_props [] false)
| fn_items c g w l b : flow_gap p g -> flow_items full p w l b ->
    flow_node full p c (91%N :: g ++ w ++ [93%N]) (TrFlowSeq no_props l b)
| fn_no_entries c g : flow_gap p g -> flow_node full p c (123%N :: g ++ [125%N]) (TrFlowMap no_props [] false)
| fn_entries c g w l b : flow_gap p g -> flow_entries full p c w l b ->
    flow_node full p c (123%N :: g ++ w ++ [125%N]) (TrFlowMap no_props l b)
| fn_alias c n : anchor_name n -> flow_node full p c (42%N :: n) (TrAlias n)
| fn_props c w pr g w' t : props_text full w pr -> flow_gap p g -> g <> [] -> flow_node full p c w' t -> bare t ->
    flow_node full p c (w ++ g ++ w') (with_props pr t)
| fn_empty c w pr : props_text full w pr -> flow_node full p c w (TrEmpty pr)
(** What stands behind a colon; [j]: it may stand directly behind it. *)
with flow_value (full : bool) (p : nat) : bool -> bool -> text -> value tree -> Prop :=
| fv_none c j : flow_value full p c j [] VEmpty
| fv_node c j g w t : flow_gap p g -> flow_node full p c w t ->
    j = true \/ g <> [] \/ (full = true /\ collection t = true) -> flow_value full p c j (g ++ w) (VNode t)
(** The items of a sequence: nodes and single pairs; in these the key and its colon stand in one line
    unless there is a question mark. *)
with flow_item (full : bool) (p : nat) : text -> item tree -> Prop :=
| ft_node w t : flow_node full p true w t -> flow_item full p w (INode t)
| ft_pair w t k w' v : flow_node full p true w t -> ~ In 10%N w -> apart t (repeat 32%N k) -> flow_value full p full (json_like t) w' v ->
    flow_item full p (w ++ repeat 32%N k ++ 58%N :: w') (IPair t v)
| ft_key g w t : flow_gap p g -> g <> [] -> flow_node full p true w t ->
    flow_item full p (63%N :: g ++ w) (IPair t VAbsent)
| ft_key_value g w t g' w' v : flow_gap p g -> g <> [] -> flow_node full p true w t -> flow_gap p g' -> apart t g' ->
    (full = false -> collection t = true -> ~ In 10%N g') -> flow_value full p true (json_like t) w' v ->
    flow_item full p (63%N :: g ++ w ++ g' ++ 58%N :: w') (IPair t v)
with flow_items (full : bool) (p : nat) : text -> list (item tree) -> bool -> Prop :=
| fi_last w i g : flow_item full p w i -> flow_gap p g -> flow_items full p (w ++ g) [i] false
| fi_comma w i g g' : flow_item full p w i -> flow_gap p g -> flow_gap p g' ->
    flow_items full p (w ++ g ++ 44%N :: g') [i] true
| fi_more w i g g' w' l b : flow_item full p w i -> flow_gap p g -> flow_gap p g' -> flow_items full p w' l b ->
    flow_items full p (w ++ g ++ 44%N :: g' ++ w') (i :: l) b
(** The entries of a mapping. *)
with flow_entry (full : bool) (p : nat) : bool -> text -> key tree * value tree -> Prop :=
| fe_pair c w t g w' v : flow_node full p c w t -> flow_gap p g -> apart t g -> (full = false -> collection t = true -> ~ In 10%N g) ->
    flow_value full p c (json_like t) w' v -> flow_entry full p c (w ++ g ++ 58%N :: w') (KNode t, v)
| fe_bare c w t : flow_node full p c w t -> flow_entry full p c w (KBare t, VAbsent)
| fe_no_key c w v : flow_value full p c false w v -> flow_entry full p c (58%N :: w) (KNone, v)
| fe_empty c g : flow_gap p g -> g <> [] -> flow_entry full p c (63%N :: g) (KEmpty, VAbsent)
| fe_empty_value c g w v : flow_gap p g -> g <> [] -> flow_value full p c false w v ->
    flow_entry full p c (63%N :: g ++ 58%N :: w) (KEmpty, v)
| fe_key c g w t : flow_gap p g -> g <> [] -> flow_node full p c w t ->
    flow_entry full p c (63%N :: g ++ w) (KNode t, VAbsent)
| fe_key_value c g w t g' w' v : flow_gap p g -> g <> [] -> flow_node full p c w t -> flow_gap p g' -> apart t g' ->
    (full = false -> collection t = true -> ~ In 10%N g') -> flow_value full p c (json_like t) w' v ->
    flow_entry full p c (63%N :: g ++ w ++ g' ++ 58%N :: w') (KNode t, v)
with flow_entries (full : bool) (p : nat) : bool -> text -> list (key tree * value tree) -> bool -> Prop :=
| fl_last c w x g : flow_entry full p c w x -> flow_gap p g -> flow_entries full p c (w ++ g) [x] false
| fl_comma w x g g' : flow_entry full p true w x -> flow_gap p g -> flow_gap p g' ->
    flow_entries full p true (w ++ g ++ 44%N :: g') [x] true
| fl_more w x g g' w' l b : flow_entry full p true w x -> flow_gap p g -> flow_gap p g' -> flow_entries full p true w' l b ->
    flow_entries full p true (w ++ g ++ 44%N :: g' ++ w') (x :: l) b.
