(** Block documents as they are laid out (YAML 1.2.2, chapters 6 and 8), stated without the scanner:
    which texts stand for which trees.  Columns are counted from 0: [n] columns are left of a node. *)
From Verif Require Import SpecProps.
From Verif Require Import Base Tokens Scalar Yaml SpecScalar SpecTree SpecStream SpecBlock SpecQuoted SpecPlain SpecStrings.
From Verif Require Export SpecFlow SpecMeaning.
From Coq Require Import String.
Local Open Scope list_scope.

(** ** Lines without content *)
(** From content to the end of the text. *)
Inductive to_end : text -> Prop :=
| te_rest r : line_rest r -> to_end r
| te_lines r b ls last : line_rest r -> empty_ones ls -> empty_line last -> to_end (r ++ eol b ++ empty_text ls ++ last).

(** Where a text leaves its last line: [None], in it, or [Some m], at the start of the next one, which
    belongs to it if it is indented by [m] spaces: so do block scalars. *)
(** From there to content in a later line, there behind [n] spaces. *)
Inductive onwards : option nat -> nat -> text -> Prop :=
| ow_line n g : next_line n g -> onwards None n g
| ow_here m n : n < m -> onwards (Some m) n (repeat 32%N n)
| ow_comment m n k c b ls : k < m -> Forall comment_byte c -> empty_ones ls ->
    onwards (Some m) n (repeat 32%N k ++ 35%N :: c ++ eol b ++ empty_text ls ++ repeat 32%N n).
(** From there to the end of the text. *)
Inductive finally : option nat -> text -> Prop :=
| fi_line g : to_end g -> finally None g
| fi_spaces m k : k <= m -> finally (Some m) (repeat 32%N k)
| fi_comment m k c : k < m -> Forall comment_byte c -> finally (Some m) (repeat 32%N k ++ 35%N :: c)
| fi_lines m k c b ls last : k < m -> Forall comment_byte c -> empty_ones ls -> empty_line last ->
    finally (Some m) (repeat 32%N k ++ 35%N :: c ++ eol b ++ empty_text ls ++ last).

(** ** Scalars *)
(** Words of plain scalars outside of flow collections; no word ends with a colon, and none that starts
    a line looks like a document marker. *)
Definition block_word (w : text) : Prop :=
  w <> [] /\ Forall (word_char false) w /\ nth 0 w 0%N <> 35%N /\ last w 0%N <> 58%N.
Definition more_words (p : nat) (ws : list (fold_gap * text)) : Prop :=
  Forall (fun x => white_gap (fst x) /\ fold_text (fst x) <> [] /\ indented (N.of_nat p) (fst x) /\
                   block_word (snd x) /\ (breaks (fst x) = true -> no_marker (snd x))) ws.
(** A scalar whose further lines are indented by at least [p] spaces: style, text, value. *)
Inductive written_scalar (p : nat) : scalar_type -> text -> text -> Prop :=
| ws_plain w ws : plain_start w -> block_word w -> no_marker w -> more_words p ws ->
    written_scalar p Plain (w ++ more_text ws) (w ++ more_value ws)
| ws_quoted single w v : quoted_scalar single p w v -> written_scalar p (if single then SingleQuote else DoubleQuote) w v.
(** A block scalar inside a collection whose nodes are indented by at least [p] spaces: style, text, value
    and the indentation of its lines. *)
Inductive written_block (p : nat) : scalar_type -> text -> text -> nat -> Prop :=
| wb_lines (literal : bool) h e digit ht b first more tail m :
    indicators h e digit -> header_rest ht -> indentation (N.of_nat p) digit m first -> Forall (good_line m) (first :: more) ->
    Forall (fun x => fst x <= m) tail -> 0 < m < 125 ->
    written_block p (if literal then Literal else Folded)
      (block_sign literal :: h ++ ht ++ eol b ++ flat_map (line_text m) (first :: more) ++ blank_lines tail)
      (block_value literal e first more tail) m.
(** A node as a key, with [k] spaces before the colon: in one line, the colon within 1024 bytes.  It is a
    scalar, perhaps behind properties, an alias, or properties alone. *)
Inductive key_text : text -> tree -> nat -> Prop :=
| kt_scalar st w v k : written_scalar 0 st w v -> key_text w (TrScalar no_props st v) k
| kt_props w pr j st w' v k : props_text false w pr -> written_scalar 0 st w' v ->
    key_text (w ++ repeat 32%N (S j) ++ w') (TrScalar pr st v) k
| kt_alias a k : anchor_name a -> 0 < k -> key_text (42%N :: a) (TrAlias a) k
| kt_empty w pr k : props_text false w pr -> 0 < k -> key_text w (TrEmpty pr) k.
Definition written_key (w : text) (t : tree) (k : nat) : Prop :=
  key_text w t k /\ ~ In 10%N w /\ List.length w + k <= 1024.

(** ** Nodes *)
Definition key_of (o : option tree) : key tree := match o with Some t => KNode t | None => KEmpty end.
Definition value_of (o : option tree) : value tree := match o with Some t => VNode t | None => VEmpty end.

(** [node b p n w t e]: the text [w], [n] columns right of the margin, is the tree [t], if its lines are to
    be indented by at least [p] spaces; [e] is where it leaves its last line, and [b] tells whether it may
    stand in the line of its key: block collections may not.
    [part n c w o e]: what stands behind an indicator of a collection in column [n] that ends at column [c].
    [items], [entry], [entries]: the parts of a collection in column [n]. *)
Inductive node : bool -> nat -> nat -> text -> tree -> option nat -> Prop :=
| nd_scalar p n st w v : p <= n -> written_scalar p st w v -> node true p n w (TrScalar no_props st v) None
| nd_block p n st w v m : p <= n -> written_block p st w v m -> node true p n w (TrScalar no_props st v) (Some m)
| nd_flow p n w t : p <= n -> flow_node false p true w t -> collection t = true -> bare t -> (N.of_nat (List.length w) < 4294967294)%N -> node true p n w t None
| nd_seq p n w l e : p <= n -> items n w l e -> node false p n w (TrBlockSeq no_props l) e
| nd_map p n w l e : p <= n -> entries n w l e -> node false p n w (TrBlockMap no_props l) e
| nd_alias p n a : p <= n -> anchor_name a -> node true p n (42%N :: a) (TrAlias a) None
(** Properties alone, before a node in the same line, and before one in a later line. *)
| nd_props p n w pr : p <= n -> props_text false w pr -> node true p n w (TrEmpty pr) None
| nd_props_beside p n w pr k w' t e : p <= n -> props_text false w pr -> node true p (n + List.length w + S k) w' t e -> bare t ->
    node true p n (w ++ repeat 32%N (S k) ++ w') (with_props pr t) e
| nd_props_below b p n w pr g m w' t e : p <= n -> props_text false w pr -> next_line m g -> node b p m w' t e -> bare t ->
    node true p n (w ++ g ++ w') (with_props pr t) e
with part : nat -> nat -> text -> option tree -> option nat -> Prop :=
| pt_none n c : part n c [] None None
| pt_beside b n c k w t e : node b (n + 1) (c + S k) w t e -> part n c (repeat 32%N (S k) ++ w) (Some t) e
| pt_below b n c g m w t e : next_line m g -> node b (n + 1) m w t e -> part n c (g ++ w) (Some t) e
with items : nat -> text -> list (option tree) -> option nat -> Prop :=
| it_one n w o e : part n (n + 1) w o e -> items n (45%N :: w) [o] e
| it_more n w o e g w' l e' : part n (n + 1) w o e -> onwards e n g -> items n w' l e' -> items n ((45%N :: w) ++ g ++ w') (o :: l) e'
with entry : nat -> text -> key tree * value tree -> option nat -> Prop :=
| en_empty n w t k : written_key w t k -> entry n (w ++ repeat 32%N k ++ [58%N]) (KNode t, VEmpty) None
| en_beside n w t k j w' t' e : written_key w t k -> node true (n + 1) (n + List.length w + k + 1 + S j) w' t' e ->
    entry n (w ++ repeat 32%N k ++ 58%N :: repeat 32%N (S j) ++ w') (KNode t, VNode t') e
| en_below b n w t k g m w' t' e : written_key w t k -> next_line m g -> node b (n + 1) m w' t' e ->
    entry n (w ++ repeat 32%N k ++ 58%N :: g ++ w') (KNode t, VNode t') e
| en_dashes n w t k g w' l e : written_key w t k -> next_line n g -> items n w' l e ->
    entry n (w ++ repeat 32%N k ++ 58%N :: g ++ w') (KNode t, VNode (TrIndentless no_props l)) e
| en_props_dashes n w t k j w1 pr g w' l e : written_key w t k -> props_text false w1 pr -> next_line n g -> items n w' l e ->
    entry n (w ++ repeat 32%N k ++ 58%N :: repeat 32%N (S j) ++ w1 ++ g ++ w') (KNode t, VNode (TrIndentless pr l)) e
| en_key n w t e : part n (n + 1) w (Some t) e -> entry n (63%N :: w) (KNode t, VAbsent) e
| en_pair n w o e g w' o' e' : part n (n + 1) w o e -> onwards e n g -> part n (n + 1) w' o' e' ->
    entry n ((63%N :: w) ++ g ++ 58%N :: w') (key_of o, value_of o') e'
with entries : nat -> text -> list (key tree * value tree) -> option nat -> Prop :=
| es_one n w x e : entry n w x e -> entries n w [x] e
| es_more n w x e g w' l e' : entry n w x e -> onwards e n g -> entries n w' l e' -> entries n (w ++ g ++ w') (x :: l) e'.

(** ** Streams *)
(** [marked w l]: documents, the first with its marker.
    [tail d x r e l]: what follows the node of a document ([d = false]), which leaves its last line at [x],
    or a marker [...] ([d = true]): [e] markers [...] and the documents [l]; without a marker [---] only
    behind [...].
    [directed w l]: documents, the first with its directives, each in a line, and its marker. *)
Inductive marked : text -> list doc -> Prop :=
| mk_below b g n w t x r e l : next_line n g -> node b 0 n w t x -> tail false x r e l ->
    marked (str "---" ++ g ++ w ++ r) (Doc [] true (Some t) e :: l)
| mk_beside k w t x r e l : node true 0 (3 + S k) w t x -> tail false x r e l ->
    marked (str "---" ++ repeat 32%N (S k) ++ w ++ r) (Doc [] true (Some t) e :: l)
| mk_empty r e l : tail false None r e l -> marked (str "---" ++ r) (Doc [] true None e :: l)
with tail : bool -> option nat -> text -> nat -> list doc -> Prop :=
| tl_end d x g : finally x g -> tail d x g 0 []
| tl_marked d x g w l : onwards x 0 g -> marked w l -> tail d x (g ++ w) 0 l
| tl_dots d x g r e l : onwards x 0 g -> tail true None r e l -> tail d x (g ++ str "..." ++ r) (S e) l
| tl_bare b g n w t x r e l : next_line n g -> node b 0 n w t x -> tail false x r e l ->
    tail true None (g ++ w ++ r) 0 (Doc [] false (Some t) e :: l)
| tl_directed g w l : next_line 0 g -> directed w l -> tail true None (g ++ w) 0 l
with directed : text -> list doc -> Prop :=
| di_last x d r b ls w o e l : directive_text false x d -> line_rest r -> empty_ones ls -> marked w (Doc [] true o e :: l) ->
    directed (x ++ r ++ eol b ++ empty_text ls ++ w) (Doc [d] true o e :: l)
| di_more x d r b ls w ds o e l : directive_text false x d -> line_rest r -> empty_ones ls -> directed w (Doc ds true o e :: l) ->
    directed (x ++ r ++ eol b ++ empty_text ls ++ w) (Doc (d :: ds) true o e :: l).
(** A whole text: markers [...] before the first document, and the documents. *)
Inductive stream : text -> nat -> list doc -> Prop :=
| sm_none ls x : empty_ones ls -> empty_line x -> stream (empty_text ls ++ x) 0 []
| sm_marked ls w l : empty_ones ls -> marked w l -> stream (empty_text ls ++ w) 0 l
| sm_directed ls w l : empty_ones ls -> directed w l -> stream (empty_text ls ++ w) 0 l
| sm_dots ls r e l : empty_ones ls -> tail true None r e l -> stream (empty_text ls ++ str "..." ++ r) (S e) l
| sm_bare b ls n w t x r e l : empty_ones ls -> node b 0 n w t x -> tail false x r e l ->
    stream (empty_text ls ++ repeat 32%N n ++ w ++ r) 0 (Doc [] false (Some t) e :: l).
