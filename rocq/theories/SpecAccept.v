(** What the scanner may take for a token, stated without the scanner: the texts of YAML 1.2.2 for tokens of each kind,
    and, each named where it stands, the texts beyond them that this scanner takes. *)
From Verif Require Import Base Tokens SpecScan SpecScalar SpecJson SpecBlock SpecQuoted SpecPlain SpecStrings SpecProps.
From Coq Require Import String.
Local Open Scope list_scope.

(** ** Quoted scalars *)
Definition escaped_break (r : text) : Prop := exists b r', r = 92%N :: eol b ++ r'.
Definition new_line (g : quote_gap) : Prop := match g with QBlanks _ => False | _ => True end.
(** The words behind the first one.  The first two cases are those of [quoted_words]. *)
Inductive taken_words (single : bool) (n : nat) : text -> text -> Prop :=
| tw_none : taken_words single n [] []
| tw_more g t u r v : quote_gap_ok single n g -> chars single t u -> (r <> [] -> t <> []) ->
    (at_margin g -> ~ doc_mark (t ++ r ++ [quote_byte single])) -> taken_words single n r v ->
    taken_words single n (quote_gap_text g ++ t ++ r) (quote_gap_value g ++ u ++ v)
(** A line that starts with an escaped line break. *)
| tw_line g r v : quote_gap_ok single n g -> new_line g -> escaped_break r -> taken_words single n r v ->
    taken_words single n (quote_gap_text g ++ r) (quote_gap_value g ++ v)
(** An escaped line break directly in front of the closing quote, whatever the indentation is to be. *)
| tw_close tr b : single = false -> Forall white_byte tr -> taken_words single n (tr ++ 92%N :: eol b) tr.
Inductive taken_scalar (single : bool) (n : nat) : text -> text -> Prop :=
| tk_words t u r v : chars single t u -> taken_words single n r v ->
    taken_scalar single n (quote_byte single :: t ++ r ++ [quote_byte single]) (u ++ v).

(** ** Anchors, tags and directives *)
(** A handle may also hold underscores. *)
Definition handle_byte (b : N) : Prop := SpecProps.word_byte b \/ b = 95%N.
(** The text of an address and what it is taken for: escaped characters of ASCII are read as what they mean; of the
    others, only the two bytes of some characters are taken, and for the wrong one. *)
Inductive taken_uri (plain : N -> Prop) : text -> text -> Prop :=
| tu_end : taken_uri plain [] []
| tu_byte b w v : plain b -> taken_uri plain w v -> taken_uri plain (b :: w) (b :: v)
| tu_ascii b x w v : (b < 128)%N -> percent b x -> taken_uri plain w v -> taken_uri plain (x ++ w) (b :: v)
| tu_pair a b x y u w v : (192 <= a < 216)%N -> (128 <= b < 192)%N -> percent a x -> percent b y ->
    utf8_of (a * 256 + b) u -> taken_uri plain w v -> taken_uri plain (x ++ y ++ w) (u ++ v).
(** A tag: its text, its handle, its suffix. *)
Inductive taken_tag : text -> text -> text -> Prop :=
| tg_verbatim w v : taken_uri uri_byte w v -> taken_tag (str "!<" ++ w ++ str ">") [] v
| tg_named h w v : Forall handle_byte h -> w <> [] -> taken_uri tag_byte w v ->
    taken_tag (str "!" ++ h ++ str "!" ++ w) (str "!" ++ h ++ str "!") v
| tg_local w v : w <> [] -> taken_uri tag_byte w v -> taken_tag (str "!" ++ w) (str "!") v
| tg_none : taken_tag (str "!") [] (str "!").
(** The handle of a directive; the blanks behind it may be missing. *)
Inductive taken_handle : text -> Prop :=
| ta_primary : taken_handle (str "!")
| ta_named h : Forall handle_byte h -> taken_handle (str "!" ++ h ++ str "!").
Inductive taken_prefix : text -> text -> Prop :=
| tx_local w v : taken_uri uri_byte w v -> taken_prefix (str "!" ++ w) (str "!" ++ v)
| tx_global w v : In (nth 0 w 0%N) (str "%") \/ tag_byte (nth 0 w 0%N) -> taken_uri uri_byte w v -> taken_prefix w v.
(** A directive up to its end, and the token it stands for. *)
Inductive taken_directive : text -> token_type -> Prop :=
| td_version s wa a wb b : blanks s -> version_number false wa a -> version_number false wb b ->
    taken_directive (str "%YAML" ++ s ++ wa ++ str "." ++ wb) (TVersionDirective a b)
| td_tag s h s' w p : blanks s -> taken_handle h -> Forall white_byte s' -> taken_prefix w p ->
    taken_directive (str "%TAG" ++ s ++ h ++ s' ++ w) (TTagDirective h p)
| td_reserved n r : n <> [] -> Forall handle_byte n -> n <> str "YAML" -> n <> str "TAG" ->
    r = [] \/ (white_byte (nth 0 r 0%N) /\ Forall comment_byte r) -> taken_directive (str "%" ++ n ++ r) (TTagDirective [] []).
(** Behind it: blanks and perhaps a comment, and the line ends. *)
Definition line_done (after : text) : Prop := exists w e, after = w ++ e /\ header_rest w /\ In (nth 0 e 0%N) [10; 13]%N.

(** ** Plain scalars *)
(** A line that is passed over: white space, and behind a tab even a comment. *)
Definition passed_line (x : text) : Prop := header_rest x /\ (In 35%N x -> In 9%N x).
(** What stands between two words, how it is read, and how far the new line is indented; [last] is to hold of the
    beginning of that line. *)
Inductive taken_fold (last : text -> Prop) : text -> text -> option nat -> Prop :=
| tf_inline bs : bs <> [] -> Forall white_byte bs -> taken_fold last bs bs None
| tf_lines tr b e more : Forall white_byte tr -> Forall (fun x => passed_line (fst x)) e -> last more ->
    taken_fold last (tr ++ eol b ++ empty_text e ++ more) (match e with [] => [32%N] | _ => repeat 10%N (List.length e) end) (Some (List.length more)).
(** The words behind the first one, in front of [after]; outside of flow collections lines are indented by [n]. *)
Inductive taken_more (in_flow : bool) (n : nat) (after : text) : text -> text -> Prop :=
| tm_none : taken_more in_flow n after [] []
| tm_word g v i w r v' : taken_fold (Forall white_byte) g v i ->
    (forall k, i = Some k -> (in_flow = false -> n <= k) /\ ~ doc_mark (w ++ r ++ after)) ->
    plain_word in_flow w (nth 0 (r ++ after) 0%N) -> taken_more in_flow n after r v' ->
    taken_more in_flow n after (g ++ w ++ r) (v ++ w ++ v').
(** Where it ends: at the end of the text, before a colon, or before a sign of a flow collection; *)
Definition stop_byte (in_flow : bool) (z : text) : Prop :=
  nth 0 z 0%N = 0%N \/ (nth 0 z 0%N = 58%N /\ ends_colon in_flow (nth 1 z 0%N)) \/ (in_flow = true /\ flow_sign (nth 0 z 0%N)).
(** behind white space also before a comment, before a line that is indented less, and before a document marker. *)
Inductive taken_stop (in_flow : bool) (n : nat) : text -> Prop :=
| sp_here z : stop_byte in_flow z -> taken_stop in_flow n z
| sp_gap g v i z : taken_fold passed_line g v i -> stop_byte in_flow z \/ nth 0 z 0%N = 35%N -> taken_stop in_flow n (g ++ z)
| sp_less g v i z : taken_fold passed_line g v (Some i) -> in_flow = false -> i < n -> ~ In (nth 0 z 0%N) [32; 9; 10; 13]%N -> taken_stop in_flow n (g ++ z)
| sp_mark g v i z : taken_fold passed_line g v (Some i) -> doc_mark z -> taken_stop in_flow n (g ++ z).
Inductive taken_plain (in_flow : bool) (n : nat) (after : text) : text -> text -> Prop :=
| tp_words w r v : plain_word in_flow w (nth 0 (r ++ after) 0%N) -> taken_more in_flow n after r v -> taken_stop in_flow n after ->
    taken_plain in_flow n after (w ++ r) (w ++ v).

(** ** Block scalars *)
(** [...] before white space or the end. *)
Definition end_mark (t : text) : Prop := exists r, t = (46 :: 46 :: 46 :: r)%N /\ In (nth 0 r 0%N) white_or_end.
(** A line of content; without indentation [---] is content too. *)
Definition taken_line (n : nat) (x : line) : Prop :=
  Forall (fun b => fst b <= n) (before x) /\ words x <> [] /\ ~ In 10%N (words x) /\ ~ In 13%N (words x) /\ (n = 0 -> ~ end_mark (words x)).
(** Behind the last line and [s] spaces: the end of the text, a line that is indented less, or the end of the document. *)
Definition taken_end (n s : nat) (after : text) : Prop :=
  after = [] \/ (s < n /\ ~ In (nth 0 after 0%N) [32; 10; 13]%N) \/ (n = 0 /\ end_mark after).
(** The first line of a block scalar. *)
Inductive block_head (literal : bool) : text -> ending -> option N -> Prop :=
| bh_head h e digit ht : indicators h e digit -> header_rest ht -> block_head literal (block_sign literal :: h ++ ht) e digit.
(** The text, the value, and where its token starts: at the first byte of content, unless the text ends without any;
    [col] as in [indentation]. *)
Inductive taken_block (literal : bool) (col : N) (after : text) : text -> text -> nat -> Prop :=
| tb_lines hd e digit b first more tail n s :
    block_head literal hd e digit -> indentation col digit n first -> Forall (taken_line n) (first :: more) ->
    Forall (fun x => fst x <= n) tail -> s <= n -> taken_end n s after ->
    taken_block literal col after (hd ++ eol b ++ flat_map (line_text n) (first :: more) ++ blank_lines tail ++ repeat 32%N s)
      (block_value literal e first more tail) (List.length (hd ++ eol b ++ blank_lines (before first) ++ repeat 32%N n))
(** A line cut off by the end of the text: its line break is taken to be there. *)
| tb_cut hd e digit b l last n :
    block_head literal hd e digit -> indentation col digit n (List.hd last l) -> Forall (taken_line n) (l ++ [last]) -> after = [] ->
    taken_block literal col after (hd ++ eol b ++ cut_lines n l last)
      (block_text literal (l ++ [last]) ++ match e with Stripped => [] | _ => [10%N] end)
      (List.length (hd ++ eol b ++ blank_lines (before (List.hd last l)) ++ repeat 32%N n))
(** No content. *)
| tb_none hd e digit b tail s :
    block_head literal hd e digit -> after <> [] -> (N.of_nat s < col)%N \/ (s = 0 /\ end_mark after) ->
    taken_block literal col after (hd ++ eol b ++ blank_lines tail ++ repeat 32%N s)
      (match e with Kept => repeat 10%N (List.length tail) | _ => [] end) (List.length (hd ++ eol b ++ blank_lines tail ++ repeat 32%N s))
(** At the end of the text the line break of the first line counts as content. *)
| tb_last hd e digit b tail s :
    block_head literal hd e digit -> after = [] ->
    taken_block literal col after (hd ++ eol b ++ blank_lines tail ++ repeat 32%N s)
      (match e with Stripped => [] | Clipped => [10%N] | Kept => repeat 10%N (Nat.max 1 (List.length tail)) end) 0
| tb_head hd e digit : block_head literal hd e digit -> after = [] -> taken_block literal col after hd [] 0
(** Behind NUL in the first line anything may be read. *)
| tb_nul hd e digit x v : block_head literal hd e digit -> nth 0 (x ++ after) 1%N = 0%N -> taken_block literal col after (hd ++ x) v (List.length hd).

(** ** Tokens *)
Definition on_new_line (before : text) : Prop := before = [] \/ exists b, before = b ++ [10%N].
(** What stands between [before] and [after] for a token of the text, and how far in its span starts. *)
Inductive written (before after : text) : text -> token_type -> nat -> Prop :=
| wr_sequence : written before after (str "[") TFlowSequenceStart 0
| wr_sequence_end : written before after (str "]") TFlowSequenceEnd 0
| wr_mapping : written before after (str "{") TFlowMappingStart 0
| wr_mapping_end : written before after (str "}") TFlowMappingEnd 0
| wr_comma : written before after (str ",") TFlowEntry 0
| wr_dash : In (nth 0 after 0%N) white_or_end -> written before after (str "-") TBlockEntry 0
| wr_question : In (nth 0 after 0%N) white_or_end -> written before after (str "?") TKey 0
| wr_colon : written before after (str ":") TValue 0
| wr_document : on_new_line before -> In (nth 0 after 0%N) white_or_end -> written before after (str "---") TDocumentStart 0
| wr_document_end : on_new_line before -> In (nth 0 after 0%N) white_or_end -> written before after (str "...") TDocumentEnd 0
| wr_directive q t : on_new_line before -> taken_directive q t -> line_done after -> written before after q t 0
| wr_anchor n : anchor_name n -> ~ anchor_byte (nth 0 after 0%N) -> written before after (38%N :: n) (TAnchor n) 0
| wr_alias n : anchor_name n -> ~ anchor_byte (nth 0 after 0%N) -> written before after (42%N :: n) (TAlias n) 0
| wr_tag in_flow q h v : taken_tag q h v -> tag_stop in_flow after -> written before after q (TTag h v) 0
| wr_quoted (single : bool) n q v : taken_scalar single n q v -> written before after q (TScalar (if single then SingleQuote else DoubleQuote) v) 0
| wr_plain in_flow n q v : taken_plain in_flow n after q v -> written before after q (TScalar Plain v) 0
| wr_block (literal : bool) col q v k : taken_block literal col after q v k -> written before after q (TScalar (if literal then Literal else Folded) v) k.
(** Tokens whose span ends with what is written for them: *)
Definition ends_with_text (t : token_type) : Prop :=
  match t with
  | TDocumentStart | TDocumentEnd | TVersionDirective _ _ | TTagDirective _ _ | TAnchor _ | TAlias _ | TTag _ _ | TScalar Plain _ | TScalar Literal _ | TScalar Folded _ => True
  | _ => False
  end.
(** Tokens that may come without anything written for them: *)
Definition implied (t : token_type) : Prop :=
  In t [TStreamStart; TStreamEnd; TKey; TFlowMappingStart; TFlowMappingEnd; TBlockSequenceStart; TBlockMappingStart; TBlockEnd].
(** The token stands in the text [i] at its place, or is implied and empty. *)
Definition stands (i : text) (t : token) : Prop :=
  (exists before q after k, i = before ++ q ++ after /\ written before after q (k_type t) k /\ k <= List.length q /\
     place i (List.length before + k) (s_start (k_span t)) /\
     (ends_with_text (k_type t) -> place i (List.length (before ++ q)) (s_end (k_span t)))) \/
  (implied (k_type t) /\ s_end (k_span t) = s_start (k_span t)).

(** ** Whole texts *)
(** White space, line breaks and comments, in front of [after]; a comment goes up to the end of its line. *)
Inductive gap (after : text) : text -> Prop :=
| gp_none : gap after []
| gp_white b g : In b [32; 9; 10; 13]%N -> gap after g -> gap after (b :: g)
| gp_comment w g : Forall (fun b => ~ In b [10; 13; 0]%N) w -> In (nth 0 (g ++ after) 0%N) [10; 13; 0]%N -> gap after g -> gap after (35%N :: w ++ g).
(** The text [x] with which [i] begins is made of what is written for the tokens, one after the other, with gaps in between;
    implied tokens may be anywhere among them. *)
Inductive covers (i : text) : text -> list token -> Prop :=
| cv_start : covers i [] []
| cv_gap x l g after : covers i x l -> i = x ++ g ++ after -> gap after g -> covers i (x ++ g) l
| cv_token x l q after k t : covers i x l -> i = x ++ q ++ after -> written x after q (k_type t) k -> k <= List.length q ->
    place i (List.length x + k) (s_start (k_span t)) -> (ends_with_text (k_type t) -> place i (List.length (x ++ q)) (s_end (k_span t))) ->
    covers i (x ++ q) (l ++ [t])
| cv_implied x l l' t : covers i x (l ++ l') -> implied (k_type t) -> s_end (k_span t) = s_start (k_span t) -> covers i x (l ++ t :: l').
