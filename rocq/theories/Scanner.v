(** Model of [yam-core/src/parsing/scanner.rs], second part: the queue of tokens, simple keys,
    indentation and flow levels, and the iterator over tokens.  The reading of the text is in
    [Cursor].  Counters ([usize]/[u32]) are unbounded, except that [flow_level] stops at
    [u32::MAX] as in the code.  Code under the feature [comment] is left out. *)
From Verif Require Import Base Tokens Scalar Chars Source Cursor.
From Coq Require Import String.
Local Open Scope m_scope.

(** [scanner.rs:50-56] [SimpleKey]. *)
Record skey := SKey { sk_possible : bool; sk_required : bool; sk_number : nat; sk_mark : marker }.
(** [scanner.rs:59-66] [SimpleKey::new]. *)
Definition skey_new (m : marker) : skey := SKey false false 0 m.
(** [scanner.rs:75-86] [ImplicitMappingState]. *)
Inductive implicit_state := IPossible | IInside.

(** [scanner.rs:89-114] [Scanner] without the fields of [cursor] and the buffers [buf_*] (local to
    [plain_loop]).  An [Indent] (scanner.rs:70-73) is a pair [(indent, needs_block_end)].  The
    stacks [simple_keys], [indents] and [implicit_flow_mapping_states] have their top first,
    [tokens] has its front first. *)
Record scanner := Scanner {
  z_cur : cursor;
  z_tokens : list token;
  z_error : option yerr;
  z_keys : list skey;
  z_indents : list (N * bool);
  z_implicit : list implicit_state;
  z_end_reached : bool;
  z_available : bool;
  z_started : bool;
  z_end_produced : bool;
  z_flow_started : bool;
  z_adjacent : N;
  z_parsed : nat;
  z_flow : N;
  z_indent : N }.

(** Assignment to a field of [Scanner] (scanner.rs:89-114). *)
Definition set_cur (v : cursor) (z : scanner) : scanner :=
  Scanner v (z_tokens z) (z_error z) (z_keys z) (z_indents z) (z_implicit z) (z_end_reached z) (z_available z) (z_started z) (z_end_produced z) (z_flow_started z) (z_adjacent z) (z_parsed z) (z_flow z) (z_indent z).
(** Assignment to a field of [Scanner] (scanner.rs:89-114). *)
Definition set_tokens (v : list token) (z : scanner) : scanner :=
  Scanner (z_cur z) v (z_error z) (z_keys z) (z_indents z) (z_implicit z) (z_end_reached z) (z_available z) (z_started z) (z_end_produced z) (z_flow_started z) (z_adjacent z) (z_parsed z) (z_flow z) (z_indent z).
(** Assignment to a field of [Scanner] (scanner.rs:89-114). *)
Definition set_error (v : option yerr) (z : scanner) : scanner :=
  Scanner (z_cur z) (z_tokens z) v (z_keys z) (z_indents z) (z_implicit z) (z_end_reached z) (z_available z) (z_started z) (z_end_produced z) (z_flow_started z) (z_adjacent z) (z_parsed z) (z_flow z) (z_indent z).
(** Assignment to a field of [Scanner] (scanner.rs:89-114). *)
Definition set_keys (v : list skey) (z : scanner) : scanner :=
  Scanner (z_cur z) (z_tokens z) (z_error z) v (z_indents z) (z_implicit z) (z_end_reached z) (z_available z) (z_started z) (z_end_produced z) (z_flow_started z) (z_adjacent z) (z_parsed z) (z_flow z) (z_indent z).
(** Assignment to a field of [Scanner] (scanner.rs:89-114). *)
Definition set_indents (v : list (N * bool)) (z : scanner) : scanner :=
  Scanner (z_cur z) (z_tokens z) (z_error z) (z_keys z) v (z_implicit z) (z_end_reached z) (z_available z) (z_started z) (z_end_produced z) (z_flow_started z) (z_adjacent z) (z_parsed z) (z_flow z) (z_indent z).
(** Assignment to a field of [Scanner] (scanner.rs:89-114). *)
Definition set_implicit (v : list implicit_state) (z : scanner) : scanner :=
  Scanner (z_cur z) (z_tokens z) (z_error z) (z_keys z) (z_indents z) v (z_end_reached z) (z_available z) (z_started z) (z_end_produced z) (z_flow_started z) (z_adjacent z) (z_parsed z) (z_flow z) (z_indent z).
(** Assignment to a field of [Scanner] (scanner.rs:89-114). *)
Definition set_end_reached (v : bool) (z : scanner) : scanner :=
  Scanner (z_cur z) (z_tokens z) (z_error z) (z_keys z) (z_indents z) (z_implicit z) v (z_available z) (z_started z) (z_end_produced z) (z_flow_started z) (z_adjacent z) (z_parsed z) (z_flow z) (z_indent z).
(** Assignment to a field of [Scanner] (scanner.rs:89-114). *)
Definition set_available (v : bool) (z : scanner) : scanner :=
  Scanner (z_cur z) (z_tokens z) (z_error z) (z_keys z) (z_indents z) (z_implicit z) (z_end_reached z) v (z_started z) (z_end_produced z) (z_flow_started z) (z_adjacent z) (z_parsed z) (z_flow z) (z_indent z).
(** Assignment to a field of [Scanner] (scanner.rs:89-114). *)
Definition set_started (v : bool) (z : scanner) : scanner :=
  Scanner (z_cur z) (z_tokens z) (z_error z) (z_keys z) (z_indents z) (z_implicit z) (z_end_reached z) (z_available z) v (z_end_produced z) (z_flow_started z) (z_adjacent z) (z_parsed z) (z_flow z) (z_indent z).
(** Assignment to a field of [Scanner] (scanner.rs:89-114). *)
Definition set_end_produced (v : bool) (z : scanner) : scanner :=
  Scanner (z_cur z) (z_tokens z) (z_error z) (z_keys z) (z_indents z) (z_implicit z) (z_end_reached z) (z_available z) (z_started z) v (z_flow_started z) (z_adjacent z) (z_parsed z) (z_flow z) (z_indent z).
(** Assignment to a field of [Scanner] (scanner.rs:89-114). *)
Definition set_flow_started (v : bool) (z : scanner) : scanner :=
  Scanner (z_cur z) (z_tokens z) (z_error z) (z_keys z) (z_indents z) (z_implicit z) (z_end_reached z) (z_available z) (z_started z) (z_end_produced z) v (z_adjacent z) (z_parsed z) (z_flow z) (z_indent z).
(** Assignment to a field of [Scanner] (scanner.rs:89-114). *)
Definition set_adjacent (v : N) (z : scanner) : scanner :=
  Scanner (z_cur z) (z_tokens z) (z_error z) (z_keys z) (z_indents z) (z_implicit z) (z_end_reached z) (z_available z) (z_started z) (z_end_produced z) (z_flow_started z) v (z_parsed z) (z_flow z) (z_indent z).
(** Assignment to a field of [Scanner] (scanner.rs:89-114). *)
Definition set_parsed (v : nat) (z : scanner) : scanner :=
  Scanner (z_cur z) (z_tokens z) (z_error z) (z_keys z) (z_indents z) (z_implicit z) (z_end_reached z) (z_available z) (z_started z) (z_end_produced z) (z_flow_started z) (z_adjacent z) v (z_flow z) (z_indent z).
(** Assignment to a field of [Scanner] (scanner.rs:89-114). *)
Definition set_flow (v : N) (z : scanner) : scanner :=
  Scanner (z_cur z) (z_tokens z) (z_error z) (z_keys z) (z_indents z) (z_implicit z) (z_end_reached z) (z_available z) (z_started z) (z_end_produced z) (z_flow_started z) (z_adjacent z) (z_parsed z) v (z_indent z).
(** Assignment to a field of [Scanner] (scanner.rs:89-114). *)
Definition set_indent (v : N) (z : scanner) : scanner :=
  Scanner (z_cur z) (z_tokens z) (z_error z) (z_keys z) (z_indents z) (z_implicit z) (z_end_reached z) (z_available z) (z_started z) (z_end_produced z) (z_flow_started z) (z_adjacent z) (z_parsed z) (z_flow z) v.

(** A method of [Scanner] taking [&mut self] (scanner.rs:116-2222). *)
Definition SM := M scanner.
(** A method that only uses the fields of [cursor] (scanner.rs:89-114). *)
Definition lift {A} (m : CM A) : SM A := fun z =>
  let (c, o) := m (z_cur z) in (set_cur c z, o).
(** [YamlError::new_str(mark, msg)] returned as an error (scanner.rs:273 and elsewhere). *)
Definition zerr {A} (m : marker) (msg : string) : SM A := fail (ScannerErr m msg).
(** Exhaustion of the recursion bound of the model (no counterpart in scanner.rs:1-2239). *)
Definition zout_of_fuel {A} : SM A := fun z => (z, Fuel).
(** [self.mark] (scanner.rs:91). *)
Definition zmark : SM marker := lift get_mark.
(** [self.src.peekz(n)] (source.rs:50-52). *)
Definition zpeek (n : nat) : SM N := lift (peek n).

(** [scanner.rs:117-148] [Scanner::new]. *)
Definition scanner_new (input : text) : scanner :=
  Scanner (Cur (str_new input) (Marker 0 1 1) true true) [] None [] [] [] false false false false
    false 0 0 0 0.

(** [self.tokens.push_back(Token { span, token_type })] (scanner.rs:301 and elsewhere). *)
Definition push_token (s : span) (t : token_type) : SM unit :=
  modify (fun z => set_tokens (z_tokens z ++ [Token s t]) z).
(** [scanner.rs:1923-1927] [insert_token]; [number - self.tokens_parsed] is computed at the calls
    (scanner.rs:648, 657, 1896) and panics when it underflows. *)
Definition insert_token (number : nat) (s : span) (t : token_type) : SM unit := fun z =>
  if Nat.ltb number (z_parsed z) then (z, Panic)
  else
    let pos := number - z_parsed z in
    if Nat.leb pos (List.length (z_tokens z)) then
      (set_tokens (firstn pos (z_tokens z) ++ Token s t :: skipn pos (z_tokens z)) z, Ok tt)
    else (z, Panic).

(** [scanner.rs:1856-1867] the loop of [unroll_indent]: indent, stack and tokens; [None] is the
    [unwrap] of an empty stack. *)
Fixpoint unroll_loop (col : N) (mark : marker) (indent : N) (indents : list (N * bool))
    (toks : list token) : option (N * list (N * bool) * list token) :=
  if (col <? indent)%N then
    match indents with
    | [] => None
    | (i, needs_end) :: r =>
        unroll_loop col mark i r
          (if needs_end then toks ++ [Token (span_empty mark) TBlockEnd] else toks)
    end
  else Some (indent, indents, toks).
(** [scanner.rs:1851-1868] [unroll_indent]. *)
Definition unroll_indent (col : N) : SM unit := fun z =>
  if (0 <? z_flow z)%N then (z, Ok tt)
  else
    match unroll_loop col (c_mark (z_cur z)) (z_indent z) (z_indents z) (z_tokens z) with
    | None => (z, Panic)
    | Some (i, r, toks) => (set_indent i (set_indents r (set_tokens toks z)), Ok tt)
    end.
(** [scanner.rs:1881-1887] the part of [roll_indent] that drops a one-column indent. *)
Definition drop_one_col (col : N) (z : scanner) : scanner :=
  if (z_indent z <=? col)%N then
    match z_indents z with
    | (i, false) :: r => set_indent i (set_indents r z)
    | _ => z
    end
  else z.
(** [scanner.rs:1870-1901] [roll_indent]. *)
Definition roll_indent (col : N) (number : option nat) (t : token_type) (mark : marker) : SM unit :=
  fun z =>
  if (0 <? z_flow z)%N then (z, Ok tt)
  else
    let z := drop_one_col col z in
    if (z_indent z <? col)%N then
      let z := set_indent col (set_indents ((z_indent z, true) :: z_indents z) z) in
      match number with
      | Some n => insert_token n (span_empty mark) t z
      | None => push_token (span_empty mark) t z
      end
    else (z, Ok tt).
(** [scanner.rs:1903-1911] [roll_one_col_indent]. *)
Definition roll_one_col_indent : SM unit :=
  modify (fun z =>
    match z_indents z with
    | (_, true) :: _ =>
        if (z_flow z =? 0)%N then
          set_indent (z_indent z + 1)%N (set_indents ((z_indent z, false) :: z_indents z) z)
        else z
    | _ => z
    end).
(** [scanner.rs:1913-1921] the loop of [unroll_non_block_indents]. *)
Fixpoint unroll_non_block_loop (indent : N) (indents : list (N * bool)) : N * list (N * bool) :=
  match indents with
  | (i, false) :: r => unroll_non_block_loop i r
  | _ => (indent, indents)
  end.
(** [scanner.rs:1913-1921] [unroll_non_block_indents]. *)
Definition unroll_non_block_indents : SM unit :=
  modify (fun z =>
    let (i, r) := unroll_non_block_loop (z_indent z) (z_indents z) in
    set_indent i (set_indents r z)).

(** [scanner.rs:1929-1940] [increase_flow_level]. *)
Definition increase_flow_level : SM unit := fun z =>
  let z := set_keys (skey_new (Marker 0 0 0) :: z_keys z) z in
  if (z_flow z =? 4294967295)%N then
    (z, Err (ScannerErr (c_mark (z_cur z)) "recursion limit exceeded"))
  else (set_flow (z_flow z + 1)%N z, Ok tt).
(** [scanner.rs:1942-1947] [decrease_flow_level]. *)
Definition decrease_flow_level : SM unit := fun z =>
  if (0 <? z_flow z)%N then
    match z_keys z with
    | [] => (set_flow (z_flow z - 1)%N z, Panic)
    | _ :: r => (set_keys r (set_flow (z_flow z - 1)%N z), Ok tt)
    end
  else (z, Ok tt).

(** [sk.possible = false] (scanner.rs:293, 1960, 1971). *)
Definition impossible (k : skey) : skey := SKey false (sk_required k) (sk_number k) (sk_mark k).
(** [scanner.rs:1950-1962] the loop of [stale_simple_keys] (bottom of the stack first); the boolean
    says that a required key went stale. *)
Fixpoint stale_loop (flow : N) (mark : marker) (keys : list skey) : list skey * bool :=
  match keys with
  | [] => ([], false)
  | k :: r =>
      if sk_possible k && (flow =? 0)%N
         && ((m_line (sk_mark k) <? m_line mark)%N || (m_pos (sk_mark k) + 1024 <? m_pos mark)%N)
      then
        if sk_required k then (k :: r, true)
        else let (r', e) := stale_loop flow mark r in (impossible k :: r', e)
      else let (r', e) := stale_loop flow mark r in (k :: r', e)
  end.
(** [scanner.rs:1949-1963] [stale_simple_keys]. *)
Definition stale_simple_keys : SM unit := fun z =>
  let (keys, e) := stale_loop (z_flow z) (c_mark (z_cur z)) (rev (z_keys z)) in
  let z := set_keys (rev keys) z in
  if e then (z, Err (ScannerErr (c_mark (z_cur z)) "simple key expect ':'")) else (z, Ok tt).
(** [scanner.rs:1965-1973] [remove_simple_key]. *)
Definition remove_simple_key : SM unit := fun z =>
  match z_keys z with
  | [] => (z, Panic)
  | k :: r =>
      if sk_possible k && sk_required k then
        (z, Err (ScannerErr (c_mark (z_cur z)) "simple key expected"))
      else (set_keys (impossible k :: r) z, Ok tt)
  end.
(** [scanner.rs:1975-1991] [save_simple_key]. *)
Definition save_simple_key : SM unit :=
  modify (fun z =>
    if c_ska (z_cur z) then
      let required :=
        (z_flow z =? 0)%N && (z_indent z =? m_col (c_mark (z_cur z)))%N
        && match z_indents z with (_, needs_end) :: _ => needs_end | [] => false end in
      set_keys
        (SKey true required (z_parsed z + List.length (z_tokens z)) (c_mark (z_cur z))
           :: tl (z_keys z)) z
    else z).

(** [scanner.rs:425-437] [end_implicit_mapping]. *)
Definition end_implicit_mapping (mark : marker) : SM unit := fun z =>
  match z_implicit z with
  | IInside :: r =>
      push_token (Span mark (c_mark (z_cur z))) TFlowMappingEnd
        (set_implicit (IPossible :: r) (set_flow_started false z))
  | _ => (z, Ok tt)
  end.

(** [self.skip_to_next_token()] (scanner.rs:861-901). *)
Definition zskip_to_next_token (fuel : nat) : SM unit := fun z =>
  lift (skip_to_next_token fuel (match z_indents z with [] => false | _ => true end) (z_indent z)
          (z_flow z)) z.

(** [scanner.rs:322-332] [fetch_stream_start]. *)
Definition fetch_stream_start : SM unit :=
  let* mark := zmark in
  modify (fun z => set_started true (set_indent 0%N z)) ;;;
  lift (set_ska true) ;;;
  push_token (Span mark mark) TStreamStart ;;;
  modify (fun z => set_keys (skey_new (Marker 0 0 0) :: z_keys z) z).

(** [scanner.rs:289-294] the loop of [fetch_stream_end] (bottom of the stack first); the boolean
    says that a required key was still possible. *)
Fixpoint end_keys_loop (keys : list skey) : list skey * bool :=
  match keys with
  | [] => ([], false)
  | k :: r =>
      if sk_required k && sk_possible k then (k :: r, true)
      else let (r', e) := end_keys_loop r in (impossible k :: r', e)
  end.
(** [scanner.rs:279-305] [fetch_stream_end]. *)
Definition fetch_stream_end : SM unit :=
  modify (fun z =>
    let c := z_cur z in
    let m := c_mark c in
    if negb (m_col m =? 0)%N then
      set_cur (Cur (c_src c) (Marker (m_pos m) 1 (m_line m + 1)) (c_lead c) (c_ska c)) z
    else z) ;;;
  (fun z =>
     let (keys, e) := end_keys_loop (rev (z_keys z)) in
     let z := set_keys (rev keys) z in
     if e then (z, Err (ScannerErr (c_mark (z_cur z)) "simple key expected")) else (z, Ok tt)) ;;;
  unroll_indent 0 ;;;
  remove_simple_key ;;;
  lift (set_ska false) ;;;
  let* mark := zmark in
  push_token (span_empty mark) TStreamEnd.

(** [scanner.rs:307-320] [fetch_document_indicator]. *)
Definition fetch_document_indicator (t : token_type) : SM unit :=
  unroll_indent 0 ;;;
  remove_simple_key ;;;
  lift (set_ska false) ;;;
  let* mark := zmark in
  lift (skip_n_non_blank 3) ;;;
  let* e := zmark in
  push_token (Span mark e) t.

(** [scanner.rs:784-795] [finish_document]. *)
Definition finish_document (fuel : nat) : SM unit :=
  fetch_document_indicator TDocumentEnd ;;;
  lift (skip_ws_to_eol fuel true false) ;;;
  let* c := zpeek 0 in
  let* m := zmark in
  if is_breakz c || (c =? 35)%N then ret tt
  else zerr m "Invalid content after document end marker".

(** [scanner.rs:772-782] [fetch_directive]. *)
Definition fetch_directive (fuel : nat) : SM unit :=
  unroll_indent 0 ;;;
  remove_simple_key ;;;
  lift (set_ska false) ;;;
  let* tok := lift (scan_directive fuel) in
  push_token (k_span tok) (k_type tok).

(** [scanner.rs:375-399] [fetch_flow_collection_start]; [is_map] says that the token is
    [FlowMappingStart]. *)
Definition fetch_flow_collection_start (fuel : nat) (is_map : bool) : SM unit :=
  save_simple_key ;;;
  roll_one_col_indent ;;;
  increase_flow_level ;;;
  lift (set_ska true) ;;;
  let* start := zmark in
  lift skip_non_blank ;;;
  modify (fun z =>
    if is_map then set_flow_started true z
    else set_implicit (IPossible :: z_implicit z) z) ;;;
  lift (skip_ws_to_eol fuel true false) ;;;
  let* e := zmark in
  push_token (Span start e) (if is_map then TFlowMappingStart else TFlowSequenceStart).

(** [scanner.rs:401-423] [fetch_flow_collection_end]; [is_map] says that the token is
    [FlowMappingEnd]. *)
Definition fetch_flow_collection_end (fuel : nat) (is_map : bool) : SM unit :=
  remove_simple_key ;;;
  decrease_flow_level ;;;
  lift (set_ska false) ;;;
  let* start := zmark in
  (if is_map then ret tt
   else end_implicit_mapping start ;;; modify (fun z => set_implicit (tl (z_implicit z)) z)) ;;;
  lift skip_non_blank ;;;
  lift (skip_ws_to_eol fuel true false) ;;;
  modify (fun z => if (0 <? z_flow z)%N then set_adjacent (m_pos (c_mark (z_cur z))) z else z) ;;;
  let* e := zmark in
  push_token (Span start e) (if is_map then TFlowMappingEnd else TFlowSequenceEnd).

(** [scanner.rs:439-447] [fetch_plain_scalar]. *)
Definition fetch_plain_scalar (fuel : nat) : SM unit :=
  save_simple_key ;;;
  lift (set_ska false) ;;;
  unroll_non_block_indents ;;;
  let* indent := gets z_indent in
  let* flow := gets z_flow in
  let* tok := lift (scan_plain_scalar fuel indent (0 <? flow)%N) in
  push_token (k_span tok) (k_type tok).

(** [scanner.rs:449-465] [fetch_flow_entry]. *)
Definition fetch_flow_entry (fuel : nat) : SM unit :=
  remove_simple_key ;;;
  lift (set_ska true) ;;;
  let* start := zmark in
  end_implicit_mapping start ;;;
  lift skip_non_blank ;;;
  lift (skip_ws_to_eol fuel true false) ;;;
  let* e := zmark in
  push_token (Span start e) TFlowEntry.

(** [scanner.rs:484-498] the check of [fetch_block_entry] on the last token. *)
Definition g9hc (z : scanner) : bool :=
  match rev (z_tokens z) with
  | Token s t :: _ =>
      match t with
      | TAnchor _ | TTag _ _ =>
          (m_col (c_mark (z_cur z)) =? 1)%N && (m_col (s_start s) =? 1)%N && (0 <? z_indent z)%N
      | _ => false
      end
  | [] => false
  end.
(** [scanner.rs:467-528] [fetch_block_entry]. *)
Definition fetch_block_entry (fuel : nat) : SM unit :=
  let* mark := zmark in
  let* flow := gets z_flow in
  let* ska := gets (fun z => c_ska (z_cur z)) in
  let* bad := gets g9hc in
  if (0 <? flow)%N then zerr mark """-"" is only valid inside a block"
  else if negb ska then zerr mark "block sequence entries are not allowed in this context"
  else if bad then zerr mark "block sequence entries are not allowed in this context"
  else
    lift skip_non_blank ;;;
    roll_indent (m_col mark) None TBlockSequenceStart mark ;;;
    let* (any_tabs, has_ws) := lift (skip_ws_to_eol fuel true false) in
    let* c := zpeek 0 in
    let* nc := zpeek 1 in
    let* m := zmark in
    if any_tabs && (c =? 45)%N && is_blank_or_break nc then
      zerr m "'-' must be followed by a valid YAML whitespace"
    else
      lift (skip_ws_to_eol fuel false has_ws) ;;;
      let* c := zpeek 0 in
      (if is_break c || is_flow c then roll_one_col_indent else ret tt) ;;;
      remove_simple_key ;;;
      lift (set_ska true) ;;;
      let* e := zmark in
      push_token (Span mark e) TBlockEntry.

(** [scanner.rs:530-569] [fetch_key]. *)
Definition fetch_key (fuel : nat) : SM unit :=
  let* start := zmark in
  let* flow := gets z_flow in
  let* ska := gets (fun z => c_ska (z_cur z)) in
  (if (flow =? 0)%N then
     if negb ska then zerr start "mapping keys are not allowed in this context"
     else roll_indent (m_col start) None TBlockMappingStart start
   else modify (set_flow_started true)) ;;;
  remove_simple_key ;;;
  lift (set_ska (flow =? 0)%N) ;;;
  lift skip_non_blank ;;;
  lift (skip_yaml_whitespace fuel flow) ;;;
  let* c := zpeek 0 in
  let* e := zmark in
  if (c =? 9)%N then zerr e "tabs disallowed in this context"
  else push_token (Span start e) TKey.

(** [scanner.rs:624-637] the check of [fetch_value] on what follows the colon. *)
Definition value_tab_check (fuel : nat) : SM unit :=
  let* c := zpeek 0 in
  if (c =? 9)%N then
    let* (_, has_ws) := lift (skip_ws_to_eol fuel true false) in
    let* c := zpeek 0 in
    let* m := zmark in
    if negb has_ws && ((c =? 45)%N || is_alpha c) then
      zerr m "':' must be followed by a valid YAML whitespace"
    else ret tt
  else ret tt.
(** [scanner.rs:613-703] [fetch_value]. *)
Definition fetch_value (fuel : nat) : SM unit :=
  let* keys := gets z_keys in
  match keys with
  | [] => panic
  | sk :: _ =>
      let* start := zmark in
      let* implicit :=
        gets (fun z => match z_implicit z with [] => false | _ => true end && negb (z_flow_started z)) in
      modify (fun z =>
        if implicit : bool then set_implicit (IInside :: tl (z_implicit z)) z else z) ;;;
      lift skip_non_blank ;;;
      value_tab_check fuel ;;;
      (if sk_possible sk then
         insert_token (sk_number sk) (span_empty (sk_mark sk)) TKey ;;;
         (if implicit then
            if (m_line (sk_mark sk) <? m_line start)%N then
              zerr start "illegal placement of ':' indicator"
            else insert_token (sk_number sk) (span_empty (sk_mark sk)) TFlowMappingStart
          else ret tt) ;;;
         roll_indent (m_col (sk_mark sk)) (Some (sk_number sk)) TBlockMappingStart (sk_mark sk) ;;;
         roll_one_col_indent ;;;
         modify (fun z => set_keys (match z_keys z with k :: r => impossible k :: r | [] => [] end) z) ;;;
         lift (set_ska false)
       else
         (if implicit then push_token (span_empty start) TFlowMappingStart else ret tt) ;;;
         let* flow := gets z_flow in
         let* ska := gets (fun z => c_ska (z_cur z)) in
         (if (flow =? 0)%N then
            if negb ska then zerr start "mapping values are not allowed in this context"
            else roll_indent (m_col start) None TBlockMappingStart start
          else ret tt) ;;;
         roll_one_col_indent ;;;
         lift (set_ska (flow =? 0)%N)) ;;;
      push_token (span_empty start) TValue
  end.
(** [scanner.rs:705-727] [fetch_flow_value]. *)
Definition fetch_flow_value (fuel : nat) : SM unit :=
  let* nc := zpeek 1 in
  let* m := zmark in
  let* adj := gets z_adjacent in
  if negb (m_pos m =? adj)%N && ((nc =? 91)%N || (nc =? 123)%N) then
    zerr m "':' may not precede any of `[{` in flow mapping"
  else fetch_value fuel.

(** [scanner.rs:729-738] [fetch_anchor]. *)
Definition fetch_anchor (fuel : nat) (alias : bool) : SM unit :=
  save_simple_key ;;;
  lift (set_ska false) ;;;
  let* tok := lift (scan_anchor fuel alias) in
  push_token (k_span tok) (k_type tok).
(** [scanner.rs:740-747] [fetch_tag]. *)
Definition fetch_tag (fuel : nat) : SM unit :=
  save_simple_key ;;;
  lift (set_ska false) ;;;
  let* flow := gets z_flow in
  let* tok := lift (scan_tag fuel (0 <? flow)%N) in
  push_token (k_span tok) (k_type tok).
(** [scanner.rs:749-755] [fetch_block_scalar], with the beginning of [scan_block_scalar]
    (1247, 1268-1270). *)
Definition fetch_block_scalar (fuel : nat) (literal : bool) : SM unit :=
  save_simple_key ;;;
  lift (set_ska true) ;;;
  let* start := zmark in
  lift skip_non_blank ;;;
  unroll_non_block_indents ;;;
  let* indent := gets z_indent in
  let* tok := lift (scan_block_scalar_body fuel literal indent start) in
  push_token (k_span tok) (k_type tok).
(** [scanner.rs:757-770] [fetch_flow_scalar]. *)
Definition fetch_flow_scalar (fuel : nat) (single : bool) : SM unit :=
  save_simple_key ;;;
  lift (set_ska false) ;;;
  let* indent := gets z_indent in
  let* flow := gets z_flow in
  let* tok := lift (scan_flow_scalar fuel single indent (0 <? flow)%N) in
  zskip_to_next_token fuel ;;;
  modify (fun z => set_adjacent (m_pos (c_mark (z_cur z))) z) ;;;
  push_token (k_span tok) (k_type tok).

(** [scanner.rs:364-370] the error for a reserved indicator, with the character read by
    [peek_char]. *)
Definition unexpected_character : SM unit := fun z =>
  match str_peek_char (c_src (z_cur z)) with
  | Ok c =>
      (z, Err (ScannerErr (c_mark (z_cur z))
                 ("Unexpected character `" ++ String (Ascii.ascii_of_N c) "`")))
  | Err e => (z, Err e)
  | Panic => (z, Panic)
  | Ub => (z, Ub)
  | Fuel => (z, Fuel)
  end.
(** [scanner.rs:334-373] [fetch_main_loop]. *)
Definition fetch_main_loop (fuel : nat) : SM unit :=
  let* c := zpeek 0 in
  let* x := zpeek 1 in
  let* flow := gets z_flow in
  let* m := zmark in
  let* adj := gets z_adjacent in
  (if c =? 91 then fetch_flow_collection_start fuel false
   else if c =? 123 then fetch_flow_collection_start fuel true
   else if c =? 93 then fetch_flow_collection_end fuel false
   else if c =? 125 then fetch_flow_collection_end fuel true
   else if c =? 44 then fetch_flow_entry fuel
   else if (c =? 45) && is_blank_or_breakz x then fetch_block_entry fuel
   else if (c =? 63) && is_blank_or_breakz x then fetch_key fuel
   else if (c =? 58) && is_blank_or_breakz x then fetch_value fuel
   else if (c =? 58) && ((0 <? flow) && (is_flow x || (m_pos m =? adj))) then fetch_flow_value fuel
   else if c =? 42 then fetch_anchor fuel true
   else if c =? 38 then fetch_anchor fuel false
   else if c =? 33 then fetch_tag fuel
   else if (c =? 124) && (flow =? 0) then fetch_block_scalar fuel true
   else if (c =? 62) && (flow =? 0) then fetch_block_scalar fuel false
   else if c =? 39 then fetch_flow_scalar fuel true
   else if c =? 34 then fetch_flow_scalar fuel false
   else if (c =? 45) && negb (is_blank_or_break x) then fetch_plain_scalar fuel
   else if ((c =? 58) || (c =? 63)) && (negb (is_blank_or_break x) && (flow =? 0)) then
     fetch_plain_scalar fuel
   else if (c =? 37) || (c =? 64) || (c =? 96) then unexpected_character
   else fetch_plain_scalar fuel)%N.

(** [scanner.rs:225-235] [process_start], with the predicates of 237-247; [None] says that nothing
    was recognised. *)
Definition process_start (fuel : nat) (z : scanner) : option (scanner * out unit) :=
  let s := c_src (z_cur z) in
  if (peekz str_ops s 0 =? 37)%N then Some (fetch_directive fuel z)
  else if next_is_three str_ops s 45 && is_blank_or_breakz (peekz str_ops s 3) then
    Some (fetch_document_indicator TDocumentStart z)
  else if next_is_three str_ops s 46 && is_blank_or_breakz (peekz str_ops s 3) then
    Some (finish_document fuel z)
  else None.

(** [scanner.rs:263-276] the end of [fetch_next_token]. *)
Definition fetch_next_content (fuel : nat) : SM unit := fun z =>
  let m := c_mark (z_cur z) in
  let rest :=
    if (m_col m <? z_indent z)%N then zerr m "invalid indentation" z else fetch_main_loop fuel z in
  if str_buf_is_empty (c_src (z_cur z)) then fetch_stream_end z
  else if (m_col m =? 1)%N then
    match process_start fuel z with Some r => r | None => rest end
  else rest.
(** [scanner.rs:249-277] [fetch_next_token]. *)
Definition fetch_next_token (fuel : nat) : SM unit :=
  let* started := gets z_started in
  if negb started then fetch_stream_start
  else
    zskip_to_next_token fuel ;;;
    stale_simple_keys ;;;
    let* mark := zmark in
    unroll_indent (m_col mark) ;;;
    fetch_next_content fuel.

(** [scanner.rs:207-212] whether a simple key may still turn out to start at the next token. *)
Definition key_pending (z : scanner) : bool :=
  existsb (fun k => sk_possible k && Nat.eqb (sk_number k) (z_parsed z)) (z_keys z).
(** [scanner.rs:198-223] [fetch_more_tokens]; [n] bounds the iterations. *)
Fixpoint fetch_more_tokens (n fuel : nat) : SM unit :=
  match n with
  | O => zout_of_fuel
  | S n =>
      let* toks := gets z_tokens in
      let* need :=
        match toks with
        | [] => ret true
        | _ => stale_simple_keys ;;; gets key_pending
        end in
      if need then fetch_next_token fuel ;;; fetch_more_tokens n fuel
      else modify (set_available true)
  end.

(** [matches!(tok, StreamEnd)] (scanner.rs:174, 186-192). *)
Definition is_stream_end (t : token) : bool :=
  match k_type t with TStreamEnd => true | _ => false end.
(** [scanner.rs:157-196] [next_token]. *)
Definition next_token (fuel : nat) : SM token :=
  let* produced := gets z_end_produced in
  if produced then ret (Token (span_empty (Marker 0 0 0)) TStreamEnd)
  else
    let* available := gets z_available in
    (if negb available then fetch_more_tokens fuel fuel else ret tt) ;;;
    fun z =>
      match z_tokens z with
      | [] => (z, Err UnexpectedEof)
      | t :: r =>
          let z := if is_stream_end t then set_end_reached true (set_tokens r z) else set_tokens r z in
          let z := set_parsed (z_parsed z + 1) (set_available false z) in
          (if is_stream_end t then set_end_produced true z else z, Ok t)
      end.
(** [scanner.rs:2227-2238] [Iterator::next]: [Ok None] is the end of the iteration. *)
Definition next (fuel : nat) : SM (option token) := fun z =>
  match z_error z with
  | Some _ => (z, Ok None)
  | None =>
      if z_end_reached z then (z, Ok None)
      else match next_token fuel z with
           | (z, Ok t) => (z, Ok (Some t))
           | (z, Err e) => (set_error (Some e) z, Ok None)
           | (z, Panic) => (z, Panic)
           | (z, Ub) => (z, Ub)
           | (z, Fuel) => (z, Fuel)
           end
  end.
(** The tokens delivered by repeated calls of [next] (scanner.rs:2227-2238) until it answers [None],
    with the final state; the outcome is [Ok tt] then, and otherwise says what stopped a call; [n]
    bounds the number of calls. *)
Fixpoint scan_run (n fuel : nat) (z : scanner) : list token * (scanner * out unit) :=
  match n with
  | O => ([], (z, Fuel))
  | S n =>
      match next fuel z with
      | (z, Ok None) => ([], (z, Ok tt))
      | (z, Ok (Some t)) => let (l, r) := scan_run n fuel z in (t :: l, r)
      | (z, Err e) => ([], (z, Err e))
      | (z, Panic) => ([], (z, Panic))
      | (z, Ub) => ([], (z, Ub))
      | (z, Fuel) => ([], (z, Fuel))
      end
  end.
(** The whole scan of a text: [Scanner::new(StrSource::new(input))] (scanner.rs:117, source.rs:257)
    and all calls of [next]. *)
Definition scan (fuel : nat) (input : text) : list token * (scanner * out unit) :=
  scan_run fuel fuel (scanner_new input).
