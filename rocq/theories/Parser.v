(** Model of [yam-core/src/parsing/parser.rs]: the event state machine.

    The scanner is represented by what the parser can observe of it: the list of tokens it will
    still deliver, and the error [scan_next_token] returns once the scanner delivers nothing more
    (parser.rs:569-578: a stored scanner error, or "unexpected eof").  The code under the
    non-default feature [comment] is not modelled. *)
From Verif Require Import Base Tokens.
From Coq Require Import String.
Local Open Scope m_scope.
Local Open Scope string_scope.

(** [parser.rs:102-127] [State]. *)
Inductive pst :=
| StStreamStart | StImplicitDocumentStart | StDocumentStart | StDocumentContent | StDocumentEnd
| StBlockNode | StBlockSequenceFirstEntry | StBlockSequenceEntry | StIndentlessSequenceEntry
| StBlockMappingFirstKey | StBlockMappingKey | StBlockMappingValue
| StFlowSequenceFirstEntry | StFlowSequenceEntry | StFlowSequenceEntryMappingKey
| StFlowSequenceEntryMappingValue | StFlowSequenceEntryMappingEnd (m : marker)
| StFlowMappingFirstKey | StFlowMappingKey | StFlowMappingValue | StFlowMappingEmptyValue
| StEnd | StFlowMappingFirstKeyCont | StBlockMappingValueCont.

(** [parser.rs:256-287] [Parser]. [p_toks], [p_scan_err] and [p_mark] stand for [scanner]:
    tokens still to come, the error after them, and the marker reported by [scanner.mark]
    (used in the span of repeated [StreamEnd] events only; kept constant). *)
Record parser := Parser {
  p_toks : list token;
  p_scan_err : yerr;
  p_mark : marker;
  p_states : list pst;                 (* top of the stack first *)
  p_state : pst;
  p_token : option token;
  p_current : option (event * span);
  p_anchors : list (text * nat);
  p_anchor_id_count : nat;
  p_tags : list (text * text);
  p_stream_end_emitted : bool;
  p_keep_tags : bool }.

(** Assignment to a field of [Parser] (parser.rs:256-287). *)
Definition set_toks v p := Parser v (p_scan_err p) (p_mark p) (p_states p) (p_state p) (p_token p)
  (p_current p) (p_anchors p) (p_anchor_id_count p) (p_tags p) (p_stream_end_emitted p) (p_keep_tags p).
(** Assignment to a field of [Parser] (parser.rs:256-287). *)
Definition set_states v p := Parser (p_toks p) (p_scan_err p) (p_mark p) v (p_state p) (p_token p)
  (p_current p) (p_anchors p) (p_anchor_id_count p) (p_tags p) (p_stream_end_emitted p) (p_keep_tags p).
(** Assignment to a field of [Parser] (parser.rs:256-287). *)
Definition set_state v p := Parser (p_toks p) (p_scan_err p) (p_mark p) (p_states p) v (p_token p)
  (p_current p) (p_anchors p) (p_anchor_id_count p) (p_tags p) (p_stream_end_emitted p) (p_keep_tags p).
(** Assignment to a field of [Parser] (parser.rs:256-287). *)
Definition set_token v p := Parser (p_toks p) (p_scan_err p) (p_mark p) (p_states p) (p_state p) v
  (p_current p) (p_anchors p) (p_anchor_id_count p) (p_tags p) (p_stream_end_emitted p) (p_keep_tags p).
(** Assignment to a field of [Parser] (parser.rs:256-287). *)
Definition set_current v p := Parser (p_toks p) (p_scan_err p) (p_mark p) (p_states p) (p_state p)
  (p_token p) v (p_anchors p) (p_anchor_id_count p) (p_tags p) (p_stream_end_emitted p) (p_keep_tags p).
(** Assignment to a field of [Parser] (parser.rs:256-287). *)
Definition set_anchors v n p := Parser (p_toks p) (p_scan_err p) (p_mark p) (p_states p) (p_state p)
  (p_token p) (p_current p) v n (p_tags p) (p_stream_end_emitted p) (p_keep_tags p).
(** Assignment to a field of [Parser] (parser.rs:256-287). *)
Definition set_tags v p := Parser (p_toks p) (p_scan_err p) (p_mark p) (p_states p) (p_state p)
  (p_token p) (p_current p) (p_anchors p) (p_anchor_id_count p) v (p_stream_end_emitted p) (p_keep_tags p).
(** Assignment to a field of [Parser] (parser.rs:256-287). *)
Definition set_end_emitted v p := Parser (p_toks p) (p_scan_err p) (p_mark p) (p_states p) (p_state p)
  (p_token p) (p_current p) (p_anchors p) (p_anchor_id_count p) (p_tags p) v (p_keep_tags p).

(** [parser.rs:410-425] [Parser::new], and [parser.rs:450-453] [keep_tags]. *)
Definition new_parser (toks : list token) (e : yerr) (mk : marker) (keep : bool) : parser :=
  Parser toks e mk [] StStreamStart None None [] 1 [] false keep.

(** A method of [Parser] taking [&mut self] (parser.rs:400-1646). *)
Definition PM := M parser.

(** [parser.rs:569-578] [scan_next_token]. *)
Definition scan_next_token : PM token := fun p =>
  match p_toks p with
  | [] => (p, Err (p_scan_err p))
  | t :: r => (set_toks r p, Ok t)
  end.

(** [parser.rs:544-552] [peek_token]. *)
Definition peek_token : PM token := fun p =>
  match p_token p with
  | Some t => (p, Ok t)
  | None => (let* t := scan_next_token in
             modify (set_token (Some t)) ;;; ret t) p
  end.

(** [parser.rs:580-587] [fetch_token]: [expect] panics when no token is cached. *)
Definition fetch_token : PM token := fun p =>
  match p_token p with
  | Some t => (set_token None p, Ok t)
  | None => (p, Panic)
  end.

(** [parser.rs:590-592] [skip]. *)
Definition skip : PM unit := modify (set_token None).
(** [parser.rs:594-596] [pop_state]: [unwrap] panics on an empty stack. *)
Definition pop_state : PM unit := fun p =>
  match p_states p with
  | [] => (p, Panic)
  | s :: r => (set_states r (set_state s p), Ok tt)
  end.
(** [parser.rs:598-600] [push_state]. *)
Definition push_state (s : pst) : PM unit := modify (fun p => set_states (s :: p_states p) p).
(** Assignment [self.state = ...]. *)
Definition goto (s : pst) : PM unit := modify (set_state s).
(** [YamlError::new_str(mark, msg)]. *)
Definition perr {A} (s : span) (msg : string) : PM A := fail (ScannerErr (s_start s) msg).

(** [parser.rs:1001-1011] [register_anchor]. *)
Definition register_anchor (name : text) : PM nat := fun p =>
  let new_id := p_anchor_id_count p in
  (set_anchors (map_insert name new_id (p_anchors p)) (S new_id) p, Ok new_id).

(** Last byte of a text ([str::ends_with(char)] for an ASCII char). *)
Definition ends_with (c : N) (t : text) : bool :=
  match rev t with x :: _ => N.eqb x c | [] => false end.
(** First byte of a text ([str::starts_with(char)] for an ASCII char). *)
Definition starts_with (c : N) (t : text) : bool :=
  match t with x :: _ => N.eqb x c | [] => false end.

(** [parser.rs:1593-1644] [resolve_tag], as a function of the tag table. *)
Definition resolve_tag_in (tags : list (text * text)) (sp : span) (handle suffix : text) : out tag :=
  if text_eqb handle (str "!!") then
    Ok (Tag (match map_get (str "!!") tags with
             | Some prefix => prefix
             | None => str "tag:yaml.org,2002:"
             end) suffix)
  else if text_eqb handle [] && text_eqb suffix (str "!") then
    match map_get [] tags with
    | Some prefix => Ok (Tag prefix suffix)
    | None => Ok (Tag [] suffix)
    end
  else
    match map_get handle tags with
    | Some prefix => Ok (Tag prefix suffix)
    | None =>
        if Nat.leb 2 (List.length handle) && starts_with 33 handle && ends_with 33 handle then
          Err (ScannerErr (s_start sp) "the handle wasn't declared")
        else Ok (Tag handle suffix)
    end.
(** [parser.rs:1593-1644] [resolve_tag] as a method. *)
Definition resolve_tag (sp : span) (handle suffix : text) : PM tag :=
  fun p => (p, resolve_tag_in (p_tags p) sp handle suffix).

(** [parser.rs:1018-1084] first half of [parse_node] for a node that is not an alias: the
    properties (anchor id and tag) in front of the content. *)
Definition parse_properties : PM (nat * option tag) :=
  let* tk := peek_token in
  match k_type tk with
  | TAnchor _ =>
      let* tk := fetch_token in
      match k_type tk with
      | TAnchor name =>
          let* anchor_id := register_anchor name in
          let* tk2 := peek_token in
          match k_type tk2 with
          | TTag _ _ =>
              let* tk2 := fetch_token in
              match k_type tk2 with
              | TTag handle suffix =>
                  let* t := resolve_tag (k_span tk) handle suffix in
                  ret (anchor_id, Some t)
              | _ => panic
              end
          | _ => ret (anchor_id, None)
          end
      | _ => panic
      end
  | TTag _ _ =>
      let* tk := fetch_token in
      match k_type tk with
      | TTag handle suffix =>
          let* t := resolve_tag (k_span tk) handle suffix in
          let* tk2 := peek_token in
          match k_type tk2 with
          | TAnchor _ =>
              let* tk2 := fetch_token in
              match k_type tk2 with
              | TAnchor name =>
                  let* anchor_id := register_anchor name in
                  ret (anchor_id, Some t)
              | _ => panic
              end
          | _ => ret (0, Some t)
          end
      | _ => panic
      end
  | _ => ret (0, None)
  end.

(** [Option::is_some] (used in parser.rs:1150, 899). *)
Definition is_some {A} (o : option A) : bool := match o with Some _ => true | None => false end.

(** [parser.rs:1085-1161] second half of [parse_node]: the content. *)
Definition parse_content (block indentless_sequence : bool) (anchor_id : nat) (t : option tag)
  : PM (event * span) :=
  let* tk := peek_token in
  let sp := k_span tk in
  let otherwise :=
    if is_some t || Nat.ltb 0 anchor_id then
      pop_state ;;; ret (EScalar (empty_scalar_with_anchor anchor_id t), sp)
    else perr sp "while parsing a node, did not find expected node content" in
  match k_type tk with
  | TBlockEntry =>
      if indentless_sequence then
        goto StIndentlessSequenceEntry ;;; ret (ESequenceStart anchor_id t, sp)
      else otherwise
  | TScalar _ _ =>
      pop_state ;;;
      let* tk := fetch_token in
      match k_type tk with
      | TScalar st value => ret (EScalar (ScalarValue value st anchor_id t), k_span tk)
      | _ => panic
      end
  | TFlowSequenceStart => goto StFlowSequenceFirstEntry ;;; ret (ESequenceStart anchor_id t, sp)
  | TFlowMappingStart => goto StFlowMappingFirstKey ;;; ret (EMappingStart anchor_id t, sp)
  | TBlockSequenceStart =>
      if block then goto StBlockSequenceFirstEntry ;;; ret (ESequenceStart anchor_id t, sp)
      else otherwise
  | TBlockMappingStart =>
      if block then goto StBlockMappingFirstKey ;;; ret (EMappingStart anchor_id t, sp)
      else otherwise
  | _ => otherwise
  end.

(** [parser.rs:1014-1162] [parse_node]. *)
Definition parse_node (block indentless_sequence : bool) : PM (event * span) :=
  let* tk := peek_token in
  match k_type tk with
  | TAlias _ =>
      pop_state ;;;
      let* tk := fetch_token in
      match k_type tk with
      | TAlias name =>
          let* o := gets (fun p => map_get name (p_anchors p)) in
          match o with
          | None => perr (k_span tk) "while parsing node, found unknown anchor"
          | Some id => ret (EAlias id, k_span tk)
          end
      | _ => panic
      end
  | _ =>
      let* (anchor_id, t) := parse_properties in
      parse_content block indentless_sequence anchor_id t
  end.

(** [parser.rs:795-813] [stream_start]. *)
Definition stream_start : PM (event * span) :=
  let* tk := peek_token in
  match k_type tk with
  | TStreamStart =>
      goto StImplicitDocumentStart ;;; skip ;;; ret (EStreamStart, k_span tk)
  | _ => perr (k_span tk) "did not find expected <stream-start>"
  end.

(** [parser.rs:876-916] the loop of [parser_process_directives]: note that [tags] is a fresh
    table in every iteration and replaces [self.tags]. One unit of fuel per directive. *)
Fixpoint process_directives_loop (fuel : nat) (version_received : bool) : PM unit :=
  match fuel with
  | O => fun p => (p, Fuel)
  | S fuel =>
      let* tk := peek_token in
      match k_type tk with
      | TVersionDirective _ _ =>
          if version_received then perr (k_span tk) "duplicate version directive"
          else modify (set_tags []) ;;; skip ;;; process_directives_loop fuel true
      | TTagDirective handle prefix =>
          if is_some (map_get handle ([] : list (text * text))) then
            perr (k_span tk) "the TAG directive must only be given at most once per handle in the same document"
          else modify (set_tags (map_insert handle prefix [])) ;;; skip ;;;
               process_directives_loop fuel version_received
      | _ => ret tt
      end
  end.
(** [parser.rs:860-916] [parser_process_directives]; the fuel covers every remaining token. *)
Definition process_directives : PM unit :=
  fun p => process_directives_loop (S (S (List.length (p_toks p)))) false p.

(** [parser.rs:918-938] [explicit_document_start]. *)
Definition explicit_document_start : PM (event * span) :=
  process_directives ;;;
  let* tk := peek_token in
  match k_type tk with
  | TDocumentStart =>
      push_state StDocumentEnd ;;; goto StDocumentContent ;;; skip ;;;
      ret (EDocumentStart true, k_span tk)
  | _ => perr (k_span tk) "did not find expected <document start>"
  end.

(** [parser.rs:819-821] the loop skipping [DocumentEnd] tokens. *)
Fixpoint skip_document_ends (fuel : nat) : PM unit :=
  match fuel with
  | O => fun p => (p, Fuel)
  | S fuel =>
      let* tk := peek_token in
      match k_type tk with
      | TDocumentEnd => skip ;;; skip_document_ends fuel
      | _ => ret tt
      end
  end.

(** [parser.rs:815-858] [document_start]. *)
Definition document_start (implicit : bool) : PM (event * span) :=
  (fun p => skip_document_ends (S (S (List.length (p_toks p)))) p) ;;;
  let* tk := peek_token in
  match k_type tk with
  | TStreamEnd => goto StEnd ;;; skip ;;; ret (EStreamEnd, k_span tk)
  | TVersionDirective _ _ | TTagDirective _ _ | TDocumentStart => explicit_document_start
  | _ =>
      if implicit then
        process_directives ;;; push_state StDocumentEnd ;;; goto StBlockNode ;;;
        ret (EDocumentStart false, k_span tk)
      else explicit_document_start
  end.

(** [parser.rs:940-960] [document_content]. *)
Definition document_content : PM (event * span) :=
  let* tk := peek_token in
  match k_type tk with
  | TVersionDirective _ _ | TTagDirective _ _ | TDocumentStart | TDocumentEnd | TStreamEnd =>
      pop_state ;;; ret (ev_empty_scalar, k_span tk)
  | _ => parse_node true false
  end.

(** [parser.rs:962-999] [document_end]. *)
Definition document_end : PM (event * span) :=
  let* tk := peek_token in
  let explicit_end := match k_type tk with TDocumentEnd => true | _ => false end in
  (if explicit_end then skip else ret tt) ;;;
  modify (fun p => if p_keep_tags p then p else set_tags [] p) ;;;
  if explicit_end then
    goto StImplicitDocumentStart ;;; ret (EDocumentEnd, k_span tk)
  else
    let* tk2 := peek_token in
    match k_type tk2 with
    | TVersionDirective _ _ | TTagDirective _ _ =>
        perr (k_span tk2) "missing explicit document end marker before directive"
    | _ => goto StDocumentStart ;;; ret (EDocumentEnd, k_span tk)
    end.

(** [parser.rs:1164-1230] [block_mapping_key]. *)
Definition block_mapping_key (first : bool) : PM (event * span) :=
  (if first then peek_token ;;; skip else ret tt) ;;;
  let* tk := peek_token in
  match k_type tk with
  | TKey =>
      skip ;;;
      let* tk2 := peek_token in
      match k_type tk2 with
      | TKey | TValue | TBlockEnd =>
          goto StBlockMappingValue ;;; ret (ev_empty_scalar, k_span tk2)
      | _ => push_state StBlockMappingValue ;;; parse_node true true
      end
  | TValue => goto StBlockMappingValue ;;; ret (ev_empty_scalar, k_span tk)
  | TBlockEnd => pop_state ;;; skip ;;; ret (EMappingEnd, k_span tk)
  | _ => perr (k_span tk) "while parsing a block mapping, did not find expected key"
  end.

(** [parser.rs:1232-1271] [block_mapping_value]. *)
Definition block_mapping_value (first : bool) : PM (event * span) :=
  let* tk := peek_token in
  let is_value := match k_type tk with TValue => true | _ => false end in
  (if is_value then skip else ret tt) ;;;
  if negb first || is_value then
    let* tk2 := peek_token in
    match k_type tk2 with
    | TKey | TValue | TBlockEnd => goto StBlockMappingKey ;;; ret (ev_empty_scalar, k_span tk2)
    | _ => push_state StBlockMappingKey ;;; parse_node true true
    end
  else
    goto StBlockMappingKey ;;;
    let* tk2 := peek_token in
    ret (ev_empty_scalar, k_span tk2).

(** [parser.rs:1648-1664] [KeyFlow]. *)
Inductive key_flow := FirstKey | FirstKeyContinue | NonFirstKey.
(** [parser.rs:1648-1664] methods of [KeyFlow]. *)
Definition kf_is_first (k : key_flow) : bool := match k with FirstKey => true | _ => false end.
(** [parser.rs:1648-1664] methods of [KeyFlow]. *)
Definition kf_is_non_first (k : key_flow) : bool := match k with NonFirstKey => true | _ => false end.
(** [parser.rs:1648-1664] methods of [KeyFlow]. *)
Definition kf_is_cont (k : key_flow) : bool := match k with FirstKeyContinue => true | _ => false end.

(** [parser.rs:1352-1354] the end of [flow_mapping_key]. *)
Definition flow_mapping_close (sp : span) : PM (event * span) :=
  pop_state ;;; skip ;;; ret (EMappingEnd, sp).

(** [parser.rs:1273-1355] [flow_mapping_key]. *)
Definition flow_mapping_key (kf : key_flow) : PM (event * span) :=
  (if kf_is_first kf then peek_token ;;; skip else ret tt) ;;;
  let* tk := peek_token in
  match k_type tk with
  | TFlowMappingEnd => flow_mapping_close (k_span tk)
  | _ =>
      (if kf_is_non_first kf then
         let* tk := peek_token in
         match k_type tk with
         | TFlowEntry => skip
         | _ => perr (k_span tk) "while parsing a flow mapping, did not find expected ',' or '}'"
         end
       else ret tt) ;;;
      let* is_key := (if kf_is_cont kf then ret true
                      else let* tk2 := peek_token in
                           ret (match k_type tk2 with TKey => true | _ => false end)) in
      if is_key then
        (if kf_is_cont kf then ret tt else skip) ;;;
        let* tk3 := peek_token in
        match k_type tk3 with
        | TValue | TFlowEntry | TFlowMappingEnd =>
            goto StFlowMappingValue ;;; ret (ev_empty_scalar, k_span tk3)
        | _ => push_state StFlowMappingValue ;;; parse_node false false
        end
      else
        let* tk3 := peek_token in
        match k_type tk3 with
        | TValue => goto StFlowMappingValue ;;; ret (ev_empty_scalar, k_span tk3)
        | TFlowMappingEnd => flow_mapping_close (k_span tk)
        | _ => push_state StFlowMappingEmptyValue ;;; parse_node false false
        end
  end.

(** [parser.rs:1357-1388] [flow_mapping_value]. *)
Definition flow_mapping_value (empty : bool) : PM (event * span) :=
  let* tk := peek_token in
  if empty then goto StFlowMappingKey ;;; ret (ev_empty_scalar, k_span tk)
  else
    match k_type tk with
    | TValue =>
        skip ;;;
        let* tk2 := peek_token in
        match k_type tk2 with
        | TFlowEntry | TFlowMappingEnd => goto StFlowMappingKey ;;; ret (ev_empty_scalar, k_span tk)
        | _ => push_state StFlowMappingKey ;;; parse_node false false
        end
    | _ => goto StFlowMappingKey ;;; ret (ev_empty_scalar, k_span tk)
    end.

(** [parser.rs:1390-1445] [flow_sequence_entry]. *)
Definition flow_sequence_entry (first : bool) : PM (event * span) :=
  (if first then peek_token ;;; skip else ret tt) ;;;
  let* tk := peek_token in
  let next :=
    let* tk2 := peek_token in
    match k_type tk2 with
    | TFlowSequenceEnd => pop_state ;;; skip ;;; ret (ESequenceEnd, k_span tk2)
    | TKey => goto StFlowSequenceEntryMappingKey ;;; skip ;;; ret (EMappingStart 0 None, k_span tk2)
    | _ => push_state StFlowSequenceEntry ;;; parse_node false false
    end in
  match k_type tk with
  | TFlowSequenceEnd => pop_state ;;; skip ;;; ret (ESequenceEnd, k_span tk)
  | TFlowEntry => if first then next else skip ;;; next
  | _ => if first then next
         else perr (k_span tk) "while parsing a flow sequence, expected ',' or ']'"
  end.

(** [parser.rs:1447-1475] [indentless_sequence_entry]. *)
Definition indentless_sequence_entry : PM (event * span) :=
  let* tk := peek_token in
  match k_type tk with
  | TBlockEntry =>
      skip ;;;
      let* tk2 := peek_token in
      match k_type tk2 with
      | TBlockEntry | TKey | TValue | TBlockEnd =>
          goto StIndentlessSequenceEntry ;;; ret (ev_empty_scalar, k_span tk)
      | _ => push_state StIndentlessSequenceEntry ;;; parse_node true false
      end
  | _ => pop_state ;;; ret (ESequenceEnd, k_span tk)
  end.

(** [parser.rs:1477-1530] [block_sequence_entry]. *)
Definition block_sequence_entry (first : bool) : PM (event * span) :=
  (if first then peek_token ;;; skip else ret tt) ;;;
  let* tk := peek_token in
  match k_type tk with
  | TBlockEnd => pop_state ;;; skip ;;; ret (ESequenceEnd, k_span tk)
  | TBlockEntry =>
      skip ;;;
      let* tk2 := peek_token in
      match k_type tk2 with
      | TBlockEntry | TBlockEnd => goto StBlockSequenceEntry ;;; ret (ev_empty_scalar, k_span tk2)
      | _ => push_state StBlockSequenceEntry ;;; parse_node true false
      end
  | _ => perr (k_span tk) "while parsing a block collection, did not find expected '-' indicator"
  end.

(** [parser.rs:1532-1548] [flow_sequence_entry_mapping_key]. *)
Definition flow_sequence_entry_mapping_key : PM (event * span) :=
  let* tk := peek_token in
  match k_type tk with
  | TValue | TFlowEntry | TFlowSequenceEnd =>
      skip ;;; goto StFlowSequenceEntryMappingValue ;;; ret (ev_empty_scalar, k_span tk)
  | _ => push_state StFlowSequenceEntryMappingValue ;;; parse_node false false
  end.

(** [parser.rs:1550-1581] [flow_sequence_entry_mapping_value]. *)
Definition flow_sequence_entry_mapping_value : PM (event * span) :=
  let* tk := peek_token in
  match k_type tk with
  | TValue =>
      skip ;;; goto StFlowSequenceEntryMappingValue ;;;
      let* tk2 := peek_token in
      let sp := k_span tk2 in
      match k_type tk2 with
      | TFlowEntry | TFlowSequenceEnd =>
          goto (StFlowSequenceEntryMappingEnd (s_end sp)) ;;; ret (ev_empty_scalar, sp)
      | _ => push_state (StFlowSequenceEntryMappingEnd (s_end sp)) ;;; parse_node false false
      end
  | _ => goto (StFlowSequenceEntryMappingEnd (s_end (k_span tk))) ;;; ret (ev_empty_scalar, k_span tk)
  end.

(** [parser.rs:1584-1590] [flow_sequence_entry_mapping_end]. *)
Definition flow_sequence_entry_mapping_end (m : marker) : PM (event * span) :=
  goto StFlowSequenceEntry ;;; ret (EMappingEnd, span_empty m).

(** [parser.rs:750-793] [state_machine]. *)
Definition state_machine : PM (event * span) := fun p =>
  match p_state p with
  | StStreamStart => stream_start p
  | StImplicitDocumentStart => document_start true p
  | StDocumentStart => document_start false p
  | StDocumentContent => document_content p
  | StDocumentEnd => document_end p
  | StBlockNode => parse_node true false p
  | StBlockMappingFirstKey => block_mapping_key true p
  | StBlockMappingKey => block_mapping_key false p
  | StBlockMappingValue => block_mapping_value true p
  | StBlockMappingValueCont => block_mapping_value false p
  | StBlockSequenceFirstEntry => block_sequence_entry true p
  | StBlockSequenceEntry => block_sequence_entry false p
  | StFlowSequenceFirstEntry => flow_sequence_entry true p
  | StFlowSequenceEntry => flow_sequence_entry false p
  | StFlowMappingFirstKey => flow_mapping_key FirstKey p
  | StFlowMappingFirstKeyCont => flow_mapping_key FirstKeyContinue p
  | StFlowMappingKey => flow_mapping_key NonFirstKey p
  | StFlowMappingValue => flow_mapping_value false p
  | StIndentlessSequenceEntry => indentless_sequence_entry p
  | StFlowSequenceEntryMappingKey => flow_sequence_entry_mapping_key p
  | StFlowSequenceEntryMappingValue => flow_sequence_entry_mapping_value p
  | StFlowSequenceEntryMappingEnd m => flow_sequence_entry_mapping_end m p
  | StFlowMappingEmptyValue => flow_mapping_value true p
  | StEnd => (p, Panic)
  end.

(** [parser.rs:602-611] [parse]. *)
Definition parse : PM (event * span) := fun p =>
  match p_state p with
  | StEnd => (p, Ok (EStreamEnd, span_empty (p_mark p)))
  | _ => state_machine p
  end.

(** [parser.rs:519-527] [next_event_impl]. *)
Definition next_event_impl : PM (event * span) := fun p =>
  match p_current p with
  | Some v => (set_current None p, Ok v)
  | None => parse p
  end.

(** What [peek]/[next_event] return: [None] is the end of the iteration. *)
Definition answer := option (out (event * span)).

(** [parser.rs:462-475] [peek]. *)
Definition peek (p : parser) : parser * answer :=
  match p_current p with
  | Some v => (p, Some (Ok v))
  | None =>
      if p_stream_end_emitted p then (p, None)
      else match next_event_impl p with
           | (p', Ok v) => (set_current (Some v) p', Some (Ok v))
           | (p', o) => (p', Some o)
           end
  end.

(** [parser.rs:481-491] [next_event] (also [Iterator::next], parser.rs:1669-1671). *)
Definition next_event (p : parser) : parser * answer :=
  if p_stream_end_emitted p then (p, None)
  else match next_event_impl p with
       | (p', Ok (EStreamEnd, sp)) => (set_end_emitted true p', Some (Ok (EStreamEnd, sp)))
       | (p', o) => (p', Some o)
       end.

(** [parser.rs:507-509] [get_anchor]: name of the anchor with the given id, if any. *)
Definition get_anchor (p : parser) (id : nat) : option text :=
  match find (fun x => Nat.eqb (snd x) id) (p_anchors p) with
  | Some (name, _) => Some name
  | None => None
  end.

(** ** [load] (parser.rs:625-748). The receiver is represented by the list of events it was sent,
    oldest first. Recursion over collections is bounded by fuel. *)
(** The receiver (parser.rs:290-330): the events it was sent, oldest first. *)
Definition recv := list (event * span).

(** [recv.on_event(ev, span)]. When loading fails the events already sent are dropped from the
    model (the crate's receivers are discarded in that case). *)
Definition on_event (e : event * span) (r : recv) : recv := (r ++ [e])%list.

(** [parser.rs:686-748] [load_node], [load_mapping], [load_sequence]; [lmode] says which of the
    three loops is running. *)
Inductive lmode := LNode (e : event * span) | LMapping | LSequence.
Fixpoint load_node_f (fuel : nat) (m : lmode) (r : recv) : PM recv :=
  match fuel with
  | O => fun p => (p, Fuel)
  | S fuel =>
      match m with
      | LNode e =>
          match fst e with
          | EAlias _ | EScalar _ => ret (on_event e r)
          | ESequenceStart _ _ => load_node_f fuel LSequence (on_event e r)
          | EMappingStart _ _ => load_node_f fuel LMapping (on_event e r)
          | _ => panic
          end
      | LMapping =>
          let* e := next_event_impl in
          match fst e with
          | EMappingEnd => ret (on_event e r)
          | _ =>
              let* r := load_node_f fuel (LNode e) r in
              let* e2 := next_event_impl in
              let* r := load_node_f fuel (LNode e2) r in
              load_node_f fuel LMapping r
          end
      | LSequence =>
          let* e := next_event_impl in
          match fst e with
          | ESequenceEnd => ret (on_event e r)
          | _ =>
              let* r := load_node_f fuel (LNode e) r in
              load_node_f fuel LSequence r
          end
      end
  end.

(** [parser.rs:661-684] [load_document]. *)
Definition load_document (fuel : nat) (first : event * span) (r : recv) : PM recv :=
  match fst first with
  | EDocumentStart _ =>
      let r := on_event first r in
      let* e := next_event_impl in
      let* r := load_node_f fuel (LNode e) r in
      let* e2 := next_event_impl in
      match fst e2 with
      | EDocumentEnd => ret (on_event e2 r)
      | _ => panic                                  (* assert_eq!, parser.rs:680 *)
      end
  | _ => perr (snd first) "did not find expected <document-start>"
  end.

(** [parser.rs:645-657] the document loop of [load]. *)
Fixpoint load_docs (fuel : nat) (multi : bool) (r : recv) : PM recv :=
  match fuel with
  | O => fun p => (p, Fuel)
  | S fuel' =>
      let* e := next_event_impl in
      match fst e with
      | EStreamEnd => ret (on_event e r)
      | _ =>
          modify (fun p => set_anchors [] (p_anchor_id_count p) p) ;;;
          let* r := load_document fuel e r in
          if multi then load_docs fuel' multi r else ret r
      end
  end.

(** [parser.rs:625-659] [load] on a parser that has not been used yet: the scanner has produced
    neither its stream-start nor its stream-end token, so the tests of parser.rs:629 and 640
    take the first and the last branch. All crate-internal callers are in this case. *)
Definition load (fuel : nat) (multi : bool) : PM recv :=
  let* e := next_event_impl in
  match fst e with
  | EStreamStart => load_docs fuel multi (on_event e [])
  | _ => perr (snd e) "did not find expected <stream-start>"
  end.
