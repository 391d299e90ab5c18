(** Model of [yam-core/src/parsing/scanner.rs], first part: the methods of [Scanner] that read the
    text and move the marker, over the string source.

    These methods only touch four fields of [Scanner]: [src], [mark], [leading_whitespace] and
    [simple_key_allowed].  They are modelled on a record with just these fields, and the other
    fields they read ([indent], [flow_level], whether [indents] is empty) are passed as arguments.
    Loops take a fuel argument and answer [Fuel] when it is exhausted.  The counters of [Marker]
    ([u32]/[usize]) are unbounded.  Code under the feature [comment] is left out. *)
From Verif Require Import Base Tokens Scalar Chars Source.
From Coq Require Import String.
Local Open Scope m_scope.

(** [scanner.rs:89-114] the fields [src], [mark], [leading_whitespace] and [simple_key_allowed] of
    [Scanner]. *)
Record cursor := Cur { c_src : strsrc; c_mark : marker; c_lead : bool; c_ska : bool }.
(** A method of [Scanner] that uses these fields only (scanner.rs:89-114). *)
Definition CM := M cursor.

(** Assignment to [leading_whitespace] (scanner.rs:100). *)
Definition set_lead (b : bool) : CM unit := modify (fun c => Cur (c_src c) (c_mark c) b (c_ska c)).
(** Assignment to [simple_key_allowed] (scanner.rs:97). *)
Definition set_ska (b : bool) : CM unit := modify (fun c => Cur (c_src c) (c_mark c) (c_lead c) b).
(** Exhaustion of the recursion bound of the model (no counterpart in scanner.rs:1-2239). *)
Definition out_of_fuel {A} : CM A := fun c => (c, Fuel).
(** [YamlError::new_str(mark, msg)] returned as an error (scanner.rs:274 and elsewhere). *)
Definition err {A} (m : marker) (msg : string) : CM A := fail (ScannerErr m msg).
(** [self.mark] (scanner.rs:91). *)
Definition get_mark : CM marker := gets c_mark.
(** [self.src.peekz(n)] (source.rs:50-52). *)
Definition peek (n : nat) : CM N := gets (fun c => peekz str_ops (c_src c) n).
(** [self.src.peek_checked(n)] (source.rs:270-272). *)
Definition peek_checked (n : nat) : CM (option N) := gets (fun c => str_peek (c_src c) n).
(** [self.src.peek_checked(0).unwrap_or(b' ')] (scanner.rs:1001 and elsewhere). *)
Definition peek_or_space : CM N :=
  gets (fun c => match str_peek (c_src c) 0 with Some b => b | None => 32%N end).
(** [self.src.buf_is_empty()] (source.rs:282-284). *)
Definition buf_is_empty : CM bool := gets (fun c => str_buf_is_empty (c_src c)).

(** [mark.pos += n; mark.col += n] (scanner.rs:801-802 and elsewhere). *)
Definition mark_add (n : nat) (m : marker) : marker :=
  Marker (m_pos m + N.of_nat n) (m_col m + N.of_nat n) (m_line m).
(** [mark.pos += n; mark.col = 1; mark.line += 1] (scanner.rs:824-826, 831-833). *)
Definition mark_newline (n : nat) (m : marker) : marker :=
  Marker (m_pos m + N.of_nat n) 1 (m_line m + 1).

(** [scanner.rs:798-804] [skip_n_non_blank]. *)
Definition skip_n_non_blank (n : nat) : CM unit :=
  modify (fun c => Cur (str_skip n (c_src c)) (mark_add n (c_mark c)) false (c_ska c)).
(** [scanner.rs:848-854] [skip_non_blank]. *)
Definition skip_non_blank : CM unit := skip_n_non_blank 1.
(** [scanner.rs:841-846] [skip_blank]. *)
Definition skip_blank : CM unit :=
  modify (fun c => Cur (str_skip 1 (c_src c)) (mark_add 1 (c_mark c)) (c_lead c) (c_ska c)).
(** [scanner.rs:818-839] [skip_linebreak]: a carriage return alone is not skipped. *)
Definition skip_linebreak : CM unit :=
  modify (fun c =>
    let b := peekz str_ops (c_src c) 0 in
    let nb := peekz str_ops (c_src c) 1 in
    if (b =? 13)%N && (nb =? 10)%N then
      Cur (str_skip 2 (c_src c)) (mark_newline 2 (c_mark c)) true (c_ska c)
    else if (b =? 10)%N then
      Cur (str_skip 1 (c_src c)) (mark_newline 1 (c_mark c)) true (c_ska c)
    else c).
(** [scanner.rs:1734-1737] [read_break]: the text with the line feed appended. *)
Definition read_break (s : text) : CM text := skip_linebreak ;;; ret (s ++ [10%N]).

(** [scanner.rs:806-816] [skip_ws_to_eol]: whether tabs, and whether YAML white space was found. *)
Definition skip_ws_to_eol (fuel : nat) (tabs prev_ws : bool) : CM (bool * bool) := fun c =>
  match str_skip_ws_to_eol fuel (c_src c) tabs prev_ws with
  | None => (c, Fuel)
  | Some (s, (n, r)) =>
      let c' := Cur s (mark_add n (c_mark c)) (c_lead c) (c_ska c) in
      match r with
      | SkipOk any_tabs has_ws => (c', Ok (any_tabs, has_ws))
      | SkipErr msg => (c', Err (ScannerErr (c_mark c') msg))
      end
  end.

(** A loop of the source over bytes of a kind followed by adding their number to the marker:
    [let n = self.src.skip_while_non_breakz(); mark.pos += n; mark.col += n] (scanner.rs:600-602,
    893-895, 916-918), [skip_while_blank] (2081-2083, 2106-2108, 2114-2116) and
    [fetch_while_is_alpha] (1602-1604, 2056-2058).  The bytes passed over are returned. *)
Definition run_while (p : N -> bool) (fuel : nat) : CM text := fun c =>
  match take_while str_ops p fuel (c_src c) with
  | None => (c, Fuel)
  | Some (l, s) => (Cur s (mark_add (List.length l) (c_mark c)) (c_lead c) (c_ska c), Ok l)
  end.
(** [self.src.skip_while_non_breakz()] with the marker (scanner.rs:893-895). *)
Definition skip_line (fuel : nat) : CM text := run_while (fun c => negb (is_breakz c)) fuel.

(** [scanner.rs:861-901] [skip_to_next_token]; [in_block] is [is_within_block()]. *)
Fixpoint skip_to_next_token (fuel : nat) (in_block : bool) (indent flow_level : N) : CM unit :=
  match fuel with
  | O => out_of_fuel
  | S fuel =>
      let* c := peek 0 in
      let* lead := gets c_lead in
      let* m := get_mark in
      if (c =? 9)%N && in_block && lead && (m_col m <? indent)%N then
        skip_ws_to_eol fuel true false ;;;
        let* c' := peek 0 in
        let* m' := get_mark in
        if negb (is_breakz c') then
          err m' "tabs disallowed within this context (block indentation)"
        else skip_to_next_token fuel in_block indent flow_level
      else if (c =? 9)%N || (c =? 32)%N then
        skip_blank ;;; skip_to_next_token fuel in_block indent flow_level
      else if (c =? 10)%N || (c =? 13)%N then
        skip_linebreak ;;;
        (if (flow_level =? 0)%N then set_ska true else ret tt) ;;;
        skip_to_next_token fuel in_block indent flow_level
      else if (c =? 35)%N then
        skip_line fuel ;;; skip_to_next_token fuel in_block indent flow_level
      else ret tt
  end.

(** [scanner.rs:572-611] [skip_yaml_whitespace]: the loop; [need] is [need_whitespace]. *)
Fixpoint skip_yaml_whitespace_loop (fuel : nat) (flow_level : N) (need : bool) : CM bool :=
  match fuel with
  | O => out_of_fuel
  | S fuel =>
      let* c := peek 0 in
      if (c =? 32)%N then skip_blank ;;; skip_yaml_whitespace_loop fuel flow_level false
      else if (c =? 10)%N || (c =? 13)%N then
        skip_linebreak ;;;
        (if (flow_level =? 0)%N then set_ska true else ret tt) ;;;
        skip_yaml_whitespace_loop fuel flow_level false
      else if (c =? 35)%N then skip_line fuel ;;; skip_yaml_whitespace_loop fuel flow_level need
      else ret need
  end.
(** [scanner.rs:572-611] [skip_yaml_whitespace]. *)
Definition skip_yaml_whitespace (fuel : nat) (flow_level : N) : CM unit :=
  let* need := skip_yaml_whitespace_loop fuel flow_level true in
  let* m := get_mark in
  if need then err m "expected whitespace" else ret tt.

(** [scanner.rs:2136-2161] [scan_version_directive_number]: the loop; the result is a [u8], whose
    overflow panics (overflow checks are on in the debug profile). *)
Fixpoint version_loop (fuel : nat) (mark : marker) (val : N) (length : nat) : CM (N * nat) :=
  match fuel with
  | O => out_of_fuel
  | S fuel =>
      let* c := peek 0 in
      if is_ascii_digit c then
        if Nat.leb 9 length then
          err mark "while scanning a YAML directive, found extremely long version number"
        else
          let val' := (val * 10 + (c - 48))%N in
          if (val' <? 256)%N then skip_non_blank ;;; version_loop fuel mark val' (length + 1)
          else panic
      else ret (val, length)
  end.
(** [scanner.rs:2136-2161] [scan_version_directive_number]. *)
Definition scan_version_directive_number (fuel : nat) (mark : marker) : CM N :=
  let* (val, length) := version_loop fuel mark 0 0 in
  match length with
  | O => err mark "while scanning a YAML directive, did not find expected version number"
  | S _ => ret val
  end.
(** [scanner.rs:2078-2102] [scan_version_directive_value]. *)
Definition scan_version_directive_value (fuel : nat) (mark : marker) : CM token :=
  run_while is_blank fuel ;;;
  let* major := scan_version_directive_number fuel mark in
  let* c := peek 0 in
  if negb (c =? 46)%N then
    err mark "while scanning a YAML directive, did not find expected digit or '.' character"
  else
    skip_non_blank ;;;
    let* minor := scan_version_directive_number fuel mark in
    let* e := get_mark in
    ret (Token (Span mark e) (TVersionDirective major minor)).

(** The value of two hexadecimal digits, [(as_hex(c) << 4) + as_hex(nc)] (scanner.rs:2011); a byte
    that is not a digit panics in [as_hex]. *)
Definition hex2 (c nc : N) : CM N :=
  match as_hex c, as_hex nc with
  | Some a, Some b => ret (a * 16 + b)%N
  | _, _ => panic
  end.
(** [scanner.rs:2012-2026] the width announced by the first byte of an escaped character. *)
Definition uri_width (byte : N) : option nat :=
  if (N.land byte 128 =? 0)%N then Some 1
  else if (N.land byte 224 =? 192)%N then Some 2
  else if (N.land byte 240 =? 224)%N then Some 3
  else if (N.land byte 248 =? 240)%N then Some 4
  else None.
(** [scanner.rs:1998-2039] the loop of [scan_uri_escapes]; [left] is [width] before the byte (0 for
    the first); [code << 8] drops the high bits of a [u32]. *)
Fixpoint uri_loop (fuel : nat) (mark : marker) (width : nat) (code : N) : CM N :=
  match fuel with
  | O => out_of_fuel
  | S fuel =>
      let* p := peek 0 in
      let* c := peek 1 in
      let* nc := peek 2 in
      if negb ((p =? 37)%N && is_ascii_hexdigit c && is_ascii_hexdigit nc) then
        err mark "while parsing a tag, found an invalid escape sequence"
      else
        let* byte := hex2 c nc in
        let* (width, code) :=
          (match width with
           | O =>
               match uri_width byte with
               | Some w => ret (w, byte)
               | None => err mark "while parsing a tag, found an incorrect leading UTF-8 byte"
               end
           | S _ =>
               if negb (N.land byte 192 =? 128)%N then
                 err mark "while parsing a tag, found an incorrect trailing UTF-8 byte"
               else ret (width, (code * 256) mod 4294967296 + byte)%N
           end : CM (nat * N)) in
        skip_n_non_blank 3 ;;;
        match width with
        | S (S w) => uri_loop fuel mark (S w) code
        | _ => ret code
        end
  end.
(** [scanner.rs:1993-2049] [scan_uri_escapes]: the bytes of the escaped character. *)
Definition scan_uri_escapes (fuel : nat) (mark : marker) : CM text :=
  let* code := uri_loop fuel mark 0 0 in
  match char_from_u32 code with
  | Some ch => ret (utf8 ch)
  | None => err mark "while parsing a tag, found an invalid UTF-8 codepoint"
  end.
(** [scanner.rs:2163-2180] [uri_scans_or_non_blank]: the text with the bytes appended. *)
Definition uri_scans_or_non_blank (fuel : nat) (mark : marker) (string : text) : CM text :=
  let* p := peek_checked 0 in
  match p with
  | Some c =>
      if (c =? 37)%N then let* u := scan_uri_escapes fuel mark in ret (string ++ u)
      else skip_non_blank ;;; ret (string ++ [c])
  | None => skip_non_blank ;;; ret string
  end.
(** The loop [while is_uri_char(self.src.peekz(0)) { self.uri_scans_or_non_blank(..)?; }]
    (scanner.rs:1573-1575, 2201-2203). *)
Fixpoint uri_chars (fuel : nat) (mark : marker) (string : text) : CM text :=
  match fuel with
  | O => out_of_fuel
  | S fuel =>
      let* c := peek 0 in
      if is_uri_char c then
        let* string := uri_scans_or_non_blank fuel mark string in uri_chars fuel mark string
      else ret string
  end.
(** [scanner.rs:1589-1619] [scan_tag_handle]. *)
Definition scan_tag_handle (fuel : nat) (directive : bool) (mark : marker) : CM text :=
  let* c := peek 0 in
  if negb (c =? 33)%N then err mark "while scanning a tag, did not find expected '!'"
  else
    skip_non_blank ;;;
    let* l := run_while is_alpha fuel in
    let string := 33%N :: l in
    let* c := peek 0 in
    if (c =? 33)%N then skip_non_blank ;;; ret (string ++ [33%N])
    else if directive && negb (text_eqb string [33%N]) then
      err mark "while parsing a tag directive, did not find expected '!'"
    else ret string.
(** [scanner.rs:2182-2206] [scan_tag_prefix]. *)
Definition scan_tag_prefix (fuel : nat) (mark : marker) : CM text :=
  let* c := peek 0 in
  if (c =? 33)%N then skip_non_blank ;;; uri_chars fuel mark [33%N]
  else if negb (is_tag_char c) then err mark "invalid global tag character"
  else let* string := uri_scans_or_non_blank fuel mark [] in uri_chars fuel mark string.
(** [scanner.rs:2104-2134] [scan_tag_directive_value].  [String::from_utf8] succeeds: the handle
    consists of ASCII bytes, the prefix of ASCII bytes and whole encoded characters. *)
Definition scan_tag_directive_value (fuel : nat) (mark : marker) : CM token :=
  run_while is_blank fuel ;;;
  let* handle := scan_tag_handle fuel true mark in
  run_while is_blank fuel ;;;
  let* prefix := scan_tag_prefix fuel mark in
  let* c := peek 0 in
  let* e := get_mark in
  if is_blank_or_break c then ret (Token (Span mark e) (TTagDirective handle prefix))
  else err mark "while scanning TAG, did not find expected whitespace or line break".
(** [scanner.rs:2051-2075] [scan_directive_name]. *)
Definition scan_directive_name (fuel : nat) : CM text :=
  let* start := get_mark in
  let* string := run_while is_alpha fuel in
  let* c := peek 0 in
  match string with
  | [] => err start "while scanning a directive, could not find expected directive name"
  | _ =>
      if negb (is_blank_or_break c) then
        err start "while scanning a directive, found unexpected non-alphabetical character"
      else ret string
  end.
(** [scanner.rs:903-943] [scan_directive]. *)
Definition scan_directive (fuel : nat) : CM token :=
  let* start := get_mark in
  skip_non_blank ;;;
  let* name := scan_directive_name fuel in
  let* tok :=
    (if text_eqb name (str "YAML") then scan_version_directive_value fuel start
     else if text_eqb name (str "TAG") then scan_tag_directive_value fuel start
     else
       skip_line fuel ;;;
       let* e := get_mark in
       ret (Token (Span start e) (TTagDirective [] []))) in
  skip_ws_to_eol fuel true false ;;;
  let* c := peek 0 in
  if is_break c || (c =? 35)%N then skip_linebreak ;;; ret tok
  else err start "while scanning a directive, did not find expected comment or line break".

(** [scanner.rs:1491-1495] the loop of [scan_anchor]. *)
Fixpoint anchor_chars (fuel : nat) (string : text) : CM text :=
  match fuel with
  | O => out_of_fuel
  | S fuel =>
      let* c := peek 0 in
      if is_anchor_char c then skip_non_blank ;;; anchor_chars fuel (string ++ [c])
      else ret string
  end.
(** [scanner.rs:1487-1513] [scan_anchor]. *)
Definition scan_anchor (fuel : nat) (alias : bool) : CM token :=
  let* start := get_mark in
  skip_non_blank ;;;
  let* string := anchor_chars fuel [] in
  let* e := get_mark in
  match string with
  | [] =>
      err start "while scanning an anchor or alias, did not find expected alphabetic or numeric character"
  | _ => ret (Token (Span start e) (if alias then TAlias string else TAnchor string))
  end.

(** [scanner.rs:1567-1587] [scan_verbatim_tag]. *)
Definition scan_verbatim_tag (fuel : nat) (mark : marker) : CM text :=
  skip_non_blank ;;;
  skip_non_blank ;;;
  let* string := uri_chars fuel mark [] in
  let* c := peek 0 in
  if negb (c =? 62)%N then
    err mark "while scanning a verbatim tag, did not find the expected '>'"
  else skip_non_blank ;;; ret string.
(** [scanner.rs:1637-1648] the loop of [scan_tag_shorthand_suffix]. *)
Fixpoint suffix_chars (fuel : nat) (mark : marker) (string : text) (length : nat) : CM (text * nat) :=
  match fuel with
  | O => out_of_fuel
  | S fuel =>
      let* c := peek 0 in
      if is_tag_char c then
        let* string :=
          (if (c =? 37)%N then let* u := scan_uri_escapes fuel mark in ret (string ++ u)
           else let* b := peek_or_space in skip_non_blank ;;; ret (string ++ [b])) in
        suffix_chars fuel mark string (length + 1)
      else ret (string, length)
  end.
(** [scanner.rs:1621-1657] [scan_tag_shorthand_suffix]; its first two arguments are unused. *)
Definition scan_tag_shorthand_suffix (fuel : nat) (head : text) (mark : marker) : CM text :=
  let* (string, length) := suffix_chars fuel mark (tl head) (List.length head) in
  match length with
  | O => err mark "while parsing a tag, did not find expected tag URI"
  | S _ => ret string
  end.
(** [slice::ends_with(b"!")] (scanner.rs:1530). *)
Definition ends_bang (l : text) : bool :=
  match rev l with c :: _ => (c =? 33)%N | [] => false end.
(** [slice::starts_with(b"!")] (scanner.rs:1530). *)
Definition starts_bang (l : text) : bool :=
  match l with c :: _ => (c =? 33)%N | [] => false end.
(** [scanner.rs:1515-1565] [scan_tag]; [in_flow] is [self.flow_level > 0]. *)
Definition scan_tag (fuel : nat) (in_flow : bool) : CM token :=
  let* start := get_mark in
  let* nc := peek 1 in
  let* (handle, suffix) :=
    (if (nc =? 60)%N then
       let* suffix := scan_verbatim_tag fuel start in ret ([], suffix)
     else
       let* handle := scan_tag_handle fuel false start in
       if Nat.leb 2 (List.length handle) && starts_bang handle && ends_bang handle then
         let* suffix := scan_tag_shorthand_suffix fuel [] start in ret (handle, suffix)
       else
         let* suffix := scan_tag_shorthand_suffix fuel handle start in
         match suffix with
         | [] => ret ([], [33%N])
         | _ => ret ([33%N], suffix)
         end) in
  let* c := peek 0 in
  let* e := get_mark in
  if is_blank_or_breakz c || (in_flow && is_flow c) then
    ret (Token (Span start e) (TTag handle suffix))
  else err start "while scanning a tag, did not find expected whitespace or line break".

(** [scanner.rs:1010-1029] the content loop of [scan_plain_scalar]: [while !end { for _ in 0..127 }]
    only leaves when [end] is set, so it is one loop. *)
Fixpoint plain_content (fuel : nat) (in_flow : bool) (string : text) : CM text :=
  match fuel with
  | O => out_of_fuel
  | S fuel =>
      let* c := peek 0 in
      let* can := gets (fun c => next_can_be_plain_scalar str_ops (c_src c) in_flow) in
      if is_blank_or_breakz c || negb can then ret string
      else let* b := peek_or_space in skip_non_blank ;;; plain_content fuel in_flow (string ++ [b])
  end.
(** [scanner.rs:1040-1072] the blank loop of [scan_plain_scalar]; [ws], [lb], [tb] are
    [buf_whitespaces], [buf_leading_break] and [buf_trailing_breaks]. *)
Fixpoint plain_blanks (fuel : nat) (indent : N) (start : marker) (ws lb tb : text)
  : CM (text * text * text) :=
  match fuel with
  | O => out_of_fuel
  | S fuel =>
      let* c := peek 0 in
      let* lead := gets c_lead in
      let* m := get_mark in
      if is_blank_or_break c then
        if is_blank c then
          if negb lead then
            let* b := peek_or_space in
            skip_blank ;;; plain_blanks fuel indent start (ws ++ [b]) lb tb
          else if (m_col m <? indent)%N && (c =? 9)%N then
            skip_ws_to_eol fuel true false ;;;
            let* c' := peek 0 in
            if negb (is_breakz c') then err start "while scanning a plain scalar, found a tab"
            else plain_blanks fuel indent start ws lb tb
          else skip_blank ;;; plain_blanks fuel indent start ws lb tb
        else if lead then
          skip_linebreak ;;; plain_blanks fuel indent start ws lb (tb ++ [10%N])
        else
          skip_linebreak ;;; set_lead true ;;; plain_blanks fuel indent start [] (lb ++ [10%N]) tb
      else ret (ws, lb, tb)
  end.
(** [scanner.rs:966-1078] the loop of [scan_plain_scalar]: the text and the end mark.  The fields
    [buf_*] are cleared before it and read nowhere else: they are arguments here. *)
Fixpoint plain_loop (fuel : nat) (indent : N) (in_flow : bool) (start : marker)
    (string ws lb tb : text) (end_mark : marker) : CM (text * marker) :=
  match fuel with
  | O => out_of_fuel
  | S fuel =>
      let* ind := gets (fun c => next_is_document_indicator str_ops (c_src c)) in
      let* lead := gets c_lead in
      let* c := peek 0 in
      let* nc := peek 1 in
      let* m := get_mark in
      if (lead && ind) || (c =? 35)%N then ret (string, end_mark)
      else if in_flow && (c =? 45)%N && is_flow nc then
        err m "plain scalar cannot start with '-' followed by ,[]{}"
      else
        let* can := gets (fun c => next_can_be_plain_scalar str_ops (c_src c) in_flow) in
        let* (string, ws, lb, tb, end_mark) :=
          (if negb (is_blank_or_breakz c) && can then
             let* (string, ws, lb, tb) :=
               (if lead then
                  set_lead false ;;;
                  match lb with
                  | [] => ret (string ++ lb ++ tb, ws, [], [])
                  | _ => ret (string ++ match tb with [] => [32%N] | _ => tb end, ws, [], [])
                  end
                else match ws with
                     | [] => ret (string, ws, lb, tb)
                     | _ => ret (string ++ ws, [], lb, tb)
                     end) in
             let* b := peek_or_space in
             skip_non_blank ;;;
             let* string := plain_content fuel in_flow (string ++ [b]) in
             let* e := get_mark in
             ret (string, ws, lb, tb, e)
           else ret (string, ws, lb, tb, end_mark)) in
        let* c := peek 0 in
        if negb (is_blank c || is_break c) then ret (string, end_mark)
        else
          let* (ws, lb, tb) := plain_blanks fuel indent start ws lb tb in
          let* m := get_mark in
          if negb in_flow && (m_col m <? indent)%N then ret (string, end_mark)
          else plain_loop fuel indent in_flow start string ws lb tb end_mark
  end.
(** [scanner.rs:946-1098] [scan_plain_scalar] after [unroll_non_block_indents] (947); [self_indent] is
    [self.indent] there. *)
Definition scan_plain_scalar (fuel : nat) (self_indent : N) (in_flow : bool) : CM token :=
  let indent := (self_indent + 1)%N in
  let* start := get_mark in
  if in_flow && (m_col start <? indent)%N then err start "invalid indentation in flow construct"
  else
    let* (string, end_mark) := plain_loop fuel indent in_flow start [] [] [] [] start in
    let* lead := gets c_lead in
    (if lead then set_ska true else ret tt) ;;;
    match string with
    | [] => err start "unexpected end of plain scalar"
    | _ => ret (Token (Span start end_mark) (TScalar Plain string))
    end.

(** [scanner.rs:1790-1819] the escapes of a double-quoted scalar: a character, or the number of
    hexadecimal digits that follow. *)
Definition escape_code (c : N) : option (N + nat) :=
  (if c =? 48 then Some (inl 0)
   else if c =? 97 then Some (inl 7)
   else if c =? 98 then Some (inl 8)
   else if (c =? 116) || (c =? 9) then Some (inl 9)
   else if c =? 110 then Some (inl 10)
   else if c =? 118 then Some (inl 11)
   else if c =? 102 then Some (inl 12)
   else if c =? 114 then Some (inl 13)
   else if c =? 101 then Some (inl 27)
   else if c =? 32 then Some (inl 32)
   else if c =? 34 then Some (inl 34)
   else if c =? 47 then Some (inl 47)
   else if c =? 92 then Some (inl 92)
   else if c =? 78 then Some (inl 133)
   else if c =? 95 then Some (inl 160)
   else if c =? 76 then Some (inl 8232)
   else if c =? 80 then Some (inl 8233)
   else if c =? 120 then Some (inr 2%nat)
   else if c =? 117 then Some (inr 4%nat)
   else if c =? 85 then Some (inr 8%nat)
   else None)%N.
(** [scanner.rs:1826-1835] the loop over the [n] hexadecimal digits from offset [i]; [value << 4]
    drops the high bits of a [u32]. *)
Fixpoint hex_value (start : marker) (n i : nat) (value : N) : CM N :=
  match n with
  | O => ret value
  | S n =>
      let* c := peek i in
      if negb (is_ascii_hexdigit c) then
        err start "while parsing a quoted scalar, did not find expected hexadecimal number"
      else
        match as_hex c with
        | Some d => hex_value start n (S i) ((value * 16) mod 4294967296 + d)%N
        | None => panic
        end
  end.
(** [scanner.rs:1783-1849] [resolve_flow_scalar_escape_sequence]. *)
Definition resolve_escape (start : marker) : CM N :=
  let* c := peek 1 in
  match escape_code c with
  | None => err start "while parsing a quoted scalar, found unknown escape character"
  | Some (inl ch) => skip_n_non_blank 2 ;;; ret ch
  | Some (inr n) =>
      skip_n_non_blank 2 ;;;
      let* value := hex_value start n 0 0 in
      match char_from_u32 value with
      | None => err start "while parsing a quoted scalar, found invalid Unicode character escape code"
      | Some ch => skip_n_non_blank n ;;; ret ch
      end
  end.
(** [scanner.rs:1739-1775] [consume_flow_scalar_non_whitespace_chars]: the text and
    [leading_blanks], which is false at the call. *)
Fixpoint consume_chars (fuel : nat) (single : bool) (start : marker) (string : text)
  : CM (text * bool) :=
  match fuel with
  | O => out_of_fuel
  | S fuel =>
      let* c := peek 0 in
      let* nc := peek 1 in
      if is_blank_or_breakz c then ret (string, false)
      else if (c =? 39)%N && (nc =? 39)%N && single then
        skip_n_non_blank 2 ;;; consume_chars fuel single start (string ++ [39%N])
      else if (c =? 39)%N && single then ret (string, false)
      else if (c =? 34)%N && negb single then ret (string, false)
      else if (c =? 92)%N && negb single && is_break nc then
        skip_non_blank ;;; skip_linebreak ;;; ret (string, true)
      else if (c =? 92)%N && negb single then
        let* ch := resolve_escape start in consume_chars fuel single start (string ++ utf8 ch)
      else skip_non_blank ;;; consume_chars fuel single start (string ++ [c])
  end.
(** [scanner.rs:1156-1184] the blank loop of [scan_flow_scalar]. *)
Fixpoint flow_blanks (fuel : nat) (indent : N) (lblanks : bool) (ws lb tb : text)
  : CM (bool * text * text * text) :=
  match fuel with
  | O => out_of_fuel
  | S fuel =>
      let* c := peek 0 in
      let* m := get_mark in
      if is_blank c || is_break c then
        if is_blank c then
          if lblanks then
            if (c =? 9)%N && (m_col m <? indent)%N then err m "tab cannot be used as indentation"
            else skip_blank ;;; flow_blanks fuel indent lblanks ws lb tb
          else
            let* b := peek_or_space in
            skip_blank ;;; flow_blanks fuel indent lblanks (ws ++ [b]) lb tb
        else if lblanks then
          let* tb := read_break tb in flow_blanks fuel indent lblanks ws lb tb
        else
          let* lb := read_break lb in flow_blanks fuel indent true [] lb tb
      else ret (lblanks, ws, lb, tb)
  end.
(** [scanner.rs:1113-1205] the loop of [scan_flow_scalar]: the text. *)
Fixpoint flow_loop (fuel : nat) (single : bool) (indent : N) (start : marker)
    (string ws lb tb : text) : CM text :=
  match fuel with
  | O => out_of_fuel
  | S fuel =>
      let* m := get_mark in
      let* ind := gets (fun c => next_is_document_indicator str_ops (c_src c)) in
      let* p := peek_checked 0 in
      if (m_col m =? 1)%N && ind then
        err start "while scanning a quoted scalar, found unexpected document indicator"
      else match p with
      | None => err start "while scanning a quoted scalar, found unexpected end of stream"
      | Some _ =>
          if (m_col m <? indent)%N then err start "invalid indentation in quoted scalar"
          else
            let* (string, lblanks) := consume_chars fuel single start string in
            let* c := peek 0 in
            if ((c =? 39)%N && single) || ((c =? 34)%N && negb single) then ret string
            else
              let* (lblanks, ws, lb, tb) := flow_blanks fuel indent lblanks ws lb tb in
              if lblanks then
                match lb with
                | [] => flow_loop fuel single indent start (string ++ lb ++ tb) ws [] []
                | _ =>
                    flow_loop fuel single indent start
                      (string ++ match tb with [] => [32%N] | _ => tb end) ws [] []
                end
              else flow_loop fuel single indent start (string ++ ws) [] lb tb
      end
  end.
(** [scanner.rs:1101-1243] [scan_flow_scalar]; [in_flow] is [self.flow_level > 0]. *)
Definition scan_flow_scalar (fuel : nat) (single : bool) (indent : N) (in_flow : bool) : CM token :=
  let* start := get_mark in
  skip_non_blank ;;;
  let* string := flow_loop fuel single indent start [] [] [] [] in
  skip_non_blank ;;;
  skip_ws_to_eol fuel true false ;;;
  let* c := peek 0 in
  let* m := get_mark in
  if (((c =? 44)%N || (c =? 125)%N || (c =? 93)%N) && in_flow)
     || is_breakz c
     || ((c =? 58)%N && negb in_flow && (m_line start =? m_line m)%N)
     || ((c =? 58)%N && in_flow)
  then ret (Token (Span start m) (TScalar (if single then SingleQuote else DoubleQuote) string))
  else err m "invalid trailing content after double-quoted scalar".

(** [parsing/mod.rs] [ChompIndicator]. *)
Inductive chomp := Strip | Clip | Keep.

(** The loop [while self.src.peekz(0) == b' ' { self.skip_blank(); }] (scanner.rs:1663-1665). *)
Fixpoint skip_spaces (fuel : nat) : CM unit :=
  match fuel with
  | O => out_of_fuel
  | S fuel => let* c := peek 0 in if (c =? 32)%N then skip_blank ;;; skip_spaces fuel else ret tt
  end.
(** [scanner.rs:1661-1678] the loop of [skip_block_scalar_first_line_indent]: [max_indent] and the
    breaks. *)
Fixpoint first_line_loop (fuel : nat) (max_indent : N) (breaks : text) : CM (N * text) :=
  match fuel with
  | O => out_of_fuel
  | S fuel =>
      skip_spaces fuel ;;;
      let* m := get_mark in
      let max_indent := if (max_indent <? m_col m)%N then m_col m else max_indent in
      let* c := peek 0 in
      if is_break c then
        let* breaks := read_break breaks in first_line_loop fuel max_indent breaks
      else ret (max_indent, breaks)
  end.
(** [scanner.rs:1659-1693] [skip_block_scalar_first_line_indent]: the indent and the breaks. *)
Definition skip_block_scalar_first_line_indent (fuel : nat) (self_indent : N) (breaks : text)
  : CM (N * text) :=
  let* (max_indent, breaks) := first_line_loop fuel 0 breaks in
  let indent := N.max max_indent (self_indent + 1) in
  ret (if (0 <? self_indent)%N then N.max indent 1 else indent, breaks).
(** The loop [while self.mark.col < indent && self.src.peekz(0) == b' ' { self.skip_blank(); }]
    (scanner.rs:1701-1703; and 1706-1711, where [!buf_is_empty()] follows from the byte). *)
Fixpoint indent_spaces (fuel : nat) (indent : N) : CM unit :=
  match fuel with
  | O => out_of_fuel
  | S fuel =>
      let* m := get_mark in
      let* c := peek 0 in
      if (m_col m <? indent)%N && (c =? 32)%N then skip_blank ;;; indent_spaces fuel indent
      else ret tt
  end.
(** [scanner.rs:1705-1721] the loop for an indent of [buf_max_len() - 2 = 126] and more. *)
Fixpoint wide_spaces (fuel : nat) (indent : N) : CM unit :=
  match fuel with
  | O => out_of_fuel
  | S fuel =>
      indent_spaces fuel indent ;;;
      let* m := get_mark in
      let* empty := buf_is_empty in
      let* c := peek 0 in
      if (m_col m =? indent)%N || (negb empty && negb (c =? 32)%N) then ret tt
      else wide_spaces fuel indent
  end.
(** [scanner.rs:1696-1731] [skip_block_scalar_indent]: the breaks. *)
Fixpoint skip_block_scalar_indent (fuel : nat) (indent : N) (breaks : text) : CM text :=
  match fuel with
  | O => out_of_fuel
  | S fuel =>
      (if (indent <? 126)%N then indent_spaces fuel indent else wide_spaces fuel indent) ;;;
      let* c := peek 0 in
      if is_break c then
        let* breaks := read_break breaks in skip_block_scalar_indent fuel indent breaks
      else ret breaks
  end.
(** [scanner.rs:1454-1463] the loop of [scan_block_scalar_content_line]. *)
Fixpoint content_chars (fuel : nat) (string : text) : CM text :=
  match fuel with
  | O => out_of_fuel
  | S fuel =>
      let* empty := buf_is_empty in
      let* c := peek 0 in
      if negb empty && negb (is_break c) then
        let* b := peek_or_space in skip_blank ;;; content_chars fuel (string ++ [b])
      else ret string
  end.
(** [self.src.push_non_breakz_chr(line_buffer)] and the marker (scanner.rs:1473-1478);
    [line_buffer] is empty before. *)
Definition push_line : CM text := fun c =>
  match str_push_non_breakz_chr (c_src c) with
  | (s, Ok l) => (Cur s (mark_add (List.length l) (c_mark c)) (c_lead c) (c_ska c), Ok l)
  | (s, Err e) => (Cur s (c_mark c) (c_lead c) (c_ska c), Err e)
  | (s, Panic) => (Cur s (c_mark c) (c_lead c) (c_ska c), Panic)
  | (s, Ub) => (Cur s (c_mark c) (c_lead c) (c_ska c), Ub)
  | (s, Fuel) => (Cur s (c_mark c) (c_lead c) (c_ska c), Fuel)
  end.
(** [scanner.rs:1452-1485] [scan_block_scalar_content_line]: the text. *)
Definition scan_block_scalar_content_line (fuel : nat) (string : text) : CM text :=
  let* string := content_chars fuel string in
  let* empty := buf_is_empty in
  if empty then let* l := push_line in ret (string ++ l) else ret string.

(** [scanner.rs:1271-1311] the header of a block scalar: chomping and indentation indicator. *)
Definition block_header (start : marker) : CM (chomp * N) :=
  let* c := peek 0 in
  if (c =? 43)%N || (c =? 45)%N then
    let chomping := if (c =? 43)%N then Keep else Strip in
    skip_non_blank ;;;
    let* d := peek 0 in
    if is_ascii_digit d then
      if (d =? 48)%N then
        err start "while scanning a block scalar, found an indentation indicator equal to 0"
      else skip_non_blank ;;; ret (chomping, (d - 48)%N)
    else ret (chomping, 0%N)
  else if is_ascii_digit c then
    if (c =? 48)%N then
      err start "while scanning a block scalar, found an indentation indicator equal to 0"
    else
      skip_non_blank ;;;
      let* d := peek 0 in
      if (d =? 43)%N || (d =? 45)%N then
        skip_non_blank ;;; ret (if (d =? 43)%N then Keep else Strip, (c - 48)%N)
      else ret (Clip, (c - 48)%N)
  else ret (Clip, 0%N).
(** [scanner.rs:245-247] [next_is_document_end]. *)
Definition next_is_document_end : CM bool :=
  gets (fun c => next_is_three str_ops (c_src c) 46 && is_blank_or_breakz (peekz str_ops (c_src c) 3)).
(** [scanner.rs:1388-1427] the content loop of [scan_block_scalar]: text, leading break and
    trailing breaks. *)
Fixpoint block_loop (fuel : nat) (literal : bool) (indent : N) (string lb tb : text)
    (leading_blank : bool) : CM (text * text * text) :=
  match fuel with
  | O => out_of_fuel
  | S fuel =>
      let* m := get_mark in
      let* p := peek_checked 0 in
      match p with
      | None => ret (string, lb, tb)
      | Some _ =>
          let* de := next_is_document_end in
          if negb (m_col m =? indent)%N || ((indent =? 1)%N && de) then ret (string, lb, tb)
          else
            let* c := peek 0 in
            let trailing_blank := is_blank c in
            let string :=
              if negb literal && negb (text_eqb lb []) && negb leading_blank && negb trailing_blank
              then string ++ match tb with [] => [32%N] | _ => tb end
              else string ++ lb ++ tb in
            let* string := scan_block_scalar_content_line fuel string in
            let* p := peek_checked 0 in
            match p with
            | None => ret (string, [], [])
            | Some _ =>
                let* lb := read_break [] in
                let* tb := skip_block_scalar_indent fuel indent [] in
                block_loop fuel literal indent string lb tb (is_blank c)
            end
      end
  end.
(** [scanner.rs:1246-1449] [scan_block_scalar] after the indicator is skipped and
    [unroll_non_block_indents]; [self_indent] is [self.indent] there.  The token is returned (the
    code pushes it onto [tokens] itself). *)
Definition scan_block_scalar_body (fuel : nat) (literal : bool) (self_indent : N) (start : marker)
  : CM token :=
  let st := if literal then Literal else Folded in
  let* (chomping, increment) := block_header start in
  skip_ws_to_eol fuel true false ;;;
  let* c := peek 0 in
  if negb (is_breakz c) then
    err start "while scanning a block scalar, did not find expected comment or line break"
  else
    let* chomping_break := (if is_break c then read_break [] else ret []) in
    let* c := peek 0 in
    if (c =? 9)%N then err start "a block scalar content cannot start with a tab"
    else
      let indent :=
        if (0 <? increment)%N then
          if (1 <=? self_indent)%N then (self_indent + increment)%N else increment
        else 0%N in
      let* (indent, tb) :=
        (if (indent =? 0)%N then skip_block_scalar_first_line_indent fuel self_indent []
         else let* tb := skip_block_scalar_indent fuel indent [] in ret (indent, tb)) in
      let* p := peek_checked 0 in
      let* m := get_mark in
      match p with
      | None =>
          let contents :=
            match chomping with
            | Strip => []
            | _ =>
                if (m_line m =? m_line start)%N then []
                else match chomping with
                     | Keep => match tb with [] => chomping_break | _ => tb end
                     | _ => chomping_break
                     end
            end in
          ret (Token (Span start m) (TScalar st contents))
      | Some _ =>
          if (m_col m <? indent)%N && (self_indent <? m_col m)%N then
            err m "wrongly indented line in block scalar"
          else
            let* (string, lb, tb) := block_loop fuel literal indent [] [] tb false in
            let* p := peek_checked 0 in
            let* e := get_mark in
            let string :=
              match chomping with
              | Strip => string
              | _ =>
                  let string := string ++ lb in
                  match p with
                  | None => if (N.max indent 1 <? m_col e)%N then string ++ [10%N] else string
                  | Some _ => string
                  end
              end in
            let string := match chomping with Keep => string ++ tb | _ => string end in
            ret (Token (Span m e) (TScalar st string))
      end.
