(** Model of serialisation: [yam-serde/src/ser.rs] and [yam-serde/src/escape_str.rs].

    The writer is a [String], which takes everything ([to_pretty_string], lib.rs:74-80).  The field [pos]
    is written but never read and is left out; [current_depth] is never changed from 0.  The
    serialisers of bytes, enums and all collections are [todo!()] in the code. *)
From Verif Require Import Base Chars Scalar Yaml Emitter.
From Coq Require Import String.
Local Open Scope N_scope.
Local Open Scope list_scope.

(** The fields of [PrettyFormatter] that are read (ser.rs:249-267). *)
Record formatter := Formatter {
  depth_limit : N; pref_string_length : N; indentor : text; null_format : text }.
(** [ser.rs:270-281] [PrettyFormatter::default]. *)
Definition formatter_default : formatter := Formatter 0 80 [] [].
(** [ser.rs:284-293] [PrettyFormatter::pretty]. *)
Definition formatter_pretty : formatter := Formatter 10 80 (str "  ") (str "null").

(** A word and its number of graphemes (ser.rs:115-118).  Where words begin and how many graphemes they
    have is decided by the crate [unicode-segmentation] and is an input of the model. *)
Definition word := (text * N)%type.

(** [ser.rs:17-19] [is_splittable_ws]. *)
Definition is_splittable_ws (w : text) : bool := forallb (fun c => (c =? 32) || (c =? 10)) w.
(** [ser.rs:21-26] [is_last_char_splittable_ws]. *)
Definition is_last_char_splittable_ws (w : text) : bool :=
  match rev w with [] => false | c :: _ => (c =? 32) || (c =? 10) end.
(** [ser.rs:91-93] [is_time_to_split]. *)
Definition is_time_to_split (f : formatter) (buff_len word_len : N) : bool :=
  pref_string_length f <? buff_len + word_len.
(** [ser.rs:95-101] [write_indentors]. *)
Definition write_indentors (f : formatter) (indent : nat) : text := List.concat (repeat (indentor f) indent).
(** [ser.rs:103-108] [line_split_at], with [current_depth]. *)
Definition line_split_at (f : formatter) (depth : nat) (line_buff line_split : text) : text :=
  line_buff ++ (if text_eqb line_split [32] then [10] else [10; 10]) ++ write_indentors f depth.
(** [ser.rs:120-148] the loop of [write_double_quote_multi]: what is written and the last line.
    [line_buff.split_at(len - 1)] is in front of an ASCII byte. *)
Fixpoint multi_loop (f : formatter) (depth : nat) (ws : list word) (line_buff : text) (line_buff_len : N)
  : text * text :=
  match ws with
  | [] => ([], line_buff)
  | (w, n) :: r =>
      if is_time_to_split f line_buff_len n then
        if is_last_char_splittable_ws line_buff then
          let line := removelast line_buff in
          let nl := [last line_buff 0] in
          let '(o, l) := multi_loop f depth r w n in (line_split_at f depth line nl ++ o, l)
        else if is_splittable_ws w then
          let '(o, l) := multi_loop f depth r [] 0 in (line_split_at f depth line_buff w ++ o, l)
        else multi_loop f depth r (line_buff ++ w) (line_buff_len + n)
      else multi_loop f depth r (line_buff ++ w) (line_buff_len + n)
  end.
(** [ser.rs:110-152] [write_double_quote_multi]. *)
Definition write_double_quote_multi (f : formatter) (depth : nat) (ws : list word) : text :=
  let '(o, l) := multi_loop f depth ws [] 0 in [34] ++ o ++ l ++ [34].

(** [escape_str.rs:3-5] [peekz_byte]. *)
Definition peekz_byte (t : text) (pos : nat) : N := nth pos t 0.
(** [escape_str.rs:12-20] the number written in hexadecimal; [u32] arithmetic (at most 8 digits). *)
Definition hex_number (ds : text) : N :=
  fold_left (fun acc d => acc * 16 + match as_hex d with Some v => v | None => 0 end) ds 0.
(** [escape_str.rs:6-49] [decode_hex]: what is written. *)
Definition decode_hex (ds : text) : text :=
  if negb (forallb is_ascii_hexdigit ds) then utf8 65533
  else
    let c := hex_number ds in
    if c =? 0 then utf8 65533
    else if c =? 7 then str "\a" else if c =? 8 then str "\b" else if c =? 9 then str "\t"
    else if c =? 10 then str "\n" else if c =? 11 then str "\v" else if c =? 12 then str "\f"
    else if c =? 13 then str "\r" else if c =? 27 then str "\e" else if c =? 34 then str "\"""
    else if c =? 47 then str "\/" else if c =? 92 then str "\\" else if c =? 133 then str "\N"
    else if c =? 160 then str "\_" else if c =? 8232 then str "\L" else if c =? 8233 then str "\P"
    else match char_from_u32 c with Some ch => utf8 ch | None => [] end.
(** [bytes[pos + 2..pos + 2 + n]] (escape_str.rs:88, 95, 102); [None] is the panic. *)
Definition hex_slice (n : nat) (t : text) : option (text * text) :=
  let r := skipn 2 t in
  if Nat.leb n (List.length r) then Some (firstn n r, skipn n r) else None.
(** [escape_str.rs:51-113] the loop of [escape_double_quotes] on the bytes from [pos] on: what is written
    for them.  The pieces [old_pos..pos] that are copied are appended byte by byte. *)
Fixpoint escape_dq_loop (fuel : nat) (t : text) : out text :=
  match fuel with
  | O => Fuel
  | S fuel =>
      let next (written rest : text) : out text :=
        match escape_dq_loop fuel rest with Ok o => Ok (written ++ o) | e => e end in
      let hex (n : nat) : out text :=
        match hex_slice n t with Some (ds, rest) => next (decode_hex ds) rest | None => Panic end in
      match t with
      | [] => Ok []
      | b :: r =>
          let peek := peekz_byte t 1 in
          if (b =? 92) && ((peek =? 116) || (peek =? 114) || (peek =? 110)) then next [b; peek] (skipn 1 r)
          else if b =? 9 then next (str "\t") r
          else if (b =? 13) && (peek =? 10) then next (str "\n") (skipn 1 r)
          else if b =? 10 then next (str "\n") r
          else if (b =? 92) && (peek =? 120) then hex 2%nat
          else if (b =? 92) && (peek =? 117) then hex 4%nat
          else if (b =? 92) && (peek =? 85) then hex 6%nat
          else next [b] r
      end
  end.
(** [escape_str.rs:51-113] [escape_double_quotes]. *)
Definition escape_double_quotes (t : text) : out text := escape_dq_loop (S (List.length t)) t.
(** [ser.rs:80-89] [write_double_quote_single]. *)
Definition write_double_quote_single (t : text) : out text :=
  match escape_double_quotes t with Ok o => Ok ([34] ++ o ++ [34]) | e => e end.
(** [ser.rs:158-160] [use_complex_form]; [current_depth] is 0. *)
Definition use_complex_form (f : formatter) (depth : nat) : bool := N.of_nat depth <=? depth_limit f.

(** The values whose serialisers exist (ser.rs:330-427).  A string comes with its words; a character is
    its code point. *)
Inductive ser_value :=
| SerBool (b : bool)
| SerInt (z : Z)
| SerFloat (x : fl)
| SerChar (c : N)
| SerStr (ws : list word)
| SerUnit
| SerNone
| SerSome (v : ser_value).
(** [ser.rs:398-405] [serialize_str]. *)
Definition serialize_str (f : formatter) (depth : nat) (ws : list word) : out text :=
  if negb (use_complex_form f depth) then write_double_quote_single (List.concat (map fst ws))
  else Ok (write_double_quote_multi f depth ws).
(** [ser.rs:330-427] the [Serializer] methods; integers and floats are printed by Rust's [Display]
    (the sign of a NaN is left out, which has none in the model). *)
Fixpoint serialize (f : formatter) (v : ser_value) : out text :=
  match v with
  | SerBool b => Ok (if b then str "true" else str "false")
  | SerInt z => Ok (display_Z z)
  | SerFloat x => Ok (display_f64 x)
  | SerChar c =>
      let q := if c =? 39 then 34 else 39 in Ok ([q] ++ utf8 c ++ [q])
  | SerStr ws => serialize_str f 0 ws
  | SerUnit | SerNone => Ok (null_format f)
  | SerSome v => serialize f v
  end.
