(** Model of the emitter: [yam-core/src/saphyr_emitter/mod.rs].

    Texts are the bytes of the Rust strings (valid UTF-8 in Rust; nothing here depends on it except
    [chars]).  A writer ([dyn fmt::Write]) is a function saying whether it takes a further piece
    after what it has already taken; a refused piece is the error [fmt::Error]. *)
From Verif Require Import Base Tokens Scalar Yaml.
From Coq Require Import String.
Local Open Scope N_scope.

(** Result of an emitter method ([EmitResult], saphyr_emitter/mod.rs:20): [EmitError] is
    [Err(fmt::Error)], [EmitPanic] the [unreachable!] of line 80, [EmitFuel] the exhausted recursion
    bound of the model. *)
Inductive emit_result := EmitOk | EmitError | EmitPanic | EmitFuel.
(** The writer (saphyr_emitter/mod.rs:11): does it accept the second text after the first? *)
Definition writer := text -> text -> bool.
(** The settings [best_indent], [compact] and [multiline_strings] of [YamlEmitter] and its writer
    (saphyr_emitter/mod.rs:10-17). *)
Record settings := Settings {
  best_indent : nat; compact : bool; multiline_strings : bool; accepts : writer }.
(** [saphyr_emitter/mod.rs:98-107] [new]: the settings at the start. *)
Definition default_settings (w : writer) : settings := Settings 2 true false w.
(** The changing part of [YamlEmitter] (saphyr_emitter/mod.rs:11-14): [level] (an [isize]; unbounded
    here) and what the writer has taken. *)
Record emitter := Emitter { e_level : Z; e_out : text }.
(** A method of [YamlEmitter] (saphyr_emitter/mod.rs:91-96). *)
Definition EM := emitter -> emitter * emit_result.

(** [Ok(())] (saphyr_emitter/mod.rs:185). *)
Definition done : EM := fun e => (e, EmitOk).
(** Sequencing with [?] (saphyr_emitter/mod.rs:24). *)
Definition seqm (a b : EM) : EM := fun e =>
  match a e with
  | (e', EmitOk) => b e'
  | r => r
  end.
Notation "a ;; b" := (seqm a b) (at level 61, right associativity).
(** [self.writer.write_str(t)?], [write!(self.writer, ..)?] and [writeln!] (saphyr_emitter/mod.rs:24,
    156, 167); one piece per call. *)
Definition write (w : writer) (t : text) : EM := fun e =>
  if w (e_out e) t then (Emitter (e_level e) (e_out e ++ t), EmitOk) else (e, EmitError).
(** [self.level += n] (saphyr_emitter/mod.rs:227, 230 and elsewhere). *)
Definition add_level (n : Z) : EM := fun e => (Emitter (e_level e + n) (e_out e), EmitOk).

(** [saphyr_emitter/mod.rs:32] the bytes that are escaped. *)
Definition is_escaped (b : N) : bool := (b =? 34) || (b =? 92) || (b <=? 31) || (b =? 127).
(** One lower-case hexadecimal digit, as in the literals of saphyr_emitter/mod.rs:47-79. *)
Definition hex_char (d : N) : N := if d <? 10 then 48 + d else 97 + (d - 10).
(** [saphyr_emitter/mod.rs:44-81] the table of escapes; [None] is the [unreachable!].  The literals
    ["\\u00xy"] are computed from the byte. *)
Definition escape_of (b : N) : option text :=
  if b =? 34 then Some (str "\""")
  else if b =? 92 then Some (str "\\")
  else if b =? 8 then Some (str "\b")
  else if b =? 9 then Some (str "\t")
  else if b =? 10 then Some (str "\n")
  else if b =? 12 then Some (str "\f")
  else if b =? 13 then Some (str "\r")
  else if (b <=? 31) || (b =? 127) then Some (str "\u00" ++ [hex_char (b / 16); hex_char (b mod 16)])%list
  else None.
(** [saphyr_emitter/mod.rs:30-36] the bytes before the next escaped one, and the rest. *)
Fixpoint until_escaped (v : text) : text * text :=
  match v with
  | [] => ([], [])
  | b :: r => if is_escaped b then ([], v) else let '(a, z) := until_escaped r in (b :: a, z)
  end.
(** [saphyr_emitter/mod.rs:29-85] the loop of [escape_str] on the bytes from [start] on. *)
Fixpoint escape_loop (w : writer) (fuel : nat) (v : text) : EM :=
  match fuel with
  | O => fun e => (e, EmitFuel)
  | S fuel =>
      match v with
      | [] => done
      | _ =>
          match until_escaped v with
          | (_, []) => write w v
          | (a, b :: r) =>
              (match a with [] => done | _ => write w a end) ;;
              match escape_of b with
              | None => fun e => (e, EmitPanic)
              | Some s => write w s ;; escape_loop w fuel r
              end
          end
      end
  end.
(** [saphyr_emitter/mod.rs:23-89] [escape_str]. *)
Definition escape_str (w : writer) (v : text) : EM :=
  write w [34] ;; escape_loop w (S (List.length v)) v ;; write w [34].

(** The characters of a text in UTF-8 ([str::chars], Rust core; used in parsing/mod.rs:158). A byte
    that does not begin a character stands for itself (it cannot occur in a Rust [str]). *)
Fixpoint chars (t : text) : list N :=
  match t with
  | [] => []
  | a :: r =>
      if (192 <=? a) && (a <? 224) then
        match r with b :: r' => (a - 192) * 64 + (b - 128) :: chars r' | _ => [a] end
      else if (224 <=? a) && (a <? 240) then
        match r with
        | b :: c :: r' => (a - 224) * 4096 + (b - 128) * 64 + (c - 128) :: chars r'
        | _ => [a]
        end
      else if 240 <=? a then
        match r with
        | b :: c :: d :: r' =>
            (a - 240) * 262144 + (b - 128) * 4096 + (c - 128) * 64 + (d - 128) :: chars r'
        | _ => [a]
        end
      else a :: chars r
  end.
(** [parsing/mod.rs:157-160] [is_valid_literal_block_scalar]; the upper bound is [\u{d7fff}] as
    written there. *)
Definition is_valid_literal_block_scalar (t : text) : bool :=
  forallb (fun c => (c =? 9) || (c =? 10) || ((32 <=? c) && (c <=? 126)) || (c =? 133)
                    || ((160 <=? c) && (c <=? 884735))) (chars t).
(** [saphyr_emitter/mod.rs:348-350] [should_emit_string_as_block]. *)
Definition should_emit_string_as_block (s : settings) (t : text) : bool :=
  multiline_strings s && existsb (N.eqb 10) t && is_valid_literal_block_scalar t.

(** [str::starts_with] a text (Rust core; used at saphyr_emitter/mod.rs:415). *)
Fixpoint starts_with (p t : text) : bool :=
  match p, t with
  | [], _ => true
  | a :: p, b :: t => (a =? b) && starts_with p t
  | _, [] => false
  end.
(** [str::ends_with] a byte (Rust core; used at saphyr_emitter/mod.rs:240, 373). *)
Definition ends_with (b : N) (t : text) : bool :=
  match rev t with c :: _ => c =? b | [] => false end.
(** [u8::to_ascii_lowercase] (Rust core; part of the next definition). *)
Definition to_lower (c : N) : N := if (65 <=? c) && (c <=? 90) then c + 32 else c.
(** [str::parse::<f64>().is_ok()] (Rust core; used at saphyr_emitter/mod.rs:417): a number, or [inf], [infinity], [nan] in any case,
    each with an optional sign. *)
Definition parses_as_f64 (t : text) : bool :=
  match parse_f64 t with
  | Some _ => true
  | None => one_of (map to_lower (snd (split_sign t))) [str "inf"; str "infinity"; str "nan"]
  end.
(** [saphyr_emitter/mod.rs:378-383] the bytes a text may not begin with unquoted. *)
Definition is_leading_indicator (c : N) : bool := existsb (N.eqb c) (str "&*?|-<>=!%@").
(** [saphyr_emitter/mod.rs:384-401] the bytes an unquoted text may not contain. *)
Definition needs_quotes_byte (c : N) : bool :=
  existsb (N.eqb c) (str ":{}[],#`""'\") || (c <=? 6) || (c =? 9) || (c =? 10) || (c =? 13)
  || ((14 <=? c) && (c <=? 26)) || ((28 <=? c) && (c <=? 31)).
(** [saphyr_emitter/mod.rs:402-413] the words that are quoted. *)
Definition quoted_words : list text :=
  [str "yes"; str "Yes"; str "YES"; str "no"; str "No"; str "NO"; str "True"; str "TRUE";
   str "true"; str "False"; str "FALSE"; str "false"; str "on"; str "On"; str "ON"; str "off";
   str "Off"; str "OFF"; str "null"; str "Null"; str "NULL"; str "~"].
(** [saphyr_emitter/mod.rs:371-418] [need_quotes]. *)
Definition need_quotes (t : text) : bool :=
  match t with
  | [] => true
  | c :: _ =>
      (c =? 32) || ends_with 32 t || is_leading_indicator c || existsb needs_quotes_byte t
      || one_of t quoted_words || (c =? 46) || starts_with (str "0x") t
      || match parse_i64 t with Some _ => true | None => false end
      || parses_as_f64 t
  end.

(** The decimal digits of a number in front of [acc] ([Display] of integers, Rust core; used at
    saphyr_emitter/mod.rs:196). *)
Fixpoint decimal (fuel : nat) (n : N) (acc : text) : text :=
  match fuel with
  | O => acc
  | S fuel =>
      let acc := 48 + n mod 10 :: acc in
      if n <? 10 then acc else decimal fuel (n / 10) acc
  end.
(** [Display] of an unsigned number (Rust core; part of the two below). *)
Definition display_N (n : N) : text := decimal (S (N.size_nat n)) n [].
(** [Display] of [i64] (Rust core; used at saphyr_emitter/mod.rs:196). *)
Definition display_Z (z : Z) : text :=
  if (z <? 0)%Z then 45 :: display_N (Z.abs_N z) else display_N (Z.abs_N z).
(** Zeros removed from the end of a text (part of [Display] of [f64], saphyr_emitter/mod.rs:199). *)
Definition strip_zeros (t : text) : text :=
  rev ((fix go (l : text) := match l with 48 :: r => go r | _ => l end) (rev t)).
(** [Display] of [f64] (Rust core; used at saphyr_emitter/mod.rs:199): decimal notation without
    exponent.  As floating point values are represented by decimal numbers, the digits printed are
    those of that number (Rust prints the shortest decimal number that rounds to the [f64]). *)
Definition display_f64 (f : fl) : text :=
  match f with
  | FNan => str "NaN"
  | FInf neg => if neg then str "-inf" else str "inf"
  | FNum neg m e =>
      let sign := if neg then [45] else [] in
      if (0 <=? e)%Z then
        (sign ++ display_N (m * 10 ^ Z.to_N e))%list
      else
        let k := Z.to_nat (- e) in
        let d := 10 ^ N.of_nat k in
        let fp := display_N (m mod d) in
        let fp := strip_zeros (repeat 48 (k - List.length fp) ++ fp)%list in
        (sign ++ display_N (m / d) ++ match fp with [] => [] | _ => 46 :: fp end)%list
  end.
(** [Display] of [Tag] (parsing/mod.rs:240-248). *)
Definition display_tag (t : tag) : text :=
  if text_eqb (t_handle t) [33] then (33 :: t_suffix t)
  else (t_handle t ++ 33 :: t_suffix t)%list.

(** The loop [for _ in 0..n] (saphyr_emitter/mod.rs:165-166). *)
Fixpoint times (n : nat) (a : EM) : EM :=
  match n with O => done | S n => a ;; times n a end.
(** [saphyr_emitter/mod.rs:161-171] [write_indent]. *)
Definition write_indent (s : settings) : EM := fun e =>
  times (Z.to_nat (e_level e)) (times (best_indent s) (write (accepts s) [32])) e.
(** [writeln!(self.writer)?; self.write_indent()?] (saphyr_emitter/mod.rs:250-251 and elsewhere). *)
Definition new_line (s : settings) : EM := write (accepts s) [10] ;; write_indent s.

(** [str::lines] (Rust core; used at saphyr_emitter/mod.rs:249): split at line feeds, a carriage
    return before a line feed removed, no last line when the text ends with a line feed. [acc] holds
    the bytes of the current line in reverse. *)
Fixpoint lines_from (acc t : text) : list text :=
  match t with
  | [] => match acc with [] => [] | _ => [rev acc] end
  | 10 :: r => rev (match acc with 13 :: a => a | _ => acc end) :: lines_from [] r
  | b :: r => lines_from (b :: acc) r
  end.
(** [saphyr_emitter/mod.rs:239-257] [emit_literal_block]. *)
Definition emit_literal_block (s : settings) (v : text) : EM :=
  write (accepts s) (if ends_with 10 v then str "|" else str "|-") ;;
  add_level 1 ;;
  (fix each (l : list text) : EM :=
     match l with
     | [] => done
     | x :: r => new_line s ;; write (accepts s) x ;; each r
     end) (lines_from [] v) ;;
  add_level (-1).

(** The scalar arms of [emit_node] (saphyr_emitter/mod.rs:177-203). *)
Definition emit_scalar (s : settings) (v : scalar) : EM :=
  match v with
  | SString t =>
      if should_emit_string_as_block s t then emit_literal_block s t
      else if need_quotes t then escape_str (accepts s) t
      else write (accepts s) t
  | SBool b => write (accepts s) (if b then str "true" else str "false")
  | SInt z => write (accepts s) (display_Z z)
  | SFloat f => write (accepts s) (display_f64 f)
  | SNull => write (accepts s) (str "~")
  end.
(** What [emit_val] (saphyr_emitter/mod.rs:311-339) writes before the value: the macro
    [write_collection!] or a space. *)
Definition before_val (s : settings) (inline : bool) (y : yaml) : EM :=
  match y with
  | YSeq [] | YMap [] => write (accepts s) [32]
  | YSeq _ | YMap _ =>
      if inline && compact s then write (accepts s) [32]
      else
        write (accepts s) [10] ;; add_level 1 ;; write_indent s ;; add_level (-1)
  | _ => write (accepts s) [32]
  end.
(** [saphyr_emitter/mod.rs:283-284] the test for a complex key. *)
Definition complex_key (y : yaml) : bool :=
  match y with YMap _ | YSeq _ => true | _ => false end.
(** [saphyr_emitter/mod.rs:173-237] [emit_node], with [emit_sequence] (259-275), [emit_mapping]
    (277-305) and [emit_val] (311-339), which on a collection calls the same method as [emit_node]. *)
Fixpoint emit_node (s : settings) (y : yaml) : EM :=
  match y with
  | YSeq l =>
      match l with
      | [] => write (accepts s) (str "[]")
      | _ =>
          add_level 1 ;;
          (fix items (first : bool) (l : list yaml) : EM :=
             match l with
             | [] => done
             | x :: r =>
                 (if first then done else new_line s) ;;
                 write (accepts s) [45] ;;
                 before_val s true x ;; emit_node s x ;;
                 items false r
             end) true l ;;
          add_level (-1)
      end
  | YMap l =>
      match l with
      | [] => write (accepts s) (str "{}")
      | _ =>
          add_level 1 ;;
          (fix entries (first : bool) (l : list (yaml * yaml)) : EM :=
             match l with
             | [] => done
             | (k, v) :: r =>
                 (if first then done else new_line s) ;;
                 (if complex_key k then
                    write (accepts s) [63] ;;
                    before_val s true k ;; emit_node s k ;;
                    new_line s ;;
                    write (accepts s) [58] ;;
                    before_val s true v ;; emit_node s v
                  else
                    emit_node s k ;;
                    write (accepts s) [58] ;;
                    before_val s false v ;; emit_node s v) ;;
                 entries false r
             end) true l ;;
          add_level (-1)
      end
  | YScalar v => emit_scalar s v
  | YBad => write (accepts s) (str "~")
  | YTagged t y =>
      write (accepts s) (display_tag t ++ [32])%list ;;
      (if is_non_empty_collection y then
         add_level 1 ;; new_line s ;; add_level (-1)
       else done) ;;
      emit_node s y
  | YAlias _ => done
  end.
(** [saphyr_emitter/mod.rs:154-159] [dump]. *)
Definition dump (s : settings) (y : yaml) : EM :=
  write (accepts s) (str "---" ++ [10])%list ;;
  (fun e => (Emitter (-1) (e_out e), EmitOk)) ;;
  emit_node s y.

(** A writer that takes everything: [String] as [fmt::Write] (Rust alloc; cf. saphyr_emitter/mod.rs:11). *)
Definition any_writer : writer := fun _ _ => true.
(** What [dump] writes into an empty [String] (saphyr_emitter/mod.rs:154-159). *)
Definition dumped (s : settings) (y : yaml) : text := e_out (fst (dump s y (Emitter (-1) []))).

Example dump_example :
  dumped (default_settings any_writer)
    (YMap [(YScalar (SString (str "a")), YSeq [YScalar (SInt (-12)); YSeq []; YMap [(YScalar SNull, YScalar (SString (str "true")))]]);
           (YSeq [YScalar (SFloat (FNum true 1250 (-3)))], YScalar (SString (34 :: 1 :: str "x")))])
  = (str "---" ++ [10] ++ str "a:" ++ [10] ++ str "  - -12" ++ [10] ++ str "  - []" ++ [10]
     ++ str "  - ~: ""true""" ++ [10] ++ str "? - -1.25" ++ [10] ++ str ": ""\""\u0001x""")%list.
Proof. vm_compute. reflexivity. Qed.
