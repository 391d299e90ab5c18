(** Model of [write_str_from_event] in [yam-test-bench/src/lib.rs], which writes the events of a parser in the
    notation that the test cases are compared with. *)
From Verif Require Import Base Tokens Parser Pipeline TestText.
From Coq Require Import String.
Local Open Scope list_scope.

(** [yam-test-bench/src/lib.rs:44-50] [FormatOpts]. *)
Inductive format_opts := YamlFormat | InlineTest | InlineTestDetailed.
(** [yam-test-bench/src/lib.rs:52-59] [emit_err]. *)
Definition emit_err (o : format_opts) : bool := match o with YamlFormat | InlineTest => false | InlineTestDetailed => true end.
(** [yam-test-bench/src/lib.rs:60-66] [is_inline]. *)
Definition is_inline (o : format_opts) : bool := match o with YamlFormat => false | InlineTest | InlineTestDetailed => true end.
(** [yam-test-bench/src/lib.rs:68-74] [emit_stream]. *)
Definition emit_stream (o : format_opts) : bool := match o with YamlFormat => true | InlineTest | InlineTestDetailed => false end.

(** [Parser::get_anchor] on the names the parser knows (yam-core/src/parsing/parser.rs:507-509). *)
Definition get_anchor (p : parser) (id : nat) : option text :=
  option_map fst (find (fun x => Nat.eqb (snd x) id) (p_anchors p)).
(** [yam-test-bench/src/lib.rs:146-155] [extract_anchor]; [name] is [get_anchor] of the parser. *)
Definition extract_anchor (name : nat -> option text) (id : nat) : text :=
  match name id with Some n => str " &" ++ n | None => [] end.
(** [yam-test-bench/src/lib.rs:132-144] [extract_tag_full]. *)
Definition extract_tag_full (t : option tag) : text :=
  match t with Some t => str " <" ++ t_handle t ++ t_suffix t ++ str ">" | None => [] end.
(** [prelude/mod.rs:1079-1089] [Display] of [ScalarType]. *)
Definition style_text (s : scalar_type) : text :=
  match s with
  | Plain => str ":" | Folded => str ">" | Literal => str "|" | SingleQuote => str "'"
  | DoubleQuote => str """"
  end.
(** [writeln!] (yam-test-bench/src/lib.rs:87-119). *)
Definition line (t : text) : text := t ++ [10%N].
(** [yam-test-bench/src/lib.rs:86-121] the match of [write_str_from_event].  [Event::Nothing] and
    [Event::Comment] are no events of the model's parser. *)
Definition write_event (o : format_opts) (name : nat -> option text) (e : event) : text :=
  match e with
  | EStreamStart => if emit_stream o then line (str "+STR") else []
  | EStreamEnd => if emit_stream o then line (str "-STR") else []
  | EDocumentStart _ => line (str "+DOC")
  | EDocumentEnd => line (str "-DOC")
  | EAlias id => line (str "=ALI *" ++ match name id with Some n => n | None => [] end)
  | EScalar v =>
      line (str "=VAL" ++ extract_anchor name (sv_anchor v) ++ extract_tag_full (sv_tag v) ++ str " "
        ++ style_text (sv_type v) ++ sv_value v)
  | ESequenceStart a t => line (str "+SEQ" ++ extract_anchor name a ++ extract_tag_full t)
  | ESequenceEnd => line (str "-SEQ")
  | EMappingStart a t => line (str "+MAP" ++ extract_anchor name a ++ extract_tag_full t)
  | EMappingEnd => line (str "-MAP")
  end.
(** [yam-test-bench/src/lib.rs:85] the loop condition [while let Some(Ok((ev, _))) = parser.next()]: the events,
    each with the parser behind it, and the parser at the end; [None] if [n] events are not enough. *)
Fixpoint events_until (n : nat) (p : parser) : option (list (parser * event) * parser) :=
  match n with
  | O => None
  | S n =>
      match next_event p with
      | (p', Some (Ok (e, _))) => option_map (fun r => ((p', e) :: fst r, snd r)) (events_until n p')
      | (p', _) => Some ([], p')
      end
  end.
(** White space of [str::trim_end] (yam-test-bench/src/lib.rs:128), as far as bytes below 128 go, from the end. *)
Fixpoint trim_front (l : text) : text :=
  match l with
  | c :: r => if ((9 <=? c) && (c <=? 13) || (c =? 32))%N then trim_front r else l
  | [] => []
  end.
(** [yam-test-bench/src/lib.rs:77-130] [write_str_from_event].  What an error looks like behind [ERR] ([{err:?}])
    is left out. *)
Definition write_str_from_event (o : format_opts) (n : nat) (p : parser) : option text :=
  match events_until n p with
  | None => None
  | Some (l, p') =>
      let t := (if emit_stream o then [] else [10%N])
        ++ flat_map (fun x => write_event o (get_anchor (fst x)) (snd x)) l
        ++ match next_event p' with
           | (_, Some (Err _)) => if emit_err o then line (str "ERR ") else []
           | _ => []
           end in
      Some (if is_inline o then rev (trim_front (rev t)) else t)
  end.
(** [str::ends_with] (yam-test-bench/src/lib.rs:21-22). *)
Definition ends_with (t e : text) : bool := text_eqb (skipn (List.length t - List.length e) t) e.
(** [yam-test-bench/src/lib.rs:16-28] [assert_eq_event_case_saph] and [30-42] [assert_eq_event_case_with_opts]: whether
    the assertion holds.  [expected_err] and [actual_err] are both taken from the expected events. *)
Definition assert_eq_event_case (o : format_opts) (n : nat) (input events : text) : bool :=
  match write_str_from_event o n (parser_of_text n input false) with
  | None => false
  | Some l =>
      let expected_err := ends_with events (str "ERR") in
      let actual_err := ends_with events (str "ERR") in
      Bool.eqb actual_err expected_err && (expected_err || text_eqb l (unescape_text events))
  end.
