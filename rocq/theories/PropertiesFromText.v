(** Properties about deserialising whole texts: C54 and C55, and documents in quotes (C29, C52).  Only theorem
    statements, their one-line derivations, [Print Assumptions] and witnesses. *)
From Verif Require Import Base Tokens Chars Scalar Yaml Loader LoadText Emitter SpecScalar SpecEmit SpecQuoted SpecBlock SpecRoundTrip.
From Verif Require Import Serde SpecSerde FromText SpecFromText SerdeSer SpecSer SpecSerRead.
From Verif Require Import RoundTripExact FromTextProofs SerRead ScalarDocsRead.
From Coq Require Import String Lia.
Local Open Scope list_scope.

(** ** C54 *)
(** A value that is dumped into a string and deserialised as a type it has is the Rust value it is of
    that type.  Missing (and false, see below): null as [()] or [None], an empty string or the string
    [null] in an [Option], infinities, NaN and minus zero, strings that look like numbers, keys over
    1024 bytes, strings of several lines that are written as literal blocks but cannot be (C25), and the types of C40 that are not read. *)
Theorem C54_dumped_values_deserialise_partial : forall s y t x fuel,
  accepts s = any_writer -> best_indent s = 2 ->
  all_scalars fine y -> (multiline_strings s = true -> fits_blocks y) ->
  scalar_keys (fun v => List.length (dumped s (YScalar v)) <= 1028) y ->
  reads false t = true -> typed nothing clear t y x ->
  4 * List.length (dumped s y) + 4 < fuel ->
  exists x', from_text fuel t (dumped s y) = Ok (DOk x') /\ typed is_null no_null t y x'.
Proof. exact from_dumped_typed. Qed.
Print Assumptions C54_dumped_values_deserialise_partial.
(** A struct with a missing option, a vector of maps, a float. *)
Definition C54_type : target :=
  DStruct [(str "name", DString); (str "sizes", DVec (DInt 0 255)); (str "rate", DFloat);
           (str "note", DOption DString); (str "env", DMap DString (DOption DBool))].
Definition C54_value : yaml :=
  YMap [(YScalar (SString (str "rate")), YScalar (SFloat (FNum false 15 (-1))));
        (YScalar (SString (str "name")), YScalar (SString (str "a: b")));
        (YScalar (SString (str "env")), YMap [(YScalar (SString (str "x y")), YScalar (SBool true))]);
        (YScalar (SString (str "sizes")), YSeq [YScalar (SInt 7); YScalar (SInt 255)])].
Definition C54_result : value :=
  VStruct [(str "name", VString (str "a: b")); (str "sizes", VSeq [VInt 7; VInt 255]);
           (str "rate", VFloat (FNum false 15 (-1))); (str "note", VNone);
           (str "env", VMap [(VString (str "x y"), VSome (VBool true))])].
Example C54_example : reads false C54_type = true /\ typed nothing clear C54_type C54_value C54_result /\
  from_text 600 C54_type (dumped (default_settings any_writer) C54_value) = Ok (DOk C54_result).
Proof.
  split; [reflexivity|]. split; [|vm_compute; reflexivity].
  eexists _, _. split; [reflexivity|]. split; [reflexivity|].
  split; [repeat constructor; cbn; intuition discriminate|]. split; [repeat constructor; cbn; intuition discriminate|].
  split.
  { repeat constructor; eexists; (split; [reflexivity|cbn; tauto]). }
  split; [reflexivity|]. split.
  { left. eexists. split; [right; left; reflexivity|]. split; [reflexivity|]. eexists. split; reflexivity. }
  split; [reflexivity|]. split.
  { left. eexists. split; [right; right; right; left; reflexivity|]. split; [reflexivity|]. eexists _, _. split; [reflexivity|]. split; [reflexivity|].
    repeat constructor; eexists; repeat split; lia. }
  split; [reflexivity|]. split.
  { left. eexists. split; [left; reflexivity|]. split; [reflexivity|]. left. eexists _, _. split; [reflexivity|]. split; [reflexivity|]. split; reflexivity. }
  split; [reflexivity|]. split.
  { right. split; [repeat constructor; intros H; discriminate H|]. split; [eexists; reflexivity|reflexivity]. }
  split; [reflexivity|]. split; [|exact I].
  left. eexists. split; [right; right; left; reflexivity|]. split; [reflexivity|]. eexists _, _. split; [reflexivity|]. split; [reflexivity|].
  constructor; [split|constructor].
  - eexists. split; reflexivity.
  - right. split; [intros H; cbn in H; intuition discriminate|]. eexists. split; [reflexivity|]. eexists. split; reflexivity.
Qed.
(** Strings of several lines as literal blocks. *)
Example C54_literal_example :
  let s := Settings 2 true true any_writer in
  let t := str "a" ++ [10%N] ++ str " b" in
  let y := YSeq [YScalar (SString t)] in
  fits_blocks y /\ typed nothing clear (DVec DString) y (VSeq [VString t]) /\
  dumped s y = str "---" ++ [10%N] ++ str "- |-" ++ [10%N] ++ str "  a" ++ [10%N] ++ str "   b" /\
  from_text 600 (DVec DString) (dumped s y) = Ok (DOk (VSeq [VString t])).
Proof.
  cbv zeta. split; [|split; [|split; vm_compute; reflexivity]].
  - split; [|split; [|exact I]]; cbn [all_scalars scalar_keys fold_right block_string]; [|auto]. split; [|exact I]. intros _.
    exists [str "a"], (str " b"), false. split; [reflexivity|]. split; [|split; [discriminate|vm_compute; discriminate]].
    repeat constructor; cbn; intuition discriminate.
  - eexists _, _. split; [reflexivity|]. split; [reflexivity|]. repeat constructor. eexists. split; reflexivity.
Qed.
(** The claim is false: null as [None] and as [()], an empty string as [Some], infinity. *)
Theorem C54_refuted :
  let s := default_settings any_writer in
  let back t y := from_text 100 t (dumped s y) in
  (exists t y x, typed is_null no_null t y x /\ y = YScalar SNull /\ x = VNone /\ back t y = Ok (DErr DCustom)) /\
  (exists y x, typed is_null no_null DUnit y x /\ back DUnit y = Ok (DErr DExpectedNull)) /\
  (exists t y x, typed is_null no_null t y x /\ x = VSome (VString (str "null")) /\ back t y = Ok (DOk VNone)) /\
  (exists y x, typed is_null no_null DFloat y x /\ y = YScalar (SFloat (FInf false)) /\ back DFloat y = Ok (DErr DCustom)) /\
  (exists y x, typed is_null no_null DString y x /\ y = YScalar (SString (str "0o17")) /\ back DString y = Ok (DErr DCustom)).
Proof.
  cbv zeta. split; [|split; [|split; [|split]]].
  - exists (DOption DString), (YScalar SNull), VNone. split; [left; split; reflexivity|]. split; [reflexivity|]. split; [reflexivity|]. vm_compute. reflexivity.
  - exists (YScalar SNull), VUnit. split; [split; reflexivity|]. vm_compute. reflexivity.
  - exists (DOption DString), (YScalar (SString (str "null"))), (VSome (VString (str "null"))).
    split; [right; split; [discriminate|]; eexists; split; [reflexivity|]; eexists; split; reflexivity|]. split; [reflexivity|]. vm_compute. reflexivity.
  - exists (YScalar (SFloat (FInf false))), (VFloat (FInf false)).
    split; [left; eexists _, _; split; [reflexivity|]; split; reflexivity|]. split; [reflexivity|]. vm_compute. reflexivity.
  - exists (YScalar (SString (str "0o17"))), (VString (str "0o17")).
    split; [eexists; split; reflexivity|]. split; [reflexivity|]. vm_compute. reflexivity.
Qed.
Print Assumptions C54_refuted.

(** ** C55 *)
(** A value that is serialised and deserialised comes back: booleans, integers in the range of the type,
    finite floats except minus zero, characters other than line breaks and NUL (as strings), the strings of
    C39, [()] and [None] if the formatter writes [null], and these other than nulls in one [Option].
    Missing (and false, see below): the rest. *)
Theorem C55_serialised_values_deserialise_partial : forall f v w t x fuel,
  comes_back_as_it_was f v -> serialize f v = Ok w -> same_value v t x ->
  List.length w + 5 < fuel -> (v = SerNone -> reads false t = true) ->
  exists x', same_value v t x' /\ from_text fuel t w = Ok (DOk x').
Proof. exact serialized_read. Qed.
Print Assumptions C55_serialised_values_deserialise_partial.
Example C55_example :
  let f := Formatter 10 8 (str "  ") (str "null") in
  let v := SerSome (SerStr [(str "One", 3%N); (str " ", 1%N); (str "quick", 5%N); (str " ", 1%N); (str "fox", 3%N)]) in
  same_value v (DOption DString) (VSome (VString (str "One quick fox"))) /\
  serialize f v = Ok (str """One" ++ [10%N] ++ str "quick" ++ [10%N] ++ str "fox""") /\
  from_text 60 (DOption DString) (str """One" ++ [10%N] ++ str "quick" ++ [10%N] ++ str "fox""") = Ok (DOk (VSome (VString (str "One quick fox")))) /\
  comes_back_as_it_was f (SerInt (-5)) /\ from_text 60 (DInt (-128) 127) (str "-5") = Ok (DOk (VInt (-5))).
Proof.
  cbv zeta. split; [|vm_compute; auto]. eexists _, _. split; [reflexivity|]. split; [reflexivity|]. split; reflexivity.
Qed.
(** The claim is false: [()] with the default formatter, minus zero, infinity, a line feed as a character, a
    backslash in a string, an option in an option, the string [null] in an option. *)
Theorem C55_refuted :
  let back f v t := match serialize f v with Ok w => from_text 100 t w | _ => Fuel end in
  back formatter_default SerUnit DUnit = Ok (DErr DExpectedNull) /\
  (exists t, same_value SerNone t VNone /\ back formatter_default SerNone t = Ok (DErr DCustom)) /\
  (exists x, same_value (SerFloat (FNum true 0 0)) DFloat (VFloat (FNum true 0 0)) /\
     back formatter_pretty (SerFloat (FNum true 0 0)) DFloat = Ok (DOk x) /\ ~ same_value (SerFloat (FNum true 0 0)) DFloat x) /\
  back formatter_pretty (SerFloat (FInf false)) DFloat = Ok (DErr DCustom) /\
  back formatter_pretty (SerChar 10) DString = Ok (DOk (VString (str " "))) /\
  (exists ws, back formatter_pretty (SerStr ws) DString <> Ok (DOk (VString (List.concat (map fst ws))))) /\
  (exists v t x, same_value v t x /\ x = VSome (VSome (VInt 1)) /\ back formatter_pretty v t = Ok (DErr DCustom)) /\
  (exists v t x, same_value v t x /\ x = VSome (VString (str "null")) /\ back formatter_pretty v t = Ok (DOk VNone)).
Proof.
  cbv zeta. split; [vm_compute; reflexivity|]. split; [exists (DOption DString); split; [eexists; split; reflexivity|vm_compute; reflexivity]|].
  split.
  { exists (VFloat (FNum false 0 0)). split; [split; [reflexivity|]; eexists; split; [reflexivity|]; split; reflexivity|].
    split; [vm_compute; reflexivity|]. intros [_ (f' & E & SG)]. injection E as <-. destruct SG as [SG _]. discriminate SG. }
  split; [vm_compute; reflexivity|]. split; [vm_compute; reflexivity|].
  split; [exists [(str "\", 1%N); (str "n", 1%N)]; vm_compute; discriminate|].
  split.
  { exists (SerSome (SerSome (SerInt 1))), (DOption (DOption (DInt 0 9))), (VSome (VSome (VInt 1))).
    split; [|split; [reflexivity|vm_compute; reflexivity]].
    eexists _, _. split; [reflexivity|]. split; [reflexivity|]. eexists _, _. split; [reflexivity|]. split; [reflexivity|].
    eexists _, _. split; [reflexivity|]. split; [lia|reflexivity]. }
  exists (SerSome (SerStr [(str "null", 4%N)])), (DOption DString), (VSome (VString (str "null"))).
  split; [|split; [reflexivity|vm_compute; reflexivity]].
  eexists _, _. split; [reflexivity|]. split; [reflexivity|]. split; reflexivity.
Qed.
Print Assumptions C55_refuted.

(** ** Documents in quotes *)
(** C52 for whole documents: loading the text gives the string, whatever it looks like. *)
Theorem C52_quoted_documents_load : forall (w : text) (ws : list (word_gap * text)) (fuel : nat),
  (double_word w -> Forall (fun x => double_word (snd x)) ws -> words_fit as_is 34%N 0 ws ->
   List.length (in_quotes as_is 34%N w ws) + 200 <= fuel ->
   load_text fuel (in_quotes as_is 34%N w ws) = Ok [YScalar (SString (w ++ words_read ws))]) /\
  (single_word w -> Forall (fun x => single_word (snd x)) ws -> words_fit quote_doubled 39%N 0 ws ->
   List.length (in_quotes quote_doubled 39%N w ws) + 200 <= fuel ->
   load_text fuel (in_quotes quote_doubled 39%N w ws) = Ok [YScalar (SString (w ++ words_read ws))]).
Proof.
  intros w ws fuel. split; intros A B C F.
  - rewrite (load_scalar fuel _ DoubleQuote (w ++ words_read ws)); [reflexivity|apply double_lines_doc; auto; lia|lia].
  - rewrite (load_scalar fuel _ SingleQuote (w ++ words_read ws)); [reflexivity|apply single_lines_doc; auto; lia|lia].
Qed.
Print Assumptions C52_quoted_documents_load.
(** C29 for whole documents. *)
Theorem C29_single_quoted_documents_load : forall (t : text) (fuel : nat),
  ~ In 10%N t -> ~ In 13%N t -> ~ In 0%N t -> List.length (in_single_quotes t) + 200 <= fuel ->
  load_text fuel (in_single_quotes t) = Ok [YScalar (SString t)].
Proof.
  intros t fuel A B C F. rewrite (load_scalar fuel _ SingleQuote t); [reflexivity|apply single_doc; auto; lia|lia].
Qed.
Print Assumptions C29_single_quoted_documents_load.
Example C29_document_example : load_text 300 (str "'it''s 12: ""x"" #'") = Ok [YScalar (SString (str "it's 12: ""x"" #"))].
Proof. vm_compute. reflexivity. Qed.
