(** Dumping and loading (property C25).  Only theorem statements, their one-line derivations, [Print
    Assumptions] and witnesses. *)
From Verif Require Import Base Tokens Scalar Yaml Loader LoadText Emitter SpecScalar SpecEmit SpecBlock SpecRoundTrip RoundTripExact.
From Coq Require Import String.
Local Open Scope list_scope.

(** What a value is loaded back as when it is dumped into a string with the default indentation: the
    same arrangement of scalars; a scalar comes back as an equal scalar exactly if it survives, so the
    whole value does exactly if all its scalars survive.  With literal block strings, every string of
    several lines must be one that can be written so where it stands ([fits_blocks]).  Missing: the other
    strings of several lines (the claim is false of five kinds of them, see below; it is open for strings
    that are quoted because of a control character, and for a line of [---] in a document that is a
    string), keys over 1024 bytes (false, see below), aliases, tags and bad values. *)
Theorem C25_round_trip_partial : forall s y fuel,
  accepts s = any_writer -> best_indent s = 2 ->
  all_scalars valid_scalar y -> (multiline_strings s = true -> fits_blocks y) ->
  scalar_keys (fun v => List.length (dumped s (YScalar v)) <= 1028) y ->
  32 * List.length (dumped s y) + 65 <= fuel ->
  exists y', load_text fuel (dumped s y) = Ok [y'] /\ alike comes_back y y' /\
    (alike same_scalar y y' <-> all_scalars survives y).
Proof. exact round_trip. Qed.
Print Assumptions C25_round_trip_partial.
Example C25_round_trip_meets :
  let s := default_settings any_writer in
  let y := YMap [(YScalar (SString (str "a: b")), YSeq [YScalar (SInt (-7)); YSeq []; YMap [(YSeq [YScalar SNull], YScalar (SBool true))]]);
                 (YScalar (SInt 3), YScalar (SFloat (FNum true 15 (-1))))] in
  all_scalars valid_scalar y /\ scalar_keys (fun v => List.length (dumped s (YScalar v)) <= 1028) y /\
  load_text (32 * List.length (dumped s y) + 65) (dumped s y) = Ok [y].
Proof. repeat split; try (cbn; intuition congruence); vm_compute; try reflexivity; try discriminate; repeat constructor. Qed.
(** Strings of several lines in a mapping, in a sequence and in a complex key. *)
Example C25_literal_meets :
  let s := Settings 2 true true any_writer in
  let t := str "a: #b" ++ [10; 10]%N ++ str "  - c" ++ [10%N] in
  let u := [10%N] ++ str "---" ++ [10%N] ++ str "'" in
  let y := YMap [(YScalar (SString (str "k")), YSeq [YScalar (SString t); YScalar (SString u)]);
                 (YSeq [YScalar (SString u)], YScalar (SString t))] in
  all_scalars valid_scalar y /\ fits_blocks y /\ scalar_keys (fun v => List.length (dumped s (YScalar v)) <= 1028) y /\
  In (str "k:" ++ [10%N] ++ str "  - |" ++ [10%N] ++ str "    a: #b") (map (firstn 18) [skipn 4 (dumped s y)]) /\
  load_text (32 * List.length (dumped s y) + 65) (dumped s y) = Ok [y].
Proof.
  cbv zeta.
  assert (T : literal_string (str "a: #b" ++ [10; 10]%N ++ str "  - c" ++ [10%N])).
  { exists [str "a: #b"; []], (str "  - c"), true. split; [reflexivity|]. split; [|split; [discriminate|vm_compute; discriminate]].
    repeat constructor; cbn; intuition discriminate. }
  assert (U : literal_string ([10%N] ++ str "---" ++ [10%N] ++ str "'")).
  { exists [[]; str "---"], (str "'"), false. split; [reflexivity|]. split; [|split; [discriminate|vm_compute; discriminate]].
    repeat constructor; cbn; intuition discriminate. }
  split; [cbn; intuition|]. split.
  { split; [|split; [|exact I]].
    - cbn [all_scalars fold_right fst snd block_string]. split; [split; [intros H; vm_compute in H; intuition discriminate|]|]; auto 10.
    - cbn. intuition discriminate. }
  split; [cbn; intuition; vm_compute; repeat constructor|]. split; [left; vm_compute; reflexivity|]. vm_compute. reflexivity.
Qed.
(** A whole document. *)
Example C25_literal_document_meets :
  let s := Settings 2 true true any_writer in
  let y := YScalar (SString (str "a" ++ [10%N] ++ str "  b" ++ [10%N])) in
  fits_blocks y /\ dumped s y = str "---" ++ [10%N] ++ str "|" ++ [10%N] ++ str "a" ++ [10%N] ++ str "  b" /\
  load_text (32 * List.length (dumped s y) + 65) (dumped s y) = Ok [y].
Proof.
  cbv zeta.
  assert (D : literal_document (str "a" ++ [10%N] ++ str "  b" ++ [10%N])).
  { exists [str "a"], (str "  b"), true. split; [reflexivity|]. split; [split; [|split; [discriminate|vm_compute; discriminate]]|split].
    - repeat constructor; cbn; intuition discriminate.
    - apply Forall_forall. intros x H (c & r & _ & E & _). destruct H as [<-|[<-|[]]]; vm_compute in E; congruence.
    - vm_compute. discriminate. }
  split; [|split; vm_compute; reflexivity]. split; [|split; [exact I|auto]]. cbn [all_scalars block_string]. intros _.
  destruct D as (ls & l & e & A & B & _). exists ls, l, e. auto.
Qed.

(** The claim fails: a string like an octal number, a float that is a whole number, an infinity and a
    key of more than 1024 bytes. *)
Theorem C25_refuted : exists y1 y2 y3 y4,
  let s := default_settings any_writer in
  let back y := load_text (32 * List.length (dumped s y) + 65) (dumped s y) in
  (y1 = YScalar (SString (str "0o17")) /\ back y1 = Ok [YScalar (SInt 15)]) /\
  (y2 = YScalar (SFloat (FNum false 1 0)) /\ back y2 = Ok [YScalar (SInt 1)]) /\
  (y3 = YScalar (SFloat (FInf false)) /\ back y3 = Ok [YScalar (SString (str "inf"))]) /\
  (exists k e, y4 = YMap [(YScalar (SString k), YScalar SNull)] /\ List.length k = 1025 /\ back y4 = Err e).
Proof.
  eexists _, _, _, (YMap [(YScalar (SString (repeat 97%N 1025)), YScalar SNull)]). cbv zeta.
  split; [split; [reflexivity|vm_compute; reflexivity]|].
  split; [split; [reflexivity|vm_compute; reflexivity]|].
  split; [split; [reflexivity|vm_compute; reflexivity]|].
  eexists _, _. split; [reflexivity|]. split; [reflexivity|]. vm_compute. reflexivity.
Qed.
Print Assumptions C25_refuted.

(** Written as literal blocks, strings fail where all scalars would survive in quotes: a first line
    with leading spaces, a line that looks like the end of the document, a key, more than one line feed
    at the end, and a document that starts with a tab. *)
Theorem C25_literal_refuted : exists t1 t2 t3 t4 t5,
  let s := Settings 2 true true any_writer in
  let back y := load_text (32 * List.length (dumped s y) + 65) (dumped s y) in
  (~ misread t1 /\ exists e, back (YSeq [YScalar (SString t1)]) = Err e) /\
  (~ misread t2 /\ exists t, back (YScalar (SString t2)) = Ok [YScalar (SString t)] /\ t <> t2) /\
  (~ misread t3 /\ exists t, back (YMap [(YScalar (SString t3), YScalar SNull)]) = Ok [YScalar (SString t)]) /\
  (~ misread t4 /\ exists t, back (YSeq [YScalar (SString t4)]) = Ok [YSeq [YScalar (SString t)]] /\ t <> t4) /\
  (~ misread t5 /\ exists e, back (YScalar (SString t5)) = Err e).
Proof.
  exists (str "  a" ++ [10%N] ++ str "b"), (str "a" ++ [10%N] ++ str "..."), (str "a" ++ [10%N] ++ str "b"),
    (str "a" ++ [10; 10]%N), (9%N :: str "a" ++ [10%N] ++ str "b"). cbv zeta.
  split; [split; [apply not_misread_quoted; reflexivity|]|].
  { eexists. vm_compute. reflexivity. }
  split; [split; [apply not_misread_quoted; reflexivity|]|].
  { eexists. split; [vm_compute; reflexivity|discriminate]. }
  split; [split; [apply not_misread_quoted; reflexivity|]|].
  { eexists. vm_compute. reflexivity. }
  split; [split; [apply not_misread_quoted; reflexivity|]|].
  { eexists. split; [vm_compute; reflexivity|discriminate]. }
  split; [apply not_misread_quoted; reflexivity|]. eexists. vm_compute. reflexivity.
Qed.
Print Assumptions C25_literal_refuted.
