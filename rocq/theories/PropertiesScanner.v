(** Property theorems about the scanner: C27, C28, C30, C36, C50. *)
From Verif Require Import Base Tokens Scalar Chars Source Cursor Scanner SpecScan
  CursorProofs CursorScalars ScannerInv ScannerFetch ScannerRun ScannerTheorems ScannerHang ScannerStated.
From Coq Require Import String.

(** ** C27 *)
(** Full statement: for every text some bound on the steps is enough. *)
Theorem C27_refuted : exists i, forall fuel, snd (snd (scan fuel i)) = Fuel.
Proof. exact (ex_intro _ [13%N] cr_hangs). Qed.
Print Assumptions C27_refuted.
Theorem C27_quoted_nul_refuted : exists i, ~ In 13%N i /\ forall fuel, snd (snd (scan fuel i)) = Fuel.
Proof. exact nul_hangs_without_cr. Qed.
Print Assumptions C27_quoted_nul_refuted.
(** Missing: texts with a carriage return alone, with a NUL byte, or with block scalars and either a line that begins with
    125 spaces or a header of a block scalar behind 116 bytes of its line; some of them make the scanner run forever, see
    also [C27_wide_block_refuted]. *)
Theorem C27_scanning_ends_partial i fuel :
  crlf_only i -> ~ In 0%N i -> (indents_within 124 i /\ headers_within 115 i) \/ (~ In 124%N i /\ ~ In 62%N i) ->
  6 * List.length i + 6 <= fuel -> snd (snd (scan fuel i)) <> Fuel.
Proof. exact (scan_ends_stated i fuel). Qed.
Print Assumptions C27_scanning_ends_partial.
(** Without reserved indicators the outcome is the end of the stream or one error with a marker. *)
Theorem C27_outcomes_partial fuel i :
  crlf_only i -> ~ In 0%N i -> (indents_within 124 i /\ headers_within 115 i) \/ (~ In 124%N i /\ ~ In 62%N i) ->
  ~ In 37%N i -> ~ In 64%N i -> ~ In 96%N i -> 6 * List.length i + 6 <= fuel ->
  exists l z, scan fuel i = (l, (z, Ok tt)) /\
    ((exists m msg, z_error z = Some (ScannerErr m msg)) \/
     (z_error z = None /\ exists q t, l = q ++ [t] /\ k_type t = TStreamEnd)).
Proof. exact (outcomes_stated fuel i). Qed.
Print Assumptions C27_outcomes_partial.
Example C27_example : let i := (str "- [a, ""b""]
- c: |
   d and a line that is longer than any limit, for there is none on the length of lines, however many bytes they have, not even here
  e: &x 'f'
") in
  (crlf_only i /\ ~ In 0%N i /\ (indents_within 124 i /\ headers_within 115 i) /\ ~ In 37%N i /\ ~ In 64%N i /\ ~ In 96%N i) /\
  List.length (fst (scan (6 * List.length i + 6) i)) = 22.
Proof.
  cbv zeta. split; [|vm_compute; reflexivity].
  split; [apply no_cr; reflexivity|]. split; [apply no_byte_ok; reflexivity|].
  split; [split; [apply indents_checked; reflexivity|apply signs_checked; reflexivity]|]. split; [apply no_byte_ok; reflexivity|].
  split; apply no_byte_ok; reflexivity.
Qed.

(** ** C28 *)
(** Full statement: after any number of calls the marker is the place of the next byte. *)
Theorem C28_refuted : exists n fuel i l z o,
  scan_run n fuel (scanner_new i) = (l, (z, o)) /\
  ~ place i (ss_pos (c_src (z_cur z))) (c_mark (z_cur z)).
Proof. exact position_refuted. Qed.
Print Assumptions C28_refuted.
(** Missing: the marker set at the end of the stream, which is one line below the text. *)
Theorem C28_positions_partial n fuel i l z o : scan_run n fuel (scanner_new i) = (l, (z, o)) ->
  (place i (ss_pos (c_src (z_cur z))) (c_mark (z_cur z)) \/
   (ss_pos (c_src (z_cur z)) = List.length i /\ below_end i (c_mark (z_cur z)))) /\
  Forall (fun t => spans i (List.length i) t \/ closing_token i t) l.
Proof. exact (positions_stated n fuel i l z o). Qed.
Print Assumptions C28_positions_partial.
(** The error that stops the scanner is at a place of the part read. *)
Theorem C28_error_positions n fuel i l z : scan_run n fuel (scanner_new i) = (l, (z, Ok tt)) ->
  match z_error z with
  | None => True
  | Some (ScannerErr m _) =>
      (exists k, k <= ss_pos (c_src (z_cur z)) /\ place i k m) \/ below_end i m
  | Some _ => False
  end.
Proof. exact (run_error i fuel n l z). Qed.
Print Assumptions C28_error_positions.
Example C28_example : let r := scan_run 6 60 (scanner_new (str "a: &x b")) in
  map (fun t => m_pos (s_start (k_span t))) (fst r) = [0; 0; 0; 0; 1; 3]%N /\
  c_mark (z_cur (fst (snd r))) = Marker 5 6 1.
Proof. vm_compute. auto. Qed.
Example C28_error_example : let r := scan 60 (str "a: b: c") in
  snd (snd r) = Ok tt /\ exists m msg, z_error (fst (snd r)) = Some (ScannerErr m msg).
Proof. vm_compute. eauto. Qed.

(** ** C30 *)
(** Full statement: after a complete scan every block collection is closed. *)
Theorem C30_refuted : exists fuel i l z,
  scan fuel i = (l, (z, Ok tt)) /\ z_error z = None /\ block_depth l <> 0%Z /\ z_indents z <> [].
Proof. exact blocks_refuted. Qed.
Print Assumptions C30_refuted.
(** Missing: scans that end inside a flow collection. *)
Theorem C30_blocks_balanced_partial fuel i l z :
  scan fuel i = (l, (z, Ok tt)) -> z_error z = None -> z_flow z = 0%N ->
  never_negative l /\ block_depth l = 0%Z /\ z_indents z = [].
Proof. exact (balanced_stated fuel i l z). Qed.
Print Assumptions C30_blocks_balanced_partial.
(** At every moment, no block is closed twice and the recorded indentation grows strictly from the
    outermost block to the innermost. *)
Theorem C30_at_every_moment fuel i l z : delivered fuel (scanner_new i) l z ->
  never_negative l /\ decreasing (z_indent z :: map fst (z_indents z)).
Proof. exact (delivered_blocks i fuel l z). Qed.
Print Assumptions C30_at_every_moment.
(** A complete scan delivers the end of the stream once, at the end. *)
Theorem C30_one_stream_end fuel i l z : scan fuel i = (l, (z, Ok tt)) -> z_error z = None ->
  exists q t, l = q ++ [t] /\ k_type t = TStreamEnd /\ Forall (fun t => k_type t <> TStreamEnd) q.
Proof. exact (one_end_stated fuel i l z). Qed.
Print Assumptions C30_one_stream_end.
Example C30_example : let r := scan 200 (str "- [a, ""b""]
- c: |
   d
  e: &x 'f'
") in
  snd (snd r) = Ok tt /\ z_error (fst (snd r)) = None /\ z_flow (fst (snd r)) = 0%N /\
  List.length (filter (fun t => match k_type t with TBlockEnd => true | _ => false end) (fst r)) = 2.
Proof. vm_compute. auto. Qed.
Example C30_moment_example : exists l z, delivered 60 (scanner_new (str "- a: b")) l z /\
  block_depth l = 2%Z /\ map fst (z_indents z) = [3; 1; 0]%N.
Proof. exact moment_example. Qed.

(** ** C36 *)
Theorem C36_refuted : exists fuel i, snd (snd (scan fuel i)) = Ub.
Proof. exact peek_refuted. Qed.
Print Assumptions C36_refuted.
(** Missing: texts with a reserved indicator among the last three bytes. *)
Theorem C36_reads_inside_partial fuel i :
  ~ reserved_near_end i -> snd (snd (scan fuel i)) <> Ub.
Proof. exact (reads_inside_stated fuel i). Qed.
Print Assumptions C36_reads_inside_partial.
Example C36_example : ~ reserved_near_end (str "@abc") /\ snd (snd (scan 60 (str "@abc"))) = Ok tt.
Proof. exact reserved_example. Qed.

(** ** C50 *)
Theorem C50_refuted : exists fuel i, snd (snd (scan fuel i)) = Panic.
Proof. exact panic_refuted. Qed.
Print Assumptions C50_refuted.
(** Missing: texts with a directive and a number of three digits. *)
Theorem C50_no_panic_partial fuel i :
  ~ (In 37%N i /\ three_digits i) -> snd (snd (scan fuel i)) <> Panic.
Proof. exact (no_panic_stated fuel i). Qed.
Print Assumptions C50_no_panic_partial.
Example C50_example : ~ (In 37%N (str "a: 123") /\ three_digits (str "a: 123")) /\
  snd (snd (scan 60 (str "a: 123"))) = Ok tt /\ snd (snd (scan 60 (str "%YAML 1.2"))) = Ok tt.
Proof. exact panic_example. Qed.

