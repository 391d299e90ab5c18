(** Property theorems about sources and byte vectors: C31, C32, C33, C34, C35, C43. *)
From Verif Require Import Base Chars Escaper Source Simd Buffered SpecSource SourceProofs SimdProofs BufferedProofs.
From Coq Require Import String Lia.

(** C31.  The rest of the text always has the form [blanks ++ after] (second theorem). *)
Theorem C31_skip_exactly : forall (fuel : nat) (s : strsrc) (tabs has : bool) (blanks after : text),
  skipn (ss_pos s) (ss_input s) = blanks ++ after ->
  Forall (blank_for tabs) blanks -> ~ starts (blank_for tabs) after ->
  List.length (ss_input s) < fuel ->
  let any' := existsb (N.eqb 9) blanks in
  let has' := has || existsb (N.eqb 32) blanks in
  (~ starts (fun c => c = 35%N) after ->
    str_skip_ws_to_eol fuel s tabs has
    = Some (StrSrc (ss_input s) (ss_pos s + List.length blanks), (List.length blanks, SkipOk any' has'))) /\
  (forall comment tail, after = 35%N :: comment ++ tail -> has = true \/ blanks <> [] ->
    Forall in_line comment -> line_end tail ->
    let n := List.length blanks + S (List.length comment) in
    str_skip_ws_to_eol fuel s tabs has
    = Some (StrSrc (ss_input s) (ss_pos s + n), (n, SkipOk any' has'))) /\
  (starts (fun c => c = 35%N) after -> has = false -> blanks = [] ->
    str_skip_ws_to_eol fuel s tabs has
    = Some (s, (0, SkipErr "comments must be separated from other tokens by whitespace"))).
Proof. exact str_skip_ws_spec. Qed.
Print Assumptions C31_skip_exactly.
Theorem C31_every_text_splits : forall (tabs : bool) (t : text),
  (exists blanks after, t = blanks ++ after /\ Forall (blank_for tabs) blanks /\ ~ starts (blank_for tabs) after) /\
  (exists comment tail, t = comment ++ tail /\ Forall in_line comment /\ line_end tail).
Proof. exact (fun tabs t => conj (blanks_split tabs t) (comment_split t)). Qed.
Print Assumptions C31_every_text_splits.
Example C31_example :
  str_skip_ws_to_eol 20 (StrSrc (str "a 	 # b c") 1) true false
    = Some (StrSrc (str "a 	 # b c") 9, (8, SkipOk true true)) /\
  str_skip_ws_to_eol 20 (StrSrc (str "a 	 x") 1) false false
    = Some (StrSrc (str "a 	 x") 2, (1, SkipOk false true)).
Proof. vm_compute. auto. Qed.

(** C43.  [ks] are the amounts skipped, one after the other. *)
Theorem C43_peek_after_skips : forall (input : text) (ks : list nat) (n : nat),
  let s := fold_left (fun s k => str_skip k s) ks (str_new input) in
  str_peek s n = nth_error input (list_sum ks + n) /\
  peekz str_ops s n = nth (list_sum ks + n) input 0%N /\
  str_buf_is_empty s = Nat.leb (List.length input) (list_sum ks).
Proof.
  exact (fun input ks n =>
    conj (f_equal (fun s => str_peek s n) (str_skips input ks))
      (conj (eq_trans (f_equal (fun s => peekz str_ops s n) (str_skips input ks))
               (eq_trans (peekz_str (StrSrc input (list_sum ks)) n) (nth_skipn (list_sum ks) input n 0%N)))
            (f_equal str_buf_is_empty (str_skips input ks)))).
Qed.
Print Assumptions C43_peek_after_skips.
Theorem C43_document_indicator : forall s : strsrc,
  next_is_document_indicator str_ops s = true <->
  exists c tail, (c = 45%N \/ c = 46%N) /\
    skipn (ss_pos s) (ss_input s) = c :: c :: c :: tail /\ separated tail.
Proof. exact document_indicator_iff. Qed.
Print Assumptions C43_document_indicator.
Theorem C43_plain_scalar_ends : forall (s : strsrc) (in_flow : bool),
  next_can_be_plain_scalar str_ops s in_flow = false <->
  (exists tail, skipn (ss_pos s) (ss_input s) = 58%N :: tail /\
     (separated tail \/ (in_flow = true /\ starts flow_byte tail))) \/
  (in_flow = true /\ starts flow_byte (skipn (ss_pos s) (ss_input s))).
Proof. exact can_be_plain_iff. Qed.
Print Assumptions C43_plain_scalar_ends.
Example C43_example :
  let s := fold_left (fun s k => str_skip k s) [2; 0; 3] (str_new (str "ab---: c")) in
  (str_peek s 0, peekz str_ops s 9, next_is_document_indicator str_ops (str_skip 2 (str_new (str "ab--- "))),
   next_can_be_plain_scalar str_ops s false) = (Some 58%N, 0%N, true, false).
Proof. vm_compute. reflexivity. Qed.

(** C32.  Refuted: a single skip of 33 bytes drops only 32. *)
Theorem C32_refuted : exists (t : text) (k n : nat), n < 32 /\
  buf_peek (buf_skip k (buf_new t)) n <> str_peek (str_skip k (str_new t)) n.
Proof. exists (repeat 120%N 33 ++ [121%N]), 33, 0. split; [lia|]. vm_compute. discriminate. Qed.
Print Assumptions C32_refuted.
(** What holds: for skips by any amounts other than 33 (the scanner skips at most eight bytes at once). *)
Theorem C32_buffered_peek_partial : forall (t : text) (ks : list nat) (n : nat),
  Forall (fun k => k <> 33) ks -> n < 32 ->
  buf_peek (fold_left (fun s k => buf_skip k s) ks (buf_new t)) n =
  str_peek (fold_left (fun s k => str_skip k s) ks (str_new t)) n.
Proof. exact buffered_peek. Qed.
Print Assumptions C32_buffered_peek_partial.
Theorem C32_buffered_empty_partial : forall (t : text) (ks : list nat),
  Forall (fun k => k <> 33) ks ->
  buf_is_empty (fold_left (fun s k => buf_skip k s) ks (buf_new t)) =
  str_buf_is_empty (fold_left (fun s k => str_skip k s) ks (str_new t)).
Proof. exact buffered_empty. Qed.
Print Assumptions C32_buffered_empty_partial.
Example C32_example :
  let t := map N.of_nat (seq 0 100) in
  buf_peek (fold_left (fun s k => buf_skip k s) [5; 34; 1; 32] (buf_new t)) 7 = Some 79%N.
Proof. vm_compute. reflexivity. Qed.

(** C33.  Refuted: with 32 bytes in the buffer the vectorised code passes over text that is not white space. *)
Theorem C33_refuted : exists (t : text) (tabs has : bool) b s, forall fuel, 1 < fuel ->
  buf_skip_ws_to_eol fuel (buf_new t) tabs has = Some (b, (32, SkipOk false false)) /\
  str_skip_ws_to_eol fuel (str_new t) tabs has = Some (s, (0, SkipOk false false)).
Proof.
  exists (repeat 120%N 32 ++ [10%N]), true, false. do 2 eexists.
  intros fuel H. destruct fuel as [|[|fuel]]; [lia|lia|]. split; reflexivity.
Qed.
Print Assumptions C33_refuted.
(** Neither comments nor tabs are reported alike. *)
Theorem C33_flags_refuted : exists t1 t2 : text,
  buf_skip_ws_to_eol 64 (buf_new t1) true false <> None /\
  option_map snd (buf_skip_ws_to_eol 64 (buf_new t1) true false) <>
  option_map snd (str_skip_ws_to_eol 64 (str_new t1) true false) /\
  option_map snd (buf_skip_ws_to_eol 64 (buf_new t2) true false) = Some (40, SkipOk false true) /\
  option_map snd (str_skip_ws_to_eol 64 (str_new t2) true false) = Some (40, SkipOk true true).
Proof.
  exists (35%N :: repeat 97%N 34 ++ [10%N]), (9%N :: repeat 32%N 39 ++ [10%N]). vm_compute.
  repeat split; discriminate.
Qed.
Print Assumptions C33_flags_refuted.
(** What holds: with fewer than 32 bytes left, for every text. *)
Theorem C33_short_text_partial : forall (fuel : nat) (t : text) (tabs has : bool),
  List.length t < 32 -> 0 < fuel ->
  match buf_skip_ws_to_eol fuel (buf_new t) tabs has, str_skip_ws_to_eol fuel (str_new t) tabs has with
  | Some (b, r), Some (s, r') => r = r' /\ exists t', buf_view b t' /\ str_view s t'
  | None, None => True
  | _, _ => False
  end.
Proof.
  exact (fun fuel t tabs has L Hf =>
    eq_ind_r (fun x => match x, str_skip_ws_to_eol fuel (str_new t) tabs has with
       | Some (b, r), Some (s, r') => r = r' /\ exists t', buf_view b t' /\ str_view s t'
       | None, None => True | _, _ => False end)
     (shared_same buf_ops str_ops buf_view str_view buf_follows str_follows fuel (buf_new t) (str_new t) t
        tabs 0 false has (new_view t) eq_refl)
     (buf_short fuel (buf_new t) t tabs has (new_view t) L Hf)).
Qed.
Print Assumptions C33_short_text_partial.
(** ... and for any number of spaces up to the end of the line or of the text (the string source
    answers the same by [C31_skip_exactly]). *)
Theorem C33_spaces_partial : forall (tabs : bool) (fuel n : nat) (after : text) (s : bufsrc) (has : bool),
  buf_view s (repeat 32%N n ++ after) -> Forall is_byte after ->
  after = [] \/ starts break_byte after -> has = true \/ 0 < n -> n < fuel ->
  exists s', buf_skip_ws_to_eol fuel s tabs has = Some (s', (n, SkipOk false true)) /\ buf_view s' after.
Proof. exact (fun tabs fuel n after s has => buf_spaces_spec tabs fuel n after s has 0). Qed.
Print Assumptions C33_spaces_partial.
Example C33_example :
  option_map snd (buf_skip_ws_to_eol 80 (buf_new (repeat 32%N 70 ++ [10%N; 97%N])) true false) = Some (70, SkipOk false true) /\
  option_map snd (str_skip_ws_to_eol 80 (str_new (repeat 32%N 70 ++ [10%N; 97%N])) true false) = Some (70, SkipOk false true).
Proof. vm_compute. auto. Qed.

(** C34. *)
Theorem C34_comparison_masks : forall (v : vec) (c : N) (i : nat),
  (List.length v = 16 ->
    (N.testbit (comp_to_bitmask16 v c) (N.of_nat i) = true <-> nth_error v i = Some c)) /\
  (List.length v = 32 ->
    (N.testbit (comp_to_bitmask32 v c) (N.of_nat i) = true <-> nth_error v i = Some c) /\
    (N.testbit (to_bitmask32 (comp32 v c)) (N.of_nat i) = true <-> nth_error v i = Some c)).
Proof.
  exact (fun v c i => conj (fun L => mask_lanes 16 v c _ L (comp_bitmask_mask 16 v c) i)
    (fun L => conj (mask_lanes 32 v c _ L (comp_bitmask_mask 32 v c) i)
                   (mask_lanes 32 v c _ L (comp_to_mask v c) i))).
Qed.
Print Assumptions C34_comparison_masks.
Theorem C34_first_equal_lane : forall (v : vec) (c : N),
  (List.length v = 16 ->
    (forall l r, v = l ++ c :: r -> ~ In c l -> trailing_zeros (comp_to_bitmask16 v c) = List.length l) /\
    (~ In c v -> comp_to_bitmask16 v c = 0%N)) /\
  (List.length v = 32 ->
    (forall l r, v = l ++ c :: r -> ~ In c l -> trailing_zeros (comp_to_bitmask32 v c) = List.length l) /\
    (~ In c v -> comp_to_bitmask32 v c = 0%N)).
Proof.
  exact (fun v c => conj (fun L => mask_first 16 v c _ (Nat.lt_le_incl 16 32 ltac:(lia)) L (comp_bitmask_mask 16 v c))
    (fun L => mask_first 32 v c _ (le_n 32) L (comp_bitmask_mask 32 v c))).
Qed.
Print Assumptions C34_first_equal_lane.
(** The 16-lane [to_bitmask] has terms for 32 lanes and panics on every vector. *)
Theorem C34_to_bitmask16_panics : forall v : vec, List.length v = 16 -> to_bitmask16 v = Panic.
Proof. unfold to_bitmask16. intros v ->. reflexivity. Qed.
Print Assumptions C34_to_bitmask16_panics.
Example C34_example :
  let v := map N.of_nat (seq 0 32) in
  (comp_to_bitmask32 v 5, to_bitmask32 (comp32 v 31), trailing_zeros (comp_to_bitmask32 v 7))
  = (32, 2147483648, 7%nat)%N.
Proof. vm_compute. reflexivity. Qed.

(** C35.  Refuted on the last line: nothing is collected. *)
Theorem C35_refuted : exists t : text, t <> [] /\ (forall c, In c t -> ~ break_byte c) /\
  str_push_non_breakz_chr (str_new t) = (str_new t, Ok []) /\
  buf_push_non_breakz_chr 2 (buf_new t) = Some (buf_new t, []).
Proof.
  exists (str "abc"). repeat split; try discriminate.
  intros c Hc. unfold break_byte. cbn in Hc. intuition (subst; discriminate).
Qed.
Print Assumptions C35_refuted.
(** What holds: every line that ends in a line break, with both sources. *)
Theorem C35_line_partial : forall (s : strsrc) (l r : text),
  skipn (ss_pos s) (ss_input s) = l ++ r -> ss_pos s <= List.length (ss_input s) ->
  Forall (fun c => ~ break_byte c) l -> starts break_byte r ->
  str_push_non_breakz_chr s = (StrSrc (ss_input s) (ss_pos s + List.length l), Ok l).
Proof. exact str_push_line. Qed.
Print Assumptions C35_line_partial.
Theorem C35_buffered_line_partial : forall (fuel : nat) (s : bufsrc) (l r : text),
  buf_view s (l ++ r) -> Forall (fun c => ~ break_byte c) l -> starts break_byte r ->
  List.length l < fuel ->
  exists s', buf_push_non_breakz_chr fuel s = Some (s', l) /\ buf_view s' r.
Proof. exact (fun fuel s l r => buf_push_spec fuel l r s []). Qed.
Print Assumptions C35_buffered_line_partial.
(** ... and what happens on the last line of any text: nothing is collected, nothing consumed. *)
Theorem C35_last_line : forall s : strsrc, ss_pos s <= List.length (ss_input s) ->
  Forall (fun c => ~ break_byte c) (skipn (ss_pos s) (ss_input s)) ->
  str_push_non_breakz_chr s = (s, Ok []).
Proof. exact str_push_last. Qed.
Print Assumptions C35_last_line.
Example C35_example :
  str_push_non_breakz_chr (StrSrc (str "a bc" ++ [10; 100])%N 1) = (StrSrc (str "a bc" ++ [10; 100])%N 4, Ok (str " bc")) /\
  option_map snd (buf_push_non_breakz_chr 50 (buf_new (repeat 97%N 40 ++ [13; 10; 98])%N)) = Some (repeat 97%N 40).
Proof. vm_compute. auto. Qed.
