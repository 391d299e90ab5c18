(** Whatever the scanner accepts between quotes is a quoted scalar. *)
From Verif Require Import Base Tokens Scalar Chars Source Cursor SpecScalar SpecJson SpecQuoted SpecBlock SpecPlain SpecStrings SpecAccept
  ExactCursor FoldedQuotes ExactPlain JsonCursor BlockScan PlainScan SpecLayout LayoutCursor StringScan.
From Coq Require Import String Lia ZifyBool ZifyNat ZifyN.
Local Open Scope list_scope.
Local Open Scope m_scope.

(** ** Characters *)
Lemma bind_ok {S A B} (x : M S A) (f : A -> M S B) c c' b : bind x f c = (c', Ok b) -> exists c1 a, x c = (c1, Ok a) /\ f a c1 = (c', Ok b).
Proof. unfold bind. destruct (x c) as [c1 [a|e| | |]]; intros H; try discriminate. exists c1, a. now split. Qed.
Lemma hexdigit_is c : is_ascii_hexdigit c = true -> hex_digit c.
Proof. unfold is_ascii_hexdigit, is_ascii_digit, hex_digit. lia. Qed.
Lemma hex_ok start n : forall i value pre rest m l s c' v, hex_value start n i value (cur pre rest m l s) = (c', Ok v) ->
  c' = cur pre rest m l s /\ exists h rest', skipn i rest = h ++ rest' /\ List.length h = n /\ Forall hex_digit h.
Proof.
  induction n as [|n IH]; intros i value pre rest m l s c' v H; cbn [hex_value] in H.
  - injection H as <- <-. split; [reflexivity|]. exists [], (skipn i rest). now repeat split.
  - apply bind_ok in H. destruct H as (c1 & c & E & H). rewrite e_peek in E. injection E as <- <-.
    destruct (is_ascii_hexdigit (nth i rest 0%N)) eqn:X; cbn [negb] in H; [|discriminate]. destruct (as_hex _) as [d|]; [|discriminate].
    apply IH in H. destruct H as (-> & h & rest' & E & L & F). split; [reflexivity|].
    assert (I : i < List.length rest).
    { destruct (Nat.lt_ge_cases i (List.length rest)) as [I|I]; [exact I|]. rewrite nth_overflow in X by exact I. discriminate. }
    exists (nth i rest 0%N :: h), rest'. split; [|split; [cbn; congruence|constructor; [now apply hexdigit_is|exact F]]].
    cbn [app]. rewrite <- E. clear - I. revert rest I. induction i as [|i IH]; intros [|x rest] I; cbn in *; try lia; [reflexivity|]. apply IH. lia.
Qed.
Ltac codes H :=
  repeat match type of H with (if ?b then _ else _) = _ =>
    let Q := fresh "Q" in destruct b eqn:Q; [repeat (apply orb_prop in Q; destruct Q as [Q|Q]); apply N.eqb_eq in Q; subst; first [discriminate H|injection H as <-]; cbn; tauto|clear Q] end;
  discriminate H.
Lemma escape_in c x : escape_code c = Some (inl x) -> In (c, x) escapes.
Proof. unfold escape_code. intros H. codes H. Qed.
Lemma code_in c n : escape_code c = Some (inr n) -> In (c, n) code_escapes.
Proof. unfold escape_code. intros H. codes H. Qed.
Lemma code_short c n : In (c, n) code_escapes -> n <= 8.
Proof. cbn [code_escapes In]. intros [H|[H|[H|[]]]]; injection H as _ <-; lia. Qed.
Lemma utf8_total v : (v <= 1114111)%N -> utf8_of v (utf8 v).
Proof.
  intros V. unfold utf8.
  pose proof (N.div_mod v 64 ltac:(discriminate)) as D1. pose proof (N.mod_lt v 64 ltac:(discriminate)) as M1.
  pose proof (N.div_mod (v / 64) 64 ltac:(discriminate)) as D2. pose proof (N.mod_lt (v / 64) 64 ltac:(discriminate)) as M2.
  pose proof (N.div_mod (v / 64 / 64) 64 ltac:(discriminate)) as D3. pose proof (N.mod_lt (v / 64 / 64) 64 ltac:(discriminate)) as M3.
  assert (Q2 : (v / 64 / 64 = v / 4096)%N) by (now rewrite N.div_div by discriminate).
  assert (Q3 : (v / 64 / 64 / 64 = v / 262144)%N) by (now rewrite !N.div_div by discriminate).
  destruct (N.ltb_spec v 128) as [L|L]; [now constructor|].
  destruct (N.ltb_spec v 2048) as [L2|L2].
  { replace v with (v / 64 * 64 + v mod 64)%N at 1 by lia. constructor; lia. }
  destruct (N.ltb_spec v 65536) as [L3|L3].
  - rewrite <- Q2. replace v with (v / 64 / 64 * 4096 + (v / 64) mod 64 * 64 + v mod 64)%N at 1 by lia. constructor; lia.
  - rewrite <- Q3, <- Q2. replace v with (v / 64 / 64 / 64 * 262144 + (v / 64 / 64) mod 64 * 4096 + (v / 64) mod 64 * 64 + v mod 64)%N at 1 by lia. constructor; lia.
Qed.
(** One turn over characters. *)
Lemma escape_ok start c rest pre m l s c' ch : resolve_escape start (cur pre (92%N :: c :: rest) m l s) = (c', Ok ch) ->
  exists p rest', 92%N :: c :: rest = p ++ rest' /\ piece false p (utf8 ch).
Proof.
  unfold resolve_escape. intros H. apply bind_ok in H. destruct H as (c1 & x & E & H). rewrite e_peek in E. cbn [nth] in E. injection E as <- <-.
  destruct (escape_code c) as [[y|n]|] eqn:EC; [| |discriminate].
  - apply bind_ok in H. destruct H as (c2 & [] & E & H). injection H as <- <-.
    exists [92%N; c], rest. split; [reflexivity|]. apply (pc_escape false c y); [reflexivity|now apply escape_in|].
    apply utf8_total. apply escape_in in EC. cbn [escapes In] in EC. repeat (destruct EC as [EC|EC]; [injection EC as _ <-; lia|]). contradiction.
  - apply bind_ok in H. destruct H as (c2 & [] & E & H). change (92%N :: c :: rest) with ([92%N; c] ++ rest) in E. rewrite e_skip_n in E by reflexivity.
    injection E as <-. apply bind_ok in H. destruct H as (c3 & value & E & H). apply code_in in EC. pose proof (code_short _ _ EC) as N8.
    assert (E' := E). apply hex_ok in E. destruct E as (-> & h & rest' & E & LH & FH). cbn [skipn] in E.
    destruct (char_from_u32 value) as [v|] eqn:CU; [|discriminate]. apply bind_ok in H. destruct H as (c4 & [] & _ & H). injection H as _ <-.
    exists (92%N :: c :: h), rest'. split; [now rewrite E|].
    pose proof (hex_run start h [] (pre ++ [92%N; c]) rest' (mark_add 2 m) false s FH ltac:(cbn [app]; lia)) as HX.
    cbn [app List.length] in HX. change (Z.to_N (number 16 [])) with 0%N in HX. rewrite LH in HX. rewrite <- E in HX. cbn [List.length] in E'.
    rewrite E' in HX. injection HX as HX.
    unfold char_from_u32 in CU. destruct ((value <? 55296)%N || _) eqn:CB; [|discriminate]. injection CU as <-.
    apply (pc_code false c n h value); auto.
    + rewrite HX. pose proof (number_nonneg h). lia.
    + clear - CB. lia.
    + unfold surrogate. clear - CB. lia.
    + apply utf8_total. clear - CB. lia.
Qed.
(** Where the scanner stops: [rest'] is left. *)
Inductive chars_stop (single : bool) : text -> text -> bool -> Prop :=
| cst_end rest' : text_ends single rest' -> chars_stop single rest' rest' false
| cst_join b rest' : single = false -> chars_stop single (92%N :: eol b ++ rest') rest' true
| cst_cr rest' : single = false -> nth 0 rest' 0%N <> 10%N -> chars_stop single (92%N :: 13%N :: rest') (13%N :: rest') true.
Lemma consume_ok single start : forall fuel string pre rest m l s c' out j,
  consume_chars fuel single start string (cur pre rest m l s) = (c', Ok (out, j)) ->
  exists t u stop rest' l', chars single t u /\ out = string ++ u /\ rest = t ++ stop /\ chars_stop single stop rest' j /\
    exists x, stop = x ++ rest' /\ c' = cur (pre ++ t ++ x) rest' (marker_after (t ++ x) m) l' s.
Proof.
  induction fuel as [|fuel IH]; intros string pre rest m l s c' out j H; [discriminate|].
  assert (STEP : forall p v rest', rest = p ++ rest' -> piece single p v ->
    exists t u stop rest' l', chars single t u /\ out = string ++ u /\ rest = t ++ stop /\ chars_stop single stop rest' j /\
      exists x, stop = x ++ rest' /\ c' = cur (pre ++ t ++ x) rest' (marker_after (t ++ x) m) l' s).
  { intros p v rest' -> P. rewrite (piece_runs single start p v fuel string pre rest' m l s P) in H.
    apply IH in H. destruct H as (t & u & stop & r2 & l' & C & -> & -> & CS & x & -> & ->).
    exists (p ++ t), (v ++ u), (x ++ r2), r2, l'. split; [now constructor|]. split; [now rewrite app_assoc|]. split; [now rewrite app_assoc|].
    split; [exact CS|]. exists x. split; [reflexivity|]. rewrite <- !app_assoc, (marker_after_app p), (marker_flat p) by (apply (piece_shape single p v P)). reflexivity. }
  assert (STOP : forall l', text_ends single rest -> c' = cur pre rest m l' s -> out = string -> j = false ->
    exists t u stop rest' l', chars single t u /\ out = string ++ u /\ rest = t ++ stop /\ chars_stop single stop rest' j /\
      exists x, stop = x ++ rest' /\ c' = cur (pre ++ t ++ x) rest' (marker_after (t ++ x) m) l' s).
  { intros l' T -> -> ->. exists [], [], rest, rest, l'. split; [constructor|]. split; [now rewrite app_nil_r|]. split; [reflexivity|]. split; [now constructor|].
    exists []. split; [reflexivity|]. cbn [app marker_after]. now rewrite app_nil_r. }
  assert (H0 := H). cbn [consume_chars] in H. apply bind_ok in H. destruct H as (c1 & c & E & H). rewrite e_peek in E. injection E as <- <-.
  apply bind_ok in H. destruct H as (c1 & nc & E & H). rewrite e_peek in E. injection E as <- <-.
  destruct (is_blank_or_breakz (nth 0 rest 0%N)) eqn:Z. { injection H as <- <- <-. apply (STOP l); auto. now left. }
  destruct rest as [|b rest]; [discriminate|]. cbn [nth] in *.
  destruct ((b =? 39)%N && (nth 0 rest 0%N =? 39)%N && single) eqn:Q2.
  { apply andb_prop in Q2. destruct Q2 as [Q2 QS]. apply andb_prop in Q2. destruct Q2 as [Q1 Q2]. apply N.eqb_eq in Q1, Q2. subst b single.
    destruct rest as [|b2 rest]; [discriminate|]. cbn [nth] in Q2. subst b2. apply (STEP [39; 39]%N [39%N] rest); [reflexivity|now constructor]. }
  destruct ((b =? 39)%N && single) eqn:Q3.
  { injection H as <- <- <-. apply (STOP l); auto. right. apply andb_prop in Q3. destruct Q3 as [Q3 ->]. apply N.eqb_eq in Q3. subst b. split; [reflexivity|].
    intros _ E. cbn [nth] in E. rewrite E in Q2. discriminate. }
  destruct ((b =? 34)%N && negb single) eqn:Q4.
  { injection H as <- <- <-. apply (STOP l); auto. right. apply andb_prop in Q4. destruct Q4 as [Q4 QS]. apply N.eqb_eq in Q4. subst b.
    destruct single; [discriminate|]. split; [reflexivity|discriminate]. }
  destruct ((b =? 92)%N && negb single && is_break (nth 0 rest 0%N)) eqn:Q5.
  { apply andb_prop in Q5. destruct Q5 as [Q5 QB]. apply andb_prop in Q5. destruct Q5 as [Q5 QS]. apply N.eqb_eq in Q5. subst b. destruct single; [discriminate|].
    apply bind_ok in H. destruct H as (c1 & [] & E & H). rewrite e_skip_non_blank in E. injection E as <-.
    apply bind_ok in H. destruct H as (c1 & [] & E & H). injection H as <- <- <-.
    assert (J : (exists b r, rest = eol b ++ r) \/ (exists r, rest = 13%N :: r /\ nth 0 r 0%N <> 10%N)).
    { destruct rest as [|x r]; [discriminate|]. cbn [nth] in QB. assert (X : x = 10%N \/ x = 13%N) by (unfold is_break in QB; lia). destruct X as [-> | ->].
      - left. now exists false, r.
      - destruct r as [|y r]; [right; exists []; now split|]. destruct (N.eqb_spec y 10) as [-> |NE]; [left; now exists true, r|right; exists (y :: r); now split]. }
    destruct J as [(b & r & ->)|(r & -> & NR)].
    - rewrite e_break in E. injection E as <-. exists [], [], (92%N :: eol b ++ r), r, true. split; [constructor|]. split; [now rewrite app_nil_r|]. split; [reflexivity|].
      split; [now apply cst_join|]. exists (92%N :: eol b). split; [reflexivity|]. cbn [app]. rewrite marker_step by discriminate. rewrite <- app_assoc. reflexivity.
    - unfold skip_linebreak, modify in E. rewrite !cur_peek in E. cbn [nth] in E. rewrite (proj2 (N.eqb_neq _ _) NR) in E. rewrite andb_false_r in E.
      change ((13 =? 10)%N) with false in E. cbv iota in E. injection E as <-. exists [], [], (92%N :: 13%N :: r), (13%N :: r), false. split; [constructor|]. split; [now rewrite app_nil_r|].
      split; [reflexivity|]. split; [now apply cst_cr|]. exists [92%N]. split; [reflexivity|]. reflexivity. }
  destruct ((b =? 92)%N && negb single) eqn:Q6.
  { apply andb_prop in Q6. destruct Q6 as [Q6 QS]. apply N.eqb_eq in Q6. subst b. destruct single; [discriminate|].
    apply bind_ok in H. destruct H as (c1 & ch & E & H). destruct rest as [|c rest].
    - unfold resolve_escape in E. apply bind_ok in E. destruct E as (c2 & x & E & E2). rewrite e_peek in E. cbn [nth] in E. injection E as <- <-. discriminate.
    - apply escape_ok in E. destruct E as (p & r & E & P). now apply (STEP p (utf8 ch) r). }
  apply (STEP [b] [b] rest); [reflexivity|]. constructor.
  - unfold is_blank_or_breakz, is_blank, is_break in Z. cbn [In]. lia.
  - destruct single; cbn [quote_byte negb] in *; lia.
  - intros ->. cbn [negb] in Q6. lia.
Qed.

(** ** White space *)
Definition not_white (rest : text) : Prop := nth 0 rest 0%N <> 32%N /\ nth 0 rest 0%N <> 9%N.
Lemma blank_first_byte rest : is_blank (nth 0 rest 0%N) = true -> exists b r, rest = b :: r /\ white_byte b.
Proof. destruct rest as [|b r]; [discriminate|]. cbn [nth]. unfold is_blank, white_byte. intros H. exists b, r. split; [reflexivity|lia]. Qed.
Lemma white_split x : Forall white_byte x -> exists k more, x = repeat 32%N k ++ more /\ Forall white_byte more /\ (more = [] \/ exists y, more = 9%N :: y).
Proof.
  induction 1 as [|b x [-> | ->] W IH].
  - exists 0, []. repeat split; [constructor|now left].
  - destruct IH as (k & more & -> & WM & T). exists (S k), more. now repeat split.
  - exists 0, (9%N :: x). split; [reflexivity|]. split; [constructor; [now right|exact W]|]. right. now exists x.
Qed.
(** What is left at a break: a line break, or a carriage return alone. *)
Lemma break_split rest : is_break (nth 0 rest 0%N) = true -> (exists b r, rest = eol b ++ r) \/ (exists r, rest = 13%N :: r /\ nth 0 r 0%N <> 10%N).
Proof.
  intros QB. destruct rest as [|x r]; [discriminate|]. cbn [nth] in QB. assert (X : x = 10%N \/ x = 13%N) by (unfold is_break in QB; lia). destruct X as [-> | ->].
  - left. now exists false, r.
  - destruct r as [|y r]; [right; exists []; now split|]. destruct (N.eqb_spec y 10) as [-> |NE]; [left; now exists true, r|right; exists (y :: r); now split].
Qed.
Lemma cr_stuck indent pre r m l s : nth 0 r 0%N <> 10%N -> forall fuel j ws lb tb c' out,
  flow_blanks fuel indent j ws lb tb (cur pre (13%N :: r) m l s) = (c', Ok out) -> False.
Proof.
  intros NR. assert (RB : forall t, read_break t (cur pre (13%N :: r) m l s) = (cur pre (13%N :: r) m l s, Ok (t ++ [10%N]))).
  { intros t. unfold read_break, bind, skip_linebreak, modify. rewrite !cur_peek. cbn [nth]. rewrite (proj2 (N.eqb_neq _ _) NR), andb_false_r. reflexivity. }
  induction fuel as [|fuel IH]; intros j ws lb tb c' out H; [discriminate|].
  cbn [flow_blanks] in H. unfold bind in H. rewrite e_peek, e_get_mark in H. cbn [nth] in H. change (is_blank 13) with false in H. change (is_break 13) with true in H.
  cbn [orb] in H. destruct j; rewrite RB in H; eapply IH; exact H.
Qed.
Lemma later_white indent ws lb tb c' out : forall fuel pre rest m l s, flow_blanks fuel indent true ws lb tb (cur pre rest m l s) = (c', Ok out) ->
  exists x rest' f, rest = x ++ rest' /\ Forall white_byte x /\ not_white rest' /\ (forall a y, x = a ++ 9%N :: y -> (indent <= m_col m + N.of_nat (List.length a))%N) /\
    f <= fuel /\ flow_blanks f indent true ws lb tb (cur (pre ++ x) rest' (mark_add (List.length x) m) l s) = (c', Ok out).
Proof.
  induction fuel as [|fuel IH]; intros pre rest m l s H; [discriminate|]. destruct (is_blank (nth 0 rest 0%N)) eqn:B.
  - destruct (blank_first_byte rest B) as (b & r & -> & WB). assert (H0 := H). cbn [flow_blanks] in H. unfold bind in H. rewrite e_peek, e_get_mark in H. rewrite B in H. cbn [orb nth] in *.
    destruct ((b =? 9)%N && (m_col m <? indent)%N) eqn:T; [discriminate|]. rewrite e_skip_blank in H. apply IH in H.
    destruct H as (x & rest' & f & -> & W & NW & TB & F & E). exists (b :: x), rest', f. split; [reflexivity|]. split; [now constructor|]. split; [exact NW|].
    split; [|split; [lia|]].
    + intros [|a0 a] y EX; injection EX; intros; subst.
      * cbn [List.length] in *. clear - T. lia.
      * specialize (TB a y eq_refl). unfold mark_add in TB. cbn [Base.m_col List.length] in *. clear - TB. lia.
    + rewrite mark_add_add, <- app_assoc in E. exact E.
  - exists [], rest, (S fuel). split; [reflexivity|]. split; [constructor|]. split; [unfold is_blank in B; split; lia|]. split; [now intros [|] ? ?|]. split; [lia|].
    rewrite app_nil_r. cbn [List.length]. now rewrite mark_add_0.
Qed.
Lemma first_white indent c' out : forall fuel ws pre rest m l s, flow_blanks fuel indent false ws [] [] (cur pre rest m l s) = (c', Ok out) ->
  exists x rest' f, rest = x ++ rest' /\ Forall white_byte x /\ not_white rest' /\
    f <= fuel /\ flow_blanks f indent false (ws ++ x) [] [] (cur (pre ++ x) rest' (mark_add (List.length x) m) l s) = (c', Ok out).
Proof.
  induction fuel as [|fuel IH]; intros ws pre rest m l s H; [discriminate|]. destruct (is_blank (nth 0 rest 0%N)) eqn:B.
  - destruct (blank_first_byte rest B) as (b & r & -> & WB). cbn [flow_blanks] in H. unfold bind in H. rewrite e_peek, e_get_mark in H. rewrite B in H. cbn [orb nth] in *.
    rewrite e_peek_or_space, e_skip_blank in H. apply IH in H.
    destruct H as (x & rest' & f & -> & W & NW & F & E). exists (b :: x), rest', f. split; [reflexivity|]. split; [now constructor|]. split; [exact NW|].
    split; [lia|]. rewrite mark_add_add, <- !app_assoc in E. exact E.
  - exists [], rest, (S fuel). split; [reflexivity|]. split; [constructor|]. split; [unfold is_blank in B; split; lia|]. split; [lia|].
    rewrite !app_nil_r. cbn [List.length]. now rewrite mark_add_0.
Qed.
Lemma stops_is rest : not_white rest -> is_break (nth 0 rest 0%N) = false -> stops rest.
Proof. unfold not_white, is_break, stops. intros [A B] C. repeat split; auto; lia. Qed.
(** The lines behind a line break. *)
Lemma later_lines indent ws lb c' j ws' lb' tb' : forall fuel tb pre rest m l s, flow_blanks fuel indent true ws lb tb (cur pre rest m l s) = (c', Ok (j, ws', lb', tb')) ->
  m_col m = 1%N ->
  exists e i more rest' l', rest = empty_text e ++ repeat 32%N i ++ more ++ rest' /\ Forall (fun x => line_start (N.to_nat (indent - 1)) (fst x)) e /\
    Forall white_byte more /\ (more <> [] -> N.to_nat (indent - 1) <= i) /\ stops rest' /\ j = true /\ ws' = ws /\ lb' = lb /\ tb' = tb ++ repeat 10%N (List.length e) /\
    c' = cur (pre ++ empty_text e ++ repeat 32%N i ++ more) rest' (marker_after (empty_text e ++ repeat 32%N i ++ more) m) l' s.
Proof.
  induction fuel as [fuel IH] using lt_wf_ind. intros tb pre rest m l s H C. apply later_white in H. destruct H as (x & r1 & f & -> & W & NW & TB & F & H).
  destruct (white_split x W) as (k & more & EX & WM & TM).
  assert (KM : more <> [] -> N.to_nat (indent - 1) <= k).
  { intros NM. destruct TM as [-> |(y & ->)]; [congruence|]. specialize (TB _ _ EX). rewrite repeat_length, C in TB. clear - TB. lia. }
  destruct f as [|f]; [discriminate|]. destruct (is_break (nth 0 r1 0%N)) eqn:B.
  - destruct (break_split r1 B) as [(b & r & ->)|(r & -> & NR)]; [|exfalso; eapply cr_stuck; eauto].
    rewrite further_eol in H. apply IH in H; [|lia|apply eol_col].
    destruct H as (e & i & mo & rest' & l' & -> & LS & WMO & NI & ST & -> & -> & -> & -> & ->).
    exists ((x, b) :: e), i, mo, rest', l'. cbn [empty_text flat_map fst snd]. fold (empty_text e). rewrite <- !app_assoc.
    split; [reflexivity|]. split; [constructor; [exists k, more; auto|exact LS]|]. do 3 (split; [assumption|]). do 3 (split; [reflexivity|]).
    split; [now cbn [List.length repeat app]|].
    f_equal. rewrite (marker_after_app x), (marker_flat x) by now apply white_no_lf. now rewrite (marker_after_app (eol b)).
  - pose proof (stops_is r1 NW B) as ST. rewrite blanks_stop in H by exact ST. injection H as <- <- <- <- <-.
    exists [], k, more, r1, l. cbn [empty_text flat_map app List.length repeat]. rewrite EX, <- app_assoc, app_nil_r.
    do 8 (split; [first [reflexivity|assumption|constructor]|]). split; [reflexivity|].
    rewrite <- EX. now rewrite (marker_flat x) by now apply white_no_lf.
Qed.
(** The white space in front of a word. *)
Lemma gap_ok fuel indent pre rest m l s c' j ws lb tb : flow_blanks fuel indent false [] [] [] (cur pre rest m l s) = (c', Ok (j, ws, lb, tb)) ->
  exists g rest' l', rest = quote_gap_text g ++ rest' /\ stops rest' /\ c' = cur (pre ++ quote_gap_text g) rest' (marker_after (quote_gap_text g) m) l' s /\
  match g with
  | QBlanks bs => Forall white_byte bs /\ j = false /\ ws = bs /\ lb = [] /\ tb = []
  | QBreak tr b e i more => Forall white_byte tr /\ Forall (fun x => line_start (N.to_nat (indent - 1)) (fst x)) e /\ Forall white_byte more /\
      (more <> [] -> N.to_nat (indent - 1) <= i) /\ j = true /\ ws = [] /\ lb = [10%N] /\ tb = repeat 10%N (List.length e)
  | QJoin _ _ _ _ _ => False
  end.
Proof.
  intros H. apply first_white in H. destruct H as (x & r1 & f & -> & W & NW & F & H). cbn [app] in H.
  destruct f as [|f]; [discriminate|]. destruct (is_break (nth 0 r1 0%N)) eqn:B.
  - destruct (break_split r1 B) as [(b & r & ->)|(r & -> & NR)]; [|exfalso; eapply cr_stuck; eauto].
    rewrite first_eol in H. apply later_lines in H; [|apply eol_col]. destruct H as (e & i & mo & rest' & l' & -> & LS & WMO & NI & ST & -> & -> & -> & -> & ->).
    exists (QBreak x b e i mo), rest', l'. cbn [quote_gap_text]. unfold lines_text. rewrite <- !app_assoc. split; [reflexivity|]. split; [exact ST|].
    split; [|repeat split; auto]. f_equal. rewrite (marker_after_app x), (marker_flat x) by now apply white_no_lf. now rewrite (marker_after_app (eol b)).
  - pose proof (stops_is r1 NW B) as ST. rewrite blanks_stop in H by exact ST. injection H as <- <- <- <- <-.
    exists (QBlanks x), r1, l. cbn [quote_gap_text]. split; [reflexivity|]. split; [exact ST|]. split; [|auto].
    now rewrite (marker_flat x) by now apply white_no_lf.
Qed.

(** ** The loop *)
Lemma mark_longer single x y : doc_mark (x ++ [quote_byte single]) -> doc_mark (x ++ quote_byte single :: y).
Proof.
  assert (Q : ~ In (quote_byte single) [45; 46]%N) by (destruct single; cbn; intuition discriminate).
  intros (r & E & H). change (str "---") with [45; 45; 45]%N in E. change (str "...") with [46; 46; 46]%N in E.
  assert (X : exists r', x = [45; 45; 45]%N ++ r' /\ r = r' ++ [quote_byte single] \/ x = [46; 46; 46]%N ++ r' /\ r = r' ++ [quote_byte single]).
  { destruct x as [|x0 [|x1 [|x2 x]]]; cbn [app] in E.
    1-3: exfalso; apply Q; destruct E as [E|E]; injection E; intros; subst; cbn [In]; intuition congruence.
    exists x. destruct E as [E|E]; injection E; intros; subst; auto. }
  destruct X as (r' & X). exists (r' ++ quote_byte single :: y). split.
  - destruct X as [(-> & _)|(-> & _)]; [left|right]; rewrite <- app_assoc; reflexivity.
  - assert (ER : r = r' ++ [quote_byte single]) by tauto. subst r. destruct r' as [|z r']; cbn [app] in *; exact H.
Qed.
Lemma taken_blanks n bs r v : Forall white_byte bs -> escaped_break r -> taken_words false n r v -> taken_words false n (bs ++ r) (bs ++ v).
Proof.
  intros WB (b0 & r0 & ER) T. destruct T as [|g t u r v G C RT D M|g r v G NL EB M|tr b E W].
  - discriminate.
  - destruct g as [ws|tr b e i more|tr b e i more]; cbn [quote_gap_ok quote_gap_text quote_gap_value] in *.
    + exfalso. destruct G as [NE W]. destruct W as [|x ws [-> | ->] W]; [congruence|discriminate..].
    + exfalso. destruct G as (W & _). destruct W as [|x ws [-> | ->] W]; [destruct b|..]; discriminate.
    + destruct G as (_ & W & G). destruct W as [|x ws [-> | ->] W]; [|discriminate..].
      pose proof (tw_more false n (QJoin bs b e i more) t u r v) as X. cbn [quote_gap_text quote_gap_value quote_gap_ok at_margin] in X. rewrite <- !app_assoc in X.
      cbn [app]. rewrite <- ?app_assoc. cbn [app] in X. apply X; auto. now repeat split.
  - destruct g as [ws|tr b e i more|tr b e i more]; cbn [quote_gap_ok quote_gap_text quote_gap_value new_line] in *.
    + contradiction.
    + exfalso. destruct G as (W & _). destruct W as [|x ws [-> | ->] W]; [destruct b|..]; discriminate.
    + destruct G as (_ & W & G). destruct W as [|x ws [-> | ->] W]; [|discriminate..].
      pose proof (tw_line false n (QJoin bs b e i more) r v) as X. cbn [quote_gap_text quote_gap_value quote_gap_ok] in X. rewrite <- !app_assoc in X.
      cbn [app]. rewrite <- ?app_assoc. cbn [app] in X. apply X; auto. now repeat split.
  - destruct W as [|x ws [-> | ->] W]; [|discriminate..]. cbn [app]. rewrite app_nil_r. now apply tw_close.
Qed.
Lemma escaped_double single n r v : escaped_break r -> taken_words single n r v -> single = false.
Proof.
  intros (b0 & r0 & ER) T. destruct T as [|g t u r v G C RT D M|g r v G NL EB M|tr b E W]; [discriminate| | |exact E];
    destruct g as [ws|tr b e i more|tr b e i more]; cbn [quote_gap_ok quote_gap_text new_line] in *; try contradiction; try now destruct G.
  - exfalso. destruct G as [NE W]. destruct W as [|x ws [-> | ->] W]; [congruence|discriminate..].
  - exfalso. destruct G as (W & _). destruct W as [|x ws [-> | ->] W]; [destruct b|..]; discriminate.
  - exfalso. destruct G as (W & _). destruct W as [|x ws [-> | ->] W]; [destruct b|..]; discriminate.
Qed.
Lemma taken_first single n r v : taken_words single n r v -> r = [] \/ In (nth 0 r 0%N) [32; 9; 10; 13; 92]%N.
Proof.
  intros T. destruct T as [|g t u r v G C RT D M|g r v G NL EB M|tr b E W]; [now left|right..].
  1-2: destruct g as [ws|tr b e i more|tr b e i more]; cbn [quote_gap_ok quote_gap_text new_line] in *.
  - destruct G as [NE W]. destruct W as [|x ws [-> | ->] W]; [congruence|cbn; tauto..].
  - destruct G as (W & _). destruct W as [|x ws [-> | ->] W]; [destruct b|..]; cbn; tauto.
  - destruct G as (_ & W & _). destruct W as [|x ws [-> | ->] W]; cbn; tauto.
  - contradiction.
  - destruct G as (W & _). destruct W as [|x ws [-> | ->] W]; [destruct b|..]; cbn; tauto.
  - destruct G as (_ & W & _). destruct W as [|x ws [-> | ->] W]; cbn; tauto.
  - destruct W as [|x ws [-> | ->] W]; cbn; tauto.
Qed.
(** White space in front of what is taken. *)
Lemma taken_gap single n g t u r v : quote_gap_ok single n g -> chars single t u -> (t = [] -> r <> [] -> escaped_break r) ->
  (at_margin g -> ~ doc_mark (t ++ r ++ [quote_byte single])) -> taken_words single n r v ->
  taken_words single n (quote_gap_text g ++ t ++ r) (quote_gap_value g ++ u ++ v).
Proof.
  intros G C RT D M. destruct t as [|x t]; [|apply tw_more; auto; discriminate].
  destruct r as [|y r]; [apply tw_more; auto|]. specialize (RT eq_refl ltac:(discriminate)). apply chars_none in C. subst u. cbn [app].
  pose proof (escaped_double _ _ _ _ RT M) as ->.
  destruct g as [bs|tr b e i more|tr b e i more]; [|now apply tw_line..]. cbn [quote_gap_text quote_gap_value]. apply taken_blanks; auto. now destruct G.
Qed.
Lemma loop_ok single indent start : forall fuel string pre rest m l s c' out,
  flow_loop fuel single indent start string [] [] [] (cur pre rest m l s) = (c', Ok out) -> (1 <= m_col m)%N ->
  exists t u r v rest' l', rest = t ++ r ++ quote_byte single :: rest' /\ chars single t u /\ taken_words single (N.to_nat (indent - 1)) r v /\
    out = string ++ u ++ v /\ c' = cur (pre ++ t ++ r) (quote_byte single :: rest') (marker_after (t ++ r) m) l' s /\
    (stops rest -> t = [] -> r <> [] -> escaped_break r) /\ (m_col m = 1%N -> ~ doc_mark rest) /\ (indent <= m_col m)%N /\
    (single = true -> nth 0 rest' 0%N <> 39%N).
Proof.
  induction fuel as [|fuel IH]; intros string pre rest m l s c' out H C1; [discriminate|]. cbn [flow_loop] in H.
  apply bind_ok in H. destruct H as (c1 & m1 & E & H). rewrite e_get_mark in E. injection E as <- <-.
  apply bind_ok in H. destruct H as (c1 & ind & E & H). unfold gets in E. injection E as <- <-.
  apply bind_ok in H. destruct H as (c1 & p & E & H). rewrite e_peek_checked in E. injection E as <- <-.
  match type of H with (if ?b then _ else _) _ = _ => destruct b eqn:DI; [discriminate H|] end.
  assert (DM : m_col m = 1%N -> ~ doc_mark rest).
  { intros C ND. pose proof (proj2 (indicator_mark pre rest m l s) ND) as ND'. unfold cur, c_src in ND'. rewrite ND', C in DI. discriminate DI. }
  clear DI. match type of H with match ?o with _ => _ end _ = _ => destruct o as [x0|]; [|discriminate H] end. destruct (m_col m <? indent)%N eqn:CI; [discriminate|].
  apply N.ltb_ge in CI. apply bind_ok in H. destruct H as (c1 & [string1 j] & E & H). apply consume_ok in E.
  destruct E as (t & u & stop & rest1 & l1 & C & -> & -> & CS & x & -> & ->).
  apply bind_ok in H. destruct H as (c1 & c & E & H). rewrite e_peek in E. injection E as <- <-.
  destruct (((nth 0 rest1 0%N =? 39)%N && single) || ((nth 0 rest1 0%N =? 34)%N && negb single)) eqn:Q.
  { (* the closing quote *)
    injection H as <- <-.
    assert (QB : exists r2, rest1 = quote_byte single :: r2).
    { destruct rest1 as [|y r2]; [discriminate|]. exists r2. f_equal. cbn [nth] in Q. destruct single; cbn [quote_byte negb andb orb] in *; lia. }
    destruct QB as (r2 & ->). inversion CS as [rs TE E1 E2 E3|b rs SF E1 E2 E3|rs SF NR E1 E2 E3].
    - assert (x = []) by (apply (app_inv_tail (quote_byte single :: r2)); cbn [app]; congruence). subst x. exists t, u, [], [], r2, l1. rewrite !app_nil_r. cbn [app].
      split; [reflexivity|]. split; [exact C|]. split; [constructor|]. split; [now rewrite ?app_nil_r|]. split; [reflexivity|]. split; [congruence|]. split; [exact DM|].
      split; [exact CI|]. destruct TE as [TE|[_ TE]]; [|exact TE]. exfalso. destruct single; discriminate.
    - assert (x = 92%N :: eol b) by (apply (app_inv_tail (quote_byte single :: r2)); cbn [app]; congruence). subst x. exists t, u, (92%N :: eol b), [], r2, l1.
      rewrite <- ?app_assoc. cbn [app] in *. split; [reflexivity|]. split; [exact C|]. split; [apply (tw_close single _ [] b); auto|]. split; [now rewrite !app_nil_r|].
      split; [reflexivity|]. split; [intros _ _ _; exists b, []; now rewrite app_nil_r|]. split; [exact DM|]. split; [exact CI|]. intros ->. discriminate.
    - subst single. discriminate. }
  assert (NQ : nth 0 rest1 0%N <> quote_byte single).
  { intros EQ. rewrite EQ in Q. destruct single; discriminate. }
  apply bind_ok in H. destruct H as (c1 & [[[j2 ws] lb] tb] & E & H).
  match goal with |- ?G => assert (CONT : forall g string2 rest2 m2 l2,
    flow_loop fuel single indent start string2 [] [] [] (cur (pre ++ t ++ quote_gap_text g) rest2 m2 l2 s) = (c', Ok out) -> stops rest2 ->
    x ++ rest1 = quote_gap_text g ++ rest2 -> quote_gap_text g <> [] ->
    m2 = marker_after (t ++ quote_gap_text g) m -> string2 = string ++ u ++ quote_gap_value g ->
    match g with
    | QBlanks bs => Forall white_byte bs
    | QBreak tr b e i more | QJoin tr b e i more => Forall white_byte tr /\ Forall (fun x => line_start (N.to_nat (indent - 1)) (fst x)) e /\ Forall white_byte more /\
        (more <> [] -> N.to_nat (indent - 1) <= i)
    end -> match g with QJoin tr _ _ _ _ => single = false /\ tr = [] | _ => True end -> G) end.
  { clear H E CS NQ Q. intros g string2 rest2 m2 l2 H ST EX GN -> -> G J.
    assert (CT := chars_flat _ _ _ C). assert (MT : marker_after (t ++ quote_gap_text g) m = marker_after (quote_gap_text g) (mark_add (List.length t) m)).
    { now rewrite marker_after_app, (marker_flat t) by exact CT. }
    assert (LG : forall tr b e i more, Forall white_byte more -> m_col (marker_after (tr ++ lines_text b e i more) (mark_add (List.length t) m)) = (1 + N.of_nat i + N.of_nat (List.length more))%N).
    { intros. rewrite marker_after_app. now apply lines_col. }
    apply IH in H.
    2: { rewrite MT. destruct g as [bs|tr b e i more|tr b e i more]; cbn [quote_gap_text] in *.
         - rewrite (marker_flat bs) by now apply white_no_lf. unfold mark_add. cbn [Base.m_col]. clear - C1. lia.
         - rewrite LG by tauto. clear. lia.
         - change (tr ++ [92%N] ++ lines_text b e i more) with (tr ++ [92%N] ++ lines_text b e i more). rewrite app_assoc, LG by tauto. clear. lia. }
    destruct H as (t2 & u2 & r2 & v2 & rest' & l' & -> & C2 & T2 & -> & -> & RT & D2 & CI2 & QR).
    assert (GOK : quote_gap_ok single (N.to_nat (indent - 1)) g).
    { rewrite MT in CI2. destruct g as [bs|tr b e i more|tr b e i more]; cbn [quote_gap_ok quote_gap_text] in *.
      - split; [exact GN|exact G].
      - destruct G as (G1 & G2 & G3 & G4). rewrite LG in CI2 by exact G3. repeat split; auto. destruct more; [cbn [List.length] in CI2; clear - CI2; lia|apply G4; discriminate].
      - destruct G as (G1 & G2 & G3 & G4). rewrite app_assoc, LG in CI2 by exact G3. split; [tauto|]. repeat split; auto.
        destruct more; [cbn [List.length] in CI2; clear - CI2; lia|apply G4; discriminate]. }
    assert (AM : at_margin g -> ~ doc_mark (t2 ++ r2 ++ [quote_byte single])).
    { intros A. assert (CM : m_col (marker_after (t ++ quote_gap_text g) m) = 1%N).
      { rewrite MT. destruct g as [bs|tr b e i more|tr b e i more]; cbn [at_margin quote_gap_text] in *; [contradiction| |]; destruct A as [-> ->].
        - rewrite LG by constructor. reflexivity.
        - rewrite app_assoc, LG by constructor. reflexivity. }
      specialize (D2 CM). intros DD. apply D2. rewrite app_assoc in DD |- *. now apply mark_longer. }
    exists t, u, (quote_gap_text g ++ t2 ++ r2), (quote_gap_value g ++ u2 ++ v2), rest', l'.
    split. { rewrite EX, <- !app_assoc. reflexivity. }
    split; [exact C|]. split; [apply taken_gap; auto|]. split; [now rewrite <- !app_assoc|].
    split; [rewrite <- (marker_after_app (t ++ quote_gap_text g)), <- !app_assoc; reflexivity|].
    split; [|split; [exact DM|split; [exact CI|exact QR]]].
    intros SR -> _. cbn [app] in SR. rewrite EX in SR. destruct g as [bs|tr b e i more|tr b e i more]; cbn [quote_gap_text quote_gap_ok] in *.
    - exfalso. destruct G as [|y bs [-> | ->] W]; [congruence| |]; destruct SR as (S1 & S2 & _); cbn [app nth] in *; congruence.
    - exfalso. destruct G as (W & _). destruct W as [|y tr [-> | ->] W]; destruct SR as (S1 & S2 & S3 & S4); cbn [app nth] in *; try congruence.
      unfold lines_text in *. destruct b; cbn [eol app nth] in *; congruence.
    - destruct J as [_ ->]. cbn [app]. unfold lines_text. exists b. rewrite <- !app_assoc. eauto. }
  inversion CS as [rs TE E1 E2 E3|b rs SF E1 E2 E3|rs SF NR E1 E2 E3]; subst j.
  - (* white space *)
    assert (x = []) by (apply (app_inv_tail rest1); cbn [app]; congruence). subst x. rewrite !app_nil_r in *. cbn [app] in *.
    apply gap_ok in E. destruct E as (g & rest2 & l2 & EG & ST & -> & G).
    assert (GN : quote_gap_text g <> []).
    { intros GN. rewrite GN in EG. cbn [app] in EG. subst rest2. destruct TE as [TE|[TE _]]; [|contradiction].
      assert (Z0 : nth 0 rest1 0%N = 0%N).
      { destruct ST as (S1 & S2 & S3 & S4). unfold is_blank_or_breakz, is_blank, is_break in TE. clear - TE S1 S2 S3 S4. lia. }
      assert (H' : exists string2 m2, flow_loop fuel single indent start string2 [] [] [] (cur (pre ++ t) rest1 m2 l2 s) = (c', Ok out) /\ (1 <= m_col m2)%N).
      { rewrite GN in *. rewrite app_nil_r in *. cbn [marker_after] in H. destruct g as [bs|tr b e i more|]; [| |contradiction].
        - destruct G as (_ & -> & -> & -> & ->). do 2 eexists. split; [exact H|]. rewrite (marker_flat t) by now apply (chars_flat single t u). unfold mark_add. cbn [Base.m_col]. lia.
        - exfalso. cbn [quote_gap_text] in GN. apply app_eq_nil in GN. destruct GN as [_ GN]. unfold lines_text in GN. destruct b; discriminate. }
      destruct H' as (string2 & m2 & H' & CM). apply IH in H'; [|exact CM]. destruct H' as (t2 & u2 & r2 & v2 & rest' & l' & ER & C2 & T2 & _).
      rewrite ER in Z0. destruct C2 as [|p v0 t2 u2 P C2].
      - cbn [app] in Z0. destruct (taken_first _ _ _ _ T2) as [-> |T3]; [destruct single; discriminate|]. destruct r2; [cbn [nth In] in T3; intuition discriminate|]. cbn [app nth] in *.
        subst. cbn [In] in T3. intuition discriminate.
      - destruct (piece_shape _ _ _ P) as (NP & _ & _ & NZ). destruct p; [congruence|]. cbn [app nth] in *. subst. apply NZ. cbn. tauto. }
    assert (MT : marker_after (quote_gap_text g) (marker_after t m) = marker_after (t ++ quote_gap_text g) m) by now rewrite marker_after_app.
    destruct g as [bs|tr b e i more|]; [| |contradiction].
    + destruct G as (W & -> & -> & -> & ->). rewrite MT, <- !app_assoc in H. apply (CONT (QBlanks bs) _ _ _ _ H); auto.
    + destruct G as (W1 & W2 & W3 & W4 & -> & -> & -> & ->). rewrite MT in H.
      apply (CONT (QBreak tr b e i more) (string ++ u ++ quote_gap_value (QBreak tr b e i more)) rest2 (marker_after (t ++ quote_gap_text (QBreak tr b e i more)) m) l2); auto.
      rewrite <- !app_assoc in H. destruct e as [|y e]; exact H.
  - (* an escaped line break *)
    assert (x = 92%N :: eol b) by (apply (app_inv_tail rest1); cbn [app]; congruence). subst x. apply later_lines in E.
    2: { rewrite marker_after_app, marker_step by discriminate. apply eol_col. }
    destruct E as (e & i & more & rest2 & l2 & -> & LS & WM & NI & ST & -> & -> & -> & -> & ->).
    assert (MT : marker_after (empty_text e ++ repeat 32%N i ++ more) (marker_after (t ++ 92%N :: eol b) m) = marker_after (t ++ quote_gap_text (QJoin [] b e i more)) m).
    { rewrite <- marker_after_app. cbn [quote_gap_text app]. unfold lines_text. rewrite <- !app_assoc. reflexivity. }
    apply (CONT (QJoin [] b e i more) (string ++ u ++ repeat 10%N (List.length e)) rest2 (marker_after (t ++ quote_gap_text (QJoin [] b e i more)) m) l2); auto.
    + cbn [app] in H. rewrite MT in H. cbn [quote_gap_text app]. unfold lines_text. cbn [app] in H. rewrite <- !app_assoc in H. cbn [app] in H. exact H.
    + cbn [quote_gap_text app]. unfold lines_text. rewrite <- !app_assoc. reflexivity.
    + discriminate.

  - exfalso. rewrite <- E2 in E. eapply cr_stuck; eauto.
Qed.

(** ** Behind the closing quote *)
Definition src (pre rest : text) : strsrc := StrSrc (pre ++ rest) (List.length pre).
Lemma src_peek pre rest n : peekz str_ops (src pre rest) n = nth n rest 0%N.
Proof. exact (cur_peek pre rest (Marker 0 0 0) true true n). Qed.
Lemma src_skip pre b rest : o_skip str_ops 1 (src pre (b :: rest)) = src (pre ++ [b]) rest.
Proof. unfold src, str_ops. cbn [o_skip]. change (b :: rest) with ([b] ++ rest). now apply cur_skip. Qed.
Lemma take_ok p : p 0%N = false -> forall fuel pre rest l s', take_while str_ops p fuel (src pre rest) = Some (l, s') ->
  exists rest', rest = l ++ rest' /\ Forall (fun b => p b = true) l /\ p (nth 0 rest' 0%N) = false /\ s' = src (pre ++ l) rest'.
Proof.
  intros P0. induction fuel as [|fuel IH]; intros pre rest l s' H; [discriminate|]. cbn [take_while] in H. rewrite src_peek in H.
  destruct (p (nth 0 rest 0%N)) eqn:E.
  - destruct rest as [|b rest]; [cbn [nth] in E; congruence|]. cbn [nth] in *. rewrite src_skip in H.
    destruct (take_while str_ops p fuel (src (pre ++ [b]) rest)) as [[l1 s1]|] eqn:T; [|discriminate]. injection H as <- <-.
    apply IH in T. destruct T as (rest' & -> & F & N & ->). exists rest'. split; [reflexivity|]. split; [now constructor|]. split; [exact N|]. now rewrite <- app_assoc.
  - injection H as <- <-. exists rest. split; [reflexivity|]. split; [constructor|]. split; [exact E|]. now rewrite app_nil_r.
Qed.
Lemma shared_ok : forall fuel pre rest bytes any has s' n a h,
  shared_skip_ws_to_eol str_ops fuel (src pre rest) true bytes any has = Some (s', (n, SkipOk a h)) ->
  exists w c rest', rest = w ++ c ++ rest' /\ Forall white_byte w /\ s' = src (pre ++ w ++ c) rest' /\ n = bytes + List.length (w ++ c) /\ ~ In (nth 0 rest' 0%N) [32; 9; 35]%N /\
    (c = [] \/ (exists c', c = 35%N :: c' /\ Forall (fun b => ~ In b [0; 10; 13]%N) c' /\ (any = false -> has = false -> w <> [])) /\ In (nth 0 rest' 0%N) [10; 13; 0]%N).
Proof.
  induction fuel as [|fuel IH]; intros pre rest bytes any has s' n a h H; [discriminate|]. cbn [shared_skip_ws_to_eol] in H. rewrite src_peek in H.
  destruct (N.eqb_spec (nth 0 rest 0%N) 32) as [E|N32].
  { destruct rest as [|b rest]; [discriminate|]. cbn [nth] in E. subst b. rewrite src_skip in H. apply IH in H.
    destruct H as (w & c & rest' & -> & W & -> & -> & NW & D). exists (32%N :: w), c, rest'. split; [reflexivity|]. split; [constructor; [now left|exact W]|].
    split; [now rewrite <- app_assoc|]. split; [cbn [app List.length]; lia|]. split; [exact NW|].
    destruct D as [D|[(c' & X & Y & Z) D]]; [now left|right]. split; [|exact D]. exists c'. repeat split; auto. discriminate. }
  destruct (N.eqb_spec (nth 0 rest 0%N) 9) as [E|N9]; cbn [andb] in H.
  { destruct rest as [|b rest]; [discriminate|]. cbn [nth] in E. subst b. rewrite src_skip in H. apply IH in H.
    destruct H as (w & c & rest' & -> & W & -> & -> & NW & D). exists (9%N :: w), c, rest'. split; [reflexivity|]. split; [constructor; [now right|exact W]|].
    split; [now rewrite <- app_assoc|]. split; [cbn [app List.length]; lia|]. split; [exact NW|].
    destruct D as [D|[(c' & X & Y & Z) D]]; [now left|right]. split; [|exact D]. exists c'. repeat split; auto. discriminate. }
  destruct (N.eqb_spec (nth 0 rest 0%N) 35) as [E|N35]; cbn [andb] in H.
  - destruct (negb any && negb has) eqn:AH; [discriminate|].
    destruct rest as [|b rest]; [discriminate|]. cbn [nth] in E. subst b. rewrite src_skip in H.
    destruct (skip_while_non_breakz str_ops fuel (src (pre ++ [35%N]) rest)) as [[l s1]|] eqn:T; [|discriminate].
    apply take_ok in T; [|reflexivity]. destruct T as (rest' & -> & F & N & ->). destruct fuel as [|fuel]; [discriminate|].
    assert (NB : In (nth 0 rest' 0%N) [10; 13; 0]%N) by (unfold is_breakz, is_break in N; cbn [In]; lia).
    cbn [shared_skip_ws_to_eol] in H. rewrite src_peek in H.
    replace ((nth 0 rest' 0 =? 32)%N) with false in H by (cbn [In] in NB; lia). replace ((nth 0 rest' 0 =? 9)%N) with false in H by (cbn [In] in NB; lia).
    replace ((nth 0 rest' 0 =? 35)%N) with false in H by (cbn [In] in NB; lia). cbn [andb] in H. injection H as <- <- _ _.
    exists [], (35%N :: l), rest'. cbn [app]. split; [reflexivity|]. split; [constructor|]. split; [now rewrite <- app_assoc|]. split; [cbn [List.length]; lia|].
    split; [cbn [In] in *; lia|]. right. split; [|exact NB]. exists l. split; [reflexivity|]. split.
    + apply Forall_forall. intros b I0 I1. rewrite Forall_forall in F. specialize (F b I0). unfold is_breakz, is_break in F. cbn [In] in I1. lia.
    + intros -> ->. discriminate.
  - injection H as <- <- _ _. exists [], [], rest. cbn [app List.length]. split; [reflexivity|]. split; [constructor|]. split; [now rewrite app_nil_r|]. split; [lia|].
    split; [cbn [In]; intuition|now left].
Qed.
Lemma ws_ok fuel pre rest m l s c' r : skip_ws_to_eol fuel true false (cur pre rest m l s) = (c', Ok r) ->
  exists w rest', rest = w ++ rest' /\ header_rest w /\ c' = cur (pre ++ w) rest' (mark_add (List.length w) m) l s /\ ~ In 10%N w /\
    (In 35%N w -> In (nth 0 rest' 0%N) [10; 13; 0]%N) /\ ~ In (nth 0 rest' 0%N) [32; 9; 35]%N.
Proof.
  unfold skip_ws_to_eol, str_skip_ws_to_eol. change (c_src (cur pre rest m l s)) with (src pre rest).
  destruct (shared_skip_ws_to_eol str_ops fuel (src pre rest) true 0 false false) as [[s' [n [a h|]]]|] eqn:E; intros H; try discriminate. injection H as <- _.
  apply shared_ok in E. destruct E as (w & c & rest' & -> & W & -> & -> & NW & D). exists (w ++ c), rest'. rewrite <- !app_assoc. split; [reflexivity|].
  assert (NL : ~ In 10%N w) by now apply white_no_lf.
  destruct D as [-> |[(c' & -> & F & NE) D]].
  - rewrite app_nil_r. split; [now constructor|]. split; [reflexivity|]. split; [exact NL|]. split; [|exact NW]. intros I. exfalso. rewrite Forall_forall in W. destruct (W _ I); discriminate.
  - split; [apply hr_comment; auto|]. split; [reflexivity|]. split; [|split; [now intros _|exact NW]].
    rewrite in_app_iff. intros [I|[I|I]]; [contradiction|discriminate|]. rewrite Forall_forall in F. apply (F _ I). cbn. tauto.
Qed.
Lemma lf_lines : forall t m, m_line (marker_after t m) = m_line m <-> ~ In 10%N t.
Proof.
  assert (MON : forall t m, (m_line m <= m_line (marker_after t m))%N).
  { induction t as [|b t IH]; intros m; [cbn; lia|]. destruct (N.eqb_spec b 10) as [-> |NB].
    - change (marker_after (10%N :: t) m) with (marker_after t (Marker (m_pos m + 1) 1 (m_line m + 1))). etransitivity; [|apply IH]. cbn. lia.
    - rewrite marker_step by exact NB. etransitivity; [|apply IH]. reflexivity. }
  induction t as [|b t IH]; intros m; [cbn; tauto|]. destruct (N.eqb_spec b 10) as [-> |NB].
  - change (marker_after (10%N :: t) m) with (marker_after t (Marker (m_pos m + 1) 1 (m_line m + 1))). specialize (MON t (Marker (m_pos m + 1) 1 (m_line m + 1))). cbn [Base.m_line] in MON.
    split; [lia|]. intros X. exfalso. apply X. now left.
  - rewrite marker_step by exact NB. specialize (IH (mark_add 1 m)). change (m_line (mark_add 1 m)) with (m_line m) in IH. rewrite IH. cbn [In]. intuition.
Qed.
(** Whatever is accepted between quotes. *)
Theorem quoted_only single indent in_flow fuel pre rest m l s c' tok :
  scan_flow_scalar fuel single indent in_flow (cur pre (quote_byte single :: rest) m l s) = (c', Ok tok) -> (0 < m_col m)%N ->
  exists q v r after, quote_byte single :: rest = q ++ r ++ after /\ taken_scalar single (N.to_nat (indent - 1)) q v /\ header_rest r /\ may_follow in_flow q after /\
    (In 35%N r -> In (nth 0 after 0%N) [10; 13; 0]%N) /\ (indent <= m_col m + 1)%N /\
    c' = cur (pre ++ q ++ r) after (marker_after (q ++ r) m) false s /\
    tok = Token (Span m (marker_after (q ++ r) m)) (TScalar (if single then SingleQuote else DoubleQuote) v).
Proof.
  unfold scan_flow_scalar. intros H C1. apply bind_ok in H. destruct H as (c1 & m1 & E & H). rewrite e_get_mark in E. injection E as <- <-.
  apply bind_ok in H. destruct H as (c1 & [] & E & H). rewrite e_skip_non_blank in E. injection E as <-.
  apply bind_ok in H. destruct H as (c1 & string & E & H). apply loop_ok in E; [|unfold mark_add; cbn [Base.m_col]; lia].
  destruct E as (t & u & w & v & rest1 & l1 & -> & C & T & -> & -> & _ & _ & CI & _). cbn [app] in H.
  apply bind_ok in H. destruct H as (c1 & [] & E & H). rewrite e_skip_non_blank in E. injection E as <-.
  apply bind_ok in H. destruct H as (c1 & aw & E & H). apply ws_ok in E. destruct E as (r & after & -> & HR & -> & NL & HC & _).
  apply bind_ok in H. destruct H as (c1 & c & E & H). rewrite e_peek in E. injection E as <- <-.
  apply bind_ok in H. destruct H as (c1 & m1 & E & H). rewrite e_get_mark in E. injection E as <- <-.
  set (q := quote_byte single :: t ++ w ++ [quote_byte single]) in *.
  assert (QN : quote_byte single <> 10%N) by (destruct single; discriminate).
  assert (EM : mark_add (List.length r) (mark_add 1 (marker_after (t ++ w) (mark_add 1 m))) = marker_after (q ++ r) m).
  { unfold q. rewrite (marker_after_app _ r), (marker_flat r) by exact NL. f_equal. rewrite marker_step by exact QN.
    rewrite (app_assoc t w), (marker_after_app (t ++ w) [quote_byte single]). symmetry. apply (marker_step (quote_byte single) [] _ QN). }
  rewrite EM in H.
  match type of H with (if ?b then _ else _) _ = _ => destruct b eqn:FB; [|discriminate H] end. injection H as <- <-.
  exists q, (u ++ v), r, after. split; [unfold q; cbn [app]; rewrite <- !app_assoc; reflexivity|]. split; [now constructor|]. split; [exact HR|].
  split; [|split; [exact HC|split; [unfold mark_add in CI; cbn [Base.m_col] in CI; lia|split; [|reflexivity]]]].
  - destruct after as [|c after]; [exact Logic.I|]. cbn [may_follow nth] in *. change (str ",}]:") with [44; 125; 93; 58]%N.
    assert (LQ : (m_line m =? m_line (marker_after (q ++ r) m))%N = true -> ~ In 10%N q).
    { intros E. apply N.eqb_eq in E. symmetry in E. apply lf_lines in E. intros I. apply E. apply in_or_app. now left. }
    unfold is_breakz, is_break in FB. destruct in_flow; cbn [negb andb] in FB.
    + clear - FB. cbn [In]. rewrite !andb_true_r, !andb_false_r in FB. lia.
    + rewrite !andb_false_r in FB. cbn [orb] in FB. rewrite orb_false_r in FB. apply orb_prop in FB. destruct FB as [FB|FB].
      * left. clear - FB. cbn [In]. lia.
      * right. right. rewrite andb_true_r in FB. apply andb_prop in FB. destruct FB as [FB FL]. split; [reflexivity|]. split; [now apply N.eqb_eq|now apply LQ].
  - unfold q. rewrite <- !app_assoc. cbn [app]. rewrite <- !app_assoc. reflexivity.
Qed.
