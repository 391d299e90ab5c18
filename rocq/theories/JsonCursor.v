(** What the reading methods of the scanner do on the white space, strings and other tokens of JSON. *)
From Verif Require Import Base Tokens Scalar Chars Source Cursor ExactCursor SpecQuoted FoldedQuotes ExactPlain SpecScalar SpecJson.
From Coq Require Import String Lia ZifyBool ZifyNat ZifyN.
Local Open Scope m_scope.
Local Open Scope list_scope.

(** ** White space *)
Lemma jw_app full a b : json_white full a -> json_white full b -> json_white full (a ++ b).
Proof. induction 1; cbn [app]; intros; [assumption|apply jw_byte; auto|apply jw_crlf; auto|apply jw_cr; auto]. Qed.
Lemma e_skip_crlf pre rest m l s :
  skip_linebreak (cur pre (13%N :: 10%N :: rest) m l s) = (cur (pre ++ [13; 10]%N) rest (mark_newline 2 m) true s, Ok tt).
Proof.
  unfold skip_linebreak, modify. rewrite !cur_peek. cbn [nth].
  change ((13 =? 13)%N && (10 =? 10)%N) with true. cbv iota.
  unfold cur, c_src, c_mark, c_ska, c_lead.
  now rewrite <- (cur_skip pre [13; 10]%N rest 2 eq_refl).
Qed.
Lemma j_next ind flow g : json_white false g -> forall fuel pre rest m l s,
  begins (nth 0 rest 0%N) -> List.length g < fuel -> (1 <= m_col m)%N ->
  exists m' l' s', skip_to_next_token fuel false ind flow (cur pre (g ++ rest) m l s) = (cur (pre ++ g) rest m' l' s', Ok tt) /\
    (1 <= m_col m')%N /\ (flow <> 0%N -> s' = s).
Proof.
  induction 1 as [|b g HB W IH|g W IH|g C W IH]; intros fuel pre rest m l s B F M; (destruct fuel as [|fuel]; [cbn in F; lia|]); cbn [List.length] in F.
  - cbn [app]. exists m, l, s. rewrite e_next_none by exact B. rewrite app_nil_r. auto.
  - cbn [app skip_to_next_token]. unfold bind at 1. rewrite e_peek. cbn [nth].
    unfold bind at 1. unfold gets at 1. unfold bind at 1. rewrite e_get_mark. rewrite andb_false_r. cbn [andb].
    assert (K : ((b =? 9) || (b =? 32))%N = true \/ b = 10%N) by (cbn [In] in HB; lia).
    destruct K as [-> | ->].
    + unfold bind at 1. rewrite e_skip_blank.
      destruct (IH fuel (pre ++ [b]) rest (mark_add 1 m) l s B ltac:(lia)) as (m' & l' & s' & -> & X & Y); [unfold mark_add; cbn [Base.m_col]; lia|].
      exists m', l', s'. rewrite <- app_assoc. auto.
    + change ((10 =? 9)%N || (10 =? 32)%N) with false. change ((10 =? 10)%N || (10 =? 13)%N) with true. cbv iota.
      unfold bind at 1. rewrite e_skip_lf. unfold bind at 1.
      destruct (flow =? 0)%N eqn:FL; cbv iota.
      * rewrite e_set_ska. destruct (IH fuel (pre ++ [10%N]) rest (mark_newline 1 m) true true B ltac:(lia)) as (m' & l' & s' & -> & X & Y); [cbn; lia|].
        exists m', l', s'. rewrite <- app_assoc. split; [reflexivity|]. split; [exact X|]. lia.
      * unfold ret at 1. destruct (IH fuel (pre ++ [10%N]) rest (mark_newline 1 m) true s B ltac:(lia)) as (m' & l' & s' & -> & X & Y); [cbn; lia|].
        exists m', l', s'. rewrite <- app_assoc. auto.
  - cbn [app skip_to_next_token]. unfold bind at 1. rewrite e_peek. cbn [nth].
    unfold bind at 1. unfold gets at 1. unfold bind at 1. rewrite e_get_mark. rewrite andb_false_r. cbn [andb].
    change ((13 =? 9)%N || (13 =? 32)%N) with false. change ((13 =? 10)%N || (13 =? 13)%N) with true. cbv iota.
    unfold bind at 1. rewrite e_skip_crlf. unfold bind at 1.
    destruct (flow =? 0)%N eqn:FL; cbv iota.
    + rewrite e_set_ska. destruct (IH fuel (pre ++ [13; 10]%N) rest (mark_newline 2 m) true true B ltac:(lia)) as (m' & l' & s' & -> & X & Y); [cbn; lia|].
      exists m', l', s'. rewrite <- app_assoc. split; [reflexivity|]. split; [exact X|]. lia.
    + unfold ret at 1. destruct (IH fuel (pre ++ [13; 10]%N) rest (mark_newline 2 m) true s B ltac:(lia)) as (m' & l' & s' & -> & X & Y); [cbn; lia|].
      exists m', l', s'. rewrite <- app_assoc. auto.
  - discriminate.
Qed.
(** Spaces and tabs. *)
Lemma j_ws_shared g : json_white false g -> forall fuel (pre rest : text) bytes any has,
  begins (nth 0 rest 0%N) -> List.length g < fuel ->
  exists g1 g2 any', g = g1 ++ g2 /\ Forall blank_byte g1 /\ json_white false g2 /\
    nth 0 (g2 ++ rest) 0%N <> 32%N /\ nth 0 (g2 ++ rest) 0%N <> 9%N /\
    shared_skip_ws_to_eol str_ops fuel (StrSrc (pre ++ g ++ rest) (List.length pre)) true bytes any has
    = Some (StrSrc ((pre ++ g1) ++ g2 ++ rest) (List.length (pre ++ g1)), (bytes + List.length g1, SkipOk any' (has || existsb (N.eqb 32) g1))).
Proof.
  intros W. induction W as [|b g HB W IH|g W IH|g C W IH]; intros fuel pre rest bytes any has B F; (destruct fuel as [|fuel]; [cbn in F; lia|]); cbn [List.length] in F; cbn [shared_skip_ws_to_eol].
  - exists [], [], any. cbn [app List.length existsb]. destruct (begins_not _ B) as (B1 & B2 & B3 & B4 & B5).
    pose proof (cur_peek pre rest (Marker 0 0 0) true true 0) as P. unfold cur, c_src in P. rewrite P.
    rewrite B1, B2, B5. cbn [andb]. rewrite app_nil_r, Nat.add_0_r, orb_false_r. repeat split; auto using jw_none; lia.
  - pose proof (cur_peek pre (b :: g ++ rest) (Marker 0 0 0) true true 0) as P. unfold cur, c_src in P. cbn [app]. rewrite P. cbn [nth].
    assert (K : b = 32%N \/ b = 9%N \/ b = 10%N) by (cbn [In] in HB; intuition).
    assert (SK : o_skip str_ops 1 (StrSrc (pre ++ b :: g ++ rest) (List.length pre)) = StrSrc ((pre ++ [b]) ++ g ++ rest) (List.length (pre ++ [b]))).
    { unfold str_ops. cbn [o_skip]. change (b :: g ++ rest) with ([b] ++ g ++ rest). apply cur_skip. reflexivity. }
    rewrite SK. clear SK. destruct K as [-> | [-> | ->]].
    + change ((32 =? 32)%N) with true. cbv iota.
      destruct (IH fuel (pre ++ [32%N]) rest (bytes + 1) any true B ltac:(lia)) as (g1 & g2 & any' & -> & X1 & X2 & X3 & X4 & ->).
      exists (32%N :: g1), g2, any'. repeat split; auto. { constructor; [left; reflexivity|exact X1]. }
      cbn [existsb List.length]. change ((32 =? 32)%N) with true. cbn [orb]. rewrite orb_true_r, <- !app_assoc. cbn [app].
      replace (bytes + 1 + List.length g1) with (bytes + S (List.length g1)) by lia. reflexivity.
    + change ((9 =? 32)%N) with false. change ((9 =? 9)%N) with true. cbn [andb].
      destruct (IH fuel (pre ++ [9%N]) rest (bytes + 1) true has B ltac:(lia)) as (g1 & g2 & any' & -> & X1 & X2 & X3 & X4 & ->).
      exists (9%N :: g1), g2, any'. repeat split; auto. { constructor; [right; reflexivity|exact X1]. }
      cbn [existsb List.length]. change ((32 =? 9)%N) with false. cbn [orb]. rewrite <- !app_assoc. cbn [app].
      replace (bytes + 1 + List.length g1) with (bytes + S (List.length g1)) by lia. reflexivity.
    + exists [], (10%N :: g), any. cbn [app existsb List.length nth]. rewrite app_nil_r, Nat.add_0_r, orb_false_r.
      repeat split; auto; try discriminate. now apply jw_byte.
  - exists [], (13%N :: 10%N :: g), any. cbn [app existsb List.length nth].
    pose proof (cur_peek pre (13%N :: 10%N :: g ++ rest) (Marker 0 0 0) true true 0) as P. unfold cur, c_src in P. rewrite P. cbn [nth].
    rewrite app_nil_r, Nat.add_0_r, orb_false_r. repeat split; auto; try discriminate. now apply jw_crlf.
  - discriminate.
Qed.
Lemma j_ws g : json_white false g -> forall fuel pre rest m l s, begins (nth 0 rest 0%N) -> List.length g < fuel ->
  exists g1 g2 any, g = g1 ++ g2 /\ Forall blank_byte g1 /\ json_white false g2 /\
    nth 0 (g2 ++ rest) 0%N <> 32%N /\ nth 0 (g2 ++ rest) 0%N <> 9%N /\
    skip_ws_to_eol fuel true false (cur pre (g ++ rest) m l s)
    = (cur (pre ++ g1) (g2 ++ rest) (mark_add (List.length g1) m) l s, Ok (any, existsb (N.eqb 32) g1)).
Proof.
  intros W fuel pre rest m l s B F.
  destruct (j_ws_shared g W fuel pre rest 0 false false B F) as (g1 & g2 & any & E & X1 & X2 & X3 & X4 & X5).
  exists g1, g2, any. repeat split; auto. unfold skip_ws_to_eol, str_skip_ws_to_eol, cur, c_src. rewrite X5. reflexivity.
Qed.
(** The first byte of white space, or what follows it. *)
Lemma jw_first g rest : json_white false g -> nth 0 (g ++ rest) 0%N = nth 0 rest 0%N \/ In (nth 0 (g ++ rest) 0%N) [32; 9; 10; 13]%N.
Proof. intros []; cbn [app nth]; auto. - right. cbn [In] in *. intuition. - right. cbn; auto. - discriminate. Qed.

(** ** Plain scalars *)
(** Bytes of numbers and literal names. *)
Definition bare_byte (b : N) : Prop := dec_digit b \/ (97 <= b <= 122)%N \/ In b (str "+-.E").
Lemma bare_facts b : bare_byte b -> is_blank_or_breakz b = false /\ (b =? 58)%N = false /\ is_flow b = false /\ (b =? 35)%N = false.
Proof.
  unfold bare_byte, dec_digit, is_blank_or_breakz, is_blank, is_break, is_flow.
  change (str "+-.E") with [43; 45; 46; 69]%N. cbn [In]. lia.
Qed.
Lemma can_be_flow in_flow pre rest m l s : next_can_be_plain_scalar str_ops (c_src (cur pre rest m l s)) in_flow
  = negb ((nth 0 rest 0%N =? 58)%N && (is_blank_or_breakz (nth 1 rest 0%N) || (in_flow && is_flow (nth 1 rest 0%N))) || in_flow && is_flow (nth 0 rest 0%N)).
Proof.
  unfold next_can_be_plain_scalar. rewrite !cur_peek.
  destruct (_ && (_ || _)); [reflexivity|]. now destruct (in_flow && is_flow _).
Qed.
(** What may follow a value. *)
Definition value_ends (in_flow : bool) (rest : text) : Prop :=
  if in_flow then In (nth 0 rest 0%N) [44; 93; 125]%N else rest = [].
Lemma value_ends_facts in_flow rest : value_ends in_flow rest ->
  begins (nth 0 rest 0%N) /\ is_blank_or_break (nth 0 rest 0%N) = false /\
  (is_blank_or_breakz (nth 0 rest 0%N) = true \/ in_flow && is_flow (nth 0 rest 0%N) = true) /\
  (nth 0 rest 0%N =? 58)%N = false /\ (nth 0 rest 0%N =? 45)%N = false /\ (nth 0 rest 0%N =? 46)%N = false /\ (nth 0 rest 0%N =? 35)%N = false.
Proof.
  unfold value_ends, begins, is_blank_or_break, is_blank_or_breakz, is_flow, is_blank, is_break. cbn [In]. destruct in_flow.
  - intros H. repeat split; try lia. 
  - intros ->. cbn [nth]. repeat split; try reflexivity; try lia.
Qed.
Definition bare_ends (in_flow : bool) (rest : text) : Prop :=
  is_blank_or_breakz (nth 0 rest 0%N) = true \/ in_flow && is_flow (nth 0 rest 0%N) = true.
Lemma j_content in_flow : forall w fuel string pre rest m s, Forall bare_byte w -> bare_ends in_flow rest ->
  List.length w < fuel ->
  plain_content fuel in_flow string (cur pre (w ++ rest) m false s)
  = (cur (pre ++ w) rest (mark_add (List.length w) m) false s, Ok (string ++ w)).
Proof.
  induction w as [|b w IH]; intros fuel string pre rest m s FW E F; (destruct fuel as [|fuel]; [cbn in F; lia|]);
    cbn [plain_content List.length app] in *.
  - unfold bind, gets. rewrite e_peek, can_be_flow. rewrite mark_add_0, !app_nil_r, negb_involutive.
    assert (X : is_blank_or_breakz (nth 0 rest 0%N) || ((nth 0 rest 0%N =? 58)%N && (is_blank_or_breakz (nth 1 rest 0%N) || in_flow && is_flow (nth 1 rest 0%N)) || in_flow && is_flow (nth 0 rest 0%N)) = true).
    { destruct E as [-> | ->]; [reflexivity|]. rewrite !orb_true_r. reflexivity. }
    now rewrite X.
  - inversion_clear FW as [|? ? Pb Pw]. destruct (bare_facts b Pb) as (X & Y & Z & _).
    unfold bind, gets. rewrite e_peek, can_be_flow. cbn [nth]. rewrite X, Y, Z, andb_false_r. cbn [andb negb orb].
    rewrite e_peek_or_space, e_skip_non_blank. rewrite IH by (auto; lia).
    rewrite mark_add_add, <- !app_assoc. reflexivity.
Qed.
Lemma j_plain_blanks start g : json_white false g -> forall fuel ws lb tb pre rest m l s,
  is_blank_or_break (nth 0 rest 0%N) = false -> List.length g < fuel -> (1 <= m_col m)%N ->
  exists ws' lb' tb' m' l', plain_blanks fuel 1 start ws lb tb (cur pre (g ++ rest) m l s)
  = (cur (pre ++ g) rest m' l' s, Ok (ws', lb', tb')) /\ (1 <= m_col m')%N.
Proof.
  induction 1 as [|b g HB W IH|g W IH|g C W IH]; intros fuel ws lb tb pre rest m l s A F M; (destruct fuel as [|fuel]; [cbn in F; lia|]); cbn [List.length] in F; cbn [plain_blanks app].
  - exists ws, lb, tb, m, l. split; [|exact M]. unfold bind, gets. rewrite e_peek, e_get_mark, A, app_nil_r. reflexivity.
  - unfold bind at 1. rewrite e_peek. cbn [nth]. unfold bind at 1. unfold gets at 1. unfold bind at 1. rewrite e_get_mark.
    change (c_lead (cur pre (b :: g ++ rest) m l s)) with l.
    assert (K : (is_blank_or_break b = true /\ is_blank b = true) \/ b = 10%N).
    { cbn [In] in HB. unfold is_blank_or_break, is_blank. lia. }
    destruct K as [[-> ->] | ->].
    + replace ((m_col m <? 1)%N) with false by lia. cbn [andb]. destruct l; cbn [negb].
      * unfold bind at 1. rewrite e_skip_blank.
        destruct (IH fuel ws lb tb (pre ++ [b]) rest (mark_add 1 m) true s A ltac:(lia)) as (w' & lb' & tb' & m' & l' & -> & X); [unfold mark_add; cbn [Base.m_col]; lia|].
        exists w', lb', tb', m', l'. rewrite <- app_assoc. auto.
      * unfold bind at 1. rewrite e_peek_or_space. unfold bind at 1. rewrite e_skip_blank.
        destruct (IH fuel (ws ++ [b]) lb tb (pre ++ [b]) rest (mark_add 1 m) false s A ltac:(lia)) as (w' & lb' & tb' & m' & l' & -> & X); [unfold mark_add; cbn [Base.m_col]; lia|].
        exists w', lb', tb', m', l'. rewrite <- app_assoc. auto.
    + change (is_blank_or_break 10) with true. change (is_blank 10) with false. cbv iota. destruct l.
      * unfold bind at 1. rewrite e_skip_lf.
        destruct (IH fuel ws lb (tb ++ [10%N]) (pre ++ [10%N]) rest (mark_newline 1 m) true s A ltac:(lia)) as (w' & lb' & tb' & m' & l' & -> & X); [cbn; lia|].
        exists w', lb', tb', m', l'. rewrite <- app_assoc. auto.
      * unfold bind at 1. rewrite e_skip_lf. unfold bind at 1. rewrite e_set_lead.
        destruct (IH fuel [] (lb ++ [10%N]) tb (pre ++ [10%N]) rest (mark_newline 1 m) true s A ltac:(lia)) as (w' & lb' & tb' & m' & l' & -> & X); [cbn; lia|].
        exists w', lb', tb', m', l'. rewrite <- app_assoc. auto.
  - unfold bind at 1. rewrite e_peek. cbn [nth]. unfold bind at 1. unfold gets at 1. unfold bind at 1. rewrite e_get_mark.
    change (c_lead (cur pre (13%N :: 10%N :: g ++ rest) m l s)) with l.
    change (is_blank_or_break 13) with true. change (is_blank 13) with false. cbv iota. destruct l.
    + unfold bind at 1. rewrite e_skip_crlf.
      destruct (IH fuel ws lb (tb ++ [10%N]) (pre ++ [13; 10]%N) rest (mark_newline 2 m) true s A ltac:(lia)) as (w' & lb' & tb' & m' & l' & -> & X); [cbn; lia|].
      exists w', lb', tb', m', l'. rewrite <- app_assoc. auto.
    + unfold bind at 1. rewrite e_skip_crlf. unfold bind at 1. rewrite e_set_lead.
      destruct (IH fuel [] (lb ++ [10%N]) tb (pre ++ [13; 10]%N) rest (mark_newline 2 m) true s A ltac:(lia)) as (w' & lb' & tb' & m' & l' & -> & X); [cbn; lia|].
      exists w', lb', tb', m', l'. rewrite <- app_assoc. auto.
  - discriminate.
Qed.
(** At what ends a value the loop ends. *)
Lemma j_plain_stop in_flow start : forall fuel string ws lb tb em pre rest m l s, value_ends in_flow rest ->
  plain_loop (S fuel) 1 in_flow start string ws lb tb em (cur pre rest m l s) = (cur pre rest m l s, Ok (string, em)).
Proof.
  intros fuel string ws lb tb em pre rest m l s E. destruct (value_ends_facts _ _ E) as (B & A & C & D1 & D2 & D3 & D4).
  cbn [plain_loop]. unfold bind at 1. unfold gets at 1. unfold bind at 1. unfold gets at 1.
  unfold bind at 1. rewrite e_peek. unfold bind at 1. rewrite e_peek. unfold bind at 1. rewrite e_get_mark.
  unfold next_is_document_indicator, next_is_three. rewrite !cur_peek. rewrite D2, D3, D4. cbn [andb orb]. rewrite andb_false_r. cbn [orb].
  rewrite andb_false_r. cbn [andb]. unfold bind at 1. unfold gets at 1. rewrite can_be_flow.
  assert (X : negb (is_blank_or_breakz (nth 0 rest 0%N)) && negb ((nth 0 rest 0 =? 58)%N && (is_blank_or_breakz (nth 1 rest 0%N) || in_flow && is_flow (nth 1 rest 0%N))
                || in_flow && is_flow (nth 0 rest 0%N)) = false).
  { destruct C as [-> | ->]; [reflexivity|]. rewrite orb_true_r. apply andb_false_r. }
  rewrite X. unfold bind at 1. unfold ret at 1. unfold bind at 1. rewrite e_peek.
  assert (Y : is_blank (nth 0 rest 0%N) || is_break (nth 0 rest 0%N) = false) by (revert A; unfold is_blank_or_break, is_blank, is_break; lia).
  rewrite Y. reflexivity.
Qed.
(** Numbers and literal names. *)
Definition bare (w : text) : Prop :=
  Forall bare_byte w /\ (dec_digit (nth 0 w 0%N) \/ (97 <= nth 0 w 0%N <= 122)%N \/ nth 0 w 0%N = 45%N /\ dec_digit (nth 1 w 0%N)).
Lemma bare_ends_value in_flow g rest : json_white false g -> value_ends in_flow rest -> bare_ends in_flow (g ++ rest).
Proof.
  intros W E. destruct (value_ends_facts _ _ E) as (_ & _ & C & _). unfold bare_ends.
  destruct W as [|b g HB W|g W|]; [exact C| | |discriminate]; left; cbn [app nth]; [|reflexivity].
  cbn [In] in HB. unfold is_blank_or_breakz, is_blank, is_break. lia.
Qed.
Lemma j_plain in_flow g rest w fuel pre m l s : bare w -> json_white false g -> value_ends in_flow rest ->
  List.length w + List.length g + 2 < fuel -> (1 <= m_col m)%N ->
  exists sp m' l' s', scan_plain_scalar fuel 0 in_flow (cur pre (w ++ g ++ rest) m l s)
  = (cur (pre ++ w ++ g) rest m' l' s', Ok (Token sp (TScalar Plain w))) /\ (1 <= m_col m')%N.
Proof.
  intros (FW & FB) W E F M. destruct (value_ends_facts _ _ E) as (B & A & C & D1 & D2 & D3 & D4).
  destruct w as [|b w]; [exfalso; unfold dec_digit in FB; cbn [nth] in FB; lia|].
  inversion_clear FW as [|? ? Pb Pw]. destruct (bare_facts b Pb) as (X1 & X2 & X3 & X4).
  assert (ND : next_is_document_indicator str_ops (c_src (cur pre ((b :: w) ++ g ++ rest) m l s)) = false).
  { unfold next_is_document_indicator, next_is_three. rewrite !cur_peek. unfold dec_digit in FB. cbn [app nth] in *.
    clear - FB. destruct w as [|c w]; cbn [app nth] in *; lia. }
  assert (NF : in_flow && (b =? 45)%N && is_flow (nth 0 (w ++ g ++ rest) 0%N) = false).
  { unfold dec_digit in FB. cbn [nth] in FB. destruct (b =? 45)%N eqn:E45; [|now rewrite andb_false_r].
    clear - FB E45. destruct w as [|c w]; cbn [nth app] in *; [lia|]. unfold is_flow. lia. }
  unfold scan_plain_scalar. unfold bind at 1. rewrite e_get_mark. change (0 + 1)%N with 1%N.
  replace ((m_col m <? 1)%N) with false by (clear - M; lia). rewrite andb_false_r.
  destruct fuel as [|fuel]; [clear - F; lia|]. cbn [List.length] in F.
  match goal with |- exists _ _ _ _, bind ?x _ _ = _ /\ _ => assert (PL : exists em m' l', x (cur pre ((b :: w) ++ g ++ rest) m l s)
     = (cur (pre ++ (b :: w) ++ g) rest m' l' s, Ok (b :: w, em)) /\ (1 <= m_col m')%N) end.
  { cbn [plain_loop]. unfold bind at 1. unfold gets at 1. unfold bind at 1. unfold gets at 1. rewrite ND.
    unfold bind at 1. rewrite e_peek. unfold bind at 1. rewrite e_peek. unfold bind at 1. rewrite e_get_mark.
    cbn [app nth] in *. rewrite X4. rewrite andb_false_r. cbn [orb]. rewrite NF.
    unfold bind at 1. unfold gets at 1. rewrite can_be_flow. cbn [nth]. rewrite X1, X2, X3, andb_false_r. cbn [andb negb orb].
    match goal with |- exists _ _ _, bind ?a _ _ = _ /\ _ => assert (WD : a (cur pre (b :: w ++ g ++ rest) m l s)
      = (cur (pre ++ b :: w) (g ++ rest) (mark_add (List.length (b :: w)) m) false s,
         Ok (b :: w, [], [], [], mark_add (List.length (b :: w)) m))) end.
    { change (c_lead (cur pre (b :: w ++ g ++ rest) m l s)) with l.
      unfold bind at 1. destruct l.
      - unfold bind at 1. rewrite e_set_lead. unfold ret at 1. cbn [app].
        unfold bind. rewrite e_peek_or_space, e_skip_non_blank.
        rewrite j_content; [|exact Pw|now apply bare_ends_value|clear - F; lia].
        rewrite e_get_mark. unfold ret. rewrite mark_add_add, <- !app_assoc. reflexivity.
      - unfold ret at 1. unfold bind. rewrite e_peek_or_space, e_skip_non_blank.
        rewrite j_content; [|exact Pw|now apply bare_ends_value|clear - F; lia].
        rewrite e_get_mark. unfold ret. rewrite mark_add_add, <- !app_assoc. reflexivity. }
    unfold bind at 1. rewrite WD. clear WD. unfold bind at 1. rewrite e_peek.
    destruct (negb (is_blank (nth 0 (g ++ rest) 0%N) || is_break (nth 0 (g ++ rest) 0%N))) eqn:NB.
    - assert (G : g = []).
      { destruct W as [|c g HB W|g W|]; [reflexivity| | |discriminate]; exfalso; cbn [app nth] in NB; [|discriminate].
        cbn [In] in HB. unfold is_blank, is_break in NB. clear - HB NB; lia. }
      subst g. cbn [app]. do 3 eexists. unfold ret. split; [rewrite app_nil_r; reflexivity|].
      unfold mark_add. cbn [Base.m_col]. clear - M; lia.
    - destruct (j_plain_blanks m g W fuel [] [] [] (pre ++ b :: w) rest (mark_add (List.length (b :: w)) m) false s A ltac:(clear - F; lia)) as (ws' & lb' & tb' & m' & l' & PB & MC).
      { unfold mark_add. cbn [Base.m_col]. clear - M; lia. }
      unfold bind at 1. rewrite PB. unfold bind at 1. rewrite e_get_mark. replace ((m_col m' <? 1)%N) with false by (clear - MC; lia). rewrite andb_false_r.
      destruct fuel as [|fuel]; [clear - F; lia|]. rewrite j_plain_stop by exact E. do 3 eexists. split; [|exact MC]. rewrite <- app_assoc. reflexivity. }
  destruct PL as (em & m' & l' & PL & MC). unfold bind at 1. rewrite PL. unfold bind at 1. unfold gets at 1.
  change (c_lead (cur (pre ++ (b :: w) ++ g) rest m' l' s)) with l'.
  destruct l'.
  - unfold bind at 1. rewrite e_set_ska. do 4 eexists. split; [reflexivity|exact MC].
  - unfold bind at 1. unfold ret at 1. do 4 eexists. split; [reflexivity|exact MC].
Qed.

(** ** Strings *)
Lemma utf8_implements c u : utf8_of c u -> utf8 c = u.
Proof.
  intros [d L|a b A B|a b d A B D L|a b d e A B D E L]; unfold utf8.
  - now replace ((d <? 128)%N) with true by lia.
  - replace ((a * 64 + b <? 128)%N) with false by lia. replace ((a * 64 + b <? 2048)%N) with true by lia.
    assert (Q1 : ((a * 64 + b) / 64 = a)%N) by (symmetry; apply (N.div_unique _ _ _ b); lia).
    assert (Q2 : ((a * 64 + b) mod 64 = b)%N) by (symmetry; apply (N.mod_unique _ _ a); lia).
    rewrite Q1, Q2. reflexivity.
  - replace ((a * 4096 + b * 64 + d <? 128)%N) with false by lia. replace ((a * 4096 + b * 64 + d <? 2048)%N) with false by lia.
    replace ((a * 4096 + b * 64 + d <? 65536)%N) with true by lia.
    assert (Q1 : ((a * 4096 + b * 64 + d) / 64 = a * 64 + b)%N) by (symmetry; apply (N.div_unique _ _ _ d); lia).
    assert (Q2 : ((a * 4096 + b * 64 + d) mod 64 = d)%N) by (symmetry; apply (N.mod_unique _ _ (a * 64 + b)); lia).
    assert (Q3 : ((a * 4096 + b * 64 + d) / 4096 = a)%N) by (symmetry; apply (N.div_unique _ _ _ (b * 64 + d)); lia).
    assert (Q4 : ((a * 64 + b) mod 64 = b)%N) by (symmetry; apply (N.mod_unique _ _ a); lia).
    rewrite Q1, Q2, Q3, Q4. reflexivity.
  - set (x := (a * 262144 + b * 4096 + d * 64 + e)%N) in *.
    replace ((x <? 128)%N) with false by lia. replace ((x <? 2048)%N) with false by lia. replace ((x <? 65536)%N) with false by lia.
    assert (Q1 : (x / 64 = a * 4096 + b * 64 + d)%N) by (symmetry; apply (N.div_unique _ _ _ e); lia).
    assert (Q2 : (x mod 64 = e)%N) by (symmetry; apply (N.mod_unique _ _ (a * 4096 + b * 64 + d)); lia).
    assert (Q3 : (x / 4096 = a * 64 + b)%N) by (symmetry; apply (N.div_unique _ _ _ (d * 64 + e)); lia).
    assert (Q4 : (x / 262144 = a)%N) by (symmetry; apply (N.div_unique _ _ _ (b * 4096 + d * 64 + e)); lia).
    assert (Q5 : ((a * 64 + b) mod 64 = b)%N) by (symmetry; apply (N.mod_unique _ _ a); lia).
    assert (Q6 : ((a * 4096 + b * 64 + d) mod 64 = d)%N) by (symmetry; apply (N.mod_unique _ _ (a * 64 + b)); lia).
    rewrite Q1, Q2, Q3, Q4, Q5, Q6. reflexivity.
Qed.
(** Hexadecimal digits. *)
Lemma hex_digit_val c : hex_digit c -> is_ascii_hexdigit c = true /\ as_hex c = Some (digit_val c) /\ (digit_val c < 16)%N.
Proof.
  unfold hex_digit, is_ascii_hexdigit, as_hex, is_ascii_digit, digit_val. intros H.
  destruct (N.leb_spec c 57).
  - replace ((48 <=? c)%N) with true by lia. cbn [andb orb]. split; [reflexivity|]. split; [reflexivity|lia].
  - rewrite andb_false_r. cbn [orb]. destruct (N.leb_spec c 70).
    + replace ((65 <=? c)%N) with true by lia. replace ((97 <=? c)%N) with false by lia. cbn [andb orb]. split; [reflexivity|]. split; [f_equal; lia|lia].
    + replace ((97 <=? c)%N && (c <=? 102)%N) with true by lia. rewrite andb_false_r. split; [reflexivity|]. split; [f_equal; lia|lia].
Qed.
Lemma j_hex start h v pre rest m l s : hex4 h v ->
  hex_value start 4 0 0 (cur pre (h ++ rest) m l s) = (cur pre (h ++ rest) m l s, Ok v) /\ (v < 65536)%N.
Proof.
  intros (L & FH & NV). destruct h as [|a [|b [|c [|d [|? ?]]]]]; try discriminate. clear L.
  apply Forall_cons_iff in FH. destruct FH as [Ha FH]. apply Forall_cons_iff in FH. destruct FH as [Hb FH].
  apply Forall_cons_iff in FH. destruct FH as [Hc FH]. apply Forall_cons_iff in FH. destruct FH as [Hd _].
  destruct (hex_digit_val a Ha) as (A1 & A2 & A3), (hex_digit_val b Hb) as (B1 & B2 & B3), (hex_digit_val c Hc) as (C1 & C2 & C3), (hex_digit_val d Hd) as (D1 & D2 & D3).
  assert (V : v = (((digit_val a * 16 + digit_val b) * 16 + digit_val c) * 16 + digit_val d)%N).
  { unfold number in NV. cbn [rev app positional] in NV. clear - NV. lia. }
  split; [|clear - V A3 B3 C3 D3; lia].
  cbn [hex_value app]. unfold bind at 1. rewrite e_peek. cbn [nth]. rewrite A1, A2. cbn [negb].
  unfold bind at 1. rewrite e_peek. cbn [nth]. rewrite B1, B2. cbn [negb].
  unfold bind at 1. rewrite e_peek. cbn [nth]. rewrite C1, C2. cbn [negb].
  unfold bind at 1. rewrite e_peek. cbn [nth]. rewrite D1, D2. cbn [negb]. unfold ret.
  f_equal. f_equal. rewrite V. clear - A3 B3 C3 D3. change (0 * 16 mod 4294967296 + digit_val a)%N with (digit_val a).
  assert (X1 : (digit_val a * 16 mod 4294967296 = digit_val a * 16)%N) by (apply N.mod_small; lia). rewrite X1.
  assert (X2 : ((digit_val a * 16 + digit_val b) * 16 mod 4294967296 = (digit_val a * 16 + digit_val b) * 16)%N) by (apply N.mod_small; lia). rewrite X2.
  assert (X3 : (((digit_val a * 16 + digit_val b) * 16 + digit_val c) * 16 mod 4294967296 = ((digit_val a * 16 + digit_val b) * 16 + digit_val c) * 16)%N) by (apply N.mod_small; lia).
  now rewrite X3.
Qed.
(** A run of characters other than spaces. *)
Lemma j_consume start src out : json_chars false src out -> forall fuel string pre rest m s, List.length src < fuel ->
  exists s1 s2 o1 o2, src = s1 ++ s2 /\ out = o1 ++ o2 /\ json_chars false s2 o2 /\ (s2 = [] \/ exists s3, s2 = 32%N :: s3) /\
    consume_chars fuel false start string (cur pre (src ++ 34%N :: rest) m false s)
    = (cur (pre ++ s1) (s2 ++ 34%N :: rest) (mark_add (List.length s1) m) false s, Ok (string ++ o1, false)).
Proof.
  induction 1 as [|b t x H1 H2 H3 J IH|c v t x HI J IH|h v u t x HH NS U J IH|h1 h2 v1 v2 u t x FT]; intros fuel string pre rest m s F;
    (destruct fuel as [|fuel]; [cbn in F; lia|]); cbn [List.length] in F.
  - exists [], [], [], []. repeat split; auto using jc_none. cbn [app List.length]. rewrite mark_add_0, !app_nil_r.
    apply consume_stop. right. split; [reflexivity|discriminate].
  - destruct (N.eqb_spec b 32) as [->|N32].
    + exists [], (32%N :: t), [], (32%N :: x). repeat split; eauto using jc_byte. cbn [app List.length]. rewrite mark_add_0, !app_nil_r.
      apply consume_stop. left. left. reflexivity.
    + destruct (IH fuel (string ++ [b]) (pre ++ [b]) rest (mark_add 1 m) s ltac:(lia)) as (s1 & s2 & o1 & o2 & -> & -> & X1 & X2 & X3).
      exists (b :: s1), s2, (b :: o1), o2. repeat split; auto. cbn [app consume_chars]. unfold bind at 1. rewrite e_peek. unfold bind at 1. rewrite e_peek. cbn [nth].
      assert (Y : is_blank_or_breakz b = false) by (unfold is_blank_or_breakz, is_blank, is_break; lia). rewrite Y.
      replace ((b =? 34)%N) with false by lia. replace ((b =? 92)%N) with false by lia. rewrite !andb_false_r. cbn [andb negb].
      unfold bind at 1. rewrite e_skip_non_blank. rewrite X3, mark_add_add, <- !app_assoc. reflexivity.
  - destruct (IH fuel (string ++ [v]) (pre ++ [92%N; c]) rest (mark_add 2 m) s ltac:(lia)) as (s1 & s2 & o1 & o2 & -> & -> & X1 & X2 & X3).
    exists (92%N :: c :: s1), s2, (v :: o1), o2. repeat split; auto. cbn [app consume_chars]. unfold bind at 1. rewrite e_peek. unfold bind at 1. rewrite e_peek. cbn [nth].
    change (is_blank_or_breakz 92) with false. change ((92 =? 39)%N) with false. change ((92 =? 34)%N) with false. change ((92 =? 92)%N) with true. cbn [andb negb].
    assert (EC : is_break c = false /\ escape_code c = Some (inl v) /\ utf8 v = [v]).
    { cbn [json_escapes In] in HI. repeat (destruct HI as [HI|HI]; [injection HI as <- <-; repeat split|]). contradiction. }
    destruct EC as (EC1 & EC2 & EC3). rewrite EC1. unfold resolve_escape. unfold bind at 1. unfold bind at 1. rewrite e_peek. cbn [nth]. rewrite EC2.
    unfold bind at 1. change (92%N :: c :: (s1 ++ s2) ++ 34%N :: rest) with ([92%N; c] ++ (s1 ++ s2) ++ 34%N :: rest).
    rewrite e_skip_n by reflexivity. unfold ret at 1. rewrite EC3. cbn [List.length]. rewrite X3, mark_add_add, <- !app_assoc. reflexivity.
  - rewrite app_length in F. destruct (j_hex start h v (pre ++ [92; 117]%N) (t ++ 34%N :: rest) (mark_add 2 m) false s HH) as (HX & VB).
    assert (LH : List.length h = 4) by apply HH.
    destruct (IH fuel (string ++ u) ((pre ++ [92%N; 117%N]) ++ h) rest (mark_add (List.length h) (mark_add 2 m)) s ltac:(lia)) as (s1 & s2 & o1 & o2 & -> & -> & X1 & X2 & X3).
    exists (92%N :: 117%N :: h ++ s1), s2, (u ++ o1), o2. split; [cbn [app]; now rewrite <- app_assoc|]. split; [now rewrite app_assoc|]. split; [exact X1|]. split; [exact X2|].
    cbn [app consume_chars]. unfold bind at 1. rewrite e_peek. unfold bind at 1. rewrite e_peek. cbn [nth].
    change (is_blank_or_breakz 92) with false. change ((92 =? 39)%N) with false. change ((92 =? 34)%N) with false. change ((92 =? 92)%N) with true.
    change (is_break 117) with false. cbn [andb negb].
    unfold resolve_escape. unfold bind at 1. unfold bind at 1. rewrite e_peek. cbn [nth]. change (escape_code 117) with (Some (@inr N nat 4)). cbv iota.
    unfold bind at 1. rewrite <- app_assoc.
    change (92%N :: 117%N :: h ++ (s1 ++ s2) ++ 34%N :: rest) with ([92; 117]%N ++ h ++ (s1 ++ s2) ++ 34%N :: rest).
    rewrite e_skip_n by reflexivity. cbn [List.length]. unfold bind at 1. rewrite HX.
    assert (CU : char_from_u32 v = Some v).
    { unfold char_from_u32. unfold surrogate in NS. clear - NS VB. replace ((v <? 55296)%N || (57344 <=? v)%N && (v <? 1114112)%N) with true by lia. reflexivity. }
    rewrite CU. unfold bind at 1. rewrite e_skip_n by now rewrite LH. unfold ret at 1. rewrite (utf8_implements v u U).
    rewrite X3, !mark_add_add, <- !app_assoc. cbn [app List.length]. rewrite app_length. reflexivity.
  - discriminate.
Qed.
Lemma j_spaces src out : json_chars false src out ->
  exists k s2 o2, src = repeat 32%N k ++ s2 /\ out = repeat 32%N k ++ o2 /\ json_chars false s2 o2 /\ (nth 0 s2 34 <> 32)%N.
Proof.
  induction 1 as [|b t x H1 H2 H3 J IH|c v t x HI J IH|h v u t x HH NS U J IH|h1 h2 v1 v2 u t x FT].
  - exists 0, [], []. repeat split; auto using jc_none. discriminate.
  - destruct (N.eqb_spec b 32) as [->|N32].
    + destruct IH as (k & s2 & o2 & -> & -> & X & Y). exists (S k), s2, o2. auto.
    + exists 0, (b :: t), (b :: x). repeat split; auto using jc_byte.
  - exists 0, (92%N :: c :: t), (v :: x). repeat split; auto using jc_escape. discriminate.
  - exists 0, (92%N :: 117%N :: h ++ t), (u ++ x). repeat split; [eapply jc_unicode; eauto|]. discriminate.
  - discriminate.
Qed.
Lemma json_chars_first full src out : json_chars full src out -> forall rest, (32 <= nth 0 (src ++ 34%N :: rest) 0)%N.
Proof. intros []; intros; cbn [app nth]; lia. Qed.
Lemma j_flow_loop start rest : forall k src out fuel string pre m s, List.length src <= k -> json_chars false src out ->
  k + 1 < fuel -> (1 < m_col m)%N ->
  flow_loop fuel false 0 start string [] [] [] (cur pre (src ++ 34%N :: rest) m false s)
  = (cur (pre ++ src) (34%N :: rest) (mark_add (List.length src) m) false s, Ok (string ++ out)).
Proof.
  induction k as [k IH] using lt_wf_ind. intros src out fuel string pre m s LS J F C.
  destruct fuel as [|fuel]; [lia|]. cbn [flow_loop].
  unfold bind at 1. rewrite e_get_mark. unfold bind at 1. unfold gets at 1. unfold bind at 1. rewrite e_peek_checked.
  replace ((m_col m =? 1)%N) with false by lia. cbn [andb]. replace ((m_col m <? 0)%N) with false by lia.
  assert (NE : exists x, nth_error (src ++ 34%N :: rest) 0 = Some x) by (destruct src; cbn; eauto).
  destruct NE as [x ->]. clear x.
  destruct (j_consume start src out J fuel string pre rest m s ltac:(lia)) as (s1 & s2 & o1 & o2 & -> & -> & J2 & D & CC).
  unfold bind at 1. rewrite CC. unfold bind at 1. rewrite e_peek. rewrite app_length in LS.
  destruct D as [-> | (s3 & ->)].
  - cbn [app nth]. inversion J2. subst. change ((34 =? 39)%N && false || (34 =? 34)%N && negb false) with true. cbv iota.
    unfold ret. rewrite !app_nil_r. reflexivity.
  - cbn [app nth]. change ((32 =? 39)%N && false || (32 =? 34)%N && negb false) with false. cbv iota.
    destruct (j_spaces _ _ J2) as (n & s4 & o4 & E4 & -> & J4 & N4).
    destruct n as [|n]; [cbn [repeat app] in E4; subst s4; cbn [nth] in N4; congruence|].
    change (32%N :: s3 ++ 34%N :: rest) with ((32%N :: s3) ++ 34%N :: rest). rewrite E4, <- app_assoc.
    rewrite E4 in LS. rewrite app_length, repeat_length in LS.
    assert (FST : (32 < nth 0 (s4 ++ 34%N :: rest) 0)%N).
    { pose proof (json_chars_first _ _ _ J4 rest) as Q. assert (nth 0 (s4 ++ 34%N :: rest) 0%N <> 32%N); [|lia].
      destruct s4; cbn [app nth] in *; [discriminate|exact N4]. }
    unfold bind at 1. rewrite flow_blanks_run; [|apply Forall_forall; intros y Hy; apply repeat_spec in Hy; now left|lia|lia|lia|lia|rewrite repeat_length; lia].
    cbn [app]. rewrite repeat_length.
    rewrite (IH (List.length s4) ltac:(lia) s4 o4); [|lia|exact J4|lia|unfold mark_add; cbn [Base.m_col]; lia].
    rewrite !mark_add_add, !app_length, repeat_length, <- !app_assoc, Nat.add_assoc. reflexivity.
Qed.
Lemma j_quoted in_flow src out fuel pre g rest m l s : json_chars false src out -> json_white false g -> begins (nth 0 rest 0%N) ->
  value_ends in_flow rest \/ (in_flow = true /\ nth 0 rest 0%N = 58%N) ->
  List.length src + List.length g + 2 < fuel -> (1 <= m_col m)%N ->
  exists sp g1 g2 m', g = g1 ++ g2 /\ json_white false g2 /\
  scan_flow_scalar fuel false 0 in_flow (cur pre ((34%N :: src ++ [34%N]) ++ g ++ rest) m l s)
  = (cur (pre ++ (34%N :: src ++ [34%N]) ++ g1) (g2 ++ rest) m' false s, Ok (Token sp (TScalar DoubleQuote out))) /\ (1 <= m_col m')%N.
Proof.
  intros J W B E F M. unfold scan_flow_scalar. unfold bind at 1. rewrite e_get_mark.
  cbn [app]. rewrite <- app_assoc. cbn [app]. unfold bind at 1. rewrite e_skip_non_blank.
  unfold bind at 1. rewrite (j_flow_loop m (g ++ rest) (List.length src) src out); [|lia|exact J|lia|unfold mark_add; cbn [Base.m_col]; lia].
  cbn [app]. unfold bind at 1. rewrite e_skip_non_blank.
  destruct (j_ws g W fuel (((pre ++ [34%N]) ++ src) ++ [34%N]) rest (mark_add 1 (mark_add (List.length src) (mark_add 1 m))) false s B ltac:(lia)) as (g1 & g2 & any & -> & G1 & G2 & Y1 & Y2 & WS).
  unfold bind at 1. rewrite WS. unfold bind at 1. rewrite e_peek. unfold bind at 1. rewrite e_get_mark.
  match goal with |- context [mark_add (List.length g1) ?mm] => set (mm' := mm) end.
  assert (OK : ((((nth 0 (g2 ++ rest) 0 =? 44)%N || (nth 0 (g2 ++ rest) 0 =? 125)%N || (nth 0 (g2 ++ rest) 0 =? 93)%N) && in_flow)
     || is_breakz (nth 0 (g2 ++ rest) 0%N)
     || ((nth 0 (g2 ++ rest) 0 =? 58)%N && negb in_flow && (m_line m =? m_line (mark_add (List.length g1) mm'))%N)
     || ((nth 0 (g2 ++ rest) 0 =? 58)%N && in_flow)) = true).
  { assert (X : is_breakz (nth 0 (g2 ++ rest) 0%N) = true \/ nth 0 (g2 ++ rest) 0%N = nth 0 rest 0%N).
    { destruct (jw_first g2 rest G2) as [X|X]; [now right|left]. cbn [In] in X. unfold is_breakz. lia. }
    destruct X as [-> | ->]; [now rewrite orb_true_r|].
    destruct E as [E|[-> ->]]; [|now rewrite !orb_true_r].
    unfold value_ends in E. destruct in_flow; [cbn [In] in E; clear - E; lia|]. rewrite E. cbn [nth]. rewrite andb_false_r. reflexivity. }
  rewrite OK. unfold ret. exists (Span m (mark_add (List.length g1) mm')), g1, g2, (mark_add (List.length g1) mm').
  split; [reflexivity|]. split; [exact G2|]. split; [|unfold mm', mark_add; cbn [Base.m_col]; lia].
  rewrite <- !app_assoc. cbn [app]. reflexivity.
Qed.
