(** Exact runs of the reading methods of the scanner: what they do on a text whose next bytes are
    known. *)
From Verif Require Import Base Tokens Scalar Chars Source Cursor.
From Coq Require Import String Lia ZifyBool ZifyNat ZifyN.
Local Open Scope list_scope.

(** The cursor after [pre] and before [rest]. *)
Definition cur (pre rest : text) (m : marker) (lead ska : bool) : cursor :=
  Cur (StrSrc (pre ++ rest) (List.length pre)) m lead ska.

Lemma cur_peek pre rest m l s n : peekz str_ops (c_src (cur pre rest m l s)) n = nth n rest 0%N.
Proof.
  unfold peekz, str_ops, o_peek, cur, c_src, str_peek, ss_input, ss_pos.
  rewrite nth_error_app2 by lia.
  replace (List.length pre + n - List.length pre) with n by lia.
  revert n. induction rest as [|b r IH]; intros [|n]; cbn [nth_error nth]; auto.
Qed.
Lemma cur_str_peek pre rest m l s n : str_peek (c_src (cur pre rest m l s)) n = nth_error rest n.
Proof.
  unfold cur, c_src, str_peek, ss_input, ss_pos.
  rewrite nth_error_app2 by lia. f_equal. lia.
Qed.
Lemma cur_skip pre a rest n : n = List.length a ->
  str_skip n (StrSrc (pre ++ a ++ rest) (List.length pre))
  = StrSrc ((pre ++ a) ++ rest) (List.length (pre ++ a)).
Proof. intros ->. unfold str_skip, ss_input, ss_pos. now rewrite app_assoc, app_length. Qed.
Lemma cur_empty pre rest m l s :
  str_buf_is_empty (c_src (cur pre rest m l s)) = match rest with [] => true | _ => false end.
Proof.
  unfold cur, c_src, str_buf_is_empty, ss_input, ss_pos. rewrite app_length.
  destruct rest; cbn [List.length]; lia.
Qed.

Lemma e_peek n pre rest m l s :
  peek n (cur pre rest m l s) = (cur pre rest m l s, Ok (nth n rest 0%N)).
Proof. unfold peek, gets. now rewrite cur_peek. Qed.
Lemma e_peek_checked n pre rest m l s :
  peek_checked n (cur pre rest m l s) = (cur pre rest m l s, Ok (nth_error rest n)).
Proof. unfold peek_checked, gets. now rewrite cur_str_peek. Qed.
Lemma e_peek_or_space pre b rest m l s :
  peek_or_space (cur pre (b :: rest) m l s) = (cur pre (b :: rest) m l s, Ok b).
Proof. unfold peek_or_space, gets. now rewrite cur_str_peek. Qed.
Lemma e_get_mark pre rest m l s : get_mark (cur pre rest m l s) = (cur pre rest m l s, Ok m).
Proof. reflexivity. Qed.
Lemma e_skip_n a pre rest m l s : forall n, n = List.length a ->
  skip_n_non_blank n (cur pre (a ++ rest) m l s)
  = (cur (pre ++ a) rest (mark_add (List.length a) m) false s, Ok tt).
Proof.
  intros n ->. unfold skip_n_non_blank, modify, cur, c_src, c_mark, c_ska.
  now rewrite (cur_skip pre a rest) by reflexivity.
Qed.
Lemma e_skip_non_blank b pre rest m l s :
  skip_non_blank (cur pre (b :: rest) m l s)
  = (cur (pre ++ [b]) rest (mark_add 1 m) false s, Ok tt).
Proof. unfold skip_non_blank. exact (e_skip_n [b] pre rest m l s 1 eq_refl). Qed.
Lemma e_skip_blank b pre rest m l s :
  skip_blank (cur pre (b :: rest) m l s)
  = (cur (pre ++ [b]) rest (mark_add 1 m) l s, Ok tt).
Proof.
  unfold skip_blank, modify, cur, c_src, c_mark, c_ska, c_lead.
  now rewrite <- (cur_skip pre [b] rest 1 eq_refl).
Qed.
Lemma e_skip_lf pre rest m l s :
  skip_linebreak (cur pre (10%N :: rest) m l s)
  = (cur (pre ++ [10%N]) rest (mark_newline 1 m) true s, Ok tt).
Proof.
  unfold skip_linebreak, modify. rewrite !cur_peek. cbn [nth].
  change ((10 =? 13)%N) with false. cbn [andb]. change ((10 =? 10)%N) with true. cbv iota.
  unfold cur, c_src, c_mark, c_ska, c_lead.
  now rewrite <- (cur_skip pre [10%N] rest 1 eq_refl).
Qed.
Lemma mark_add_add a b m : mark_add a (mark_add b m) = mark_add (b + a) m.
Proof. destruct m. unfold mark_add. cbn [Base.m_pos Base.m_col Base.m_line]. f_equal; lia. Qed.
Lemma mark_add_0 m : mark_add 0 m = m.
Proof. destruct m. unfold mark_add. cbn [Base.m_pos Base.m_col Base.m_line]. f_equal; lia. Qed.
Lemma cur_app pre a b rest m l s : cur ((pre ++ a) ++ b) rest m l s = cur (pre ++ a ++ b) rest m l s.
Proof. now rewrite app_assoc. Qed.
Lemma cur_nil pre rest m l s : cur (pre ++ []) rest m l s = cur pre rest m l s.
Proof. now rewrite app_nil_r. Qed.

(** ** White space *)
(** [skip_ws_to_eol] stops at once before a byte that is neither white space nor [#]. *)
Lemma e_ws_stop fuel tabs prev pre rest m l s :
  nth 0 rest 0%N <> 32%N -> nth 0 rest 0%N <> 9%N -> nth 0 rest 0%N <> 35%N ->
  skip_ws_to_eol (S fuel) tabs prev (cur pre rest m l s)
  = (cur pre rest m l s, Ok (false, prev)).
Proof.
  intros A B C. unfold skip_ws_to_eol, str_skip_ws_to_eol. cbn [shared_skip_ws_to_eol].
  rewrite cur_peek.
  rewrite (proj2 (N.eqb_neq _ _) A), (proj2 (N.eqb_neq _ _) B), (proj2 (N.eqb_neq _ _) C).
  cbn [andb]. rewrite mark_add_0. unfold cur, c_src, c_lead, c_ska, c_mark. reflexivity.
Qed.
Lemma shared_spaces o k : forall fuel (pre rest : text) bytes any has,
  o = str_ops ->
  nth 0 rest 0%N <> 32%N -> nth 0 rest 0%N <> 35%N -> (nth 0 rest 0%N <> 9%N) -> k < fuel ->
  forall tabs,
  shared_skip_ws_to_eol o fuel (StrSrc (pre ++ repeat 32%N k ++ rest) (List.length pre)) tabs bytes any has
  = Some (StrSrc ((pre ++ repeat 32%N k) ++ rest) (List.length (pre ++ repeat 32%N k)),
          (bytes + k, SkipOk any (match k with O => has | _ => true end))).
Proof.
  induction k as [|k IH]; intros fuel pre rest bytes any has -> A B C F tabs;
    (destruct fuel as [|fuel]; [lia|]); cbn [shared_skip_ws_to_eol repeat app].
  - pose proof (cur_peek pre rest (Marker 0 0 0) true true 0) as P. unfold cur, c_src in P. rewrite P.
    rewrite (proj2 (N.eqb_neq _ _) A), (proj2 (N.eqb_neq _ _) C), (proj2 (N.eqb_neq _ _) B).
    cbn [andb]. rewrite app_nil_r, Nat.add_0_r. reflexivity.
  - pose proof (cur_peek pre (32%N :: repeat 32%N k ++ rest) (Marker 0 0 0) true true 0) as P.
    unfold cur, c_src in P. rewrite P. cbn [nth]. change ((32 =? 32)%N) with true. cbv iota.
    unfold str_ops at 2. cbn [o_skip].
    change (32%N :: repeat 32%N k ++ rest) with ([32%N] ++ repeat 32%N k ++ rest).
    rewrite (cur_skip pre [32%N] (repeat 32%N k ++ rest) 1 eq_refl).
    rewrite IH by (auto; lia).
    rewrite <- !app_assoc. cbn [app]. replace (bytes + 1 + k) with (bytes + S k) by lia. destruct k; reflexivity.
Qed.
(** [skip_ws_to_eol] on spaces followed by such a byte. *)
Lemma e_ws_spaces k fuel tabs prev pre rest m l s :
  nth 0 rest 0%N <> 32%N -> nth 0 rest 0%N <> 9%N -> nth 0 rest 0%N <> 35%N -> k < fuel ->
  skip_ws_to_eol fuel tabs prev (cur pre (repeat 32%N k ++ rest) m l s)
  = (cur (pre ++ repeat 32%N k) rest (mark_add k m) l s,
     Ok (false, match k with O => prev | _ => true end)).
Proof.
  intros A B C F. unfold skip_ws_to_eol, str_skip_ws_to_eol, cur, c_src.
  rewrite shared_spaces by auto. reflexivity.
Qed.

(** ** Quoted scalars on one line *)
(** [enc] writes a byte inside quotes so that it is read as itself. *)
Definition blank_byte (b : N) : Prop := b = 32%N \/ b = 9%N.
Definition reads_byte (single : bool) (enc : N -> text) (b : N) : Prop :=
  forall fuel start string pre rest m l s,
    consume_chars (S fuel) single start string (cur pre (enc b ++ rest) m l s)
    = consume_chars fuel single start (string ++ [b])
        (cur (pre ++ enc b) rest (mark_add (List.length (enc b)) m) false s).
(** [rest] ends a run of non-blank bytes. *)
Definition quote (single : bool) : N := if single then 39%N else 34%N.
Definition run_ends (single : bool) (rest : text) : Prop :=
  blank_byte (nth 0 rest 0%N) \/
  (nth 0 rest 0%N = quote single /\ (single = true -> nth 1 rest 0%N <> 39%N)).

Lemma consume_stop fuel single start string pre rest m s : run_ends single rest ->
  consume_chars (S fuel) single start string (cur pre rest m false s)
  = (cur pre rest m false s, Ok (string, false)).
Proof.
  intros E. cbn [consume_chars]. unfold bind. rewrite e_peek, e_peek.
  destruct E as [[E|E]|[E F]].
  - rewrite E. reflexivity.
  - rewrite E. reflexivity.
  - rewrite E. destruct single; unfold quote in *.
    + change (is_blank_or_breakz 39) with false. cbv iota.
      change ((39 =? 39)%N) with true. cbn [andb].
      rewrite (proj2 (N.eqb_neq _ _) (F eq_refl)). reflexivity.
    + reflexivity.
Qed.
Lemma consume_word single enc start : forall w fuel string pre rest m s,
  Forall (reads_byte single enc) w -> run_ends single rest -> List.length w < fuel ->
  consume_chars fuel single start string (cur pre (flat_map enc w ++ rest) m false s)
  = (cur (pre ++ flat_map enc w) rest (mark_add (List.length (flat_map enc w)) m) false s,
     Ok (string ++ w, false)).
Proof.
  induction w as [|b w IH]; intros fuel string pre rest m s FW E F; cbn [flat_map].
  - destruct fuel as [|fuel]; [cbn in F; lia|]. cbn [app List.length].
    rewrite consume_stop by exact E. rewrite mark_add_0, !app_nil_r. reflexivity.
  - destruct fuel as [|fuel]; [cbn in F; lia|]. cbn [List.length] in F.
    apply Forall_cons_iff in FW. destruct FW as [HB FW].
    rewrite <- app_assoc. rewrite HB. rewrite IH by (auto; lia).
    rewrite mark_add_add, !app_length, <- !app_assoc. reflexivity.
Qed.
Lemma flow_blanks_run indent : forall bs fuel ws lb tb pre rest m s,
  Forall blank_byte bs -> nth 0 rest 0%N <> 32%N -> nth 0 rest 0%N <> 9%N ->
  nth 0 rest 0%N <> 10%N -> nth 0 rest 0%N <> 13%N -> List.length bs < fuel ->
  flow_blanks fuel indent false ws lb tb (cur pre (bs ++ rest) m false s)
  = (cur (pre ++ bs) rest (mark_add (List.length bs) m) false s, Ok (false, ws ++ bs, lb, tb)).
Proof.
  induction bs as [|b bs IH]; intros fuel ws lb tb pre rest m s FB A B C D F;
    (destruct fuel as [|fuel]; [cbn in F; lia|]); cbn [flow_blanks app].
  - unfold bind. rewrite e_peek, e_get_mark.
    assert (X : is_blank (nth 0 rest 0%N) || is_break (nth 0 rest 0%N) = false)
      by (unfold is_blank, is_break; lia).
    rewrite X. cbn [List.length]. rewrite mark_add_0, !app_nil_r. reflexivity.
  - apply Forall_cons_iff in FB. destruct FB as [HB FB]. cbn [List.length] in F.
    unfold bind. rewrite e_peek, e_get_mark. cbn [nth].
    assert (X : is_blank b = true) by (unfold blank_byte in HB; unfold is_blank; lia).
    rewrite X. cbn [orb]. rewrite e_peek_or_space, e_skip_blank. rewrite IH by (auto; lia).
    rewrite mark_add_add, <- !app_assoc. cbn [List.length app]. reflexivity.
Qed.

(** A text is runs of bytes without and with a property in turn. *)
Lemma word_blanks (P : N -> Prop) (D : forall b, P b \/ ~ P b) (t : text) : exists w bs r,
  t = w ++ bs ++ r /\ Forall (fun b => ~ P b) w /\ Forall P bs /\
  (bs = [] -> r = []) /\ (forall b r', r = b :: r' -> ~ P b).
Proof.
  assert (B : forall t : text, exists bs r, t = bs ++ r /\ Forall P bs /\
            (forall b r', r = b :: r' -> ~ P b)).
  { intros u. induction u as [|b u IH].
    - exists [], []. repeat split; auto. discriminate.
    - destruct (D b) as [H|H].
      + destruct IH as (bs & r & -> & F & G). exists (b :: bs), r. repeat split; auto.
      + exists [], (b :: u). repeat split; auto. intros b' r' E. now injection E as <- _. }
  induction t as [|b t IH].
  - exists [], [], []. repeat split; auto. discriminate.
  - destruct (D b) as [H|H].
    + destruct (B (b :: t)) as (bs & r & E & F & G).
      exists [], bs, r. cbn [app]. repeat split; auto.
      intros ->. cbn [app] in E. subst r. exfalso. exact (G b t eq_refl H).
    + destruct IH as (w & bs & r & -> & F & G & H1 & H2).
      exists (b :: w), bs, r. repeat split; auto.
Qed.
(** A blank that is written as itself. *)
Definition bare_blank (enc : N -> text) (b : N) : Prop := blank_byte b /\ enc b = [b].
Lemma bare_blank_dec enc b : bare_blank enc b \/ ~ bare_blank enc b.
Proof.
  unfold bare_blank, blank_byte. destruct (list_eq_dec N.eq_dec (enc b) [b]); [|tauto].
  destruct (N.eq_dec b 32); [tauto|]. destruct (N.eq_dec b 9); tauto.
Qed.

(** A byte written by [enc] in a way fit for a quoted scalar on one line. *)
Definition good_byte (single : bool) (enc : N -> text) (b : N) : Prop :=
  bare_blank enc b \/
  (reads_byte single enc b /\ enc b <> [] /\
   let y := nth 0 (enc b) 0%N in y <> 32%N /\ y <> 9%N /\ y <> 10%N /\ y <> 13%N).

Lemma flow_loop_run single enc indent start (rest : text) :
  (single = true -> nth 0 rest 0%N <> 39%N) ->
  forall k t fuel string pre m s,
  List.length t <= k -> Forall (good_byte single enc) t ->
  k + 1 < fuel -> (1 < m_col m)%N -> (indent <= m_col m)%N ->
  flow_loop fuel single indent start string [] [] []
    (cur pre (flat_map enc t ++ quote single :: rest) m false s)
  = (cur (pre ++ flat_map enc t) (quote single :: rest)
       (mark_add (List.length (flat_map enc t)) m) false s, Ok (string ++ t)).
Proof.
  intros QR. induction k as [|k IH]; intros t fuel string pre m s LT FT F C1 CI.
  - destruct t as [|b t]; [|cbn in LT; lia]. destruct fuel as [|[|fuel]]; try lia.
    cbn [flat_map app]. cbn [flow_loop]. unfold bind at 1 2 3.
    rewrite e_get_mark. unfold gets at 1. rewrite e_peek_checked. cbn [nth_error].
    replace ((m_col m =? 1)%N) with false by lia. cbn [andb].
    replace ((m_col m <? indent)%N) with false by lia.
    unfold bind. rewrite consume_stop by (right; cbn [nth]; auto). rewrite e_peek. cbn [nth].
    rewrite mark_add_0, !app_nil_r. destruct single; reflexivity.
  - destruct (word_blanks (bare_blank enc) (bare_blank_dec enc) t) as (w & bs & r & ET & FW & FB & BR & NR).
    destruct fuel as [|fuel]; [lia|]. cbn [flow_loop]. unfold bind at 1 2 3.
    rewrite e_get_mark. unfold gets at 1. rewrite e_peek_checked.
    replace ((m_col m =? 1)%N) with false by lia. cbn [andb].
    replace ((m_col m <? indent)%N) with false by lia.
    assert (NE : exists x, nth_error (flat_map enc t ++ quote single :: rest) 0 = Some x)
      by (destruct (flat_map enc t); cbn; eauto).
    destruct NE as [x ->]. clear x.
    subst t. rewrite !flat_map_app, <- !app_assoc.
    rewrite !Forall_app in FT. destruct FT as (FTW & FTB & FTR).
    assert (EBS : flat_map enc bs = bs).
    { clear - FB. induction FB as [|b bs [_ E] FB IHB]; [reflexivity|]. cbn [flat_map].
      rewrite E. now rewrite IHB. }
    assert (FBB : Forall blank_byte bs) by (eapply Forall_impl; [|exact FB]; intros b [X _]; exact X).
    rewrite EBS.
    
    rewrite !app_length in LT.
    assert (FW' : Forall (reads_byte single enc) w).
    { apply Forall_forall. intros b Hb. rewrite Forall_forall in FW, FTW.
      destruct (FTW b Hb) as [Y|[Y _]]; [destruct (FW b Hb Y)|exact Y]. }
    assert (RE : run_ends single (bs ++ flat_map enc r ++ quote single :: rest)).
    { destruct bs as [|b bs].
      - rewrite (BR eq_refl). cbn [flat_map app]. right. cbn [nth]. auto.
      - left. apply Forall_cons_iff in FBB. destruct FBB. exact H. }
    unfold bind. rewrite (consume_word single enc) by (auto; lia).
    rewrite e_peek.
    destruct bs as [|b0 bs].
    + rewrite (BR eq_refl). cbn [flat_map app nth List.length]. rewrite !app_nil_r.
      destruct single; reflexivity.
    + assert (Q : ((nth 0 ((b0 :: bs) ++ flat_map enc r ++ quote single :: rest) 0 =? 39)%N && single
                   || (nth 0 ((b0 :: bs) ++ flat_map enc r ++ quote single :: rest) 0 =? 34)%N && negb single) = false).
      { cbn [app nth]. apply Forall_cons_iff in FBB. destruct FBB as [HB _]. unfold blank_byte in HB. lia. }
      rewrite Q. clear Q.
      assert (RB : let y := nth 0 (flat_map enc r ++ quote single :: rest) 0%N in
                   y <> 32%N /\ y <> 9%N /\ y <> 10%N /\ y <> 13%N).
      { destruct r as [|b r].
        - cbn [flat_map app nth]. destruct single; cbn; lia.
        - apply Forall_cons_iff in FTR. destruct FTR as [[X|(_ & EN1 & EN2)] _].
          + destruct (NR b r eq_refl X).
          + cbn [flat_map]. rewrite <- app_assoc.
            destruct (enc b) as [|y ys]; [tauto|]. cbn [app nth] in *. exact EN2. }
      cbv zeta in RB.
      rewrite flow_blanks_run by (auto; try tauto; cbn [List.length] in *; lia).
      cbn [app].
      rewrite IH; [| cbn [List.length] in *; lia | exact FTR | lia
                   | unfold mark_add; cbn [Base.m_col List.length]; lia
                   | revert CI; unfold mark_add; cbn [Base.m_col List.length]; lia].
      rewrite !mark_add_add, !app_length, <- !app_assoc.
      change (b0 :: bs ++ flat_map enc r) with ((b0 :: bs) ++ flat_map enc r).
      rewrite app_length, Nat.add_assoc. reflexivity.
Qed.

(** What may follow a quoted scalar directly. *)
Definition ends_quoted (in_flow : bool) (rest : text) : bool :=
  let c := nth 0 rest 0%N in
  (((c =? 44)%N || (c =? 125)%N || (c =? 93)%N) && in_flow) || is_breakz c || (c =? 58)%N.

Lemma scan_flow_run single enc indent in_flow (rest : text) :
  ends_quoted in_flow rest = true ->
  forall t fuel pre m l s,
  Forall (good_byte single enc) t ->
  List.length t + 1 < fuel -> (0 < m_col m)%N -> (indent <= m_col m + 1)%N ->
  let q := quote single :: flat_map enc t ++ [quote single] in
  let m' := mark_add (List.length q) m in
  scan_flow_scalar fuel single indent in_flow (cur pre (q ++ rest) m l s)
  = (cur (pre ++ q) rest m' false s,
     Ok (Token (Span m m') (TScalar (if single then SingleQuote else DoubleQuote) t))).
Proof.
  intros ER t fuel pre m l s FT F C1 CI q m'.
  unfold scan_flow_scalar. unfold bind at 1. rewrite e_get_mark.
  unfold q. cbn [app]. rewrite <- app_assoc. cbn [app].
  unfold bind at 1. rewrite e_skip_non_blank.
  unfold bind at 1.
  assert (QR : single = true -> nth 0 rest 0%N <> 39%N).
  { intros _ E. unfold ends_quoted in ER. rewrite E in ER. destruct in_flow; discriminate. }
  rewrite (flow_loop_run single enc indent m rest QR (List.length t)) by
    (auto; try lia; unfold mark_add; cbn [Base.m_col]; lia).
  cbn [app]. unfold bind at 1. rewrite e_skip_non_blank.
  unfold bind at 1. destruct fuel as [|fuel]; [lia|].
  rewrite e_ws_stop by (unfold ends_quoted, is_breakz in ER; destruct in_flow; lia).
  unfold bind. rewrite e_peek, e_get_mark. rewrite !mark_add_add.
  assert (EL : mark_add (1 + (List.length (flat_map enc t) + 1)) m = m')
    by (unfold m', q; cbn [List.length]; rewrite app_length; cbn [List.length]; reflexivity).
  rewrite EL.
  assert (ML : m_line m = m_line m') by reflexivity.
  rewrite ML, N.eqb_refl.
  match goal with |- (if ?b then _ else _) _ = _ => assert (BT : b = true) end.
  { revert ER. unfold ends_quoted. destruct in_flow; cbn [negb]; lia. }
  rewrite BT. unfold ret. rewrite <- !app_assoc. reflexivity.
Qed.

(** ** The two ways of writing a byte inside quotes *)
(** Single quotes: a quote is doubled. *)
Definition single_enc (b : N) : text := if (b =? 39)%N then [39%N; 39%N] else [b].
Lemma single_good b : b <> 10%N -> b <> 13%N -> b <> 0%N -> good_byte true single_enc b.
Proof.
  intros A B C. unfold good_byte.
  assert (D : blank_byte b \/ ~ blank_byte b) by (unfold blank_byte; lia).
  destruct D as [D|D].
  { left. split; [exact D|]. unfold blank_byte in D. unfold single_enc.
    replace ((b =? 39)%N) with false by lia. reflexivity. }
  right. unfold blank_byte in D. split; [|split].
  - intros fuel start string pre rest m l s. cbn [consume_chars]. unfold bind.
    rewrite !e_peek. unfold single_enc. destruct (N.eqb_spec b 39) as [->|N39].
    + cbn [app nth]. change (is_blank_or_breakz 39) with false. cbv iota.
      change ((39 =? 39)%N) with true. cbn [andb].
      change (39%N :: 39%N :: rest) with ([39%N; 39%N] ++ rest).
      rewrite e_skip_n by reflexivity. reflexivity.
    + cbn [app nth].
      assert (X : is_blank_or_breakz b = false)
        by (unfold is_blank_or_breakz, is_blank, is_break; lia).
      rewrite X, (proj2 (N.eqb_neq _ _) N39). cbn [andb negb].
      rewrite !andb_false_r. cbn [andb]. rewrite e_skip_non_blank. reflexivity.
  - unfold single_enc. destruct (b =? 39)%N; discriminate.
  - cbv zeta. unfold single_enc. destruct (N.eqb_spec b 39); cbn [nth]; lia.
Qed.
