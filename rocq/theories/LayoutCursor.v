(** Exact runs over white space, line breaks and comments. *)
From Verif Require Import Base Tokens Scalar Chars Source Cursor ExactCursor SpecQuoted FoldedQuotes ExactPlain JsonCursor SpecBlock BlockScan SpecPlain PlainScan SpecLayout ScanSteps.
From Coq Require Import String Lia ZifyBool ZifyNat ZifyN.
Local Open Scope m_scope.
Local Open Scope list_scope.

(** ** Gaps *)
(** Spaces, line breaks and comments up to [rest]. *)
Inductive gap_to (rest : text) : text -> Prop :=
| gt_nil : gap_to rest []
| gt_space g : gap_to rest g -> gap_to rest (32%N :: g)
| gt_break b g : gap_to rest g -> gap_to rest (eol b ++ g)
| gt_comment c g : Forall comment_byte c -> is_breakz (nth 0 (g ++ rest) 0%N) = true -> gap_to rest g -> gap_to rest (35%N :: c ++ g).
Lemma gap_spaces rest k g : gap_to rest g -> gap_to rest (repeat 32%N k ++ g).
Proof. intros H. induction k; [exact H|]. cbn [repeat app]. now constructor. Qed.
Lemma gap_app rest a b : gap_to (b ++ rest) a -> gap_to rest b -> gap_to rest (a ++ b).
Proof.
  induction 1 as [|g H IH|e g H IH|c g C B H IH]; intros G; cbn [app].
  - exact G.
  - constructor. auto.
  - rewrite <- app_assoc. constructor. auto.
  - rewrite <- app_assoc. apply gt_comment; auto. now rewrite <- app_assoc.
Qed.
Lemma break_z b x : is_breakz (nth 0 (eol b ++ x) 0%N) = true.
Proof. now destruct b. Qed.
Lemma gap_empty_line rest l g : empty_line l -> is_breakz (nth 0 (g ++ rest) 0%N) = true -> gap_to rest g -> gap_to rest (l ++ g).
Proof.
  intros [k|k c C] B G; [now apply gap_spaces|]. rewrite <- app_assoc. apply gap_spaces. cbn [app]. now apply gt_comment.
Qed.
Lemma rest_empty r : line_rest r -> empty_line r.
Proof. intros [k|k c C]; constructor; auto. Qed.
Lemma gap_empty_text rest ls g : empty_ones ls -> gap_to rest g -> gap_to rest (empty_text ls ++ g).
Proof.
  intros E G. induction E as [|[x b] ls E1 E2 IH]; [exact G|]. cbn [empty_text flat_map fst snd] in *. rewrite <- !app_assoc.
  apply gap_empty_line; [exact E1|rewrite <- app_assoc; apply break_z|]. constructor. exact IH.
Qed.
Lemma gap_next_line n rest g : next_line n g -> gap_to rest g.
Proof.
  intros [r b ls R E]. apply gap_empty_line; [now apply rest_empty|rewrite <- app_assoc; apply break_z|]. constructor.
  apply gap_empty_text; [exact E|]. rewrite <- (app_nil_r (repeat 32%N n)). apply gap_spaces. constructor.
Qed.
Lemma gap_to_end g : to_end g -> gap_to [] g.
Proof.
  intros [r R|r b ls x R E X].
  - rewrite <- (app_nil_r r). apply gap_empty_line; [now apply rest_empty|reflexivity|constructor].
  - apply gap_empty_line; [now apply rest_empty|rewrite <- app_assoc; apply break_z|]. constructor.
    apply gap_empty_text; [exact E|]. rewrite <- (app_nil_r x). apply gap_empty_line; [exact X|reflexivity|constructor].
Qed.

(** ** Line feeds in them *)
Lemma comment_no_lf c : Forall comment_byte c -> ~ In 10%N c.
Proof. intros F H. pose proof (proj1 (Forall_forall _ _) F _ H) as X. apply X. cbn; auto. Qed.
Lemma no_lf_has c : ~ In 10%N c -> has_lf c = false.
Proof.
  intros H. unfold has_lf. induction c as [|b c IH]; [reflexivity|]. cbn [existsb]. rewrite IH by (intros X; apply H; now right).
  rewrite orb_false_r. apply N.eqb_neq. intros <-. apply H. now left.
Qed.
Lemma has_lf_eol b : has_lf (eol b) = true.
Proof. now destruct b. Qed.
Lemma rest_no_lf r : line_rest r -> ~ In 10%N r.
Proof.
  intros [k|k c C]; [apply no_lf_spaces|]. rewrite in_app_iff. intros [H|[H|H]]; [now apply no_lf_spaces in H|discriminate|now apply comment_no_lf in H].
Qed.
Lemma next_line_lf n g : next_line n g -> has_lf g = true.
Proof. intros [r b ls R E]. rewrite !has_lf_app, has_lf_eol. now rewrite orb_true_r. Qed.
Lemma marker_eol b m : m_col (marker_after (eol b) m) = 1%N /\ (m_line m < m_line (marker_after (eol b) m))%N.
Proof. destruct b; cbn; lia. Qed.
Lemma next_line_col n g : next_line n g -> forall m, m_col (marker_after g m) = (1 + N.of_nat n)%N /\ (m_line m < m_line (marker_after g m))%N.
Proof.
  intros [r b ls R E] m. rewrite !marker_after_app. rewrite (marker_flat r) by now apply rest_no_lf.
  set (m1 := mark_add (List.length r) m). assert (L1 : m_line m1 = m_line m) by reflexivity.
  destruct (marker_eol b m1) as [C1 L2]. set (m2 := marker_after (eol b) m1) in *.
  assert (X : m_col (marker_after (empty_text ls) m2) = 1%N /\ (m_line m2 <= m_line (marker_after (empty_text ls) m2))%N).
  { clearbody m2. clear L1 L2 m1. revert m2 C1. induction E as [|[x e] ls E1 E2 IH]; intros m2 C1; [cbn; lia|].
    cbn [empty_text flat_map fst snd] in *. rewrite !marker_after_app.
    assert (NX : ~ In 10%N x).
    { destruct E1 as [k|k c C]; [apply no_lf_spaces|]. rewrite in_app_iff. intros [H|[H|H]]; [now apply no_lf_spaces in H|discriminate|now apply comment_no_lf in H]. }
    rewrite (marker_flat x) by exact NX. destruct (marker_eol e (mark_add (List.length x) m2)) as [C2 L3].
    destruct (IH _ C2) as [C3 L4]. unfold empty_text in C3, L4. split; [exact C3|]. cbn in L3. lia. }
  destruct X as [C3 L4]. rewrite marker_flat by apply no_lf_spaces. rewrite repeat_length. cbn [mark_add Base.m_col Base.m_line]. lia.
Qed.

(** ** Runs *)
Lemma e_comment c fuel pre rest m l s : Forall comment_byte c -> is_breakz (nth 0 rest 0%N) = true -> List.length c + 1 < fuel ->
  skip_line fuel (cur pre (35%N :: c ++ rest) m l s) = (cur (pre ++ 35%N :: c) rest (mark_add (List.length c + 1) m) l s, Ok (35%N :: c)).
Proof.
  intros C B F. unfold skip_line, run_while. change (c_src (cur pre (35%N :: c ++ rest) m l s)) with (StrSrc (pre ++ (35%N :: c) ++ rest) (List.length pre)).
  rewrite e_take_while.
  - cbn [List.length]. rewrite Nat.add_1_r. reflexivity.
  - constructor; [reflexivity|]. eapply Forall_impl; [|exact C]. intros y Y. unfold comment_byte in Y. cbn [In] in Y. unfold is_breakz, is_break. lia.
  - now rewrite B.
  - cbn [List.length]. lia.
Qed.
Lemma e_next_gap ib ind rest : begins (nth 0 rest 0%N) -> forall g, gap_to rest g -> forall fuel pre m l s, List.length g + 2 < fuel ->
  skip_to_next_token fuel ib ind 0 (cur pre (g ++ rest) m l s)
  = (cur (pre ++ g) rest (marker_after g m) (l || has_lf g) (s || has_lf g), Ok tt).
Proof.
  intros B g G. induction G as [|g G IH|b g G IH|c g C BZ G IH]; intros fuel pre m l s F; (destruct fuel as [|fuel]; [cbn in F; lia|]).
  - cbn [app has_lf existsb marker_after]. rewrite e_next_none by exact B. now rewrite app_nil_r, !orb_false_r.
  - cbn [skip_to_next_token List.length app] in *. unfold bind at 1. rewrite e_peek. cbn [nth].
    unfold bind at 1. unfold gets at 1. unfold bind at 1. rewrite e_get_mark.
    change ((32 =? 9)%N) with false. change ((32 =? 32)%N) with true. cbn [andb orb].
    unfold bind at 1. rewrite e_skip_blank. rewrite IH by lia. rewrite marker_step by discriminate. rewrite <- app_assoc. reflexivity.
  - cbn [skip_to_next_token]. rewrite app_length in F. rewrite <- app_assoc. unfold bind at 1. rewrite e_peek.
    unfold bind at 1. unfold gets at 1. unfold bind at 1. rewrite e_get_mark.
    assert (X : forall x, let c := nth 0 (eol b ++ x) 0%N in (c =? 9)%N = false /\ (c =? 32)%N = false /\ ((c =? 10)%N || (c =? 13)%N = true)) by (intros x; destruct b; now split).
    destruct (X (g ++ rest)) as (X1 & X2 & X3). rewrite X1, X2, X3. cbn [andb orb].
    unfold bind at 1. rewrite e_break. change ((0 =? 0)%N) with true. cbv iota. unfold bind at 1. rewrite e_set_ska.
    rewrite IH by (destruct b; cbn [eol List.length] in F; lia). rewrite marker_after_app, has_lf_app, has_lf_eol, <- app_assoc.
    cbn [orb]. now rewrite !orb_true_r.
  - cbn [skip_to_next_token]. cbn [List.length] in F. rewrite app_length in F. cbn [app]. rewrite <- app_assoc. unfold bind at 1. rewrite e_peek. cbn [nth].
    unfold bind at 1. unfold gets at 1. unfold bind at 1. rewrite e_get_mark.
    change ((35 =? 9)%N) with false. change ((35 =? 32)%N) with false. change ((35 =? 10)%N) with false. change ((35 =? 13)%N) with false. change ((35 =? 35)%N) with true. cbn [andb orb].
    unfold bind at 1.
      assert (ES : skip_line fuel (cur pre (35%N :: c ++ g ++ rest) m l s) = (cur (pre ++ 35%N :: c) (g ++ rest) (mark_add (List.length c + 1) m) l s, Ok (35%N :: c))).
      { apply e_comment; [exact C|exact BZ|]. lia. }
      rewrite ES. rewrite IH by lia.
      assert (NC : ~ In 10%N (35%N :: c)) by (intros [H|H]; [discriminate|now apply comment_no_lf in H]).
      change (35%N :: c ++ g) with ((35%N :: c) ++ g). rewrite marker_after_app, has_lf_app, (no_lf_has _ NC), (marker_flat _ _ NC), <- app_assoc.
      cbn [List.length orb]. now rewrite Nat.add_1_r.
Qed.
Lemma e_yaml_gap rest : begins (nth 0 rest 0%N) -> forall g, gap_to rest g -> forall fuel need pre m l s, List.length g + 2 < fuel ->
  exists r, skip_yaml_whitespace_loop fuel 0 need (cur pre (g ++ rest) m l s)
  = (cur (pre ++ g) rest (marker_after g m) (l || has_lf g) (s || has_lf g), Ok r) /\ (need = false -> r = false) /\ (nth 0 g 35%N <> 35%N -> r = false).
Proof.
  intros B g G. induction G as [|g G IH|b g G IH|c g C BZ G IH]; intros fuel need pre m l s F; (destruct fuel as [|fuel]; [cbn in F; lia|]).
  - cbn [app has_lf existsb marker_after]. destruct (begins_not _ B) as (B1 & B2 & B3 & B4 & B5).
    cbn [skip_yaml_whitespace_loop]. unfold bind. rewrite e_peek. rewrite B1, B3, B4, B5. cbn [orb]. exists need. rewrite app_nil_r, !orb_false_r.
    split; [reflexivity|]. split; [auto|]. intros X. now elim X.
  - cbn [skip_yaml_whitespace_loop List.length app] in *. unfold bind at 1. rewrite e_peek. cbn [nth].
    change ((32 =? 32)%N) with true. cbv iota.
    unfold bind at 1. rewrite e_skip_blank. destruct (IH fuel false (pre ++ [32%N]) (mark_add 1 m) l s ltac:(lia)) as (r & E & R & _).
    exists r. rewrite E. rewrite marker_step by discriminate. rewrite <- app_assoc. split; [reflexivity|]. auto.
  - cbn [skip_yaml_whitespace_loop]. rewrite app_length in F. rewrite <- app_assoc. unfold bind at 1. rewrite e_peek.
    assert (X : forall x, let c := nth 0 (eol b ++ x) 0%N in (c =? 32)%N = false /\ ((c =? 10)%N || (c =? 13)%N = true)) by (intros x; destruct b; now split).
    destruct (X (g ++ rest)) as (X2 & X3). rewrite X2, X3.
    unfold bind at 1. rewrite e_break. change ((0 =? 0)%N) with true. cbv iota. unfold bind at 1. rewrite e_set_ska.
    destruct (IH fuel false (pre ++ eol b) (marker_after (eol b) m) true true) as (r & E & R & _); [destruct b; cbn [eol List.length] in F; lia|].
    exists r. rewrite E. rewrite marker_after_app, has_lf_app, has_lf_eol, <- app_assoc.
    cbn [orb]. rewrite !orb_true_r. split; [reflexivity|]. auto.
  - cbn [skip_yaml_whitespace_loop]. cbn [List.length] in F. rewrite app_length in F. cbn [app]. rewrite <- app_assoc. unfold bind at 1. rewrite e_peek. cbn [nth].
    change ((35 =? 32)%N) with false. change ((35 =? 10)%N) with false. change ((35 =? 13)%N) with false. change ((35 =? 35)%N) with true. cbn [orb].
    unfold bind at 1.
    assert (ES : skip_line fuel (cur pre (35%N :: c ++ g ++ rest) m l s) = (cur (pre ++ 35%N :: c) (g ++ rest) (mark_add (List.length c + 1) m) l s, Ok (35%N :: c))).
    { apply e_comment; [exact C|exact BZ|]. lia. }
    rewrite ES. destruct (IH fuel need (pre ++ 35%N :: c) (mark_add (List.length c + 1) m) l s ltac:(lia)) as (r & E & R & _).
    assert (NC : ~ In 10%N (35%N :: c)) by (intros [H|H]; [discriminate|now apply comment_no_lf in H]).
    exists r. rewrite E. change (35%N :: c ++ g) with ((35%N :: c) ++ g). rewrite marker_after_app, has_lf_app, (no_lf_has _ NC), (marker_flat _ _ NC), <- app_assoc.
    cbn [List.length orb]. rewrite Nat.add_1_r. split; [reflexivity|]. split; [exact R|]. cbn [app nth]. intros X. now elim X.
Qed.
(** The rest of a line. *)
Lemma e_ws_rest r fuel prev pre rest m l s : line_rest r -> ~ In (nth 0 rest 0%N) [32; 9; 35]%N ->
  (In 35%N r -> is_breakz (nth 0 rest 0%N) = true) -> List.length r + 2 < fuel ->
  exists any has, skip_ws_to_eol fuel true prev (cur pre (r ++ rest) m l s) = (cur (pre ++ r) rest (mark_add (List.length r) m) l s, Ok (any, has)) /\
    (any = true -> is_breakz (nth 0 rest 0%N) = true).
Proof.
  intros R NB BZ F. cbn [In] in NB. destruct R as [k|k c C].
  - rewrite e_ws_spaces by (try (intros X; rewrite X in NB; tauto); rewrite repeat_length in F; lia). rewrite repeat_length. do 2 eexists. split; [reflexivity|]. discriminate.
  - assert (B : is_breakz (nth 0 rest 0%N) = true) by (apply BZ; rewrite in_app_iff; right; now left). clear BZ.
    rewrite app_length, repeat_length in F. cbn [List.length] in F. unfold skip_ws_to_eol, str_skip_ws_to_eol.
    change (c_src (cur pre ((repeat 32%N (S k) ++ 35%N :: c) ++ rest) m l s)) with (StrSrc (pre ++ (repeat 32%N (S k) ++ 35%N :: c) ++ rest) (List.length pre)).
    rewrite <- app_assoc.
    assert (W : Forall white_byte (repeat 32%N (S k))) by (apply Forall_forall; intros x Hx; apply repeat_spec in Hx; subst; now left).
    destruct (e_blanks_shared (repeat 32%N (S k)) W fuel pre ((35%N :: c) ++ rest) 0 false prev) as (any & has & X & E); [rewrite repeat_length; lia|].
    rewrite E. clear E. rewrite repeat_length. destruct (fuel - S k) as [|f] eqn:EF; [lia|]. cbn [shared_skip_ws_to_eol].
    pose proof (cur_peek (pre ++ repeat 32%N (S k)) ((35%N :: c) ++ rest) (Marker 0 0 0) true true 0) as P. unfold cur, c_src in P. rewrite P. clear P. cbn [app nth].
    change ((35 =? 32)%N) with false. change ((35 =? 9)%N) with false. change ((35 =? 35)%N) with true. cbn [andb].
    assert (XN : any || has = true) by (apply X; right; discriminate).
    replace (negb any && negb has) with false by (destruct any, has; try discriminate XN; reflexivity).
    assert (SK : o_skip str_ops 1 (StrSrc ((pre ++ repeat 32%N (S k)) ++ 35%N :: c ++ rest) (List.length (pre ++ repeat 32%N (S k)))) = StrSrc (((pre ++ repeat 32%N (S k)) ++ [35%N]) ++ c ++ rest) (List.length ((pre ++ repeat 32%N (S k)) ++ [35%N]))).
    { unfold str_ops. cbn [o_skip]. change (35%N :: c ++ rest) with ([35%N] ++ c ++ rest). apply cur_skip. reflexivity. }
    rewrite SK. clear SK. unfold skip_while_non_breakz. rewrite e_take_while.
    + destruct f as [|f]; [lia|]. cbn [shared_skip_ws_to_eol].
      pose proof (cur_peek (((pre ++ repeat 32%N (S k)) ++ [35%N]) ++ c) rest (Marker 0 0 0) true true 0) as P. unfold cur, c_src in P. rewrite P. clear P.
      rewrite (proj2 (N.eqb_neq (nth 0 rest 0%N) 32)), (proj2 (N.eqb_neq (nth 0 rest 0%N) 9)), (proj2 (N.eqb_neq (nth 0 rest 0%N) 35)) by (intros X0; rewrite X0 in NB; tauto).
      cbn [andb]. exists any, has. split; [|auto].
      replace (List.length (repeat 32%N (S k) ++ 35%N :: c)) with (0 + S k + List.length c + 1) by (rewrite app_length, repeat_length; cbn [List.length]; lia).
      unfold cur. cbn [c_mark c_lead c_ska]. repeat (rewrite <- app_assoc; cbn [app]). reflexivity.
    + eapply Forall_impl; [|exact C]. intros y Y. unfold comment_byte in Y. cbn [In] in Y. unfold is_breakz, is_break. lia.
    + now rewrite B.
    + lia.
Qed.
