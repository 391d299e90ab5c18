(** What is skipped between tokens is white space, line breaks and comments. *)
From Verif Require Import Base Tokens Chars Source SourceProofs Cursor SpecScan SpecScalar SpecJson SpecQuoted SpecBlock SpecPlain SpecStrings SpecProps SpecAccept
  ExactCursor FoldedQuotes PlainScan QuotedOnly.
From Coq Require Import String Lia ZifyBool ZifyNat ZifyN.
Local Open Scope list_scope.
Local Open Scope m_scope.

(** ** Gaps *)
Lemma gap_app after g g' : gap (g' ++ after) g -> gap after g' -> gap after (g ++ g').
Proof.
  intros G G'. induction G as [|b g W _ IH|w g F C _ IH]; [exact G'|constructor; assumption|]. cbn [app]. rewrite <- app_assoc. apply gp_comment; [exact F| |exact IH]. rewrite <- app_assoc. exact C.
Qed.
Lemma gap_white after g : Forall white_byte g -> gap after g.
Proof. induction 1 as [|b g W _ IH]; [constructor|]. apply gp_white; [|exact IH]. destruct W as [-> | ->]; cbn; tauto. Qed.
Lemma gap_eol after b : gap after (eol b).
Proof. destruct b; cbn [eol]; repeat (apply gp_white; [cbn; tauto|]); constructor. Qed.
Lemma header_gap after w : header_rest w -> (In 35%N w -> In (nth 0 after 0%N) [10; 13; 0]%N) -> gap after w.
Proof.
  intros [g F|g c _ F C] H; [now apply gap_white|]. apply gap_app; [now apply gap_white|]. replace (35%N :: c) with (35%N :: c ++ []) by now rewrite app_nil_r. apply gp_comment.
  - eapply Forall_impl; [|exact C]. cbn [In]. intros b B X. apply B. tauto.
  - cbn [app]. apply H. apply in_or_app. right. now left.
  - constructor.
Qed.
(** The source has come from behind [pre] past a gap. *)
Definition past (pre rest : text) (s : strsrc) : Prop := exists g rest', rest = g ++ rest' /\ gap rest' g /\ s = src (pre ++ g) rest'.
Lemma past_gap pre g rest s : gap rest g -> past (pre ++ g) rest s -> past pre (g ++ rest) s.
Proof.
  intros G (g' & rest' & -> & G' & ->). exists (g ++ g'), rest'. rewrite <- !app_assoc. split; [reflexivity|]. split; [now apply gap_app|reflexivity].
Qed.
Lemma past_none pre rest : past pre rest (src pre rest).
Proof. exists [], rest. rewrite app_nil_r. split; [reflexivity|]. split; [constructor|reflexivity]. Qed.
Lemma past_at pre rest s : gap [] [] -> s = src pre rest -> past pre rest s.
Proof. intros _ ->. apply past_none. Qed.
(** One after the other. *)
Lemma past_then pre rest s s' : past pre rest s -> (forall p r, s = src p r -> past p r s') -> past pre rest s'.
Proof. intros (g & rest' & -> & G & ->) H. apply past_gap; [exact G|]. now apply H. Qed.

(** ** Skipping *)
Lemma src_cur c pre rest : c_src c = src pre rest -> c = cur pre rest (c_mark c) (c_lead c) (c_ska c).
Proof. destruct c as [s m l k]. cbn [c_src c_mark c_lead c_ska]. now intros ->. Qed.
Lemma past_break pre rest m l s c' a : skip_linebreak (cur pre rest m l s) = (c', Ok a) -> past pre rest (c_src c').
Proof.
  intros H. destruct (is_break (nth 0 rest 0%N)) eqn:B.
  - destruct (break_split rest B) as [(b & r & ->)|(r & -> & NR)].
    + rewrite e_break in H. injection H as <- _. apply past_gap; [apply gap_eol|apply past_none].
    + unfold skip_linebreak, modify in H. rewrite !cur_peek in H. cbn [nth] in H. replace ((13 =? 13) && (nth 0 r 0 =? 10))%N with false in H by lia. change (13 =? 10)%N with false in H. injection H as <- _. apply past_none.
  - unfold skip_linebreak, modify in H. rewrite !cur_peek in H. unfold is_break in B. replace ((nth 0 rest 0 =? 13) && (nth 1 rest 0 =? 10))%N with false in H by lia. replace (nth 0 rest 0 =? 10)%N with false in H by lia.
    injection H as <- _. apply past_none.
Qed.
Lemma past_shared : forall fuel pre rest tabs bytes any has s' n a h, shared_skip_ws_to_eol str_ops fuel (src pre rest) tabs bytes any has = Some (s', (n, SkipOk a h)) -> past pre rest s'.
Proof.
  induction fuel as [|fuel IH]; intros pre rest tabs bytes any has s' n a h H; [discriminate|]. cbn [shared_skip_ws_to_eol] in H. rewrite src_peek in H.
  destruct (N.eqb_spec (nth 0 rest 0%N) 32) as [E|_].
  { destruct rest as [|b rest]; [discriminate|]. cbn [nth] in E. subst b. rewrite src_skip in H. apply IH in H. apply (past_gap pre [32%N]); [apply gap_white; constructor; [now left|constructor]|exact H]. }
  destruct ((nth 0 rest 0 =? 9)%N && tabs) eqn:E9.
  { apply andb_prop in E9. destruct E9 as [E _]. apply N.eqb_eq in E. destruct rest as [|b rest]; [discriminate|]. cbn [nth] in E. subst b. rewrite src_skip in H. apply IH in H.
    apply (past_gap pre [9%N]); [apply gap_white; constructor; [now right|constructor]|exact H]. }
  destruct ((nth 0 rest 0 =? 35)%N && negb any && negb has); [discriminate|]. destruct (N.eqb_spec (nth 0 rest 0%N) 35) as [E|_].
  2:{ injection H as <- _ _ _. apply past_none. }
  destruct rest as [|b rest]; [discriminate|]. cbn [nth] in E. subst b. rewrite src_skip in H. destruct (skip_while_non_breakz str_ops fuel (src (pre ++ [35%N]) rest)) as [[x s1]|] eqn:T; [|discriminate].
  unfold skip_while_non_breakz in T. apply take_ok in T; [|reflexivity]. destruct T as (rest' & -> & F & N & ->). apply IH in H.
  replace ((pre ++ [35%N]) ++ x) with (pre ++ 35%N :: x) in H by now rewrite <- app_assoc. apply (past_gap pre (35%N :: x)); [|exact H].
  replace (35%N :: x) with (35%N :: x ++ []) by now rewrite app_nil_r. apply gp_comment; [| |constructor].
  - eapply Forall_impl; [|exact F]. cbn [In]. intros b B. unfold is_breakz, is_break in B. lia.
  - cbn [app In]. unfold is_breakz, is_break in N. lia.
Qed.
Lemma past_ws fuel tabs ws pre rest c c' r : skip_ws_to_eol fuel tabs ws c = (c', Ok r) -> c_src c = src pre rest -> past pre rest (c_src c').
Proof.
  unfold skip_ws_to_eol, str_skip_ws_to_eol. intros H E0. rewrite E0 in H.
  destruct (shared_skip_ws_to_eol str_ops fuel (src pre rest) tabs 0 false ws) as [[s' [n [a h|]]]|] eqn:E; try discriminate. injection H as <- _. cbn [c_src]. exact (past_shared _ _ _ _ _ _ _ _ _ _ _ E).
Qed.
Lemma past_blank pre rest m l s c' a : skip_blank (cur pre rest m l s) = (c', Ok a) -> white_byte (nth 0 rest 0%N) -> past pre rest (c_src c').
Proof.
  intros H W. destruct rest as [|b rest]; [destruct W; discriminate|]. cbn [nth] in W. rewrite e_skip_blank in H. injection H as <- _. apply (past_gap pre [b]); [apply gap_white; now constructor|apply past_none].
Qed.
Lemma past_line fuel pre rest m l s c' x : skip_line fuel (cur pre (35%N :: rest) m l s) = (c', Ok x) -> past pre (35%N :: rest) (c_src c').
Proof.
  intros H. unfold skip_line, run_while in H. change (c_src (cur pre (35%N :: rest) m l s)) with (src pre (35%N :: rest)) in H.
  destruct (take_while str_ops (fun c => negb (is_breakz c)) fuel (src pre (35%N :: rest))) as [[y s1]|] eqn:T; [|discriminate]. injection H as <- _. cbn [c_src].
  apply take_ok in T; [|reflexivity]. destruct T as (rest' & E & F & N & ->). destruct y as [|b y]; [cbn [app] in E; rewrite <- E in N; discriminate N|]. cbn [app] in E. injection E as <- ->.
  apply (past_gap pre (35%N :: y)); [|apply past_none]. replace (35%N :: y) with (35%N :: y ++ []) by now rewrite app_nil_r. inversion_clear F as [|? ? _ F1]. apply gp_comment; [| |constructor].
  - eapply Forall_impl; [|exact F1]. cbn [In]. intros b B. unfold is_breakz, is_break in B. lia.
  - cbn [app In]. unfold is_breakz, is_break in N. lia.
Qed.
Ltac step H c a E := apply bind_ok in H; destruct H as (c & a & E & H).
Lemma past_next in_block indent flow : forall fuel c c' a pre rest, skip_to_next_token fuel in_block indent flow c = (c', Ok a) -> c_src c = src pre rest -> past pre rest (c_src c').
Proof.
  induction fuel as [|fuel IH]; intros c c' a pre rest H S; [discriminate|]. cbn [skip_to_next_token] in H. rewrite (src_cur _ _ _ S) in H. clear S. generalize dependent (c_mark c). generalize (c_lead c), (c_ska c). clear c. intros l s m H.
  step H c1 b E. rewrite e_peek in E. injection E as <- <-. step H c1 ld E. injection E as <- <-. step H c1 mm E. injection E as <- <-.
  match type of H with (if ?b then _ else _) _ = _ => destruct b end.
  { step H c1 r E. apply past_ws with (pre := pre) (rest := rest) in E; [|reflexivity]. step H c2 b E2. injection E2 as <- _. step H c2 mm E2. injection E2 as <- _. destruct (negb (is_breakz b)); [discriminate|].
    apply (past_then _ _ _ _ E). intros p q EP. exact (IH _ _ _ _ _ H EP). }
  destruct ((nth 0 rest 0 =? 9)%N || (nth 0 rest 0 =? 32)%N) eqn:W.
  { step H c1 r E. apply past_blank in E; [|unfold white_byte; lia]. apply (past_then _ _ _ _ E). intros p q EP. exact (IH _ _ _ _ _ H EP). }
  destruct ((nth 0 rest 0 =? 10)%N || (nth 0 rest 0 =? 13)%N).
  { step H c1 r E. apply past_break in E. apply (past_then _ _ _ _ E). intros p q EP. step H c2 u E2. assert (S2 : c_src c2 = c_src c1) by (destruct (flow =? 0)%N; injection E2 as <- _; reflexivity).
    apply (IH _ _ _ _ _ H). congruence. }
  destruct (N.eqb_spec (nth 0 rest 0%N) 35) as [E35|_].
  { destruct rest as [|x rest]; [discriminate|]. cbn [nth] in E35. subst x. step H c1 r E. apply past_line in E. apply (past_then _ _ _ _ E). intros p q EP. exact (IH _ _ _ _ _ H EP). }
  injection H as <- _. apply past_none.
Qed.
Lemma past_yaml_loop flow : forall fuel need c c' a pre rest, skip_yaml_whitespace_loop fuel flow need c = (c', Ok a) -> c_src c = src pre rest -> past pre rest (c_src c').
Proof.
  induction fuel as [|fuel IH]; intros need c c' a pre rest H S; [discriminate|]. cbn [skip_yaml_whitespace_loop] in H. rewrite (src_cur _ _ _ S) in H. clear S. generalize dependent (c_mark c). generalize (c_lead c), (c_ska c). clear c. intros l s m H.
  step H c1 b E. rewrite e_peek in E. injection E as <- <-.
  destruct (nth 0 rest 0 =? 32)%N eqn:W.
  { step H c1 r E. apply past_blank in E; [|unfold white_byte; lia]. apply (past_then _ _ _ _ E). intros p q EP. exact (IH _ _ _ _ _ _ H EP). }
  destruct ((nth 0 rest 0 =? 10)%N || (nth 0 rest 0 =? 13)%N).
  { step H c1 r E. apply past_break in E. apply (past_then _ _ _ _ E). intros p q EP. step H c2 u E2. assert (S2 : c_src c2 = c_src c1) by (destruct (flow =? 0)%N; injection E2 as <- _; reflexivity).
    apply (IH _ _ _ _ _ _ H). congruence. }
  destruct (N.eqb_spec (nth 0 rest 0%N) 35) as [E35|_].
  { destruct rest as [|x rest]; [discriminate|]. cbn [nth] in E35. subst x. step H c1 r E. apply past_line in E. apply (past_then _ _ _ _ E). intros p q EP. exact (IH _ _ _ _ _ _ H EP). }
  injection H as <- _. apply past_none.
Qed.
Lemma past_yaml fuel flow c c' a pre rest : skip_yaml_whitespace fuel flow c = (c', Ok a) -> c_src c = src pre rest -> past pre rest (c_src c').
Proof. intros H S. unfold skip_yaml_whitespace in H. step H c1 need E. step H c2 m E2. injection E2 as <- _. destruct need; [discriminate|]. injection H as <- _. exact (past_yaml_loop _ _ _ _ _ _ _ _ E S). Qed.
