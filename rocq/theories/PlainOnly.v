(** Whatever the scanner accepts as a plain scalar is one. *)
From Verif Require Import Base Tokens Scalar Chars Source Cursor SpecScalar SpecJson SpecQuoted SpecBlock SpecPlain SpecStrings SpecProps SpecAccept
  ExactCursor FoldedQuotes ExactPlain JsonCursor BlockScan PlainScan SpecLayout LayoutCursor StringScan PropsScan QuotedOnly GapsOnly PropsOnly.
From Coq Require Import String Lia ZifyBool ZifyNat ZifyN.
Local Open Scope list_scope.
Local Open Scope m_scope.

Lemma gets_ok {St A} (f : St -> A) c c' a : gets f c = (c', Ok a) -> c' = c /\ a = f c.
Proof. intros H. now injection H as <- <-. Qed.
Ltac parts := repeat match goal with |- _ /\ _ => split end; rewrite <- ?app_assoc; cbn [app]; first [assumption|reflexivity|(constructor; assumption)].
(** ** Words *)
Lemma can_is pre rest m l s in_flow : next_can_be_plain_scalar str_ops (c_src (cur pre rest m l s)) in_flow =
  negb ((nth 0 rest 0 =? 58)%N && (is_blank_or_breakz (nth 1 rest 0%N) || (in_flow && is_flow (nth 1 rest 0%N)))) && negb (in_flow && is_flow (nth 0 rest 0%N)).
Proof. unfold next_can_be_plain_scalar. rewrite !cur_peek. destruct ((nth 0 rest 0 =? 58)%N && _); [reflexivity|]. destruct (in_flow && is_flow (nth 0 rest 0%N)); reflexivity. Qed.
Lemma flow_is b : is_flow b = true <-> flow_sign b.
Proof. unfold flow_sign. change (str ",[]{}") with [44; 91; 93; 123; 125]%N. unfold is_flow. cbn [In]. lia. Qed.
Lemma colon_is in_flow b : is_blank_or_breakz b || (in_flow && is_flow b) = true <-> ends_colon in_flow b.
Proof.
  unfold ends_colon. rewrite <- flow_is. unfold is_blank_or_breakz, is_breakz, is_blank_or_break, is_blank, is_break. cbn [In]. destruct in_flow, (is_flow b); lia.
Qed.
Lemma word_is in_flow b : is_blank_or_breakz b = false -> in_flow && is_flow b = false -> word_char in_flow b.
Proof.
  intros H F. split; [unfold is_blank_or_breakz, is_breakz, is_blank_or_break, is_blank, is_break in H; cbn [In]; lia|]. intros -> X. apply flow_is in X. cbn [andb] in F. congruence.
Qed.
Lemma content_ok in_flow : forall fuel string pre rest m l s c' out, plain_content fuel in_flow string (cur pre rest m l s) = (c', Ok out) ->
  exists w rest' l', rest = w ++ rest' /\ out = string ++ w /\ Forall (word_char in_flow) w /\ (w <> [] -> last w 0%N = 58%N -> ~ ends_colon in_flow (nth 0 rest' 0%N)) /\
    (is_blank_or_break (nth 0 rest' 0%N) = true \/ stop_byte in_flow rest') /\ (w = [] -> l' = l) /\ (w <> [] -> l' = false) /\
    c' = cur (pre ++ w) rest' (marker_after w m) l' s.
Proof.
  induction fuel as [|fuel IH]; intros string pre rest m l s c' out H; [discriminate|]. cbn [plain_content] in H. peeked H.
  next_step H c1 can E. unfold gets in E. rewrite can_is in E. injection E as <- <-.
  destruct (is_blank_or_breakz (nth 0 rest 0%N)) eqn:BB; [|destruct ((nth 0 rest 0 =? 58)%N && (is_blank_or_breakz (nth 1 rest 0%N) || (in_flow && is_flow (nth 1 rest 0%N)))) eqn:CO; [|destruct (in_flow && is_flow (nth 0 rest 0%N)) eqn:FL]].
  1-3: cbn [orb negb andb] in H; injection H as <- <-; exists [], rest, l; rewrite !app_nil_r; split; [reflexivity|]; split; [reflexivity|]; split; [constructor|]; split; [congruence|]; split; [|split; [reflexivity|split; [congruence|reflexivity]]].
  - destruct (is_blank_or_break (nth 0 rest 0%N)) eqn:B2; [now left|]. right. left. unfold is_blank_or_breakz, is_breakz, is_blank_or_break, is_blank, is_break in *. lia.
  - right. right. left. apply andb_prop in CO. destruct CO as [C1 C2]. split; [now apply N.eqb_eq|now apply colon_is].
  - right. right. right. apply andb_prop in FL. destruct FL as [-> FL]. split; [reflexivity|now apply flow_is].
  - cbn [orb negb andb] in H. destruct rest as [|b rest]; [discriminate|]. cbn [nth] in *. next_step H c1 b' E. rewrite e_peek_or_space in E. injection E as <- <-.
    next_step H c1 u E. rewrite e_skip_non_blank in E. injection E as <- <-. apply IH in H. destruct H as (w & rest' & l' & -> & -> & F & LC & ST & L0 & L1 & ->).
    assert (WC : word_char in_flow b) by now apply word_is. exists (b :: w), rest', l'. split; [reflexivity|]. split; [now rewrite <- app_assoc|]. split; [now constructor|].
    split; [|split; [exact ST|split; [congruence|split; [intros _; destruct w; [now apply L0|apply L1; discriminate]|]]]].
    + intros _. destruct w as [|x w]; [|intros L; apply LC; [discriminate|exact L]]. cbn [last app] in *. intros -> X. apply colon_is in X. rewrite X in CO. discriminate.
    + rewrite <- app_assoc. rewrite marker_step; [reflexivity|]. intros ->. destruct WC as [WC _]. apply WC. cbn. tauto.
Qed.

(** ** White space *)
Lemma snoc_or_nil {A} (l : list A) : l = [] \/ exists x y, l = x ++ [y].
Proof. induction l as [|a l IH] using rev_ind; [now left|right; now exists l, a]. Qed.
Definition no_blank (rest : text) : Prop := ~ In (nth 0 rest 0%N) [32; 9; 10; 13]%N.
Lemma plain_cr_stuck indent start pre r m s : nth 0 r 0%N <> 10%N -> forall fuel l ws lb tb c' out,
  plain_blanks fuel indent start ws lb tb (cur pre (13%N :: r) m l s) = (c', Ok out) -> False.
Proof.
  intros NR. assert (RB : forall l, skip_linebreak (cur pre (13%N :: r) m l s) = (cur pre (13%N :: r) m l s, Ok tt)).
  { intros l. unfold skip_linebreak, modify. rewrite !cur_peek. cbn [nth]. rewrite (proj2 (N.eqb_neq _ _) NR), andb_false_r. reflexivity. }
  induction fuel as [|fuel IH]; intros l ws lb tb c' out H; [discriminate|].
  cbn [plain_blanks] in H. unfold bind, gets in H. rewrite e_peek, e_get_mark in H. cbn [nth] in H. change (is_blank_or_break 13) with true in H. change (is_blank 13) with false in H.
  cbv iota in H. change (c_lead (cur pre (13%N :: r) m l s)) with l in H. destruct l; rewrite RB in H; [eapply IH; exact H|]. unfold set_lead, modify in H.
  eapply (IH true). exact H.
Qed.
Lemma white_no_lf w : Forall white_byte w -> ~ In 10%N w.
Proof. intros W I. rewrite Forall_forall in W. destruct (W _ I); discriminate. Qed.
Lemma first_header x : header_rest x -> x = [] \/ white_byte (nth 0 x 0%N).
Proof. intros [g W|g c G W C]; [destruct g; [now left|right; now inversion W]|]. right. destruct g; [congruence|]. now inversion W. Qed.
Lemma passed_no_lf x : header_rest x -> ~ In 10%N x.
Proof.
  intros [g W|g c G W C] I; [now apply (white_no_lf _ W)|]. apply in_app_or in I. destruct I as [I|[I|I]]; [now apply (white_no_lf _ W)|discriminate|].
  rewrite Forall_forall in C. apply (C _ I). cbn. tauto.
Qed.
Lemma passed_white b x : white_byte b -> passed_line x -> passed_line (b :: x).
Proof.
  intros B [H T]. split.
  - destruct H as [g W|g c G W C]; [apply hr_blanks; now constructor|]. apply (hr_comment (b :: g) c); [discriminate|now constructor|exact C].
  - intros [E|I]; [|right; now apply T]. subst b. destruct B; discriminate.
Qed.
Lemma empties_cons x b e : empty_text ((x, b) :: e) = x ++ eol b ++ empty_text e.
Proof. unfold empty_text. cbn [flat_map fst snd]. now rewrite <- !app_assoc. Qed.

Lemma later_ok indent start : forall fuel ws lb tb pre rest m s c' ws' lb' tb',
  plain_blanks fuel indent start ws lb tb (cur pre rest m true s) = (c', Ok (ws', lb', tb')) ->
  exists e more rest', rest = empty_text e ++ more ++ rest' /\ Forall (fun x => passed_line (fst x)) e /\ passed_line more /\
    (In 35%N more -> nth 0 rest' 0%N = 0%N) /\ no_blank rest' /\ ws' = ws /\ lb' = lb /\ tb' = tb ++ repeat 10%N (List.length e) /\
    c' = cur (pre ++ empty_text e ++ more) rest' (marker_after (empty_text e ++ more) m) true s.
Proof.
  induction fuel as [|fuel IH]; intros ws lb tb pre rest m s c' ws' lb' tb' H; [discriminate|]. pose proof H as H0. cbn [plain_blanks] in H. peeked H.
  next_step H c1 ld E. unfold gets in E. injection E as <- <-. next_step H c1 m1 E. rewrite e_get_mark in E. injection E as <- <-. cbn [cur c_lead] in H.
  destruct (is_blank_or_break (nth 0 rest 0%N)) eqn:BB.
  2:{ injection H as <- <- <- <-. exists [], [], rest. cbn [empty_text flat_map app List.length repeat]. rewrite !app_nil_r.
      split; [reflexivity|]. split; [constructor|]. split; [split; [apply hr_blanks; constructor|intros []]|]. split; [intros []|]. split; [|parts].
      unfold no_blank, is_blank_or_break, is_blank, is_break in *. cbn [In]. lia. }
  destruct (is_blank (nth 0 rest 0%N)) eqn:BL.
  - assert (WB : white_byte (nth 0 rest 0%N)) by (unfold white_byte, is_blank in *; lia). destruct rest as [|b rest]; [discriminate|]. cbn [nth] in *. cbn [negb] in H.
    destruct ((m_col m <? indent)%N && (b =? 9)%N) eqn:TB.
    + next_step H c1 u E. apply ws_ok in E. destruct E as (w & r & EW & HW & -> & NL & CM & NB). peeked H.
      destruct (is_breakz (nth 0 r 0%N)) eqn:BZ; [|discriminate]. cbn [negb] in H. apply IH in H.
      destruct H as (e & more & rest' & -> & FE & PM & CE & NR & -> & -> & -> & ->).
      assert (W9 : In 9%N w). { apply andb_prop in TB. destruct TB as [_ T9]. apply N.eqb_eq in T9. subst b. destruct w as [|x w]; [|injection EW as <- _; now left]. cbn [app] in EW. rewrite <- EW in NB. elim NB. cbn. tauto. }
      assert (PW : passed_line w) by (split; [exact HW|now intros _]).
      assert (N9 : ~ white_byte (nth 0 (empty_text e ++ more ++ rest') 0%N)) by (intros [X|X]; rewrite X in BZ; discriminate).
      destruct e as [|[x b0] e].
      * cbn [empty_text flat_map app] in *. destruct (first_header more (proj1 PM)) as [-> |X]; [|elim N9; destruct more; [now destruct X|exact X]]. cbn [app] in *.
        exists [], w, rest'. cbn [empty_text flat_map app List.length repeat]. rewrite !app_nil_r in *. rewrite EW. split; [reflexivity|]. split; [constructor|]. split; [exact PW|]. split.
        { intros I. specialize (CM I). unfold no_blank in NR. cbn [In] in *. lia. }
        split; [exact NR|]. repeat split. now rewrite (marker_flat w).
      * inversion FE as [|? ? F1 F2]. subst. cbn [fst] in F1. rewrite empties_cons in *. destruct (first_header x (proj1 F1)) as [-> |X].
        2:{ elim N9. destruct x; [now destruct X|exact X]. } cbn [app] in *.
        exists ((w, b0) :: e), more, rest'. rewrite empties_cons, EW, <- !app_assoc. split; [reflexivity|]. split; [constructor; [exact PW|exact F2]|]. split; [exact PM|]. split; [exact CE|]. split; [exact NR|].
        split; [reflexivity|]. split; [reflexivity|]. split; [reflexivity|]. now rewrite (marker_after_app w), (marker_flat w).
    + next_step H c1 u E. rewrite e_skip_blank in E. injection E as <- <-. apply IH in H. destruct H as (e & more & rest' & -> & FE & PM & CE & NR & -> & -> & -> & ->).
      assert (B10 : b <> 10%N) by (intros ->; destruct WB; discriminate).
      assert (B35 : 35%N <> b) by (intros <-; destruct WB; discriminate).
      destruct e as [|[x b0] e].
      * exists [], (b :: more), rest'. cbn [empty_text flat_map app List.length repeat]. rewrite marker_step, <- app_assoc by exact B10. split; [reflexivity|]. split; [constructor|]. split; [now apply passed_white|]. split; [|parts].
        intros [I|I]; [congruence|now apply CE].
      * inversion FE as [|? ? F1 F2]. subst. exists ((b :: x, b0) :: e), more, rest'. rewrite !empties_cons. cbn [app List.length repeat]. rewrite marker_step, <- !app_assoc by exact B10. split; [reflexivity|].
        split; [constructor; [now apply passed_white|exact F2]|]. parts.
  - assert (QB : is_break (nth 0 rest 0%N) = true) by (unfold is_blank_or_break, is_blank, is_break in *; lia).
    destruct (break_split rest QB) as [(b & r & ->)|(r & -> & NR)]; [|exfalso; apply (plain_cr_stuck _ _ _ _ _ _ NR _ _ _ _ _ _ _ H0)].
    next_step H c1 u E. rewrite e_break in E. injection E as <- <-. apply IH in H. destruct H as (e & more & rest' & -> & FE & PM & CE & NR & -> & -> & -> & ->).
    exists (([], b) :: e), more, rest'. rewrite !empties_cons. cbn [app List.length repeat]. rewrite <- !app_assoc, (marker_after_app (eol b)). split; [reflexivity|]. split; [constructor; [split; [apply hr_blanks; constructor|intros []]|exact FE]|].
    parts.
Qed.

Lemma gap_split indent start : forall fuel ws pre rest m s c' ws' lb' tb',
  plain_blanks fuel indent start ws [] [] (cur pre rest m false s) = (c', Ok (ws', lb', tb')) ->
  exists g rest' l', rest = g ++ rest' /\ no_blank rest' /\ c' = cur (pre ++ g) rest' (marker_after g m) l' s /\
    ((Forall white_byte g /\ l' = false /\ ws' = ws ++ g /\ lb' = [] /\ tb' = []) \/
     (exists tr b e more, g = tr ++ eol b ++ empty_text e ++ more /\ Forall white_byte tr /\ Forall (fun x => passed_line (fst x)) e /\ passed_line more /\
        (In 35%N more -> nth 0 rest' 0%N = 0%N) /\ l' = true /\ ws' = [] /\ lb' = [10%N] /\ tb' = repeat 10%N (List.length e))).
Proof.
  induction fuel as [|fuel IH]; intros ws pre rest m s c' ws' lb' tb' H; [discriminate|]. pose proof H as H0. cbn [plain_blanks] in H. peeked H.
  next_step H c1 ld E. unfold gets in E. injection E as <- <-. next_step H c1 m1 E. rewrite e_get_mark in E. injection E as <- <-. cbn [cur c_lead] in H.
  destruct (is_blank_or_break (nth 0 rest 0%N)) eqn:BB.
  2:{ injection H as <- <- <- <-. exists [], rest, false. rewrite !app_nil_r. split; [reflexivity|]. split; [|split; [reflexivity|left; parts]].
      unfold no_blank, is_blank_or_break, is_blank, is_break in *. cbn [In]. lia. }
  destruct (is_blank (nth 0 rest 0%N)) eqn:BL.
  - assert (WB : white_byte (nth 0 rest 0%N)) by (unfold white_byte, is_blank in *; lia). destruct rest as [|b rest]; [discriminate|]. cbn [nth] in *. cbn [negb] in H.
    next_step H c1 b1 E. rewrite e_peek_or_space in E. injection E as <- <-. next_step H c1 u E. rewrite e_skip_blank in E. injection E as <- <-. apply IH in H.
    assert (B10 : b <> 10%N) by (intros ->; destruct WB; discriminate).
    destruct H as (g & rest' & l' & -> & NR & -> & D). exists (b :: g), rest', l'. rewrite marker_step, <- !app_assoc by exact B10. split; [reflexivity|]. split; [exact NR|]. split; [reflexivity|].
    destruct D as [(F & -> & -> & -> & ->)|(tr & b0 & e & more & -> & F & FE & PM & CE & -> & -> & -> & ->)].
    + left. rewrite <- app_assoc. split; [now constructor|parts].
    + right. exists (b :: tr), b0, e, more. split; [reflexivity|]. split; [now constructor|]. parts.
  - assert (QB : is_break (nth 0 rest 0%N) = true) by (unfold is_blank_or_break, is_blank, is_break in *; lia).
    destruct (break_split rest QB) as [(b & r & ->)|(r & -> & NR)]; [|exfalso; apply (plain_cr_stuck _ _ _ _ _ _ NR _ _ _ _ _ _ _ H0)].
    next_step H c1 u E. rewrite e_break in E. injection E as <- <-. next_step H c1 u E. injection E as <- <-.
    apply later_ok in H. destruct H as (e & more & rest' & -> & FE & PM & CE & NR & -> & -> & -> & ->).
    exists (eol b ++ empty_text e ++ more), rest', true. rewrite <- !app_assoc, (marker_after_app (eol b)). split; [reflexivity|]. split; [exact NR|]. split; [reflexivity|]. right.
    exists [], b, e, more. parts.
Qed.

Lemma gap_empties after : forall e, Forall (fun x : text * bool => passed_line (fst x)) e -> gap after (empty_text e).
Proof.
  induction 1 as [|[x b] e [P _] _ IH]; [constructor|]. rewrite empties_cons. apply gap_app; [|apply gap_app; [apply gap_eol|exact IH]]. apply header_gap; [exact P|]. intros _. destruct b; cbn; tauto.
Qed.
(** ** The scalar *)
(** How the value of what stands before a word is kept. *)
Inductive pending : bool -> text -> text -> text -> text -> Prop :=
| pd_start l : pending l [] [] [] []
| pd_inline ws : ws <> [] -> pending false ws [] [] ws
| pd_lines k : pending true [] [10%N] (repeat 10%N k) (match k with O => [32%N] | _ => repeat 10%N k end).
Definition halts (in_flow : bool) (l : bool) (z : text) : Prop := stop_byte in_flow z \/ nth 0 z 0%N = 35%N \/ (l = true /\ doc_mark z).

Lemma loop_ok self in_flow start : forall fuel string ws lb tb em gv pre rest m l s c' out em',
  plain_loop fuel (self + 1) in_flow start string ws lb tb em (cur pre rest m l s) = (c', Ok (out, em')) ->
  pending l ws lb tb gv -> no_blank rest -> (in_flow = false -> self <= m_col m)%N ->
  (out = string /\ em' = em /\ halts in_flow l rest /\ c_src c' = src pre rest) \/
  (exists w r v after, rest = w ++ r ++ after /\ plain_word in_flow w (nth 0 (r ++ after) 0%N) /\ (l = true -> ~ doc_mark rest) /\
     taken_more in_flow (N.to_nat self) after r v /\ taken_stop in_flow (N.to_nat self) after /\ out = string ++ gv ++ w ++ v /\ em' = marker_after (w ++ r) m /\
     past (pre ++ w ++ r) after (c_src c')).
Proof.
  induction fuel as [|fuel IH]; intros string ws lb tb em gv pre rest m l s c' out em' H PD NB CO; [discriminate|]. cbn [plain_loop] in H.
  next_step H c1 ind E. apply gets_ok in E. destruct E as [-> EI]. next_step H c1 ld E. unfold gets in E. injection E as <- <-. cbn [cur c_lead] in H.
  peeked H. next_step H c1 nc E. rewrite e_peek in E. injection E as <- <-. next_step H c1 m1 E. rewrite e_get_mark in E. injection E as <- <-.
  destruct (l && ind) eqn:LI.
  { cbn [orb] in H. injection H as <- <- <-. left. split; [reflexivity|]. split; [reflexivity|]. split; [|reflexivity]. right. right. apply andb_prop in LI. destruct LI as [-> LI]. rewrite LI in EI. symmetry in EI. split; [reflexivity|].
    now apply (indicator_mark pre rest m true s). }
  cbn [orb] in H. destruct (nth 0 rest 0 =? 35)%N eqn:Q35.
  { injection H as <- <- <-. left. split; [reflexivity|]. split; [reflexivity|]. split; [|reflexivity]. right. left. now apply N.eqb_eq. }
  assert (DM : l = true -> ~ doc_mark rest).
  { intros -> D. apply (indicator_mark pre rest m true s) in D. rewrite <- EI in D. rewrite D in LI. discriminate. }
  destruct (in_flow && (nth 0 rest 0 =? 45)%N && is_flow (nth 1 rest 0%N)); [discriminate|].
  next_step H c1 can E. unfold gets in E. rewrite can_is in E. injection E as <- <-.
  destruct (negb (is_blank_or_breakz (nth 0 rest 0%N)) && (negb ((nth 0 rest 0 =? 58)%N && (is_blank_or_breakz (nth 1 rest 0%N) || (in_flow && is_flow (nth 1 rest 0%N)))) && negb (in_flow && is_flow (nth 0 rest 0%N)))) eqn:CAN.
  2:{ next_step H c1 y E. injection E as <- <-. peeked H.
      assert (NW : is_blank (nth 0 rest 0%N) || is_break (nth 0 rest 0%N) = false) by (unfold no_blank, is_blank, is_break in *; cbn [In] in NB; lia).
      rewrite NW in H. injection H as <- <- <-. left. split; [reflexivity|]. split; [reflexivity|]. split; [|reflexivity]. left.
      destruct (is_blank_or_breakz (nth 0 rest 0%N)) eqn:BB; [left; unfold is_blank_or_breakz, is_breakz, is_blank_or_break, is_blank, is_break in *; lia|].
      destruct ((nth 0 rest 0 =? 58)%N && (is_blank_or_breakz (nth 1 rest 0%N) || (in_flow && is_flow (nth 1 rest 0%N)))) eqn:C1.
      - right. left. apply andb_prop in C1. destruct C1 as [C1 C2]. split; [now apply N.eqb_eq|now apply colon_is].
      - destruct (in_flow && is_flow (nth 0 rest 0%N)) eqn:FL; [|discriminate]. right. right. apply andb_prop in FL. destruct FL as [-> FL]. split; [reflexivity|now apply flow_is]. }
  apply andb_prop in CAN. destruct CAN as [BB CAN]. apply andb_prop in CAN. destruct CAN as [C1 FL]. apply negb_true_iff in BB, C1, FL.
  destruct rest as [|b rest]; [discriminate|]. cbn [nth] in *.
  next_step H c1 y E. destruct y as [[[[string1 ws1] lb1] tb1] em1]. next_step E c2 y E2. destruct y as [[[string2 ws2] lb2] tb2].
  assert (S2 : c2 = cur pre (b :: rest) m false s /\ string2 = string ++ gv /\ ws2 = [] /\ lb2 = [] /\ tb2 = []).
  { destruct PD as [l|ws NE|k].
    - destruct l; injection E2 as <- <- <- <- <-; rewrite ?app_nil_r; parts.
    - destruct ws as [|x ws]; [congruence|]. injection E2 as <- <- <- <- <-. parts.
    - destruct k; injection E2 as <- <- <- <- <-; parts. }
  destruct S2 as (-> & -> & -> & -> & ->). clear E2. next_step E c2 b1 E2. rewrite e_peek_or_space in E2. injection E2 as <- <-.
  next_step E c2 u E2. rewrite e_skip_non_blank in E2. injection E2 as <- <-. next_step E c2 st E2. apply content_ok in E2.
  destruct E2 as (w & rest' & l' & -> & -> & F & LC & ST & L0 & L1 & ->). assert (l' = false) by (destruct w; [now apply L0|apply L1; discriminate]). subst l'. clear L0 L1.
  next_step E c2 e E2. rewrite e_get_mark in E2. injection E2 as <- <-. injection E as <- <- <- <- <- <-.
  assert (WC : word_char in_flow b) by now apply word_is.
  assert (B10 : b <> 10%N) by (intros ->; destruct WC as [X _]; apply X; cbn; tauto).
  assert (W10 : ~ In 10%N (b :: w)). { intros [X|X]; [congruence|]. rewrite Forall_forall in F. destruct (F _ X) as [Y _]. apply Y. cbn. tauto. }
  assert (PW : plain_word in_flow (b :: w) (nth 0 rest' 0%N)).
  { split; [discriminate|]. split; [now constructor|]. split; [cbn [nth]; lia|]. destruct w as [|x w]; [|intros L; apply LC; [discriminate|exact L]].
    cbn [last]. intros -> X. apply colon_is in X. cbn [app] in C1. rewrite X in C1. discriminate. }
  assert (MM : marker_after w (mark_add 1 m) = marker_after (b :: w) m) by now rewrite marker_step.
  rewrite MM in H. remember (marker_after (b :: w) m) as mw eqn:MW. peeked H. destruct (is_blank (nth 0 rest' 0%N) || is_break (nth 0 rest' 0%N)) eqn:BR; cbn [negb] in H.
  2:{ injection H as <- <- <-. right. exists (b :: w), [], [], rest'. cbn [app]. rewrite !app_nil_r, <- !app_assoc, <- MW. split; [reflexivity|]. split; [exact PW|]. split; [exact DM|]. split; [constructor|].
      split; [|split; [reflexivity|split; [reflexivity|]]]; [|apply past_at; [constructor|]; cbn [cur c_src]; unfold src; rewrite <- ?app_assoc; reflexivity]. apply sp_here. destruct ST as [ST|ST]; [|exact ST]. unfold is_blank_or_break in ST. unfold is_blank, is_break in *. lia. }
  next_step H c1 y E. destruct y as [[ws2 lb2] tb2]. apply gap_split in E. destruct E as (g & rest2 & l2 & -> & NB2 & -> & D).
  assert (GN : g <> []). { intros ->. cbn [app] in BR. unfold no_blank, is_blank, is_break in *. cbn [In] in NB2. lia. }
  next_step H c1 m1 E. rewrite e_get_mark in E. injection E as <- <-.
  assert (M2 : marker_after g mw = marker_after ((b :: w) ++ g) m) by now rewrite marker_after_app, MW. rewrite M2 in H. clear M2.
  remember (marker_after ((b :: w) ++ g) m) as m2 eqn:EM2.
  assert (TF : exists gv2 i, pending l2 ws2 lb2 tb2 gv2 /\ taken_fold passed_line g gv2 i /\ (nth 0 rest2 0%N <> 0%N -> taken_fold (Forall white_byte) g gv2 i) /\
    (l2 = true -> exists k, i = Some k /\ m_col m2 = N.of_nat k + 1)%N /\ (l2 = false -> i = None /\ (m_col m + 2 <= m_col m2)%N)).
  { destruct D as [(GW & -> & -> & -> & ->)|(tr & eb & e & more & -> & TW & FE & PM & CE & -> & -> & -> & ->)].
    - exists g, None. cbn [app]. split; [now constructor|]. split; [now constructor|]. split; [intros _; now constructor|]. split; [discriminate|]. intros _. split; [reflexivity|].
      rewrite EM2, marker_flat. 2:{ intros X. apply in_app_or in X. destruct X as [X|X]; [now apply W10|now apply (white_no_lf _ GW)]. }
      rewrite app_length. cbn [List.length]. destruct g; [congruence|]. cbn [List.length]. unfold mark_add. cbn [m_col]. lia.
    - exists (match e with [] => [32%N] | _ => repeat 10%N (List.length e) end), (Some (List.length more)). split; [destruct e; exact (pd_lines (List.length _))|]. split; [now constructor|]. split.
      { intros N0. constructor; [exact TW|exact FE|]. destruct PM as [HM T]. inversion HM as [x W EX|x c G W C EX]; [exact W|]. elim N0. apply CE. rewrite <- EX. apply in_or_app. right. now left. }
      split; [|discriminate]. intros _. exists (List.length more). split; [reflexivity|]. rewrite EM2.
      assert (G : forall x y M, ~ In 10%N y -> m_col (marker_after ((x ++ [10%N]) ++ y) M) = (N.of_nat (List.length y) + 1)%N).
      { intros x y M NY. rewrite !marker_after_app, marker_flat by exact NY. unfold mark_add. cbn [m_col marker_after mark_newline]. lia. }
      replace ((b :: w) ++ tr ++ eol eb ++ empty_text e ++ more) with (((b :: w) ++ (tr ++ eol eb) ++ empty_text e) ++ more) by now rewrite <- !app_assoc.
      assert (EL : exists x, (b :: w) ++ (tr ++ eol eb) ++ empty_text e = x ++ [10%N]).
      { destruct (snoc_or_nil e) as [-> |(e0 & [x0 b0] & ->)].
        - cbn [empty_text flat_map]. rewrite app_nil_r. destruct eb; [exists ((b :: w) ++ tr ++ [13%N])|exists ((b :: w) ++ tr)]; rewrite <- !app_assoc; reflexivity.
        - unfold empty_text. rewrite flat_map_app. cbn [flat_map fst snd]. rewrite app_nil_r.
          destruct b0; [exists ((b :: w) ++ (tr ++ eol eb) ++ empty_text e0 ++ x0 ++ [13%N])|exists ((b :: w) ++ (tr ++ eol eb) ++ empty_text e0 ++ x0)]; rewrite <- !app_assoc; reflexivity. }
      destruct EL as [x EL]. rewrite EL. apply G. exact (passed_no_lf _ (proj1 PM)). }
  destruct TF as (gv2 & i & PD2 & TF & TW & IL & II).
  assert (GP : gap rest2 g).
  { destruct D as [(GW & _)|(tr & eb & e & more & -> & GW & FE & PM & CE & _)]; [now apply gap_white|]. apply gap_app; [now apply gap_white|]. apply gap_app; [apply gap_eol|]. apply gap_app; [now apply gap_empties|].
    apply header_gap; [exact (proj1 PM)|]. intros I. rewrite (CE I). cbn. tauto. }
  clear D.
  destruct (negb in_flow && (m_col m2 <? self + 1)%N) eqn:LESS.
  { injection H as <- <- <-. apply andb_prop in LESS. destruct LESS as [LF LESS]. apply negb_true_iff in LF. subst in_flow.
    destruct l2; [|destruct (II eq_refl) as [_ X]; specialize (CO eq_refl); lia]. destruct (IL eq_refl) as (k & -> & EK).
    right. exists (b :: w), [], [], (g ++ rest2). cbn [app]. rewrite !app_nil_r, <- !app_assoc, <- MW. split; [reflexivity|]. split; [exact PW|]. split; [exact DM|]. split; [constructor|].
    split; [|split; [reflexivity|split; [reflexivity|]]]; [|apply past_gap; [exact GP|]; apply past_at; [constructor|]; cbn [cur c_src]; unfold src; rewrite <- ?app_assoc; reflexivity]. apply (sp_less _ _ g gv2 k rest2); [exact TF|reflexivity|lia|exact NB2]. }
  apply (IH _ _ _ _ _ gv2) in H; [|exact PD2|exact NB2|intros ->; cbn [negb andb] in LESS; lia].
  right. destruct H as [(-> & -> & HL & HS)|(w2 & r & v & after & -> & PW2 & DM2 & TM & TS & -> & -> & HS)].
  - exists (b :: w), [], [], (g ++ rest2). cbn [app]. rewrite !app_nil_r, <- !app_assoc, <- MW. split; [reflexivity|]. split; [exact PW|]. split; [exact DM|]. split; [constructor|]. split; [|split; [reflexivity|split; [reflexivity|]]].
    2:{ apply past_gap; [exact GP|]. apply past_at; [constructor|]. rewrite HS. cbn [app]. unfold src. rewrite <- ?app_assoc. reflexivity. }
    destruct HL as [HL|[HL|[-> HL]]]; [eapply sp_gap; [exact TF|now left]|eapply sp_gap; [exact TF|now right]|].
    destruct (IL eq_refl) as (k & -> & _). eapply sp_mark; [exact TF|exact HL].
  - exists (b :: w), (g ++ w2 ++ r), (gv2 ++ w2 ++ v), after. cbn [app]. rewrite <- !app_assoc in *. split; [reflexivity|]. split; [exact PW|]. split; [exact DM|]. split.
    { apply (tm_word _ _ _ g gv2 i w2 r v); [| |exact PW2|exact TM].
      - apply TW. destruct PW2 as (NE & FW & _). destruct w2 as [|x w2]; [congruence|]. cbn [app nth]. inversion FW as [|? ? [X _] _]. intros ->. apply X. cbn. tauto.
      - intros k EK. destruct l2; [|destruct (II eq_refl) as [X _]; congruence]. split; [|now apply DM2]. intros ->. cbn [negb andb] in LESS. destruct (IL eq_refl) as (k2 & E2 & CK). rewrite EK in E2. injection E2 as <-. lia. }
    split; [exact TS|]. split; [reflexivity|]. split; [rewrite EM2, <- marker_after_app; f_equal; cbn [app]; now rewrite <- !app_assoc|].
    cbn [app] in HS. rewrite <- ?app_assoc in HS. cbn [app] in HS. exact HS.
Qed.

Theorem plain_only self in_flow fuel pre rest m l s c' tok :
  scan_plain_scalar fuel self in_flow (cur pre rest m l s) = (c', Ok tok) -> no_blank rest -> (in_flow = false -> self <= m_col m)%N ->
  exists q v after, rest = q ++ after /\ taken_plain in_flow (N.to_nat self) after q v /\ (in_flow = true -> self < m_col m)%N /\ past (pre ++ q) after (c_src c') /\
    tok = Token (Span m (marker_after q m)) (TScalar Plain v).
Proof.
  intros H NB CO. unfold scan_plain_scalar in H. next_step H c1 m1 E. rewrite e_get_mark in E. injection E as <- <-.
  destruct (in_flow && (m_col m <? self + 1)%N) eqn:IN; [discriminate|].
  next_step H c1 y E. destruct y as [string em]. apply (loop_ok _ _ _ _ _ _ _ _ _ []) in E; [|constructor|exact NB|exact CO].
  next_step H c2 ld E2. next_step H c3 u E3. destruct E as [(-> & _)|(w & r & v & after & -> & PW & _ & TM & TS & -> & -> & HS)]; [discriminate|].
  assert (S3 : c_src c3 = c_src c1) by (injection E2 as <- <-; destruct (c_lead c1); injection E3 as <- _; reflexivity).
  cbn [app] in H. destruct w as [|b w]; [destruct PW; congruence|]. cbn [app] in H. injection H as <- <-.
  exists ((b :: w) ++ r), ((b :: w) ++ v), after. rewrite <- app_assoc. split; [reflexivity|]. split; [now constructor|]. split; [intros ->; cbn [andb] in IN; lia|]. split; [|reflexivity]. rewrite S3. exact HS.
Qed.
