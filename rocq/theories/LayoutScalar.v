(** Scalars of one and of several lines before comments, empty lines and colons. *)
From Verif Require Import Base Tokens Scalar Chars Source Cursor Scanner ExactCursor SpecTree SpecQuoted FoldedQuotes ExactPlain EagerScan ScanSteps.
From Verif Require Import SpecBlock BlockScan SpecPlain PlainScan NodeScan DumpScan ScalarDocs PlainDocs SpecLayout LayoutCursor LayoutScan SpecStrings StringScan.
From Coq Require Import String Lia ZifyBool ZifyNat ZifyN.
Local Open Scope list_scope.

(** What may come behind a scalar: what comes behind a node, or the colon behind a key. *)
Inductive closes (i0 : N) : text -> text -> Prop :=
| cl_behind g after : behind i0 g after -> closes i0 g after
| cl_colon k r : In (nth 0 r 0%N) [32; 10; 13; 0]%N -> closes i0 (repeat 32%N k) (58%N :: r).
Lemma closes_begins i0 g after : closes i0 g after -> begins (nth 0 after 0%N).
Proof. intros [g' a H|k r H]; [eapply behind_begins; eauto|]. unfold begins. cbn [nth In]. intuition discriminate. Qed.
Lemma closes_gap i0 g after : closes i0 g after -> gap_to after g.
Proof. intros [g' a H|k r H]; [eapply behind_gap; eauto|]. rewrite <- (app_nil_r (repeat _ _)). apply gap_spaces. constructor. Qed.
Lemma closes_head i0 g after : closes i0 g after -> In (nth 0 (g ++ after) 0%N) [32; 10; 13; 0; 58]%N.
Proof. intros [g' a H|[|k] r H]; [apply behind_head in H|cbn; auto 7|cbn; auto]. cbn [In] in *. tauto. Qed.

(** ** The gap as a plain scalar sees it *)
Definition blank_ones (ls : list (text * bool)) : Prop := Forall (fun x => exists k, fst x = repeat 32%N k) ls.
Lemma first_comment ls : empty_ones ls -> blank_ones ls \/
  exists e k c b ls', ls = e ++ (repeat 32%N k ++ 35%N :: c, b) :: ls' /\ blank_ones e /\ Forall comment_byte c /\ empty_ones ls'.
Proof.
  induction 1 as [|[x b] ls X E IH]; [left; constructor|]. cbn [fst] in X. destruct X as [k|k c C].
  - destruct IH as [IH|(e & k2 & c & b2 & ls' & -> & B & C & E')].
    + left. constructor; [exists k; reflexivity|exact IH].
    + right. exists ((repeat 32%N k, b) :: e), k2, c, b2, ls'. split; [reflexivity|]. split; [constructor; [exists k; reflexivity|exact B]|]. auto.
  - right. exists [], k, c, b, ls. split; [reflexivity|]. split; [constructor|]. auto.
Qed.
Lemma spaces_white k : Forall white_byte (repeat 32%N k).
Proof. apply Forall_forall. intros x Hx. apply repeat_spec in Hx. subst. now left. Qed.
Lemma blank_white e : blank_ones e -> Forall (fun x : text * bool => Forall white_byte (fst x)) e.
Proof. apply Forall_impl. intros [x b] (k & E). cbn [fst] in *. rewrite E. apply spaces_white. Qed.
Lemma empty_text_app a b : empty_text (a ++ b) = empty_text a ++ empty_text b.
Proof. unfold empty_text. apply flat_map_app. Qed.
Lemma gap_comment rest c x : Forall comment_byte c -> is_breakz (nth 0 (x ++ rest) 0%N) = true -> gap_to rest x -> gap_to rest (35%N :: c ++ x).
Proof. intros C B G. now apply gt_comment. Qed.
Lemma plain_gap i0 g after : closes i0 g after -> exists fg g2, g = fold_text fg ++ g2 /\ gap_to after g2 /\
  plain_stop false i0 fg (g2 ++ after) /\ comment_behind i0 fg (g2 ++ after) /\ (forall k r, g = repeat 32%N k -> after = 58%N :: r -> g2 = []).
Proof.
  assert (LINES : forall r b ls last, line_rest r -> empty_ones ls -> empty_line last ->
    (forall k0 k1 e b, last = repeat 32%N k0 -> blank_ones e -> plain_stop false i0 (NewLines (repeat 32%N k1) b e k0 []) after) ->
    (forall k c, last = repeat 32%N k ++ 35%N :: c -> after = []) ->
    let gg := r ++ eol b ++ empty_text ls ++ last in
    exists fg g2, gg = fold_text fg ++ g2 /\ gap_to after g2 /\ plain_stop false i0 fg (g2 ++ after) /\ comment_behind i0 fg (g2 ++ after) /\ has_lf gg = true).
  { intros r b ls last R E LA ST CO gg.
    assert (GL : gap_to after last).
    { rewrite <- (app_nil_r last). destruct LA as [k|k c C]; [apply gap_spaces; constructor|].
      apply gap_empty_line; [now constructor|rewrite (CO k c eq_refl); reflexivity|constructor]. }
    assert (HL : has_lf gg = true) by (unfold gg; rewrite !has_lf_app, has_lf_eol; now rewrite orb_true_r).
    destruct R as [k1|k1 c1 C1].
    - destruct (first_comment ls E) as [B|(e & k & c & b2 & ls' & -> & B & C & E')].
      + destruct LA as [k0|k0 c0 C0].
        * exists (NewLines (repeat 32%N k1) b ls k0 []), []. cbn [fold_text app]. rewrite !app_nil_r. split; [reflexivity|]. split; [constructor|].
          split; [now apply ST|]. split; [intros _ X; congruence|exact HL].
        * exists (NewLines (repeat 32%N k1) b ls k0 []), (35%N :: c0). cbn [fold_text]. rewrite !app_nil_r. rewrite <- !app_assoc. split; [reflexivity|].
          split; [|split; [|split; [intros _ X; congruence|exact HL]]].
          -- rewrite <- (app_nil_r c0). apply gap_comment; [exact C0|rewrite (CO k0 c0 eq_refl); reflexivity|constructor].
          -- apply ps_comment.
             ++ split; [apply spaces_white|]. split; [now apply blank_white|constructor].
             ++ cbn [fold_text]. rewrite app_assoc. destruct (repeat 32%N k1), b; discriminate.
      + exists (NewLines (repeat 32%N k1) b e k []), (35%N :: c ++ eol b2 ++ empty_text ls' ++ last). cbn [fold_text]. split.
        { unfold gg. rewrite empty_text_app. cbn [empty_text flat_map fst snd]. rewrite !app_nil_r, <- !app_assoc. cbn [app]. reflexivity. }
        split; [|split; [|split; [intros _ X; congruence|exact HL]]].
        * apply gap_comment; [exact C|rewrite <- app_assoc; apply break_z|]. constructor. now apply gap_empty_text.
        * apply ps_comment.
          -- split; [apply spaces_white|]. split; [now apply blank_white|constructor].
          -- cbn [fold_text]. rewrite app_assoc. destruct (repeat 32%N k1), b; discriminate.
    - exists (Inline (repeat 32%N (S k1))), (35%N :: c1 ++ eol b ++ empty_text ls ++ last). cbn [fold_text]. split; [unfold gg; now rewrite <- app_assoc|].
      split; [|split; [|split; [intros _; exact I|exact HL]]].
      + apply gap_comment; [exact C1|rewrite <- app_assoc; apply break_z|]. constructor. now apply gap_empty_text.
      + apply ps_comment; [apply spaces_white|discriminate]. }
  assert (NLF : forall k g, has_lf g = true -> g = repeat 32%N k -> False).
  { intros k gg H ->. rewrite (no_lf_has _ (no_lf_spaces k)) in H. discriminate. }
  assert (NEXT : forall k g, next_line k g -> (forall k1 e b, blank_ones e -> plain_stop false i0 (NewLines (repeat 32%N k1) b e k []) after) ->
    exists fg g2, g = fold_text fg ++ g2 /\ gap_to after g2 /\ plain_stop false i0 fg (g2 ++ after) /\ comment_behind i0 fg (g2 ++ after) /\ has_lf g = true).
  { intros k ? [r b ls R E] H. apply LINES; auto; [constructor| |].
    - intros k0 k1 e b0 X. apply (f_equal (@List.length N)) in X. rewrite !repeat_length in X. subst k0. apply H.
    - intros k0 c X. exfalso. assert (Y : In 35%N (repeat 32%N k)) by (rewrite X; apply in_or_app; right; now left). apply repeat_spec in Y. discriminate. }
  intros CL. destruct CL as [g after BH|k r H].
  - destruct BH as [g' [r R|r b ls x R E X]|k g' b r E L B|g' r E D].
    + destruct R as [k|k c C].
      * exists (Inline (repeat 32%N k)), []. cbn [fold_text app]. rewrite app_nil_r. split; [reflexivity|]. split; [constructor|]. split; [constructor; apply spaces_white|].
        split; [intros _; exact I|]. discriminate.
      * exists (Inline (repeat 32%N (S k))), (35%N :: c). cbn [fold_text]. split; [reflexivity|]. rewrite app_nil_r. split; [rewrite <- (app_nil_r c); apply gap_comment; [exact C|reflexivity|constructor]|].
        split; [apply ps_comment; [apply spaces_white|discriminate]|]. split; [intros _; exact I|]. discriminate.
    + destruct (LINES r b ls x R E X) as (fg & g2 & E1 & E2 & E3 & E4 & E5).
      * intros k0 k1 e b0 _ B0. constructor. split; [apply spaces_white|]. split; [now apply blank_white|constructor].
      * reflexivity.
      * exists fg, g2. split; [exact E1|]. split; [exact E2|]. split; [exact E3|]. split; [exact E4|]. discriminate.
    + destruct (NEXT k g' E) as (fg & g2 & E1 & E2 & E3 & E4 & E5).
      * intros k1 e b0 B0. apply ps_less; [|reflexivity|lia|].
        -- split; [apply spaces_white|]. split; [now apply blank_white|constructor].
        -- unfold begins in B. cbn [In] in *. intuition.
      * exists fg, g2. split; [exact E1|]. split; [exact E2|]. split; [exact E3|]. split; [exact E4|]. intros k1 r1 X _. elim (NLF _ _ E5 X).
    + destruct (NEXT 0 g' E) as (fg & g2 & E1 & E2 & E3 & E4 & E5).
      * intros k1 e b0 B0. apply ps_mark; [|exact D]. split; [apply spaces_white|]. split; [now apply blank_white|constructor].
      * exists fg, g2. split; [exact E1|]. split; [exact E2|]. split; [exact E3|]. split; [exact E4|]. intros k1 r1 X _. elim (NLF _ _ E5 X).
  - exists (Inline (repeat 32%N k)), []. cbn [fold_text app]. rewrite app_nil_r. split; [reflexivity|]. split; [constructor|].
    split; [|split; [intros _; exact I|reflexivity]]. apply ps_colon; [apply spaces_white|exact I|]. left. cbn [In] in *. tauto.
Qed.
Lemma breaks_lf g : white_gap g -> breaks g = has_lf (fold_text g).
Proof.
  destruct g as [bs|tr b e i more]; cbn [breaks fold_text white_gap].
  - intros W. symmetry. apply no_lf_has. intros H. pose proof (proj1 (Forall_forall _ _) W _ H) as X. destruct X; discriminate.
  - intros _. rewrite !has_lf_app, has_lf_eol. now rewrite orb_true_r.
Qed.

(** ** Plain scalars *)
Lemma no_doc_mark w x : Forall (word_char false) w -> w <> [] -> no_marker w -> ~ In (nth 0 x 0%N) [45; 46]%N -> ~ doc_mark (w ++ x).
Proof.
  intros F NE [N1 N2] X (r & E & R).
  assert (K : forall a, (a = 45 \/ a = 46)%N -> w ++ x = a :: a :: a :: r -> w = [a; a; a]).
  { intros a A E'. destruct w as [|b0 [|b1 [|b2 [|b3 w]]]]; cbn [app] in E'.
    - congruence.
    - injection E' as -> ->. cbn [nth In] in X. destruct A; subst a; tauto.
    - injection E' as -> -> ->. cbn [nth In] in X. destruct A; subst a; tauto.
    - injection E' as -> -> -> _. reflexivity.
    - injection E' as -> -> -> <-. inversion_clear F as [|? ? _ F1]. inversion_clear F1 as [|? ? _ F2]. inversion_clear F2 as [|? ? _ F3]. inversion_clear F3 as [|? ? [F4 _] _].
      now elim F4. }
  destruct E as [E|E]; [apply N1|apply N2]; (apply K; [auto|exact E]).
Qed.
Lemma more_head ws p x : more_words p ws -> ~ In (nth 0 x 0%N) [45; 46]%N -> ~ In (nth 0 (more_text ws ++ x) 0%N) [45; 46]%N.
Proof.
  intros M X. destruct M as [|[g w] ws (W & NE & _) _]; [exact X|]. cbn [more_text flat_map fst snd].
  rewrite <- !app_assoc. pose proof (gap_head g (w ++ more_text ws ++ x) W NE) as Y. cbv zeta in Y. unfold more_text in Y.
  intros Z. cbn [In] in Z. unfold is_blank, is_break in Y. lia.
Qed.
Lemma plain_of p ws x : more_words p ws -> ~ In (nth 0 x 0%N) [45; 46]%N -> plain_words false (N.of_nat p) ws x /\ no_look_alikes false ws x.
Proof.
  induction 1 as [|[g w] ws (W & NE & IN & BW & NM) M IH]; intros X; [now split|]. cbn [fst snd] in *.
  destruct (IH X) as [I1 I2]. pose proof (more_head ws p x M X) as X2. destruct BW as (B1 & B2 & B3 & B4).
  cbn [plain_words no_look_alikes]. split.
  - split; [exact W|]. split; [exact NE|]. split; [exact IN|]. split.
    + intros O. apply no_doc_mark; auto. apply NM. destruct g; [contradiction|reflexivity].
    + split; [|exact I1]. split; [exact B1|]. split; [exact B2|]. split; [exact B3|]. intros H. congruence.
  - split; [|split; [|exact I2]].
    + intros B. apply no_doc_mark; auto.
    + intros (Q & _). discriminate.
Qed.

(** ** One round for a scalar *)
Lemma scalar_text_first p st w v : written_scalar p st w v -> exists b r, w = b :: r /\ begins b /\
  forall x, ~ In (nth 0 x 0%N) [45; 46]%N -> marker_line (w ++ x) = false.
Proof.
  intros [w0 ws PS BW NM M|single w0 v0 Q].
  - destruct BW as (B1 & B2 & B3 & B4). destruct (start_begins w0 PS B1 B2) as (b & r & EW & B & B37).
    exists b, (r ++ more_text ws). split; [now rewrite EW|]. split; [exact B|]. intros x X. rewrite <- app_assoc.
    pose proof (no_doc_mark w0 (more_text ws ++ x) B2 B1 NM (more_head _ _ _ M X)) as ND.
    unfold marker_line. assert (E0 : nth 0 (w0 ++ more_text ws ++ x) 0%N = b) by now rewrite EW.
    rewrite E0 at 1. rewrite (proj2 (N.eqb_neq b 37) B37). cbn [orb]. 
    destruct (_ && is_blank_or_breakz _) eqn:E; [|reflexivity]. elim ND.
    apply (indicator_mark [] (w0 ++ more_text ws ++ x) (Marker 0 0 0) true true). unfold next_is_document_indicator, next_is_three. rewrite !cur_peek. exact E.
  - destruct (quoted_text single p w0 v0 Q) as (body & ->). eexists. eexists. split; [reflexivity|].
    destruct single; (split; [unfold begins; cbn; intuition discriminate|]); reflexivity.
Qed.
Lemma spaces_rest k : line_rest (repeat 32%N k).
Proof. constructor. Qed.
Lemma scalar_round fuel p st w v g pre after M L A toks k i s fs adj i0 s0 :
  written_scalar p st w v -> (i0 = N.of_nat p \/ (~ In 10%N w)) -> inside i0 s0 i s -> blocky s0 -> (i <= m_col M)%N -> (0 < m_col M)%N ->
  closes i0 g after -> (forall k r, g = repeat 32%N k -> after = 58%N :: r -> ~ In 10%N w) -> List.length w + List.length g + 6 < fuel ->
  exists sp i1 s1 adj' g1 g2 l', g = g1 ++ g2 /\ gap_to after g2 /\ (forall k r, g = repeat 32%N k -> after = 58%N :: r -> g2 = []) /\
  fetch_main_loop fuel (zs (cur pre (w ++ g ++ after) M L A) toks k i s fs adj)
  = (zs (cur (pre ++ w ++ g1) (g2 ++ after) (marker_after g1 (marker_after w M)) l' (has_lf g1))
       (toks ++ [Token sp (TScalar st v)]) (saved A M toks k i s) i1 s1 fs adj', Ok tt) /\ ((i1 = i0 /\ s1 = s0) \/ (i1 = i /\ s1 = s)).
Proof.
  intros WS IP IN BL IM CM CL ONE F. assert (I0 : (i0 <= i /\ i <= i0 + 1)%N) by (destruct IN as [[-> ->]|(_ & -> & ->)]; lia).
  pose proof (closes_head _ _ _ CL) as HD. pose proof (closes_begins _ _ _ CL) as BG. pose proof (closes_gap _ _ _ CL) as GG.
  assert (Q : exists single : bool, st = Plain \/ (st = (if single then SingleQuote else DoubleQuote) /\ quoted_scalar single p w v)).
  { destruct WS as [w0 ws PS BW NM MW|single w0 v0 Q]; [exists true; now left|]. exists single. now right. }
  destruct Q as (single & [EP|(ES & Q)]).
  - (* plain *)
    subst st. inversion WS as [w1 ws1 PS BW NM MW E1 E2 E3|single' w1 v1 Q E1 E2 E3]; [|destruct single'; discriminate]. subst. clear WS single.
    destruct (plain_gap i0 g after CL) as (fg & g2 & EG & G2 & PST & CB & COL).
    assert (XH : ~ In (nth 0 (fold_text fg ++ g2 ++ after) 0%N) [45; 46]%N).
    { rewrite app_assoc, <- EG. intros X. revert HD. cbn [In] in *. destruct X as [<- |[<- |[]]]; intuition discriminate. }
    assert (PW : plain_words false i0 ws1 (fold_text fg ++ g2 ++ after) /\ no_look_alikes false ws1 (fold_text fg ++ g2 ++ after)).
    { destruct IP as [-> |NL]; [now apply plain_of|].
      assert (X : more_words (N.to_nat i0) ws1).
      { apply Forall_forall. intros [g0 w0] Hx. pose proof (proj1 (Forall_forall _ _) MW _ Hx) as (Y1 & Y2 & Y3 & Y4 & Y5). cbn [fst snd] in *.
        split; [exact Y1|]. split; [exact Y2|]. split; [|split; [exact Y4|exact Y5]].
        destruct g0 as [bs|tr b e j more]; [exact I|]. exfalso. apply NL. apply in_or_app. right. unfold more_text. apply in_flat_map.
        exists (NewLines tr b e j more, w0). split; [exact Hx|]. cbn [fst snd fold_text]. rewrite !in_app_iff. left. right. left. destruct b; cbn; auto. }
      rewrite <- (N2Nat.id i0). now apply plain_of. }
    destruct PW as [PW NLA]. destruct BW as (B1 & B2 & B3 & B4).
    rewrite EG in F. rewrite !app_length in F.
    exists (Span M (marker_after (w1 ++ more_text ws1) M)), i0, s0, adj, (fold_text fg), g2, (breaks fg).
    split; [exact EG|]. split; [exact G2|]. split; [exact COL|]. split; [|now left].
    rewrite <- app_assoc. rewrite start_main by auto. unfold fetch_plain_scalar. unfold bind at 1. rewrite zs_save.
    unfold bind at 1. rewrite zs_lift, e_set_ska. unfold bind at 1. rewrite (zs_non_block i0 s0) by auto.
    unfold bind at 1. unfold gets at 1. unfold bind at 1. unfold gets at 1.
    match goal with |- context [z_indent (zs ?a ?b ?c ?d ?e ?f ?g)] => change (z_indent (zs a b c d e f g)) with i0 end.
    match goal with |- context [z_flow (zs ?a ?b ?c ?d ?e ?f ?g)] => change (z_flow (zs a b c d e f g)) with 0%N end.
    change ((0 <? 0)%N) with false. unfold bind at 1. rewrite zs_lift.
    pose proof (plain_scanned fuel i0 false w1 ws1 fg (g2 ++ after) pre M L false) as X. cbv zeta in X. rewrite <- !app_assoc in X.
    rewrite EG, <- !app_assoc. rewrite X; clear X; auto.
    + rewrite zs_push. cbn [k_span k_type orb]. rewrite <- ?app_assoc. rewrite !marker_after_app. rewrite (breaks_lf fg) by (eapply stop_fits; eauto). reflexivity.
    + split; [exact B1|]. split; [exact B2|]. split; [exact B3|]. intros H. congruence.
    + intros (Y & _). discriminate.
    + intros _. apply no_doc_mark; auto. eapply more_head; eauto.
    + lia.
    + discriminate.
    + rewrite !app_length. lia.
  - (* quoted *)
    destruct (gap_split after g GG BG) as (r & g1 & EG & LR & G1 & NB & BZ).
    { destruct g as [|x g]; [discriminate|]. cbn [app nth] in *. intros ->. cbn [In] in HD. intuition discriminate. }
    assert (QI : quoted_scalar single (N.to_nat i) w v \/ (i <= N.of_nat p + 1)%N) by (destruct IP as [EP|NL]; [right; lia|left; now apply (quoted_line single p)]).
    assert (QS : exists n, quoted_scalar single n w v /\ (i <= N.of_nat n + 1)%N) by (destruct QI as [QI|QI]; [exists (N.to_nat i); split; [exact QI|lia]|exists p; auto]).
    destruct QS as (n & QS & IQ).
    assert (END : is_breakz (nth 0 (g1 ++ after) 0%N) = true \/ (nth 0 (g1 ++ after) 0%N = 58%N /\ ~ In 10%N w)).
    { clear HD BG F. destruct CL as [gg aa BH|kk rr HR].
      - left. clear ONE. clear - BH EG LR NB GG G1. destruct g1 as [|y g1].
        + rewrite app_nil_r in EG. subst r. cbn [app] in *. destruct BH as [g' E|k g' b r E L B|g' r E D]; [reflexivity| |];
            (exfalso; pose proof (next_line_lf _ _ E) as X; rewrite (no_lf_has _ (rest_no_lf _ LR)) in X; discriminate).
        + inversion G1 as [|g' G' E'|b g' G' E'|c g' C B G' E']; subst.
          * cbn [app nth In] in NB. tauto.
          * rewrite <- app_assoc. apply break_z.
          * cbn [app nth In] in NB. tauto.
      - right. assert (g1 = []) as ->.
        { assert (SP : forall y, In y g1 -> y = 32%N) by (intros y Hy; apply (repeat_spec kk); rewrite EG; apply in_or_app; now right).
          destruct g1 as [|y g1]; [reflexivity|]. exfalso. apply NB. left. symmetry. apply SP. now left. }
        split; [reflexivity|]. eapply ONE; reflexivity. }
    assert (E : scan_flow_scalar fuel single i false (cur pre (w ++ g ++ after) M L false)
      = (cur (pre ++ w ++ r) (g1 ++ after) (mark_add (List.length r) (marker_after w M)) false false,
         Ok (Token (Span M (mark_add (List.length r) (marker_after w M))) (TScalar (if single then SingleQuote else DoubleQuote) v)))).
    { replace (g ++ after) with (r ++ g1 ++ after) by (rewrite EG, <- app_assoc; reflexivity). apply (scans_quoted single n); auto.
      - intros X. cbn [In] in NB, X. destruct X as [X|[X|[X|[X|[]]]]]; try tauto.
        destruct END as [END|[END _]]; rewrite <- X in END; discriminate.
      - intros _ X. rewrite app_assoc, <- EG in X. rewrite X in HD. cbn [In] in HD. intuition discriminate.
      - destruct END as [END|[END NL]]; [now left|right; right; auto].
      - rewrite EG, app_length in F. rewrite app_length. lia.
      - lia. }
    set (sp := Span M (mark_add (List.length r) (marker_after w M))) in *.
    exists sp, i, s, (m_pos (marker_after g (marker_after w M))), g, [], (has_lf g1). split; [now rewrite app_nil_r|]. split; [constructor|]. split; [reflexivity|]. split; [|now right].
    assert (MN : fetch_main_loop fuel (zs (cur pre (w ++ g ++ after) M L A) toks k i s fs adj) = fetch_flow_scalar fuel single (zs (cur pre (w ++ g ++ after) M L A) toks k i s fs adj)).
    { destruct (quoted_text _ _ _ _ Q) as (body & ->). cbn [app]. destruct single; [apply main_single|apply main_double]. }
    rewrite MN. unfold fetch_flow_scalar. unfold bind at 1. rewrite zs_save.
    unfold bind at 1. rewrite zs_lift, e_set_ska.
    unfold bind at 1. unfold gets at 1. unfold bind at 1. unfold gets at 1.
    match goal with |- context [z_indent (zs ?a ?b ?c ?d ?e ?f ?g)] => change (z_indent (zs a b c d e f g)) with i end.
    match goal with |- context [z_flow (zs ?a ?b ?c ?d ?e ?f ?g)] => change (z_flow (zs a b c d e f g)) with 0%N end.
    change ((0 <? 0)%N) with false. unfold bind at 1. rewrite zs_lift, E.
    unfold bind at 1. unfold zskip_to_next_token.
    match goal with |- context [z_flow (zs ?a ?b ?c ?d ?e ?f ?g)] => change (z_flow (zs a b c d e f g)) with 0%N end.
    rewrite zs_lift. rewrite e_next_gap; [|exact BG|exact G1|rewrite EG, app_length in F; lia].
    unfold bind at 1. unfold modify at 1. cbn [k_span k_type].
    match goal with |- context [set_adjacent ?a (zs ?c ?d ?e ?f ?g ?h ?j)] => change (set_adjacent a (zs c d e f g h j)) with (zs c d e f g h a) end.
    rewrite zs_push.
    assert (EM : marker_after g1 (mark_add (List.length r) (marker_after w M)) = marker_after g (marker_after w M)).
    { rewrite EG, marker_after_app, (marker_flat r) by now apply rest_no_lf. reflexivity. }
    rewrite EM. cbn [orb]. rewrite ES.
    assert (HH : has_lf g1 = has_lf g) by (rewrite EG, has_lf_app, (no_lf_has r) by (now apply rest_no_lf); reflexivity).
    rewrite HH. cbn [app]. rewrite EG, <- !app_assoc. reflexivity.
Qed.
