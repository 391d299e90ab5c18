(** How the scanner reads quoted scalars over several lines. *)
From Verif Require Import Base Tokens Scalar Chars Source Cursor ExactCursor SpecQuoted.
From Coq Require Import String Lia ZifyBool ZifyNat ZifyN.
Local Open Scope list_scope.

Lemma marker_after_app a : forall b m, marker_after (a ++ b) m = marker_after b (marker_after a m).
Proof.
  induction a as [|x a IH]; intros b m; [reflexivity|]. cbn [app marker_after].
  destruct x as [|p]; [apply IH|]. do 4 (destruct p as [p|p|]; try apply IH).
Qed.
Lemma marker_step b r m : b <> 10%N -> marker_after (b :: r) m = marker_after r (mark_add 1 m).
Proof.
  intros N. cbn [marker_after]. unfold mark_add. change (N.of_nat 1) with 1%N.
  destruct b as [|p]; [reflexivity|]. do 4 (destruct p as [p|p|]; try reflexivity; try congruence).
Qed.
Lemma marker_flat a m : ~ In 10%N a -> marker_after a m = mark_add (List.length a) m.
Proof.
  revert m. induction a as [|b a IH]; intros m N; [now rewrite mark_add_0|].
  rewrite marker_step by (intros ->; apply N; now left). rewrite IH by (intros H; apply N; now right).
  now rewrite mark_add_add.
Qed.
Lemma marker_lf r m : marker_after (10%N :: r) m = marker_after r (mark_newline 1 m).
Proof. reflexivity. Qed.

(** ** Words *)
Lemma consume_word_any single enc start w fuel string pre rest m l s :
  Forall (reads_byte single enc) w -> run_ends single rest \/ nth 0 rest 0%N = 10%N -> List.length w < fuel ->
  exists l', consume_chars fuel single start string (cur pre (flat_map enc w ++ rest) m l s)
  = (cur (pre ++ flat_map enc w) rest (mark_add (List.length (flat_map enc w)) m) l' s,
     Ok (string ++ w, false)).
Proof.
  revert fuel string pre m l. induction w as [|b w IH]; intros fuel string pre m l FW E F; cbn [flat_map].
  - destruct fuel as [|fuel]; [cbn in F; lia|]. cbn [app List.length]. exists l.
    rewrite mark_add_0, !app_nil_r. cbn [consume_chars]. unfold bind. rewrite !e_peek.
    destruct E as [[[E|E]|[E G]]|E].
    + rewrite E. reflexivity.
    + rewrite E. reflexivity.
    + rewrite E. destruct single; unfold quote in *.
      * change (is_blank_or_breakz 39) with false. cbv iota. change ((39 =? 39)%N) with true. cbn [andb].
        rewrite (proj2 (N.eqb_neq _ _) (G eq_refl)). reflexivity.
      * reflexivity.
    + rewrite E. reflexivity.
  - destruct fuel as [|fuel]; [cbn in F; lia|]. cbn [List.length] in F.
    apply Forall_cons_iff in FW. destruct FW as [HB FW].
    rewrite <- app_assoc. rewrite HB.
    destruct (IH fuel (string ++ [b]) (pre ++ enc b) (mark_add (List.length (enc b)) m) false FW E ltac:(lia)) as [l' H].
    exists l'. rewrite H. rewrite mark_add_add, !app_length, <- !app_assoc. reflexivity.
Qed.

(** ** Blanks and breaks *)
Definition stops (rest : text) : Prop :=
  let y := nth 0 rest 0%N in y <> 32%N /\ y <> 9%N /\ y <> 10%N /\ y <> 13%N.
Lemma blanks_stop fuel indent lb ws b t pre rest m l s : stops rest ->
  flow_blanks (S fuel) indent lb ws b t (cur pre rest m l s) = (cur pre rest m l s, Ok (lb, ws, b, t)).
Proof.
  intros (A & B & C & D). cbn [flow_blanks]. unfold bind. rewrite e_peek, e_get_mark.
  replace (is_blank (nth 0 rest 0%N) || is_break (nth 0 rest 0%N)) with false by (unfold is_blank, is_break; lia).
  reflexivity.
Qed.
Lemma blanks_keep indent : forall bs fuel ws lb tb pre rest m l s,
  Forall blank bs -> List.length bs <= fuel ->
  flow_blanks fuel indent false ws lb tb (cur pre (bs ++ rest) m l s)
  = flow_blanks (fuel - List.length bs) indent false (ws ++ bs) lb tb (cur (pre ++ bs) rest (mark_add (List.length bs) m) l s).
Proof.
  induction bs as [|b bs IH]; intros fuel ws lb tb pre rest m l s FB F.
  - cbn [List.length app]. now rewrite mark_add_0, Nat.sub_0_r, !app_nil_r.
  - destruct fuel as [|fuel]; [cbn in F; lia|]. apply Forall_cons_iff in FB. destruct FB as [HB FB]. cbn [List.length] in *.
    cbn [flow_blanks app]. unfold bind. rewrite e_peek, e_get_mark. cbn [nth].
    replace (is_blank b) with true by (unfold blank in HB; unfold is_blank; lia). cbn [orb].
    rewrite e_peek_or_space, e_skip_blank. rewrite IH by (auto; lia). rewrite mark_add_add, <- !app_assoc. reflexivity.
Qed.
Lemma blanks_drop indent ws lb tb : forall k fuel pre rest m l s, k <= fuel ->
  flow_blanks fuel indent true ws lb tb (cur pre (repeat 32%N k ++ rest) m l s)
  = flow_blanks (fuel - k) indent true ws lb tb (cur (pre ++ repeat 32%N k) rest (mark_add k m) l s).
Proof.
  induction k as [|k IH]; intros fuel pre rest m l s F.
  - cbn [repeat app]. now rewrite mark_add_0, Nat.sub_0_r, app_nil_r.
  - destruct fuel as [|fuel]; [lia|]. cbn [flow_blanks repeat app]. unfold bind. rewrite e_peek, e_get_mark. cbn [nth].
    change (is_blank 32) with true. cbn [orb]. change ((32 =? 9)%N) with false. cbn [andb].
    rewrite e_skip_blank. rewrite IH by lia. rewrite mark_add_add, <- app_assoc. reflexivity.
Qed.
Lemma break_first fuel indent ws lb tb pre rest m l s :
  flow_blanks (S fuel) indent false ws lb tb (cur pre (10%N :: rest) m l s)
  = flow_blanks fuel indent true [] (lb ++ [10%N]) tb (cur (pre ++ [10%N]) rest (mark_newline 1 m) true s).
Proof.
  cbn [flow_blanks]. unfold bind. rewrite e_peek, e_get_mark. cbn [nth].
  change (is_blank 10) with false. change (is_break 10) with true. cbn [orb]. unfold read_break, bind. rewrite e_skip_lf. reflexivity.
Qed.
Lemma break_again fuel indent ws lb tb pre rest m l s :
  flow_blanks (S fuel) indent true ws lb tb (cur pre (10%N :: rest) m l s)
  = flow_blanks fuel indent true ws lb (tb ++ [10%N]) (cur (pre ++ [10%N]) rest (mark_newline 1 m) true s).
Proof.
  cbn [flow_blanks]. unfold bind. rewrite e_peek, e_get_mark. cbn [nth].
  change (is_blank 10) with false. change (is_break 10) with true. cbn [orb]. unfold read_break, bind. rewrite e_skip_lf. reflexivity.
Qed.
Definition empty_lines (e : list nat) : text := flat_map (fun n => repeat 32%N n ++ [10%N]) e.
Lemma no_lf_spaces k : ~ In 10%N (repeat 32%N k).
Proof. intros H. apply repeat_spec in H. discriminate. Qed.
Lemma breaks_empty indent ws lb : forall e fuel tb pre rest m s, List.length (empty_lines e) <= fuel ->
  flow_blanks fuel indent true ws lb tb (cur pre (empty_lines e ++ rest) m true s)
  = flow_blanks (fuel - List.length (empty_lines e)) indent true ws lb (tb ++ repeat 10%N (List.length e))
      (cur (pre ++ empty_lines e) rest (marker_after (empty_lines e) m) true s).
Proof.
  induction e as [|n e IH]; intros fuel tb pre rest m s F.
  - cbn [empty_lines flat_map app List.length repeat marker_after]. now rewrite !app_nil_r, Nat.sub_0_r.
  - cbn [empty_lines flat_map] in *. fold (empty_lines e) in *. rewrite !app_length, repeat_length in *. cbn [List.length] in *.
    rewrite <- !app_assoc. rewrite blanks_drop by lia. cbn [app].
    replace (fuel - n) with (S (fuel - n - 1)) by lia. rewrite break_again. rewrite IH by lia.
    rewrite !marker_after_app, (marker_flat (repeat 32%N n)) by apply no_lf_spaces. rewrite repeat_length.
    cbn [repeat]. rewrite <- !app_assoc. cbn [app]. rewrite marker_lf.
    replace (fuel - n - 1 - List.length (empty_lines e)) with (fuel - (n + 1 + List.length (empty_lines e))) by lia.
    reflexivity.
Qed.
Lemma gap_break indent tr e i fuel pre rest m l s : Forall blank tr -> stops rest ->
  List.length (gap_written (Break tr e i)) < fuel ->
  flow_blanks fuel indent false [] [] [] (cur pre (gap_written (Break tr e i) ++ rest) m l s)
  = (cur (pre ++ gap_written (Break tr e i)) rest (marker_after (gap_written (Break tr e i)) m) true s,
     Ok (true, [], [10%N], repeat 10%N (List.length e))).
Proof.
  intros FB ST F. cbn [gap_written] in *. fold (empty_lines e) in *. rewrite !app_length, repeat_length in F. cbn [List.length] in F.
  rewrite <- !app_assoc. rewrite blanks_keep by (auto; lia). cbn [app].
  replace (fuel - List.length tr) with (S (fuel - List.length tr - 1)) by lia. rewrite break_first.
  rewrite breaks_empty by lia. rewrite blanks_drop by lia.
  match goal with |- flow_blanks ?f _ _ _ _ _ _ = _ => replace f with (S (f - 1)) by lia end.
  rewrite blanks_stop by exact ST. cbn [app].
  rewrite !marker_after_app. rewrite (marker_flat tr).
  2: { intros H. rewrite Forall_forall in FB. specialize (FB _ H). unfold blank in FB. lia. }
  rewrite marker_lf, marker_after_app. rewrite (marker_flat (repeat 32%N i)) by apply no_lf_spaces. rewrite repeat_length.
  rewrite <- !app_assoc. reflexivity.
Qed.

(** ** The loop *)
Definition word_byte (single : bool) (enc : N -> text) (b : N) : Prop :=
  reads_byte single enc b /\ enc b <> [] /\ stops (enc b) /\ ~ In 10%N (enc b).
Lemma word_written_length single enc w : Forall (word_byte single enc) w -> List.length w <= List.length (flat_map enc w).
Proof.
  induction 1 as [|b w (_ & N & _) F IH]; cbn [flat_map List.length]; [lia|]. rewrite app_length.
  destruct (enc b); [congruence|cbn [List.length]; lia].
Qed.
Lemma word_flat single enc w : Forall (word_byte single enc) w -> ~ In 10%N (flat_map enc w).
Proof.
  induction 1 as [|b w (_ & _ & _ & N) F IH]; cbn [flat_map]; [easy|]. intros H. apply in_app_or in H. tauto.
Qed.
Lemma word_stops single enc w q rest : Forall (word_byte single enc) w -> w = [] -> stops (q :: rest) ->
  stops (flat_map enc w ++ q :: rest).
Proof. intros _ -> H. exact H. Qed.
Lemma word_stops_cons single enc w rest : Forall (word_byte single enc) w -> w <> [] -> stops (flat_map enc w ++ rest).
Proof.
  intros F N. destruct F as [|b w (_ & E & S & _) F]; [congruence|]. cbn [flat_map]. rewrite <- app_assoc.
  destruct (enc b) as [|y ys]; [congruence|]. exact S.
Qed.
Lemma indicator_is pre rest m l s :
  next_is_document_indicator str_ops (c_src (cur pre rest m l s)) = true -> forall q, ~ In q [45; 46; 32; 9; 10; 13; 0]%N ->
  forall r, rest = r -> forall a b, r = a ++ q :: b -> doc_mark (a ++ [q]).
Proof.
  intros H q Q r E a b R. subst r. unfold next_is_document_indicator, next_is_three in H. rewrite !cur_peek in H. subst rest.
  unfold doc_mark.
  assert (X : exists c r, a = c :: c :: c :: r /\ (c = 45 \/ c = 46)%N /\ (r = [] -> is_blank_or_breakz q = true) /\
              (forall y r', r = y :: r' -> is_blank_or_breakz y = true)).
  { destruct a as [|a0 [|a1 [|a2 [|a3 a]]]]; cbn [app nth] in H.
    - exfalso. apply Q. cbn [In]. lia.
    - exfalso. apply Q. cbn [In]. lia.
    - exfalso. apply Q. cbn [In]. lia.
    - exists a0, []. split; [repeat f_equal; lia|]. split; [lia|]. split; [intros _; lia|discriminate].
    - exists a0, (a3 :: a). split; [repeat f_equal; lia|]. split; [lia|]. split; [discriminate|].
      intros y r' [= <- _]. lia. }
  destruct X as (c & r & -> & C & N & Y). exists (r ++ [q]). split.
  - destruct C as [->| ->]; [left|right]; reflexivity.
  - destruct r as [|y r]; cbn [app].
    + specialize (N eq_refl). unfold is_blank_or_breakz, is_blank, is_break in N. cbn [In]. lia.
    + specialize (Y y r eq_refl). unfold is_blank_or_breakz, is_blank, is_break in Y. cbn [In]. lia.
Qed.
Lemma quote_not q single : q = quote single -> ~ In q [45; 46; 32; 9; 10; 13; 0]%N.
Proof. intros ->. destruct single; cbn; lia. Qed.
Lemma quote_stops single rest : stops (quote single :: rest).
Proof. destruct single; repeat split; discriminate. Qed.
Lemma gap_length g enc q indent w r : words_fit enc q indent ((g, w) :: r) -> 0 < List.length (gap_written g).
Proof.
  intros [G _]. destruct g as [bs|tr e i]; cbn [gap_written].
  - destruct G as [G _]. destruct bs; [congruence|cbn; lia].
  - rewrite !app_length. cbn [List.length]. lia.
Qed.

Lemma col_break tr e i m : m_col (marker_after (gap_written (Break tr e i)) m) = (1 + N.of_nat i)%N.
Proof.
  cbn [gap_written]. fold (empty_lines e).
  assert (X : forall e, exists m', marker_after (tr ++ [10%N] ++ empty_lines e) m = m' /\ m_col m' = 1%N).
  { clear e i. intros e. eexists. split; [reflexivity|]. rewrite app_assoc, marker_after_app.
    assert (Y : m_col (marker_after (tr ++ [10%N]) m) = 1%N) by (now rewrite marker_after_app).
    revert Y. generalize (marker_after (tr ++ [10%N]) m). induction e as [|n e IH]; intros m0 Y; [exact Y|].
    cbn [empty_lines flat_map]. fold (empty_lines e). rewrite marker_after_app. apply IH. now rewrite marker_after_app. }
  destruct (X e) as (m' & E & C). rewrite !app_assoc. rewrite marker_after_app. rewrite <- app_assoc. rewrite E.
  rewrite marker_flat by apply no_lf_spaces. rewrite repeat_length. unfold mark_add. cbn [Base.m_col]. lia.
Qed.

Lemma flow_words single enc indent start (rest : text) :
  (single = true -> nth 0 rest 0%N <> 39%N) ->
  forall ws w fuel string pre m l s,
  Forall (word_byte single enc) w -> Forall (fun x => Forall (word_byte single enc) (snd x)) ws ->
  words_fit enc (quote single) indent ws ->
  List.length (flat_map enc w ++ words_written enc ws) + 1 < fuel ->
  (1 <= m_col m)%N -> (indent <= m_col m)%N ->
  (m_col m = 1%N -> ~ doc_mark (flat_map enc w ++ words_written enc ws ++ [quote single])) ->
  exists l', flow_loop fuel single indent start string [] [] []
    (cur pre (flat_map enc w ++ words_written enc ws ++ quote single :: rest) m l s)
  = (cur (pre ++ flat_map enc w ++ words_written enc ws) (quote single :: rest)
       (marker_after (flat_map enc w ++ words_written enc ws) m) l' s, Ok (string ++ w ++ words_read ws)).
Proof.
  intros QR. induction ws as [|[g w'] ws IH]; intros w fuel string pre m l s FW FWS FIT F C1 CI CD.
  - cbn [words_written words_read app] in *. rewrite !app_nil_r in *.
    destruct fuel as [|fuel]; [lia|]. cbn [flow_loop]. unfold bind at 1 2 3.
    rewrite e_get_mark. unfold gets at 1. rewrite e_peek_checked.
    assert (IND : ((m_col m =? 1)%N && next_is_document_indicator str_ops (c_src (cur pre (flat_map enc w ++ quote single :: rest) m l s))) = false).
    { destruct (N.eqb_spec (m_col m) 1) as [C|C]; [|reflexivity]. cbn [andb]. specialize (CD C).
      destruct (next_is_document_indicator str_ops (c_src (cur pre (flat_map enc w ++ quote single :: rest) m l s))) eqn:E; [|reflexivity].
      exfalso. apply CD. refine (indicator_is _ _ _ _ _ E (quote single) (quote_not _ single eq_refl) _ eq_refl _ rest eq_refl). }
    cbn [app] in IND. rewrite IND.
    assert (NE : exists x, nth_error (flat_map enc w ++ quote single :: rest) 0 = Some x)
      by (destruct (flat_map enc w); cbn; eauto).
    destruct NE as [x ->]. clear x.
    replace ((m_col m <? indent)%N) with false by lia.
    pose proof (word_written_length single enc w FW).
    destruct (consume_word_any single enc start w fuel string pre (quote single :: rest) m l s) as [l' H'].
    { eapply Forall_impl; [|exact FW]. now intros b [X _]. }
    { left. right. cbn [nth]. auto. }
    { lia. }
    exists l'. unfold bind at 1. rewrite H'. unfold bind at 1. rewrite e_peek. cbn [nth].
    rewrite (marker_flat _ _ (word_flat single enc w FW)).
    destruct single; reflexivity.
  - inversion_clear FWS as [|? ? FW' FWS']. cbn [snd] in FW'.
    pose proof (gap_length _ _ _ _ _ _ FIT) as GL. destruct FIT as (FG & NE' & FIT').
    cbn [words_written words_read] in *. rewrite !app_length in F.
    destruct fuel as [|fuel]; [lia|]. cbn [flow_loop]. unfold bind at 1 2 3.
    rewrite e_get_mark. unfold gets at 1. rewrite e_peek_checked.
    set (tail := words_written enc ws ++ quote single :: rest).
    assert (TXT : flat_map enc w ++ (gap_written g ++ flat_map enc w' ++ words_written enc ws) ++ quote single :: rest
                  = flat_map enc w ++ gap_written g ++ flat_map enc w' ++ tail) by (unfold tail; now rewrite <- !app_assoc).
    rewrite TXT.
    assert (IND : ((m_col m =? 1)%N && next_is_document_indicator str_ops (c_src (cur pre (flat_map enc w ++ gap_written g ++ flat_map enc w' ++ tail) m l s))) = false).
    { destruct (N.eqb_spec (m_col m) 1) as [C|C]; [|reflexivity]. cbn [andb]. specialize (CD C).
      destruct (next_is_document_indicator _ _) eqn:E; [|reflexivity].
      exfalso. apply CD. rewrite app_assoc.
      refine (indicator_is _ _ _ _ _ E (quote single) (quote_not _ single eq_refl) _ eq_refl _ rest _).
      unfold tail. now rewrite <- !app_assoc. }
    rewrite IND.
    assert (GNE : exists y ys, gap_written g = y :: ys) by (destruct (gap_written g); [cbn in GL; lia|eauto]).
    assert (NE : exists x, nth_error (flat_map enc w ++ gap_written g ++ flat_map enc w' ++ tail) 0 = Some x).
    { destruct GNE as (y & ys & ->). destruct (flat_map enc w); cbn; eauto. }
    destruct NE as [x ->]. clear x.
    replace ((m_col m <? indent)%N) with false by lia.
    pose proof (word_written_length single enc w FW).
    assert (Y : let y := nth 0 (gap_written g ++ flat_map enc w' ++ tail) 0%N in blank_byte y \/ y = 10%N).
    { cbv zeta. destruct g as [bs|tr e i].
      - destruct FG as [N B]. destruct B as [|b bs B _]; [congruence|]. left. exact B.
      - destruct FG as [B _]. destruct B as [|b tr B _]; [right; reflexivity|]. left. exact B. }
    cbv zeta in Y.
    destruct (consume_word_any single enc start w fuel string pre (gap_written g ++ flat_map enc w' ++ tail) m l s) as [l1 H1].
    { eapply Forall_impl; [|exact FW]. now intros b [X _]. }
    { destruct Y as [Y|Y]; [left; left; exact Y|right; exact Y]. }
    { lia. }
    unfold bind at 1. rewrite H1. unfold bind at 1. rewrite e_peek.
    match goal with |- context [if ?b then ret _ else _] => replace b with false by (unfold blank_byte in Y; lia) end.
    assert (ST : stops (flat_map enc w' ++ tail)).
    { destruct w' as [|b w'].
      - unfold tail. destruct ws as [|x ws]; [|exfalso; now apply NE'].
        cbn [words_written app flat_map]. apply quote_stops.
      - apply (word_stops_cons single); [exact FW'|discriminate]. }
    rewrite (marker_after_app (flat_map enc w)), (marker_flat _ _ (word_flat single enc w FW)).
    set (m1 := mark_add (List.length (flat_map enc w)) m) in *.
    rewrite (marker_after_app (gap_written g)).
    destruct g as [bs|tr e i].
    + destruct FG as [N B]. cbn [gap_written] in *. unfold bind at 1.
      rewrite blanks_keep by (auto; lia).
      replace (fuel - List.length bs) with (S (fuel - List.length bs - 1)) by lia.
      rewrite blanks_stop by exact ST. cbn [app].
      destruct (IH w' fuel ((string ++ w) ++ bs) ((pre ++ flat_map enc w) ++ bs) (mark_add (List.length bs) m1) l1 s) as [l' H2]; auto.
      { rewrite app_length. lia. }
      { unfold m1, mark_add. cbn [Base.m_col]. lia. }
      { unfold m1, mark_add. cbn [Base.m_col]. lia. }
      { intros C. exfalso. revert C. unfold m1, mark_add. cbn [Base.m_col]. lia. }
      exists l'. fold tail in H2. rewrite H2. rewrite (marker_flat bs).
      2: { intros X. rewrite Forall_forall in B. specialize (B _ X). unfold blank in B. lia. }
      cbn [gap_read]. rewrite <- !app_assoc. reflexivity.
    + destruct FG as (B & CI' & CD'). unfold bind at 1.
      rewrite gap_break by (auto; cbn [gap_written] in *; lia).
      destruct (IH w' fuel ((string ++ w) ++ match repeat 10%N (List.length e) with [] => [32%N] | _ => repeat 10%N (List.length e) end)
                  ((pre ++ flat_map enc w) ++ gap_written (Break tr e i)) (marker_after (gap_written (Break tr e i)) m1) true s) as [l' H2]; auto.
      { rewrite app_length. lia. }
      { rewrite col_break. lia. }
      { rewrite col_break. lia. }
      { rewrite col_break. intros C. apply CD'. lia. }
      exists l'. fold tail in H2. cbv beta iota. 
      match type of H2 with ?a = _ => match goal with |- ?b = _ => change b with a end end. rewrite H2.
      replace (gap_read (Break tr e i)) with (match repeat 10%N (List.length e) with [] => [32%N] | _ => repeat 10%N (List.length e) end) by (now destruct e).
      rewrite <- !app_assoc. reflexivity.
Qed.

(** ** The scalar *)
(** What may follow a quoted scalar of several lines. *)
Definition ends_lines (in_flow : bool) (rest : text) : bool :=
  let c := nth 0 rest 0%N in
  (((c =? 44)%N || (c =? 125)%N || (c =? 93)%N || (c =? 58)%N) && in_flow) || is_breakz c.
Lemma scan_words single enc indent in_flow (rest : text) :
  ends_lines in_flow rest = true ->
  forall w ws fuel pre m l s,
  Forall (word_byte single enc) w -> Forall (fun x => Forall (word_byte single enc) (snd x)) ws ->
  words_fit enc (quote single) indent ws ->
  List.length (flat_map enc w ++ words_written enc ws) + 1 < fuel ->
  (0 < m_col m)%N -> (indent <= m_col m + 1)%N ->
  let q := quote single :: (flat_map enc w ++ words_written enc ws) ++ [quote single] in
  let m' := marker_after q m in
  scan_flow_scalar fuel single indent in_flow (cur pre (q ++ rest) m l s)
  = (cur (pre ++ q) rest m' false s,
     Ok (Token (Span m m') (TScalar (if single then SingleQuote else DoubleQuote) (w ++ words_read ws)))).
Proof.
  intros ER w ws fuel pre m l s FW FWS FIT F C1 CI q m'.
  unfold scan_flow_scalar. unfold bind at 1. rewrite e_get_mark.
  unfold q. cbn [app]. rewrite <- !app_assoc. cbn [app].
  unfold bind at 1. rewrite e_skip_non_blank.
  unfold bind at 1.
  assert (QR : single = true -> nth 0 rest 0%N <> 39%N).
  { intros _ E. unfold ends_lines in ER. rewrite E in ER. destruct in_flow; discriminate. }
  destruct (flow_words single enc indent m rest QR ws w fuel [] (pre ++ [quote single]) (mark_add 1 m) false s) as [l' H]; auto.
  { unfold mark_add. cbn [Base.m_col]. lia. }
  { intros C. exfalso. revert C. unfold mark_add. cbn [Base.m_col]. lia. }
  rewrite H. cbn [app]. unfold bind at 1. rewrite e_skip_non_blank.
  unfold bind at 1. destruct fuel as [|fuel]; [lia|].
  rewrite e_ws_stop by (unfold ends_lines, is_breakz in ER; destruct in_flow; lia).
  unfold bind. rewrite e_peek, e_get_mark.
  assert (QN : quote single <> 10%N) by (destruct single; discriminate).
  assert (EL : mark_add 1 (marker_after (flat_map enc w ++ words_written enc ws) (mark_add 1 m)) = m').
  { unfold m', q. rewrite marker_step by exact QN. rewrite (marker_after_app (flat_map enc w ++ words_written enc ws) [quote single]). symmetry. apply (marker_step (quote single) [] _ QN). }
  rewrite EL.
  match goal with |- (if ?b then _ else _) _ = _ => assert (BT : b = true) end.
  { revert ER. unfold ends_lines. destruct in_flow; cbn [negb]; lia. }
  rewrite BT. unfold ret. rewrite <- !app_assoc. reflexivity.
Qed.

(** ** The two ways of writing words *)
Lemma double_word_byte b : ~ In b [34; 92; 32; 9; 10; 13; 0]%N -> word_byte false as_is b.
Proof.
  intros N. cbn [In] in N. unfold word_byte, as_is, stops. cbn [nth]. split; [|split; [discriminate|split; [lia|cbn [In]; lia]]].
  intros fuel start string pre rest m l s. cbn [app consume_chars]. unfold bind. rewrite !e_peek. cbn [nth].
  replace (is_blank_or_breakz b) with false by (unfold is_blank_or_breakz, is_blank, is_break; lia).
  rewrite !andb_false_r. cbn [negb]. replace ((b =? 34)%N) with false by lia. replace ((b =? 92)%N) with false by lia. cbn [andb].
  now rewrite e_skip_non_blank.
Qed.
Lemma single_word_byte b : ~ In b [32; 9; 10; 13; 0]%N -> word_byte true quote_doubled b.
Proof.
  intros N. cbn [In] in N. destruct (single_good b) as [[B _]|(R & E & S)]; try lia.
  { unfold blank_byte in B. lia. }
  split; [exact R|]. split; [exact E|]. split; [exact S|]. unfold quote_doubled. destruct (N.eqb_spec b 39); cbn [In]; lia.
Qed.

(** ** As stated *)
Lemma lines_end f after : may_follow_lines f after -> ends_lines f after = true.
Proof.
  destruct after as [|c r]; [destruct f; reflexivity|]. unfold may_follow_lines, ends_lines. cbn [nth In].
  change (str ",}]:") with [44; 125; 93; 58]%N. cbn [In]. unfold is_breakz, is_break. destruct f; intuition (subst; try reflexivity; discriminate).
Qed.
Lemma folded_quotes (single : bool) enc (w : text) ws (before after : text) in_flow indent m lead ska fuel :
  Forall (word_byte single enc) w -> Forall (fun x => Forall (word_byte single enc) (snd x)) ws ->
  words_fit enc (quote single) indent ws ->
  may_follow_lines in_flow after -> (0 < m_col m)%N -> (indent <= m_col m + 1)%N ->
  let written := in_quotes enc (quote single) w ws in
  List.length written < fuel ->
  let doc := before ++ written ++ after in
  let m' := marker_after written m in
  scan_flow_scalar fuel single indent in_flow (Cur (StrSrc doc (List.length before)) m lead ska)
  = (Cur (StrSrc doc (List.length before + List.length written)) m' false ska,
     Ok (Token (Span m m') (TScalar (if single then SingleQuote else DoubleQuote) (w ++ words_read ws)))).
Proof.
  intros FW FWS FIT A C I written F doc m'.
  assert (W : written = quote single :: (flat_map enc w ++ words_written enc ws) ++ [quote single]).
  { unfold written, in_quotes. now rewrite app_assoc. }
  assert (F' : List.length (flat_map enc w ++ words_written enc ws) + 1 < fuel).
  { rewrite W in F. cbn [List.length] in F. rewrite app_length in F. cbn [List.length] in F. lia. }
  pose proof (scan_words single enc indent in_flow after (lines_end _ _ A) w ws fuel before m lead ska FW FWS FIT F' C I) as H.
  cbv zeta in H. rewrite <- W in H. unfold cur in H. rewrite app_length, <- app_assoc in H. exact H.
Qed.
Lemma folded_double (w : text) ws (before after : text) in_flow indent m lead ska fuel :
  double_word w -> Forall (fun x => double_word (snd x)) ws -> words_fit as_is 34%N indent ws ->
  may_follow_lines in_flow after -> (0 < m_col m)%N -> (indent <= m_col m + 1)%N ->
  let written := in_quotes as_is 34%N w ws in
  List.length written < fuel ->
  let doc := before ++ written ++ after in
  let m' := marker_after written m in
  scan_flow_scalar fuel false indent in_flow (Cur (StrSrc doc (List.length before)) m lead ska)
  = (Cur (StrSrc doc (List.length before + List.length written)) m' false ska,
     Ok (Token (Span m m') (TScalar DoubleQuote (w ++ words_read ws)))).
Proof.
  intros FW FWS FIT. apply (folded_quotes false as_is w ws before after in_flow indent m lead ska fuel); [| |exact FIT].
  - revert FW. apply Forall_impl. exact double_word_byte.
  - revert FWS. apply Forall_impl. intros x. apply Forall_impl. exact double_word_byte.
Qed.
Lemma folded_single (w : text) ws (before after : text) in_flow indent m lead ska fuel :
  single_word w -> Forall (fun x => single_word (snd x)) ws -> words_fit quote_doubled 39%N indent ws ->
  may_follow_lines in_flow after -> (0 < m_col m)%N -> (indent <= m_col m + 1)%N ->
  let written := in_quotes quote_doubled 39%N w ws in
  List.length written < fuel ->
  let doc := before ++ written ++ after in
  let m' := marker_after written m in
  scan_flow_scalar fuel true indent in_flow (Cur (StrSrc doc (List.length before)) m lead ska)
  = (Cur (StrSrc doc (List.length before + List.length written)) m' false ska,
     Ok (Token (Span m m') (TScalar SingleQuote (w ++ words_read ws)))).
Proof.
  intros FW FWS FIT. apply (folded_quotes true quote_doubled w ws before after in_flow indent m lead ska fuel); [| |exact FIT].
  - revert FW. apply Forall_impl. exact single_word_byte.
  - revert FWS. apply Forall_impl. intros x. apply Forall_impl. exact single_word_byte.
Qed.
