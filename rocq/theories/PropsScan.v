(** The scanner over anchors, aliases, tags and directives. *)
From Verif Require Import Base Tokens Scalar Chars Source Cursor SpecScalar SpecJson SpecBlock SpecPlain SpecStream SpecFlow SpecQuoted
  ExactCursor JsonCursor FoldedQuotes ExactPlain BlockScan PlainScan SpecLayout LayoutCursor StringScan SpecProps.
From Verif Require ParserProofs.
From Coq Require Import String Lia ZifyBool ZifyNat ZifyN.
Local Open Scope list_scope.
Local Open Scope m_scope.

(** ** Character classes *)
Lemma anchor_char b : anchor_byte b -> is_anchor_char b = true.
Proof. unfold anchor_byte. cbn [white_or_end flow_signs str map list_ascii_of_string app In]. cbn. intros H. unfold is_anchor_char, is_yaml_non_space, is_blank, is_break, is_flow. lia. Qed.
Lemma anchor_end b : ~ anchor_byte b -> is_anchor_char b = false.
Proof.
  intros H. destruct (is_anchor_char b) eqn:E; [|reflexivity]. exfalso. apply H. unfold anchor_byte. cbn. unfold is_anchor_char, is_yaml_non_space, is_blank, is_break, is_flow in E. lia.
Qed.
Lemma alpha_word b : word_byte b -> is_alpha b = true.
Proof. unfold word_byte, is_alpha, is_ascii_alphanumeric, is_ascii_digit. lia. Qed.
Lemma uri_char b : uri_byte b -> is_uri_char b = true /\ b <> 37%N.
Proof.
  intros [H|H].
  - split; [|unfold word_byte in H; lia]. unfold is_uri_char, is_word_char, is_ascii_alphanumeric, is_ascii_digit. unfold word_byte in H. apply orb_true_iff. left. lia.
  - vm_compute in H. split; [|intuition subst; discriminate]. unfold is_uri_char. apply orb_true_iff. right. intuition subst; reflexivity.
Qed.
Lemma tag_char b : tag_byte b -> is_tag_char b = true /\ b <> 37%N.
Proof.
  intros [H N]. destruct (uri_char b H) as [U P]. split; [|exact P]. unfold is_tag_char. rewrite U. cbn in N. unfold is_flow. cbn [andb]. lia.
Qed.
Lemma stop_tag in_flow after : tag_stop in_flow after -> is_tag_char (nth 0 after 0%N) = false /\
  (is_blank_or_breakz (nth 0 after 0%N) || (in_flow && is_flow (nth 0 after 0%N)) = true).
Proof.
  unfold tag_stop. generalize (nth 0 after 0%N). intros b [H|[-> H]]; vm_compute in H; intuition (subst; reflexivity).
Qed.

(** ** Runs *)
Lemma e_run_while p a fuel pre rest m l s : Forall (fun b => p b = true) a -> p (nth 0 rest 0%N) = false -> List.length a < fuel ->
  run_while p fuel (cur pre (a ++ rest) m l s) = (cur (pre ++ a) rest (mark_add (List.length a) m) l s, Ok a).
Proof.
  intros A B F. unfold run_while. change (c_src (cur pre (a ++ rest) m l s)) with (StrSrc (pre ++ a ++ rest) (List.length pre)).
  rewrite e_take_while by assumption. reflexivity.
Qed.
Lemma e_anchor_chars n : forall fuel string pre rest m l s, Forall anchor_byte n -> ~ anchor_byte (nth 0 rest 0%N) -> List.length n < fuel ->
  n <> [] \/ l = false ->
  anchor_chars fuel string (cur pre (n ++ rest) m l s) = (cur (pre ++ n) rest (mark_add (List.length n) m) false s, Ok (string ++ n)).
Proof.
  induction n as [|b n IH]; intros [|fuel] string pre rest m l s A B F L; cbn [List.length] in F; try lia; cbn [anchor_chars app]; unfold bind at 1; rewrite e_peek.
  - rewrite (anchor_end _ B). destruct L as [L| ->]; [congruence|]. rewrite !app_nil_r, mark_add_0. reflexivity.
  - cbn [nth]. inversion_clear A as [|? ? A1 A2]. rewrite (anchor_char _ A1). unfold bind at 1. rewrite e_skip_non_blank, IH by (auto; lia).
    rewrite mark_add_add, <- !app_assoc. reflexivity.
Qed.
(** An anchor or an alias. *)
Theorem e_scan_anchor alias sign n fuel pre after m l s : anchor_name n -> ~ anchor_byte (nth 0 after 0%N) -> List.length n < fuel ->
  let m' := mark_add (1 + List.length n) m in
  scan_anchor fuel alias (cur pre (sign :: n ++ after) m l s)
  = (cur (pre ++ sign :: n) after m' false s, Ok (Token (Span m m') (if alias then TAlias n else TAnchor n))).
Proof.
  intros [NE A] B F m'. unfold scan_anchor. unfold bind at 1. rewrite e_get_mark. unfold bind at 1. rewrite e_skip_non_blank. unfold bind at 1.
  rewrite e_anchor_chars by auto. unfold bind at 1. rewrite e_get_mark. cbn [app]. destruct n as [|b n]; [congruence|].
  rewrite mark_add_add, cur_app. reflexivity.
Qed.

(** ** Addresses *)
Lemma percent_char b w : (b < 128)%N -> percent b w -> forall mark fuel pre rest m l s, 1 < fuel ->
  scan_uri_escapes fuel mark (cur pre (w ++ rest) m l s) = (cur (pre ++ w) rest (mark_add (List.length w) m) false s, Ok [b]).
Proof.
  intros B (h & -> & L & FH & NV) mark fuel pre rest m l s F.
  destruct h as [|h1 [|h2 [|h3 h]]]; try discriminate L. inversion_clear FH as [|? ? F1 F']. inversion_clear F' as [|? ? F2 _].
  destruct (hex_digit_val h1 F1) as (X1 & Y1 & Z1). destruct (hex_digit_val h2 F2) as (X2 & Y2 & Z2).
  assert (V : (digit_val h1 * 16 + digit_val h2)%N = b) by (unfold number in NV; cbn in NV; lia).
  destruct fuel as [|fuel]; [lia|]. unfold scan_uri_escapes. unfold bind at 1. cbn [uri_loop]. unfold bind at 1. rewrite e_peek. unfold bind at 1. rewrite e_peek. unfold bind at 1. rewrite e_peek. cbn [app nth].
  rewrite X1, X2. change ((37 =? 37)%N) with true. cbn [andb negb]. unfold bind at 1. unfold hex2. rewrite Y1, Y2, V. unfold ret at 1.
  assert (W : uri_width b = Some 1).
  { unfold uri_width. replace (N.land b 128 =? 0)%N with true; [reflexivity|]. symmetry. apply N.eqb_eq. apply N.bits_inj. intros i. rewrite N.land_spec, N.bits_0.
    change 128%N with (2 ^ 7)%N. rewrite N.pow2_bits_eqb. destruct (N.eqb_spec 7 i) as [<-|]; [|apply andb_false_r]. rewrite andb_true_r.
    destruct (N.eq_dec b 0) as [->|NZ]; [apply N.bits_0|]. apply N.bits_above_log2. apply N.log2_lt_pow2; [lia|]. exact B. }
  unfold bind at 1. rewrite W. unfold ret at 1. unfold bind at 1. change (37%N :: h1 :: h2 :: rest) with ([37%N; h1; h2] ++ rest). rewrite e_skip_n by reflexivity.
  unfold ret at 1. unfold char_from_u32. replace (b <? 55296)%N with true by lia. cbn [orb]. unfold utf8. replace (b <? 128)%N with true by lia. reflexivity.
Qed.
(** One piece of an address. *)
Lemma escape_piece c u ws : utf8_of c u -> (c < 128)%N -> Forall2 percent u ws -> u = [c] /\ exists w, ws = [w] /\ percent c w.
Proof.
  intros U C F. assert (E : u = [c]).
  { inversion U; subst; try lia. reflexivity. }
  split; [exact E|]. subst u. inversion F as [|? w ? ? P F' ]; subst. inversion F'; subst. eauto.
Qed.
Lemma percent_first b w : percent b w -> exists r, w = 37%N :: r /\ List.length w = 3.
Proof. intros (h & -> & L & _). exists h. split; [reflexivity|]. cbn [List.length]. now rewrite L. Qed.
Lemma e_suffix_chars w v : uri_text false tag_byte w v -> forall fuel mark string len pre rest m s, is_tag_char (nth 0 rest 0%N) = false -> List.length w + 1 < fuel ->
  exists len', suffix_chars fuel mark string len (cur pre (w ++ rest) m false s) = (cur (pre ++ w) rest (mark_add (List.length w) m) false s, Ok (string ++ v, len')) /\
    (0 < len + List.length w -> 0 < len').
Proof.
  induction 1 as [|b w v HB U IH|c u ws w v HU HC HF U IH]; intros fuel mark string len pre rest m s R F.
  - destruct fuel as [|fuel]; [cbn in F; lia|]. cbn [suffix_chars app]. unfold bind at 1. rewrite e_peek, R. cbn [List.length]. rewrite mark_add_0, !app_nil_r. exists len. split; [reflexivity|lia].
  - destruct fuel as [|fuel]; [lia|]. cbn [List.length] in F. destruct (tag_char b HB) as [T P].
    destruct (IH fuel mark (string ++ [b]) (len + 1) (pre ++ [b]) rest (mark_add 1 m) s R ltac:(lia)) as (len' & E & Q).
    exists len'. split; [|lia]. cbn [suffix_chars app]. unfold bind at 1. rewrite e_peek. cbn [nth]. rewrite T.
    replace ((b =? 37)%N) with false by lia. unfold bind at 1. unfold bind at 1. rewrite e_peek_or_space. unfold bind at 1. rewrite e_skip_non_blank. unfold ret at 1. rewrite E.
    rewrite mark_add_add, <- !app_assoc. reflexivity.
  - destruct (escape_piece c u ws HU (HC eq_refl) HF) as (-> & x & -> & PX). clear HF. cbn [List.concat] in F |- *. rewrite app_nil_r in F |- *.
    destruct (percent_first c x PX) as (r & EX & LX). rewrite app_length, LX in F. rewrite <- (app_assoc x w).
    assert (E0 : nth 0 (x ++ w ++ rest) 0%N = 37%N) by (rewrite EX; reflexivity). assert (E1 : nth_error (x ++ w ++ rest) 0 = Some 37%N) by (rewrite EX; reflexivity).
    destruct fuel as [|fuel]; [lia|].
    destruct (IH fuel mark (string ++ [c]) (len + 1) (pre ++ x) rest (mark_add 3 m) s R ltac:(lia)) as (len' & E & Q).
    exists len'. split; [|lia]. cbn [suffix_chars]. unfold bind at 1. rewrite e_peek, E0.
    change (is_tag_char 37) with true. change ((37 =? 37)%N) with true. cbv iota. unfold bind at 1. unfold bind at 1.
    rewrite (percent_char c x (HC eq_refl) PX) by lia. unfold ret at 1. rewrite LX, E.
    rewrite mark_add_add, app_length, LX, <- ?app_assoc. reflexivity.
Qed.
Lemma e_uri_chars w v : uri_text false uri_byte w v -> forall fuel mark string pre rest m l s, is_uri_char (nth 0 rest 0%N) = false -> List.length w + 1 < fuel ->
  w <> [] \/ l = false ->
  uri_chars fuel mark string (cur pre (w ++ rest) m l s) = (cur (pre ++ w) rest (mark_add (List.length w) m) false s, Ok (string ++ v)).
Proof.
  induction 1 as [|b w v HB U IH|c u ws w v HU HC HF U IH]; intros fuel mark string pre rest m l s R F L.
  - destruct L as [L| ->]; [congruence|]. destruct fuel as [|fuel]; [cbn in F; lia|]. cbn [uri_chars app]. unfold bind at 1. rewrite e_peek, R. cbn [List.length]. rewrite mark_add_0, !app_nil_r. reflexivity.
  - destruct fuel as [|fuel]; [lia|]. cbn [List.length] in F. destruct (uri_char b HB) as [T P].
    cbn [uri_chars app]. unfold bind at 1. rewrite e_peek. cbn [nth]. rewrite T.
    unfold bind at 1. unfold uri_scans_or_non_blank. unfold bind at 1. rewrite e_peek_checked. cbn [nth_error].
    replace ((b =? 37)%N) with false by lia. unfold bind at 1. rewrite e_skip_non_blank. unfold ret at 1. rewrite IH by (auto; lia).
    rewrite mark_add_add, <- !app_assoc. reflexivity.
  - destruct (escape_piece c u ws HU (HC eq_refl) HF) as (-> & x & -> & PX). clear HF. cbn [List.concat] in F |- *. rewrite app_nil_r in F |- *.
    destruct (percent_first c x PX) as (r & EX & LX). rewrite app_length, LX in F. rewrite <- (app_assoc x w).
    assert (E0 : nth 0 (x ++ w ++ rest) 0%N = 37%N) by (rewrite EX; reflexivity). assert (E1 : nth_error (x ++ w ++ rest) 0 = Some 37%N) by (rewrite EX; reflexivity).
    destruct fuel as [|fuel]; [lia|]. cbn [uri_chars]. unfold bind at 1. rewrite e_peek, E0.
    change (is_uri_char 37) with true. cbv iota. unfold bind at 1. unfold uri_scans_or_non_blank. unfold bind at 1. rewrite e_peek_checked, E1.
    change ((37 =? 37)%N) with true. cbv iota. unfold bind at 1.
    rewrite (percent_char c x (HC eq_refl) PX) by lia. unfold ret at 1. rewrite LX, IH by (auto; lia).
    rewrite mark_add_add, app_length, LX, <- ?app_assoc. reflexivity.
Qed.

(** ** Tags *)
(** A suffix in front of which the scanner has taken [h] for the beginning of a handle. *)
Lemma suffix_split w v : uri_text false tag_byte w v -> exists h w' v', w = h ++ w' /\ v = h ++ v' /\ Forall (fun b => is_alpha b = true) h /\ uri_text false tag_byte w' v' /\
  forall rest, is_alpha (nth 0 rest 0%N) = false -> is_alpha (nth 0 (w' ++ rest) 0%N) = false /\ (nth 0 (w' ++ rest) 0%N = 33%N -> w' = []).
Proof.
  intros H. destruct H as [|b w v HB U|c u ws w v HU HC HF U].
  - exists [], [], []. split; [reflexivity|]. split; [reflexivity|]. split; [constructor|]. split; [constructor|]. intros rest R. auto.
  - revert b HB. induction U as [|b' w v HB' U IH|c u ws w v HU HC HF U _]; intros b HB; (destruct (is_alpha b) eqn:EA; [|
      match goal with |- exists h w' v', ?W = _ /\ ?V = _ /\ _ => exists [], W, V end; split; [reflexivity|]; split; [reflexivity|]; split; [constructor|]; split; [constructor; [exact HB|]; first [constructor; fail|constructor; assumption|eapply ut_escape; eassumption]|];
      intros rest _; cbn [app nth]; split; [exact EA|]; intros ->; destruct HB as [_ HB]; exfalso; apply HB; now left]).
    + exists [b], [], []. split; [reflexivity|]. split; [reflexivity|]. split; [repeat constructor; exact EA|]. split; [constructor|]. intros rest R. auto.
    + destruct (IH b' HB') as (h & w' & v' & -> & -> & FH & U' & X). exists (b :: h), w', v'. split; [reflexivity|]. split; [reflexivity|]. split; [now constructor|]. auto.
    + destruct (escape_piece c u ws HU (HC eq_refl) HF) as (-> & x & -> & PX). destruct (percent_first c x PX) as (r & EX & _).
      exists [b], (List.concat [x] ++ w), ([c] ++ v). split; [reflexivity|]. split; [reflexivity|]. split; [repeat constructor; exact EA|]. split; [eapply ut_escape; eauto|].
      intros rest _. cbn [List.concat]. rewrite EX. cbn [app nth]. split; [reflexivity|discriminate].
  - destruct (escape_piece c u ws HU (HC eq_refl) HF) as (-> & x & -> & PX). destruct (percent_first c x PX) as (r & EX & _).
    exists [], (List.concat [x] ++ w), ([c] ++ v). split; [reflexivity|]. split; [reflexivity|]. split; [constructor|]. split; [eapply ut_escape; eauto|].
    intros rest _. cbn [List.concat]. rewrite EX. cbn [app nth]. split; [reflexivity|discriminate].
Qed.
Lemma e_tag_handle h fuel mark pre rest m l s : Forall (fun b => is_alpha b = true) h -> is_alpha (nth 0 rest 0%N) = false -> nth 0 rest 0%N <> 33%N -> List.length h < fuel ->
  scan_tag_handle fuel false mark (cur pre (33%N :: h ++ rest) m l s) = (cur (pre ++ 33%N :: h) rest (mark_add (1 + List.length h) m) false s, Ok (33%N :: h)).
Proof.
  intros FH R N F. unfold scan_tag_handle. unfold bind at 1. rewrite e_peek. cbn [nth]. change (negb (33 =? 33)%N) with false. cbv iota. unfold bind at 1. rewrite e_skip_non_blank.
  unfold bind at 1. rewrite e_run_while by assumption. cbv zeta. unfold bind at 1. rewrite e_peek. replace ((nth 0 rest 0 =? 33)%N) with false by lia. cbn [andb].
  rewrite mark_add_add, cur_app. reflexivity.
Qed.
Lemma e_named_handle h fuel directive mark pre rest m l s : Forall word_byte h -> List.length h < fuel ->
  scan_tag_handle fuel directive mark (cur pre (33%N :: h ++ 33%N :: rest) m l s) = (cur (pre ++ (33%N :: h) ++ [33%N]) rest (mark_add (2 + List.length h) m) false s, Ok ((33%N :: h) ++ [33%N])).
Proof.
  intros FH F. unfold scan_tag_handle. unfold bind at 1. rewrite e_peek. cbn [nth]. change (negb (33 =? 33)%N) with false. cbv iota. unfold bind at 1. rewrite e_skip_non_blank.
  unfold bind at 1. rewrite e_run_while; [|eapply Forall_impl; [|exact FH]; exact alpha_word|reflexivity|exact F]. cbv zeta. unfold bind at 1. rewrite e_peek. cbn [nth]. change ((33 =? 33)%N) with true. cbv iota.
  unfold bind at 1. rewrite e_skip_non_blank. rewrite !mark_add_add, !cur_app. unfold ret. cbn [app]. repeat (rewrite <- app_assoc; cbn [app]). do 3 f_equal. lia.
Qed.
Lemma ends_bang_snoc l b : ends_bang (l ++ [b]) = (b =? 33)%N.
Proof. unfold ends_bang. rewrite rev_app_distr. reflexivity. Qed.
Lemma alpha_not_bang h : Forall (fun b => is_alpha b = true) h -> (Nat.leb 2 (List.length (33%N :: h)) && starts_bang (33%N :: h)) && ends_bang (33%N :: h) = false.
Proof.
  intros F. destruct (@exists_last _ (33%N :: h)) as (l & b & E); [discriminate|]. rewrite E, ends_bang_snoc. destruct l as [|x l]; [reflexivity|].
  assert (HB : is_alpha b = true).
  { injection E as _ E. rewrite Forall_forall in F. apply F. rewrite E. apply in_or_app. right. now left. }
  replace ((b =? 33)%N) with false by (unfold is_alpha, is_ascii_alphanumeric, is_ascii_digit in HB; lia). apply andb_false_r.
Qed.
Lemma stop_alpha in_flow after : tag_stop in_flow after -> is_alpha (nth 0 after 0%N) = false /\ nth 0 after 0%N <> 33%N.
Proof. unfold tag_stop. generalize (nth 0 after 0%N). intros b [H|[-> H]]; vm_compute in H; intuition (subst; try reflexivity; try discriminate). Qed.
Theorem e_scan_tag w h v in_flow fuel pre after m l s : tag_text false w h v -> tag_stop in_flow after -> List.length w + 2 < fuel ->
  let m' := mark_add (List.length w) m in
  scan_tag fuel in_flow (cur pre (w ++ after) m l s) = (cur (pre ++ w) after m' false s, Ok (Token (Span m m') (TTag h v))).
Proof.
  intros H ST F. destruct (stop_tag _ _ ST) as [S1 S2]. destruct (stop_alpha _ _ ST) as [S3 S4].
  cbv zeta. unfold scan_tag. unfold bind at 1. rewrite e_get_mark. unfold bind at 1. rewrite e_peek.
  destruct H as [w v NE U|h w v FH NE U|w v NE U|].
  - change (str "!<") with [33; 60]%N in *. change (str ">") with [62%N] in *. rewrite !app_length in F. cbn [List.length] in F. cbn [app nth]. change ((60 =? 60)%N) with true. cbv iota.
    unfold bind at 1. unfold bind at 1. unfold scan_verbatim_tag. unfold bind at 1. rewrite e_skip_non_blank. unfold bind at 1. rewrite e_skip_non_blank. unfold bind at 1.
    rewrite <- (app_assoc w). rewrite (e_uri_chars w v U) by (first [reflexivity|lia|auto]). unfold bind at 1. rewrite e_peek. cbn [app nth]. change (negb (62 =? 62)%N) with false. cbv iota.
    unfold bind at 1. rewrite e_skip_non_blank. unfold ret at 1 2. unfold bind at 1. rewrite e_peek. unfold bind at 1. rewrite e_get_mark. rewrite S2.
    rewrite !mark_add_add. unfold ret. repeat (rewrite <- app_assoc; cbn [app]). cbn [List.length]. repeat (rewrite app_length; cbn [List.length]). replace (1 + 1 + List.length w + 1) with (S (S (List.length w + 1))) by lia. reflexivity.
  - change (str "!") with [33]%N in *. rewrite !app_length in F. cbn [List.length] in F. cbn [app].
    assert (N1 : (nth 1 (33%N :: (h ++ 33%N :: w) ++ after) 0 =? 60)%N = false).
    { cbn [nth]. destruct h as [|b h]; [reflexivity|]. cbn [app nth]. inversion_clear FH as [|? ? FB _]. unfold word_byte in FB. lia. }
    rewrite N1. unfold bind at 1. rewrite <- app_assoc. cbn [app]. unfold bind at 1. rewrite e_named_handle by (auto; lia).
    assert (LB : (Nat.leb 2 (List.length ((33%N :: h) ++ [33%N])) && starts_bang ((33%N :: h) ++ [33%N])) && ends_bang ((33%N :: h) ++ [33%N]) = true).
    { rewrite ends_bang_snoc, app_length. cbn [List.length app starts_bang]. replace (Nat.leb 2 (S (List.length h) + 1)) with true by (symmetry; apply Nat.leb_le; lia). reflexivity. }
    rewrite LB. unfold bind at 1. unfold scan_tag_shorthand_suffix. unfold bind at 1. cbn [tl List.length].
    destruct (e_suffix_chars w v U fuel m [] 0 (pre ++ (33%N :: h) ++ [33%N]) after (mark_add (2 + List.length h) m) s S1 ltac:(lia)) as (len & E & P).
    rewrite E. assert (LW : 0 < List.length w) by (destruct w; [congruence|cbn; lia]). destruct len as [|len]; [lia|]. unfold ret at 1 2. unfold bind at 1. rewrite e_peek. unfold bind at 1. rewrite e_get_mark. rewrite S2.
    rewrite mark_add_add. unfold ret. cbn [app]. repeat (rewrite <- app_assoc; cbn [app]). cbn [List.length]. repeat (rewrite app_length; cbn [List.length]). replace (2 + List.length h + List.length w) with (S (List.length h + S (List.length w))) by lia. reflexivity.
  - change (str "!") with [33]%N in *. cbn [app] in *. cbn [List.length] in F.
    destruct (suffix_split w v U) as (h & w' & v' & -> & -> & FH & U' & X). rewrite app_length in F.
    destruct (X after S3) as [X1 X2].
    assert (N1 : (nth 1 (33%N :: (h ++ w') ++ after) 0 =? 60)%N = false).
    { cbn [nth]. destruct h as [|b h]; cbn [app].
      - destruct U' as [|b w' v' HB _|c u ws w' v' HU HC HF _]; [exfalso; now apply NE| |].
        + cbn [app nth]. destruct HB as [[HB|HB] _]; [unfold word_byte in HB; lia|]. vm_compute in HB. intuition (subst; reflexivity).
        + destruct (escape_piece c u ws HU (HC eq_refl) HF) as (-> & x & -> & PX). destruct (percent_first c x PX) as (r & -> & _). reflexivity.
      - cbn [nth]. inversion_clear FH as [|? ? FB _]. unfold is_alpha, is_ascii_alphanumeric, is_ascii_digit in FB. lia. }
    rewrite N1. unfold bind at 1. rewrite <- app_assoc. unfold bind at 1.
    rewrite e_tag_handle by (auto; try lia; intros Y; specialize (X2 Y); subst w'; now apply S4).
    rewrite (alpha_not_bang h FH). unfold bind at 1. unfold scan_tag_shorthand_suffix. unfold bind at 1. cbn [tl].
    destruct (e_suffix_chars w' v' U' fuel m h (List.length (33%N :: h)) (pre ++ 33%N :: h) after (mark_add (1 + List.length h) m) s S1 ltac:(lia)) as (len & E & P).
    rewrite E. destruct len as [|len]; [cbn [List.length] in P; lia|]. unfold ret at 1.
    assert (NV : h ++ v' <> []).
    { intros Y. apply NE. destruct h; [|discriminate]. destruct U'; [reflexivity|discriminate|]. destruct (escape_piece c u ws H (H0 eq_refl) H1) as (-> & _). discriminate. }
    destruct (h ++ v') as [|x xs] eqn:EV; [congruence|]. unfold ret at 1. unfold bind at 1. rewrite e_peek. unfold bind at 1. rewrite e_get_mark. rewrite S2.
    rewrite mark_add_add. unfold ret. repeat (rewrite <- app_assoc; cbn [app]). cbn [List.length]. repeat (rewrite app_length; cbn [List.length]). replace (1 + List.length h + List.length w') with (S (List.length h + List.length w')) by lia. reflexivity.
  - change (str "!") with [33]%N in *. cbn [app nth List.length] in *.
    assert (N1 : (nth 0 after 0 =? 60)%N = false).
    { revert ST. clear. unfold tag_stop. generalize (nth 0 after 0%N). intros b [H|[-> H]]; vm_compute in H; intuition (subst; reflexivity). }
    rewrite N1. unfold bind at 1. unfold bind at 1. change (33%N :: after) with (33%N :: [] ++ after). rewrite (e_tag_handle []) by (auto; cbn [List.length]; lia). change ((Nat.leb 2 (List.length [33%N]) && starts_bang [33%N]) && ends_bang [33%N]) with false. cbv iota.
    unfold bind at 1. unfold scan_tag_shorthand_suffix. unfold bind at 1. cbn [tl List.length].
    destruct (e_suffix_chars [] [] (ut_end _ _) fuel m [] 1 (pre ++ [33%N]) after (mark_add (1 + 0) m) s S1 ltac:(cbn [List.length]; lia)) as (len & E & P).
    cbn [app] in E. rewrite E. destruct len as [|len]; [cbn [List.length] in P; lia|]. unfold ret at 1 2. unfold bind at 1. rewrite e_peek. unfold bind at 1. rewrite e_get_mark. rewrite S2.
    cbn [List.length]. rewrite mark_add_0, app_nil_r. reflexivity.
Qed.

(** ** Directives *)
Lemma digit_is b : SpecProps.digit_byte b -> is_ascii_digit b = true /\ digit_val b = (b - 48)%N.
Proof. unfold SpecProps.digit_byte, is_ascii_digit, digit_val. intros H. split; [lia|]. replace (b <=? 57)%N with true by lia. reflexivity. Qed.
(** The number read on from [v]. *)
Fixpoint read_on (v : N) (w : text) : N := match w with [] => v | b :: w => read_on (v * 10 + (b - 48)) w end.
Lemma read_on_snoc w b : forall v, read_on v (w ++ [b]) = (read_on v w * 10 + (b - 48))%N.
Proof. induction w as [|a w IH]; intros v; cbn [app read_on]; [reflexivity|apply IH]. Qed.
Lemma read_on_number w : Forall SpecProps.digit_byte w -> number 10 w = Z.of_N (read_on 0 w).
Proof.
  induction w as [|b w IH] using rev_ind; intros F; [reflexivity|]. apply Forall_app in F. destruct F as [F1 F2]. inversion_clear F2 as [|? ? F2' _].
  rewrite read_on_snoc. specialize (IH F1). unfold number in *. rewrite rev_app_distr. cbn [rev app positional]. destruct (digit_is b F2') as [_ ->].
  rewrite positional_scale. lia.
Qed.
Lemma read_on_grows w : forall v, (v <= read_on v w)%N.
Proof. induction w as [|b w IH]; intros v; cbn [read_on]; [lia|]. specialize (IH (v * 10 + (b - 48))%N). lia. Qed.
Lemma e_version_loop w : Forall SpecProps.digit_byte w -> forall fuel mark v len pre rest m s, is_ascii_digit (nth 0 rest 0%N) = false -> (read_on v w < 256)%N -> len + List.length w <= 9 -> List.length w < fuel ->
  version_loop fuel mark v len (cur pre (w ++ rest) m false s) = (cur (pre ++ w) rest (mark_add (List.length w) m) false s, Ok (read_on v w, len + List.length w)).
Proof.
  induction w as [|b w IH]; intros FW fuel mark v len pre rest m s R V L F; (destruct fuel as [|fuel]; [cbn in F; lia|]); cbn [version_loop app List.length] in *; unfold bind at 1; rewrite e_peek.
  - rewrite R. cbn [read_on]. rewrite mark_add_0, app_nil_r, Nat.add_0_r. reflexivity.
  - cbn [nth]. inversion_clear FW as [|? ? FB FW']. destruct (digit_is b FB) as [D _]. rewrite D. replace (Nat.leb 9 len) with false by (symmetry; apply Nat.leb_gt; lia).
    cbn [read_on] in V |- *. pose proof (read_on_grows w (v * 10 + (b - 48))%N). cbv zeta. replace (v * 10 + (b - 48) <? 256)%N with true by lia.
    unfold bind at 1. rewrite e_skip_non_blank, IH by (auto; lia). rewrite mark_add_add, <- app_assoc. cbn [app]. replace (len + S (List.length w)) with (len + 1 + List.length w) by lia. reflexivity.
Qed.
Lemma e_version_number w n : version_number false w n -> forall fuel mark pre rest m s, is_ascii_digit (nth 0 rest 0%N) = false -> List.length w < fuel ->
  scan_version_directive_number fuel mark (cur pre (w ++ rest) m false s) = (cur (pre ++ w) rest (mark_add (List.length w) m) false s, Ok n).
Proof.
  intros (NE & FW & V & X) fuel mark pre rest m s R F. destruct (X eq_refl) as [X1 X2]. rewrite read_on_number in V by exact FW. apply N2Z.inj in V.
  unfold scan_version_directive_number. unfold bind at 1. rewrite e_version_loop by (auto; lia). rewrite V. destruct w; [congruence|]. reflexivity.
Qed.
Lemma e_blank_run bs fuel pre rest m l s : Forall white_byte bs -> is_blank (nth 0 rest 0%N) = false -> List.length bs < fuel ->
  run_while is_blank fuel (cur pre (bs ++ rest) m l s) = (cur (pre ++ bs) rest (mark_add (List.length bs) m) l s, Ok bs).
Proof. intros FB R F. apply e_run_while; auto. eapply Forall_impl; [|exact FB]. intros b HB. now apply white_is. Qed.
Lemma e_prefix w p fuel mark pre rest m s : tag_prefix false w p -> is_uri_char (nth 0 rest 0%N) = false -> List.length w + 1 < fuel ->
  scan_tag_prefix fuel mark (cur pre (w ++ rest) m false s) = (cur (pre ++ w) rest (mark_add (List.length w) m) false s, Ok p).
Proof.
  intros H R F. unfold scan_tag_prefix. unfold bind at 1. rewrite e_peek. destruct H as [w v U|b w v HB U].
  - change (str "!") with [33%N] in *. cbn [app nth List.length] in *. change ((33 =? 33)%N) with true. cbv iota. unfold bind at 1. rewrite e_skip_non_blank.
    rewrite (e_uri_chars w v U) by (auto; lia). rewrite mark_add_add, <- app_assoc. reflexivity.
  - cbn [app nth List.length] in *. destruct (tag_char b HB) as [T P]. assert (NB : (b =? 33)%N = false) by (destruct HB as [_ HB]; cbn in HB; lia).
    rewrite NB, T. cbn [negb]. unfold bind at 1. unfold uri_scans_or_non_blank. unfold bind at 1. rewrite e_peek_checked. cbn [nth_error]. replace ((b =? 37)%N) with false by lia.
    unfold bind at 1. rewrite e_skip_non_blank. unfold ret at 1. rewrite (e_uri_chars w v U) by (auto; lia). rewrite mark_add_add, <- app_assoc. reflexivity.
Qed.
Lemma e_handle h fuel mark pre rest m l s : tag_handle h -> white_byte (nth 0 rest 0%N) -> List.length h < fuel ->
  scan_tag_handle fuel true mark (cur pre (h ++ rest) m l s) = (cur (pre ++ h) rest (mark_add (List.length h) m) false s, Ok h).
Proof.
  intros H W F. destruct H as [|h FH].
  - change (str "!") with [33%N] in *. cbn [app List.length] in *. unfold scan_tag_handle. unfold bind at 1. rewrite e_peek. cbn [nth]. change (negb (33 =? 33)%N) with false. cbv iota. unfold bind at 1. rewrite e_skip_non_blank.
    assert (E : run_while is_alpha fuel (cur (pre ++ [33%N]) ([] ++ rest) (mark_add 1 m) false s) = (cur ((pre ++ [33%N]) ++ []) rest (mark_add 0 (mark_add 1 m)) false s, Ok []))
      by (apply (e_run_while is_alpha []); [constructor|destruct W as [-> | ->]; reflexivity|cbn [List.length]; lia]).
    cbn [app] in E. unfold bind at 1. rewrite E.
    cbv zeta. unfold bind at 1. rewrite e_peek. replace ((nth 0 rest 0 =? 33)%N) with false by (destruct W as [-> | ->]; reflexivity). change (true && negb (text_eqb [33%N] [33%N])) with false. cbv iota.
    rewrite mark_add_0, app_nil_r. reflexivity.
  - change (str "!") with [33%N] in *. cbn [app] in *. cbn [List.length] in F. rewrite app_length in F. cbn [List.length] in F. rewrite <- app_assoc. cbn [app]. rewrite e_named_handle by (auto; lia).
    cbn [app List.length]. rewrite app_length. cbn [List.length]. replace (S (List.length h + 1)) with (2 + List.length h) by lia. reflexivity.
Qed.
Lemma e_name n fuel pre rest m l s : n <> [] -> Forall word_byte n -> is_blank_or_break (nth 0 rest 0%N) = true -> List.length n < fuel ->
  scan_directive_name fuel (cur pre (n ++ rest) m l s) = (cur (pre ++ n) rest (mark_add (List.length n) m) l s, Ok n).
Proof.
  intros NE FN R F. unfold scan_directive_name. unfold bind at 1. rewrite e_get_mark. unfold bind at 1.
  rewrite e_run_while; [|eapply Forall_impl; [|exact FN]; exact alpha_word| |exact F].
  - unfold bind at 1. rewrite e_peek, R. destruct n; [congruence|]. reflexivity.
  - revert R. generalize (nth 0 rest 0%N). intros b. unfold is_blank_or_break, is_alpha, is_ascii_alphanumeric, is_ascii_digit. lia.
Qed.
Lemma rest_comment r : line_rest r -> Forall comment_byte r.
Proof.
  intros [k|k c C].
  - apply Forall_forall. intros b H. apply repeat_spec in H. subst b. unfold comment_byte. cbn. intuition discriminate.
  - apply Forall_app. split; [apply Forall_forall; intros b H; apply repeat_spec in H; subst b|constructor; [|exact C]]; unfold comment_byte; cbn; intuition discriminate.
Qed.
Lemma flat_comment c : Forall comment_byte c -> forall m, marker_after c m = mark_add (List.length c) m.
Proof.
  intros F m. apply marker_flat. intros H. rewrite Forall_forall in F. apply (F _ H). now left.
Qed.
Lemma rest_after r b after : line_rest r -> is_blank_or_break (nth 0 (r ++ eol b ++ after) 0%N) = true.
Proof. intros [[|k]|k c C]; destruct b; reflexivity. Qed.
Lemma eol_first b after : ~ In (nth 0 (eol b ++ after) 0%N) [32; 9; 35]%N /\ is_breakz (nth 0 (eol b ++ after) 0%N) = true /\ is_break (nth 0 (eol b ++ after) 0%N) = true.
Proof. destruct b; cbn; intuition discriminate. Qed.
(** The end of the line behind a directive. *)
Lemma e_directive_end (tok : token) start r b fuel pre after m l s : line_rest r -> List.length r + 2 < fuel ->
  (skip_ws_to_eol fuel true false ;;; let* c := peek 0 in
   if is_break c || (c =? 35)%N then skip_linebreak ;;; ret tok else err start "while scanning a directive, did not find expected comment or line break")
    (cur pre (r ++ eol b ++ after) m l s) = (cur (pre ++ r ++ eol b) after (marker_after (r ++ eol b) m) true s, Ok tok).
Proof.
  intros R F. destruct (eol_first b after) as (X1 & X2 & X3).
  destruct (e_ws_rest r fuel false pre (eol b ++ after) m l s R X1 (fun _ => X2) F) as (any & has & E & _). unfold bind at 1. rewrite E.
  unfold bind at 1. rewrite e_peek, X3. cbn [orb]. unfold bind at 1. rewrite e_break. rewrite marker_after_app, (flat_comment r (rest_comment r R)), <- app_assoc. reflexivity.
Qed.
Lemma word_comment b : word_byte b -> comment_byte b.
Proof. unfold word_byte, comment_byte. cbn. lia. Qed.
Lemma str_word_yaml : Forall word_byte (str "YAML") /\ Forall word_byte (str "TAG").
Proof. unfold word_byte. split; repeat constructor; cbn; lia. Qed.
Lemma uri_comment b : uri_byte b -> comment_byte b.
Proof. intros [H|H]; [now apply word_comment|]. vm_compute in H. unfold comment_byte. cbn. intuition (subst; discriminate). Qed.
Lemma hex_comment b : hex_digit b -> comment_byte b.
Proof. unfold hex_digit, comment_byte. cbn. lia. Qed.
Lemma percent_comment b w : percent b w -> Forall comment_byte w.
Proof. intros (h & -> & _ & F & _). constructor; [unfold comment_byte; cbn; intuition discriminate|]. eapply Forall_impl; [|exact F]. exact hex_comment. Qed.
Lemma escapes_comment u ws : Forall2 percent u ws -> Forall comment_byte (List.concat ws).
Proof. induction 1 as [|x w u ws P F IH]; cbn [List.concat]; [constructor|]. apply Forall_app. split; [eapply percent_comment; exact P|exact IH]. Qed.
Lemma uri_text_comment full (p : N -> Prop) w v : (forall b, p b -> comment_byte b) -> uri_text full p w v -> Forall comment_byte w.
Proof.
  intros P. induction 1 as [|b w v HB U IH|c u ws w v HU HC HF U IH]; [constructor|constructor; auto|].
  apply Forall_app. split; [eapply escapes_comment; exact HF|exact IH].
Qed.
Lemma white_comment b : white_byte b -> comment_byte b.
Proof. intros [-> | ->]; unfold comment_byte; cbn; intuition discriminate. Qed.
Lemma directive_comment full w d : directive_text full w d -> Forall comment_byte w.
Proof.
  assert (W : forall bs, Forall white_byte bs -> Forall comment_byte bs) by (intros bs; apply Forall_impl; exact white_comment).
  assert (V : forall x n, version_number full x n -> Forall comment_byte x).
  { intros x n (_ & X & _). eapply Forall_impl; [|exact X]. unfold SpecProps.digit_byte, comment_byte. cbn. intros b HB. lia. }
  assert (S1 : Forall comment_byte (str "!")) by (repeat constructor; unfold comment_byte; cbn; intuition discriminate).
  intros [bs wa va wb vb [_ BW] VA VB|bs h bs' x p [_ BW] TH [_ BW'] TP|n x NE NW N1 N2 X]; repeat (apply Forall_app; split); eauto;
    try (repeat constructor; unfold comment_byte; cbn; intuition discriminate).
  - destruct TH as [|h FH]; [exact S1|]. repeat (apply Forall_app; split); auto. eapply Forall_impl; [|exact FH]. exact word_comment.
  - destruct TP as [x v U|y x v HB U].
    + apply Forall_app. split; [exact S1|]. eapply uri_text_comment; [|exact U]. exact uri_comment.
    + constructor; [apply uri_comment; apply HB|]. eapply uri_text_comment; [|exact U]. exact uri_comment.
  - eapply Forall_impl; [|exact NW]. exact word_comment.
  - destruct X as [-> |[_ X]]; [constructor|exact X].
Qed.
Lemma skip_whole x fuel pre rest m l s : Forall comment_byte x -> is_breakz (nth 0 rest 0%N) = true -> List.length x < fuel ->
  skip_line fuel (cur pre (x ++ rest) m l s) = (cur (pre ++ x) rest (mark_add (List.length x) m) l s, Ok x).
Proof.
  intros FX B F. unfold skip_line. apply e_run_while; [|now rewrite B|exact F]. eapply Forall_impl; [|exact FX].
  intros y Y. unfold comment_byte in Y. cbn [In] in Y. unfold is_breakz, is_break. lia.
Qed.
Theorem e_scan_directive w d r b fuel pre after m l s : directive_text false w d -> line_rest r -> List.length w + List.length r + 3 < fuel ->
  exists e, scan_directive fuel (cur pre (w ++ r ++ eol b ++ after) m l s)
  = (cur (pre ++ w ++ r ++ eol b) after (marker_after (w ++ r ++ eol b) m) true s, Ok (Token (Span m e) (dir_tok d))).
Proof.
  intros H R F. pose proof (rest_after r b after R) as RA.
  assert (MW : marker_after (w ++ r ++ eol b) m = marker_after (r ++ eol b) (mark_add (List.length w) m)).
  { rewrite marker_after_app, (flat_comment w) by (eapply directive_comment; exact H). reflexivity. }
  rewrite MW. clear MW.
  unfold scan_directive. unfold bind at 1. rewrite e_get_mark. unfold bind at 1.
  destruct H as [bs wa va wb vb [BN BW] VA VB|bs h bs' w p [BN BW] TH [BN' BW'] TP|n x NE NW N1 N2 X].
  - change (str "%YAML") with (37%N :: str "YAML") in *. cbn [app] in *. rewrite e_skip_non_blank. unfold bind at 1. change (str ".") with [46%N] in *.
    cbn [List.length] in F. rewrite !app_length in F. change (List.length (str "YAML")) with 4 in F. cbn [List.length] in F.
    assert (WD : is_blank_or_break (nth 0 ((bs ++ wa ++ [46%N] ++ wb) ++ r ++ eol b ++ after) 0%N) = true).
    { destruct bs as [|x bs]; [congruence|]. cbn [app nth]. inversion_clear BW as [|? ? XB _]. now apply white_is. }
    rewrite <- (app_assoc (str "YAML")). rewrite (e_name (str "YAML")); [|discriminate|apply str_word_yaml|exact WD|cbn; lia].
    change (text_eqb (str "YAML") (str "YAML")) with true. cbv iota. unfold bind at 1. unfold scan_version_directive_value. unfold bind at 1.
    rewrite <- !app_assoc.
    assert (DW : forall t, is_blank (nth 0 (wa ++ t) 0%N) = false).
    { intros t. destruct VA as (VN & VD & _). destruct wa as [|x wa]; [congruence|]. inversion_clear VD as [|? ? VX _]. cbn [app nth]. unfold SpecProps.digit_byte in VX. unfold is_blank. lia. }
    rewrite e_blank_run by (auto; lia). unfold bind at 1. rewrite (e_version_number wa va VA) by (try reflexivity; lia).
    unfold bind at 1. rewrite e_peek. cbn [app nth]. change (negb (46 =? 46)%N) with false. cbv iota. unfold bind at 1. rewrite e_skip_non_blank. unfold bind at 1.
    assert (ND : is_ascii_digit (nth 0 (r ++ eol b ++ after) 0%N) = false).
    { revert RA. generalize (nth 0 (r ++ eol b ++ after) 0%N). intros y. unfold is_blank_or_break, is_ascii_digit. lia. }
    rewrite (e_version_number wb vb VB) by (auto; lia). unfold bind at 1. rewrite e_get_mark. unfold ret at 1.
    rewrite (e_directive_end _ m r b) by (auto; lia). eexists. cbn [dir_tok]. rewrite !mark_add_add. f_equal. cbn [app].
    repeat (rewrite <- app_assoc; cbn [app]). cbn [List.length]. repeat (rewrite app_length; cbn [List.length]). reflexivity.
  - change (str "%TAG") with (37%N :: str "TAG") in *. cbn [app] in *. rewrite e_skip_non_blank. unfold bind at 1.
    cbn [List.length] in F. rewrite !app_length in F. change (List.length (str "TAG")) with 3 in F.
    assert (WD : is_blank_or_break (nth 0 ((bs ++ h ++ bs' ++ w) ++ r ++ eol b ++ after) 0%N) = true).
    { destruct bs as [|x bs]; [congruence|]. cbn [app nth]. inversion_clear BW as [|? ? XB _]. now apply white_is. }
    rewrite <- (app_assoc (str "TAG")). rewrite (e_name (str "TAG")); [|discriminate|apply str_word_yaml|exact WD|cbn; lia].
    change (text_eqb (str "TAG") (str "YAML")) with false. change (text_eqb (str "TAG") (str "TAG")) with true. cbv iota. unfold bind at 1. unfold scan_tag_directive_value. unfold bind at 1.
    rewrite <- !app_assoc.
    assert (DW : forall t, is_blank (nth 0 (h ++ t) 0%N) = false) by (intros t; destruct TH; reflexivity).
    assert (WW : white_byte (nth 0 (bs' ++ w ++ r ++ eol b ++ after) 0%N)).
    { destruct bs' as [|x bs']; [congruence|]. cbn [app nth]. now inversion_clear BW'. }
    assert (PW : forall t, is_blank (nth 0 (w ++ t) 0%N) = false).
    { intros t. destruct TP as [x v U|y x v HB U]; [reflexivity|]. cbn [app nth]. destruct HB as [HB _]. destruct HB as [HB|HB]; [unfold word_byte in HB; unfold is_blank; lia|]. vm_compute in HB. intuition (subst; reflexivity). }
    rewrite e_blank_run by (auto; lia). unfold bind at 1. rewrite e_handle by (auto; lia). unfold bind at 1. rewrite e_blank_run by (auto; lia). unfold bind at 1.
    assert (ND : is_uri_char (nth 0 (r ++ eol b ++ after) 0%N) = false).
    { revert RA. generalize (nth 0 (r ++ eol b ++ after) 0%N). intros y HY. unfold is_blank_or_break in HY. assert (y = 32 \/ y = 9 \/ y = 13 \/ y = 10)%N as D by lia. destruct D as [-> |[-> |[-> | ->]]]; reflexivity. }
    rewrite e_prefix with (p := p) by (auto; lia). unfold bind at 1. rewrite e_peek, RA. unfold bind at 1. rewrite e_get_mark. unfold ret at 1.
    rewrite (e_directive_end _ m r b) by (auto; lia). eexists. cbn [dir_tok]. rewrite !mark_add_add. f_equal.
    repeat (rewrite <- app_assoc; cbn [app]). cbn [List.length]. repeat (rewrite app_length; cbn [List.length]). reflexivity.
  - change (str "%") with [37%N] in *. cbn [app] in *. rewrite e_skip_non_blank. unfold bind at 1. cbn [List.length] in F. rewrite !app_length in F.
    assert (WD : is_blank_or_break (nth 0 (x ++ r ++ eol b ++ after) 0%N) = true).
    { destruct X as [-> |[X _]]; [exact RA|]. destruct x as [|y x]; [cbn in X; destruct X; discriminate|]. cbn [app nth] in *. now apply white_is. }
    rewrite <- (app_assoc n). rewrite e_name by (auto; lia). rewrite (proj2 (ParserProofs.text_eqb_neq n (str "YAML")) N1), (proj2 (ParserProofs.text_eqb_neq n (str "TAG")) N2). unfold bind at 1. unfold bind at 1.
    assert (FX : Forall comment_byte (x ++ r)).
    { apply Forall_app. split; [destruct X as [-> |[_ X]]; [constructor|exact X]|now apply rest_comment]. }
    destruct (eol_first b after) as (X1 & X2 & X3).
    rewrite (app_assoc x r). rewrite skip_whole by (auto; rewrite app_length; lia). unfold bind at 1. rewrite e_get_mark. unfold ret at 1.
    pose proof (e_directive_end (Token (Span m (mark_add (List.length (x ++ r)) (mark_add (List.length n) (mark_add 1 m)))) (TTagDirective [] [])) m [] b fuel (((pre ++ [37%N]) ++ n) ++ x ++ r) after (mark_add (List.length (x ++ r)) (mark_add (List.length n) (mark_add 1 m))) false s (lr_spaces 0)) as E.
    cbn [app List.length] in E. rewrite E by lia. eexists. cbn [dir_tok]. f_equal.
    rewrite (marker_after_app r), (flat_comment r (rest_comment r R)), !mark_add_add. repeat (rewrite <- app_assoc; cbn [app]). cbn [List.length]. repeat (rewrite app_length; cbn [List.length]).
    f_equal. f_equal. f_equal. lia.
Qed.
