(** The scanner over plain scalars of several lines. *)
From Verif Require Import Base Tokens Chars Source Cursor SpecQuoted FoldedQuotes ExactCursor ExactPlain JsonCursor SpecBlock BlockScan SpecPlain.
From Coq Require Import String Lia ZifyBool ZifyNat ZifyN.
Local Open Scope list_scope.
Local Open Scope m_scope.

(** ** White space *)
Lemma white_no_lf bs : Forall white_byte bs -> ~ In 10%N bs.
Proof. intros F H. pose proof (proj1 (Forall_forall _ _) F _ H) as [X|X]; discriminate. Qed.
Lemma marker_blank b m : white_byte b -> marker_after [b] m = mark_add 1 m.
Proof. intros [-> | ->]; reflexivity. Qed.
Lemma e_break b pre rest m l s :
  skip_linebreak (cur pre (eol b ++ rest) m l s) = (cur (pre ++ eol b) rest (marker_after (eol b) m) true s, Ok tt).
Proof.
  destruct b; cbn [eol app].
  - rewrite e_skip_crlf. repeat f_equal. unfold mark_newline. cbn. f_equal; lia.
  - now rewrite e_skip_lf.
Qed.
Lemma e_ws_white bs fuel prev pre rest m l s : Forall white_byte bs ->
  ~ In (nth 0 rest 0%N) [32; 9; 35]%N -> List.length bs < fuel ->
  exists r, skip_ws_to_eol fuel true prev (cur pre (bs ++ rest) m l s) = (cur (pre ++ bs) rest (mark_add (List.length bs) m) l s, Ok r).
Proof.
  intros W N F. unfold skip_ws_to_eol, str_skip_ws_to_eol. change (c_src (cur pre (bs ++ rest) m l s)) with (StrSrc (pre ++ bs ++ rest) (List.length pre)).
  destruct (e_blanks_shared bs W fuel pre rest 0 false prev F) as (any & has & _ & ->).
  destruct (fuel - List.length bs) as [|f] eqn:EF; [lia|]. cbn [shared_skip_ws_to_eol].
  pose proof (cur_peek (pre ++ bs) rest (Marker 0 0 0) true true 0) as P. unfold cur, c_src in P. rewrite P.
  cbn [In] in N. rewrite (proj2 (N.eqb_neq (nth 0 rest 0%N) 32)), (proj2 (N.eqb_neq (nth 0 rest 0%N) 9)), (proj2 (N.eqb_neq (nth 0 rest 0%N) 35)) by intuition.
  cbn [andb Nat.add]. eexists. reflexivity.
Qed.
Lemma white_is b : white_byte b -> is_blank b = true /\ is_blank_or_break b = true.
Proof. intros [-> | ->]; split; reflexivity. Qed.
Lemma eol_is b rest : is_blank (nth 0 (eol b ++ rest) 0%N) = false /\ is_blank_or_break (nth 0 (eol b ++ rest) 0%N) = true.
Proof. destruct b; split; reflexivity. Qed.
(** White space in the line. *)
Lemma blanks_inline indent start lb tb bs : Forall white_byte bs -> forall fuel ws pre rest m s, List.length bs <= fuel ->
  plain_blanks fuel indent start ws lb tb (cur pre (bs ++ rest) m false s)
  = plain_blanks (fuel - List.length bs) indent start (ws ++ bs) lb tb (cur (pre ++ bs) rest (mark_add (List.length bs) m) false s).
Proof.
  induction 1 as [|b bs W F IH]; intros fuel ws pre rest m s L; cbn [List.length app] in *.
  - now rewrite !app_nil_r, mark_add_0, Nat.sub_0_r.
  - destruct fuel as [|fuel]; [lia|]. cbn [plain_blanks]. unfold bind at 1. rewrite e_peek. unfold bind at 1. unfold gets at 1.
    unfold bind at 1. rewrite e_get_mark. cbn [nth]. destruct (white_is b W) as [-> ->].
    match goal with |- context [c_lead (cur ?a ?b ?c ?d ?e)] => change (c_lead (cur a b c d e)) with d end. cbn [negb].
    unfold bind at 1. rewrite e_peek_or_space. unfold bind at 1. rewrite e_skip_blank. rewrite IH by lia.
    rewrite mark_add_add, <- !app_assoc. reflexivity.
Qed.
(** Spaces at the start of a line, and any white space behind the indentation. *)
Lemma blanks_lead indent start ws lb tb bs : Forall white_byte bs -> forall fuel pre rest m s, List.length bs <= fuel ->
  (Forall (fun b => b = 32%N) bs \/ indent <= m_col m)%N ->
  plain_blanks fuel indent start ws lb tb (cur pre (bs ++ rest) m true s)
  = plain_blanks (fuel - List.length bs) indent start ws lb tb (cur (pre ++ bs) rest (mark_add (List.length bs) m) true s).
Proof.
  induction 1 as [|b bs W F IH]; intros fuel pre rest m s L C; cbn [List.length app] in *.
  - now rewrite !app_nil_r, mark_add_0, Nat.sub_0_r.
  - destruct fuel as [|fuel]; [lia|]. cbn [plain_blanks]. unfold bind at 1. rewrite e_peek. unfold bind at 1. unfold gets at 1.
    unfold bind at 1. rewrite e_get_mark. cbn [nth]. destruct (white_is b W) as [-> ->].
    match goal with |- context [c_lead (cur ?a ?b ?c ?d ?e)] => change (c_lead (cur a b c d e)) with d end. cbn [negb].
    assert (X : (m_col m <? indent)%N && (b =? 9)%N = false).
    { destruct C as [C|C]; [inversion_clear C as [|? ? C1 _]; subst b; apply andb_false_r|]. apply andb_false_intro1. lia. }
    rewrite X. unfold bind at 1. rewrite e_skip_blank. rewrite IH; [rewrite mark_add_add, <- !app_assoc; reflexivity|lia|].
    destruct C as [C|C]; [left; now inversion_clear C|right]. unfold mark_add. cbn. lia.
Qed.
(** An empty line. *)
Lemma blanks_empty indent start ws lb b bs : Forall white_byte bs -> forall fuel tb pre rest m s,
  List.length bs + 2 < fuel -> exists fuel', fuel <= fuel' + List.length (bs ++ eol b) /\
  plain_blanks fuel indent start ws lb tb (cur pre (bs ++ eol b ++ rest) m true s)
  = plain_blanks fuel' indent start ws lb (tb ++ [10%N]) (cur (pre ++ bs ++ eol b) rest (marker_after (bs ++ eol b) m) true s).
Proof.
  assert (E0 : forall fuel tb pre rest m s, plain_blanks (S fuel) indent start ws lb tb (cur pre (eol b ++ rest) m true s)
     = plain_blanks fuel indent start ws lb (tb ++ [10%N]) (cur (pre ++ eol b) rest (marker_after (eol b) m) true s)).
  { intros fuel tb pre rest m s. cbn [plain_blanks]. unfold bind at 1. rewrite e_peek. unfold bind at 1. unfold gets at 1.
    unfold bind at 1. rewrite e_get_mark. destruct (eol_is b rest) as [-> ->].
    match goal with |- context [c_lead (cur ?a ?b ?c ?d ?e)] => change (c_lead (cur a b c d e)) with d end.
    cbv iota. unfold bind at 1. rewrite e_break. reflexivity. }
  induction 1 as [|x bs W F IH]; intros fuel tb pre rest m s L; (destruct fuel as [|fuel]; [lia|]); cbn [List.length app] in *.
  - rewrite E0. exists fuel. split; [|reflexivity]. pose proof (eol_length b). lia.
  - cbn [plain_blanks]. unfold bind at 1. rewrite e_peek. unfold bind at 1. unfold gets at 1.
    unfold bind at 1. rewrite e_get_mark. cbn [nth]. destruct (white_is x W) as [-> ->].
    match goal with |- context [c_lead (cur ?a ?b ?c ?d ?e)] => change (c_lead (cur a b c d e)) with d end. cbn [negb].
    destruct ((m_col m <? indent)%N && (x =? 9)%N) eqn:C.
    + change (x :: bs ++ eol b ++ rest) with ((x :: bs) ++ eol b ++ rest). unfold bind at 1.
      destruct (e_ws_white (x :: bs) fuel false pre (eol b ++ rest) m true s) as (r & ->).
      * now constructor.
      * destruct b; cbn; intuition discriminate.
      * cbn [List.length]. lia.
      * unfold bind at 1. rewrite e_peek.
        assert (X : is_breakz (nth 0 (eol b ++ rest) 0%N) = true) by now destruct b. rewrite X. cbn [negb].
        destruct fuel as [|fuel]; [lia|]. rewrite E0. exists fuel. split; [rewrite app_length; pose proof (eol_length b); lia|].
        rewrite <- app_assoc. cbn [app]. rewrite (marker_after_app (x :: bs) (eol b)).
        rewrite (marker_flat (x :: bs)) by (apply white_no_lf; now constructor). reflexivity.
    + unfold bind at 1. rewrite e_skip_blank. destruct (IH fuel tb (pre ++ [x]) rest (mark_add 1 m) s ltac:(lia)) as (f' & LF & ->).
      exists f'. split; [lia|]. rewrite <- app_assoc. cbn [app].
      rewrite <- (marker_blank x m W), <- marker_after_app. reflexivity.
Qed.
Lemma blanks_empties indent start ws lb e : Forall (fun x : text * bool => Forall white_byte (fst x)) e -> forall fuel tb pre rest m s,
  List.length (empty_text e) + 2 < fuel -> exists fuel', fuel <= fuel' + List.length (empty_text e) /\
  plain_blanks fuel indent start ws lb tb (cur pre (empty_text e ++ rest) m true s)
  = plain_blanks fuel' indent start ws lb (tb ++ repeat 10%N (List.length e)) (cur (pre ++ empty_text e) rest (marker_after (empty_text e) m) true s).
Proof.
  induction 1 as [|[bs b] e W F IH]; intros fuel tb pre rest m s L.
  - exists fuel. cbn [empty_text flat_map List.length repeat app]. split; [lia|]. now rewrite !app_nil_r.
  - assert (E : empty_text ((bs, b) :: e) = (bs ++ eol b) ++ empty_text e) by reflexivity.
    rewrite E in *. cbn [fst] in W. rewrite <- !app_assoc.
    assert (LE : List.length bs + List.length (empty_text e) + 3 < fuel).
    { rewrite !app_length in L. pose proof (eol_length b). lia. }
    destruct (blanks_empty indent start ws lb b bs W fuel tb pre (empty_text e ++ rest) m s ltac:(lia)) as (f1 & L1 & ->).
    rewrite !app_length in *. pose proof (eol_length b).
    destruct (IH f1 (tb ++ [10%N]) (pre ++ bs ++ eol b) rest (marker_after (bs ++ eol b) m) s ltac:(lia)) as (f2 & L2 & ->).
    exists f2. split; [lia|]. cbn [List.length repeat]. rewrite <- !app_assoc, <- marker_after_app, <- app_assoc. reflexivity.
Qed.
(** What is still to be written before the next word. *)
Definition pending (lead : bool) (ws lb tb : text) : text :=
  if lead then match lb with [] => tb | _ => match tb with [] => [32%N] | _ => tb end end else ws.
Lemma blanks_done fuel indent start ws lb tb pre rest m l s : is_blank_or_break (nth 0 rest 0%N) = false ->
  plain_blanks (S fuel) indent start ws lb tb (cur pre rest m l s) = (cur pre rest m l s, Ok (ws, lb, tb)).
Proof.
  intros A. cbn [plain_blanks]. unfold bind at 1. rewrite e_peek. unfold bind at 1. unfold gets at 1.
  unfold bind at 1. rewrite e_get_mark. now rewrite A.
Qed.
Lemma empties_col e m : m_col m = 1%N -> m_col (marker_after (empty_text e) m) = 1%N.
Proof.
  revert m. induction e as [|[bs b] e IH]; intros m H; [exact H|]. cbn [empty_text flat_map]. rewrite marker_after_app. apply IH.
  cbn [fst snd]. rewrite marker_after_app. destruct b; reflexivity.
Qed.
(** White space at the end of the text. *)
Lemma blanks_end indent start ws lb tb bs : Forall white_byte bs -> forall fuel pre m s, List.length bs + 1 < fuel ->
  plain_blanks fuel indent start ws lb tb (cur pre (bs ++ []) m true s)
  = (cur (pre ++ bs) [] (mark_add (List.length bs) m) true s, Ok (ws, lb, tb)).
Proof.
  induction 1 as [|x bs W F IH]; intros fuel pre m s L; (destruct fuel as [|fuel]; [lia|]); cbn [List.length app] in *.
  - rewrite blanks_done by reflexivity. now rewrite app_nil_r, mark_add_0.
  - cbn [plain_blanks]. unfold bind at 1. rewrite e_peek. unfold bind at 1. unfold gets at 1.
    unfold bind at 1. rewrite e_get_mark. cbn [nth]. destruct (white_is x W) as [-> ->].
    match goal with |- context [c_lead (cur ?a ?b ?c ?d ?e)] => change (c_lead (cur a b c d e)) with d end. cbn [negb].
    destruct ((m_col m <? indent)%N && (x =? 9)%N) eqn:C.
    + change (x :: bs ++ []) with ((x :: bs) ++ []). unfold bind at 1.
      destruct (e_ws_white (x :: bs) fuel false pre [] m true s) as (r & ->); [now constructor|cbn; intuition discriminate|cbn [List.length]; lia|].
      unfold bind at 1. rewrite e_peek. cbn [nth]. change (is_breakz 0) with true. cbn [negb].
      destruct fuel as [|fuel]; [lia|]. now rewrite blanks_done.
    + unfold bind at 1. rewrite e_skip_blank. rewrite IH by lia. now rewrite mark_add_add, <- app_assoc.
Qed.
Lemma blanks_gap indent start g fuel pre rest m s : (1 <= indent)%N -> white_gap g -> (tabs_behind (indent - 1) g \/ rest = []) -> is_blank_or_break (nth 0 rest 0%N) = false ->
  List.length (fold_text g) + 3 < fuel -> exists ws lb tb,
  plain_blanks fuel indent start [] [] [] (cur pre (fold_text g ++ rest) m false s)
  = (cur (pre ++ fold_text g) rest (marker_after (fold_text g) m) (breaks g) s, Ok (ws, lb, tb)) /\
  pending (breaks g) ws lb tb = fold_value g /\ (breaks g = true -> ws = []) /\ (breaks g = false -> lb = [] /\ tb = []).
Proof.
  intros I1 FF TB A F. destruct g as [bs|tr b e i more].
  - cbn [fold_text breaks white_gap fold_value] in *. exists bs, [], []. rewrite blanks_inline by (auto; lia).
    destruct (fuel - List.length bs) as [|f] eqn:EF; [lia|]. rewrite blanks_done by exact A.
    rewrite (marker_flat bs) by now apply white_no_lf. repeat split; auto. discriminate.
  - destruct FF as (Wt & We & Wm). cbn [tabs_behind] in TB. cbn [fold_text breaks] in *. rewrite !app_length, repeat_length in F. pose proof (eol_length b).
    rewrite <- !app_assoc. rewrite (blanks_inline indent start [] [] tr Wt) by lia. cbn [app].
    destruct (fuel - List.length tr) as [|f] eqn:EF; [lia|]. cbn [plain_blanks].
    unfold bind at 1. rewrite e_peek. unfold bind at 1. unfold gets at 1. unfold bind at 1. rewrite e_get_mark.
    match goal with |- context [eol b ++ ?r] => destruct (eol_is b r) as [E1 E2]; rewrite E1, E2; clear E1 E2 end.
    match goal with |- context [c_lead (cur ?a ?b ?c ?d ?e)] => change (c_lead (cur a b c d e)) with d end. cbv iota.
    unfold bind at 1. rewrite e_break. unfold bind at 1. rewrite e_set_lead. cbn [app].
    destruct (blanks_empties indent start [] [10%N] e We f [] ((pre ++ tr) ++ eol b) (repeat 32%N i ++ more ++ rest)
      (marker_after (eol b) (mark_add (List.length tr) m)) s ltac:(lia)) as (f1 & L1 & ->).
    cbn [app].
    assert (WS : Forall white_byte (repeat 32%N i)) by (apply Forall_forall; intros x H'; apply repeat_spec in H'; now left).
    rewrite blanks_lead; [|exact WS|rewrite repeat_length; lia|left; apply Forall_forall; intros x H'; now apply repeat_spec in H'].
    rewrite repeat_length.
    match goal with |- context [cur ?p (more ++ rest) ?m' true s] =>
      assert (MORE : plain_blanks (f1 - i) indent start [] [10%N] (repeat 10%N (List.length e)) (cur p (more ++ rest) m' true s)
        = (cur (p ++ more) rest (mark_add (List.length more) m') true s, Ok ([], [10%N], repeat 10%N (List.length e)))) end.
    { destruct TB as [TB | ->].
      - rewrite blanks_lead; [|exact Wm|lia|].
        + destruct (f1 - i - List.length more) as [|f2] eqn:EF2; [lia|]. now rewrite blanks_done by exact A.
        + destruct more as [|x more]; [left; constructor|right]. specialize (TB ltac:(discriminate)).
          unfold mark_add. cbn [m_col]. rewrite empties_col; [lia|]. destruct b; reflexivity.
      - rewrite blanks_end by (auto; lia). reflexivity. }
    rewrite MORE. clear MORE.
    exists [], [10%N], (repeat 10%N (List.length e)). split.
    + rewrite <- !app_assoc. f_equal. f_equal.
      rewrite !marker_after_app. rewrite (marker_flat tr) by now apply white_no_lf.
      rewrite (marker_flat (repeat 32%N i)) by apply no_lf_spaces. rewrite (marker_flat more) by now apply white_no_lf. now rewrite repeat_length.
    + split; [|split; [auto|discriminate]]. cbn [pending fold_value]. now destruct e.
Qed.

(** ** Words *)
Lemma can_be_flow f pre rest m l s : next_can_be_plain_scalar str_ops (c_src (cur pre rest m l s)) f
  = negb ((nth 0 rest 0%N =? 58)%N && (is_blank_or_breakz (nth 1 rest 0%N) || f && is_flow (nth 1 rest 0%N))) && negb (f && is_flow (nth 0 rest 0%N)).
Proof. unfold next_can_be_plain_scalar. rewrite !cur_peek. destruct (_ && (_ || _)); [reflexivity|]. now destruct (f && is_flow _). Qed.
Lemma is_flow_sign b : is_flow b = true <-> flow_sign b.
Proof. unfold is_flow, flow_sign. cbn. lia. Qed.
Lemma blankz_in b : is_blank_or_breakz b = true <-> In b [32; 9; 10; 13; 0]%N.
Proof. unfold is_blank_or_breakz, is_blank, is_break. cbn [In]. lia. Qed.
Lemma colon_ends f b : is_blank_or_breakz b || f && is_flow b = true <-> ends_colon f b.
Proof.
  unfold ends_colon. rewrite <- blankz_in, <- is_flow_sign. destruct (is_blank_or_breakz b), f, (is_flow b); cbn; intuition discriminate.
Qed.
Lemma word_char_facts f b : word_char f b -> is_blank_or_breakz b = false /\ f && is_flow b = false.
Proof.
  intros [A B]. rewrite <- blankz_in in A. split; [now destruct (is_blank_or_breakz b)|].
  destruct f; [|reflexivity]. specialize (B eq_refl). rewrite <- is_flow_sign in B. now destruct (is_flow b).
Qed.
(** The byte after a word ends it. *)
Definition word_stop (f : bool) (rest : text) : Prop :=
  is_blank_or_breakz (nth 0 rest 0%N) = true \/
  (nth 0 rest 0%N = 58%N /\ ends_colon f (nth 1 rest 0%N)) \/ f && is_flow (nth 0 rest 0%N) = true.
(** All its colons are followed by something else. *)
Fixpoint colons_inside (f : bool) (w : text) (next : N) : Prop :=
  match w with
  | [] => True
  | b :: r => (b = 58%N -> ~ ends_colon f (nth 0 r next)) /\ colons_inside f r next
  end.
Lemma word_colons f w next : Forall (word_char f) w -> (last w 0%N = 58%N -> ~ ends_colon f next) -> colons_inside f w next.
Proof.
  induction 1 as [|b w W F IH]; intros L; [exact I|]. destruct w as [|c w].
  - cbn in *. auto.
  - cbn [colons_inside nth]. split; [|now apply IH]. intros _ [X|[-> X]].
    + inversion_clear F as [|? ? [Wc _] _]. exact (Wc X).
    + inversion_clear F as [|? ? [_ Wc] _]. exact (Wc eq_refl X).
Qed.
Lemma content_word f : forall w fuel string pre rest m s, Forall (word_char f) w -> colons_inside f w (nth 0 rest 0%N) -> word_stop f rest ->
  List.length w < fuel ->
  plain_content fuel f string (cur pre (w ++ rest) m false s)
  = (cur (pre ++ w) rest (mark_add (List.length w) m) false s, Ok (string ++ w)).
Proof.
  induction w as [|b w IH]; intros fuel string pre rest m s FW CO E F; (destruct fuel as [|fuel]; [cbn in F; lia|]);
    cbn [plain_content List.length app] in *.
  - unfold bind, gets. rewrite e_peek, can_be_flow. rewrite mark_add_0, !app_nil_r.
    match goal with |- (if ?x then _ else _) _ = _ => assert (X : x = true) end.
    { destruct E as [-> | [[-> E]| ->]]; [reflexivity| |].
      - apply colon_ends in E. rewrite E. apply orb_true_r.
      - cbn [negb]. rewrite andb_false_r. apply orb_true_r. }
    now rewrite X.
  - inversion_clear FW as [|? ? Pb Pw]. destruct CO as [CB CO]. destruct (word_char_facts f b Pb) as [X Y].
    unfold bind, gets. rewrite e_peek, can_be_flow. cbn [nth]. rewrite X, Y.
    assert (Z : (b =? 58)%N && (is_blank_or_breakz (nth 0 (w ++ rest) 0%N) || f && is_flow (nth 0 (w ++ rest) 0%N)) = false).
    { destruct (N.eqb_spec b 58) as [-> | _]; [|reflexivity]. specialize (CB eq_refl). cbn [andb].
      assert (EN : nth 0 (w ++ rest) 0%N = nth 0 w (nth 0 rest 0%N)) by now destruct w.
      rewrite EN. rewrite <- colon_ends in CB. destruct (_ || _); [now elim CB|reflexivity]. }
    rewrite Z. cbn [negb andb orb]. rewrite e_peek_or_space, e_skip_non_blank. rewrite IH by (auto; lia).
    rewrite mark_add_add, <- !app_assoc. reflexivity.
Qed.
Lemma indicator_mark pre rest m l s :
  next_is_document_indicator str_ops (c_src (cur pre rest m l s)) = true <-> doc_mark rest.
Proof.
  unfold next_is_document_indicator, next_is_three. rewrite !cur_peek. unfold doc_mark. split.
  - intros H. destruct rest as [|a0 [|a1 [|a2 r]]]; cbn [nth] in H; try lia. exists r. split.
    + assert (X : (a0 = 45 /\ a1 = 45 /\ a2 = 45 \/ a0 = 46 /\ a1 = 46 /\ a2 = 46)%N) by lia.
      destruct X as [(-> & -> & ->)|(-> & -> & ->)]; [left|right]; reflexivity.
    + apply andb_prop in H. destruct H as [_ H]. destruct r as [|y r]; [exact I|]. cbn [nth] in H.
      apply blankz_in in H. cbn [In] in *. intuition.
  - intros (r & E & H). assert (X : is_blank_or_breakz (nth 0 r 0%N) = true).
    { destruct r as [|y r]; [reflexivity|]. cbn [nth]. apply blankz_in. cbn [In] in *. intuition. }
    destruct E as [-> | ->]; cbn [str list_ascii_of_string map app nth]; destruct r as [|y r]; cbn [nth] in *; rewrite ?X; reflexivity.
Qed.

(** What [plain_loop] does after a word. *)
Definition after_word (fuel : nat) (indent : N) (f : bool) (start : marker) (string : text) (em : marker) : CM (text * marker) :=
  let* c := peek 0 in
  if negb (is_blank c || is_break c) then ret (string, em)
  else
    let* (ws, lb, tb) := plain_blanks fuel indent start [] [] [] in
    let* m := get_mark in
    if negb f && (m_col m <? indent)%N then ret (string, em)
    else plain_loop fuel indent f start string ws lb tb em.
Lemma loop_word fuel indent f start string ws lb tb em pre w rest m l s :
  plain_word f w (nth 0 rest 0%N) -> no_dash f w (nth 0 rest 0%N) -> word_stop f rest ->
  (l = true -> ws = [] /\ ~ doc_mark (w ++ rest)) -> (l = false -> lb = [] /\ tb = []) -> List.length w <= fuel ->
  plain_loop (S fuel) indent f start string ws lb tb em (cur pre (w ++ rest) m l s)
  = after_word fuel indent f start (string ++ pending l ws lb tb ++ w) (mark_add (List.length w) m)
      (cur (pre ++ w) rest (mark_add (List.length w) m) false s).
Proof.
  intros (W0 & WC & W35 & WL) ND ST HL HN F. destruct w as [|b w]; [congruence|]. clear W0.
  pose proof (word_colons f (b :: w) _ WC WL) as CO. inversion_clear WC as [|? ? Pb Pw]. destruct CO as [CB CO].
  destruct (word_char_facts f b Pb) as [X Y]. cbn [nth] in W35.
  cbn [plain_loop]. unfold bind at 1. unfold gets at 1. unfold bind at 1. unfold gets at 1.
  match goal with |- context [c_lead (cur ?a ?b ?c ?d ?e)] => change (c_lead (cur a b c d e)) with d end.
  unfold bind at 1. rewrite e_peek. unfold bind at 1. rewrite e_peek. unfold bind at 1. rewrite e_get_mark.
  cbn [app nth].
  assert (I : l && next_is_document_indicator str_ops (c_src (cur pre (b :: w ++ rest) m l s)) = false).
  { destruct l; [|reflexivity]. destruct (HL eq_refl) as [_ D]. cbn [andb].
    destruct (next_is_document_indicator _ _) eqn:E; [|reflexivity]. elim D. now apply indicator_mark in E. }
  rewrite I. rewrite (proj2 (N.eqb_neq b 35) W35). cbn [orb].
  assert (D : f && (b =? 45)%N && is_flow (nth 0 (w ++ rest) 0%N) = false).
  { destruct f; [|reflexivity]. destruct (N.eqb_spec b 45) as [-> |_]; [|reflexivity]. cbn [andb].
    destruct w as [|c w]; cbn [app nth].
    - destruct (is_flow (nth 0 rest 0%N)) eqn:E; [|reflexivity]. elim ND. split; [reflexivity|]. split; [reflexivity|]. now apply is_flow_sign.
    - inversion_clear Pw as [|? ? Pc _]. now destruct (word_char_facts true c Pc). }
  rewrite D. unfold bind at 1. unfold gets at 1. rewrite can_be_flow. cbn [nth]. rewrite X, Y.
  assert (Z : (b =? 58)%N && (is_blank_or_breakz (nth 0 (w ++ rest) 0%N) || f && is_flow (nth 0 (w ++ rest) 0%N)) = false).
  { destruct (N.eqb_spec b 58) as [-> | _]; [|reflexivity]. specialize (CB eq_refl). cbn [andb].
    assert (EN : nth 0 (w ++ rest) 0%N = nth 0 w (nth 0 rest 0%N)) by now destruct w.
    rewrite EN. rewrite <- colon_ends in CB. destruct (_ || _); [now elim CB|reflexivity]. }
  rewrite Z. cbn [negb andb]. cbn [List.length] in F.
  assert (FIN : forall string', 
    (let* (string, ws, lb, tb, end_mark) :=
       (let* b := peek_or_space in
        skip_non_blank ;;;
        let* string := plain_content fuel f (string' ++ [b]) in
        let* e := get_mark in
        ret (string, [], [], [], e)) in
     let* c := peek 0 in
        if negb (is_blank c || is_break c) then ret (string, end_mark)
        else
          let* (ws, lb, tb) := plain_blanks fuel indent start ws lb tb in
          let* m := get_mark in
          if negb f && (m_col m <? indent)%N then ret (string, end_mark)
          else plain_loop fuel indent f start string ws lb tb end_mark) (cur pre (b :: w ++ rest) m false s)
    = after_word fuel indent f start (string' ++ b :: w) (mark_add (S (List.length w)) m)
        (cur (pre ++ b :: w) rest (mark_add (S (List.length w)) m) false s)).
  { intros string'. unfold bind at 1. unfold bind at 1. rewrite e_peek_or_space. unfold bind at 1. rewrite e_skip_non_blank.
    unfold bind at 1. rewrite content_word; [|exact Pw|exact CO|exact ST|lia]. unfold bind at 1. rewrite e_get_mark.
    rewrite mark_add_add, <- !app_assoc. cbn [app Nat.add]. reflexivity. }
  destruct l.
  - destruct (HL eq_refl) as [-> _]. cbn [pending]. destruct lb as [|x lb].
    + etransitivity; [|etransitivity; [exact (FIN (string ++ tb))|now rewrite <- app_assoc]]. reflexivity.
    + etransitivity; [|etransitivity; [exact (FIN (string ++ match tb with [] => [32%N] | _ => tb end))|now rewrite <- app_assoc]]. reflexivity.
  - destruct (HN eq_refl) as [-> ->]. cbn [pending]. destruct ws as [|x ws].
    + exact (FIN string).
    + etransitivity; [|etransitivity; [exact (FIN (string ++ x :: ws))|now rewrite <- app_assoc]]. reflexivity.
Qed.
Lemma loop_stop fuel indent f start string ws lb tb em pre n g after m s :
  plain_stop f n g after ->
  (forall tr b e i c r, g = NewLines tr b e i [] -> after = c :: r -> f = false -> (N.of_nat i < n)%N -> False) ->
  plain_loop (S fuel) indent f start string ws lb tb em (cur pre after m (breaks g) s)
  = (cur pre after m (breaks g) s, Ok (string, em)).
Proof.
  intros P NL. cbn [plain_loop]. unfold bind at 1. unfold gets at 1. unfold bind at 1. unfold gets at 1.
  match goal with |- context [c_lead (cur ?a ?b ?c ?d ?e)] => change (c_lead (cur a b c d e)) with d end.
  unfold bind at 1. rewrite e_peek. unfold bind at 1. rewrite e_peek. unfold bind at 1. rewrite e_get_mark.
  assert (OUT : breaks g && next_is_document_indicator str_ops (c_src (cur pre after m (breaks g) s)) || (nth 0 after 0 =? 35)%N = true \/
    (f && (nth 0 after 0 =? 45)%N = false /\ is_blank (nth 0 after 0%N) || is_break (nth 0 after 0%N) = false /\
     (is_breakz (nth 0 after 0%N) = true \/ next_can_be_plain_scalar str_ops (c_src (cur pre after m (breaks g) s)) f = false))).
  { inversion P; subst.
    - right. cbn [nth]. repeat split; [apply andb_false_r|now left].
    - left. cbn [nth]. apply orb_true_r.
    - right. rewrite can_be_flow. cbn [nth]. repeat split; [apply andb_false_r|right].
      match goal with H : ends_colon _ _ |- _ => apply colon_ends in H; rewrite H end. reflexivity.
    - right. rewrite can_be_flow. cbn [nth].
      match goal with H : flow_sign _ |- _ => apply is_flow_sign in H; rename H into FS end. rewrite FS.
      unfold is_flow in FS. unfold is_blank, is_break. repeat split; [lia|lia|right; apply andb_false_r].
    - exfalso. eapply NL; eauto.
    - left. cbn [breaks andb]. match goal with H : doc_mark _ |- _ => apply (proj2 (indicator_mark pre after m true s)) in H; rewrite H end.
      reflexivity. }
  destruct (_ || _) eqn:E1; [reflexivity|]. destruct OUT as [OUT|(O1 & O2 & O3)]; [discriminate|].
  rewrite O1. cbn [andb]. unfold bind at 1. unfold gets at 1.
  assert (X : negb (is_blank_or_breakz (nth 0 after 0%N)) && next_can_be_plain_scalar str_ops (c_src (cur pre after m (breaks g) s)) f = false).
  { destruct O3 as [O3| ->]; [|apply andb_false_r]. apply andb_false_intro1.
    unfold is_blank_or_breakz, is_blank, is_break, is_breakz, is_break in *. lia. }
  rewrite X. unfold bind at 1. unfold ret at 1. cbv beta iota. unfold bind at 1. rewrite e_peek, O2. reflexivity.
Qed.
Lemma newlines_col tr b e i more m : Forall white_byte more ->
  m_col (marker_after (fold_text (NewLines tr b e i more)) m) = (1 + N.of_nat i + N.of_nat (List.length more))%N.
Proof.
  intros W. cbn [fold_text]. rewrite !marker_after_app. rewrite (marker_flat more) by now apply white_no_lf.
  rewrite (marker_flat (repeat 32%N i)) by apply no_lf_spaces. rewrite repeat_length. unfold mark_add. cbn [m_col].
  rewrite empties_col by now destruct b. lia.
Qed.
Lemma stop_fits f n g after : plain_stop f n g after -> white_gap g.
Proof. now inversion 1. Qed.
Lemma stop_tabs f n g after : plain_stop f n g after -> comment_behind n g after -> tabs_behind n g \/ after = [].
Proof. 
  intros [g' W|g' r W G|g' r W T E|g' c r W T E FS|tr b e i c r W E LT X|tr b e r W D] C.
  - now right.
  - left. now apply C.
  - now left.
  - now left.
  - left. cbn. congruence.
  - left. cbn. congruence.
Qed.
Lemma gap_head g rest : white_gap g -> fold_text g <> [] -> let c := nth 0 (fold_text g ++ rest) 0%N in is_blank c || is_break c = true.
Proof.
  intros FF N c. subst c. destruct g as [bs|tr b e i more]; cbn [fold_text white_gap] in *.
  - destruct FF as [|x bs [-> | ->] _]; [congruence|reflexivity|reflexivity].
  - destruct FF as [FF _]. destruct FF as [|x tr [-> | ->] _]; [|reflexivity|reflexivity]. cbn [app]. rewrite <- app_assoc. destruct b; reflexivity.
Qed.
Lemma stop_head f n g after : plain_stop f n g after -> is_blank_or_break (nth 0 after 0%N) = false.
Proof.
  inversion 1; subst; try reflexivity.
  - match goal with H : flow_sign _ |- _ => apply is_flow_sign in H; unfold is_flow in H end. cbn [nth]. unfold is_blank_or_break. lia.
  - match goal with H : ~ In _ _ |- _ => cbn [In] in H end. cbn [nth]. unfold is_blank_or_break. lia.
  - match goal with H : doc_mark _ |- _ => destruct H as (r' & [-> | ->] & _) end; reflexivity.
Qed.
Lemma after_stop fuel indent f start string em n g after pre m s :
  plain_stop f n g after -> comment_behind n g after -> indent = (n + 1)%N -> List.length (fold_text g) + 3 < fuel ->
  after_word fuel indent f start string em (cur pre (fold_text g ++ after) m false s)
  = (cur (pre ++ fold_text g) after (marker_after (fold_text g) m) (breaks g) s, Ok (string, em)).
Proof.
  intros P CB EI F. pose proof (stop_fits _ _ _ _ P) as FF. unfold after_word. unfold bind at 1. rewrite e_peek.
  destruct (fold_text g) eqn:EG.
  - assert (g = Inline []) as -> by (destruct g as [bs|[|? ?] [|] e i more]; cbn in EG; congruence). cbn [breaks app marker_after].
    assert (X : is_blank (nth 0 after 0%N) || is_break (nth 0 after 0%N) = false).
    { pose proof (stop_head _ _ _ _ P) as H. unfold is_blank_or_break, is_blank, is_break in *. lia. }
    rewrite X, app_nil_r. reflexivity.
  - rewrite <- EG in *. rewrite (gap_head g after FF) by congruence. cbn [negb].
    destruct (blanks_gap indent start g fuel pre after m s) as (ws & lb & tb & E & _); [lia|exact FF|replace (indent - 1)%N with n by lia; eapply stop_tabs; eauto|eapply stop_head; eauto|lia|].
    unfold bind at 1. rewrite E. unfold bind at 1. rewrite e_get_mark.
    destruct (negb f && _) eqn:C; [reflexivity|]. destruct fuel as [|fuel]; [lia|]. eapply loop_stop; [exact P|].
    intros tr b e i c r -> -> -> LT. cbn [negb andb] in C. rewrite newlines_col in C by constructor. cbn [List.length] in C. lia.
Qed.
Lemma word_no_lf f w : Forall (word_char f) w -> ~ In 10%N w.
Proof. intros WC H. destruct (proj1 (Forall_forall _ _) WC _ H) as [X _]. apply X. cbn. auto. Qed.
Lemma words_stop f n g after ws : plain_stop f n g after -> plain_words f n ws (fold_text g ++ after) ->
  word_stop f (more_text ws ++ fold_text g ++ after).
Proof.
  intros P PW. destruct ws as [|[g2 w2] ws].
  - cbn [more_text flat_map app]. destruct (fold_text g) eqn:EG.
    + cbn [app]. assert (g = Inline []) as -> by (destruct g as [bs|[|? ?] [|] e i more]; cbn in EG; congruence).
      inversion P; subst; cbn [fold_text] in *; [left; reflexivity|congruence| |].
      * right. left. split; [reflexivity|assumption].
      * right. right. cbn [nth andb]. now apply is_flow_sign.
    + rewrite <- EG. left. pose proof (gap_head g after (stop_fits _ _ _ _ P) ltac:(congruence)) as X. cbv zeta in X.
      unfold is_blank_or_breakz, is_blank, is_break in *. lia.
  - cbn [plain_words] in PW. destruct PW as (FF2 & G2 & _). left.
    change (more_text ((g2, w2) :: ws)) with ((fold_text g2 ++ w2) ++ more_text ws). rewrite <- !app_assoc.
    pose proof (gap_head g2 (w2 ++ more_text ws ++ fold_text g ++ after) FF2 G2) as X. cbv zeta in X.
    unfold is_blank_or_breakz, is_blank, is_break in *. lia.
Qed.
Lemma after_words indent f start n g after : plain_stop f n g after -> comment_behind n g after -> indent = (n + 1)%N ->
  forall ws fuel string em pre m s, plain_words f n ws (fold_text g ++ after) -> no_look_alikes f ws (fold_text g ++ after) -> (indent <= m_col m)%N ->
  List.length (more_text ws ++ fold_text g) + 4 < fuel ->
  after_word fuel indent f start string em (cur pre (more_text ws ++ fold_text g ++ after) m false s)
  = (cur (pre ++ more_text ws ++ fold_text g) after (marker_after (more_text ws ++ fold_text g) m) (breaks g) s,
     Ok (string ++ more_value ws, match ws with [] => em | _ => marker_after (more_text ws) m end)).
Proof.
  intros P CB EI. induction ws as [|[g1 w1] ws IH]; intros fuel string em pre m s PW NL CM F.
  - cbn [more_text more_value flat_map app] in *. rewrite app_nil_r. eapply after_stop; eauto. lia.
  - cbn [plain_words no_look_alikes] in *. destruct PW as (FF & G0 & IN & _ & WO & PW). destruct NL as (DM & ND & NL).
    change (more_text ((g1, w1) :: ws)) with ((fold_text g1 ++ w1) ++ more_text ws) in *.
    change (more_value ((g1, w1) :: ws)) with ((fold_value g1 ++ w1) ++ more_value ws).
    rewrite <- !app_assoc in *. rewrite !app_length in F. unfold after_word. unfold bind at 1. rewrite e_peek.
    rewrite (gap_head g1 _ FF G0). cbn [negb].
    assert (W0 : is_blank_or_break (nth 0 (w1 ++ more_text ws ++ fold_text g ++ after) 0%N) = false).
    { destruct WO as (W0 & WC & _). destruct WC as [|b w1 Pb _]; [congruence|]. cbn [app nth].
      destruct (word_char_facts f b Pb) as [X _]. unfold is_blank_or_breakz, is_blank_or_break, is_blank, is_break in *. lia. }
    destruct (blanks_gap indent start g1 fuel pre (w1 ++ more_text ws ++ fold_text g ++ after) m s) as (bw & lb & tb & E & PE & B1 & B2); [lia|exact FF|left; replace (indent - 1)%N with n by lia; destruct g1; [exact I|intros _; exact IN]|exact W0|lia|].
    unfold bind at 1. rewrite E. unfold bind at 1. rewrite e_get_mark.
    assert (ST : word_stop f (more_text ws ++ fold_text g ++ after)) by (eapply words_stop; eauto).
    assert (C : (indent <= m_col (marker_after (fold_text g1) m))%N).
    { destruct g1 as [bs|tr b e i more]; cbn [indented white_gap] in *.
      - cbn [fold_text]. rewrite marker_flat by now apply white_no_lf. unfold mark_add. cbn [m_col]. lia.
      - rewrite newlines_col by tauto. lia. }
    rewrite (proj2 (N.ltb_ge _ _) C), andb_false_r. destruct fuel as [|fuel]; [lia|].
    rewrite loop_word; [|exact WO|exact ND|exact ST|intros L; split; [now apply B1|now apply DM]|exact B2|lia].
    rewrite PE.
    assert (NW : ~ In 10%N w1).
    { destruct WO as (_ & WC & _). intros H. destruct (proj1 (Forall_forall _ _) WC _ H) as [X _]. apply X. cbn. auto. }
    rewrite IH; [|exact PW|exact NL|unfold mark_add; cbn [m_col]; lia|rewrite app_length; destruct WO as (W1 & _); destruct w1; [congruence|cbn [List.length] in *; lia]].
    rewrite <- !app_assoc. f_equal.
    + f_equal. rewrite !marker_after_app. now rewrite (marker_flat w1).
    + f_equal. f_equal. rewrite !marker_after_app, (marker_flat w1) by exact NW. destruct ws; reflexivity.
Qed.
Theorem plain_scanned fuel n f w ws g after pre m l s :
  plain_word f w (nth 0 (more_text ws ++ fold_text g ++ after) 0%N) -> plain_words f n ws (fold_text g ++ after) -> plain_stop f n g after ->
  comment_behind n g after -> no_dash f w (nth 0 (more_text ws ++ fold_text g ++ after) 0%N) -> no_look_alikes f ws (fold_text g ++ after) ->
  (l = true -> ~ doc_mark (w ++ more_text ws ++ fold_text g ++ after)) ->
  (n <= m_col m)%N -> (f = true -> n < m_col m)%N ->
  List.length (w ++ more_text ws ++ fold_text g) + 5 < fuel ->
  let t := w ++ more_text ws in
  scan_plain_scalar fuel n f (cur pre (t ++ fold_text g ++ after) m l s)
  = (cur (pre ++ t ++ fold_text g) after (marker_after (t ++ fold_text g) m) (breaks g) (s || breaks g),
     Ok (Token (Span m (marker_after t m)) (TScalar Plain (w ++ more_value ws)))).
Proof.
  intros WO PW P CB ND NL DM CN CF F t. unfold scan_plain_scalar. unfold bind at 1. rewrite e_get_mark.
  assert (X : f && (m_col m <? n + 1)%N = false) by (destruct f; [specialize (CF eq_refl); lia|reflexivity]).
  rewrite X. destruct fuel as [|fuel]; [lia|]. unfold t. rewrite <- !app_assoc.
  unfold bind at 1. rewrite loop_word; [|exact WO|exact ND|eapply words_stop; eauto|intros L; split; [reflexivity|now apply DM]|auto|rewrite app_length in F; lia].
  assert (W1 : w <> []) by apply WO.
  assert (NW : ~ In 10%N w) by (apply (word_no_lf f); apply WO).
  rewrite (after_words (n + 1) f m n g after P CB eq_refl ws); [|exact PW|exact NL| |rewrite app_length in F; destruct w; [congruence|cbn [List.length] in F; lia]].
  2:{ destruct w; [congruence|]. unfold mark_add. cbn [m_col List.length]. lia. }
  assert (PE : pending l [] [] [] = []) by now destruct l. rewrite PE. cbn [app].
  unfold bind at 1. unfold gets at 1.
  match goal with |- context [c_lead (cur ?a ?b ?c ?d ?e)] => change (c_lead (cur a b c d e)) with d end.
  rewrite !marker_after_app, (marker_flat w m NW), <- app_assoc.
  assert (V : exists x r, w ++ more_value ws = x :: r) by (destruct w; [congruence|]; do 2 eexists; reflexivity).
  destruct V as (x & r & V). rewrite V. destruct (breaks g); unfold bind at 1; [rewrite e_set_ska, orb_true_r|unfold ret at 1; rewrite orb_false_r]; destruct ws; reflexivity.
Qed.
