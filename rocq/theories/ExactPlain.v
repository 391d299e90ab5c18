(** Exact runs of [scan_plain_scalar] and [skip_to_next_token] on texts whose next bytes are known. *)
From Verif Require Import Base Tokens Scalar Chars Source Cursor ExactCursor SpecQuoted FoldedQuotes.
From Coq Require Import String Lia ZifyBool ZifyNat ZifyN.
Local Open Scope m_scope.
Local Open Scope list_scope.

(** ** White space between tokens *)
Definition has_lf (g : text) : bool := existsb (N.eqb 10) g.
Definition white (g : text) : Prop := Forall (fun b => b = 32%N \/ b = 10%N) g.
(** A byte that begins a token (or the end of the text). *)
Definition begins (b : N) : Prop := ~ In b [32; 9; 10; 13; 35]%N.

Lemma e_set_ska v pre rest m l s : set_ska v (cur pre rest m l s) = (cur pre rest m l v, Ok tt).
Proof. reflexivity. Qed.
Lemma e_set_lead v pre rest m l s : set_lead v (cur pre rest m l s) = (cur pre rest m v s, Ok tt).
Proof. reflexivity. Qed.
Lemma begins_not b : begins b -> (b =? 32)%N = false /\ (b =? 9)%N = false /\ (b =? 10)%N = false /\
  (b =? 13)%N = false /\ (b =? 35)%N = false.
Proof. unfold begins. cbn [In]. intros H. repeat split; apply N.eqb_neq; intros ->; apply H; auto 6. Qed.
Lemma e_next_white ib ind : forall g fuel pre rest m l s,
  white g -> begins (nth 0 rest 0%N) -> List.length g < fuel ->
  skip_to_next_token fuel ib ind 0 (cur pre (g ++ rest) m l s)
  = (cur (pre ++ g) rest (marker_after g m) (l || has_lf g) (s || has_lf g), Ok tt).
Proof.
  induction g as [|b g IH]; intros fuel pre rest m l s W B F; (destruct fuel as [|fuel]; [cbn in F; lia|]);
    cbn [skip_to_next_token List.length] in *.
  - destruct (begins_not _ B) as (B1 & B2 & B3 & B4 & B5). unfold bind. rewrite e_peek.
    unfold gets. rewrite e_get_mark. cbn [app]. rewrite B2, B1, B3, B4, B5. cbn [andb orb].
    cbn [has_lf existsb marker_after]. rewrite !orb_false_r, app_nil_r. reflexivity.
  - inversion_clear W as [|? ? Wb Wg]. cbn [app]. unfold bind at 1. rewrite e_peek. cbn [nth].
    unfold bind at 1. unfold gets at 1. unfold bind at 1. rewrite e_get_mark. destruct Wb as [-> | ->].
    + change ((32 =? 9)%N) with false. change ((32 =? 32)%N) with true. cbn [andb orb].
      unfold bind at 1. rewrite e_skip_blank. rewrite IH by (auto; lia).
      rewrite marker_step by discriminate. rewrite <- app_assoc. reflexivity.
    + change ((10 =? 9)%N) with false. change ((10 =? 32)%N) with false. change ((10 =? 10)%N) with true. cbn [andb orb].
      unfold bind at 1. rewrite e_skip_lf. change ((0 =? 0)%N) with true. cbv iota.
      unfold bind at 1. rewrite e_set_ska. rewrite IH by (auto; lia).
      rewrite marker_lf, <- app_assoc. cbn [app has_lf existsb]. change ((10 =? 10)%N) with true.
      cbn [orb]. rewrite !orb_true_r. reflexivity.
Qed.
(** In a flow collection. *)
Lemma e_next_none ib ind flow fuel pre rest m l s : begins (nth 0 rest 0%N) ->
  skip_to_next_token (S fuel) ib ind flow (cur pre rest m l s) = (cur pre rest m l s, Ok tt).
Proof.
  intros B. destruct (begins_not _ B) as (B1 & B2 & B3 & B4 & B5). cbn [skip_to_next_token].
  unfold bind. rewrite e_peek. unfold gets. rewrite e_get_mark. rewrite B2, B1, B3, B4, B5. reflexivity.
Qed.
Lemma white_app a b : white a -> white b -> white (a ++ b).
Proof. intros. apply Forall_app. auto. Qed.
Lemma white_spaces k : white (repeat 32%N k).
Proof. apply Forall_forall. intros x H. apply repeat_spec in H. auto. Qed.
Lemma has_lf_app a b : has_lf (a ++ b) = has_lf a || has_lf b.
Proof. apply existsb_app. Qed.
Lemma has_lf_spaces k : has_lf (repeat 32%N k) = false.
Proof. induction k; [reflexivity|exact IHk]. Qed.

(** ** Plain scalars *)
Definition plain_byte (b : N) : Prop := ~ In b [32; 9; 10; 13; 0; 58]%N.
(** What ends a word of a plain scalar. *)
Definition word_ends (rest : text) : Prop :=
  is_blank_or_breakz (nth 0 rest 0%N) = true \/
  (nth 0 rest 0%N = 58%N /\ is_blank_or_breakz (nth 1 rest 0%N) = true).
Lemma can_be pre rest m l s : next_can_be_plain_scalar str_ops (c_src (cur pre rest m l s)) false
  = negb ((nth 0 rest 0%N =? 58)%N && is_blank_or_breakz (nth 1 rest 0%N)).
Proof.
  unfold next_can_be_plain_scalar. rewrite !cur_peek. rewrite andb_false_l, orb_false_r, andb_false_l.
  now destruct ((nth 0 rest 0%N =? 58)%N && is_blank_or_breakz (nth 1 rest 0%N)).
Qed.
Lemma plain_byte_facts b : plain_byte b -> is_blank_or_breakz b = false /\ (b =? 58)%N = false.
Proof. unfold plain_byte, is_blank_or_breakz, is_blank, is_break. cbn [In]. lia. Qed.
Lemma e_content : forall w fuel string pre rest m s, Forall plain_byte w -> word_ends rest ->
  List.length w < fuel ->
  plain_content fuel false string (cur pre (w ++ rest) m false s)
  = (cur (pre ++ w) rest (mark_add (List.length w) m) false s, Ok (string ++ w)).
Proof.
  induction w as [|b w IH]; intros fuel string pre rest m s FW E F; (destruct fuel as [|fuel]; [cbn in F; lia|]);
    cbn [plain_content List.length app] in *.
  - unfold bind, gets. rewrite e_peek, can_be. rewrite mark_add_0, !app_nil_r.
    assert (X : is_blank_or_breakz (nth 0 rest 0%N) || negb (negb ((nth 0 rest 0%N =? 58)%N && is_blank_or_breakz (nth 1 rest 0%N))) = true).
    { destruct E as [-> | [-> ->]]; [reflexivity|]. change ((58 =? 58)%N) with true. apply orb_true_r. }
    now rewrite X.
  - inversion_clear FW as [|? ? Pb Pw]. destruct (plain_byte_facts b Pb) as [X Y].
    unfold bind, gets. rewrite e_peek, can_be. cbn [nth]. rewrite X, Y. cbn [andb negb orb].
    rewrite e_peek_or_space, e_skip_non_blank. rewrite IH by (auto; lia).
    rewrite mark_add_add, <- !app_assoc. reflexivity.
Qed.
Lemma e_plain_blanks indent start : forall bs fuel ws lb tb pre rest m s,
  Forall blank_byte bs -> is_blank_or_break (nth 0 rest 0%N) = false -> List.length bs < fuel ->
  plain_blanks fuel indent start ws lb tb (cur pre (bs ++ rest) m false s)
  = (cur (pre ++ bs) rest (mark_add (List.length bs) m) false s, Ok (ws ++ bs, lb, tb)).
Proof.
  induction bs as [|b bs IH]; intros fuel ws lb tb pre rest m s FB A F;
    (destruct fuel as [|fuel]; [cbn in F; lia|]); cbn [plain_blanks app List.length] in *.
  - unfold bind, gets. rewrite e_peek. rewrite e_get_mark. rewrite A. rewrite mark_add_0, !app_nil_r. reflexivity.
  - inversion_clear FB as [|? ? Hb Hbs]. unfold bind, gets. rewrite e_peek, e_get_mark. cbn [nth].
    assert (X : is_blank b = true) by (unfold blank_byte in Hb; unfold is_blank; lia).
    assert (Y : is_blank_or_break b = true) by (unfold blank_byte in Hb; unfold is_blank_or_break; lia).
    rewrite X, Y. unfold cur at 1, c_lead. cbn [negb]. fold (cur pre (b :: bs ++ rest) m false s).
    rewrite e_peek_or_space, e_skip_blank. rewrite IH by (auto; lia).
    rewrite mark_add_add, <- !app_assoc. reflexivity.
Qed.
Lemma e_plain_spaces indent start ws lb tb : forall k fuel pre rest m s,
  is_blank_or_break (nth 0 rest 0%N) = false -> k < fuel ->
  plain_blanks fuel indent start ws lb tb (cur pre (repeat 32%N k ++ rest) m true s)
  = (cur (pre ++ repeat 32%N k) rest (mark_add k m) true s, Ok (ws, lb, tb)).
Proof.
  induction k as [|k IH]; intros fuel pre rest m s A F; (destruct fuel as [|fuel]; [lia|]); cbn [plain_blanks repeat app].
  - unfold bind, gets. rewrite e_peek. rewrite e_get_mark. rewrite A. rewrite mark_add_0, !app_nil_r. reflexivity.
  - unfold bind, gets. rewrite e_peek, e_get_mark. cbn [nth].
    change (is_blank_or_break 32) with true. change (is_blank 32) with true. change ((32 =? 9)%N) with false.
    rewrite andb_false_r. unfold cur at 1, c_lead. cbn [negb]. fold (cur pre (32%N :: repeat 32%N k ++ rest) m true s).
    rewrite e_skip_blank. rewrite IH by (auto; lia).
    rewrite mark_add_add, <- !app_assoc. reflexivity.
Qed.
(** What follows a plain scalar: nothing, a colon before white space, or a line break and a line
    whose indentation is less than [indent]. *)
Inductive plain_end (indent : N) : text -> text -> Prop :=
| pe_end : plain_end indent [] []
| pe_colon x : is_blank_or_breakz (nth 0 x 0%N) = true -> plain_end indent [] (58%N :: x)
| pe_line k b r : ~ In b [32; 9; 10; 13]%N -> (1 + N.of_nat k < indent)%N ->
    plain_end indent (10%N :: repeat 32%N k) (b :: r).

Lemma plain_tail indent start g rest fuel pre m s ws : plain_end indent g rest ->
  List.length g < fuel ->
  forall (string : text) (end_mark : marker) (next : text -> text -> text -> CM (text * marker)),
  (let* c := peek 0 in
   if negb (is_blank c || is_break c) then ret (string, end_mark)
   else
     let* (ws, lb, tb) := plain_blanks fuel indent start ws [] [] in
     let* m := get_mark in
     if negb false && (m_col m <? indent)%N then ret (string, end_mark)
     else next ws lb tb) (cur pre (g ++ rest) m false s)
  = (cur (pre ++ g) rest (marker_after g m) (has_lf g) s, Ok (string, end_mark)).
Proof.
  intros E F string end_mark next. inversion E; subst.
  - unfold bind. rewrite e_peek. cbn. now rewrite cur_nil.
  - unfold bind. rewrite e_peek. cbn [nth app]. change (is_blank 58) with false. change (is_break 58) with false.
    cbn. now rewrite cur_nil.
  - unfold bind at 1. rewrite e_peek. cbn [nth app]. change (is_blank 10) with false. change (is_break 10) with true.
    cbn [orb negb]. cbn [List.length] in F. rewrite repeat_length in F. destruct fuel as [|fuel]; [lia|].
    unfold bind at 1. cbn [plain_blanks]. unfold bind at 1. rewrite e_peek. cbn [nth].
    unfold bind at 1. unfold gets at 1. unfold bind at 1. rewrite e_get_mark.
    change (is_blank_or_break 10) with true. change (is_blank 10) with false. cbv iota.
    unfold cur at 1, c_lead. fold (cur pre (10%N :: repeat 32%N k ++ b :: r) m false s).
    unfold bind at 1. rewrite e_skip_lf. unfold bind at 1. rewrite e_set_lead.
    rewrite e_plain_spaces; [|unfold is_blank_or_break; cbn [nth]; match goal with H : ~ In _ _ |- _ => cbn [In] in H end; lia|lia].
    unfold bind at 1. rewrite e_get_mark. cbn [negb andb].
    assert (C : (m_col (mark_add k (mark_newline 1 m)) <? indent)%N = true) by (unfold mark_add, mark_newline; cbn [Base.m_col]; lia).
    rewrite C. unfold ret. rewrite <- app_assoc. rewrite marker_lf, marker_flat by apply no_lf_spaces.
    rewrite repeat_length. cbn [app has_lf existsb]. change ((10 =? 10)%N) with true. reflexivity.
Qed.

(** A plain scalar on one line: words and blanks; it begins and ends with a word. *)
Definition inner_byte (b : N) : Prop := ~ In b [10; 13; 0; 58; 35]%N.
Definition plain_line (t : text) : Prop :=
  Forall inner_byte t /\ ~ blank_byte (nth 0 t 32%N) /\ ~ blank_byte (last t 32%N).
Lemma plain_end_word indent g rest : plain_end indent g rest -> word_ends (g ++ rest).
Proof.
  intros E. inversion E; subst; cbn [app]; [left; reflexivity|right; split; auto|left; reflexivity].
Qed.
Lemma blank_byte_dec b : blank_byte b \/ ~ blank_byte b.
Proof. unfold blank_byte. destruct (N.eq_dec b 32); [tauto|]. destruct (N.eq_dec b 9); tauto. Qed.
Lemma last_app_cons {A} (a : list A) x r d : last (a ++ x :: r) d = last (x :: r) d.
Proof.
  induction a as [|y a IH]; [reflexivity|]. rewrite <- IH. cbn [app].
  destruct (a ++ x :: r) eqn:E; [now destruct a|reflexivity].
Qed.
Lemma forall_last {A} (P : A -> Prop) d : forall l, Forall P l -> l <> [] -> P (last l d).
Proof.
  induction l as [|x l IH]; [congruence|]. intros F _. inversion_clear F as [|? ? Px Pl].
  destruct l as [|y l]; [exact Px|]. apply IH; [exact Pl|discriminate].
Qed.
Lemma plain_loop_line indent start g rest : plain_end indent g rest ->
  forall n t fuel string ws pre m l s em,
  List.length t <= n -> List.length t + List.length g + 1 < fuel -> plain_line t -> (indent <= m_col m + 1)%N ->
  (l = true -> string = [] /\ ws = [] /\
     next_is_document_indicator str_ops (c_src (cur pre (t ++ g ++ rest) m l s)) = false) ->
  let m' := mark_add (List.length t) m in
  plain_loop fuel indent false start string ws [] [] em (cur pre (t ++ g ++ rest) m l s)
  = (cur (pre ++ t ++ g) rest (marker_after g m') (has_lf g) s, Ok (string ++ ws ++ t, m')).
Proof.
  intros E. induction n as [|n IH]; intros t fuel string ws pre m l s em Hn F (PI & PF & PL) CM HL m'.
  { destruct t; [|cbn in Hn; lia]. exfalso. apply PF. now left. }
  destruct (word_blanks blank_byte blank_byte_dec t) as (w & bs & r & -> & Fw & Fb & Hbr & Hr).
  destruct w as [|b w].
  { exfalso. apply PF. destruct bs as [|x bs]; [rewrite (Hbr eq_refl); now left|]. now inversion_clear Fb. }
  destruct fuel as [|fuel]; [lia|].
  inversion_clear Fw as [|? ? Bb Bw].
  apply Forall_app in PI. destruct PI as [PIw PIr]. apply Forall_app in PIr. destruct PIr as [_ PIr].
  inversion_clear PIw as [|? ? Ib Iw].
  assert (Pb : plain_byte b). { unfold plain_byte, inner_byte, blank_byte in *. cbn [In] in *. intuition. }
  assert (Pw : Forall plain_byte w).
  { rewrite Forall_forall in *. intros x Hx. specialize (Iw x Hx). specialize (Bw x Hx).
    unfold plain_byte, inner_byte, blank_byte in *. cbn [In] in *. intuition. }
  destruct (plain_byte_facts b Pb) as [X Y].
  assert (H35 : (b =? 35)%N = false) by (unfold inner_byte in Ib; cbn [In] in Ib; lia).
  assert (WE : word_ends (bs ++ r ++ g ++ rest)).
  { destruct bs as [|x bs]; [rewrite (Hbr eq_refl); apply (plain_end_word _ _ _ E)|]. left. cbn [app nth].
    inversion_clear Fb as [|? ? Bx _]. destruct Bx as [-> | ->]; reflexivity. }
  cbn [plain_loop]. unfold bind at 1. unfold gets at 1. unfold bind at 1. unfold gets at 1.
  assert (IND : c_lead (cur pre (((b :: w) ++ bs ++ r) ++ g ++ rest) m l s)
    && next_is_document_indicator str_ops (c_src (cur pre (((b :: w) ++ bs ++ r) ++ g ++ rest) m l s)) = false).
  { destruct l; [|reflexivity]. now destruct (HL eq_refl) as (_ & _ & ->). }
  unfold bind at 1. rewrite e_peek. unfold bind at 1. rewrite e_peek. unfold bind at 1. rewrite e_get_mark.
  rewrite IND. rewrite <- !app_assoc. cbn [app nth]. rewrite H35. cbn [orb andb].
  unfold bind at 1. unfold gets at 1. rewrite can_be. cbn [nth]. rewrite X, Y. cbn [andb negb].
  (* the word *)
  match goal with |- bind ?a ?k _ = _ => assert (WD : a (cur pre (b :: w ++ bs ++ r ++ g ++ rest) m l s)
    = (cur (pre ++ b :: w) (bs ++ r ++ g ++ rest) (mark_add (List.length (b :: w)) m) false s,
       Ok (string ++ ws ++ b :: w, [], [], [], mark_add (List.length (b :: w)) m))) end.
  { assert (HH : forall (st : text), (let* b0 := peek_or_space in
       skip_non_blank ;;;
       let* string0 := plain_content fuel false (st ++ [b0]) in
       let* e := get_mark in ret (string0, @nil N, @nil N, @nil N, e)) (cur pre (b :: w ++ bs ++ r ++ g ++ rest) m l s)
     = (cur (pre ++ b :: w) (bs ++ r ++ g ++ rest) (mark_add (List.length (b :: w)) m) false s,
       Ok (st ++ b :: w, [], [], [], mark_add (List.length (b :: w)) m))).
    { intros st. unfold bind. rewrite e_peek_or_space, e_skip_non_blank.
      rewrite e_content; [|exact Pw|exact WE|rewrite !app_length in F; cbn [List.length] in F; lia].
      rewrite e_get_mark. unfold ret. rewrite mark_add_add, <- !app_assoc. reflexivity. }
    unfold bind at 1. destruct l.
    - destruct (HL eq_refl) as (-> & -> & _). unfold cur at 1, c_lead. fold (cur pre (b :: w ++ bs ++ r ++ g ++ rest) m true s).
      unfold bind at 1. rewrite e_set_lead. unfold ret at 1. cbn [app].
      specialize (HH []). unfold bind. rewrite e_peek_or_space, e_skip_non_blank.
      rewrite e_content; [|exact Pw|exact WE|rewrite !app_length in F; cbn [List.length] in F; lia].
      rewrite e_get_mark. unfold ret. rewrite mark_add_add, <- !app_assoc. reflexivity.
    - unfold cur at 1, c_lead. fold (cur pre (b :: w ++ bs ++ r ++ g ++ rest) m false s).
      destruct ws as [|x ws].
      + unfold ret at 1. rewrite HH. reflexivity.
      + unfold ret at 1. rewrite HH. rewrite <- app_assoc. reflexivity. }
  unfold bind at 1. rewrite WD. clear WD.
  destruct bs as [|x bs].
  - specialize (Hbr eq_refl). subst r. cbn [app].
    rewrite (plain_tail indent start g rest fuel) by (auto; rewrite !app_length in F; cbn [List.length] in F; lia).
    rewrite <- !app_assoc. unfold m'. rewrite !app_nil_r. reflexivity.
  - assert (RB : r <> []).
    { intros ->. apply PL. rewrite app_nil_r, last_app_cons. apply forall_last; [exact Fb|discriminate]. }
    destruct r as [|y r]; [congruence|].
    pose proof (Hr y r eq_refl) as Ny.
    assert (Iy : inner_byte y) by now inversion_clear PIr.
    inversion_clear Fb as [|? ? Bx Fb'].
    unfold bind at 1. rewrite e_peek. cbn [app nth].
    assert (BX : is_blank x = true) by (unfold blank_byte in Bx; unfold is_blank; lia).
    rewrite BX. cbn [orb negb]. unfold bind at 1.
    change (x :: bs ++ y :: r ++ g ++ rest) with ((x :: bs) ++ y :: r ++ g ++ rest).
    rewrite !app_length in F; cbn [List.length] in F.
    rewrite (e_plain_blanks indent start (x :: bs)); [|now constructor| |cbn [List.length]; lia].
    2:{ cbn [nth]. unfold is_blank_or_break. unfold inner_byte, blank_byte in *. cbn [In] in Iy. lia. }
    unfold bind at 1. rewrite e_get_mark. cbn [negb andb].
    match goal with |- (if ?b then _ else _) _ = _ => assert (CI : b = false) end.
    { unfold mark_add. cbn [Base.m_col List.length]. lia. }
    rewrite CI.
    change (y :: r ++ g ++ rest) with ((y :: r) ++ g ++ rest).
    rewrite IH; [| | | | |discriminate].
    + cbn [app]. rewrite mark_add_add, mark_add_add, <- !app_assoc. cbn [app]. unfold m'. rewrite !app_length. cbn [List.length].
      rewrite ?app_length. cbn [List.length].
      repeat f_equal; lia.
    + rewrite !app_length in Hn. cbn [List.length] in *. lia.
    + cbn [List.length]. lia.
    + split; [exact PIr|]. split; [exact Ny|]. intros H. apply PL. now rewrite app_assoc, last_app_cons.
    + unfold mark_add. cbn [Base.m_col]. lia.
Qed.

Lemma e_plain i g rest t fuel pre m l s : plain_end (i + 1) g rest -> plain_line t -> (i <= m_col m)%N ->
  List.length t + List.length g + 1 < fuel ->
  (l = true -> next_is_document_indicator str_ops (c_src (cur pre (t ++ g ++ rest) m l s)) = false) ->
  let m' := mark_add (List.length t) m in
  scan_plain_scalar fuel i false (cur pre (t ++ g ++ rest) m l s)
  = (cur (pre ++ t ++ g) rest (marker_after g m') (has_lf g) (s || has_lf g),
     Ok (Token (Span m m') (TScalar Plain t))).
Proof.
  intros E P I F D m'. unfold scan_plain_scalar. unfold bind at 1. rewrite e_get_mark. cbn [andb].
  unfold bind at 1. rewrite (plain_loop_line (i + 1) m g rest E (List.length t)); [|reflexivity|exact F|exact P|lia|auto].
  cbn [app]. unfold bind at 1. unfold gets at 1. unfold cur at 1, c_lead.
  fold (cur (pre ++ t ++ g) rest (marker_after g m') (has_lf g) s).
  assert (T : t <> []) by (intros ->; destruct P as (_ & P & _); apply P; now left).
  destruct (has_lf g).
  - unfold bind. rewrite e_set_ska, orb_true_r. now destruct t.
  - unfold bind, ret. rewrite orb_false_r. now destruct t.
Qed.
