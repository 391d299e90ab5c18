(** Whatever the scanner accepts as a block scalar is one. *)
From Verif Require Import Base Tokens Scalar Chars Source Cursor SpecScalar SpecJson SpecQuoted SpecBlock SpecPlain SpecStrings SpecProps SpecAccept
  ExactCursor FoldedQuotes ExactPlain JsonCursor BlockScan BlockCut PlainScan SpecLayout LayoutCursor StringScan PropsScan QuotedOnly PropsOnly PlainOnly.
From Coq Require Import String Lia ZifyBool ZifyNat ZifyN.
Local Open Scope list_scope.
Local Open Scope m_scope.

Lemma header_ok start pre rest m l s c' ch inc : block_header start (cur pre rest m l s) = (c', Ok (ch, inc)) ->
  exists h e digit rest' l', rest = h ++ rest' /\ indicators h e digit /\ ch = chomp_of e /\ inc = match digit with Some d => d | None => 0%N end /\
    c' = cur (pre ++ h) rest' (mark_add (List.length h) m) l' s.
Proof.
  unfold block_header. intros H. peeked H. destruct ((nth 0 rest 0 =? 43)%N || (nth 0 rest 0 =? 45)%N) eqn:CS.
  - destruct rest as [|b rest]; [discriminate|]. cbn [nth] in *. next_step H c1 u E. rewrite e_skip_non_blank in E. injection E as <- <-. peeked H.
    assert (X : exists e, chomp_sign b e /\ (if (b =? 43)%N then Keep else Strip) = chomp_of e).
    { destruct (N.eqb_spec b 43) as [-> |]; [exists Kept; split; [constructor|reflexivity]|]. assert (b = 45%N) by lia. subst b. exists Stripped. split; [constructor|reflexivity]. }
    destruct X as (e & SG & EC). rewrite EC in H. clear EC. destruct (is_ascii_digit (nth 0 rest 0%N)) eqn:DG.
    + destruct (nth 0 rest 0 =? 48)%N eqn:Z; [discriminate|]. destruct rest as [|d rest]; [discriminate|]. cbn [nth] in *. next_step H c1 u E. rewrite e_skip_non_blank in E. injection E as <- <-. injection H as <- <- <-.
      unfold is_ascii_digit in DG. exists [b; d], e, (Some (d - 48)%N), rest, false. split; [reflexivity|]. split.
      { replace d with (48 + (d - 48))%N at 1 by lia. constructor; [exact SG|lia]. }
      split; [reflexivity|]. split; [reflexivity|]. rewrite <- app_assoc, mark_add_add. reflexivity.
    + injection H as <- <- <-. exists [b], e, None, rest, false. split; [reflexivity|]. split; [now constructor|]. parts.
  - destruct (is_ascii_digit (nth 0 rest 0%N)) eqn:DG.
    + destruct (nth 0 rest 0 =? 48)%N eqn:Z; [discriminate|]. destruct rest as [|d rest]; [discriminate|]. cbn [nth] in *. next_step H c1 u E. rewrite e_skip_non_blank in E. injection E as <- <-. peeked H.
      unfold is_ascii_digit in DG. assert (D : d = (48 + (d - 48))%N) by lia. destruct ((nth 0 rest 0 =? 43)%N || (nth 0 rest 0 =? 45)%N) eqn:C2.
      * destruct rest as [|b rest]; [discriminate|]. cbn [nth] in *. next_step H c1 u E. rewrite e_skip_non_blank in E. injection E as <- <-. injection H as <- <- <-.
        assert (X : exists e, chomp_sign b e /\ (if (b =? 43)%N then Keep else Strip) = chomp_of e).
        { destruct (N.eqb_spec b 43) as [-> |]; [exists Kept; split; [constructor|reflexivity]|]. assert (b = 45%N) by lia. subst b. exists Stripped. split; [constructor|reflexivity]. }
        destruct X as (e & SG & EC). exists [d; b], e, (Some (d - 48)%N), rest, false. split; [reflexivity|]. split; [rewrite D at 1; constructor; [exact SG|lia]|]. split; [exact EC|]. split; [reflexivity|].
        rewrite <- app_assoc, mark_add_add. reflexivity.
      * injection H as <- <- <-. exists [d], Clipped, (Some (d - 48)%N), rest, false. split; [reflexivity|]. split; [rewrite D at 1; constructor; lia|]. parts.
    + injection H as <- <- <-. exists [], Clipped, None, rest, l. split; [reflexivity|]. split; [constructor|]. rewrite app_nil_r, mark_add_0. parts.
Qed.

(** ** Spaces *)
Lemma repeat_add {A} (x : A) a b : repeat x (a + b) = repeat x a ++ repeat x b.
Proof. induction a as [|a IH]; [reflexivity|]. cbn [Nat.add repeat app]. now rewrite IH. Qed.
Lemma spaces_ok : forall fuel pre rest m l s c' u, skip_spaces fuel (cur pre rest m l s) = (c', Ok u) ->
  exists k rest', rest = repeat 32%N k ++ rest' /\ nth 0 rest' 0%N <> 32%N /\ c' = cur (pre ++ repeat 32%N k) rest' (mark_add k m) l s.
Proof.
  induction fuel as [|fuel IH]; intros pre rest m l s c' u H; [discriminate|]. cbn [skip_spaces] in H. peeked H. destruct (nth 0 rest 0 =? 32)%N eqn:Q.
  - destruct rest as [|b rest]; [discriminate|]. cbn [nth] in Q. apply N.eqb_eq in Q. subst b. next_step H c1 u1 E. rewrite e_skip_blank in E. injection E as <- <-. apply IH in H.
    destruct H as (k & rest' & -> & N & ->). exists (S k), rest'. cbn [repeat app]. split; [reflexivity|]. split; [exact N|]. rewrite <- app_assoc, mark_add_add. reflexivity.
  - injection H as <- _. exists 0, rest. cbn [repeat app]. rewrite app_nil_r, mark_add_0. split; [reflexivity|]. split; [now apply N.eqb_neq|reflexivity].
Qed.
Lemma indent_ok i : forall fuel pre rest m l s c' u, indent_spaces fuel i (cur pre rest m l s) = (c', Ok u) -> (m_col m <= i)%N ->
  exists k rest', rest = repeat 32%N k ++ rest' /\ (m_col m + N.of_nat k <= i)%N /\ (nth 0 rest' 0%N = 32%N -> m_col m + N.of_nat k = i)%N /\ c' = cur (pre ++ repeat 32%N k) rest' (mark_add k m) l s.
Proof.
  induction fuel as [|fuel IH]; intros pre rest m l s c' u H L; [discriminate|]. cbn [indent_spaces] in H. next_step H c1 m1 E. rewrite e_get_mark in E. injection E as <- <-. peeked H.
  destruct ((m_col m <? i)%N && (nth 0 rest 0 =? 32)%N) eqn:Q.
  - apply andb_prop in Q. destruct Q as [Q1 Q]. destruct rest as [|b rest]; [discriminate|]. cbn [nth] in Q. apply N.eqb_eq in Q. subst b. next_step H c1 u1 E. rewrite e_skip_blank in E. injection E as <- <-.
    apply IH in H; [|unfold mark_add; cbn [m_col]; lia].
    destruct H as (k & rest' & -> & N & M & ->). unfold mark_add in N, M. cbn [m_col] in N, M. exists (S k), rest'. cbn [repeat app]. split; [reflexivity|]. split; [lia|]. split; [intros X; specialize (M X); lia|].
    rewrite <- app_assoc, mark_add_add. reflexivity.
  - injection H as <- _. exists 0, rest. cbn [repeat app]. rewrite app_nil_r, mark_add_0. split; [reflexivity|]. split; [lia|]. split; [intros X; rewrite X in Q; lia|reflexivity].
Qed.
Lemma wide_ok i : forall fuel pre rest m l s c' u, wide_spaces fuel i (cur pre rest m l s) = (c', Ok u) -> (m_col m <= i)%N ->
  exists k rest', rest = repeat 32%N k ++ rest' /\ (m_col m + N.of_nat k <= i)%N /\ (nth 0 rest' 0%N = 32%N -> m_col m + N.of_nat k = i)%N /\ c' = cur (pre ++ repeat 32%N k) rest' (mark_add k m) l s.
Proof.
  induction fuel as [|fuel IH]; intros pre rest m l s c' u H L; [discriminate|]. cbn [wide_spaces] in H. next_step H c1 u1 E. apply indent_ok in E; [|exact L].
  destruct E as (k & rest' & -> & KL & KE & ->). next_step H c1 m1 E. rewrite e_get_mark in E. injection E as <- <-. next_step H c1 em E. apply gets_ok in E. destruct E as [-> _]. peeked H.
  match type of H with (if ?b then _ else _) _ = _ => destruct b end.
  - injection H as <- _. exists k, rest'. now repeat split.
  - apply IH in H; [|unfold mark_add; cbn [m_col]; lia]. destruct H as (k2 & rest2 & -> & N & M & ->). unfold mark_add in N, M. cbn [m_col] in N, M.
    exists (k + k2), rest2. rewrite repeat_add, <- !app_assoc, mark_add_add. split; [reflexivity|]. split; [lia|]. split; [intros X; specialize (M X); lia|reflexivity].
Qed.
Lemma blank_cons k b gap : blank_lines ((k, b) :: gap) = repeat 32%N k ++ eol b ++ blank_lines gap.
Proof. unfold blank_lines. cbn [flat_map fst snd]. now rewrite <- app_assoc. Qed.
Lemma e_read_eol b acc pre rest m l s : read_break acc (cur pre (eol b ++ rest) m l s) = (cur (pre ++ eol b) rest (marker_after (eol b) m) true s, Ok (acc ++ [10%N])).
Proof. unfold read_break, bind. now rewrite e_break. Qed.
Lemma col_eol b m : m_col (marker_after (eol b) m) = 1%N.
Proof. apply marker_eol. Qed.
Lemma spaces_flat k m : marker_after (repeat 32%N k) m = mark_add k m.
Proof. rewrite marker_flat, repeat_length; [reflexivity|]. intros I. apply repeat_spec in I. discriminate. Qed.
Lemma lone_cr acc pre r m l s : nth 0 r 0%N <> 10%N -> read_break acc (cur pre (13%N :: r) m l s) = (cur pre (13%N :: r) m l s, Ok (acc ++ [10%N])).
Proof. intros NR. unfold read_break, bind, skip_linebreak, modify. rewrite !cur_peek. cbn [nth]. rewrite (proj2 (N.eqb_neq _ _) NR), andb_false_r. reflexivity. Qed.
Lemma indent_stuck i pre rest m l s : nth 0 rest 0%N <> 32%N -> forall fuel c' u, (if (i <? 126)%N then indent_spaces fuel i else wide_spaces fuel i) (cur pre rest m l s) = (c', Ok u) -> c' = cur pre rest m l s.
Proof.
  intros NS. assert (A : forall fuel c' u, indent_spaces fuel i (cur pre rest m l s) = (c', Ok u) -> c' = cur pre rest m l s).
  { intros [|fuel] c' u H; [discriminate|]. cbn [indent_spaces] in H. peeked H. peeked H. rewrite (proj2 (N.eqb_neq _ _) NS), andb_false_r in H. now injection H as <- _. }
  intros fuel c' u H. destruct (i <? 126)%N; [now apply A in H|]. revert c' u H. induction fuel as [|fuel IH]; intros c' u H; [discriminate|]. cbn [wide_spaces] in H.
  next_step H c1 u1 E. apply A in E. subst c1. peeked H. next_step H c1 em E. apply gets_ok in E. destruct E as [-> _]. peeked H.
  match type of H with (if ?b then _ else _) _ = _ => destruct b end; [now injection H as <- _|now apply IH in H].
Qed.
Lemma block_cr i pre r m s : nth 0 r 0%N <> 10%N -> forall fuel br l c' out, skip_block_scalar_indent fuel i br (cur pre (13%N :: r) m l s) = (c', Ok out) -> False.
Proof.
  intros NR. induction fuel as [|fuel IH]; intros br l c' out H; [discriminate|]. cbn [skip_block_scalar_indent] in H. next_step H c1 u E. apply indent_stuck in E; [|discriminate]. subst c1. peeked H.
  cbn [nth] in H. change (is_break 13) with true in H. cbv iota in H. next_step H c1 br2 E. rewrite lone_cr in E by exact NR. injection E as <- <-. now apply IH in H.
Qed.
Lemma block_stuck i pre rest m l s fuel br c' out : nth 0 rest 0%N <> 32%N -> is_break (nth 0 rest 0%N) = false -> skip_block_scalar_indent fuel i br (cur pre rest m l s) = (c', Ok out) -> c' = cur pre rest m l s /\ out = br.
Proof.
  intros NS NB H. destruct fuel as [|fuel]; [discriminate|]. cbn [skip_block_scalar_indent] in H. next_step H c1 u E. apply indent_stuck in E; [|exact NS]. subst c1. peeked H. rewrite NB in H. injection H as <- <-. now split.
Qed.
Lemma first_stuck pre rest m l s fuel mx br c' mx' out : nth 0 rest 0%N <> 32%N -> is_break (nth 0 rest 0%N) = false -> first_line_loop fuel mx br (cur pre rest m l s) = (c', Ok (mx', out)) -> c' = cur pre rest m l s /\ out = br.
Proof.
  intros NS NB H. destruct fuel as [|fuel]; [discriminate|]. cbn [first_line_loop] in H. next_step H c1 u E.
  assert (c1 = cur pre rest m l s).
  { destruct fuel as [|fuel]; [discriminate|]. cbn [skip_spaces] in E. peeked E. rewrite (proj2 (N.eqb_neq _ _) NS) in E. now injection E as <- _. }
  subst c1. peeked H. cbv zeta in H. peeked H. rewrite NB in H. injection H as <- _ <-. now split.
Qed.
Lemma block_indent_ok i : forall fuel br pre rest m l s c' out, skip_block_scalar_indent fuel i br (cur pre rest m l s) = (c', Ok out) -> m_col m = 1%N -> (1 <= i)%N ->
  exists gap k rest' l', rest = blank_lines gap ++ repeat 32%N k ++ rest' /\ Forall (fun b => N.of_nat (fst b) + 1 <= i)%N gap /\ (N.of_nat k + 1 <= i)%N /\
    is_break (nth 0 rest' 0%N) = false /\ (nth 0 rest' 0%N = 32%N -> N.of_nat k + 1 = i)%N /\ out = br ++ repeat 10%N (List.length gap) /\
    c' = cur (pre ++ blank_lines gap ++ repeat 32%N k) rest' (marker_after (blank_lines gap ++ repeat 32%N k) m) l' s.
Proof.
  induction fuel as [|fuel IH]; intros br pre rest m l s c' out H C1 I1; [discriminate|]. cbn [skip_block_scalar_indent] in H. next_step H c1 u E.
  assert (X : exists k rest', rest = repeat 32%N k ++ rest' /\ (m_col m + N.of_nat k <= i)%N /\ (nth 0 rest' 0%N = 32%N -> m_col m + N.of_nat k = i)%N /\ c1 = cur (pre ++ repeat 32%N k) rest' (mark_add k m) l s).
  { destruct (i <? 126)%N; [apply indent_ok in E; [exact E|lia]|apply wide_ok in E; [exact E|lia]]. }
  clear E. destruct X as (k & rest' & -> & KL & KE & ->). peeked H. destruct (is_break (nth 0 rest' 0%N)) eqn:B.
  - destruct (break_split rest' B) as [(b & r & ->)|(r & -> & NR)].
    + next_step H c1 br2 E. rewrite e_read_eol in E. injection E as <- <-. apply IH in H; [|apply col_eol|exact I1].
      destruct H as (gap & k2 & rest2 & l2 & -> & FG & KL2 & B2 & KE2 & -> & ->). exists ((k, b) :: gap), k2, rest2, l2. rewrite !blank_cons, <- !app_assoc. split; [reflexivity|].
      split; [constructor; [cbn [fst]; lia|exact FG]|]. split; [exact KL2|]. split; [exact B2|]. split; [exact KE2|]. split; [reflexivity|].
      rewrite (marker_after_app (repeat 32%N k)), (marker_after_app (eol b)), spaces_flat. reflexivity.
    + exfalso. next_step H c1 br2 E. rewrite lone_cr in E by exact NR. injection E as <- <-. apply (block_cr i) in H; [exact H|exact NR].
  - injection H as <- <-. exists [], k, rest', l. cbn [blank_lines flat_map app List.length repeat]. rewrite app_nil_r, spaces_flat. split; [reflexivity|]. split; [constructor|]. split; [lia|]. split; [exact B|]. split; [intros X; specialize (KE X); lia|].
    now split.
Qed.
Lemma first_cr pre r s : nth 0 r 0%N <> 10%N -> forall fuel mx br m l c' out, first_line_loop fuel mx br (cur pre (13%N :: r) m l s) = (c', Ok out) -> False.
Proof.
  intros NR. induction fuel as [|fuel IH]; intros mx br m l c' out H; [discriminate|]. cbn [first_line_loop] in H. next_step H c1 u E. apply spaces_ok in E. destruct E as (k & rest' & E & _ & ->).
  destruct k; [|discriminate]. cbn [repeat app] in *. subst rest'. rewrite app_nil_r, mark_add_0 in H. next_step H c1 m1 E. rewrite e_get_mark in E. injection E as <- <-. cbv zeta in H. peeked H.
  cbn [nth] in H. change (is_break 13) with true in H. cbv iota in H. next_step H c1 br2 E. rewrite lone_cr in E by exact NR. injection E as <- <-. now apply IH in H.
Qed.
Lemma first_ok : forall fuel mx br pre rest m l s c' mx' out, first_line_loop fuel mx br (cur pre rest m l s) = (c', Ok (mx', out)) -> m_col m = 1%N ->
  exists gap k rest' l', rest = blank_lines gap ++ repeat 32%N k ++ rest' /\ Forall (fun b => N.of_nat (fst b) + 1 <= mx')%N gap /\ (N.of_nat k + 1 <= mx')%N /\ (mx <= mx')%N /\
    is_break (nth 0 rest' 0%N) = false /\ nth 0 rest' 0%N <> 32%N /\ out = br ++ repeat 10%N (List.length gap) /\
    c' = cur (pre ++ blank_lines gap ++ repeat 32%N k) rest' (marker_after (blank_lines gap ++ repeat 32%N k) m) l' s.
Proof.
  induction fuel as [|fuel IH]; intros mx br pre rest m l s c' mx' out H C1; [discriminate|]. cbn [first_line_loop] in H. next_step H c1 u E. apply spaces_ok in E. destruct E as (k & rest' & -> & KE & ->).
  next_step H c1 m1 E. rewrite e_get_mark in E. injection E as <- <-. remember (if (mx <? m_col (mark_add k m))%N then m_col (mark_add k m) else mx) as mx1 eqn:EM.
  assert (M1 : (mx <= mx1 /\ N.of_nat k + 1 <= mx1)%N) by (subst mx1; unfold mark_add; cbn [m_col]; destruct (mx <? m_col m + N.of_nat k)%N eqn:Q; lia). clear EM. cbv zeta in H. peeked H.
  destruct (is_break (nth 0 rest' 0%N)) eqn:B.
  - destruct (break_split rest' B) as [(b & r & ->)|(r & -> & NR)].
    + next_step H c1 br2 E. rewrite e_read_eol in E. injection E as <- <-. apply IH in H; [|apply col_eol].
      destruct H as (gap & k2 & rest2 & l2 & -> & FG & KL2 & MX & B2 & KE2 & -> & ->). exists ((k, b) :: gap), k2, rest2, l2. rewrite !blank_cons, <- !app_assoc. split; [reflexivity|].
      split; [constructor; [cbn [fst]; lia|exact FG]|]. split; [exact KL2|]. split; [lia|]. split; [exact B2|]. split; [exact KE2|]. split; [reflexivity|].
      rewrite (marker_after_app (repeat 32%N k)), (marker_after_app (eol b)), spaces_flat. reflexivity.
    + exfalso. next_step H c1 br2 E. rewrite lone_cr in E by exact NR. injection E as <- <-. now apply first_cr in H.
  - injection H as <- <- <-. exists [], k, rest', l. cbn [blank_lines flat_map app List.length repeat]. rewrite app_nil_r, spaces_flat. split; [reflexivity|]. split; [constructor|]. split; [lia|]. split; [lia|]. split; [exact B|]. split; [exact KE|].
    now split.
Qed.

(** ** Lines *)
Lemma empty_is pre rest m l s : str_buf_is_empty (c_src (cur pre rest m l s)) = true -> rest = [].
Proof. unfold str_buf_is_empty, cur. cbn [c_src ss_input ss_pos]. rewrite app_length. destruct rest; [reflexivity|]. cbn [List.length]. intros. lia. Qed.
Lemma chars_line : forall fuel string pre rest m l s c' out, content_chars fuel string (cur pre rest m l s) = (c', Ok out) ->
  exists w rest', rest = w ++ rest' /\ ~ In 10%N w /\ ~ In 13%N w /\ (rest' = [] \/ is_break (nth 0 rest' 0%N) = true) /\ out = string ++ w /\ c' = cur (pre ++ w) rest' (mark_add (List.length w) m) l s.
Proof.
  induction fuel as [|fuel IH]; intros string pre rest m l s c' out H; [discriminate|]. cbn [content_chars] in H. next_step H c1 em E. apply gets_ok in E. destruct E as [-> EE]. peeked H.
  destruct (negb em && negb (is_break (nth 0 rest 0%N))) eqn:Q.
  - apply andb_prop in Q. destruct Q as [Q1 Q2]. apply negb_true_iff in Q1, Q2. subst em. destruct rest as [|b rest].
    { unfold str_buf_is_empty, cur in Q1. cbn [c_src ss_input ss_pos] in Q1. rewrite app_nil_r in Q1. lia. }
    next_step H c1 b1 E. rewrite e_peek_or_space in E. injection E as <- <-. next_step H c1 u E. rewrite e_skip_blank in E. injection E as <- <-. apply IH in H.
    destruct H as (w & rest' & -> & N1 & N2 & ST & -> & ->). cbn [nth] in Q2. unfold is_break in Q2. exists (b :: w), rest'. split; [reflexivity|]. split; [intros [X|X]; [lia|now apply N1]|]. split; [intros [X|X]; [lia|now apply N2]|].
    split; [exact ST|]. rewrite <- !app_assoc, mark_add_add. split; reflexivity.
  - injection H as <- <-. exists [], rest. rewrite !app_nil_r, mark_add_0. split; [reflexivity|]. split; [intros []|]. split; [intros []|]. split; [|split; reflexivity].
    destruct em; [left; symmetry in EE; now apply empty_is in EE|right]. cbn [negb andb] in Q. now apply negb_false_iff in Q.
Qed.
Lemma line_ok fuel string pre rest m l s c' out : scan_block_scalar_content_line fuel string (cur pre rest m l s) = (c', Ok out) ->
  exists w rest', rest = w ++ rest' /\ ~ In 10%N w /\ ~ In 13%N w /\ (rest' = [] \/ is_break (nth 0 rest' 0%N) = true) /\ out = string ++ w /\ c' = cur (pre ++ w) rest' (mark_add (List.length w) m) l s.
Proof.
  unfold scan_block_scalar_content_line. intros H. next_step H c1 st E. apply chars_line in E. destruct E as (w & rest' & -> & N1 & N2 & ST & -> & ->).
  next_step H c1 em E. apply gets_ok in E. destruct E as [-> EE]. exists w, rest'. split; [reflexivity|]. split; [exact N1|]. split; [exact N2|]. split; [exact ST|].
  destruct em; [|injection H as <- <-; now split]. symmetry in EE. apply empty_is in EE. subst rest'.   next_step H c1 ln E.
  unfold push_line, cur in E. cbn [c_src c_mark c_lead c_ska] in E. unfold str_push_non_breakz_chr in E. cbn [ss_input ss_pos] in E. rewrite app_nil_r, Nat.ltb_irrefl, skipn_all in E.
  cbn [Escaper.position firstn List.length] in E. unfold str_skip in E. cbn [ss_input ss_pos] in E. rewrite Nat.add_0_r, mark_add_0 in E. injection E as <- <-. injection H as <- <-. rewrite !app_nil_r.
  split; [reflexivity|]. unfold cur. now rewrite app_nil_r.
Qed.

(** ** The lines together *)
Lemma wb_is b : is_blank_or_breakz b = true <-> In b white_or_end.
Proof. unfold is_blank_or_breakz, is_breakz, is_blank_or_break, is_blank, is_break, white_or_end. cbn [In]. lia. Qed.
Lemma end_is rest : ((nth 0 rest 0 =? 46)%N && (nth 1 rest 0 =? 46)%N && (nth 2 rest 0 =? 46)%N && is_blank_or_breakz (nth 3 rest 0%N)) = true <-> end_mark rest.
Proof.
  split.
  - intros H. apply andb_prop in H. destruct H as [H W]. apply andb_prop in H. destruct H as [H C]. apply andb_prop in H. destruct H as [A B]. apply N.eqb_eq in A, B, C.
    destruct rest as [|a [|b [|c r]]]; try discriminate. cbn [nth] in *. subst. exists r. split; [reflexivity|now apply wb_is].
  - intros (r & -> & W). cbn [nth]. apply wb_is in W. now rewrite W.
Qed.
Lemma end_line w rest : rest = [] \/ is_break (nth 0 rest 0%N) = true -> end_mark w -> end_mark (w ++ rest).
Proof.
  intros ST (r & -> & W). exists (r ++ rest). split; [reflexivity|]. destruct r as [|b r]; [|exact W]. cbn [app]. destruct ST as [-> |B]; [exact W|]. apply wb_is. unfold is_blank_or_breakz, is_breakz, is_blank_or_break. rewrite B. now rewrite ?orb_true_r.
Qed.
Lemma gap_col gap k m : m_col m = 1%N -> m_col (marker_after (blank_lines gap ++ repeat 32%N k) m) = (N.of_nat k + 1)%N.
Proof.
  rewrite marker_after_app, spaces_flat. unfold mark_add. cbn [m_col]. intros C. enough (m_col (marker_after (blank_lines gap) m) = 1)%N by lia.
  revert m C. induction gap as [|[j b] gap IH]; intros m C; [exact C|]. rewrite blank_cons, !marker_after_app. apply IH, col_eol.
Qed.
Lemma gap_line gap k m : (m_line m <= m_line (marker_after (blank_lines gap ++ repeat 32%N k) m))%N.
Proof.
  rewrite marker_after_app, spaces_flat. unfold mark_add. cbn [m_line]. revert m. induction gap as [|[j b] gap IH]; intros m; [cbn; lia|]. rewrite blank_cons, !marker_after_app, spaces_flat.
  pose proof (IH (marker_after (eol b) (mark_add j m))) as X. pose proof (proj2 (marker_eol b (mark_add j m))) as Y. unfold mark_add in Y at 1. cbn [m_line] in Y. lia.
Qed.
Lemma line_flat w m : ~ In 10%N w -> marker_after w m = mark_add (List.length w) m.
Proof. intros F. now rewrite marker_flat. Qed.
Lemma pair_ok {A B} (a c : A) (x y : B) : (a, Ok x) = (c, Ok y) -> a = c /\ x = y.
Proof. intros H. now injection H. Qed.
(** Where the loop stops at once. *)
Lemma loop_stops fuel literal i string lb tb lead pre rest m l s c' out : block_loop fuel literal i string lb tb lead (cur pre rest m l s) = (c', Ok out) ->
  rest = [] \/ m_col m <> i \/ (i = 1%N /\ end_mark rest) -> out = (string, lb, tb) /\ c' = cur pre rest m l s.
Proof.
  destruct fuel as [|fuel]; [discriminate|]. cbn [block_loop]. intros H ST. peeked H. next_step H c1 p E. rewrite e_peek_checked in E. apply pair_ok in E. destruct E as [<- <-].
  destruct rest as [|b rest]; [cbn [nth_error] in H; injection H as <- <-; now split|]. cbn [nth_error] in H. next_step H c1 de E. rewrite e_block_end in E. apply pair_ok in E. destruct E as [<- <-].
  match type of H with (if ?b then _ else _) _ = _ => replace b with true in H end; [injection H as <- <-; now split|].
  destruct ST as [|[ST|[-> ST]]]; [discriminate|apply N.eqb_neq in ST; rewrite ST; reflexivity|]. apply end_is in ST. rewrite ST, orb_true_r. reflexivity.
Qed.
Definition glued (literal : bool) (string lb tb : text) (lead : bool) (w : text) : text :=
  if negb literal && negb (text_eqb lb []) && negb lead && negb (blank_first w) then string ++ match tb with [] => [32%N] | _ => tb end else string ++ lb ++ tb.
Lemma cut_any n w b gap more : cut_rest n (Line [] w b) more = cut_rest n (Line gap w b) more.
Proof. now destruct more. Qed.
Lemma loop_lines literal n : forall fuel string lb tb lead pre rest m l s c' out, block_loop fuel literal (N.of_nat n + 1) string lb tb lead (cur pre rest m l s) = (c', Ok out) ->
  m_col m = (N.of_nat n + 1)%N -> rest <> [] -> is_break (nth 0 rest 0%N) = false -> (n = 0 -> ~ end_mark rest) ->
  exists w b more, w <> [] /\ ~ In 10%N w /\ ~ In 13%N w /\ (n = 0 -> ~ end_mark w) /\ nth 0 w 0%N = nth 0 rest 0%N /\ Forall (taken_line n) more /\
  ((exists tail j after l', rest = w ++ eol b ++ flat_map (line_text n) more ++ blank_lines tail ++ repeat 32%N j ++ after /\
      Forall (fun x => fst x <= n) tail /\ j <= n /\ taken_end n j after /\
      out = (glued literal string lb tb lead w ++ w ++ joined literal w more, [10%N], repeat 10%N (List.length tail)) /\
      let q := w ++ eol b ++ flat_map (line_text n) more ++ blank_lines tail ++ repeat 32%N j in
      c' = cur (pre ++ q) after (marker_after q m) l' s /\ (m_col (marker_after q m) <= N.of_nat n + 1)%N)
   \/ (exists l', rest = BlockCut.cut_rest n (Line [] w b) more /\ out = (glued literal string lb tb lead w ++ w ++ joined literal w more, [], []) /\
         c' = cur (pre ++ rest) [] (marker_after rest m) l' s /\ (N.of_nat n + 1 < m_col (marker_after rest m))%N)).
Proof.
  induction fuel as [|fuel IH]; intros string lb tb lead pre rest m l s c' out H MC NE NB DE; [discriminate|]. cbn [block_loop] in H. peeked H. next_step H c1 p E. rewrite e_peek_checked in E. apply pair_ok in E. destruct E as [<- <-].
  destruct rest as [|b0 rest0]; [congruence|]. cbn [nth_error] in H. remember (b0 :: rest0) as rest eqn:ER. next_step H c1 de E. rewrite e_block_end in E. apply pair_ok in E. destruct E as [<- <-].
  rewrite MC, N.eqb_refl in H. cbn [negb orb] in H.
  match type of H with (if ?b then _ else _) _ = _ => destruct b eqn:Q end.
  { exfalso. apply andb_prop in Q. destruct Q as [Q1 Q2]. apply end_is in Q2. apply DE; [lia|exact Q2]. }
  clear Q. peeked H. cbv zeta in H. next_step H c1 st E. apply line_ok in E. destruct E as (w & rest' & EW & N1 & N2 & ST & -> & ->).
  assert (W : w <> []).
  { intros ->. cbn [app] in EW. destruct ST as [ST|ST]; [now rewrite ST in EW|]. rewrite EW in NB. now rewrite NB in ST. }
  assert (BF : is_blank (nth 0 rest 0%N) = blank_first w) by (rewrite EW; destruct w; [congruence|reflexivity]).
  assert (W0 : nth 0 w 0%N = nth 0 rest 0%N) by (rewrite EW; destruct w; [congruence|reflexivity]).
  assert (WD : n = 0 -> ~ end_mark w) by (intros Z M; apply (DE Z); rewrite EW; now apply end_line).
  rewrite BF in H. change (if negb literal && negb (text_eqb lb []) && negb lead && negb (blank_first w) then string ++ match tb with [] => [32%N] | _ => tb end else string ++ lb ++ tb) with (glued literal string lb tb lead w) in H. clear ER b0 rest0 NB. subst rest. clear NE DE BF. next_step H c1 p E. rewrite e_peek_checked in E. apply pair_ok in E. destruct E as [<- <-].
  destruct ST as [-> |B].
  - cbn [nth_error] in H. injection H as <- <-. exists w, false, []. split; [exact W|]. split; [exact N1|]. split; [exact N2|]. split; [exact WD|]. split; [exact W0|]. split; [constructor|]. right. exists l.
    cbn [BlockCut.cut_rest words joined]. rewrite !app_nil_r, line_flat by exact N1. split; [reflexivity|]. split; [reflexivity|]. split; [reflexivity|].
    unfold mark_add. cbn [m_col]. destruct w; [congruence|]. cbn [List.length]. lia.
  - destruct (break_split rest' B) as [(b & r & ->)|(r & -> & NR)].
    2:{ exfalso. cbn [nth_error] in H. next_step H c1 br2 E. rewrite lone_cr in E by exact NR. injection E as <- <-. next_step H c1 tb2 E. now apply block_cr in E. }
    assert (X : exists x, nth_error (eol b ++ r) 0 = Some x) by (destruct b; eexists; reflexivity). destruct X as (x & EX). rewrite EX in H. clear x EX.
    next_step H c1 lb2 E. rewrite e_read_eol in E. injection E as <- <-. next_step H c1 tb2 E. apply block_indent_ok in E; [|apply col_eol|lia].
    destruct E as (gap & k & rest2 & l2 & -> & FG & KL & B2 & KE & -> & ->). cbn [app] in H.
    assert (FG' : Forall (fun x : nat * bool => fst x <= n) gap) by (eapply Forall_impl; [|exact FG]; intros a A; cbv beta in A; lia). clear FG.
    set (m1 := marker_after (eol b) (mark_add (List.length w) m)) in *. assert (M1 : m_col m1 = 1%N) by apply col_eol.
    pose proof (gap_col gap k m1 M1) as MC2. set (m2 := marker_after (blank_lines gap ++ repeat 32%N k) m1) in *.
    assert (EM : forall y, marker_after (w ++ eol b ++ blank_lines gap ++ repeat 32%N k ++ y) m = marker_after y m2).
    { intros y. subst m2 m1. rewrite (app_assoc (blank_lines gap)), (marker_after_app w), (marker_after_app (eol b)), (marker_after_app (_ ++ _)), (line_flat w) by exact N1. reflexivity. }
    assert (C : (rest2 = [] \/ m_col m2 <> (N.of_nat n + 1)%N \/ ((N.of_nat n + 1 = 1)%N /\ end_mark rest2)) \/
                (rest2 <> [] /\ m_col m2 = (N.of_nat n + 1)%N /\ (n = 0 -> ~ end_mark rest2))).
    { destruct rest2 as [|b2 r2]; [now left; left|]. destruct (N.eq_dec (m_col m2) (N.of_nat n + 1)) as [E1|E1]; [|now left; right; left].
      match goal with |- context [end_mark ?t] => destruct ((nth 0 t 0 =? 46)%N && (nth 1 t 0 =? 46)%N && (nth 2 t 0 =? 46)%N && is_blank_or_breakz (nth 3 t 0%N)) eqn:Q end.
      - apply end_is in Q. destruct n; [left; right; right; now split|]. right. split; [discriminate|]. split; [exact E1|discriminate].
      - right. split; [discriminate|]. split; [exact E1|]. intros _ Q2. apply end_is in Q2. rewrite Q2 in Q. discriminate. }
    destruct C as [C|(NE2 & MN & DE2)].
    + apply loop_stops in H; [|exact C]. destruct H as [-> ->]. exists w, b, []. split; [exact W|]. split; [exact N1|]. split; [exact N2|]. split; [exact WD|]. split; [exact W0|]. split; [constructor|].
      left. exists gap, k, rest2, l2. cbn [flat_map app joined]. split; [reflexivity|]. split; [exact FG'|]. split; [lia|]. split.
      { destruct C as [-> |[C|[C1 C2]]]; [now left|right; left|right; right; split; [lia|exact C2]]. split; [lia|]. intros [X|[X|[X|[]]]]; symmetry in X; [specialize (KE X); lia|rewrite X in B2; discriminate|rewrite X in B2; discriminate]. }
      rewrite !app_nil_r. split; [reflexivity|]. cbv zeta. rewrite <- !app_assoc. split.
      * f_equal. pose proof (EM []) as EM'. rewrite app_nil_r in EM'. symmetry. exact EM'.
      * pose proof (EM []) as EM'. rewrite app_nil_r in EM'. rewrite EM'. cbn [marker_after fold_left]. change (marker_after [] m2) with m2. lia.
    + apply IH in H; [|exact MN|exact NE2|exact B2|exact DE2]. destruct H as (w2 & b2 & more & W2 & N12 & N22 & WD2 & W02 & FM & D).
      assert (EG : glued literal (glued literal string lb tb lead w ++ w) [10%N] (repeat 10%N (List.length gap)) (blank_first w) w2 = (glued literal string lb tb lead w ++ w) ++ joint literal w (List.length gap) w2).
      { rewrite <- joint_eq. unfold glued at 1. destruct (_ && negb (blank_first w2)); reflexivity. }
      assert (KN : k = n) by lia. subst k.
      exists w, b, (Line gap w2 b2 :: more). split; [exact W|]. split; [exact N1|]. split; [exact N2|]. split; [exact WD|]. split; [exact W0|].
      split. { constructor; [|exact FM]. unfold taken_line. cbn [before words]. split; [exact FG'|]. split; [exact W2|]. split; [exact N12|]. split; [exact N22|exact WD2]. }
      destruct D as [(tail & j & after & l3 & -> & FT & JL & TE & -> & EC & EL)|(l3 & -> & -> & -> & EL)].
      * left. exists tail, j, after, l3. cbn [flat_map joined before words].
        assert (LT : forall y, line_text n (Line gap w2 b2) ++ y = blank_lines gap ++ repeat 32%N n ++ w2 ++ eol b2 ++ y) by (intros y; unfold line_text; cbn [before words crlf]; now rewrite <- !app_assoc).
        rewrite <- !app_assoc in *. rewrite !LT. split; [reflexivity|]. split; [exact FT|]. split; [exact JL|]. split; [exact TE|].
        split. { rewrite EG, <- !app_assoc. reflexivity. }
        cbv zeta in *. rewrite EM. split; [exact EC|exact EL].
      * right. exists l3. cbn [BlockCut.cut_rest joined before words crlf]. rewrite <- !(cut_any n w2 b2 gap more). split; [reflexivity|]. split; [rewrite EG, <- !app_assoc; reflexivity|]. rewrite EM, <- !app_assoc. split; [reflexivity|exact EL].
Qed.

(** ** The scalar *)
Lemma indicators_flat h e digit : indicators h e digit -> ~ In 10%N h.
Proof. intros [| ? ? [] |d D|? ? d [] D|? ? d [] D] I; cbn [In] in I; lia. Qed.
Lemma digit_some h e d : indicators h e (Some d) -> (1 <= d)%N.
Proof. intros I. inversion I; lia. Qed.
Lemma block_only literal self fuel start pre rest m l s c' tok : scan_block_scalar_body fuel literal self start (cur pre rest m l s) = (c', Ok tok) -> m_line start = m_line m ->
  exists q v k after p r, rest = q ++ after /\ taken_block literal self after (block_sign literal :: q) v k /\ block_sign literal :: q = p ++ r /\ List.length p = k /\
    tok = Token (Span (match k with O => start | S _ => marker_after (tl p) m end) (marker_after q m)) (TScalar (if literal then Literal else Folded) v).
Proof.
  unfold scan_block_scalar_body. intros H ML. cbv zeta in H. next_step H c1 hdr E. destruct hdr as [ch inc]. apply header_ok in E. destruct E as (h & e & digit & rest0 & l0 & -> & IN & -> & EI & ->).
  next_step H c1 ws E. apply ws_ok in E. destruct E as (ht & rest1 & -> & HR & -> & NT & _ & _). peeked H.
  match type of H with (if ?b then _ else _) _ = _ => destruct b eqn:BZ end; [discriminate|]. apply negb_false_iff in BZ.
  assert (EM1 : mark_add (List.length ht) (mark_add (List.length h) m) = marker_after (h ++ ht) m).
  { rewrite marker_after_app, (line_flat h) by now apply indicators_flat in IN. now rewrite line_flat. }
  rewrite EM1 in H. rewrite <- app_assoc in H. assert (ML1 : m_line (marker_after (h ++ ht) m) = m_line m) by (rewrite <- EM1; reflexivity). clear EM1 NT. set (m1 := marker_after (h ++ ht) m) in *.
  assert (BH : block_head literal (block_sign literal :: h ++ ht) e digit) by now constructor.
  assert (IND : exists i0, (if (0 <? inc)%N then if (1 <=? self)%N then (self + inc)%N else inc else 0%N) = i0 /\ match digit with Some d => i0 = (self + d)%N /\ (1 <= d)%N | None => i0 = 0%N end).
  { eexists. split; [reflexivity|]. destruct digit as [d|]; subst inc; [|reflexivity]. apply digit_some in IN. destruct (0 <? d)%N eqn:Q1; [|lia]. destruct (1 <=? self)%N eqn:Q2; lia. }
  destruct IND as (i0 & EI0 & DI). rewrite EI0 in H. clear EI0.
  destruct (is_break (nth 0 rest1 0%N)) eqn:B.
  - destruct (break_split rest1 B) as [(b & r & ->)|(r & -> & NR)].
    2:{ exfalso. next_step H c1 cb E. rewrite lone_cr in E by exact NR. injection E as <- <-. peeked H. cbn [nth] in H. change (13 =? 9)%N with false in H. cbv iota in H. next_step H c1 it E. destruct (i0 =? 0)%N.
        - unfold skip_block_scalar_first_line_indent in E. next_step E c2 mb E2. destruct mb. now apply first_cr in E2.
        - next_step E c2 mb E2. now apply block_cr in E2. }
    next_step H c1 cb E. rewrite e_read_eol in E. injection E as <- <-. peeked H. destruct (nth 0 r 0 =? 9)%N; [discriminate|]. cbn [app] in H. set (m2 := marker_after (eol b) m1) in *.
    assert (M2 : m_col m2 = 1%N) by apply col_eol. assert (L2 : (m_line m1 < m_line m2)%N) by apply (proj2 (marker_eol b m1)).
    next_step H c1 it E. destruct it as [indent tb].
    assert (X : exists n gap k rest2 l2, r = blank_lines gap ++ repeat 32%N k ++ rest2 /\ indent = (N.of_nat n + 1)%N /\ Forall (fun x : nat * bool => fst x <= n) gap /\ k <= n /\ is_break (nth 0 rest2 0%N) = false /\
      (k = n -> forall w b2, nth 0 w 0%N = nth 0 rest2 0%N -> indentation self digit n (Line gap w b2)) /\ tb = repeat 10%N (List.length gap) /\
      c1 = cur ((pre ++ h ++ ht) ++ eol b ++ blank_lines gap ++ repeat 32%N k) rest2 (marker_after (blank_lines gap ++ repeat 32%N k) m2) l2 s).
    { destruct (i0 =? 0)%N eqn:Z.
      - destruct digit as [d|]; [lia|]. unfold skip_block_scalar_first_line_indent in E. next_step E c2 mb E2. destruct mb as [mx br]. apply first_ok in E2; [|exact M2].
        destruct E2 as (gap & k & rest2 & l2 & -> & FG & KL & _ & B2 & KE & -> & ->).
        assert (EX : indent = N.max mx (self + 1) /\ tb = [] ++ repeat 10%N (List.length gap) /\ c1 = cur (((pre ++ h ++ ht) ++ eol b) ++ blank_lines gap ++ repeat 32%N k) rest2 (marker_after (blank_lines gap ++ repeat 32%N k) m2) l2 s).
        { cbv zeta in E. injection E as <- E <-. split; [|now split]. rewrite <- E. destruct (0 <? self)%N; lia. }
        destruct EX as (-> & -> & ->). exists (N.to_nat (N.max mx (self + 1) - 1)), gap, k, rest2, l2. split; [reflexivity|]. split; [lia|]. split; [eapply Forall_impl; [|exact FG]; intros a A; cbv beta in A; lia|]. split; [lia|].
        split; [exact B2|]. split. { intros EK w b2 W0. cbn [indentation words]. split; [lia|]. rewrite W0. exact KE. } split; [reflexivity|]. now rewrite <- !app_assoc.
      - destruct digit as [d|]; [|lia]. next_step E c2 tb2 E2. apply block_indent_ok in E2; [|exact M2|lia]. destruct E2 as (gap & k & rest2 & l2 & -> & FG & KL & B2 & KE & -> & ->). injection E as <- <- <-.
        exists (N.to_nat (i0 - 1)), gap, k, rest2, l2. split; [reflexivity|]. split; [lia|]. split; [eapply Forall_impl; [|exact FG]; intros a A; cbv beta in A; lia|]. split; [lia|].
        split; [exact B2|]. split. { intros EK w b2 W0. cbn [indentation]. lia. } split; [reflexivity|]. now rewrite <- !app_assoc. }
    clear E DI. destruct X as (n & gap & k & rest2 & l2 & -> & -> & FG & KL & B2 & IND & -> & ->).
    pose proof (gap_col gap k m2 M2) as MC. pose proof (gap_line gap k m2) as GL. set (m3 := marker_after (blank_lines gap ++ repeat 32%N k) m2) in *.
    assert (EM : forall y, marker_after ((h ++ ht) ++ eol b ++ blank_lines gap ++ repeat 32%N k ++ y) m = marker_after y m3).
    { intros y. subst m3 m2 m1. rewrite (app_assoc (blank_lines gap)), (marker_after_app (h ++ ht)), (marker_after_app (eol b)), (marker_after_app (blank_lines gap ++ _)). reflexivity. }
    pose proof (EM []) as EM0. rewrite !app_nil_r in EM0. change (marker_after [] m3) with m3 in EM0.
    next_step H c1 p E. rewrite e_peek_checked in E. apply pair_ok in E. destruct E as [<- <-]. peeked H.
    destruct rest2 as [|b0 r0].
    + cbn [nth_error] in H. apply pair_ok in H. destruct H as [_ <-].
      exists ((h ++ ht) ++ eol b ++ blank_lines gap ++ repeat 32%N k). eexists. exists 0, [], [], (block_sign literal :: (h ++ ht) ++ eol b ++ blank_lines gap ++ repeat 32%N k).
      split; [now rewrite <- !app_assoc|]. split; [exact (tb_last literal self [] _ e digit b gap k BH eq_refl)|]. split; [reflexivity|]. split; [reflexivity|]. rewrite EM0. f_equal. f_equal.
      replace (m_line m3 =? m_line start)%N with false by lia. clear. destruct e; cbn [chomp_of]; try reflexivity. destruct gap; reflexivity.
    + cbn [nth_error] in H. remember (b0 :: r0) as rest2 eqn:ER. assert (NE : rest2 <> []) by (subst; discriminate). clear b0 r0 ER.
      match type of H with (if ?b then _ else _) _ = _ => destruct b eqn:Q end; [discriminate|]. rewrite MC in Q.
      next_step H c1 slt E. destruct slt as [[string lb] tb].
      assert (C : (m_col m3 <> (N.of_nat n + 1)%N \/ ((N.of_nat n + 1 = 1)%N /\ end_mark rest2)) \/ (k = n /\ (n = 0 -> ~ end_mark rest2))).
      { destruct (Nat.eq_dec k n) as [-> |NK]; [|left; left; lia]. destruct ((nth 0 rest2 0 =? 46)%N && (nth 1 rest2 0 =? 46)%N && (nth 2 rest2 0 =? 46)%N && is_blank_or_breakz (nth 3 rest2 0%N)) eqn:Q2.
        - apply end_is in Q2. destruct n; [left; right; now split|]. right. split; [reflexivity|discriminate].
        - right. split; [reflexivity|]. intros _ Q3. apply end_is in Q3. rewrite Q3 in Q2. discriminate. }
      destruct C as [C|[-> DE]].
      * apply loop_stops in E; [|now right]. destruct E as [E ->]. injection E as -> -> ->. next_step H c1 p E. rewrite e_peek_checked in E. apply pair_ok in E. destruct E as [<- <-]. peeked H. apply pair_ok in H. destruct H as [_ <-].
        exists ((h ++ ht) ++ eol b ++ blank_lines gap ++ repeat 32%N k). eexists. eexists. exists rest2, (block_sign literal :: (h ++ ht) ++ eol b ++ blank_lines gap ++ repeat 32%N k), [].
        split; [now rewrite <- !app_assoc|]. split. { refine (tb_none literal self rest2 _ e digit b gap k BH NE _). destruct C as [C|[C1 C2]]; [left; lia|right; split; [lia|exact C2]]. }
        split; [now rewrite app_nil_r|]. split; [reflexivity|]. cbn [List.length app tl]. rewrite EM0. f_equal. f_equal. destruct rest2; [congruence|]. cbn [nth_error]. destruct e; reflexivity.
      * apply loop_lines in E; [|exact MC|exact NE|exact B2|exact DE]. destruct E as (w & b2 & more & W & N1 & N2 & WD & W0 & FM & D).
        assert (TL : taken_line n (Line gap w b2)) by (unfold taken_line; cbn [before words]; split; [exact FG|]; split; [exact W|]; split; [exact N1|]; split; [exact N2|exact WD]).
        specialize (IND eq_refl w b2 W0). next_step H c2 p E. destruct D as [(tail & j & after & l3 & -> & FT & JL & TE & EO & EC & EL)|(l3 & ER & EO & EC & EL)]; injection EO as -> -> ->; cbv zeta in EC; subst c1;
          rewrite e_peek_checked in E; apply pair_ok in E; destruct E as [<- <-]; peeked H; apply pair_ok in H; destruct H as [_ <-].
        -- exists ((h ++ ht) ++ eol b ++ flat_map (line_text n) (Line gap w b2 :: more) ++ blank_lines tail ++ repeat 32%N j). eexists. eexists.
           exists after, (block_sign literal :: (h ++ ht) ++ eol b ++ blank_lines gap ++ repeat 32%N n), (w ++ eol b2 ++ flat_map (line_text n) more ++ blank_lines tail ++ repeat 32%N j).
           assert (EQ : forall y, flat_map (line_text n) (Line gap w b2 :: more) ++ y = blank_lines gap ++ repeat 32%N n ++ w ++ eol b2 ++ flat_map (line_text n) more ++ y).
           { intros y. cbn [flat_map]. unfold line_text at 1. cbn [before words crlf]. now rewrite <- !app_assoc. }
           split; [rewrite <- !app_assoc, !EQ, <- ?app_assoc; reflexivity|].
           split; [exact (tb_lines literal self after _ e digit b (Line gap w b2) more tail n j BH IND (Forall_cons _ TL FM) FT JL TE)|].
           split; [cbn [app]; rewrite <- !app_assoc, EQ; reflexivity|]. split; [reflexivity|]. cbn [List.length app tl]. rewrite EQ, EM, EM0. f_equal. f_equal. unfold block_value. cbn [before words].
           assert (EG : glued literal [] [] (repeat 10%N (List.length gap)) false w = repeat 10%N (List.length gap)) by (unfold glued; cbn [text_eqb negb]; rewrite andb_false_r; reflexivity). rewrite EG.
           replace (N.max (N.of_nat n + 1) 1 <? m_col (marker_after (w ++ eol b2 ++ flat_map (line_text n) more ++ blank_lines tail ++ repeat 32%N j) m3))%N with false by (clear - EL; lia).
           destruct e; cbn [chomp_of]; destruct (nth_error after 0); rewrite <- ?app_assoc, ?app_nil_r; reflexivity.
        -- destruct (@exists_last _ (Line gap w b2 :: more)) as (ls & last & EX); [discriminate|].
           pose proof (cut_lines_rest n last ls _ _ EX) as CL. cbn [before] in CL. rewrite <- (cut_any n w b2 gap more), <- ER in CL.
           assert (HL : List.hd last ls = Line gap w b2) by (destruct ls; cbn [app] in EX; injection EX; now intros).
           exists ((h ++ ht) ++ eol b ++ cut_lines n ls last). eexists. eexists. exists [], (block_sign literal :: (h ++ ht) ++ eol b ++ blank_lines gap ++ repeat 32%N n), rest2.
           split; [rewrite CL, <- !app_assoc, app_nil_r; reflexivity|]. split.
           { pose proof (tb_cut literal self [] (block_sign literal :: h ++ ht) e digit b ls last n BH) as T. rewrite HL in T. cbn [before] in T. apply T; [exact IND| |reflexivity]. rewrite <- EX. now constructor. }
           split; [rewrite CL; cbn [app]; now rewrite <- !app_assoc|]. split; [reflexivity|]. cbn [List.length app tl]. rewrite CL, EM, EM0. f_equal. f_equal. rewrite <- EX. cbn [block_text before words].
           assert (EG : glued literal [] [] (repeat 10%N (List.length gap)) false w = repeat 10%N (List.length gap)) by (unfold glued; cbn [text_eqb negb]; rewrite andb_false_r; reflexivity). rewrite EG.
           replace (N.max (N.of_nat n + 1) 1 <? m_col (marker_after rest2 m3))%N with true by (clear - EL; lia). cbn [nth_error].
           destruct e; cbn [chomp_of]; rewrite <- ?app_assoc, ?app_nil_r; reflexivity.
  - assert (N0 : nth 0 rest1 0%N = 0%N) by (clear - BZ B; unfold is_breakz, is_break in *; lia). clear BZ.
    next_step H c1 cb E. injection E as <- <-. peeked H. rewrite N0 in H. change (0 =? 9)%N with false in H. cbv iota in H. next_step H c1 it E. destruct it as [indent tb].
    assert (NS : nth 0 rest1 0%N <> 32%N) by now rewrite N0.
    assert (X : exists n l2, indent = (N.of_nat n + 1)%N /\ tb = [] /\ c1 = cur (pre ++ h ++ ht) rest1 m1 l2 s).
    { destruct (i0 =? 0)%N eqn:Z.
      - unfold skip_block_scalar_first_line_indent in E. next_step E c2 mb E2. destruct mb as [mx br]. apply first_stuck in E2; [|exact NS|exact B]. destruct E2 as [-> ->]. cbv zeta in E. injection E as <- E <-.
        exists (N.to_nat (indent - 1)), l0. split; [|now split]. destruct (0 <? self)%N; lia.
      - next_step E c2 tb2 E2. apply block_stuck in E2; [|exact NS|exact B]. destruct E2 as [-> ->]. injection E as <- <- <-. exists (N.to_nat (i0 - 1)), l0. split; [lia|now split]. }
    clear E. destruct X as (n & l2 & -> & -> & ->). next_step H c1 p E. rewrite e_peek_checked in E. apply pair_ok in E. destruct E as [<- <-]. peeked H. destruct rest1 as [|b0 r0].
    + cbn [nth_error] in H. apply pair_ok in H. destruct H as [_ <-]. exists (h ++ ht), [], 0, [], [], (block_sign literal :: h ++ ht). split; [now rewrite <- app_assoc|]. split; [exact (tb_head literal self [] _ e digit BH eq_refl)|].
      split; [reflexivity|]. split; [reflexivity|]. f_equal. f_equal. replace (m_line m1 =? m_line start)%N with true by lia. destruct (chomp_of e); reflexivity.
    + cbn [nth_error] in H. remember (b0 :: r0) as rest1 eqn:ER. assert (NE : rest1 <> []) by (subst; discriminate). assert (N01 : nth 0 rest1 1%N = 0%N) by (subst; exact N0). clear b0 r0 ER.
      match type of H with (if ?b then _ else _) _ = _ => destruct b eqn:Q end; [discriminate|]. next_step H c1 slt E. destruct slt as [[string lb] tb].
      assert (X : exists x after l3, rest1 = x ++ after /\ c1 = cur (pre ++ h ++ ht ++ x) after (marker_after x m1) l3 s).
      { destruct (N.eq_dec (m_col m1) (N.of_nat n + 1)) as [MC|MC].
        - assert (DE : ~ end_mark rest1) by (intros (rr & -> & _); discriminate). apply loop_lines in E; [|exact MC|exact NE|exact B|now intros _].
          destruct E as (w & b2 & more & _ & _ & _ & _ & _ & _ & D). destruct D as [(tail & j & after & l3 & -> & FT & JL & TE & EO & EC & EL)|(l3 & ER & EO & EC & EL)].
          + exists (w ++ eol b2 ++ flat_map (line_text n) more ++ blank_lines tail ++ repeat 32%N j), after, l3. rewrite <- !app_assoc in *. split; [reflexivity|exact EC].
          + exists rest1, [], l3. rewrite app_nil_r. split; [reflexivity|]. rewrite <- !app_assoc in EC. exact EC.
        - apply loop_stops in E; [|right; now left]. destruct E as [_ ->]. exists [], rest1, l2. rewrite app_nil_r. split; reflexivity. }
      clear E. destruct X as (x & after & l3 & -> & ->). next_step H c2 p E. rewrite e_peek_checked in E. apply pair_ok in E. destruct E as [<- <-]. peeked H. apply pair_ok in H. destruct H as [_ <-].
      exists ((h ++ ht) ++ x). eexists. eexists. exists after, (block_sign literal :: h ++ ht), x. split; [now rewrite <- !app_assoc|]. split; [exact (tb_nul literal self after _ e digit x _ BH N01)|]. split; [reflexivity|]. split; [reflexivity|].
      cbn [List.length tl]. rewrite (marker_after_app (h ++ ht)). fold m1. reflexivity.
Qed.
