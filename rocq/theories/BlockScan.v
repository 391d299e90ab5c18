(** Runs of [scan_block_scalar] over the lines of a block scalar. *)
From Verif Require Import Base Tokens Scalar Chars Source Cursor ExactCursor ExactPlain JsonCursor SpecBlock.
From Coq Require Import String Lia ZifyBool ZifyNat ZifyN.
Local Open Scope m_scope.
Local Open Scope list_scope.

(** ** Line breaks *)
Lemma e_eol b acc pre rest m l s : exists m', read_break acc (cur pre (eol b ++ rest) m l s) = (cur (pre ++ eol b) rest m' true s, Ok (acc ++ [10%N])) /\ m_col m' = 1%N /\ (m_line m < m_line m')%N.
Proof.
  unfold read_break. destruct b; cbn [eol app]; unfold bind at 1.
  - rewrite e_skip_crlf. eexists. split; [reflexivity|]. split; [reflexivity|]. cbn. lia.
  - rewrite e_skip_lf. eexists. split; [reflexivity|]. split; [reflexivity|]. cbn. lia.
Qed.
Lemma eol_break b rest : is_break (nth 0 (eol b ++ rest) 0%N) = true.
Proof. now destruct b. Qed.
Lemma eol_length b : 1 <= List.length (eol b) <= 2.
Proof. destruct b; cbn; lia. Qed.
Lemma eol_first b rest : nth 0 (eol b ++ rest) 0%N = 10%N \/ nth 0 (eol b ++ rest) 0%N = 13%N.
Proof. destruct b; cbn; auto. Qed.
Lemma eol_not_space b rest : nth 0 (eol b ++ rest) 0%N <> 32%N.
Proof. destruct b; discriminate. Qed.
Lemma eol_some b rest : eol b ++ rest <> [].
Proof. destruct b; discriminate. Qed.

(** ** Indentation *)
Lemma e_skip_spaces k : forall fuel pre rest m l s, nth 0 rest 0%N <> 32%N -> k < fuel ->
  skip_spaces fuel (cur pre (repeat 32%N k ++ rest) m l s) = (cur (pre ++ repeat 32%N k) rest (mark_add k m) l s, Ok tt).
Proof.
  induction k as [|k IH]; intros [|fuel] pre rest m l s A F; try lia; cbn [skip_spaces repeat app]; unfold bind at 1; rewrite e_peek; cbn [nth].
  - rewrite (proj2 (N.eqb_neq _ _) A). now rewrite app_nil_r, mark_add_0.
  - change ((32 =? 32)%N) with true. cbv iota. unfold bind at 1. rewrite e_skip_blank. rewrite IH by (auto; lia).
    now rewrite mark_add_add, <- app_assoc.
Qed.
Lemma e_indent_spaces i k : forall fuel pre rest m l s, (m_col m + N.of_nat k <= i)%N -> (m_col m + N.of_nat k = i)%N \/ nth 0 rest 0%N <> 32%N -> k < fuel ->
  indent_spaces fuel i (cur pre (repeat 32%N k ++ rest) m l s) = (cur (pre ++ repeat 32%N k) rest (mark_add k m) l s, Ok tt).
Proof.
  induction k as [|k IH]; intros [|fuel] pre rest m l s H A F; try lia; cbn [indent_spaces repeat app]; unfold bind at 1; rewrite e_get_mark;
    unfold bind at 1; rewrite e_peek; cbn [nth].
  - replace ((m_col m <? i)%N && (nth 0 rest 0 =? 32)%N) with false by (destruct A; lia). now rewrite app_nil_r, mark_add_0.
  - replace ((m_col m <? i)%N) with true by lia. change ((32 =? 32)%N) with true. cbn [andb]. unfold bind at 1. rewrite e_skip_blank.
    rewrite IH by (unfold mark_add; cbn [Base.m_col]; destruct A; auto; lia).
    now rewrite mark_add_add, <- app_assoc.
Qed.
Definition not_wide (i : N) (rest : text) : Prop := (i < 126)%N \/ rest <> [].
Lemma e_indent i k fuel pre rest m l s : (m_col m + N.of_nat k <= i)%N -> (m_col m + N.of_nat k = i)%N \/ nth 0 rest 0%N <> 32%N ->
  (m_col m + N.of_nat k = i)%N \/ not_wide i rest -> S k < fuel ->
  (if (i <? 126)%N then indent_spaces fuel i else wide_spaces fuel i) (cur pre (repeat 32%N k ++ rest) m l s)
  = (cur (pre ++ repeat 32%N k) rest (mark_add k m) l s, Ok tt).
Proof.
  intros H A W F. destruct (i <? 126)%N eqn:I; [apply e_indent_spaces; auto; lia|].
  destruct fuel as [|fuel]; [lia|]. cbn [wide_spaces]. unfold bind at 1. rewrite e_indent_spaces by (auto; lia).
  unfold bind at 1. rewrite e_get_mark. unfold bind at 1. unfold buf_is_empty, gets. rewrite cur_empty. unfold bind at 1. rewrite e_peek.
  replace (m_col (mark_add k m) =? i)%N with (m_col m + N.of_nat k =? i)%N by reflexivity.
  destruct (N.eqb_spec (m_col m + N.of_nat k) i) as [E|E]; [reflexivity|].
  destruct W as [W|[W|W]]; [congruence|lia|]. destruct A as [A|A]; [congruence|].
  rewrite (proj2 (N.eqb_neq _ _) A). destruct rest; [congruence|reflexivity].
Qed.
(** Blank lines and the indentation of the line after them. *)
Lemma e_block_indent i s after : forall gap fuel br pre m l a, m_col m = 1%N -> Forall (fun b => N.of_nat (fst b) + 1 <= i)%N gap ->
  (N.of_nat s + 1 <= i)%N -> (N.of_nat s + 1 = i)%N \/ nth 0 after 0%N <> 32%N -> (N.of_nat s + 1 = i)%N \/ not_wide i after ->
  is_break (nth 0 after 0%N) = false -> List.length (blank_lines gap ++ repeat 32%N s) + 2 < fuel ->
  exists m' l', skip_block_scalar_indent fuel i br (cur pre (blank_lines gap ++ repeat 32%N s ++ after) m l a)
    = (cur (pre ++ blank_lines gap ++ repeat 32%N s) after m' l' a, Ok (br ++ repeat 10%N (List.length gap))) /\ m_col m' = (N.of_nat s + 1)%N /\ (l = true -> l' = true) /\ (m_line m <= m_line m')%N.
Proof.
  induction gap as [|[k b] gap IH]; intros fuel br pre m l a M G S1 A W B F; (destruct fuel as [|fuel]; [lia|]); cbn [skip_block_scalar_indent].
  - cbn [blank_lines flat_map app List.length] in *. rewrite repeat_length in F. unfold bind at 1.
    rewrite e_indent; [|rewrite M; lia|rewrite M; destruct A; [left; lia|auto]|rewrite M; destruct W; [left; lia|auto]|lia].
    unfold bind at 1. rewrite e_peek, B. do 2 eexists. cbn [repeat]. rewrite app_nil_r. split; [reflexivity|]. unfold mark_add. cbn [Base.m_col Base.m_line]. split; [lia|]. split; [auto|lia].
  - inversion_clear G as [|? ? G1 G2]. cbn [fst] in G1. cbn [blank_lines flat_map fst snd] in *. fold (blank_lines gap) in *.
    rewrite <- !app_assoc in *. rewrite !app_length in F. rewrite !repeat_length in F. pose proof (eol_length b) as EL. unfold bind at 1.
    rewrite e_indent; [|rewrite M; lia|right; apply eol_not_space|right; right; apply eol_some|lia].
    unfold bind at 1. rewrite e_peek, eol_break. cbv iota. unfold bind at 1.
    destruct (e_eol b br (pre ++ repeat 32%N k) (blank_lines gap ++ repeat 32%N s ++ after) (mark_add k m) l a) as (m1 & -> & M1 & N1).
    destruct (IH fuel (br ++ [10%N]) ((pre ++ repeat 32%N k) ++ eol b) m1 true a M1 G2 S1 A W B) as (m' & l' & -> & M' & L' & N').
    { rewrite app_length, repeat_length. lia. }
    do 2 eexists. split; [rewrite <- !app_assoc; reflexivity|]. split; [exact M'|]. split; [auto|]. cbn [mark_add Base.m_line] in N1. lia.
Qed.
(** The same while finding out the indentation. *)
Lemma e_first_line s after : forall gap fuel mx br pre m l a, m_col m = 1%N -> Forall (fun b => fst b <= s) gap ->
  nth 0 after 0%N <> 32%N -> is_break (nth 0 after 0%N) = false -> (mx <= N.of_nat s + 1)%N -> List.length (blank_lines gap ++ repeat 32%N s) + 2 < fuel ->
  exists m' l', first_line_loop fuel mx br (cur pre (blank_lines gap ++ repeat 32%N s ++ after) m l a)
    = (cur (pre ++ blank_lines gap ++ repeat 32%N s) after m' l' a, Ok ((N.of_nat s + 1)%N, br ++ repeat 10%N (List.length gap))) /\
    m_col m' = (N.of_nat s + 1)%N /\ (l = true -> l' = true) /\ (m_line m <= m_line m')%N.
Proof.
  induction gap as [|[k b] gap IH]; intros fuel mx br pre m l a M G A B MX F; (destruct fuel as [|fuel]; [lia|]); cbn [first_line_loop].
  - cbn [blank_lines flat_map app List.length] in *. rewrite repeat_length in F. unfold bind at 1. rewrite e_skip_spaces by (auto; lia).
    unfold bind at 1. rewrite e_get_mark. cbv zeta. unfold bind at 1. rewrite e_peek, B.
    assert (C : m_col (mark_add s m) = (N.of_nat s + 1)%N) by (unfold mark_add; cbn [Base.m_col]; lia). rewrite C.
    replace (if (mx <? N.of_nat s + 1)%N then (N.of_nat s + 1)%N else mx) with (N.of_nat s + 1)%N by (destruct (N.ltb_spec mx (N.of_nat s + 1)); lia).
    do 2 eexists. cbn [repeat]. rewrite app_nil_r. split; [reflexivity|]. split; [exact C|]. split; [auto|cbn; lia].
  - inversion_clear G as [|? ? G1 G2]. cbn [fst] in G1. cbn [blank_lines flat_map fst snd] in *. fold (blank_lines gap) in *.
    rewrite <- !app_assoc in *. rewrite !app_length in F. rewrite !repeat_length in F. pose proof (eol_length b) as EL. unfold bind at 1.
    rewrite e_skip_spaces; [|apply eol_not_space|lia]. unfold bind at 1. rewrite e_get_mark. cbv zeta.
    unfold bind at 1. rewrite e_peek, eol_break. cbv iota. unfold bind at 1.
    destruct (e_eol b br (pre ++ repeat 32%N k) (blank_lines gap ++ repeat 32%N s ++ after) (mark_add k m) l a) as (m1 & -> & M1 & N1).
    assert (C : m_col (mark_add k m) = (N.of_nat k + 1)%N) by (unfold mark_add; cbn [Base.m_col]; lia). rewrite C.
    destruct (IH fuel (if (mx <? N.of_nat k + 1)%N then (N.of_nat k + 1)%N else mx) (br ++ [10%N]) ((pre ++ repeat 32%N k) ++ eol b) m1 true a M1 G2 A B) as (m' & l' & -> & M' & L' & N').
    { destruct (N.ltb_spec mx (N.of_nat k + 1)); lia. }
    { rewrite app_length, repeat_length. lia. }
    do 2 eexists. split; [rewrite <- !app_assoc; reflexivity|]. split; [exact M'|]. split; [auto|]. cbn [mark_add Base.m_line] in N1. lia.
Qed.

(** ** A line of content *)
Lemma e_content_chars w : forall fuel string pre rest m l s, ~ In 10%N w -> ~ In 13%N w -> is_break (nth 0 rest 0%N) = true -> List.length w < fuel ->
  content_chars fuel string (cur pre (w ++ rest) m l s) = (cur (pre ++ w) rest (mark_add (List.length w) m) l s, Ok (string ++ w)).
Proof.
  induction w as [|b w IH]; intros [|fuel] string pre rest m l s A B R F; cbn [List.length] in F; try lia; cbn [content_chars]; unfold bind at 1, buf_is_empty, gets;
    rewrite cur_empty; unfold bind at 1; rewrite e_peek.
  - cbn [app]. rewrite R. rewrite andb_false_r. cbn [List.length]. now rewrite !app_nil_r, mark_add_0.
  - cbn [app nth]. assert (NB : is_break b = false).
    { cbn [In] in A, B. clear - A B. unfold is_break. destruct (N.eqb_spec b 10) as [->|]; [tauto|]. destruct (N.eqb_spec b 13) as [->|]; [tauto|reflexivity]. }
    rewrite NB. cbn [negb andb]. unfold bind at 1. rewrite e_peek_or_space. unfold bind at 1. rewrite e_skip_blank.
    rewrite IH by (first [intros C; apply A; now right|intros C; apply B; now right|assumption|lia]).
    rewrite mark_add_add, <- !app_assoc. reflexivity.
Qed.
Lemma e_line w fuel string pre rest m l s : ~ In 10%N w -> ~ In 13%N w -> is_break (nth 0 rest 0%N) = true -> List.length w < fuel ->
  scan_block_scalar_content_line fuel string (cur pre (w ++ rest) m l s) = (cur (pre ++ w) rest (mark_add (List.length w) m) l s, Ok (string ++ w)).
Proof.
  intros A B R F. unfold scan_block_scalar_content_line. unfold bind at 1. rewrite e_content_chars by auto. unfold bind at 1, buf_is_empty, gets.
  rewrite cur_empty. destruct rest; [discriminate R|reflexivity].
Qed.

(** ** The lines *)
Lemma e_block_end pre rest m l s :
  next_is_document_end (cur pre rest m l s)
  = (cur pre rest m l s, Ok ((nth 0 rest 0%N =? 46)%N && (nth 1 rest 0%N =? 46)%N && (nth 2 rest 0%N =? 46)%N && is_blank_or_breakz (nth 3 rest 0%N))).
Proof.
  unfold next_is_document_end, gets, next_is_three. now rewrite !cur_peek.
Qed.

Lemma good_words n x : good_line n x -> words x <> [] /\ ~ In 10%N (words x) /\ ~ In 13%N (words x).
Proof. intros (A & B & C & D & E). auto. Qed.
Lemma words_break n x rest : good_line n x -> is_break (nth 0 (words x ++ rest) 0%N) = false.
Proof.
  intros G. apply good_words in G. destruct G as (B & C & D). destruct (words x) as [|b w]; [congruence|]. cbn [app nth In] in *.
  unfold is_break. destruct (N.eqb_spec b 10) as [->|]; [tauto|]. destruct (N.eqb_spec b 13) as [->|]; [tauto|reflexivity].
Qed.
Lemma words_no_end n x rest : good_line n x -> ((N.of_nat n + 1 =? 1) && ((nth 0 (words x ++ eol (crlf x) ++ rest) 0 =? 46) && (nth 1 (words x ++ eol (crlf x) ++ rest) 0 =? 46) &&
  (nth 2 (words x ++ eol (crlf x) ++ rest) 0 =? 46) && is_blank_or_breakz (nth 3 (words x ++ eol (crlf x) ++ rest) 0)))%N = false.
Proof.
  intros (_ & _ & C & D & E). destruct (N.eqb_spec (N.of_nat n + 1) 1) as [Z|]; [|reflexivity]. assert (E' : ~ marker_first (words x)) by (apply E; lia). clear E Z. cbn [andb].
  destruct (words x) as [|b0 [|b1 [|b2 w]]]; cbn [app nth].
  1-3: destruct (crlf x); cbn [eol app nth]; repeat match goal with |- context [(?a =? 46)%N] => destruct (N.eqb_spec a 46); try discriminate; try reflexivity end.
  all: repeat match goal with |- context [(?a =? 46)%N] => destruct (N.eqb_spec a 46); try discriminate; try reflexivity end.
  subst. cbn [andb]. destruct (is_blank_or_breakz _) eqn:K; [|reflexivity]. destruct E'. exists 46%N, w. split; [auto|]. split; [reflexivity|].
  destruct w as [|c w]; [left; reflexivity|]. cbn [app nth In] in *. unfold is_blank_or_breakz, is_blank, is_break in K.
  destruct (N.eqb_spec c 0) as [->|]; [auto|]. destruct (N.eqb_spec c 32) as [->|]; [auto|]. destruct (N.eqb_spec c 9) as [->|]; [auto|].
  destruct (N.eqb_spec c 13) as [->|]; [tauto|]. destruct (N.eqb_spec c 10) as [->|]; [tauto|]. discriminate K.
Qed.
Lemma words_blank n x rest : good_line n x -> is_blank (nth 0 (words x ++ rest) 0%N) = blank_first (words x).
Proof. intros G. apply good_words in G. destruct G as (B & _). destruct (words x); [congruence|reflexivity]. Qed.
Lemma text_eqb_nil_single b : text_eqb [b] [] = false.
Proof. reflexivity. Qed.
Lemma joint_eq literal k a b : (if negb literal && negb (text_eqb [10%N] []) && negb (blank_first a) && negb (blank_first b)
   then match repeat 10%N k with [] => [32%N] | _ => repeat 10%N k end else [10%N] ++ repeat 10%N k) = joint literal a k b.
Proof.
  unfold joint. rewrite text_eqb_nil_single. destruct literal, (blank_first a), (blank_first b); cbn [negb andb orb]; try reflexivity; destruct k; reflexivity.
Qed.
(** The rest of a block scalar ends. *)
Lemma ends_break n s after : block_ends n s after -> is_break (nth 0 after 0%N) = false.
Proof.
  intros [[_ ->]|[(_ & A & B)|(_ & _ & r & -> & _)]]; try reflexivity. cbn [In] in B. unfold is_break. lia.
Qed.
Lemma ends_space n s after : block_ends n s after -> nth 0 after 0%N <> 32%N.
Proof.
  intros [[_ ->]|[(_ & A & B)|(_ & _ & r & -> & _)]]; try discriminate. cbn [In] in B. lia.
Qed.
Lemma ends_le n s after : block_ends n s after -> s <= n.
Proof. intros [[A _]|[(A & _)|(-> & -> & _)]]; lia. Qed.
Definition block_lines (n : nat) (more : list line) (tail : list (nat * bool)) (s : nat) (after : text) : text :=
  flat_map (line_text n) more ++ blank_lines tail ++ repeat 32%N s ++ after.
Lemma e_block_step literal n first fuel string lb tb lead pre rest m l a :
  m_col m = (N.of_nat n + 1)%N -> good_line n first -> List.length (words first) < fuel ->
  exists m1, block_loop (S fuel) literal (N.of_nat n + 1) string lb tb lead (cur pre (words first ++ eol (crlf first) ++ rest) m l a)
  = (let* tb' := skip_block_scalar_indent fuel (N.of_nat n + 1) [] in
     block_loop fuel literal (N.of_nat n + 1)
       ((if negb literal && negb (text_eqb lb []) && negb lead && negb (blank_first (words first))
         then string ++ match tb with [] => [32%N] | _ => tb end else string ++ lb ++ tb) ++ words first) [10%N] tb' (blank_first (words first)))
    (cur (pre ++ words first ++ eol (crlf first)) rest m1 true a) /\ m_col m1 = 1%N /\ (m_line m < m_line m1)%N.
Proof.
  intros M G F. cbn [block_loop].
  unfold bind at 1; rewrite e_get_mark; unfold bind at 1; rewrite e_peek_checked.
  (destruct (words first) as [|w0 w] eqn:EW; [destruct (good_words _ _ G) as [X _]; congruence|]); rewrite <- EW in *.
  replace (nth_error (words first ++ eol (crlf first) ++ rest) 0) with (Some w0) by (rewrite EW; reflexivity). cbv iota.
  unfold bind at 1; rewrite e_block_end; rewrite M, N.eqb_refl, (words_no_end n) by exact G; cbn [negb orb]; cbv iota.
  unfold bind at 1; rewrite e_peek, (words_blank n) by exact G; cbv zeta.
  unfold bind at 1; destruct (good_words _ _ G) as (W1 & W2 & W3);
    rewrite e_line by (first [assumption|apply eol_break]).
  unfold bind at 1; rewrite e_peek_checked. destruct (eol (crlf first) ++ rest) as [|b0 r0] eqn:EE; [now destruct (eol_some (crlf first) rest)|]. cbn [nth_error]. rewrite <- EE. clear b0 r0 EE.
  unfold bind at 1. destruct (e_eol (crlf first) [] (pre ++ words first) rest (mark_add (List.length (words first)) m) l a) as (m1 & -> & M1 & N1).
  exists m1. split; [|split; [exact M1|exact N1]]. rewrite <- app_assoc. reflexivity.
Qed.
Lemma e_block_loop literal n tail s after :
  Forall (fun b => fst b <= n) tail -> block_ends n s after -> (after = [] -> s = n \/ n < 125) ->
  forall more first fuel string lb tb lead pre m l a,
  m_col m = (N.of_nat n + 1)%N -> good_line n first -> Forall (good_line n) more ->
  List.length (words first ++ eol (crlf first) ++ block_lines n more tail s []) + 3 < fuel ->
  exists m' l', block_loop fuel literal (N.of_nat n + 1) string lb tb lead
      (cur pre (words first ++ eol (crlf first) ++ block_lines n more tail s after) m l a)
    = (cur (pre ++ words first ++ eol (crlf first) ++ block_lines n more tail s []) after m' l' a,
       Ok (((if negb literal && negb (text_eqb lb []) && negb lead && negb (blank_first (words first))
             then string ++ match tb with [] => [32%N] | _ => tb end else string ++ lb ++ tb) ++ words first) ++ joined literal (words first) more,
           [10%N], repeat 10%N (List.length tail))) /\ m_col m' = (N.of_nat s + 1)%N /\ l' = true /\ (m_line m < m_line m')%N.
Proof.
  intros HT HE HW. induction more as [|x more IH]; intros first fuel string lb tb lead pre m l a M G GM F; (destruct fuel as [|fuel]; [lia|]);
    repeat rewrite app_length in F; pose proof (eol_length (crlf first)) as EL.
  - destruct (e_block_step literal n first fuel string lb tb lead pre (block_lines n [] tail s after) m l a M G) as (m1 & -> & M1 & N1); [lia|].
    unfold block_lines in *. cbn [flat_map app joined] in *. rewrite !app_length in F. cbn [List.length] in F.
    unfold bind at 1. pose proof (ends_le _ _ _ HE) as LE.
    destruct (e_block_indent (N.of_nat n + 1) s after tail fuel [] (pre ++ words first ++ eol (crlf first)) m1 true a M1) as (m2 & l2 & -> & M2 & L2 & N2).
    + eapply Forall_impl; [|exact HT]. cbn beta. intros y Y. lia.
    + lia.
    + right. eapply ends_space; eassumption.
    + destruct after as [|b0 r0]; [|right; right; discriminate]. destruct (HW eq_refl) as [->|HN]; [now left|]. right. left. lia.
    + eapply ends_break; eassumption.
    + rewrite app_length. lia.
    + specialize (L2 eq_refl). subst l2. rewrite !app_nil_r. exists m2, true. split; [|split; [exact M2|split; [reflexivity|lia]]]. rewrite <- !app_assoc.
      destruct fuel as [|fuel]; [lia|]. cbn [block_loop app]. unfold bind at 1. rewrite e_get_mark. unfold bind at 1. rewrite e_peek_checked.
      destruct HE as [[_ ->]|[(LT & NE & HB)|(-> & -> & r & -> & HR)]].
      * cbn [nth_error]. rewrite <- ?app_assoc. reflexivity.
      * destruct after as [|b0 r0]; [congruence|]. cbn [nth_error]. unfold bind at 1. rewrite e_block_end.
        replace (m_col m2 =? N.of_nat n + 1)%N with false by lia. cbn [negb orb]. rewrite <- ?app_assoc. reflexivity.
      * cbn [nth_error]. unfold bind at 1. rewrite e_block_end. cbn [nth].
        replace (is_blank_or_breakz (nth 0 r 0%N)) with true by (destruct r as [|b0 r]; [reflexivity|]; cbn [nth In] in *; destruct HR as [<-|[<-|[<-|[<-|[]]]]]; reflexivity).
        replace ((N.of_nat 0 + 1 =? 1)%N) with true by reflexivity. change ((46 =? 46)%N) with true. cbn [andb]. rewrite orb_true_r. rewrite <- ?app_assoc. reflexivity.
  - inversion_clear GM as [|? ? GX GR].
    destruct (e_block_step literal n first fuel string lb tb lead pre (block_lines n (x :: more) tail s after) m l a M G) as (m1 & -> & M1 & N1); [lia|].
    unfold block_lines in *. cbn [flat_map app joined] in *. fold (line_text n) in *. unfold line_text at 1. unfold line_text at 1 in F. rewrite !app_length, !repeat_length in F. cbn [List.length] in F.
    unfold bind at 1. rewrite <- !app_assoc.
    destruct (e_block_indent (N.of_nat n + 1) n (words x ++ eol (crlf x) ++ block_lines n more tail s after) (before x) fuel [] (pre ++ words first ++ eol (crlf first)) m1 true a M1) as (m2 & l2 & E2 & M2 & L2 & N2).
    + eapply Forall_impl; [|exact (proj1 GX)]. cbn beta. intros y Y. lia.
    + lia.
    + now left.
    + now left.
    + eapply words_break; eassumption.
    + rewrite app_length, repeat_length. lia.
    + unfold block_lines in E2. rewrite E2. clear E2.
      destruct (IH x fuel (((if negb literal && negb (text_eqb lb []) && negb lead && negb (blank_first (words first))
             then string ++ match tb with [] => [32%N] | _ => tb end else string ++ lb ++ tb) ++ words first)) [10%N] (repeat 10%N (List.length (before x))) (blank_first (words first))
             ((pre ++ words first ++ eol (crlf first)) ++ blank_lines (before x) ++ repeat 32%N n) m2 l2 a M2 GX GR) as (m3 & l3 & E3 & M3 & L3 & N3).
      { rewrite !app_length, repeat_length. cbn [List.length]. lia. }
      exists m3, l3. split; [|split; [exact M3|split; [exact L3|lia]]]. rewrite app_nil_l. rewrite E3. f_equal.
      * unfold line_text. rewrite <- !app_assoc. reflexivity.
      * rewrite <- joint_eq. do 3 f_equal.
        destruct (negb literal && negb (text_eqb [10%N] []) && negb (blank_first (words first)) && negb (blank_first (words x))); rewrite <- !app_assoc; reflexivity.
Qed.

(** ** The header *)
Definition chomp_of (e : ending) : chomp := match e with Stripped => Strip | Clipped => Clip | Kept => Keep end.
Definition header_ends (rest : text) : Prop := In (nth 0 rest 0%N) [32; 9; 10; 13]%N.
Lemma digit_byte d : (1 <= d <= 9)%N -> is_ascii_digit (48 + d) = true /\ (48 + d =? 48)%N = false /\ (48 + d =? 43)%N = false /\ (48 + d =? 45)%N = false /\ (48 + d - 48 = d)%N.
Proof. intros H. unfold is_ascii_digit. lia. Qed.
Lemma e_header h e digit start pre rest m l a : indicators h e digit -> header_ends rest ->
  exists m' l', block_header start (cur pre (h ++ rest) m l a) = (cur (pre ++ h) rest m' l' a, Ok (chomp_of e, match digit with Some d => d | None => 0%N end)) /\ m_line m' = m_line m.
Proof.
  intros H E. unfold header_ends in E. set (r0 := nth 0 rest 0%N) in E. assert (R : (r0 =? 43)%N = false /\ (r0 =? 45)%N = false /\ is_ascii_digit r0 = false).
  { destruct E as [<-|[<-|[<-|[<-|[]]]]]; repeat split; reflexivity. }
  destruct R as (R1 & R2 & R3). subst r0. clear E.
  unfold block_header. destruct H as [|c e C|d D|c e d C D|c e d C D].
  - unfold bind at 1. rewrite e_peek. cbn [app]. rewrite R1, R2, R3. cbn [orb]. rewrite app_nil_r. do 2 eexists; split; reflexivity.
  - unfold bind at 1. rewrite e_peek. cbn [app nth]. destruct C; cbn [N.eqb Pos.eqb orb]; cbv zeta; unfold bind at 1; rewrite e_skip_non_blank;
      unfold bind at 1; rewrite e_peek, R3; do 2 eexists; split; reflexivity.
  - destruct (digit_byte d D) as (D1 & D2 & D3 & D4 & D5). unfold bind at 1. rewrite e_peek. cbn [app nth]. rewrite D1, D2, D3, D4. cbn [orb]. unfold bind at 1. rewrite e_skip_non_blank.
    unfold bind at 1. rewrite e_peek, R1, R2. cbn [orb]. do 2 eexists; rewrite D5; split; reflexivity.
  - destruct (digit_byte d D) as (D1 & D2 & D3 & D4 & D5). unfold bind at 1. rewrite e_peek. cbn [app nth]. destruct C; cbn [N.eqb Pos.eqb orb]; cbv zeta; unfold bind at 1; rewrite e_skip_non_blank;
      unfold bind at 1; rewrite e_peek; cbn [nth]; rewrite D1, D2; unfold bind at 1; rewrite e_skip_non_blank, <- app_assoc, D5; do 2 eexists; split; reflexivity.
  - destruct (digit_byte d D) as (D1 & D2 & D3 & D4 & D5). unfold bind at 1. rewrite e_peek. cbn [app nth]. rewrite D1, D2, D3, D4. cbn [orb]. unfold bind at 1. rewrite e_skip_non_blank.
    unfold bind at 1. rewrite e_peek. cbn [nth]. destruct C; cbn [N.eqb Pos.eqb orb]; unfold bind at 1; rewrite e_skip_non_blank, <- app_assoc, D5; do 2 eexists; split; reflexivity.
Qed.
Lemma e_take_while p c : forall fuel (pre rest : text), Forall (fun b => p b = true) c -> p (nth 0 rest 0%N) = false -> List.length c < fuel ->
  take_while str_ops p fuel (StrSrc (pre ++ c ++ rest) (List.length pre)) = Some (c, StrSrc ((pre ++ c) ++ rest) (List.length (pre ++ c))).
Proof.
  induction c as [|b c IH]; intros [|fuel] pre rest A B F; cbn [List.length] in F; try lia; cbn [take_while].
  - pose proof (cur_peek pre rest (Marker 0 0 0) true true 0) as P; unfold cur, c_src in P. cbn [app]. rewrite P, B, app_nil_r. reflexivity.
  - inversion_clear A as [|? ? A1 A2]. pose proof (cur_peek pre (b :: c ++ rest) (Marker 0 0 0) true true 0) as P; unfold cur, c_src in P. cbn [app]. rewrite P. cbn [nth]. rewrite A1.
    assert (SK : o_skip str_ops 1 (StrSrc (pre ++ b :: c ++ rest) (List.length pre)) = StrSrc ((pre ++ [b]) ++ c ++ rest) (List.length (pre ++ [b]))).
    { unfold str_ops. cbn [o_skip]. change (b :: c ++ rest) with ([b] ++ c ++ rest). apply cur_skip. reflexivity. }
    rewrite SK. rewrite IH by (auto; lia). rewrite <- !app_assoc. reflexivity.
Qed.
Lemma e_blanks_shared g : Forall white_byte g -> forall fuel (pre rest : text) bytes any has, List.length g < fuel ->
  exists any' has', (any || has = true \/ g <> [] -> any' || has' = true) /\
    shared_skip_ws_to_eol str_ops fuel (StrSrc (pre ++ g ++ rest) (List.length pre)) true bytes any has
    = shared_skip_ws_to_eol str_ops (fuel - List.length g) (StrSrc ((pre ++ g) ++ rest) (List.length (pre ++ g))) true (bytes + List.length g) any' has'.
Proof.
  intros W. induction W as [|b g HB W IH]; intros [|fuel] pre rest bytes any has F; cbn [List.length] in F; try lia.
  - exists any, has. cbn [List.length app]. rewrite app_nil_r, Nat.add_0_r, Nat.sub_0_r. split; [intros [H|H]; congruence|reflexivity].
  - cbn [List.length]. replace (S fuel - S (List.length g)) with (fuel - List.length g) by lia.
    assert (SK : o_skip str_ops 1 (StrSrc (pre ++ b :: g ++ rest) (List.length pre)) = StrSrc ((pre ++ [b]) ++ g ++ rest) (List.length (pre ++ [b]))).
    { unfold str_ops. cbn [o_skip]. change (b :: g ++ rest) with ([b] ++ g ++ rest). apply cur_skip. reflexivity. }
    pose proof (cur_peek pre (b :: g ++ rest) (Marker 0 0 0) true true 0) as P. unfold cur, c_src in P.
    set (lhs := shared_skip_ws_to_eol str_ops (S fuel)). cbn [app]. unfold lhs. clear lhs. cbn [shared_skip_ws_to_eol]. rewrite P. cbn [nth]. rewrite SK. clear SK P.
    destruct HB as [-> | ->].
    + change ((32 =? 32)%N) with true. cbv iota.
      destruct (IH fuel (pre ++ [32%N]) rest (bytes + 1) any true ltac:(lia)) as (any' & has' & X & ->). exists any', has'.
      split; [intros _; apply X; left; apply orb_true_r|]. rewrite <- !app_assoc. cbn [app]. replace (bytes + 1 + List.length g) with (bytes + S (List.length g)) by lia. reflexivity.
    + change ((9 =? 32)%N) with false. change ((9 =? 9)%N) with true. cbn [andb].
      destruct (IH fuel (pre ++ [9%N]) rest (bytes + 1) true has ltac:(lia)) as (any' & has' & X & ->). exists any', has'.
      split; [intros _; apply X; left; reflexivity|]. rewrite <- !app_assoc. cbn [app]. replace (bytes + 1 + List.length g) with (bytes + S (List.length g)) by lia. reflexivity.
Qed.
Lemma e_eol_stop fuel (pre : text) b rest bytes any has :
  shared_skip_ws_to_eol str_ops (S fuel) (StrSrc (pre ++ eol b ++ rest) (List.length pre)) true bytes any has
  = Some (StrSrc (pre ++ eol b ++ rest) (List.length pre), (bytes, SkipOk any has)).
Proof.
  cbn [shared_skip_ws_to_eol]. pose proof (cur_peek pre (eol b ++ rest) (Marker 0 0 0) true true 0) as P. unfold cur, c_src in P. rewrite P. destruct b; reflexivity.
Qed.
Lemma e_header_rest ht b fuel pre rest m l a : header_rest ht -> List.length ht + 2 < fuel ->
  exists m' r, skip_ws_to_eol fuel true false (cur pre (ht ++ eol b ++ rest) m l a) = (cur (pre ++ ht) (eol b ++ rest) m' l a, Ok r) /\ m_line m' = m_line m.
Proof.
  intros H F. unfold skip_ws_to_eol, str_skip_ws_to_eol. change (c_src (cur pre (ht ++ eol b ++ rest) m l a)) with (StrSrc (pre ++ ht ++ eol b ++ rest) (List.length pre)).
  destruct H as [g W|g c NE W C].
  - destruct (e_blanks_shared g W fuel pre (eol b ++ rest) 0 false false ltac:(lia)) as (any & has & _ & ->).
    destruct (fuel - List.length g) as [|f] eqn:EF; [lia|]. rewrite e_eol_stop. do 2 eexists. split; [reflexivity|]. reflexivity.
  - rewrite app_length in F. cbn [List.length] in F. rewrite <- app_assoc.
    destruct (e_blanks_shared g W fuel pre ((35%N :: c) ++ eol b ++ rest) 0 false false ltac:(lia)) as (any & has & X & ->).
    destruct (fuel - List.length g) as [|f] eqn:EF; [lia|]. cbn [shared_skip_ws_to_eol].
    pose proof (cur_peek (pre ++ g) ((35%N :: c) ++ eol b ++ rest) (Marker 0 0 0) true true 0) as P. unfold cur, c_src in P. rewrite P. clear P. cbn [app nth].
    change ((35 =? 32)%N) with false. change ((35 =? 9)%N) with false. change ((35 =? 35)%N) with true. cbn [andb].
    specialize (X (or_intror NE)). replace (negb any && negb has) with false by (destruct any, has; try discriminate X; reflexivity).
    assert (SK : o_skip str_ops 1 (StrSrc ((pre ++ g) ++ 35%N :: c ++ eol b ++ rest) (List.length (pre ++ g))) = StrSrc (((pre ++ g) ++ [35%N]) ++ c ++ eol b ++ rest) (List.length ((pre ++ g) ++ [35%N]))).
    { unfold str_ops. cbn [o_skip]. change (35%N :: c ++ eol b ++ rest) with ([35%N] ++ c ++ eol b ++ rest). apply cur_skip. reflexivity. }
    rewrite SK. clear SK. unfold skip_while_non_breakz. rewrite e_take_while.
    + destruct f as [|f]; [lia|]. rewrite e_eol_stop. unfold cur. cbn [c_mark c_lead c_ska]. repeat (rewrite <- app_assoc; cbn [app]). do 2 eexists. split; [reflexivity|]. reflexivity.
    + eapply Forall_impl; [|exact C]. cbn beta. intros y Y. cbn [In] in Y. unfold is_breakz.
      destruct (N.eqb_spec y 13) as [->|]; [tauto|]. destruct (N.eqb_spec y 10) as [->|]; [tauto|]. destruct (N.eqb_spec y 0) as [->|]; [tauto|reflexivity].
    + destruct b; reflexivity.
    + lia.
Qed.
Lemma header_rest_ends ht b rest : header_rest ht -> header_ends (ht ++ eol b ++ rest).
Proof.
  unfold header_ends. intros [g W|g c NE W C].
  - destruct W as [|y g [->| ->] W]; cbn [app nth In]; [destruct b; cbn; auto 6|auto|auto].
  - destruct W as [|y g [->| ->] W]; [congruence| |]; cbn [app nth In]; auto.
Qed.

(** ** The whole scalar *)
Lemma block_lines_cons n first more tail s after : block_lines n (first :: more) tail s after
  = blank_lines (before first) ++ repeat 32%N n ++ words first ++ eol (crlf first) ++ block_lines n more tail s after.
Proof. unfold block_lines. cbn [flat_map]. unfold line_text at 1. now rewrite <- !app_assoc. Qed.
(** What is left of the scan behind the loop: chomping and the token. *)
Definition block_finish (literal : bool) (e : ending) (n : nat) (m : marker) (r : text * text * text) : CM token :=
  let '(string, lb, tb) := r in
  let* p := peek_checked 0 in
  let* e' := get_mark in
  let string :=
    match chomp_of e with
    | Strip => string
    | _ =>
        let string := string ++ lb in
        match p with
        | None => if (N.max (N.of_nat n + 1) 1 <? m_col e')%N then string ++ [10%N] else string
        | Some _ => string
        end
    end in
  let string := match chomp_of e with Keep => string ++ tb | _ => string end in
  ret (Token (Span m e') (TScalar (if literal then Literal else Folded) string)).
Lemma e_block_start literal h e digit ht b first n x col start fuel pre m l a :
  indicators h e digit -> header_rest ht -> indentation col digit n first -> good_line n first ->
  (nth 0 (words first) 0%N <> 9%N \/ n <> 0 \/ before first <> []) ->
  List.length (h ++ ht ++ eol b ++ blank_lines (before first) ++ repeat 32%N n ++ words first) + 5 < fuel ->
  exists m' l', scan_block_scalar_body fuel literal col start (cur pre (h ++ ht ++ eol b ++ blank_lines (before first) ++ repeat 32%N n ++ words first ++ x) m l a)
    = bind (block_loop fuel literal (N.of_nat n + 1) [] [] (repeat 10%N (List.length (before first))) false) (block_finish literal e n m')
        (cur (pre ++ h ++ ht ++ eol b ++ blank_lines (before first) ++ repeat 32%N n) (words first ++ x) m' l' a) /\
    m_col m' = (N.of_nat n + 1)%N /\ (m_line m < m_line m')%N.
Proof.
  intros HI HR HD HF HTab F. repeat (rewrite app_length in F). pose proof (eol_length b) as EL. unfold scan_block_scalar_body. cbv zeta.
  set (lines := blank_lines (before first) ++ repeat 32%N n ++ words first ++ x).
  unfold bind at 1. destruct (e_header h e digit start pre (ht ++ eol b ++ lines) m l a HI (header_rest_ends _ _ _ HR)) as (m1 & l1 & -> & N1). cbv iota beta.
  unfold bind at 1. destruct (e_header_rest ht b fuel (pre ++ h) lines m1 l1 a HR ltac:(lia)) as (m2 & r2 & -> & N2).
  unfold bind at 1. rewrite e_peek. replace (is_breakz (nth 0 (eol b ++ lines) 0%N)) with true by (destruct b; reflexivity). cbn [negb]. cbv iota.
  unfold bind at 1. rewrite eol_break. destruct (e_eol b [] ((pre ++ h) ++ ht) lines m2 l1 a) as (m3 & -> & M3 & N3). cbn [app].
  unfold bind at 1. rewrite e_peek.
  assert (T9 : (nth 0 lines 0 =? 9)%N = false).
  { unfold lines. destruct (before first) as [|[k b0] q]; cbn [blank_lines flat_map app fst snd].
    - destruct n as [|n']; [|reflexivity]. cbn [repeat app]. destruct HTab as [T|[T|T]]; [|congruence|congruence].
      destruct (good_words _ _ HF) as (W1 & _). destruct (words first) as [|w0 w]; [congruence|]. cbn [app nth] in *. now apply N.eqb_neq.
    - destruct k; [|reflexivity]. destruct b0; reflexivity. }
  rewrite T9. clear T9. unfold lines. clear lines.
  assert (GB : Forall (fun b0 : nat * bool => fst b0 <= n) (before first)) by exact (proj1 HF).
  pose proof (words_break n first x HF) as WB.
  assert (F2 : List.length (blank_lines (before first) ++ repeat 32%N n) + 5 < fuel) by (rewrite app_length; lia).
  set (after1 := words first ++ x) in *.
  match goal with |- context [bind ?x _ (cur _ (blank_lines _ ++ _) _ _ _)] => set (act := x) end.
  assert (EA : exists m4 l4, act (cur (((pre ++ h) ++ ht) ++ eol b) (blank_lines (before first) ++ repeat 32%N n ++ after1) m3 true a)
     = (cur ((((pre ++ h) ++ ht) ++ eol b) ++ blank_lines (before first) ++ repeat 32%N n) after1 m4 l4 a, Ok ((N.of_nat n + 1)%N, repeat 10%N (List.length (before first)))) /\
       m_col m4 = (N.of_nat n + 1)%N /\ (m_line m3 <= m_line m4)%N).
  { subst act. destruct digit as [d|]; cbn [indentation] in HD.
    - assert (D : (1 <= d)%N) by (inversion HI; lia). replace (0 <? d)%N with true by lia. cbv iota.
      replace (if (1 <=? col)%N then (col + d)%N else d) with (N.of_nat n + 1)%N by (destruct (N.leb_spec 1 col); lia).
      replace (N.of_nat n + 1 =? 0)%N with false by lia. cbv iota. unfold bind at 1.
      destruct (e_block_indent (N.of_nat n + 1) n after1 (before first) fuel [] (((pre ++ h) ++ ht) ++ eol b) m3 true a M3) as (m4 & l4 & -> & M4 & _ & N4).
      + eapply Forall_impl; [|exact GB]. cbn beta. intros y Y. lia.
      + lia.
      + now left.
      + now left.
      + exact WB.
      + lia.
      + exists m4, l4. split; [reflexivity|]. split; [exact M4|exact N4].
    - destruct HD as [D1 D2]. change (0 <? 0)%N with false. cbv iota. change (0 =? 0)%N with true. cbv iota.
      unfold skip_block_scalar_first_line_indent. unfold bind at 1.
      destruct (e_first_line n after1 (before first) fuel 0%N [] (((pre ++ h) ++ ht) ++ eol b) m3 true a M3 GB) as (m4 & l4 & -> & M4 & _ & N4).
      + unfold after1. destruct (good_words _ _ HF) as (W1 & _). destruct (words first) as [|w0 w]; [congruence|]. exact D2.
      + exact WB.
      + lia.
      + lia.
      + cbv iota beta zeta. replace (N.max (N.of_nat n + 1) (col + 1))%N with (N.of_nat n + 1)%N by lia.
        replace (if (0 <? col)%N then N.max (N.of_nat n + 1) 1 else (N.of_nat n + 1)%N) with (N.of_nat n + 1)%N by (destruct (0 <? col)%N; lia).
        exists m4, l4. split; [reflexivity|]. split; [exact M4|exact N4]. }
  destruct EA as (m4 & l4 & EA & M4 & N4). unfold bind at 1. rewrite EA. clear EA act. cbv iota beta.
  unfold bind at 1. rewrite e_peek_checked. unfold bind at 1. rewrite e_get_mark.
  assert (P1 : exists w0, nth_error after1 0 = Some w0).
  { unfold after1. destruct (good_words _ _ HF) as (W1 & _). destruct (words first) as [|w0 w]; [congruence|]. exists w0. reflexivity. }
  destruct P1 as [w0 ->]. rewrite M4, N.ltb_irrefl. cbn [andb].
  exists m4, l4. split; [|split; [exact M4|lia]]. unfold block_finish. destruct e; rewrite <- !app_assoc; reflexivity.
Qed.
Lemma e_block_scalar literal h e digit ht b first more tail n s after col start fuel pre m l a :
  indicators h e digit -> header_rest ht -> indentation col digit n first -> good_line n first -> Forall (good_line n) more ->
  Forall (fun b => fst b <= n) tail -> block_ends n s after -> (after = [] -> s = n \/ n < 125) ->
  (nth 0 (words first) 0%N <> 9%N \/ n <> 0 \/ before first <> []) ->
  List.length (h ++ ht ++ eol b ++ block_lines n (first :: more) tail s []) + 5 < fuel ->
  exists m' sp, scan_block_scalar_body fuel literal col start (cur pre (h ++ ht ++ eol b ++ block_lines n (first :: more) tail s after) m l a)
    = (cur (pre ++ h ++ ht ++ eol b ++ block_lines n (first :: more) tail s []) after m' true a,
       Ok (Token sp (TScalar (if literal then Literal else Folded) (block_value literal e first more tail)))) /\ m_col m' = (N.of_nat s + 1)%N /\ (m_line m < m_line m')%N.
Proof.
  intros HI HR HD HF HM HT HE HW HTab F. rewrite !block_lines_cons in *.
  destruct (e_block_start literal h e digit ht b first n (eol (crlf first) ++ block_lines n more tail s after) col start fuel pre m l a HI HR HD HF HTab) as (m4 & l4 & -> & M4 & N4).
  { repeat rewrite app_length in *. lia. }
  unfold bind at 1.
  destruct (e_block_loop literal n tail s after HT HE HW more first fuel [] [] (repeat 10%N (List.length (before first))) false
     (pre ++ h ++ ht ++ eol b ++ blank_lines (before first) ++ repeat 32%N n) m4 l4 a M4 HF HM) as (m5 & l5 & -> & M5 & L5 & N5).
  { repeat rewrite app_length in *. lia. }
  subst l5. unfold block_finish. unfold bind at 1. rewrite e_peek_checked. unfold bind at 1. rewrite e_get_mark. exists m5, (Span m4 m5).
  split; [|split; [exact M5|lia]]. unfold ret. f_equal.
  - rewrite <- !app_assoc. reflexivity.
  - do 3 f_equal. change (text_eqb [] []) with true. rewrite !andb_false_r. cbn [andb negb app]. unfold block_value.
    pose proof (ends_le _ _ _ HE) as LE. replace (N.max (N.of_nat n + 1) 1 <? m_col m5)%N with false by lia.
    destruct e; cbn [chomp_of]; destruct (nth_error after 0); cbn [repeat]; rewrite <- ?app_assoc, ?app_nil_r; reflexivity.
Qed.
