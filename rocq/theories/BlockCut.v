(** Block scalars whose last line is cut off by the end of the text. *)
From Verif Require Import Base Tokens Scalar Chars Escaper Source Cursor ExactCursor SpecBlock BlockScan.
From Coq Require Import String Lia ZifyBool ZifyNat ZifyN.
Local Open Scope list_scope.
Local Open Scope m_scope.

Lemma e_line_end w fuel string pre m l s : ~ In 10%N w -> ~ In 13%N w -> List.length w < fuel ->
  scan_block_scalar_content_line fuel string (cur pre w m l s) = (cur (pre ++ w) [] (mark_add (List.length w) m) l s, Ok (string ++ w)).
Proof.
  intros A B F. unfold scan_block_scalar_content_line. unfold bind at 1.
  assert (E : content_chars fuel string (cur pre w m l s) = (cur (pre ++ w) [] (mark_add (List.length w) m) l s, Ok (string ++ w))).
  { revert fuel string pre m l s A B F. induction w as [|b w IH]; intros [|fuel] string pre m l s A B F; cbn [List.length] in F; try lia; cbn [content_chars]; unfold bind at 1, buf_is_empty, gets;
      rewrite cur_empty; unfold bind at 1; rewrite e_peek.
    - cbn [List.length]. now rewrite !app_nil_r, mark_add_0.
    - cbn [app nth]. assert (NB : is_break b = false).
      { cbn [In] in A, B. clear - A B. unfold is_break. destruct (N.eqb_spec b 10) as [->|]; [tauto|]. destruct (N.eqb_spec b 13) as [->|]; [tauto|reflexivity]. }
      rewrite NB. cbn [negb andb]. unfold bind at 1. rewrite e_peek_or_space. unfold bind at 1. rewrite e_skip_blank.
      rewrite IH by (first [intros C; apply A; now right|intros C; apply B; now right|lia]).
      rewrite mark_add_add, <- !app_assoc. reflexivity. }
  rewrite E. unfold bind at 1, buf_is_empty, gets. rewrite cur_empty. cbv iota.
  unfold bind at 1, push_line, cur. cbn [c_src c_mark c_lead c_ska]. unfold str_push_non_breakz_chr. cbn [ss_input ss_pos].
  rewrite app_nil_r, Nat.ltb_irrefl, skipn_all. cbn [Escaper.position firstn List.length]. unfold str_skip. cbn [ss_input ss_pos]. rewrite Nat.add_0_r, mark_add_0, app_nil_r. reflexivity.
Qed.
Lemma words_no_end_cut n x : good_line n x -> ((N.of_nat n + 1 =? 1) && ((nth 0 (words x) 0 =? 46) && (nth 1 (words x) 0 =? 46) &&
  (nth 2 (words x) 0 =? 46) && is_blank_or_breakz (nth 3 (words x) 0)))%N = false.
Proof.
  intros (_ & _ & C & D & E). destruct (N.eqb_spec (N.of_nat n + 1) 1) as [Z|]; [|reflexivity]. assert (E' : ~ marker_first (words x)) by (apply E; lia). clear E Z. cbn [andb].
  destruct (words x) as [|b0 [|b1 [|b2 w]]]; cbn [nth].
  all: repeat match goal with |- context [(?a =? 46)%N] => destruct (N.eqb_spec a 46); try discriminate; try reflexivity end.
  subst. cbn [andb]. destruct (is_blank_or_breakz _) eqn:K; [|reflexivity]. destruct E'. exists 46%N, w. split; [auto|]. split; [reflexivity|].
  destruct w as [|c w]; [left; reflexivity|]. cbn [nth In] in *. unfold is_blank_or_breakz, is_blank, is_break in K.
  destruct (N.eqb_spec c 0) as [->|]; [auto|]. destruct (N.eqb_spec c 32) as [->|]; [auto|]. destruct (N.eqb_spec c 9) as [->|]; [auto|].
  destruct (N.eqb_spec c 13) as [->|]; [tauto|]. destruct (N.eqb_spec c 10) as [->|]; [tauto|]. discriminate K.
Qed.
(** The lines from the first character of content on. *)
Fixpoint cut_rest (n : nat) (first : line) (more : list line) : text :=
  match more with
  | [] => words first
  | x :: r => words first ++ eol (crlf first) ++ blank_lines (before x) ++ repeat 32%N n ++ cut_rest n x r
  end.
Lemma cut_rest_words n first more : exists x, cut_rest n first more = words first ++ x.
Proof. destruct more; [exists []; now rewrite app_nil_r|eexists; reflexivity]. Qed.
Lemma e_block_loop_cut literal n : forall more first fuel string lb tb lead pre m l a,
  m_col m = (N.of_nat n + 1)%N -> good_line n first -> Forall (good_line n) more ->
  List.length (cut_rest n first more) + 3 < fuel ->
  exists m' l', block_loop fuel literal (N.of_nat n + 1) string lb tb lead (cur pre (cut_rest n first more) m l a)
    = (cur (pre ++ cut_rest n first more) [] m' l' a,
       Ok (((if negb literal && negb (text_eqb lb []) && negb lead && negb (blank_first (words first))
             then string ++ match tb with [] => [32%N] | _ => tb end else string ++ lb ++ tb) ++ words first) ++ joined literal (words first) more, [], [])) /\
    (N.of_nat n + 1 < m_col m')%N.
Proof.
  induction more as [|x more IH]; intros first fuel string lb tb lead pre m l a M G GM F; (destruct fuel as [|fuel]; [lia|]); cbn [cut_rest joined] in *.
  - cbn [block_loop].
    unfold bind at 1; rewrite e_get_mark; unfold bind at 1; rewrite e_peek_checked.
    destruct (good_words _ _ G) as (W1 & W2 & W3).
    pose proof (words_no_end_cut n first G) as NE. pose proof (words_blank n first [] G) as WB. rewrite app_nil_r in WB.
    destruct (words first) as [|w0 w] eqn:EW; [congruence|]. rewrite <- EW in *.
    replace (nth_error (words first) 0) with (Some w0) by (rewrite EW; reflexivity). cbv iota.
    unfold bind at 1; rewrite e_block_end; rewrite M, N.eqb_refl, NE; cbn [negb orb]; cbv iota.
    unfold bind at 1; rewrite e_peek, WB; cbv zeta.
    unfold bind at 1; rewrite e_line_end by (assumption || lia).
    unfold bind at 1; rewrite e_peek_checked. cbn [nth_error]. do 2 eexists. split; [rewrite app_nil_r; reflexivity|].
    unfold mark_add. cbn [Base.m_col]. rewrite EW. cbn [List.length]. lia.
  - inversion_clear GM as [|? ? GX GR]. repeat rewrite app_length in F. pose proof (eol_length (crlf first)) as EL.
    destruct (e_block_step literal n first fuel string lb tb lead pre (blank_lines (before x) ++ repeat 32%N n ++ cut_rest n x more) m l a M G) as (m1 & -> & M1 & _); [lia|].
    unfold bind at 1.
    destruct (e_block_indent (N.of_nat n + 1) n (cut_rest n x more) (before x) fuel [] (pre ++ words first ++ eol (crlf first)) m1 true a M1) as (m2 & l2 & -> & M2 & L2 & _).
    + eapply Forall_impl; [|exact (proj1 GX)]. cbn beta. intros y Y. lia.
    + lia.
    + now left.
    + now left.
    + destruct (cut_rest_words n x more) as (q & ->). eapply words_break; eassumption.
    + rewrite app_length. lia.
    + destruct (IH x fuel (((if negb literal && negb (text_eqb lb []) && negb lead && negb (blank_first (words first))
             then string ++ match tb with [] => [32%N] | _ => tb end else string ++ lb ++ tb) ++ words first)) [10%N] (repeat 10%N (List.length (before x))) (blank_first (words first))
             ((pre ++ words first ++ eol (crlf first)) ++ blank_lines (before x) ++ repeat 32%N n) m2 l2 a M2 GX GR ltac:(lia)) as (m3 & l3 & E3 & M3).
      exists m3, l3. split; [|exact M3]. rewrite app_nil_l. rewrite E3. f_equal.
      * rewrite <- !app_assoc. reflexivity.
      * rewrite <- joint_eq. do 3 f_equal.
        destruct (negb literal && negb (text_eqb [10%N] []) && negb (blank_first (words first)) && negb (blank_first (words x))); rewrite <- !app_assoc; reflexivity.
Qed.
Lemma cut_lines_rest n last : forall l first more, first :: more = l ++ [last] -> cut_lines n l last = blank_lines (before first) ++ repeat 32%N n ++ cut_rest n first more.
Proof.
  unfold cut_lines. induction l as [|x l IH]; intros first more E; cbn [app] in E.
  - injection E as -> ->. reflexivity.
  - injection E as -> E. cbn [flat_map]. unfold line_text at 1. rewrite <- !app_assoc.
    destruct more as [|y more]; [destruct l; discriminate E|]. cbn [cut_rest]. rewrite (IH y more E). rewrite <- ?app_assoc. reflexivity.
Qed.
(** The line break that is missing counts unless it is stripped. *)
Definition cut_value (literal : bool) (e : ending) (l : list line) : text :=
  block_text literal l ++ match e with Stripped => [] | _ => [10%N] end.
Lemma e_block_cut literal h e digit ht b l last n col start fuel pre m ld a :
  indicators h e digit -> header_rest ht -> indentation col digit n (hd last l) -> Forall (good_line n) l -> good_line n last ->
  (nth 0 (words (hd last l)) 0%N <> 9%N \/ n <> 0 \/ before (hd last l) <> []) ->
  List.length (h ++ ht ++ eol b ++ cut_lines n l last) + 5 < fuel ->
  exists m' l' sp, scan_block_scalar_body fuel literal col start (cur pre (h ++ ht ++ eol b ++ cut_lines n l last) m ld a)
    = (cur (pre ++ h ++ ht ++ eol b ++ cut_lines n l last) [] m' l' a,
       Ok (Token sp (TScalar (if literal then Literal else Folded) (cut_value literal e (l ++ [last]))))).
Proof.
  intros HI HR HD HL HF HTab F.
  assert (X : exists first more, first :: more = l ++ [last] /\ hd last l = first).
  { destruct l; cbn; eauto. }
  destruct X as (first & more & EX & EH). rewrite EH in *. clear EH.
  assert (G : Forall (good_line n) (first :: more)) by (rewrite EX; apply Forall_app; auto).
  inversion_clear G as [|? ? G1 G2]. rewrite (cut_lines_rest n last l first more EX) in *. rewrite <- EX.
  destruct (cut_rest_words n first more) as (x & ER).
  destruct (e_block_start literal h e digit ht b first n x col start fuel pre m ld a HI HR HD G1 HTab) as (m4 & l4 & E4 & M4 & _).
  { rewrite ER in F. repeat rewrite app_length in *. lia. }
  rewrite <- ER in E4. rewrite E4. clear E4. unfold bind at 1.
  destruct (e_block_loop_cut literal n more first fuel [] [] (repeat 10%N (List.length (before first))) false
     (pre ++ h ++ ht ++ eol b ++ blank_lines (before first) ++ repeat 32%N n) m4 l4 a M4 G1 G2) as (m5 & l5 & -> & M5).
  { repeat rewrite app_length in *. lia. }
  unfold block_finish. unfold bind at 1. rewrite e_peek_checked. unfold bind at 1. rewrite e_get_mark. exists m5, l5, (Span m4 m5).
  unfold ret. f_equal; [rewrite <- !app_assoc; reflexivity|].
  do 3 f_equal. change (text_eqb [] []) with true. rewrite !andb_false_r. cbn [andb negb app nth_error]. unfold cut_value, block_text.
  replace (N.max (N.of_nat n + 1) 1 <? m_col m5)%N with true by lia.
  destruct e; cbn [chomp_of]; rewrite <- ?app_assoc, ?app_nil_r; reflexivity.
Qed.
