(** A block scalar that is indented by 125 columns at the end of the text: no bound is enough. *)
From Verif Require Import Base Tokens Scalar Chars Source Cursor Scanner ExactCursor ScanSteps NodeScan SpecBlock BlockScan BlockDoc ScannerHang.
From Coq Require Import String Lia ZifyBool ZifyNat ZifyN.
Local Open Scope list_scope.

Lemma e_wide_stuck i : forall fuel pre m l s, (m_col m <> i)%N -> snd (wide_spaces fuel i (cur pre [] m l s)) = Fuel.
Proof.
  induction fuel as [|fuel IH]; intros pre m l s H; [reflexivity|]. cbn [wide_spaces]. destruct fuel as [|fuel]; [reflexivity|].
  unfold bind at 1. change (cur pre [] m l s) with (cur pre (repeat 32%N 0 ++ []) m l s) at 1.
  destruct (N.le_gt_cases (m_col m) i) as [LE|GT].
  - rewrite (e_indent_spaces i 0); [|lia|right; discriminate|lia].
    cbn [repeat app]. rewrite app_nil_r, mark_add_0. unfold bind at 1. rewrite e_get_mark. unfold bind at 1, buf_is_empty, gets. rewrite cur_empty.
    unfold bind at 1. rewrite e_peek. cbn [nth negb andb]. rewrite (proj2 (N.eqb_neq _ _) H). cbn [orb]. apply IH, H.
  - cbn [repeat app]. cbn [indent_spaces]. unfold bind at 1. rewrite e_get_mark. unfold bind at 1. rewrite e_peek. cbn [nth].
    replace (m_col m <? i)%N with false by lia. cbn [andb]. unfold ret at 1.
    unfold bind at 1. rewrite e_get_mark. unfold bind at 1, buf_is_empty, gets. rewrite cur_empty.
    unfold bind at 1. rewrite e_peek. cbn [nth negb andb]. rewrite (proj2 (N.eqb_neq _ _) H). cbn [orb]. apply IH, H.
Qed.
Definition wide_text (n : nat) : text := 124%N :: 10%N :: repeat 32%N n ++ [97; 10]%N.
Lemma wide_body_stuck n fuel start m l a : 125 <= n -> n + 10 < fuel ->
  snd (scan_block_scalar_body fuel true 0 start (cur [124%N] (10%N :: repeat 32%N n ++ [97; 10]%N) m l a)) = Fuel.
Proof.
  intros N F. unfold scan_block_scalar_body. cbv zeta.
  unfold bind at 1. destruct (e_header [] Clipped None start [124%N] (10%N :: repeat 32%N n ++ [97; 10]%N) m l a) as (m1 & l1 & E1 & _); [constructor|cbn; auto|].
  rewrite app_nil_l in E1. rewrite E1. clear E1. cbv iota beta.
  unfold bind at 1. destruct (e_header_rest [] false fuel ([124%N] ++ []) (repeat 32%N n ++ [97; 10]%N) m1 l1 a) as (m2 & r2 & E2 & _); [constructor; constructor|cbn; lia|].
  cbn [eol app] in E2. cbn [app]. rewrite E2. clear E2.
  unfold bind at 1. rewrite e_peek. cbn [nth]. change (is_breakz 10) with true. cbn [negb]. cbv iota. change (is_break 10) with true. cbv iota.
  unfold bind at 1. destruct (e_eol false [] [124%N] (repeat 32%N n ++ [97; 10]%N) m2 l1 a) as (m3 & E3 & M3 & _). cbn [eol app] in E3. rewrite E3. clear E3.
  unfold bind at 1. rewrite e_peek. replace (nth 0 (repeat 32%N n ++ [97; 10]%N) 0%N) with 32%N by (destruct n; [lia|reflexivity]).
  change (32 =? 9)%N with false. cbv iota. change (0 <? 0)%N with false. cbv iota. change (0 =? 0)%N with true. cbv iota.
  unfold bind at 1. unfold skip_block_scalar_first_line_indent. unfold bind at 1.
  destruct (e_first_line n [97; 10]%N [] fuel 0%N [] [124; 10]%N m3 true a M3) as (m4 & l4 & E4 & M4 & _); [constructor|discriminate|reflexivity|lia|cbn [blank_lines flat_map app]; rewrite repeat_length; lia|].
  cbn [blank_lines flat_map app List.length repeat] in E4. rewrite E4. clear E4. cbv iota beta zeta. unfold ret at 1. change (0 <? 0)%N with false. cbv iota beta.
  replace (N.max (N.of_nat n + 1) (0 + 1))%N with (N.of_nat n + 1)%N by lia.
  unfold bind at 1. rewrite e_peek_checked. unfold bind at 1. rewrite e_get_mark. cbn [nth_error]. rewrite M4, N.ltb_irrefl. cbn [andb].
  apply bind_fuel.
  destruct fuel as [|fuel]; [lia|].
  assert (G : good_line n (Line [] [97%N] false)) by (repeat split; [constructor|discriminate|cbn; lia|cbn; lia|intros; lia]).
  destruct (e_block_step true n (Line [] [97%N] false) fuel [] [] [] false ([124; 10]%N ++ repeat 32%N n) [] m4 l4 a M4 G) as (m5 & E5 & M5 & _); [cbn; lia|].
  cbn [words crlf eol app] in E5. cbn [app]. rewrite E5. clear E5.
  apply bind_fuel. destruct fuel as [|fuel]; [reflexivity|]. cbn [skip_block_scalar_indent]. apply bind_fuel.
  replace (N.of_nat n + 1 <? 126)%N with false by lia. apply e_wide_stuck. lia.
Qed.
Lemma wide_small : forallb (fun f => match snd (fetch_next_token f (z_started_on (wide_text 125))) with Fuel => true | _ => false end) (seq 0 140) = true.
Proof. vm_compute. reflexivity. Qed.
Lemma wide_hangs fuel : snd (snd (scan fuel (wide_text 125))) = Fuel.
Proof.
  apply hang_scan. clear fuel. intros fuel. destruct (Nat.lt_ge_cases fuel 140) as [H|H].
  - pose proof wide_small as W. rewrite forallb_forall in W. specialize (W fuel). rewrite in_seq in W. specialize (W ltac:(lia)).
    destruct (snd (fetch_next_token fuel (z_started_on (wide_text 125)))); congruence.
  - assert (E : fetch_next_token fuel (z_started_on (wide_text 125)) = fetch_block_scalar fuel true (z_started_on (wide_text 125))).
    { destruct fuel as [|fuel]; [lia|]. reflexivity. }
    rewrite E. clear E. unfold fetch_block_scalar. unfold bind at 1.
    match goal with |- context [save_simple_key ?z] => let r := eval vm_compute in (save_simple_key z) in change (save_simple_key z) with r end. cbv iota beta.
    unfold bind at 1. match goal with |- context [lift (set_ska true) ?z] => let r := eval vm_compute in (lift (set_ska true) z) in change (lift (set_ska true) z) with r end. cbv iota beta.
    unfold bind at 1. match goal with |- context [zmark ?z] => let r := eval vm_compute in (zmark z) in change (zmark z) with r end. cbv iota beta.
    unfold bind at 1. match goal with |- context [lift skip_non_blank ?z] => let r := eval vm_compute in (lift skip_non_blank z) in change (lift skip_non_blank z) with r end. cbv iota beta.
    unfold bind at 1. match goal with |- context [unroll_non_block_indents ?z] => let r := eval vm_compute in (unroll_non_block_indents z) in change (unroll_non_block_indents z) with r end. cbv iota beta.
    unfold bind at 1. unfold gets. cbv iota beta.
    match goal with |- context [z_indent ?z] => change (z_indent z) with 0%N end.
    apply bind_fuel, lift_fuel. cbn [z_cur].
    exact (wide_body_stuck 125 fuel (Marker 0 1 1) (Marker 1 2 1) false true ltac:(lia) ltac:(lia)).
Qed.
Lemma not_in_by_test (b : N) (l : text) : forallb (fun x => negb (x =? b)%N) l = true -> ~ In b l.
Proof. intros H K. rewrite forallb_forall in H. specialize (H b K). rewrite N.eqb_refl in H. discriminate. Qed.
Lemma wide_hangs_plain : ~ In 13%N (wide_text 125) /\ ~ In 0%N (wide_text 125) /\ forall fuel, snd (snd (scan fuel (wide_text 125))) = Fuel.
Proof. split; [|split; [|exact wide_hangs]]; apply not_in_by_test; vm_compute; reflexivity. Qed.
