(** One step of the scanner over a block scalar; strings as the lines of a literal scalar. *)
From Verif Require Import Base Tokens Scalar Chars Source Cursor Scanner ExactCursor EmitterText SpecQuoted FoldedQuotes ExactPlain EagerScan ScanSteps Emitter SpecBlock BlockScan BlockCut.
From Coq Require Import String Lia ZifyBool ZifyNat ZifyN.
Local Open Scope list_scope.

Lemma main_block fuel literal pre x M L A toks k i s fs adj :
  fetch_main_loop fuel (zs (cur pre (block_sign literal :: x) M L A) toks k i s fs adj)
  = fetch_block_scalar fuel literal (zs (cur pre (block_sign literal :: x) M L A) toks k i s fs adj).
Proof. rewrite main_start. destruct literal; reflexivity. Qed.
Lemma zs_block fuel literal pre r pre2 r2 m' l' sp tt' M L A toks k i s fs adj i0 s0 : inside i0 s0 i s -> blocky s0 ->
  scan_block_scalar_body fuel literal i0 M (cur (pre ++ [block_sign literal]) r (mark_add 1 M) false true) = (cur pre2 r2 m' l' true, Ok (Token sp tt')) ->
  fetch_block_scalar fuel literal (zs (cur pre (block_sign literal :: r) M L A) toks k i s fs adj)
  = (zs (cur pre2 r2 m' l' true) (toks ++ [Token sp tt']) (saved A M toks k i s) i0 s0 fs adj, Ok tt).
Proof.
  intros I B E. unfold fetch_block_scalar. unfold bind at 1. rewrite zs_save. unfold bind at 1. rewrite zs_lift, e_set_ska.
  unfold bind at 1. rewrite zs_mark. unfold bind at 1. rewrite zs_lift, e_skip_non_blank. unfold bind at 1. rewrite (zs_non_block i0 s0) by assumption.
  unfold bind at 1. unfold gets at 1.
  match goal with |- context [z_indent (zs ?a ?b ?c ?d ?e ?f ?g)] => change (z_indent (zs a b c d e f g)) with i0 end.
  unfold bind at 1. rewrite zs_lift, E. cbn [k_span k_type]. rewrite zs_push. reflexivity.
Qed.

(** ** Lines *)
(** Empty strings are the blank lines before the next line. *)
Fixpoint grouped (n k : nat) (ls : list text) (last : text) : list line * line :=
  match ls with
  | [] => ([], Line (repeat (n, false) k) last false)
  | [] :: r => grouped n (S k) r last
  | x :: r => let (l, e) := grouped n 0 r last in (Line (repeat (n, false) k) x false :: l, e)
  end.
Lemma blank_lines_snoc n k : blank_lines (repeat (n, false) (S k)) = blank_lines (repeat (n, false) k) ++ repeat 32%N n ++ [10%N].
Proof. cbn [repeat]. rewrite repeat_cons. unfold blank_lines. rewrite flat_map_app. cbn [flat_map fst snd eol]. now rewrite app_nil_r. Qed.
Lemma grouped_text n last : forall ls k, blank_lines (repeat (n, false) k) ++ flat_map (fun x => repeat 32%N n ++ x ++ [10%N]) ls ++ repeat 32%N n ++ last
  = cut_lines n (fst (grouped n k ls last)) (snd (grouped n k ls last)).
Proof.
  induction ls as [|x ls IH]; intros k; [reflexivity|]. destruct x as [|b x]; cbn [grouped flat_map app].
  - rewrite <- IH, blank_lines_snoc. now rewrite <- !app_assoc.
  - specialize (IH 0). destruct (grouped n 0 ls last) as [l e]. cbn [fst snd repeat blank_lines flat_map app] in *. rewrite <- app_assoc, IH.
    unfold cut_lines. cbn [flat_map fst snd]. change (line_text n (Line (repeat (n, false) k) (b :: x) false)) with (blank_lines (repeat (n, false) k) ++ repeat 32%N n ++ (b :: x) ++ [10%N]). cbn [app]. rewrite <- !app_assoc. cbn [app]. rewrite <- !app_assoc. reflexivity.
Qed.
Lemma joined_text a l : l <> [] -> joined true a l = 10%N :: block_text true l.
Proof. destruct l as [|x l]; [congruence|]. intros _. reflexivity. Qed.
Lemma grouped_value n last : forall ls k, block_text true (fst (grouped n k ls last) ++ [snd (grouped n k ls last)])
  = repeat 10%N k ++ flat_map (fun x => x ++ [10%N]) ls ++ last.
Proof.
  induction ls as [|x ls IH]; intros k.
  - cbn [grouped fst snd app block_text before words joined]. rewrite repeat_length, app_nil_r. reflexivity.
  - destruct x as [|b x]; cbn [grouped flat_map app].
    + rewrite IH. cbn [repeat app]. clear IH. induction k as [|k IHk]; [reflexivity|]. cbn [repeat app]. now rewrite <- IHk.
    + specialize (IH 0). destruct (grouped n 0 ls last) as [l e]. cbn [fst snd repeat app] in *. cbn [block_text before words]. rewrite repeat_length.
      rewrite joined_text by (destruct l; discriminate). rewrite IH. rewrite <- !app_assoc. reflexivity.
Qed.
Lemma grouped_good n last (P : text -> Prop) : (forall k x, k <= n -> x <> [] -> P x -> forall j, good_line n (Line (repeat (k, false) j) x false)) -> last <> [] ->
  forall ls k, Forall P (ls ++ [last]) -> Forall (good_line n) (fst (grouped n k ls last)) /\ good_line n (snd (grouped n k ls last)).
Proof.
  intros G NE. induction ls as [|x ls IH]; intros k F; cbn [app] in F; inversion_clear F as [|? ? F1 F2].
  - cbn [grouped fst snd]. split; [constructor|]. now apply G.
  - destruct x as [|b x]; cbn [grouped]; [now apply IH|]. specialize (IH 0 F2). destruct (grouped n 0 ls last) as [l e]. cbn [fst snd] in *.
    split; [|tauto]. constructor; [|tauto]. apply G; auto. discriminate.
Qed.
Lemma grouped_first n last : last <> [] -> forall ls k, let g := grouped n k ls last in words (hd (snd g) (fst g)) = first_words (ls ++ [last]).
Proof.
  intros NE. induction ls as [|x ls IH]; intros k.
  - cbn [grouped fst snd hd words app]. unfold first_words. cbn [filter]. destruct last; [congruence|reflexivity].
  - destruct x as [|b x]; cbn [grouped app]; [exact (IH (S k))|]. destruct (grouped n 0 ls last) as [l e]. reflexivity.
Qed.
Lemma grouped_tab n last ls : last <> [] -> let g := grouped n 0 ls last in
  nth 0 (hd last ls) 0%N <> 9%N -> nth 0 (words (hd (snd g) (fst g))) 0%N <> 9%N \/ before (hd (snd g) (fst g)) <> [].
Proof.
  intros NE g. unfold g. clear g. destruct ls as [|[|b x] ls]; cbn [hd grouped].
  - cbn [fst snd hd words]. auto.
  - intros _. right. generalize 0 as k. revert n. induction ls as [|y ls IH]; intros n k.
    + cbn [grouped fst snd hd before repeat]. discriminate.
    + destruct y as [|b y]; cbn [grouped]; [apply IH|]. destruct (grouped n 0 ls last) as [l e]. discriminate.
  - destruct (grouped n 0 ls last) as [l e]. cbn [fst snd hd words]. auto.
Qed.
(** The emitter's lines. *)
Lemma lines_from_line w : ~ In 10%N w -> ~ In 13%N w -> forall acc r, ~ In 13%N acc -> lines_from acc (w ++ 10%N :: r) = (rev acc ++ w) :: lines_from [] r.
Proof.
  induction w as [|b w IH]; intros A B acc r C.
  - cbn [app lines_from]. rewrite app_nil_r. destruct acc as [|c acc]; [reflexivity|]. f_equal. cbn [In] in C.
    destruct (N.eqb_spec c 13) as [->|N]; [tauto|].
    destruct c as [|[[[[|p|]|[|p|]|]|[[|p|]|[|p|]|]|]|[[[|p|]|[|p|]|]|[[|p|]|[|p|]|]|]|]]; try reflexivity. exfalso. apply N. reflexivity.
  - cbn [app]. assert (E : lines_from acc (b :: w ++ 10%N :: r) = lines_from (b :: acc) (w ++ 10%N :: r)).
    { cbn [In] in A. destruct (N.eqb_spec b 10) as [->|N]; [tauto|]. cbn [lines_from].
      destruct b as [|[[[[|p|]|[|p|]|]|[[|p|]|[|p|]|]|]|[[[|p|]|[|p|]|]|[[|p|]|[|p|]|]|]|]]; try reflexivity. exfalso. apply N. reflexivity. }
    rewrite E, IH.
    + cbn [rev]. rewrite <- app_assoc. reflexivity.
    + intros K. apply A. now right.
    + intros K. apply B. now right.
    + cbn [In] in *. intuition.
Qed.
Lemma lines_from_last w : ~ In 10%N w -> forall acc, acc <> [] \/ w <> [] -> lines_from acc w = [rev acc ++ w].
Proof.
  induction w as [|b w IH]; intros A acc H.
  - cbn [lines_from]. rewrite app_nil_r. destruct acc; [destruct H; congruence|reflexivity].
  - assert (E : lines_from acc (b :: w) = lines_from (b :: acc) w).
    { cbn [In] in A. destruct (N.eqb_spec b 10) as [->|N]; [tauto|]. cbn [lines_from].
      destruct b as [|[[[[|p|]|[|p|]|]|[[|p|]|[|p|]|]|]|[[[|p|]|[|p|]|]|[[|p|]|[|p|]|]|]|]]; try reflexivity. exfalso. apply N. reflexivity. }
    rewrite E, IH.
    + cbn [rev]. rewrite <- app_assoc. reflexivity.
    + intros K. apply A. now right.
    + left. discriminate.
Qed.
Lemma lines_of ls last ended : literal_lines ls last -> lines_from [] (lines_text ls last ended) = ls ++ [last].
Proof.
  intros (F & NE & _). unfold lines_text. induction ls as [|x ls IH]; cbn [app flat_map] in *; inversion_clear F as [|? ? [F1 F2] F3].
  - destruct ended.
    + rewrite lines_from_line by (auto; intros []). reflexivity.
    + rewrite app_nil_r. apply lines_from_last; auto.
  - rewrite <- !app_assoc. cbn [app]. rewrite lines_from_line by (auto; intros []). cbn [rev app]. f_equal. apply IH. exact F3.
Qed.
Lemma ended_of ls last ended : literal_lines ls last -> ends_with 10 (lines_text ls last ended) = ended.
Proof.
  intros (F & NE & _). unfold lines_text, ends_with. apply Forall_app in F. destruct F as [_ F]. inversion_clear F as [|? ? [F1 F2] _].
  rewrite !rev_app_distr. destruct ended; [reflexivity|]. cbn [rev app]. destruct (rev last) as [|b r] eqn:E.
  - apply (f_equal (@rev N)) in E. rewrite rev_involutive in E. cbn in E. congruence.
  - cbn [app]. apply N.eqb_neq. intros ->. apply F1. rewrite in_rev, E. now left.
Qed.
