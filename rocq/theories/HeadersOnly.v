(** Where a block scalar can begin: its header has been read to the end of a line. *)
From Verif Require Import Base Tokens Scalar Chars Source SourceProofs Cursor SpecScan SpecScalar SpecJson SpecQuoted SpecBlock SpecPlain SpecStrings SpecProps SpecAccept
  CursorProofs CursorRuns CursorScalars ExactCursor QuotedOnly PropsOnly PlainOnly BlockOnly.
From Coq Require Import String Lia ZifyBool ZifyNat ZifyN.
Local Open Scope list_scope.

Definition header_mark (b : N) : Prop := In b [43; 45; 32; 9]%N \/ (48 <= b <= 57)%N.
Lemma sign_mark c e : chomp_sign c e -> header_mark c.
Proof. intros []; left; cbn [In]; tauto. Qed.
Lemma digit_mark d : (1 <= d <= 9)%N -> header_mark (48 + d)%N.
Proof. intros H. right. lia. Qed.
Lemma indicators_marks h e d : indicators h e d -> Forall header_mark h.
Proof.
  intros [|c e' S|x D|c e' x S D|c e' x S D]; [apply Forall_nil| | | |]; repeat (apply Forall_cons || apply Forall_nil);
    (exact (sign_mark _ _ S) || exact (digit_mark _ D)).
Qed.
Lemma white_marks g : Forall white_byte g -> Forall header_mark g.
Proof. apply Forall_impl. unfold header_mark. intros b [-> | ->]; left; cbn [In]; tauto. Qed.
Lemma cok_at i c : cok i c -> exists l s, i = firstn (cpos c) i ++ skipn (cpos c) i /\ c = cur (firstn (cpos c) i) (skipn (cpos c) i) (mark_of (firstn (cpos c) i)) l s.
Proof.
  intros (E & L & M). destruct c as [[inp p] m l s]. unfold cpos in *. cbn [c_src ss_input ss_pos c_mark] in *. subst.
  exists l, s. rewrite firstn_skipn. split; [reflexivity|]. unfold cur, at_pos. rewrite firstn_skipn, firstn_length, Nat.min_l by exact L. reflexivity.
Qed.
Lemma header_low i k p sign fuel start c : cok i c -> cpos c = S p -> nth_error i p = Some sign -> In sign [124; 62]%N ->
  header_read fuel start c -> ~ In 0%N i -> headers_within k i -> (m_col (at_pos i p) <= N.of_nat (k + 1))%N.
Proof.
  intros C EP NS IS (c1 & [ch inc] & c2 & r2 & HH & HW & BZ) NZ HK. destruct (cok_at i c C) as (l & s & EI & EC). rewrite EC in HH.
  apply header_ok in HH. destruct HH as (h & e & d & rest' & l' & ER & IND & _ & _ & ->). apply ws_ok in HW. destruct HW as (w & after & EW & W & -> & _ & _ & _).
  assert (BA : In (nth 0 after 10%N) [35; 10; 13]%N).
  { rewrite cur_peek in BZ. destruct after as [|b after]; [cbn [nth In]; tauto|]. cbn [nth] in *. assert (b <> 0%N).
    { intros ->. apply NZ. rewrite EI, ER, EW, !in_app_iff. right. right. right. now left. }
    unfold is_breakz, is_break in BZ. cbn [In]. lia. }
  rewrite EP in EI, ER. rewrite (firstn_step _ _ _ NS) in EI.
  destruct (to_lf_bound (rev (firstn p i))) as (x & q & E & NX & LX).
  assert (FP : firstn p i = rev q ++ rev x) by (rewrite <- rev_app_distr, <- E, rev_involutive; reflexivity).
  unfold at_pos, mark_of. cbn [m_col]. rewrite LX. enough (List.length (rev x) <= k) by (rewrite rev_length in *; lia).
  assert (NR : ~ In 10%N (rev x)) by (rewrite <- in_rev; exact NX).
  assert (IH := indicators_marks _ _ _ IND). destruct W as [g G|g cm NE G CM].
  - apply (HK (rev q) (rev x) sign (h ++ g) after); [|exact NR|exact IS|apply Forall_app; split; [exact IH|now apply white_marks]|exact BA].
    rewrite EI at 1. rewrite ER, EW, FP, <- !app_assoc. reflexivity.
  - apply (HK (rev q) (rev x) sign (h ++ g) (35%N :: cm ++ after)); [|exact NR|exact IS|apply Forall_app; split; [exact IH|now apply white_marks]|cbn [nth In]; tauto].
    rewrite EI at 1. rewrite ER, EW, FP, <- !app_assoc. reflexivity.
Qed.
