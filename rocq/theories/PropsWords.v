(** Anchors, aliases and tags as tokens, one round of the scanner each. *)
From Verif Require Import SpecProps.
From Verif Require Import Base Tokens Scalar Chars Source Cursor Scanner ExactCursor SpecTree SpecQuoted FoldedQuotes ExactPlain EagerScan ScanSteps.
From Verif Require Import SpecScalar SpecBlock BlockScan SpecPlain PlainScan NodeScan SpecFlow SpecLayout LayoutCursor LayoutScan SpecStrings StringScan FlowScan FlowSteps PropsScan TreeLike.
From Coq Require Import String Lia ZifyBool ZifyNat ZifyN.
Local Open Scope m_scope.
Local Open Scope list_scope.

(** ** Words *)
Inductive prop_word : text -> token_type -> Prop :=
| pw_anchor n : anchor_name n -> prop_word (38%N :: n) (TAnchor n)
| pw_alias n : anchor_name n -> prop_word (42%N :: n) (TAlias n)
| pw_tag w h v : tag_text false w h v -> prop_word w (TTag h v).
Lemma tag_first f w h v : tag_text f w h v -> exists r, w = 33%N :: r.
Proof. intros []; eexists; reflexivity. Qed.
Lemma word_first w tok : prop_word w tok -> exists b r, w = b :: r /\ (b = 38 \/ b = 42 \/ b = 33)%N.
Proof.
  intros [n _|n _|x h v H]; [exists 38%N, n; auto|exists 42%N, n; auto|]. destruct (tag_first _ _ _ _ H) as (r & ->). exists 33%N, r. auto.
Qed.
Lemma word_begins w tok x : prop_word w tok -> begins (nth 0 (w ++ x) 0%N) /\ marker_line (w ++ x) = false.
Proof.
  intros H. destruct (word_first w tok H) as (b & r & -> & B). cbn [app nth]. split.
  - unfold begins. destruct B as [-> |[-> | ->]]; cbn; intuition discriminate.
  - apply marker_line_indicator_byte; destruct B as [-> |[-> | ->]]; discriminate.
Qed.
Lemma name_flat n : anchor_name n -> ~ In 10%N n.
Proof. intros [_ F] H. rewrite Forall_forall in F. apply (F _ H). cbn. tauto. Qed.
Lemma uri_flat f (p : N -> Prop) w v : (forall b, p b -> b <> 10%N) -> uri_text f p w v -> ~ In 10%N w.
Proof.
  intros P. induction 1 as [|b w v B U IH|c u ws w v C _ F U IH]; [intros []| |].
  - intros [E|H]; [now apply (P b)|auto].
  - rewrite in_app_iff. intros [H|H]; [|auto]. apply in_concat in H. destruct H as (x & X & H).
    clear - F X H. induction F as [|b y u ws (h & -> & _ & HD & _) F IH]; [destruct X|]. destruct X as [<- |X]; [|auto].
    destruct H as [E|H]; [discriminate|]. rewrite Forall_forall in HD. specialize (HD _ H). unfold hex_digit in HD. lia.
Qed.
Lemma uri_no_lf b : uri_byte b -> b <> 10%N.
Proof. intros [H|H] ->; [unfold SpecProps.word_byte in H; lia|vm_compute in H; intuition discriminate]. Qed.
Lemma tag_flat w h v : tag_text false w h v -> ~ In 10%N w.
Proof.
  intros [x y _ U|k x y F _ U|x y _ U|]; cbn [str map list_ascii_of_string app]; cbn.
  - intros [E|[E|H]]; [discriminate|discriminate|]. apply in_app_or in H. destruct H as [H|[E|[]]]; [|discriminate].
    revert H. apply (uri_flat false uri_byte x y); [exact uri_no_lf|exact U].
  - intros [E|H]; [discriminate|]. apply in_app_or in H. destruct H as [H|[E|H]]; [|discriminate|].
    + rewrite Forall_forall in F. specialize (F _ H). unfold SpecProps.word_byte in F. lia.
    + revert H. apply (uri_flat false tag_byte x y); [|exact U]. intros b [B _]. now apply uri_no_lf.
  - intros [E|H]; [discriminate|]. revert H. apply (uri_flat false tag_byte x y); [|exact U]. intros b [B _]. now apply uri_no_lf.
  - intros [E|[]]; discriminate.
Qed.
Lemma word_flat w tok : prop_word w tok -> ~ In 10%N w.
Proof.
  intros [n A|n A|x h v T].
  - intros [E|H]; [discriminate|]. now apply (name_flat n).
  - intros [E|H]; [discriminate|]. now apply (name_flat n).
  - now apply (tag_flat x h v).
Qed.

(** ** Fetching a word *)
Definition word_stop (fl : N) (after : text) : Prop := In (nth 0 after 0%N) white_or_end \/ (fl <> 0%N /\ In (nth 0 after 0%N) flow_signs).
Lemma word_fetch fuel pre w tok after M L A toks ks ks' i s im fs adj fl : prop_word w tok -> word_stop fl after -> List.length w + 2 < fuel ->
  save_simple_key (zq (cur pre (w ++ after) M L A) toks ks i s im fs adj fl) = (zq (cur pre (w ++ after) M L A) toks ks' i s im fs adj fl, Ok tt) ->
  fetch_main_loop fuel (zq (cur pre (w ++ after) M L A) toks ks i s im fs adj fl)
  = (zq (cur (pre ++ w) after (mark_add (List.length w) M) false false) (toks ++ [Token (Span M (mark_add (List.length w) M)) tok]) ks' i s im fs adj fl, Ok tt).
Proof.
  intros W ST F SV. rewrite main_q.
  assert (NA : ~ anchor_byte (nth 0 after 0%N)).
  { intros H. apply H. apply in_or_app. destruct ST as [S1|[_ S1]]; auto. }
  destruct W as [n N|n N|x h v T].
  - cbn [app nth] in *. cbv zeta. cbn [N.eqb Pos.eqb andb orb]. unfold fetch_anchor. unfold bind at 1. rewrite SV.
    unfold bind at 1. rewrite zq_lift, e_set_ska. unfold bind at 1. rewrite zq_lift.
    rewrite (e_scan_anchor false 38%N n) by (auto; cbn [List.length] in F; lia). rewrite zq_push. cbn [k_span k_type List.length].
    replace (1 + List.length n) with (S (List.length n)) by lia. reflexivity.
  - cbn [app nth] in *. cbv zeta. cbn [N.eqb Pos.eqb andb orb]. unfold fetch_anchor. unfold bind at 1. rewrite SV.
    unfold bind at 1. rewrite zq_lift, e_set_ska. unfold bind at 1. rewrite zq_lift.
    rewrite (e_scan_anchor true 42%N n) by (auto; cbn [List.length] in F; lia). rewrite zq_push. cbn [k_span k_type List.length].
    replace (1 + List.length n) with (S (List.length n)) by lia. reflexivity.
  - assert (E0 : nth 0 (x ++ after) 0%N = 33%N) by (destruct (tag_first _ _ _ _ T) as (r & ->); reflexivity).
    cbv zeta. rewrite E0. cbn [N.eqb Pos.eqb andb orb]. unfold fetch_tag. unfold bind at 1. rewrite SV.
    unfold bind at 1. rewrite zq_lift, e_set_ska. unfold bind at 1. unfold gets at 1.
    match goal with |- context [z_flow (zq ?a ?b ?c ?d ?e ?f ?g ?h ?j)] => change (z_flow (zq a b c d e f g h j)) with j end.
    unfold bind at 1. rewrite zq_lift.
    rewrite (e_scan_tag x h v) by (first [exact T|lia|destruct ST as [S1|[S1 S2]]; [now left|right; split; [lia|exact S2]]]).
    rewrite zq_push. reflexivity.
Qed.

(** ** In flow collections *)
Lemma flow_prop fuel z pre w tok after M A T k ks p s0 im fs d : FlowAt z pre (w ++ after) M A T (k :: ks) (N.of_nat p) s0 im fs d -> d <> 0 ->
  prop_word w tok -> In (nth 0 after 0%N) (white_or_end ++ flow_signs) -> (N.of_nat p < m_col M)%N -> List.length pre + List.length w + 5 < fuel ->
  exists z', round fuel z z' /\
    FlowAt z' (pre ++ w) after (marker_after w M) false (T ++ [tok]) (kept_key A (List.length T) M k :: ks) (N.of_nat p) s0 im fs d.
Proof.
  intros H D W ST C F. destruct (word_begins w tok after W) as [B ML]. destruct (word_first w tok W) as (b & r & EB & _).
  rewrite marker_flat by now apply (word_flat w tok).
  assert (EQ : w ++ after = b :: r ++ after) by now rewrite EB. rewrite EQ in H, ML, B. cbn [nth] in B.
  apply (round_flow fuel z pre b (r ++ after) M A T (k :: ks) (N.of_nat p) s0 im fs d _ H D B ML); [lia|exact C|].
  intros toks i s adj L ET IN IC _. rewrite <- EQ.
  rewrite (word_fetch fuel pre w tok after M L A toks (k :: ks) (kept_key A (List.length toks) M k :: ks)).
  - do 2 eexists. split; [reflexivity|]. split; [now apply zq_stale|]. split; [unfold zq; cbn [z_tokens]; rewrite app_length; cbn [List.length]; lia|].
    replace (List.length T) with (List.length toks) by (rewrite <- ET; symmetry; apply map_length).
    match goal with |- FlowAt (zq (cur _ _ ?m ?l ?a) ?t ?ks ?i ?s ?im ?fs ?adj _) _ _ _ _ _ _ _ _ _ _ _ =>
      pose proof (FlowAt_zq (pre ++ w) [] after m l a t ks i s im fs adj d (T ++ [tok]) (N.of_nat p) s0) as X end.
    rewrite app_nil_r in X. apply X; [constructor|apply map_snoc; exact ET|exact IN].
  - exact W.
  - apply in_app_or in ST. destruct ST as [S1|S1]; [now left|right; split; [lia|exact S1]].
  - lia.
  - now apply zq_save.
Qed.

(** ** Properties as words *)
Lemma props_words w pr : props_text false w pr ->
  (exists tok, prop_word w tok /\ props_toks pr = [tok]) \/
  (exists a ta k b tb, w = a ++ repeat 32%N (S k) ++ b /\ prop_word a ta /\ prop_word b tb /\ props_toks pr = [ta; tb]).
Proof.
  intros [n N|x h v T|n k x h v N T|x h v k n T N].
  - left. eexists. split; [constructor; exact N|reflexivity].
  - left. eexists. split; [constructor; exact T|reflexivity].
  - right. exists (38%N :: n). do 4 eexists. split; [reflexivity|]. split; [constructor; exact N|]. split; [constructor; exact T|reflexivity].
  - right. exists x. do 4 eexists. split; [reflexivity|]. split; [constructor; exact T|]. split; [apply pw_anchor; exact N|reflexivity].
Qed.
Lemma not_ended w tok : prop_word w tok -> match tok with TStreamEnd => False | _ => True end.
Proof. intros []; exact I. Qed.
Lemma props_flat w pr : props_text false w pr -> ~ In 10%N w.
Proof.
  intros H. destruct (props_words w pr H) as [(tok & W & _)|(a & ta & k & b & tb & -> & W1 & W2 & _)]; [now apply (word_flat w tok)|].
  rewrite !in_app_iff. intros [X|[X|X]]; [now apply (word_flat a ta)|apply repeat_spec in X; discriminate|now apply (word_flat b tb)].
Qed.
Lemma props_first w pr : props_text false w pr -> exists b r, w = b :: r /\ (b = 38 \/ b = 42 \/ b = 33)%N.
Proof.
  intros H. destruct (props_words w pr H) as [(tok & W & _)|(a & ta & k & b & tb & -> & W1 & W2 & _)]; [now apply (word_first w tok)|].
  destruct (word_first a ta W1) as (x & r & -> & B). exists x, (r ++ repeat 32%N (S k) ++ b). auto.
Qed.
Lemma props_unended w pr : props_text false w pr -> unended (props_toks pr) /\ List.length (props_toks pr) <= 2 * List.length w.
Proof.
  intros H. destruct (props_words w pr H) as [(tok & W & ->)|(a & ta & k & b & tb & -> & W1 & W2 & ->)].
  - destruct (word_first w tok W) as (x & r & -> & _). split; [constructor; [now apply (not_ended (x :: r))|constructor]|cbn; lia].
  - destruct (word_first a ta W1) as (x & r & -> & _). split; [constructor; [now apply (not_ended (x :: r))|constructor; [now apply (not_ended b)|constructor]]|cbn; lia].
Qed.
