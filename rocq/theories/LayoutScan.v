(** The tokens the scanner finds in block documents with comments and empty lines, one round at a time. *)
From Verif Require Import Base Tokens Scalar Chars Source Cursor Scanner ExactCursor SpecTree SpecQuoted FoldedQuotes ExactPlain EagerScan ScanSteps.
From Verif Require Import SpecBlock BlockScan SpecPlain PlainScan NodeScan DumpScan ScalarDocs PlainDocs SpecLayout LayoutCursor.
From Coq Require Import String Lia ZifyBool ZifyNat ZifyN.
Local Open Scope m_scope.
Local Open Scope list_scope.

(** ** What follows a node *)
(** What may come behind a node inside a collection of indentation [i0]: the end of the text, a line that
    is indented less, a document marker. *)
Inductive behind (i0 : N) : text -> text -> Prop :=
| bh_end g : to_end g -> behind i0 g []
| bh_line k g b r : next_line k g -> (1 + N.of_nat k <= i0)%N -> begins b -> behind i0 g (b :: r)
| bh_mark g r : next_line 0 g -> doc_mark r -> behind i0 g r.
Lemma mark_begins r : doc_mark r -> begins (nth 0 r 0%N).
Proof. intros (x & [-> | ->] & _); unfold begins; cbn; intuition discriminate. Qed.
Lemma behind_begins i0 g after : behind i0 g after -> begins (nth 0 after 0%N).
Proof. intros [g' E|k g' b r E L B|g' r E D]; [exact begins_zero|exact B|now apply mark_begins]. Qed.
Lemma behind_gap i0 g after : behind i0 g after -> gap_to after g.
Proof. intros [g' E|k g' b r E L B|g' r E D]; [now apply gap_to_end|eapply gap_next_line; eauto|eapply gap_next_line; eauto]. Qed.
Lemma behind_le i0 i1 g after : behind i0 g after -> (i0 <= i1)%N -> behind i1 g after.
Proof. intros [g' E|k g' b r E L B|g' r E D] H; [now apply bh_end|eapply bh_line; eauto; lia|now apply bh_mark]. Qed.
Lemma rest_head r x : line_rest r -> In (nth 0 x 0%N) [32; 10; 13; 0]%N -> In (nth 0 (r ++ x) 0%N) [32; 10; 13; 0]%N.
Proof. intros [[|k]|k c C] H; [exact H|now left|now left]. Qed.
Lemma eol_head b x : In (nth 0 (eol b ++ x) 0%N) [32; 10; 13; 0]%N.
Proof. destruct b; cbn; auto. Qed.
Lemma next_line_head n g x : next_line n g -> In (nth 0 (g ++ x) 0%N) [32; 10; 13; 0]%N.
Proof. intros [r b ls R E]. rewrite <- !app_assoc. apply rest_head; [exact R|]. apply eol_head. Qed.
Lemma behind_head i0 g after : behind i0 g after -> In (nth 0 (g ++ after) 0%N) [32; 10; 13; 0]%N.
Proof.
  intros [g' E|k g' b r E L B|g' r E D]; [|eapply next_line_head; eauto|eapply next_line_head; eauto].
  rewrite app_nil_r. destruct E as [r R|r b ls x R _ _].
  - rewrite <- (app_nil_r r). apply rest_head; [exact R|]. cbn; auto.
  - apply rest_head; [exact R|]. apply eol_head.
Qed.
(** The same behind a node that leaves its last line at [e]. *)
Inductive beyond (e : option nat) (i0 : N) : text -> text -> Prop :=
| by_end g : finally e g -> beyond e i0 g []
| by_line k g b r : onwards e k g -> (1 + N.of_nat k <= i0)%N -> begins b -> beyond e i0 g (b :: r)
| by_mark g r : onwards e 0 g -> doc_mark r -> beyond e i0 g r.
Lemma onwards_line n g : onwards None n g -> next_line n g.
Proof. intros H. now inversion H. Qed.
Lemma beyond_behind i0 g after : beyond None i0 g after -> behind i0 g after.
Proof.
  intros [g' E|k g' b r E L B|g' r E D]; [apply bh_end; now inversion E|eapply bh_line; eauto; now apply onwards_line|apply bh_mark; [now apply onwards_line|exact D]].
Qed.
Lemma onwards_gap e n rest g : onwards e n g -> gap_to rest g.
Proof.
  intros [n' g' H|m n' H|m n' k c b ls H C E].
  - eapply gap_next_line; eauto.
  - rewrite <- (app_nil_r (repeat _ _)). apply gap_spaces. constructor.
  - apply gap_spaces. apply gt_comment; [exact C|rewrite <- app_assoc; apply break_z|]. constructor. apply gap_empty_text; [exact E|].
    rewrite <- (app_nil_r (repeat _ _)). apply gap_spaces. constructor.
Qed.
Lemma finally_gap e g : finally e g -> gap_to [] g.
Proof.
  intros [g' H|m k H|m k c H C|m k c b ls x H C E X].
  - now apply gap_to_end.
  - rewrite <- (app_nil_r (repeat _ _)). apply gap_spaces. constructor.
  - apply gap_spaces. rewrite <- (app_nil_r c). apply gt_comment; [exact C|reflexivity|constructor].
  - apply gap_spaces. apply gt_comment; [exact C|rewrite <- app_assoc; apply break_z|]. constructor. apply gap_empty_text; [exact E|].
    rewrite <- (app_nil_r x). apply gap_empty_line; [exact X|reflexivity|constructor].
Qed.
Lemma beyond_begins e i0 g after : beyond e i0 g after -> begins (nth 0 after 0%N).
Proof. intros [g' E|k g' b r E L B|g' r E D]; [exact begins_zero|exact B|now apply mark_begins]. Qed.
Lemma beyond_gap e i0 g after : beyond e i0 g after -> gap_to after g.
Proof. intros [g' E|k g' b r E L B|g' r E D]; [now apply (finally_gap e)|eapply onwards_gap; eauto|eapply onwards_gap; eauto]. Qed.
Lemma beyond_le e i0 i1 g after : beyond e i0 g after -> (i0 <= i1)%N -> beyond e i1 g after.
Proof. intros [g' E|k g' b r E L B|g' r E D] H; [now apply by_end|eapply by_line; eauto; lia|now apply by_mark]. Qed.
(** Columns behind them. *)
Lemma marker_col g : forall M M', m_col M = m_col M' -> m_col (marker_after g M) = m_col (marker_after g M').
Proof.
  induction g as [|b g IH]; intros M M' E; [exact E|].
  assert (D : b = 10%N \/ b <> 10%N) by lia. destruct D as [-> | D]; [now apply IH|].
  change (b :: g) with ([b] ++ g). rewrite !marker_after_app. apply IH.
  assert (NI : ~ In 10%N [b]) by (intros [X|[]]; congruence).
  rewrite !marker_flat by exact NI. cbn [mark_add Base.m_col List.length]. lia.
Qed.
Lemma onwards_col m n g M : onwards (Some m) n g -> m_col M = 1%N -> m_col (marker_after g M) = (1 + N.of_nat n)%N.
Proof.
  intros H C. inversion H as [|m' n' H1|m' n' k c b ls H1 H2 H3]; subst.
  - rewrite marker_flat by apply no_lf_spaces. rewrite repeat_length. cbn [mark_add Base.m_col]. lia.
  - destruct (next_line_col n ([] ++ eol b ++ empty_text ls ++ repeat 32%N n) ltac:(constructor; [apply (lr_spaces 0)|exact H3]) (marker_after c (marker_after [35%N] (marker_after (repeat 32%N k) M)))) as [X _].
    rewrite <- X. change (35%N :: c ++ eol b ++ empty_text ls ++ repeat 32%N n) with ([35%N] ++ c ++ eol b ++ empty_text ls ++ repeat 32%N n). cbn [app]. rewrite <- !marker_after_app. reflexivity.
Qed.
(** Gaps, from the first line break on. *)
Lemma gap_first rest : forall g, gap_to rest g -> exists k g1, g = repeat 32%N k ++ g1 /\ gap_to rest g1 /\
  (g1 = [] \/ (exists b g2, g1 = eol b ++ g2) \/ (exists c g2, g1 = 35%N :: c ++ g2 /\ Forall comment_byte c /\ is_breakz (nth 0 (g2 ++ rest) 0%N) = true /\ gap_to rest g2)).
Proof.
  induction 1 as [|g G (k & g1 & -> & G1 & C)|b g G IH|c g C B G IH].
  - exists 0, []. split; [reflexivity|]. split; [constructor|]. now left.
  - exists (S k), g1. split; [reflexivity|]. split; [exact G1|exact C].
  - exists 0, (eol b ++ g). split; [reflexivity|]. split; [now constructor|]. right. left. eauto.
  - exists 0, (35%N :: c ++ g). split; [reflexivity|]. split; [now constructor|]. right. right. exists c, g. auto.
Qed.
Lemma gap_split rest g : gap_to rest g -> begins (nth 0 rest 0%N) -> nth 0 g 32%N <> 35%N ->
  exists r g1, g = r ++ g1 /\ line_rest r /\ gap_to rest g1 /\ ~ In (nth 0 (g1 ++ rest) 0%N) [32; 9; 35]%N /\
    (In 35%N r -> is_breakz (nth 0 (g1 ++ rest) 0%N) = true).
Proof.
  intros G B H. destruct (gap_first rest g G) as (k & g1 & -> & G1 & C).
  assert (NS : In 35%N (repeat 32%N k) -> False) by (intros X; apply repeat_spec in X; discriminate).
  destruct C as [-> | [(b & g2 & ->)|(c & g2 & -> & C & BZ & G2)]].
  - exists (repeat 32%N k), []. split; [reflexivity|]. split; [constructor|]. split; [constructor|]. split.
    + unfold begins in B. cbn [app In] in *. intuition.
    + intros X. now elim NS.
  - exists (repeat 32%N k), (eol b ++ g2). split; [reflexivity|]. split; [constructor|]. split; [exact G1|]. split.
    + rewrite <- app_assoc. destruct b; cbn; intuition discriminate.
    + intros X. now elim NS.
  - destruct k as [|k]; [cbn in H; congruence|].
    exists (repeat 32%N (S k) ++ 35%N :: c), g2. split; [now rewrite <- app_assoc|]. split; [now constructor|]. split; [exact G2|]. split; [|auto].
    unfold is_breakz, is_break in BZ. cbn [In]. intuition lia.
Qed.
Lemma head_not_comment g rest : In (nth 0 (g ++ rest) 0%N) [32; 10; 13; 0]%N -> nth 0 g 32%N <> 35%N.
Proof. destruct g as [|b g]; [discriminate|]. cbn [app nth In]. intros H ->. intuition discriminate. Qed.
Lemma head_blank g rest : In (nth 0 (g ++ rest) 0%N) [32; 10; 13; 0]%N -> is_blank_or_breakz (nth 0 (g ++ rest) 0%N) = true.
Proof. cbn [In]. intros H. destruct H as [<- |[<- |[<- |[<- |[]]]]]; reflexivity. Qed.

(** ** States up to a gap *)
(** A dash may follow: not behind an anchor or a tag at the margin of a nested collection. *)
Definition steady (toks : list token) (i : N) : Prop :=
  match rev toks with
  | Token sp (TAnchor _) :: _ | Token sp (TTag _ _) :: _ => i = 0%N \/ m_col (s_start sp) <> 1%N
  | _ => True
  end.
Lemma steady_calm toks i : calm (map k_type toks) -> steady toks i.
Proof. unfold calm, steady. rewrite <- map_rev. destruct (rev toks) as [|[sp t] r]; [reflexivity|]. cbn [map k_type]. destruct t; try reflexivity; contradiction. Qed.
Lemma steady_g9hc cu toks k i s fs adj : steady toks i -> g9hc (zs cu toks k i s fs adj) = false.
Proof.
  unfold steady, g9hc. change (z_tokens (zs cu toks k i s fs adj)) with toks. change (z_indent (zs cu toks k i s fs adj)) with i.
  destruct (rev toks) as [|[sp t] r]; [reflexivity|]. destruct t; try reflexivity; intros [-> |H]; try apply andb_false_r;
    (replace (m_col (s_start sp) =? 1)%N with false by lia); now rewrite andb_false_r.
Qed.
Lemma steady_snoc toks sp t i : (match t with TAnchor _ | TTag _ _ => i = 0%N \/ m_col (s_start sp) <> 1%N | _ => True end) -> steady (toks ++ [Token sp t]) i.
Proof. unfold steady. rewrite rev_unit. now destruct t. Qed.
Lemma unrolls_zero c s i1 s1 n : unrolls c 0 s i1 s1 n -> i1 = 0%N.
Proof.
  intros U. specialize (U (Marker 0 0 0) []). destruct s; cbn [unroll_loop] in U; rewrite (proj2 (N.ltb_ge _ _) (N.le_0_l c)) in U; injection U; auto.
Qed.
Lemma steady_ends toks m n c i s i1 s1 : steady toks i -> unrolls c i s i1 s1 n -> steady (toks ++ repeat (Token (span_empty m) TBlockEnd) n) i1.
Proof.
  intros H U. destruct n as [|n].
  - cbn [repeat]. rewrite app_nil_r. revert H. unfold steady. destruct (rev toks) as [|[sp t] r]; [auto|].
    destruct t; auto; (intros [-> |H]; [left; eapply unrolls_zero; eauto|auto]).
  - replace (S n) with (n + 1) by lia. rewrite repeat_app, app_assoc. cbn [repeat]. now apply steady_snoc.
Qed.
Lemma steady_more toks i t T : map k_type toks = T ++ [t] -> (match t with TAnchor _ | TTag _ _ => False | _ => True end) -> steady toks i.
Proof. intros E H. apply steady_calm. rewrite E. unfold calm. rewrite rev_unit. now destruct t. Qed.
Definition Before (z : scanner) (pre rest : text) (M : marker) (A : bool) (T : list token_type) (k : skey)
  (i : N) (s : list (N * bool)) : Prop :=
  exists pre0 g m l a toks fs adj, z = zs (cur pre0 (g ++ rest) m l a) toks k i s fs adj /\
    pre = pre0 ++ g /\ gap_to rest g /\ M = marker_after g m /\ A = a || has_lf g /\ map k_type toks = T /\ steady toks i.
Lemma Before_here pre rest M L A toks k i s fs adj T : map k_type toks = T -> steady toks i -> Before (zs (cur pre rest M L A) toks k i s fs adj) pre rest M A T k i s.
Proof.
  intros E ST. exists pre, [], M, L, A, toks, fs, adj. cbn [app has_lf existsb marker_after]. rewrite app_nil_r, orb_false_r.
  repeat split; auto. constructor.
Qed.
Lemma Before_gap z pre g rest M A T k i s : gap_to rest g -> Before z pre (g ++ rest) M A T k i s ->
  Before z (pre ++ g) rest (marker_after g M) (A || has_lf g) T k i s.
Proof.
  intros W (p0 & g0 & m & l & a & toks & fs & adj & -> & -> & W0 & -> & -> & E & ST).
  exists p0, (g0 ++ g), m, l, a, toks, fs, adj. rewrite <- !app_assoc, marker_after_app, has_lf_app, !orb_assoc.
  repeat split; auto. now apply gap_app.
Qed.
Lemma Before_zs pre g rest m l a toks k i s fs adj T : gap_to rest g -> map k_type toks = T -> steady toks i ->
  Before (zs (cur pre (g ++ rest) m l a) toks k i s fs adj) (pre ++ g) rest (marker_after g m) (a || has_lf g) T k i s.
Proof. intros W E ST. apply Before_gap; [exact W|]. now apply Before_here with (L := l). Qed.
Lemma zs_fetch_gap fuel g pre b r m l a toks k i s fs adj i1 s1 n :
  gap_to (b :: r) g -> begins b -> List.length g + 2 < fuel -> marker_line (b :: r) = false ->
  let m' := marker_after g m in
  gone k m' -> unrolls (m_col m') i s i1 s1 n ->
  fetch_next_token fuel (zs (cur pre (g ++ b :: r) m l a) toks k i s fs adj)
  = fetch_main_loop fuel (zs (cur (pre ++ g) (b :: r) m' (l || has_lf g) (a || has_lf g))
      (toks ++ repeat (Token (span_empty m') TBlockEnd) n) (impossible k) i1 s1 fs adj).
Proof.
  intros W B F ML m' G U. unfold fetch_next_token. unfold bind at 1. unfold gets.
  change (z_started (zs (cur pre (g ++ b :: r) m l a) toks k i s fs adj)) with true. cbn [negb].
  unfold bind at 1. unfold zskip_to_next_token.
  change (z_flow (zs (cur pre (g ++ b :: r) m l a) toks k i s fs adj)) with 0%N.
  rewrite zs_lift, e_next_gap by (auto; exact B). fold m'.
  unfold bind at 1. rewrite zs_stale_gone by exact G. unfold bind at 1. rewrite zs_mark.
  unfold bind at 1. rewrite (zs_unroll (m_col m') _ _ _ _ _ _ _ i1 s1 n U).
  apply zs_content; [exact ML|]. eapply unroll_loop_col. exact (U m' []).
Qed.
Lemma round_before fuel z pre b r M A T k i s i1 s1 n (post : scanner -> Prop) :
  Before z pre (b :: r) M A T k i s -> begins b -> marker_line (b :: r) = false ->
  List.length pre + 2 < fuel -> gone k M -> unrolls (m_col M) i s i1 s1 n ->
  (forall toks fs adj L, map k_type toks = T ++ repeat TBlockEnd n -> (i1 <= m_col M)%N -> steady toks i1 ->
     exists z1 z2, fetch_main_loop fuel (zs (cur pre (b :: r) M L A) toks (impossible k) i1 s1 fs adj) = (z1, Ok tt) /\
       stale_simple_keys z1 = (z2, Ok tt) /\ List.length toks < List.length (z_tokens z1) /\ post z2) ->
  exists z2, round fuel z z2 /\ post z2.
Proof.
  intros (p0 & g & m & l & a & toks & fs & adj & -> & -> & W & -> & -> & E & ST) B ML F G U H.
  rewrite app_length in F.
  destruct (H (toks ++ repeat (Token (span_empty (marker_after g m)) TBlockEnd) n) fs adj (l || has_lf g)) as (z1 & z2 & E1 & E2 & E3 & P).
  { rewrite map_app, E. f_equal. clear. induction n; cbn [repeat map]; [reflexivity|now f_equal]. }
  { eapply unroll_loop_col. exact (U (marker_after g m) []). }
  { eapply steady_ends; eauto. }
  exists z2. split; [|exact P]. exists z1. split; [|split; [exact E2|]].
  - rewrite (zs_fetch_gap fuel g p0 b r m l a toks k i s fs adj i1 s1 n); auto. lia.
  - rewrite app_length in E3. cbn [zs z_tokens]. lia.
Qed.

(** A key saved before, perhaps at an anchor or tag in the same line, where no new key is saved. *)
Definition spare (k : skey) (M : marker) (A : bool) : Prop :=
  idle k /\ (sk_possible k = true -> (m_line (sk_mark k) < m_line M)%N \/ (A = false /\ (m_line (sk_mark k) <= m_line M)%N)).
(** What is left of it. *)
Definition rests (k : skey) (M : marker) (A : bool) : Prop :=
  idle k /\ (sk_possible k = true -> A = false /\ (m_line (sk_mark k) <= m_line M)%N).
Lemma gone_spare k M A : gone k M -> spare k M A.
Proof. intros G. split; [intros P; now apply G|]. intros P. left. now apply G. Qed.
Lemma spare_gone k M : spare k M true -> gone k M.
Proof. intros [I G] P. split; [now apply I|]. destruct (G P) as [H|[H _]]; [exact H|discriminate]. Qed.
Lemma rests_impossible k M A : rests (impossible k) M A.
Proof. split; [apply idle_impossible|discriminate]. Qed.
Lemma zs_stale_spare c toks k i s fs adj A : spare k (c_mark c) A -> exists k0,
  stale_simple_keys (zs c toks k i s fs adj) = (zs c toks k0 i s fs adj, Ok tt) /\ rests k0 (c_mark c) A.
Proof.
  intros [I G]. destruct (sk_possible k) eqn:P.
  - destruct (G eq_refl) as [H|[-> H]].
    + exists (impossible k). split; [apply zs_stale_gone; intros _; auto|apply rests_impossible].
    + destruct (zs_stale_idle c toks k i s fs adj I) as (k0 & E & [-> | ->]); [exists k|exists (impossible k)]; (split; [exact E|]); [|apply rests_impossible]. split; auto.
  - exists (impossible k). split; [apply zs_stale_gone; intros Q; congruence|apply rests_impossible].
Qed.
Lemma zs_fetch_spare fuel g pre b r m l a toks k i s fs adj :
  gap_to (b :: r) g -> begins b -> List.length g + 2 < fuel -> marker_line (b :: r) = false ->
  let m' := marker_after g m in
  spare k m' (a || has_lf g) -> (i <= m_col m')%N -> exists k0, rests k0 m' (a || has_lf g) /\
  fetch_next_token fuel (zs (cur pre (g ++ b :: r) m l a) toks k i s fs adj)
  = fetch_main_loop fuel (zs (cur (pre ++ g) (b :: r) m' (l || has_lf g) (a || has_lf g)) toks k0 i s fs adj).
Proof.
  intros W B F ML m' G IC. destruct (zs_stale_spare (cur (pre ++ g) (b :: r) m' (l || has_lf g) (a || has_lf g)) toks k i s fs adj _ G) as (k0 & E & K).
  exists k0. split; [exact K|]. unfold fetch_next_token. unfold bind at 1. unfold gets.
  change (z_started (zs (cur pre (g ++ b :: r) m l a) toks k i s fs adj)) with true. cbn [negb].
  unfold bind at 1. unfold zskip_to_next_token.
  change (z_flow (zs (cur pre (g ++ b :: r) m l a) toks k i s fs adj)) with 0%N.
  rewrite zs_lift, e_next_gap by (auto; exact B). fold m'.
  unfold bind at 1. rewrite E. unfold bind at 1. rewrite zs_mark.
  unfold bind at 1. rewrite (zs_unroll (m_col m') _ _ _ _ _ _ _ i s 0 (unrolls_none _ _ _ IC)). cbn [repeat]. rewrite app_nil_r.
  now apply zs_content.
Qed.
Lemma round_spare fuel z pre b r M A T k i s (post : scanner -> Prop) :
  Before z pre (b :: r) M A T k i s -> begins b -> marker_line (b :: r) = false ->
  List.length pre + 2 < fuel -> spare k M A -> (i <= m_col M)%N ->
  (forall toks fs adj L k0, map k_type toks = T -> steady toks i -> rests k0 M A ->
     exists z1 z2, fetch_main_loop fuel (zs (cur pre (b :: r) M L A) toks k0 i s fs adj) = (z1, Ok tt) /\
       stale_simple_keys z1 = (z2, Ok tt) /\ List.length toks < List.length (z_tokens z1) /\ post z2) ->
  exists z2, round fuel z z2 /\ post z2.
Proof.
  intros (p0 & g & m & l & a & toks & fs & adj & -> & -> & W & -> & -> & E & ST) B ML F G IC H.
  rewrite app_length in F. destruct (zs_fetch_spare fuel g p0 b r m l a toks k i s fs adj W B ltac:(lia) ML G IC) as (k0 & K & EF).
  destruct (H toks fs adj (l || has_lf g) k0 E ST K) as (z1 & z2 & E1 & E2 & E3 & P).
  exists z2. split; [|exact P]. exists z1. split; [|split; [exact E2|exact E3]]. now rewrite EF.
Qed.

(** ** Indicators *)
(** Gaps behind an indicator. *)
Definition parts_from (g rest : text) : Prop :=
  gap_to rest g /\ begins (nth 0 rest 0%N) /\ In (nth 0 (g ++ rest) 0%N) [32; 10; 13; 0]%N.
Lemma dash_gap fuel g pre rest M L toks k i s fs adj i2 s2 b :
  parts_from g rest -> List.length g + 3 < fuel -> idle k -> steady toks i ->
  rolled (m_col M) i s = (i2, s2, b) -> (exists x r, s2 = (x, true) :: r) ->
  exists toks' i3 s3 pre' g' m' l', fetch_main_loop fuel (zs (cur pre (45%N :: g ++ rest) M L true) toks k i s fs adj)
    = (zs (cur pre' (g' ++ rest) m' l' true) toks' (impossible k) i3 s3 fs adj, Ok tt) /\
   map k_type toks' = map k_type toks ++ (if b then [TBlockSequenceStart] else []) ++ [TBlockEntry] /\
   inside i2 s2 i3 s3 /\ pre ++ 45%N :: g = pre' ++ g' /\ gap_to rest g' /\
   marker_after g (mark_add 1 M) = marker_after g' m'.
Proof.
  intros (G & B & H) F I C R TOP. rewrite main_start. cbn [nth]. cbv zeta.
  rewrite (head_blank g rest H).
  change ((45 =? 91)%N) with false. change ((45 =? 123)%N) with false. change ((45 =? 93)%N) with false.
  change ((45 =? 125)%N) with false. change ((45 =? 44)%N) with false. change ((45 =? 45)%N) with true. cbn [andb].
  unfold fetch_block_entry. unfold bind at 1. rewrite zs_mark. unfold bind at 1. unfold gets at 1.
  change (z_flow (zs (cur pre (45%N :: g ++ rest) M L true) toks k i s fs adj)) with 0%N.
  unfold bind at 1. unfold gets at 1. unfold bind at 1. unfold gets at 1. rewrite steady_g9hc by exact C.
  change (c_ska (z_cur (zs (cur pre (45%N :: g ++ rest) M L true) toks k i s fs adj))) with true.
  change ((0 <? 0)%N) with false. cbn [negb].
  unfold bind at 1. rewrite zs_lift, e_skip_non_blank.
  unfold bind at 1. rewrite (zs_roll _ _ _ _ _ _ _ _ _ _ i2 s2 b R).
  destruct (gap_split rest g G B (head_not_comment g rest H)) as (r & g1 & -> & LR & G1 & NB & BZ).
  rewrite app_length in F. rewrite <- app_assoc.
  destruct (e_ws_rest r fuel false (pre ++ [45%N]) (g1 ++ rest) (mark_add 1 M) false true LR NB BZ ltac:(lia)) as (any & has & EW & ANY).
  unfold bind at 1. rewrite zs_lift, EW.
  unfold bind at 1. rewrite zs_peek. unfold bind at 1. rewrite zs_peek. unfold bind at 1. rewrite zs_mark.
  replace (any && (nth 0 (g1 ++ rest) 0%N =? 45)%N) with false.
  2:{ destruct any; [|reflexivity]. specialize (ANY eq_refl). unfold is_breakz, is_break in ANY. cbn [andb]. lia. }
  cbn [andb]. unfold bind at 1. rewrite zs_lift. destruct fuel as [|fuel]; [lia|]. cbn [In] in NB.
  rewrite e_ws_stop by (intros X; rewrite X in NB; tauto).
  unfold bind at 1. rewrite zs_peek.
  set (f := (is_break (nth 0 (g1 ++ rest) 0%N) || is_flow (nth 0 (g1 ++ rest) 0%N))%bool).
  set (i3 := if f then fst (onecol i2 s2) else i2). set (s3 := if f then snd (onecol i2 s2) else s2).
  unfold bind at 1.
  assert (RO : forall cu tk, (if f then roll_one_col_indent else ret tt) (zs cu tk k i2 s2 fs adj) = (zs cu tk k i3 s3 fs adj, Ok tt))
    by (intros; unfold i3, s3; destruct f; [apply zs_onecol|reflexivity]).
  rewrite RO.
  unfold bind at 1. rewrite zs_remove by exact I. unfold bind at 1. rewrite zs_lift, e_set_ska.
  unfold bind at 1. rewrite zs_mark. rewrite zs_push.
  do 3 eexists. exists ((pre ++ [45%N]) ++ r), g1, (mark_add (List.length r) (mark_add 1 M)), false.
  split; [reflexivity|]. split.
  { rewrite !map_app, <- app_assoc. destruct b; reflexivity. }
  split; [unfold i3, s3; destruct f; [now apply onecol_inside|now left]|].
  split; [now rewrite <- !app_assoc|]. split; [exact G1|].
  rewrite marker_after_app, (marker_flat r) by now apply rest_no_lf. reflexivity.
Qed.
Lemma question_gap fuel g pre rest M L toks k i s fs adj i2 s2 b :
  parts_from g rest -> g <> [] -> List.length g + 2 < fuel -> idle k ->
  rolled (m_col M) i s = (i2, s2, b) ->
  exists toks' l', fetch_main_loop fuel (zs (cur pre (63%N :: g ++ rest) M L true) toks k i s fs adj)
    = (zs (cur (pre ++ 63%N :: g) rest (marker_after g (mark_add 1 M)) l' true) toks' (impossible k) i2 s2 fs adj, Ok tt) /\
   map k_type toks' = map k_type toks ++ (if b then [TBlockMappingStart] else []) ++ [TKey].
Proof.
  intros (G & B & H) NE F I R. rewrite main_start. cbn [nth]. cbv zeta.
  rewrite (head_blank g rest H).
  change ((63 =? 91)%N) with false. change ((63 =? 123)%N) with false. change ((63 =? 93)%N) with false.
  change ((63 =? 125)%N) with false. change ((63 =? 44)%N) with false. change ((63 =? 45)%N) with false.
  change ((63 =? 63)%N) with true. cbn [andb].
  unfold fetch_key. unfold bind at 1. rewrite zs_mark. unfold bind at 1. unfold gets at 1.
  change (z_flow (zs (cur pre (63%N :: g ++ rest) M L true) toks k i s fs adj)) with 0%N.
  unfold bind at 1. unfold gets at 1.
  change (c_ska (z_cur (zs (cur pre (63%N :: g ++ rest) M L true) toks k i s fs adj))) with true.
  change ((0 =? 0)%N) with true. cbn [negb].
  unfold bind at 1. rewrite (zs_roll _ _ _ _ _ _ _ _ _ _ i2 s2 b R).
  unfold bind at 1. rewrite zs_remove by exact I. unfold bind at 1. rewrite zs_lift, e_set_ska.
  unfold bind at 1. rewrite zs_lift, e_skip_non_blank.
  unfold bind at 1. rewrite zs_lift. unfold skip_yaml_whitespace. unfold bind at 1.
  destruct (e_yaml_gap rest B g G fuel true (pre ++ [63%N]) (mark_add 1 M) false true F) as (rr & E & _ & RR).
  rewrite E. rewrite RR by (destruct g as [|x g]; [congruence|]; exact (head_not_comment (x :: g) rest H)).
  unfold bind at 1. rewrite e_get_mark. unfold ret at 1.
  unfold bind at 1. rewrite zs_peek. unfold bind at 1. rewrite zs_mark.
  destruct (begins_not _ B) as (B1 & B2 & B3 & B4 & B5). rewrite B2. rewrite zs_push.
  do 2 eexists. split.
  - rewrite <- app_assoc. cbn [app orb]. reflexivity.
  - rewrite !map_app, <- app_assoc. destruct b; reflexivity.
Qed.
Lemma value_start fuel pre x M L A toks k i s fs adj : In (nth 0 x 0%N) [32; 10; 13; 0]%N ->
  fetch_main_loop fuel (zs (cur pre (58%N :: x) M L A) toks k i s fs adj)
  = ((if sk_possible k then
         insert_token (sk_number k) (span_empty (sk_mark k)) TKey ;;;
         ret tt ;;;
         roll_indent (m_col (sk_mark k)) (Some (sk_number k)) TBlockMappingStart (sk_mark k) ;;;
         roll_one_col_indent ;;;
         modify (fun z => set_keys (match z_keys z with k :: r => impossible k :: r | [] => [] end) z) ;;;
         lift (set_ska false)
       else
         ret tt ;;;
         let* flow := gets z_flow in
         let* ska := gets (fun z => c_ska (z_cur z)) in
         (if (flow =? 0)%N then
            if negb ska then zerr M "mapping values are not allowed in this context"
            else roll_indent (m_col M) None TBlockMappingStart M
          else ret tt) ;;;
         roll_one_col_indent ;;;
         lift (set_ska (flow =? 0)%N)) ;;;
      push_token (span_empty M) TValue) (zs (cur (pre ++ [58%N]) x (mark_add 1 M) false A) toks k i s fs adj).
Proof.
  intros H. rewrite main_start. cbn [nth]. cbv zeta. change (is_blank_or_breakz (nth 0 x 0%N)) with (is_blank_or_breakz (nth 0 ([] ++ x) 0%N)).
  rewrite (head_blank [] x H).
  change ((58 =? 91)%N) with false. change ((58 =? 123)%N) with false. change ((58 =? 93)%N) with false.
  change ((58 =? 125)%N) with false. change ((58 =? 44)%N) with false. change ((58 =? 45)%N) with false.
  change ((58 =? 63)%N) with false. change ((58 =? 58)%N) with true. cbn [andb].
  unfold fetch_value. unfold bind at 1. unfold gets at 1.
  change (z_keys (zs (cur pre (58%N :: x) M L A) toks k i s fs adj)) with [k]. cbv iota.
  unfold bind at 1. rewrite zs_mark. unfold bind at 1. unfold gets at 1.
  change (z_implicit (zs (cur pre (58%N :: x) M L A) toks k i s fs adj)) with (@nil implicit_state). cbn [andb].
  unfold bind at 1. unfold modify at 1. unfold bind at 1. rewrite zs_lift, e_skip_non_blank.
  unfold bind at 1. rewrite zs_tab_check by (intros X; rewrite X in H; cbn in H; intuition discriminate). cbv iota.
  reflexivity.
Qed.
Lemma value_complex fuel x pre M L toks k i s fs adj i2 s2 b :
  In (nth 0 x 0%N) [32; 10; 13; 0]%N -> sk_possible k = false ->
  rolled (m_col M) i s = (i2, s2, b) ->
  exists toks', fetch_main_loop fuel (zs (cur pre (58%N :: x) M L true) toks k i s fs adj)
    = (zs (cur (pre ++ [58%N]) x (mark_add 1 M) false true) toks' k (fst (onecol i2 s2)) (snd (onecol i2 s2)) fs adj, Ok tt) /\
   map k_type toks' = map k_type toks ++ (if b then [TBlockMappingStart] else []) ++ [TValue].
Proof.
  intros H P R. rewrite value_start by exact H. rewrite P.
  unfold bind at 1. unfold bind at 1. unfold ret at 1. unfold bind at 1. unfold gets at 1. unfold bind at 1. unfold gets at 1.
  change (z_flow (zs (cur (pre ++ [58%N]) x (mark_add 1 M) false true) toks k i s fs adj)) with 0%N.
  change (c_ska (z_cur (zs (cur (pre ++ [58%N]) x (mark_add 1 M) false true) toks k i s fs adj))) with true.
  change ((0 =? 0)%N) with true. cbn [negb].
  unfold bind at 1. rewrite (zs_roll _ _ _ _ _ _ _ _ _ _ i2 s2 b R). unfold bind at 1. rewrite zs_onecol.
  rewrite zs_lift, e_set_ska. rewrite zs_push. eexists. split; [reflexivity|].
  rewrite !map_app, <- app_assoc. destruct b; reflexivity.
Qed.
Lemma value_simple fuel t pre M L A x y k i s fs adj i2 s2 b :
  In (nth 0 t 0%N) [32; 10; 13; 0]%N -> sk_possible k = true -> sk_number k = List.length x ->
  rolled (m_col (sk_mark k)) i s = (i2, s2, b) ->
  exists toks', fetch_main_loop fuel (zs (cur pre (58%N :: t) M L A) (x ++ y) k i s fs adj)
    = (zs (cur (pre ++ [58%N]) t (mark_add 1 M) false false) toks' (impossible k) (fst (onecol i2 s2)) (snd (onecol i2 s2)) fs adj, Ok tt) /\
   map k_type toks' = map k_type x ++ (if b then [TBlockMappingStart] else []) ++ [TKey] ++ map k_type y ++ [TValue].
Proof.
  intros H P E R. rewrite value_start by exact H. rewrite P.
  unfold bind at 1. unfold bind at 1. rewrite zs_insert by exact E. unfold bind at 1. unfold ret at 1.
  unfold bind at 1. rewrite (zs_roll_insert _ _ _ _ x _ _ _ _ _ _ i2 s2 b) by assumption.
  unfold bind at 1. rewrite zs_onecol. unfold bind at 1. unfold modify at 1.
  unfold zs at 1. cbn [set_keys z_keys z_cur z_tokens z_error z_indents z_implicit z_end_reached z_available z_started z_end_produced z_flow_started z_adjacent z_parsed z_flow z_indent].
  match goal with |- context [lift (set_ska false) ?z] => 
    change z with (zs (cur (pre ++ [58%N]) t (mark_add 1 M) false A) (x ++ zroll_toks (sk_mark k) TBlockMappingStart b ++ Token (span_empty (sk_mark k)) TKey :: y) (impossible k) (fst (onecol i2 s2)) (snd (onecol i2 s2)) fs adj) end.
  rewrite zs_lift, e_set_ska. rewrite zs_push. eexists. split; [reflexivity|].
  rewrite !map_app. cbn [map k_type]. rewrite <- !app_assoc. destruct b; reflexivity.
Qed.
