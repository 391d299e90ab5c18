(** The tokens the scanner finds in flow collections inside block collections. *)
From Verif Require Import SpecProps.
From Verif Require Import Base Tokens Scalar Chars Source Cursor Scanner ExactCursor SpecTree SpecQuoted FoldedQuotes ExactPlain EagerScan ScanSteps.
From Verif Require Import SpecBlock BlockScan SpecPlain PlainScan NodeScan DumpScan ScalarDocs PlainDocs SpecFlow SpecLayout LayoutCursor LayoutScan LayoutScalar SpecStrings StringScan FlowScan.
From Verif Require Import TreeLike FlowSteps PropsWords.
From Coq Require Import String Lia ZifyBool ZifyNat ZifyN.
Local Open Scope list_scope.

Ltac lns := cbn [List.length] in *; rewrite ?app_length in *; cbn [List.length] in *; rewrite ?app_length in *; cbn [List.length] in *; rewrite ?app_length in *; cbn [List.length] in *; rewrite ?app_length in *; cbn [List.length] in *.

(** ** Gaps behind gaps *)
Lemma spaces_app a b : repeat 32%N a ++ repeat 32%N b = repeat 32%N (a + b).
Proof. now rewrite repeat_app. Qed.
Lemma rest_spaces k r : line_rest r -> line_rest (repeat 32%N k ++ r).
Proof.
  intros [j|j c C].
  - rewrite spaces_app. constructor.
  - rewrite app_assoc, spaces_app. replace (k + S j) with (S (k + j)) by lia. now constructor.
Qed.
Lemma spaces_line n r : line_rest r -> empty_line (repeat 32%N n ++ r).
Proof.
  intros [j|j c C].
  - rewrite spaces_app. constructor.
  - rewrite app_assoc, spaces_app. now constructor.
Qed.
Lemma flow_gap_app p a b : flow_gap p a -> flow_gap p b -> flow_gap p (a ++ b).
Proof.
  intros [(k & ->)|(n & PN & [r e ls R E])] [(j & ->)|(n2 & PN2 & [r2 e2 ls2 R2 E2])].
  - left. exists (k + j). apply spaces_app.
  - right. exists n2. split; [exact PN2|]. rewrite app_assoc. constructor; [now apply rest_spaces|exact E2].
  - right. exists (n + j). split; [lia|]. rewrite <- !app_assoc, spaces_app. now constructor.
  - right. exists n2. split; [exact PN2|].
    replace ((r ++ eol e ++ empty_text ls ++ repeat 32%N n) ++ r2 ++ eol e2 ++ empty_text ls2 ++ repeat 32%N n2)
      with (r ++ eol e ++ empty_text (ls ++ (repeat 32%N n ++ r2, e2) :: ls2) ++ repeat 32%N n2).
    + constructor; [exact R|]. apply Forall_app. split; [exact E|]. constructor; [now apply spaces_line|exact E2].
    + rewrite empty_text_app. cbn [empty_text flat_map fst snd]. rewrite <- !app_assoc. reflexivity.
Qed.
Lemma flow_gap_nil p : flow_gap p [].
Proof. left. now exists 0. Qed.
Lemma flow_gap_spaces p k : flow_gap p (repeat 32%N k).
Proof. left. now exists k. Qed.

(** ** Claims *)
(** Behind values, items and entries: a comma or a closing bracket. *)
Definition closer (after : text) : Prop := exists b r, after = b :: r /\ In b [44; 93; 125]%N.
Lemma closer_after j after : closer after -> flow_after j after.
Proof. intros (b & r & -> & H). exists b, r. split; [reflexivity|]. now left. Qed.
Definition small (w : text) (T : list token_type) : Prop := unended T /\ List.length T <= 4 * List.length w.
(** How a text starts. *)
Definition opens (w : text) : Prop := exists b r, w = b :: r /\ begins b /\
  forall x, ~ In (nth 0 x 0%N) [45; 46]%N -> marker_line (w ++ x) = false.
Definition roomy (p : nat) (w : text) : Prop := forall m, (N.of_nat p < m_col m)%N -> (N.of_nat p < m_col (marker_after w m))%N.
(** Behind a name or a tag there is a gap or the sign of the end. *)
Definition apart_at (t : tree) (g after : text) : Prop :=
  match t with TrAlias _ | TrEmpty _ => g = [] -> In (nth 0 after 0%N) [44; 93; 125]%N | _ => True end.
Lemma closer_apart t g after : closer after -> apart_at t g after.
Proof. intros (b & r & -> & H). destruct t; cbn [apart_at]; auto. Qed.
Lemma colon_apart t g x : apart t g -> apart_at t g x.
Proof. destruct t; cbn [apart apart_at]; auto; intros H E; congruence. Qed.
Definition fnode (p : nat) (c : bool) (w : text) (t : tree) : Prop :=
  opens w /\ flow_tree t /\ roomy p w /\
  forall fuel z pre g after M A T k ks s0 im fs d,
    FlowAt z pre (w ++ g ++ after) M A T (k :: ks) (N.of_nat p) s0 im fs (S d) -> flow_gap p g -> flow_after (json_like t) after -> apart_at t g after -> idle k ->
    (c = true -> hd IPossible im = IPossible) -> blocky s0 -> (N.of_nat p < m_col M)%N -> (N.of_nat (S d + List.length w) < 4294967295)%N ->
    List.length pre + List.length (w ++ g) + 8 < fuel ->
    exists z' A' fs' t', reach fuel z z' /\
      FlowAt z' (pre ++ w ++ g) after (marker_after (w ++ g) M) A' (T ++ tree_toks t') (kept_key A (List.length T) M k :: ks) (N.of_nat p) s0 im fs' (S d) /\
      (fs = true -> fs' = true) /\ like t t' /\ small w (tree_toks t') /\
      (json_like t = true -> (collection t = true -> ~ In 10%N g) -> z_adjacent z' = m_pos (marker_after (w ++ g) M)).
Definition node_of_value (v : value tree) : list token_type := match v with VNode t => tree_toks t | _ => [] end.
Definition fvalue (p : nat) (c j : bool) (w : text) (v : value tree) : Prop :=
  value_all flow_tree v /\ v <> VAbsent /\ roomy p w /\ (w = [] \/ (exists b r, w = b :: r /\ (In b [32; 10; 13]%N \/ (j = true /\ begins b)))) /\
  forall fuel z pre g after M T k ks s0 im fs d,
    FlowAt z pre (w ++ g ++ after) M false T (k :: ks) (N.of_nat p) s0 im fs (S d) -> flow_gap p g -> closer after -> idle k ->
    (c = true -> hd IPossible im = IPossible) -> blocky s0 -> (N.of_nat p < m_col M)%N -> (N.of_nat (S d + List.length w) < 4294967295)%N ->
    List.length pre + List.length (w ++ g) + 8 < fuel ->
    exists z' A' fs' v', reach fuel z z' /\
      FlowAt z' (pre ++ w ++ g) after (marker_after (w ++ g) M) A' (T ++ node_of_value v') (k :: ks) (N.of_nat p) s0 im fs' (S d) /\
      (fs = true -> fs' = true) /\ value_like v v' /\ small w (node_of_value v').
Definition fitem (p : nat) (w : text) (i : item tree) : Prop :=
  opens w /\ item_all flow_tree i /\ roomy p w /\
  forall fuel z pre g after M T k ks s0 im fs d,
    FlowAt z pre (w ++ g ++ after) M true T (k :: ks) (N.of_nat p) s0 (IPossible :: im) fs (S d) -> flow_gap p g -> closer after -> idle k ->
    blocky s0 -> (N.of_nat p < m_col M)%N -> (N.of_nat (S d + List.length w) < 4294967295)%N ->
    List.length pre + List.length (w ++ g) + 8 < fuel ->
    exists z' A' fs' (pd : bool) T' i' k', reach fuel z z' /\
      FlowAt z' (pre ++ w ++ g) after (marker_after (w ++ g) M) A' T' (k' :: ks) (N.of_nat p) s0 ((if pd then IInside else IPossible) :: im) fs' (S d) /\
      T' ++ (if pd then [TFlowMappingEnd] else []) = T ++ item_toks tree_toks i' /\ idle k' /\
      (fs = true -> fs' = true /\ pd = false) /\ item_like i i' /\ small w (item_toks tree_toks i').
Definition fitems (p : nat) (w : text) (l : list (item tree)) (b : bool) : Prop :=
  opens w /\ all_of (item_all flow_tree) l /\ l <> [] /\ roomy p w /\
  forall fuel z pre y M T k ks s0 im fs d,
    FlowAt z pre (w ++ 93%N :: y) M true T (k :: ks) (N.of_nat p) s0 (IPossible :: im) fs (S d) -> idle k ->
    blocky s0 -> (N.of_nat p < m_col M)%N -> (N.of_nat (S d + List.length w) < 4294967295)%N ->
    List.length pre + List.length w + 8 < fuel ->
    exists z' A' fs' (pd : bool) T' l' k', reach fuel z z' /\
      FlowAt z' (pre ++ w) (93%N :: y) (marker_after w M) A' T' (k' :: ks) (N.of_nat p) s0 ((if pd then IInside else IPossible) :: im) fs' (S d) /\
      T' ++ (if pd then [TFlowMappingEnd] else []) = T ++ commas (item_toks tree_toks) l' ++ trail b /\ idle k' /\
      (fs = true -> fs' = true /\ pd = false) /\ Forall2 item_like l l' /\ small w (commas (item_toks tree_toks) l' ++ trail b).
Definition fentry (p : nat) (c : bool) (w : text) (x : key tree * value tree) : Prop :=
  opens w /\ (flow_pair x /\ let '(k, v) := x in key_all flow_tree k /\ value_all flow_tree v) /\ roomy p w /\
  forall fuel z pre g after M T k ks s0 im d,
    FlowAt z pre (w ++ g ++ after) M true T (k :: ks) (N.of_nat p) s0 im true (S d) -> flow_gap p g -> closer after -> idle k -> sk_possible k = false ->
    (c = true -> hd IPossible im = IPossible) -> blocky s0 -> (N.of_nat p < m_col M)%N -> (N.of_nat (S d + List.length w) < 4294967295)%N ->
    List.length pre + List.length (w ++ g) + 8 < fuel ->
    exists z' A' x' k', reach fuel z z' /\
      FlowAt z' (pre ++ w ++ g) after (marker_after (w ++ g) M) A' (T ++ pair_toks tree_toks x') (k' :: ks) (N.of_nat p) s0 im true (S d) /\ idle k' /\
      pair_like x x' /\ small w (pair_toks tree_toks x').
Definition fentries (p : nat) (c : bool) (w : text) (l : list (key tree * value tree)) (b : bool) : Prop :=
  opens w /\ all_of (fun x => flow_pair x /\ let '(k, v) := x in key_all flow_tree k /\ value_all flow_tree v) l /\ l <> [] /\ roomy p w /\
  forall fuel z pre y M T k ks s0 im d,
    FlowAt z pre (w ++ 125%N :: y) M true T (k :: ks) (N.of_nat p) s0 im true (S d) -> idle k -> sk_possible k = false ->
    (c = true -> hd IPossible im = IPossible) -> blocky s0 -> (N.of_nat p < m_col M)%N -> (N.of_nat (S d + List.length w) < 4294967295)%N ->
    List.length pre + List.length w + 8 < fuel ->
    exists z' A' l' k', reach fuel z z' /\
      FlowAt z' (pre ++ w) (125%N :: y) (marker_after w M) A' (T ++ commas (pair_toks tree_toks) l' ++ trail b) (k' :: ks) (N.of_nat p) s0 im true (S d) /\ idle k' /\
      Forall2 pair_like l l' /\ small w (commas (pair_toks tree_toks) l' ++ trail b).

(** ** Helpers *)
Lemma small_nil : small [] [].
Proof. split; [constructor|cbn; lia]. Qed.
Lemma small_app a b S T : small a S -> small b T -> small (a ++ b) (S ++ T).
Proof. intros [A1 A2] [B1 B2]. split; [now apply Forall_app|rewrite !app_length; lia]. Qed.
Lemma small_gap a g T : small a T -> small (a ++ g) T.
Proof. intros [A1 A2]. split; [exact A1|rewrite app_length; lia]. Qed.
Lemma gap_small a g T : small a T -> small (g ++ a) T.
Proof. intros [A1 A2]. split; [exact A1|rewrite app_length; lia]. Qed.
Lemma roomy_gap p g : flow_gap p g -> roomy p g.
Proof. intros G m C. now apply flow_gap_col. Qed.
Lemma roomy_app p a b : roomy p a -> roomy p b -> roomy p (a ++ b).
Proof. intros A B m C. rewrite marker_after_app. auto. Qed.
Lemma roomy_cons p b w : b <> 10%N -> roomy p w -> roomy p (b :: w).
Proof. intros N W m C. rewrite marker_first by exact N. apply W. unfold mark_add. cbn [Base.m_col]. lia. Qed.
Lemma roomy_nil p : roomy p [].
Proof. intros m C. exact C. Qed.
Lemma opens_begins w x : opens w -> begins (nth 0 (w ++ x) 0%N).
Proof. intros (b & r & -> & B & _). exact B. Qed.
Lemma opens_app a b : opens a -> ~ In (nth 0 b 32%N) [45; 46]%N -> opens (a ++ b).
Proof.
  intros (y & r & E & B & M) N. exists y, (r ++ b). split; [now rewrite E|]. split; [exact B|]. intros x X. rewrite <- app_assoc.
  apply M. destruct b as [|z b]; [exact X|exact N].
Qed.
Lemma opens_sign b r : begins b -> b <> 37%N -> b <> 45%N -> b <> 46%N -> opens (b :: r).
Proof. intros B H1 H2 H3. exists b, r. split; [reflexivity|]. split; [exact B|]. intros x _. cbn [app]. now apply marker_line_indicator_byte. Qed.
Lemma gap_quiet p g x : flow_gap p g -> ~ In (nth 0 x 32%N) [45; 46]%N -> ~ In (nth 0 (g ++ x) 32%N) [45; 46]%N.
Proof.
  intros G X. destruct (flow_gap_first p g G) as [-> |(b & r & -> & B)]; [exact X|]. cbn [app nth In] in *. lia.
Qed.
Lemma nth_default {A} (a b : A) l : l <> [] -> nth 0 l a = nth 0 l b.
Proof. destruct l; [congruence|reflexivity]. Qed.
Lemma value_toks_node v : v <> VAbsent -> value_toks tree_toks v = TValue :: node_of_value v.
Proof. destruct v; [congruence|reflexivity|reflexivity]. Qed.
Lemma like_some v v' : value_like v v' -> v <> VAbsent -> v' <> VAbsent.
Proof. intros [| |t t' _]; congruence. Qed.

(** ** Scalars *)
Lemma roomy_flat p w : ~ In 10%N w -> roomy p w.
Proof. intros N m C. rewrite marker_flat by exact N. unfold mark_add. cbn [Base.m_col]. lia. Qed.
Lemma roomy_plain p w ws : flow_word w -> flow_more p ws -> roomy p (w ++ more_text ws).
Proof.
  intros FW M. apply roomy_app; [apply roomy_flat; apply (word_no_lf true), FW|]. clear FW.
  induction M as [|[g x] ws (W & NE & IN & FW & _) M IH]; [apply roomy_nil|]. cbn [fst snd] in *. cbn [more_text flat_map fst snd].
  apply roomy_app; [|exact IH]. apply roomy_app; [|apply roomy_flat; apply (word_no_lf true), FW].
  destruct g as [bs|tr b e i more]; [apply roomy_flat, white_no_lf, W|]. intros m C. rewrite newlines_col by apply W. cbn [indented] in IN. lia.
Qed.
Lemma roomy_quoted p single w v : quoted_scalar single p w v -> roomy p w.
Proof.
  intros [t u r x C M]. apply roomy_cons; [destruct single; discriminate|]. apply roomy_app; [apply roomy_flat; eapply chars_flat; eauto|].
  apply roomy_app; [|apply roomy_flat; destruct single; cbn; intuition discriminate]. clear t u C.
  induction M as [|g t u r y G C RT D M IH]; [apply roomy_nil|].
  apply roomy_app; [|apply roomy_app; [apply roomy_flat; eapply chars_flat; eauto|exact IH]].
  destruct g as [bs|tr b e i more|tr b e i more]; cbn [quote_gap_text quote_gap_ok] in *.
  - apply roomy_flat, white_no_lf, G.
  - destruct G as (_ & _ & PI & W). intros m Cm. rewrite marker_after_app, lines_col by exact W. lia.
  - destruct G as (_ & _ & _ & PI & W). intros m Cm. rewrite app_assoc, marker_after_app, lines_col by exact W. lia.
Qed.
Lemma fnode_scalar p c st w v : flow_scalar false p st w v -> fnode p c w (TrScalar no_props st v).
Proof.
  intros H. split; [|split; [exact I|]].
  { destruct H as [w ws PS FW NM MW EX|single w v Q].
    - destruct (plain_first p w ws PS FW NM MW) as (b & r & E & B & M). exists b, r. auto.
    - destruct (quoted_text single p w v Q) as (body & ->). apply opens_sign; destruct single; unfold begins; cbn; try discriminate; intuition discriminate. }
  split.
  { destruct H as [w ws PS FW NM MW EX|single w v Q]; [now apply roomy_plain|eapply roomy_quoted; eauto]. }
  intros fuel z pre g after M A T k ks s0 im fs d AT G AF AP ID CI BL C DL F.
  rewrite app_length in F.
  destruct H as [w ws PS FW NM MW EX|single w v Q].
  - destruct (EX eq_refl) as [N58 LW].
    destruct (flow_plain fuel z pre w ws g after M A T k ks p s0 im fs (S d) AT) as (z' & A' & R & AT'); auto; [rewrite app_length; lia|].
    exists z', A', fs, (TrScalar no_props Plain (w ++ more_value ws)). split; [now apply reach_one|]. split; [exact AT'|]. split; [auto|].
    split; [apply like_refl|]. split; [|discriminate]. split; [repeat constructor|]. destruct FW as (NE & _). destruct w; [congruence|]. cbn. lia.
  - destruct (flow_quoted fuel z pre single w v g after M A T k ks p s0 im fs (S d) AT) as (z' & A' & R & AT' & AD); auto.
    { destruct AF as (b & r & -> & X). exists b, r. split; [reflexivity|]. tauto. }
    { rewrite app_length. lia. }
    exists z', A', fs, (TrScalar no_props (if single then SingleQuote else DoubleQuote) v). split; [now apply reach_one|]. split; [exact AT'|]. split; [auto|].
    split; [apply like_refl|]. split; [|auto]. split; [repeat constructor|]. destruct (quoted_text single p w v Q) as (body & ->). cbn. lia.
Qed.

(** ** Values *)
Lemma fvalue_none p c j : fvalue p c j [] VEmpty.
Proof.
  split; [exact I|]. split; [discriminate|]. split; [apply roomy_nil|]. split; [now left|].
  intros fuel z pre g after M T k ks s0 im fs d AT G CL ID CI BL C DL F. cbn [app] in *.
  exists z, false, fs, VEmpty. split; [apply reach_refl|]. split; [|split; [auto|split; [constructor|apply small_nil]]].
  cbn [node_of_value]. rewrite app_nil_r. apply FlowAt_gap; [eapply flow_gap_to; eauto|exact AT].
Qed.
Lemma fvalue_node p c j g0 w t : flow_gap p g0 -> fnode p c w t -> j = true \/ g0 <> [] -> fvalue p c j (g0 ++ w) (VNode t).
Proof.
  intros G0 (OP & FT & RM & H) J. split; [exact FT|]. split; [discriminate|]. split; [apply roomy_app; [now apply roomy_gap|exact RM]|]. split.
  { right. destruct (flow_gap_first p g0 G0) as [-> |(b & r & -> & B)].
    - destruct OP as (b & r & -> & B & _). exists b, r. split; [reflexivity|]. right. split; [|exact B]. destruct J as [J|J]; [exact J|congruence].
    - exists b, (r ++ w). split; [reflexivity|]. now left. }
  intros fuel z pre g after M T k ks s0 im fs d AT G CL ID CI BL C DL F. rewrite !app_length in *.
  rewrite <- app_assoc in AT. apply FlowAt_gap in AT; [|eapply flow_gap_to; eauto].
  destruct (H fuel z (pre ++ g0) g after (marker_after g0 M) false T k ks s0 im fs d AT G (closer_after _ _ CL) (closer_apart t g after CL) ID CI BL) as (z' & A' & fs' & t' & R & AT' & FS & LK & SM & _).
  - now apply flow_gap_col.
  - lia.
  - rewrite !app_length. lia.
  - exists z', A', fs', (VNode t'). split; [exact R|]. split; [|split; [exact FS|split; [now constructor|now apply gap_small]]].
    cbn [node_of_value kept_key] in *. rewrite <- marker_after_app, <- !app_assoc in AT'. rewrite <- !app_assoc. exact AT'.
Qed.

(** ** Keys *)
(** What follows the colon of a key. *)
Lemma value_after p c j w v g after : fvalue p c j w v -> flow_gap p g -> closer after -> flow_after j (58%N :: w ++ g ++ after).
Proof.
  intros (_ & _ & _ & ST & _) G CL. exists 58%N, (w ++ g ++ after). split; [reflexivity|]. right. split; [reflexivity|].
  destruct ST as [-> |(b & r & -> & [B|[J _]])]; [|right|now left].
  - right. cbn [app]. destruct CL as (x & y & -> & X). destruct (flow_gap_first p g G) as [-> |(b & r & -> & B)]; cbn [app nth In] in *; tauto.
  - cbn [app nth In] in *. tauto.
Qed.
Lemma value_sign p c j w v g after z M : fvalue p c j w v -> flow_gap p g -> closer after -> (j = true -> z_adjacent z = m_pos M) ->
  colon_sign z M (w ++ g ++ after).
Proof.
  intros (_ & _ & _ & ST & _) G CL AD. unfold colon_sign.
  destruct ST as [-> |(b & r & -> & [B|[J B]])].
  - cbn [app]. destruct CL as (x & y & -> & X). destruct (flow_gap_first p g G) as [-> |(b & r & -> & B)]; cbn [app nth In] in *; (split; [lia|tauto]).
  - cbn [app nth In] in *. split; [lia|tauto].
  - cbn [app nth]. split; [unfold begins in B; cbn [In] in B; intros ->; tauto|]. right. right. auto.
Qed.
(** The colon behind a key and the value. *)
Lemma key_value fuel z pre p c j w v g after M A T0 TK k ks s0 im fs d :
  fvalue p c j w v -> FlowAt z pre (58%N :: w ++ g ++ after) M A (T0 ++ TK) (k :: ks) (N.of_nat p) s0 im fs (S d) -> flow_gap p g -> closer after ->
  (j = true -> z_adjacent z = m_pos M) -> sk_possible k = true -> sk_number k = List.length T0 ->
  (implicit_pair im fs = true -> m_line M <= m_line (sk_mark k))%N -> (c = true -> hd IPossible (inside_pair im fs) = IPossible) ->
  blocky s0 -> (N.of_nat p < m_col M)%N -> (N.of_nat (S d + List.length w) < 4294967295)%N ->
  List.length pre + List.length (58%N :: w ++ g) + 8 < fuel ->
  exists z' A' fs' v', reach fuel z z' /\
    FlowAt z' (pre ++ 58%N :: w ++ g) after (marker_after (58%N :: w ++ g) M) A'
      (T0 ++ (if implicit_pair im fs then [TFlowMappingStart] else []) ++ TKey :: TK ++ value_toks tree_toks v')
      (impossible k :: ks) (N.of_nat p) s0 (inside_pair im fs) fs' (S d) /\
    (fs = true -> fs' = true) /\ value_like v v' /\ unended (value_toks tree_toks v') /\ List.length (value_toks tree_toks v') <= 1 + 4 * List.length w.
Proof.
  intros FV AT G CL AD PK NK LN CI BL C DL F. pose proof FV as (_ & NA & _ & _ & H). cbn [List.length] in F.
  destruct (flow_colon_key fuel z pre (w ++ g ++ after) M A T0 TK k ks p s0 im fs (S d) AT) as (z1 & R1 & AT1); try assumption; try discriminate; [eapply value_sign; eauto|lia|].
  destruct (H fuel z1 (pre ++ [58%N]) g after (mark_add 1 M) _ (impossible k) ks s0 _ fs d AT1 G CL (idle_impossible k) CI BL) as (z2 & A2 & fs2 & v' & R2 & AT2 & FS & VL & SM1 & SM2).
  - unfold mark_add. cbn [Base.m_col]. lia.
  - exact DL.
  - rewrite app_length. cbn [List.length]. lia.
  - exists z2, A2, fs2, v'. split; [eapply reach_trans; [apply reach_one; exact R1|exact R2]|]. rewrite value_toks_node by (eapply like_some; eauto).
    split; [|split; [exact FS|split; [exact VL|split; [constructor; [exact I|exact SM1]|cbn [List.length]; lia]]]].
    rewrite marker_first by discriminate. rewrite <- !app_assoc in AT2. cbn [app] in AT2. exact AT2.
Qed.
(** The colon behind a complex key, or without a key. *)
Lemma bare_value fuel z pre p c j w v g after M A T k ks s0 im fs d :
  fvalue p c j w v -> FlowAt z pre (58%N :: w ++ g ++ after) M A T (k :: ks) (N.of_nat p) s0 im fs (S d) -> flow_gap p g -> closer after ->
  (j = true -> z_adjacent z = m_pos M) -> sk_possible k = false -> implicit_pair im fs = false -> (c = true -> hd IPossible im = IPossible) ->
  blocky s0 -> (N.of_nat p < m_col M)%N -> (N.of_nat (S d + List.length w) < 4294967295)%N ->
  List.length pre + List.length (58%N :: w ++ g) + 8 < fuel ->
  exists z' A' fs' v', reach fuel z z' /\
    FlowAt z' (pre ++ 58%N :: w ++ g) after (marker_after (58%N :: w ++ g) M) A' (T ++ value_toks tree_toks v') (k :: ks) (N.of_nat p) s0 im fs' (S d) /\
    (fs = true -> fs' = true) /\ value_like v v' /\ unended (value_toks tree_toks v') /\ List.length (value_toks tree_toks v') <= 1 + 4 * List.length w.
Proof.
  intros FV AT G CL AD PK IP CI BL C DL F. pose proof FV as (_ & NA & _ & _ & H). cbn [List.length] in F.
  destruct (flow_colon_bare fuel z pre (w ++ g ++ after) M A T k ks p s0 im fs (S d) AT) as (z1 & R1 & AT1); try assumption; try discriminate; [eapply value_sign; eauto|lia|].
  destruct (H fuel z1 (pre ++ [58%N]) g after (mark_add 1 M) _ k ks s0 _ fs d AT1 G CL) as (z2 & A2 & fs2 & v' & R2 & AT2 & FS & VL & SM1 & SM2); try assumption; try reflexivity; try discriminate.
  - intros P. congruence.
  - unfold mark_add. cbn [Base.m_col]. lia.
  - rewrite app_length. cbn [List.length]. lia.
  - exists z2, A2, fs2, v'. split; [eapply reach_trans; [apply reach_one; exact R1|exact R2]|]. rewrite value_toks_node by (eapply like_some; eauto).
    split; [|split; [exact FS|split; [exact VL|split; [constructor; [exact I|exact SM1]|cbn [List.length]; lia]]]].
    rewrite marker_first by discriminate. rewrite <- !app_assoc in AT2. cbn [app] in AT2. exact AT2.
Qed.

(** ** Items *)
Lemma fitem_node p w t : fnode p true w t -> fitem p w (INode t).
Proof.
  intros (OP & FT & RM & H). split; [exact OP|]. split; [exact FT|]. split; [exact RM|].
  intros fuel z pre g after M T k ks s0 im fs d AT G CL ID BL C DL F.
  destruct (H fuel z pre g after M true T k ks s0 (IPossible :: im) fs d AT G (closer_after _ _ CL) (closer_apart t g after CL) ID (fun _ => eq_refl) BL C DL F) as (z' & A' & fs' & t' & R & AT' & FS & LK & SM & _).
  exists z', A', fs', false, (T ++ tree_toks t'), (INode t'), (kept_key true (List.length T) M k). split; [exact R|]. split; [exact AT'|].
  split; [now rewrite app_nil_r|]. split; [now apply idle_kept|]. split; [auto|]. split; [now apply item_node|exact SM].
Qed.
Lemma quiet_colon p g x : flow_gap p g -> ~ In (nth 0 (g ++ 58%N :: x) 32%N) [45; 46]%N.
Proof. intros G. eapply gap_quiet; [exact G|]. cbn. intuition discriminate. Qed.
Lemma marker_same_line w m : ~ In 10%N w -> m_line (marker_after w m) = m_line m.
Proof. intros N. rewrite marker_flat by exact N. reflexivity. Qed.
Lemma fitem_pair p w t k w' v : fnode p true w t -> ~ In 10%N w -> apart t (repeat 32%N k) -> fvalue p false (json_like t) w' v ->
  fitem p (w ++ repeat 32%N k ++ 58%N :: w') (IPair t v).
Proof.
  intros (OP & FT & RM & H) NL NP FV. pose proof FV as (VF & NA & RV & _ & _).
  assert (GS : flow_gap p (repeat 32%N k)) by apply flow_gap_spaces.
  assert (NS : ~ In 10%N (repeat 32%N k)) by (intros I; apply repeat_spec in I; discriminate).
  split; [apply opens_app; [exact OP|now apply (quiet_colon p)]|]. split; [split; assumption|].
  split; [apply roomy_app; [exact RM|apply roomy_app; [now apply roomy_gap|apply roomy_cons; [discriminate|exact RV]]]|].
  intros fuel z pre g after M T ky ks s0 im fs d AT G CL ID BL C DL F.
  rewrite !app_length in *. cbn [List.length] in *.
  replace ((w ++ repeat 32%N k ++ 58%N :: w') ++ g ++ after) with (w ++ repeat 32%N k ++ 58%N :: w' ++ g ++ after) in AT
    by (now rewrite <- !app_assoc).
  destruct (H fuel z pre (repeat 32%N k) (58%N :: w' ++ g ++ after) M true T ky ks s0 (IPossible :: im) fs d AT GS) as (z1 & A1 & fs1 & t' & R1 & AT1 & FS1 & LK & SM1 & AD).
  - eapply value_after; eauto.
  - now apply colon_apart.
  - exact ID.
  - reflexivity.
  - exact BL.
  - exact C.
  - lia.
  - rewrite app_length. lia.
  - destruct (key_value fuel z1 (pre ++ w ++ repeat 32%N k) p false (json_like t) w' v g after (marker_after (w ++ repeat 32%N k) M) A1 T (tree_toks t')
      (kept_key true (List.length T) M ky) ks s0 (IPossible :: im) fs1 d FV AT1 G CL) as (z2 & A2 & fs2 & v' & R2 & AT2 & FS2 & VL & CV & LV).
    + intros J. apply AD; [exact J|]. intros _. exact NS.
    + reflexivity.
    + reflexivity.
    + intros _. cbn [kept_key sk_mark]. rewrite marker_same_line; [lia|]. rewrite in_app_iff. tauto.
    + discriminate.
    + exact BL.
    + rewrite marker_after_app. apply flow_gap_col; [exact GS|]. now apply RM.
    + lia.
    + rewrite !app_length. cbn [List.length]. rewrite app_length. lia.
    + exists z2, A2, fs2, (implicit_pair (IPossible :: im) fs1).
      exists (T ++ (if implicit_pair (IPossible :: im) fs1 then [TFlowMappingStart] else []) ++ TKey :: tree_toks t' ++ value_toks tree_toks v').
      exists (if implicit_pair (IPossible :: im) fs1 then INode (TrFlowMap no_props [(KNode t', v')] false) else IPair t' v').
      exists (impossible (kept_key true (List.length T) M ky)).
      split; [eapply reach_trans; eauto|].
      assert (LL : List.length (tree_toks t') <= 4 * List.length w) by apply SM1. assert (CL1 : unended (tree_toks t')) by apply SM1.
      unfold inside_pair in AT2. destruct (implicit_pair (IPossible :: im) fs1) eqn:IP; cbn [tl] in AT2.
      * split; [rewrite <- marker_after_app, <- !app_assoc in AT2; rewrite <- !app_assoc; exact AT2|].
        split; [cbn [item_toks tree_toks props_toks pr_anchor pr_tag pr_tag_first no_props opt_list app commas pair_toks key_toks trail];
          rewrite <- !app_assoc; cbn [app]; rewrite <- !app_assoc; reflexivity|].
        split; [apply idle_impossible|].
        split; [intros ->; rewrite (FS1 eq_refl) in IP; discriminate|].
        split; [now apply item_mapping|].
        cbn [item_toks tree_toks props_toks pr_anchor pr_tag pr_tag_first no_props opt_list app commas pair_toks key_toks trail].
        split; [constructor; [exact I|]; constructor; [exact I|]; apply Forall_app; split; [apply Forall_app; split; assumption|repeat constructor]|].
        rewrite !app_length. cbn [List.length]. rewrite !app_length. cbn [List.length]. lia.
      * split; [rewrite <- marker_after_app, <- !app_assoc in AT2; rewrite <- !app_assoc; exact AT2|].
        split; [cbn [item_toks app]; now rewrite app_nil_r|].
        split; [apply idle_impossible|]. split; [auto|]. split; [now apply item_pair|].
        cbn [item_toks]. split; [constructor; [exact I|]; apply Forall_app; split; assumption|].
        cbn [List.length]. rewrite !app_length. cbn [List.length]. lia.
Qed.
Lemma begins_close after : closer after -> begins (nth 0 after 0%N).
Proof. intros H. eapply flow_after_begins, (closer_after true), H. Qed.
Lemma opens_question r : opens (63%N :: r).
Proof. apply opens_sign; try discriminate. unfold begins. cbn. intuition discriminate. Qed.
Lemma begins_colon : begins 58%N.
Proof. unfold begins. cbn. intuition discriminate. Qed.
Lemma roomy_question p g w : flow_gap p g -> roomy p w -> roomy p (63%N :: g ++ w).
Proof. intros G W. apply roomy_cons; [discriminate|]. apply roomy_app; [now apply roomy_gap|exact W]. Qed.
Lemma kept_false n m k : kept_key false n m k = k.
Proof. reflexivity. Qed.
(** A complex key without a value, and with one. *)
Lemma question_key fuel z pre p c g w t g2 after M A T k ks s0 im fs d :
  flow_gap p g -> g <> [] -> fnode p c w t -> flow_gap p g2 -> flow_after (json_like t) after -> apart_at t g2 after ->
  FlowAt z pre (63%N :: g ++ w ++ g2 ++ after) M A T (k :: ks) (N.of_nat p) s0 im fs (S d) -> idle k ->
  (c = true -> hd IPossible im = IPossible) -> blocky s0 -> (N.of_nat p < m_col M)%N -> (N.of_nat (S d + List.length w) < 4294967295)%N ->
  List.length pre + List.length (63%N :: g ++ w ++ g2) + 8 < fuel ->
  exists z' A' t', reach fuel z z' /\
    FlowAt z' (pre ++ 63%N :: g ++ w ++ g2) after (marker_after (63%N :: g ++ w ++ g2) M) A' (T ++ TKey :: tree_toks t') (impossible k :: ks) (N.of_nat p) s0 im true (S d) /\
    like t t' /\ small w (tree_toks t') /\
    (json_like t = true -> (collection t = true -> ~ In 10%N g2) -> z_adjacent z' = m_pos (marker_after (63%N :: g ++ w ++ g2) M)).
Proof.
  intros G NE (OP & FT & RM & H) G2 AF AP AT ID CI BL C DL F. cbn [List.length] in F. rewrite !app_length in F.
  destruct (flow_question fuel z pre g (w ++ g2 ++ after) M A T k ks p s0 im fs (S d) AT) as (z1 & R1 & AT1); try assumption; try discriminate; [now apply opens_begins|lia|].
  destruct (H fuel z1 (pre ++ 63%N :: g) g2 after (marker_after (63%N :: g) M) false (T ++ [TKey]) (impossible k) ks s0 im true d AT1 G2 AF AP (idle_impossible k) CI BL)
    as (z2 & A2 & fs2 & t' & R2 & AT2 & FS & LK & SM & AD).
  - rewrite marker_first by discriminate. apply flow_gap_col; [exact G|]. unfold mark_add. cbn [Base.m_col]. lia.
  - exact DL.
  - rewrite !app_length. cbn [List.length]. lia.
  - rewrite (FS eq_refl) in AT2. exists z2, A2, t'. split; [eapply reach_trans; [apply reach_one; exact R1|exact R2]|].
    replace (63%N :: g ++ w ++ g2) with ((63%N :: g) ++ w ++ g2) by reflexivity. rewrite marker_after_app.
    split; [|split; [exact LK|split; [exact SM|exact AD]]].
    rewrite kept_false in AT2. rewrite <- !app_assoc in AT2. rewrite <- ?app_assoc. exact AT2.
Qed.
Lemma question_pair fuel z pre p c cv g w t g1 w' v g2 after M A T k ks s0 im fs d :
  flow_gap p g -> g <> [] -> fnode p c w t -> flow_gap p g1 -> apart t g1 -> (collection t = true -> ~ In 10%N g1) -> fvalue p cv (json_like t) w' v ->
  flow_gap p g2 -> closer after ->
  FlowAt z pre (63%N :: g ++ w ++ g1 ++ 58%N :: w' ++ g2 ++ after) M A T (k :: ks) (N.of_nat p) s0 im fs (S d) -> idle k ->
  (c = true -> hd IPossible im = IPossible) -> (cv = true -> hd IPossible im = IPossible) -> blocky s0 -> (N.of_nat p < m_col M)%N ->
  (N.of_nat (S d + List.length (63%N :: g ++ w ++ g1 ++ 58%N :: w')) < 4294967295)%N ->
  List.length pre + List.length (63%N :: g ++ w ++ g1 ++ 58%N :: w' ++ g2) + 8 < fuel ->
  exists z' A' t' v', reach fuel z z' /\
    FlowAt z' (pre ++ 63%N :: g ++ w ++ g1 ++ 58%N :: w' ++ g2) after (marker_after (63%N :: g ++ w ++ g1 ++ 58%N :: w' ++ g2) M) A'
      (T ++ TKey :: tree_toks t' ++ value_toks tree_toks v') (impossible k :: ks) (N.of_nat p) s0 im true (S d) /\
    like t t' /\ value_like v v' /\ small (63%N :: g ++ w ++ g1 ++ 58%N :: w') (TKey :: tree_toks t' ++ value_toks tree_toks v').
Proof.
  intros G NE FN G1 NP NL FV G2 CL AT ID CI CVI BL C DL F.
  lns.
  destruct (question_key fuel z pre p c g w t g1 (58%N :: w' ++ g2 ++ after) M A T k ks s0 im fs d G NE FN G1) as (z1 & A1 & t' & R1 & AT1 & LK & SM & AD).
  - eapply value_after; eauto.
  - now apply colon_apart.
  - exact AT.
  - exact ID.
  - exact CI.
  - exact BL.
  - exact C.
  - lia.
  - cbn [List.length]. rewrite !app_length. lia.
  - destruct (bare_value fuel z1 (pre ++ 63%N :: g ++ w ++ g1) p cv (json_like t) w' v g2 after (marker_after (63%N :: g ++ w ++ g1) M) A1 (T ++ TKey :: tree_toks t')
      (impossible k) ks s0 im true d FV AT1 G2 CL) as (z2 & A2 & fs2 & v' & R2 & AT2 & FS & VL & CV & LV).
    + auto.
    + reflexivity.
    + unfold implicit_pair. now rewrite andb_false_r.
    + exact CVI.
    + exact BL.
    + destruct FN as (_ & _ & RM & _). apply (roomy_question p g (w ++ g1)); auto. apply roomy_app; [exact RM|now apply roomy_gap].
    + lia.
    + rewrite !app_length. cbn [List.length]. rewrite !app_length. lia.
    + rewrite (FS eq_refl) in AT2. exists z2, A2, t', v'. split; [eapply reach_trans; eauto|].
      split; [|split; [exact LK|split; [exact VL|]]].
      * replace (63%N :: g ++ w ++ g1 ++ 58%N :: w' ++ g2) with ((63%N :: g ++ w ++ g1) ++ 58%N :: w' ++ g2)
          by (cbn [app]; now rewrite <- !app_assoc). rewrite marker_after_app.
        rewrite <- !app_assoc in AT2. rewrite <- ?app_assoc. exact AT2.
      * destruct SM as [S1 S2]. split; [constructor; [exact I|]; apply Forall_app; split; assumption|].
        cbn [List.length]. rewrite !app_length. cbn [List.length]. lia.
Qed.
Lemma fitem_key p g w t : flow_gap p g -> g <> [] -> fnode p true w t -> fitem p (63%N :: g ++ w) (IPair t VAbsent).
Proof.
  intros G NE FN. pose proof FN as (OP & FT & RM & _). split; [apply opens_question|]. split; [split; [exact FT|exact I]|]. split; [now apply roomy_question|].
  intros fuel z pre g2 after M T k ks s0 im fs d AT G2 CL ID BL C DL F.
  lns.
  destruct (question_key fuel z pre p true g w t g2 after M true T k ks s0 (IPossible :: im) fs d G NE FN G2) as (z1 & A1 & t' & R1 & AT1 & LK & SM & _).
  - now apply closer_after.
  - now apply closer_apart.
  - cbn [app] in AT; rewrite <- app_assoc in AT. exact AT.
  - exact ID.
  - reflexivity.
  - exact BL.
  - exact C.
  - lia.
  - cbn [List.length]. rewrite !app_length. lia.
  - exists z1, A1, true, false, (T ++ TKey :: tree_toks t'), (IPair t' VAbsent), (impossible k). split; [exact R1|]. cbn [app] in *. rewrite <- !app_assoc. cbn [app].
    split; [exact AT1|]. split; [cbn [item_toks value_toks]; now rewrite !app_nil_r|]. split; [apply idle_impossible|]. split; [auto|].
    split; [apply item_pair; [exact LK|constructor]|]. cbn [item_toks value_toks]. rewrite app_nil_r.
    destruct SM as [S1 S2]. split; [constructor; [exact I|exact S1]|]. cbn [List.length]. rewrite app_length. lia.
Qed.
Lemma fitem_key_value p g w t g1 w' v : flow_gap p g -> g <> [] -> fnode p true w t -> flow_gap p g1 -> apart t g1 -> (collection t = true -> ~ In 10%N g1) ->
  fvalue p true (json_like t) w' v -> fitem p (63%N :: g ++ w ++ g1 ++ 58%N :: w') (IPair t v).
Proof.
  intros G NE FN G1 NP NL FV. pose proof FN as (OP & FT & RM & _). pose proof FV as (VF & _ & RV & _). split; [apply opens_question|]. split; [split; assumption|].
  split; [apply roomy_question; [exact G|]; apply roomy_app; [exact RM|]; apply roomy_app; [now apply roomy_gap|]; apply roomy_cons; [discriminate|exact RV]|].
  intros fuel z pre g2 after M T k ks s0 im fs d AT G2 CL ID BL C DL F.
  destruct (question_pair fuel z pre p true true g w t g1 w' v g2 after M true T k ks s0 (IPossible :: im) fs d G NE FN G1 NP NL FV G2 CL) as (z1 & A1 & t' & v' & R1 & AT1 & LK & VL & SM).
  - repeat (rewrite <- ?app_assoc in AT; cbn [app] in AT). exact AT.
  - exact ID.
  - reflexivity.
  - reflexivity.
  - exact BL.
  - exact C.
  - exact DL.
  - repeat (rewrite <- ?app_assoc in F; cbn [app] in F). exact F.
  - exists z1, A1, true, false, (T ++ TKey :: tree_toks t' ++ value_toks tree_toks v'), (IPair t' v'), (impossible k). split; [exact R1|].
    repeat (rewrite <- ?app_assoc; cbn [app]). split; [exact AT1|]. split; [cbn [item_toks]; now rewrite !app_nil_r|]. split; [apply idle_impossible|]. split; [auto|].
    split; [now apply item_pair|]. exact SM.
Qed.

(** An item and the comma behind it. *)
Lemma comma_closer r : closer (44%N :: r).
Proof. exists 44%N, r. split; [reflexivity|]. cbn. auto. Qed.
Lemma item_comma fuel z pre p w i g g1 rest M T k ks s0 im fs d : fitem p w i -> flow_gap p g -> flow_gap p g1 -> begins (nth 0 rest 0%N) ->
  FlowAt z pre (w ++ g ++ 44%N :: g1 ++ rest) M true T (k :: ks) (N.of_nat p) s0 (IPossible :: im) fs (S d) -> idle k ->
  blocky s0 -> (N.of_nat p < m_col M)%N -> (N.of_nat (S d + List.length w) < 4294967295)%N ->
  List.length pre + List.length (w ++ g ++ 44%N :: g1) + 8 < fuel ->
  exists z' fs' i' k', reach fuel z z' /\
    FlowAt z' (pre ++ w ++ g ++ 44%N :: g1) rest (marker_after (w ++ g ++ 44%N :: g1) M) true (T ++ item_toks tree_toks i' ++ [TFlowEntry])
      (k' :: ks) (N.of_nat p) s0 (IPossible :: im) fs' (S d) /\ idle k' /\
    (fs = true -> fs' = true) /\ item_like i i' /\ small w (item_toks tree_toks i').
Proof.
  intros (OP & FI & RM & H) G G1 B AT ID BL C DL F. rewrite !app_length in F. cbn [List.length] in F.
  destruct (H fuel z pre g (44%N :: g1 ++ rest) M T k ks s0 im fs d AT G (comma_closer _) ID BL C DL) as (z1 & A1 & fs1 & pd & T1 & i' & k1 & R1 & AT1 & ET & ID1 & FS & LK & SM).
  { rewrite app_length. lia. }
  destruct (flow_comma fuel z1 (pre ++ w ++ g) g1 rest (marker_after (w ++ g) M) A1 T1 k1 ks p s0 ((if pd then IInside else IPossible) :: im) fs1 (S d) AT1 G1 B) as (z2 & R2 & AT2).
  - discriminate.
  - exact ID1.
  - rewrite marker_after_app. apply flow_gap_col; [exact G|]. now apply RM.
  - rewrite !app_length. lia.
  - exists z2, (if pd then false else fs1), i', (impossible k1). split; [eapply reach_trans; [exact R1|apply reach_one; exact R2]|].
    split.
    + replace (w ++ g ++ 44%N :: g1) with ((w ++ g) ++ 44%N :: g1) by (now rewrite <- app_assoc). rewrite marker_after_app.
      replace (T ++ item_toks tree_toks i' ++ [TFlowEntry]) with (T1 ++ pending ((if pd then IInside else IPossible) :: im) ++ [TFlowEntry]).
      * rewrite <- !app_assoc in AT2. rewrite <- !app_assoc. destruct pd; exact AT2.
      * rewrite app_assoc. replace (pending ((if pd then IInside else IPossible) :: im)) with (if pd then [TFlowMappingEnd] else []) by (now destruct pd).
        rewrite ET. now rewrite <- app_assoc.
    + split; [apply idle_impossible|]. split; [|split; [exact LK|exact SM]]. intros E. destruct (FS E) as [-> ->]. reflexivity.
Qed.
Lemma quiet_comma p g x : flow_gap p g -> ~ In (nth 0 (g ++ 44%N :: x) 32%N) [45; 46]%N.
Proof. intros G. eapply gap_quiet; [exact G|]. cbn. intuition discriminate. Qed.
Lemma quiet_gap p g : flow_gap p g -> ~ In (nth 0 g 32%N) [45; 46]%N.
Proof. intros G. rewrite <- (app_nil_r g). eapply gap_quiet; [exact G|]. cbn. intuition discriminate. Qed.
Lemma begins_sign b : In b [44; 93; 125; 58]%N -> begins b.
Proof. unfold begins. cbn. intros [<-|[<-|[<-|[<-|[]]]]]; intuition discriminate. Qed.
Lemma square_closer y : closer (93%N :: y).
Proof. exists 93%N, y. split; [reflexivity|]. cbn. auto. Qed.
Lemma curly_closer y : closer (125%N :: y).
Proof. exists 125%N, y. split; [reflexivity|]. cbn. auto. Qed.
Lemma roomy_comma p w g g1 w' : roomy p w -> flow_gap p g -> flow_gap p g1 -> roomy p w' -> roomy p (w ++ g ++ 44%N :: g1 ++ w').
Proof.
  intros W G G1 W'. apply roomy_app; [exact W|]. apply roomy_app; [now apply roomy_gap|]. apply roomy_cons; [discriminate|].
  apply roomy_app; [now apply roomy_gap|exact W'].
Qed.
Lemma fitems_last p w i g : fitem p w i -> flow_gap p g -> fitems p (w ++ g) [i] false.
Proof.
  intros (OP & FI & RM & H) G. split; [apply opens_app; [exact OP|now apply (quiet_gap p)]|]. split; [split; [exact FI|exact I]|]. split; [discriminate|].
  split; [apply roomy_app; [exact RM|now apply roomy_gap]|].
  intros fuel z pre y M T k ks s0 im fs d AT ID BL C DL F. rewrite <- app_assoc in AT. rewrite app_length in *.
  destruct (H fuel z pre g (93%N :: y) M T k ks s0 im fs d AT G (square_closer y) ID BL C) as (z1 & A1 & fs1 & pd & T1 & i' & k1 & R1 & AT1 & ET & ID1 & FS & LK & SM).
  - lia.
  - rewrite app_length. lia.
  - exists z1, A1, fs1, pd, T1, [i'], k1. split; [exact R1|]. split; [exact AT1|]. cbn [commas trail]. rewrite app_nil_r. split; [exact ET|]. split; [exact ID1|].
    split; [exact FS|]. split; [constructor; [exact LK|constructor]|]. now apply small_gap.
Qed.
Lemma fitems_comma p w i g g1 : fitem p w i -> flow_gap p g -> flow_gap p g1 -> fitems p (w ++ g ++ 44%N :: g1) [i] true.
Proof.
  intros FT G G1. pose proof FT as (OP & FI & RM & _).
  split; [apply opens_app; [exact OP|now apply (quiet_comma p)]|]. split; [split; [exact FI|exact I]|]. split; [discriminate|].
  split; [rewrite <- (app_nil_r g1); apply roomy_comma; [exact RM|exact G|exact G1|apply roomy_nil]|].
  intros fuel z pre y M T k ks s0 im fs d AT ID BL C DL F. rewrite !app_length in DL. cbn [List.length] in DL.
  destruct (item_comma fuel z pre p w i g g1 (93%N :: y) M T k ks s0 im fs d FT G G1) as (z1 & fs1 & i' & k1 & R1 & AT1 & ID1 & FS & LK & SM).
  - apply begins_sign. cbn. auto.
  - repeat (rewrite <- ?app_assoc in AT; cbn [app] in AT). exact AT.
  - exact ID.
  - exact BL.
  - exact C.
  - lia.
  - exact F.
  - exists z1, true, fs1, false, (T ++ item_toks tree_toks i' ++ [TFlowEntry]), [i'], k1. split; [exact R1|]. split; [exact AT1|]. cbn [commas trail].
    split; [now rewrite app_nil_r|]. split; [exact ID1|]. split; [auto|]. split; [constructor; [exact LK|constructor]|].
    destruct SM as [S1 S2]. split; [apply Forall_app; split; [exact S1|repeat constructor]|]. rewrite !app_length. cbn [List.length]. lia.
Qed.
Lemma commas_more {A} (f : A -> list token_type) x l : l <> [] -> commas f (x :: l) = f x ++ TFlowEntry :: commas f l.
Proof. destruct l; [congruence|reflexivity]. Qed.
Lemma fitems_more p w i g g1 w' l b : fitem p w i -> flow_gap p g -> flow_gap p g1 -> fitems p w' l b ->
  fitems p (w ++ g ++ 44%N :: g1 ++ w') (i :: l) b.
Proof.
  intros FT G G1 (OP' & FI' & NE & RM' & H'). pose proof FT as (OP & FI & RM & _).
  split; [apply opens_app; [exact OP|now apply (quiet_comma p)]|]. split; [split; [exact FI|exact FI']|]. split; [discriminate|].
  split; [now apply roomy_comma|].
  intros fuel z pre y M T k ks s0 im fs d AT ID BL C DL F. lns.
  destruct (item_comma fuel z pre p w i g g1 (w' ++ 93%N :: y) M T k ks s0 im fs d FT G G1) as (z1 & fs1 & i' & k1 & R1 & AT1 & ID1 & FS & LK & SM).
  - now apply opens_begins.
  - repeat (rewrite <- ?app_assoc in AT; cbn [app] in AT). exact AT.
  - exact ID.
  - exact BL.
  - exact C.
  - lia.
  - rewrite !app_length. cbn [List.length]. lia.
  - destruct (H' fuel z1 _ y _ _ k1 ks s0 im fs1 d AT1 ID1 BL) as (z2 & A2 & fs2 & pd & T2 & l' & k2 & R2 & AT2 & ET & ID2 & FS2 & LK2 & SM2).
    + rewrite <- (app_nil_r g1). apply roomy_comma; [exact RM|exact G|exact G1|apply roomy_nil|exact C].
    + lia.
    + rewrite !app_length. cbn [List.length]. lia.
    + exists z2, A2, fs2, pd, T2, (i' :: l'), k2. split; [eapply reach_trans; eauto|].
      split; [rewrite <- marker_after_app in AT2; repeat (rewrite <- ?app_assoc in AT2; cbn [app] in AT2); exact AT2|].
      assert (NE' : l' <> []) by (destruct LK2; congruence).
      rewrite commas_more by exact NE'. split; [rewrite ET; repeat (rewrite <- ?app_assoc; cbn [app]); reflexivity|]. split; [exact ID2|].
      split; [auto|]. split; [now constructor|].
      destruct SM as [S1 S2], SM2 as [S3 S4]. repeat (rewrite <- ?app_assoc; cbn [app]). split.
      * apply Forall_app. split; [exact S1|]. constructor; [exact I|exact S3].
      * rewrite !app_length in *. cbn [List.length]. rewrite !app_length. lia.
Qed.

(** ** Entries *)
Lemma fentry_pair p c w t g w' v : fnode p c w t -> flow_gap p g -> apart t g -> (collection t = true -> ~ In 10%N g) -> fvalue p c (json_like t) w' v ->
  fentry p c (w ++ g ++ 58%N :: w') (KNode t, v).
Proof.
  intros (OP & FT & RM & H) G NP NL FV. pose proof FV as (VF & NA & RV & _ & _).
  split; [apply opens_app; [exact OP|now apply (quiet_colon p)]|]. split; [split; [exact I|split; assumption]|].
  split; [apply roomy_app; [exact RM|apply roomy_app; [now apply roomy_gap|apply roomy_cons; [discriminate|exact RV]]]|].
  intros fuel z pre g2 after M T k ks s0 im d AT G2 CL ID PK CI BL C DL F. lns.
  replace ((w ++ g ++ 58%N :: w') ++ g2 ++ after) with (w ++ g ++ 58%N :: w' ++ g2 ++ after) in AT by (now rewrite <- !app_assoc).
  destruct (H fuel z pre g (58%N :: w' ++ g2 ++ after) M true T k ks s0 im true d AT G) as (z1 & A1 & fs1 & t' & R1 & AT1 & FS1 & LK & SM1 & AD).
  - eapply value_after; eauto.
  - now apply colon_apart.
  - exact ID.
  - exact CI.
  - exact BL.
  - exact C.
  - lia.
  - rewrite app_length. lia.
  - rewrite (FS1 eq_refl) in AT1.
    assert (IP : implicit_pair im true = false) by (unfold implicit_pair; now rewrite andb_false_r).
    destruct (key_value fuel z1 (pre ++ w ++ g) p c (json_like t) w' v g2 after (marker_after (w ++ g) M) A1 T (tree_toks t')
      (kept_key true (List.length T) M k) ks s0 im true d FV AT1 G2 CL) as (z2 & A2 & fs2 & v' & R2 & AT2 & FS2 & VL & CV & LV).
    + intros J. now apply AD.
    + reflexivity.
    + reflexivity.
    + rewrite IP. discriminate.
    + unfold inside_pair. rewrite IP. exact CI.
    + exact BL.
    + rewrite marker_after_app. apply flow_gap_col; [exact G|]. now apply RM.
    + lia.
    + rewrite !app_length. cbn [List.length]. rewrite app_length. lia.
    + rewrite (FS2 eq_refl) in AT2. exists z2, A2, (KNode t', v'), (impossible (kept_key true (List.length T) M k)).
      unfold inside_pair in AT2. rewrite IP in AT2. cbn [app] in AT2.
      split; [eapply reach_trans; eauto|]. split; [rewrite <- marker_after_app, <- !app_assoc in AT2; rewrite <- !app_assoc; exact AT2|].
      split; [apply idle_impossible|]. split; [split; [now constructor|exact VL]|].
      cbn [pair_toks key_toks app]. destruct SM1 as [S1 S2]. split; [constructor; [exact I|]; apply Forall_app; split; assumption|].
      cbn [List.length]. rewrite !app_length. cbn [List.length]. lia.
Qed.
Lemma fentry_bare p c w t : fnode p c w t -> fentry p c w (KBare t, VAbsent).
Proof.
  intros (OP & FT & RM & H). split; [exact OP|]. split; [split; [exact I|split; [exact FT|exact I]]|]. split; [exact RM|].
  intros fuel z pre g after M T k ks s0 im d AT G CL ID PK CI BL C DL F.
  destruct (H fuel z pre g after M true T k ks s0 im true d AT G (closer_after _ _ CL) (closer_apart t g after CL) ID CI BL C DL F) as (z' & A' & fs' & t' & R & AT' & FS & LK & SM & _).
  rewrite (FS eq_refl) in AT'. exists z', A', (KBare t', VAbsent), (kept_key true (List.length T) M k). split; [exact R|].
  cbn [pair_toks key_toks value_toks]. rewrite app_nil_r. split; [exact AT'|].
  split; [now apply idle_kept|]. split; [split; [now constructor|constructor]|exact SM].
Qed.
Lemma opens_colon r : opens (58%N :: r).
Proof. apply opens_sign; try discriminate. exact begins_colon. Qed.
Lemma fentry_no_key p c w v : fvalue p c false w v -> fentry p c (58%N :: w) (KNone, v).
Proof.
  intros FV. pose proof FV as (VF & NA & RV & _ & _). split; [apply opens_colon|]. split; [split; [destruct v; [congruence|exact I|exact I]|split; [exact I|exact VF]]|].
  split; [apply roomy_cons; [discriminate|exact RV]|].
  intros fuel z pre g after M T k ks s0 im d AT G CL ID PK CI BL C DL F. cbn [app List.length] in *. 
  destruct (bare_value fuel z pre p c false w v g after M true T k ks s0 im true d FV AT G CL) as (z2 & A2 & fs2 & v' & R2 & AT2 & FS & VL & CV & LV).
  - discriminate.
  - exact PK.
  - unfold implicit_pair. now rewrite andb_false_r.
  - exact CI.
  - exact BL.
  - exact C.
  - lia.
  - exact F.
  - rewrite (FS eq_refl) in AT2. exists z2, A2, (KNone, v'), k. split; [exact R2|]. cbn [pair_toks key_toks app]. split; [exact AT2|]. split; [exact ID|].
    split; [split; [constructor|exact VL]|]. split; [exact CV|]. cbn [List.length]. lia.
Qed.
Lemma fentry_empty p c g : flow_gap p g -> g <> [] -> fentry p c (63%N :: g) (KEmpty, VAbsent).
Proof.
  intros G NE. split; [apply opens_question|]. split; [repeat split|]. split; [rewrite <- (app_nil_r g); apply roomy_question; [exact G|apply roomy_nil]|].
  intros fuel z pre g2 after M T k ks s0 im d AT G2 CL ID PK CI BL C DL F. cbn [app List.length] in *. rewrite app_assoc in AT. rewrite app_length in F.
  destruct (flow_question fuel z pre (g ++ g2) after M true T k ks p s0 im true (S d) AT) as (z1 & R1 & AT1).
  - now apply flow_gap_app.
  - destruct g; [congruence|discriminate].
  - now apply begins_close.
  - discriminate.
  - exact ID.
  - exact C.
  - rewrite app_length. lia.
  - exists z1, false, (KEmpty, VAbsent), (impossible k). split; [now apply reach_one|]. split; [exact AT1|]. split; [apply idle_impossible|].
    split; [split; constructor|]. split; [repeat constructor|cbn; lia].
Qed.
Lemma fentry_empty_value p c g w v : flow_gap p g -> g <> [] -> fvalue p c false w v -> fentry p c (63%N :: g ++ 58%N :: w) (KEmpty, v).
Proof.
  intros G NE FV. pose proof FV as (VF & NA & RV & _ & _). split; [apply opens_question|]. split; [split; [exact I|split; [exact I|exact VF]]|].
  split; [apply roomy_question; [exact G|]; apply roomy_cons; [discriminate|exact RV]|].
  intros fuel z pre g2 after M T k ks s0 im d AT G2 CL ID PK CI BL C DL F.
  replace ((63%N :: g ++ 58%N :: w) ++ g2 ++ after) with (63%N :: g ++ 58%N :: w ++ g2 ++ after) in AT by (cbn [app]; now rewrite <- !app_assoc). lns.
  destruct (flow_question fuel z pre g (58%N :: w ++ g2 ++ after) M true T k ks p s0 im true (S d) AT G NE) as (z1 & R1 & AT1).
  - exact begins_colon.
  - discriminate.
  - exact ID.
  - exact C.
  - lia.
  - destruct (bare_value fuel z1 (pre ++ 63%N :: g) p c false w v g2 after (marker_after (63%N :: g) M) false (T ++ [TKey]) (impossible k) ks s0 im true d FV AT1 G2 CL)
      as (z2 & A2 & fs2 & v' & R2 & AT2 & FS & VL & CV & LV).
    + discriminate.
    + reflexivity.
    + unfold implicit_pair. now rewrite andb_false_r.
    + exact CI.
    + exact BL.
    + rewrite marker_first by discriminate. apply flow_gap_col; [exact G|]. unfold mark_add. cbn [Base.m_col]. lia.
    + lia.
    + rewrite !app_length. cbn [List.length]. rewrite app_length. lia.
    + rewrite (FS eq_refl) in AT2. exists z2, A2, (KEmpty, v'), (impossible k). split; [eapply reach_trans; [apply reach_one; exact R1|exact R2]|].
      cbn [pair_toks key_toks app]. split; [|split; [apply idle_impossible|split; [split; [constructor|exact VL]|split; [constructor; [exact I|exact CV]|]]]].
      * replace (63%N :: (g ++ 58%N :: w) ++ g2) with ((63%N :: g) ++ 58%N :: w ++ g2) by (cbn [app]; now rewrite <- !app_assoc).
        rewrite marker_after_app. rewrite <- !app_assoc in AT2. exact AT2.
      * cbn [List.length]. rewrite !app_length. cbn [List.length]. lia.
Qed.
Lemma fentry_key p c g w t : flow_gap p g -> g <> [] -> fnode p c w t -> fentry p c (63%N :: g ++ w) (KNode t, VAbsent).
Proof.
  intros G NE FN. pose proof FN as (OP & FT & RM & _). split; [apply opens_question|]. split; [split; [exact I|split; [exact FT|exact I]]|]. split; [now apply roomy_question|].
  intros fuel z pre g2 after M T k ks s0 im d AT G2 CL ID PK CI BL C DL F. lns.
  destruct (question_key fuel z pre p c g w t g2 after M true T k ks s0 im true d G NE FN G2) as (z1 & A1 & t' & R1 & AT1 & LK & SM & _).
  - now apply closer_after.
  - now apply closer_apart.
  - cbn [app] in AT. rewrite <- app_assoc in AT. exact AT.
  - exact ID.
  - exact CI.
  - exact BL.
  - exact C.
  - lia.
  - cbn [List.length]. rewrite !app_length. lia.
  - exists z1, A1, (KNode t', VAbsent), (impossible k). split; [exact R1|]. cbn [app pair_toks key_toks value_toks] in *. rewrite app_nil_r, <- !app_assoc.
    split; [exact AT1|]. split; [apply idle_impossible|].
    split; [split; [now constructor|constructor]|].
    destruct SM as [S1 S2]. split; [constructor; [exact I|exact S1]|]. cbn [List.length]. rewrite app_length. lia.
Qed.
Lemma fentry_key_value p c g w t g1 w' v : flow_gap p g -> g <> [] -> fnode p c w t -> flow_gap p g1 -> apart t g1 -> (collection t = true -> ~ In 10%N g1) ->
  fvalue p c (json_like t) w' v -> fentry p c (63%N :: g ++ w ++ g1 ++ 58%N :: w') (KNode t, v).
Proof.
  intros G NE FN G1 NP NL FV. pose proof FN as (OP & FT & RM & _). pose proof FV as (VF & _ & RV & _). split; [apply opens_question|]. split; [split; [exact I|split; assumption]|].
  split; [apply roomy_question; [exact G|]; apply roomy_app; [exact RM|]; apply roomy_app; [now apply roomy_gap|]; apply roomy_cons; [discriminate|exact RV]|].
  intros fuel z pre g2 after M T k ks s0 im d AT G2 CL ID PK CI BL C DL F.
  destruct (question_pair fuel z pre p c c g w t g1 w' v g2 after M true T k ks s0 im true d G NE FN G1 NP NL FV G2 CL) as (z1 & A1 & t' & v' & R1 & AT1 & LK & VL & SM).
  - repeat (rewrite <- ?app_assoc in AT; cbn [app] in AT). exact AT.
  - exact ID.
  - exact CI.
  - exact CI.
  - exact BL.
  - exact C.
  - exact DL.
  - repeat (rewrite <- ?app_assoc in F; cbn [app] in F). exact F.
  - exists z1, A1, (KNode t', v'), (impossible k). split; [exact R1|].
    repeat (rewrite <- ?app_assoc; cbn [app]). split; [exact AT1|]. split; [apply idle_impossible|].
    split; [split; [now constructor|exact VL]|]. exact SM.
Qed.

(** An entry and the comma behind it. *)
Lemma entry_comma fuel z pre p w x g g1 rest M T k ks s0 im d : fentry p true w x -> flow_gap p g -> flow_gap p g1 -> begins (nth 0 rest 0%N) ->
  FlowAt z pre (w ++ g ++ 44%N :: g1 ++ rest) M true T (k :: ks) (N.of_nat p) s0 im true (S d) -> idle k -> sk_possible k = false ->
  hd IPossible im = IPossible ->
  blocky s0 -> (N.of_nat p < m_col M)%N -> (N.of_nat (S d + List.length w) < 4294967295)%N ->
  List.length pre + List.length (w ++ g ++ 44%N :: g1) + 8 < fuel ->
  exists z' x' k', reach fuel z z' /\
    FlowAt z' (pre ++ w ++ g ++ 44%N :: g1) rest (marker_after (w ++ g ++ 44%N :: g1) M) true (T ++ pair_toks tree_toks x' ++ [TFlowEntry])
      (impossible k' :: ks) (N.of_nat p) s0 im true (S d) /\
    pair_like x x' /\ small w (pair_toks tree_toks x').
Proof.
  intros (OP & FI & RM & H) G G1 B AT ID PK CI BL C DL F. rewrite !app_length in F. cbn [List.length] in F.
  destruct (H fuel z pre g (44%N :: g1 ++ rest) M T k ks s0 im d AT G (comma_closer _) ID PK (fun _ => CI) BL C DL) as (z1 & A1 & x' & k1 & R1 & AT1 & ID1 & LK & SM).
  { rewrite app_length. lia. }
  destruct (flow_comma fuel z1 (pre ++ w ++ g) g1 rest (marker_after (w ++ g) M) A1 _ k1 ks p s0 im true (S d) AT1 G1 B) as (z2 & R2 & AT2).
  - discriminate.
  - exact ID1.
  - rewrite marker_after_app. apply flow_gap_col; [exact G|]. now apply RM.
  - rewrite !app_length. lia.
  - exists z2, x', k1. split; [eapply reach_trans; [exact R1|apply reach_one; exact R2]|].
    split; [|split; [exact LK|exact SM]].
    replace (w ++ g ++ 44%N :: g1) with ((w ++ g) ++ 44%N :: g1) by (now rewrite <- app_assoc). rewrite marker_after_app.
    assert (P : pending im = [] /\ ended im = im /\ kept_started im true = true) by (destruct im as [|[|] im]; cbn in *; [auto|auto|discriminate]).
    destruct P as (-> & E2 & E3) in AT2. rewrite E2, E3 in AT2. cbn [app] in AT2. rewrite <- !app_assoc in AT2. rewrite <- !app_assoc. exact AT2.
Qed.
Lemma fentries_last p c w x g : fentry p c w x -> flow_gap p g -> fentries p c (w ++ g) [x] false.
Proof.
  intros (OP & FI & RM & H) G. split; [apply opens_app; [exact OP|now apply (quiet_gap p)]|]. split; [split; [exact FI|exact I]|]. split; [discriminate|].
  split; [apply roomy_app; [exact RM|now apply roomy_gap]|].
  intros fuel z pre y M T k ks s0 im d AT ID PK CI BL C DL F. rewrite <- app_assoc in AT. rewrite app_length in *.
  destruct (H fuel z pre g (125%N :: y) M T k ks s0 im d AT G (curly_closer y) ID PK CI BL C) as (z1 & A1 & x' & k1 & R1 & AT1 & ID1 & LK & SM).
  - lia.
  - rewrite app_length. lia.
  - exists z1, A1, [x'], k1. split; [exact R1|]. cbn [commas trail]. rewrite app_nil_r. split; [exact AT1|]. split; [exact ID1|].
    split; [constructor; [exact LK|constructor]|]. now apply small_gap.
Qed.
Lemma fentries_comma p w x g g1 : fentry p true w x -> flow_gap p g -> flow_gap p g1 -> fentries p true (w ++ g ++ 44%N :: g1) [x] true.
Proof.
  intros FT G G1. pose proof FT as (OP & FI & RM & _).
  split; [apply opens_app; [exact OP|now apply (quiet_comma p)]|]. split; [split; [exact FI|exact I]|]. split; [discriminate|].
  split; [rewrite <- (app_nil_r g1); apply roomy_comma; [exact RM|exact G|exact G1|apply roomy_nil]|].
  intros fuel z pre y M T k ks s0 im d AT ID PK CI BL C DL F. rewrite !app_length in DL. cbn [List.length] in DL.
  destruct (entry_comma fuel z pre p w x g g1 (125%N :: y) M T k ks s0 im d FT G G1) as (z1 & x' & k1 & R1 & AT1 & LK & SM).
  - apply begins_sign. cbn. auto.
  - repeat (rewrite <- ?app_assoc in AT; cbn [app] in AT). exact AT.
  - exact ID.
  - exact PK.
  - now apply CI.
  - exact BL.
  - exact C.
  - lia.
  - exact F.
  - exists z1, true, [x'], (impossible k1). split; [exact R1|]. cbn [commas trail]. split; [exact AT1|].
    split; [apply idle_impossible|]. split; [constructor; [exact LK|constructor]|].
    destruct SM as [S1 S2]. split; [apply Forall_app; split; [exact S1|repeat constructor]|]. rewrite !app_length. cbn [List.length]. lia.
Qed.
Lemma fentries_more p w x g g1 w' l b : fentry p true w x -> flow_gap p g -> flow_gap p g1 -> fentries p true w' l b ->
  fentries p true (w ++ g ++ 44%N :: g1 ++ w') (x :: l) b.
Proof.
  intros FT G G1 (OP' & FI' & NE & RM' & H'). pose proof FT as (OP & FI & RM & _).
  split; [apply opens_app; [exact OP|now apply (quiet_comma p)]|]. split; [split; [exact FI|exact FI']|]. split; [discriminate|].
  split; [now apply roomy_comma|].
  intros fuel z pre y M T k ks s0 im d AT ID PK CI BL C DL F. lns.
  destruct (entry_comma fuel z pre p w x g g1 (w' ++ 125%N :: y) M T k ks s0 im d FT G G1) as (z1 & x' & k1 & R1 & AT1 & LK & SM).
  - now apply opens_begins.
  - repeat (rewrite <- ?app_assoc in AT; cbn [app] in AT). exact AT.
  - exact ID.
  - exact PK.
  - now apply CI.
  - exact BL.
  - exact C.
  - lia.
  - rewrite !app_length. cbn [List.length]. lia.
  - destruct (H' fuel z1 _ y _ _ (impossible k1) ks s0 im d AT1 (idle_impossible k1) eq_refl CI BL) as (z2 & A2 & l' & k2 & R2 & AT2 & ID2 & LK2 & SM2).
    + rewrite <- (app_nil_r g1). apply roomy_comma; [exact RM|exact G|exact G1|apply roomy_nil|exact C].
    + lia.
    + rewrite !app_length. cbn [List.length]. lia.
    + exists z2, A2, (x' :: l'), k2. split; [eapply reach_trans; eauto|].
      assert (NE' : l' <> []) by (destruct LK2; congruence).
      rewrite commas_more by exact NE'.
      split; [rewrite <- marker_after_app in AT2; repeat (rewrite <- ?app_assoc in AT2; cbn [app] in AT2); repeat (rewrite <- ?app_assoc; cbn [app]); exact AT2|].
      split; [exact ID2|].
      split; [now constructor|].
      destruct SM as [S1 S2], SM2 as [S3 S4]. repeat (rewrite <- ?app_assoc; cbn [app]). split.
      * apply Forall_app. split; [exact S1|]. constructor; [exact I|exact S3].
      * rewrite !app_length in *. cbn [List.length]. rewrite !app_length. lia.
Qed.

(** ** Collections *)
(** The end of a collection. *)
Lemma node_close fuel z pre is_map w0 g after M M0 A T T1 k0 ks p s0 im0 im fs d t' :
  FlowAt z (pre ++ w0) (closing is_map :: g ++ after) M A T1 (k0 :: ks) (N.of_nat p) s0 im0 fs (S (S d)) -> flow_gap p g -> begins (nth 0 after 0%N) -> idle k0 ->
  M = marker_after w0 M0 -> (if is_map then im0 = im else tl im0 = im) ->
  T1 ++ (if is_map then [] else pending im0) ++ [closed is_map] = T ++ tree_toks t' ->
  (N.of_nat p < m_col M)%N -> List.length pre + List.length w0 + List.length g + 2 < fuel ->
  exists z', reach fuel z z' /\
    FlowAt z' (pre ++ (w0 ++ [closing is_map]) ++ g) after (marker_after ((w0 ++ [closing is_map]) ++ g) M0) false (T ++ tree_toks t') ks (N.of_nat p) s0 im
      (if is_map then fs else kept_started im0 fs) (S d) /\
    (~ In 10%N g -> z_adjacent z' = m_pos (marker_after ((w0 ++ [closing is_map]) ++ g) M0)).
Proof.
  intros AT G B ID -> EI ET C F.
  destruct (flow_close fuel z (pre ++ w0) is_map g after (marker_after w0 M0) A T1 k0 ks p s0 im0 fs (S d) AT G B) as (z1 & R1 & AT1 & AD).
  - discriminate.
  - exact ID.
  - exact C.
  - rewrite app_length. lia.
  - exists z1. split; [now apply reach_one|]. rewrite ET in AT1. rewrite <- marker_after_app in AT1, AD.
    replace ((w0 ++ [closing is_map]) ++ g) with (w0 ++ closing is_map :: g) by (now rewrite <- app_assoc).
    rewrite <- app_assoc in AT1. split; [|exact AD]. destruct is_map; rewrite EI in AT1; exact AT1.
Qed.
Lemma opening_opens is_map r : opens (opening is_map :: r).
Proof. apply opens_sign; destruct is_map; try discriminate; unfold begins; cbn; intuition discriminate. Qed.
Lemma closing_begins is_map x : begins (nth 0 (closing is_map :: x) 0%N).
Proof. destruct is_map; unfold begins; cbn; intuition discriminate. Qed.
Lemma opening_lf is_map : opening is_map <> 10%N.
Proof. destruct is_map; discriminate. Qed.
Lemma closing_flat is_map : ~ In 10%N [closing is_map].
Proof. destruct is_map; cbn; intuition discriminate. Qed.
Lemma roomy_open p is_map g w : flow_gap p g -> roomy p w -> roomy p (opening is_map :: g ++ w ++ [closing is_map]).
Proof.
  intros G W. apply roomy_cons; [apply opening_lf|]. apply roomy_app; [now apply roomy_gap|]. apply roomy_app; [exact W|]. apply roomy_flat, closing_flat.
Qed.
Lemma roomy_start p is_map g : flow_gap p g -> roomy p (opening is_map :: g).
Proof. intros G. apply roomy_cons; [apply opening_lf|]. now apply roomy_gap. Qed.
Lemma idle_new m : idle (skey_new m).
Proof. intros H. discriminate. Qed.
Lemma fnode_no_items p c g0 : flow_gap p g0 -> fnode p c (91%N :: g0 ++ [93%N]) (TrFlowSeq no_props [] false).
Proof.
  intros G0. split; [apply (opening_opens false)|]. split; [cbn; auto|]. split; [apply (roomy_open p false g0 []); [exact G0|apply roomy_nil]|].
  intros fuel z pre g after M A T k ks s0 im fs d AT G AF AP ID CI BL C DL F. lns.
  replace ((91%N :: g0 ++ [93%N]) ++ g ++ after) with (91%N :: g0 ++ 93%N :: g ++ after) in AT by (cbn [app]; now rewrite <- !app_assoc).
  destruct (flow_open fuel z pre false g0 (93%N :: g ++ after) M A T k ks p s0 im fs (S d) AT) as (z1 & R1 & AT1).
  - discriminate.
  - exact G0.
  - apply (closing_begins false).
  - exact C.
  - lia.
  - lia.
  - destruct (node_close fuel z1 pre false (91%N :: g0) g after (marker_after (91%N :: g0) M) M true T _ _ _ p s0 _ im _ d (TrFlowSeq no_props [] false) AT1 G)
      as (z2 & R2 & AT2 & AD).
    + eapply flow_after_begins; eauto.
    + apply idle_new.
    + reflexivity.
    + reflexivity.
    + cbn [pending]. now rewrite <- app_assoc.
    + apply (roomy_start p false); assumption.
    + cbn [List.length]. lia.
    + exists z2, false, fs, (TrFlowSeq no_props [] false). split; [eapply reach_trans; [apply reach_one; exact R1|exact R2]|]. split; [exact AT2|]. split; [auto|].
      split; [apply like_refl|]. split; [split; [repeat constructor|cbn; lia]|]. intros _ NL. apply AD. now apply NL.
Qed.
Lemma fnode_no_entries p c g0 : flow_gap p g0 -> fnode p c (123%N :: g0 ++ [125%N]) (TrFlowMap no_props [] false).
Proof.
  intros G0. split; [apply (opening_opens true)|]. split; [cbn; auto|]. split; [apply (roomy_open p true g0 []); [exact G0|apply roomy_nil]|].
  intros fuel z pre g after M A T k ks s0 im fs d AT G AF AP ID CI BL C DL F. lns.
  replace ((123%N :: g0 ++ [125%N]) ++ g ++ after) with (123%N :: g0 ++ 125%N :: g ++ after) in AT by (cbn [app]; now rewrite <- !app_assoc).
  destruct (flow_open fuel z pre true g0 (125%N :: g ++ after) M A T k ks p s0 im fs (S d) AT) as (z1 & R1 & AT1).
  - discriminate.
  - exact G0.
  - apply (closing_begins true).
  - exact C.
  - lia.
  - lia.
  - destruct (node_close fuel z1 pre true (123%N :: g0) g after (marker_after (123%N :: g0) M) M true T _ _ _ p s0 _ im _ d (TrFlowMap no_props [] false) AT1 G)
      as (z2 & R2 & AT2 & AD).
    + eapply flow_after_begins; eauto.
    + apply idle_new.
    + reflexivity.
    + reflexivity.
    + now rewrite <- app_assoc.
    + apply (roomy_start p true); assumption.
    + cbn [List.length]. lia.
    + exists z2, false, true, (TrFlowMap no_props [] false). split; [eapply reach_trans; [apply reach_one; exact R1|exact R2]|]. split; [exact AT2|]. split; [auto|].
      split; [apply like_refl|]. split; [split; [repeat constructor|cbn; lia]|]. intros _ NL. apply AD. now apply NL.
Qed.
Lemma fnode_items p c g0 w l b : flow_gap p g0 -> fitems p w l b -> fnode p c (91%N :: g0 ++ w ++ [93%N]) (TrFlowSeq no_props l b).
Proof.
  intros G0 (OP & FI & NE & RM & H). split; [apply (opening_opens false)|]. split; [split; [exact FI|congruence]|]. split; [now apply (roomy_open p false g0 w)|].
  intros fuel z pre g after M A T k ks s0 im fs d AT G AF AP ID CI BL C DL F. lns.
  replace ((91%N :: g0 ++ w ++ [93%N]) ++ g ++ after) with (91%N :: g0 ++ w ++ 93%N :: g ++ after) in AT by (cbn [app]; now rewrite <- !app_assoc).
  destruct (flow_open fuel z pre false g0 (w ++ 93%N :: g ++ after) M A T k ks p s0 im fs (S d) AT) as (z1 & R1 & AT1).
  - discriminate.
  - exact G0.
  - now apply opens_begins.
  - exact C.
  - lia.
  - lia.
  - destruct (H fuel z1 _ (g ++ after) _ _ _ _ s0 im fs (S d) AT1 (idle_new _) BL) as (z2 & A2 & fs2 & pd & T2 & l' & k2 & R2 & AT2 & ET & ID2 & FS & LK & SM).
    + apply (roomy_start p false); assumption.
    + lia.
    + rewrite app_length. cbn [List.length opening]. lia.
    + rewrite <- marker_after_app in AT2. rewrite <- app_assoc in AT2.
      destruct (node_close fuel z2 pre false ((91%N :: g0) ++ w) g after (marker_after ((91%N :: g0) ++ w) M) M A2 T T2 k2 _ p s0 _ im fs2 d (TrFlowSeq no_props l' b) AT2 G)
        as (z3 & R3 & AT3 & AD).
      * eapply flow_after_begins; eauto.
      * exact ID2.
      * reflexivity.
      * reflexivity.
      * replace (pending ((if pd then IInside else IPossible) :: im)) with (if pd then [TFlowMappingEnd] else []) by (now destruct pd).
        rewrite app_assoc, ET. cbn [tree_toks closed opened props_toks pr_anchor pr_tag pr_tag_first no_props opt_list app]. repeat (rewrite <- ?app_assoc; cbn [app]). reflexivity.
      * apply roomy_app; [apply (roomy_start p false); assumption|exact RM|exact C].
      * rewrite app_length. cbn [List.length]. lia.
      * exists z3, false, (if pd then false else fs2), (TrFlowSeq no_props l' b).
        split; [eapply reach_trans; [apply reach_one; exact R1|eapply reach_trans; [exact R2|exact R3]]|].
        replace (91%N :: g0 ++ w ++ [93%N]) with (((91%N :: g0) ++ w) ++ [closing false]) by (cbn [app closing]; now rewrite <- app_assoc).
        split; [destruct pd; exact AT3|]. split; [intros E; destruct (FS E) as [-> ->]; reflexivity|]. split; [now apply like_flow_seq|].
        split; [|intros _ NL; apply AD; now apply NL].
        destruct SM as [S1 S2]. cbn [tree_toks props_toks pr_anchor pr_tag pr_tag_first no_props opt_list app]. rewrite app_assoc.
        split; [constructor; [exact I|]; apply Forall_app; split; [exact S1|repeat constructor]|].
        cbn [List.length]. rewrite (app_length _ [TFlowSequenceEnd]). rewrite !(app_length _ [closing false]), (app_length g0 w). cbn [List.length]. lia.
Qed.
Lemma fnode_entries p c g0 w l b : flow_gap p g0 -> fentries p c w l b -> fnode p c (123%N :: g0 ++ w ++ [125%N]) (TrFlowMap no_props l b).
Proof.
  intros G0 (OP & FI & NE & RM & H). split; [apply (opening_opens true)|]. split; [split; [exact FI|congruence]|]. split; [now apply (roomy_open p true g0 w)|].
  intros fuel z pre g after M A T k ks s0 im fs d AT G AF AP ID CI BL C DL F. lns.
  replace ((123%N :: g0 ++ w ++ [125%N]) ++ g ++ after) with (123%N :: g0 ++ w ++ 125%N :: g ++ after) in AT by (cbn [app]; now rewrite <- !app_assoc).
  destruct (flow_open fuel z pre true g0 (w ++ 125%N :: g ++ after) M A T k ks p s0 im fs (S d) AT) as (z1 & R1 & AT1).
  - discriminate.
  - exact G0.
  - now apply opens_begins.
  - exact C.
  - lia.
  - lia.
  - destruct (H fuel z1 _ (g ++ after) _ _ _ _ s0 im (S d) AT1 (idle_new _) eq_refl CI BL) as (z2 & A2 & l' & k2 & R2 & AT2 & ID2 & LK & SM).
    + apply (roomy_start p true); assumption.
    + lia.
    + rewrite app_length. cbn [List.length opening]. lia.
    + rewrite <- marker_after_app in AT2. rewrite <- app_assoc in AT2.
      destruct (node_close fuel z2 pre true ((123%N :: g0) ++ w) g after (marker_after ((123%N :: g0) ++ w) M) M A2 T _ k2 _ p s0 _ im true d (TrFlowMap no_props l' b) AT2 G)
        as (z3 & R3 & AT3 & AD).
      * eapply flow_after_begins; eauto.
      * exact ID2.
      * reflexivity.
      * reflexivity.
      * cbn [tree_toks closed opened props_toks pr_anchor pr_tag pr_tag_first no_props opt_list app]. repeat (rewrite <- ?app_assoc; cbn [app]). reflexivity.
      * apply roomy_app; [apply (roomy_start p true); assumption|exact RM|exact C].
      * rewrite app_length. cbn [List.length]. lia.
      * exists z3, false, true, (TrFlowMap no_props l' b).
        split; [eapply reach_trans; [apply reach_one; exact R1|eapply reach_trans; [exact R2|exact R3]]|].
        replace (123%N :: g0 ++ w ++ [125%N]) with (((123%N :: g0) ++ w) ++ [closing true]) by (cbn [app closing]; now rewrite <- app_assoc).
        split; [exact AT3|]. split; [reflexivity|]. split; [now apply like_flow_map|].
        split; [|intros _ NL; apply AD; now apply NL].
        destruct SM as [S1 S2]. cbn [tree_toks props_toks pr_anchor pr_tag pr_tag_first no_props opt_list app]. rewrite app_assoc.
        split; [constructor; [exact I|]; apply Forall_app; split; [exact S1|repeat constructor]|].
        cbn [List.length]. rewrite (app_length _ [TFlowMappingEnd]). rewrite !(app_length _ [closing true]), (app_length g0 w). cbn [List.length]. lia.
Qed.

(** ** Properties and aliases *)
Lemma opens_words w b r : w = b :: r -> (b = 38 \/ b = 42 \/ b = 33)%N -> opens w.
Proof. intros -> B. apply opens_sign; destruct B as [-> |[-> | ->]]; try discriminate; unfold begins; cbn; intuition discriminate. Qed.
Lemma gap_stop p g rest : flow_gap p g -> g <> [] -> In (nth 0 (g ++ rest) 0%N) (white_or_end ++ flow_signs).
Proof. intros G NE. destruct (flow_gap_first p g G) as [-> |(b & r & -> & B)]; [congruence|]. cbn [app nth]. apply in_or_app. left. cbn in *. tauto. Qed.
Lemma apart_stop p t g after : flow_gap p g -> match t with TrAlias _ | TrEmpty _ => True | _ => False end -> apart_at t g after ->
  In (nth 0 (g ++ after) 0%N) (white_or_end ++ flow_signs).
Proof.
  intros G K H. destruct g as [|b g]; [|now apply (gap_stop p)]. cbn [app]. apply in_or_app. right.
  assert (X : In (nth 0 after 0%N) [44; 93; 125]%N) by (destruct t; try contradiction; now apply H). revert X. generalize (nth 0 after 0%N). cbn. intros y Y. tauto.
Qed.
(** The words of the properties, in flow collections. *)
Lemma flow_props fuel z pre w pr rest M A T k ks p s0 im fs d : FlowAt z pre (w ++ rest) M A T (k :: ks) (N.of_nat p) s0 im fs d -> d <> 0 ->
  props_text false w pr -> In (nth 0 rest 0%N) (white_or_end ++ flow_signs) -> (N.of_nat p < m_col M)%N -> List.length pre + List.length w + 5 < fuel ->
  exists z', reach fuel z z' /\
    FlowAt z' (pre ++ w) rest (marker_after w M) false (T ++ props_toks pr) (kept_key A (List.length T) M k :: ks) (N.of_nat p) s0 im fs d.
Proof.
  intros AT D P ST C F. destruct (props_words w pr P) as [(tok & W & ->)|(a & ta & n & b & tb & -> & W1 & W2 & ->)].
  - destruct (flow_prop fuel z pre w tok rest M A T k ks p s0 im fs d AT D W ST C F) as (z1 & R1 & AT1). exists z1. split; [now apply reach_one|exact AT1].
  - rewrite !app_length in F. rewrite <- !app_assoc in AT.
    destruct (flow_prop fuel z pre a ta (repeat 32%N (S n) ++ b ++ rest) M A T k ks p s0 im fs d AT D W1) as (z1 & R1 & AT1); [|exact C|lia|].
    { apply (gap_stop p); [apply flow_gap_spaces|discriminate]. }
    apply FlowAt_gap in AT1; [|eapply flow_gap_to; apply (flow_gap_spaces p)].
    destruct (flow_prop fuel z1 _ b tb rest _ false _ _ ks p s0 im fs d AT1 D W2 ST) as (z2 & R2 & AT2).
    + apply flow_gap_col; [apply flow_gap_spaces|]. apply roomy_flat; [now apply (word_flat a ta)|exact C].
    + rewrite !app_length. lia.
    + exists z2. split; [eapply reach_trans; apply reach_one; eauto|]. rewrite <- !marker_after_app, <- !app_assoc in AT2. exact AT2.
Qed.
Lemma fnode_alias p c n : anchor_name n -> fnode p c (42%N :: n) (TrAlias n).
Proof.
  intros N. assert (W : prop_word (42%N :: n) (TAlias n)) by now constructor.
  split; [eapply opens_words; [reflexivity|auto]|]. split; [exact I|]. split; [apply roomy_flat; now apply (word_flat _ _ W)|].
  intros fuel z pre g after M A T k ks s0 im fs d AT G AF AP ID CI BL C DL F. rewrite app_length in F.
  destruct (flow_prop fuel z pre (42%N :: n) (TAlias n) (g ++ after) M A T k ks p s0 im fs (S d) AT) as (z1 & R1 & AT1); auto.
  - now apply (apart_stop p (TrAlias n)).
  - lia.
  - apply FlowAt_gap in AT1; [|eapply flow_gap_to; eauto]. exists z1, false, fs, (TrAlias n). split; [now apply reach_one|].
    rewrite <- marker_after_app, <- app_assoc in AT1. split; [exact AT1|]. split; [auto|]. split; [apply like_refl|].
    split; [split; [repeat constructor|cbn; lia]|discriminate].
Qed.
Lemma fnode_empty p c w pr : props_text false w pr -> fnode p c w (TrEmpty pr).
Proof.
  intros P. destruct (props_first w pr P) as (b & r & EB & B). destruct (props_unended w pr P) as [U LU].
  split; [eapply opens_words; eauto|]. split; [now apply (props_text_some false w)|]. split; [apply roomy_flat; now apply (props_flat w pr)|].
  intros fuel z pre g after M A T k ks s0 im fs d AT G AF AP ID CI BL C DL F. rewrite app_length in F.
  destruct (flow_props fuel z pre w pr (g ++ after) M A T k ks p s0 im fs (S d) AT) as (z1 & R1 & AT1); auto.
  - now apply (apart_stop p (TrEmpty pr)).
  - lia.
  - apply FlowAt_gap in AT1; [|eapply flow_gap_to; eauto]. exists z1, false, fs, (TrEmpty pr). split; [exact R1|].
    rewrite <- marker_after_app, <- app_assoc in AT1. split; [exact AT1|]. split; [auto|]. split; [apply like_refl|].
    split; [split; [exact U|cbn [tree_toks]; lia]|discriminate].
Qed.
Lemma with_flow pr t : bare t -> flow_tree t -> flow_tree (with_props pr t).
Proof. destruct t; cbn [bare with_props flow_tree]; intuition. Qed.
Lemma json_with pr t : json_like (with_props pr t) = json_like t.
Proof. now destruct t. Qed.
Lemma collection_with pr t : collection (with_props pr t) = collection t.
Proof. now destruct t. Qed.
Lemma fnode_props p c w pr g0 w' t : props_text false w pr -> flow_gap p g0 -> g0 <> [] -> fnode p c w' t -> bare t ->
  fnode p c (w ++ g0 ++ w') (with_props pr t).
Proof.
  intros P G0 NE (OP & FT & RM & H) BT. destruct (props_first w pr P) as (b & r & EB & B). destruct (props_unended w pr P) as [U LU].
  split; [eapply opens_words; [rewrite EB; reflexivity|exact B]|]. split; [now apply with_flow|].
  split; [apply roomy_app; [apply roomy_flat; now apply (props_flat w pr)|apply roomy_app; [now apply roomy_gap|exact RM]]|].
  intros fuel z pre g after M A T k ks s0 im fs d AT G AF AP ID CI BL C DL F. rewrite !app_length in *. rewrite <- !app_assoc in AT.
  rewrite json_with, collection_with in *.
  destruct (flow_props fuel z pre w pr (g0 ++ w' ++ g ++ after) M A T k ks p s0 im fs (S d) AT) as (z1 & R1 & AT1); auto.
  - now apply (gap_stop p).
  - lia.
  - apply FlowAt_gap in AT1; [|eapply flow_gap_to; eauto].
    destruct (H fuel z1 _ g after _ false _ _ ks s0 im fs d AT1 G AF) as (z2 & A2 & fs2 & t' & R2 & AT2 & FS & LK & SM & AD).
    + destruct t; cbn [bare] in BT; try contradiction; exact I.
    + now apply idle_kept.
    + exact CI.
    + exact BL.
    + apply flow_gap_col; [exact G0|]. apply roomy_flat; [now apply (props_flat w pr)|exact C].
    + lia.
    + rewrite !app_length. lia.
    + destruct (props_text_some _ _ _ P) as [_ NP]. destruct LK as [LS LB]. destruct (LB BT) as [BT' _].
      assert (LK : like t t') by (split; assumption).
      exists z2, A2, fs2, (with_props pr t'). split; [eapply reach_trans; eauto|].
      rewrite with_toks by exact BT'. rewrite <- !marker_after_app, <- !app_assoc in AT2. rewrite <- !app_assoc. split; [exact AT2|].
      split; [exact FS|]. split; [now apply like_with|].
      split; [|intros J K; rewrite AD by assumption; now rewrite <- !marker_after_app].
      destruct SM as [S1 S2]. split; [apply Forall_app; split; [exact U|exact S1]|]. rewrite !app_length. lia.
Qed.

(** ** All of them *)
Scheme flow_node_m := Minimality for flow_node Sort Prop
with flow_value_m := Minimality for flow_value Sort Prop
with flow_item_m := Minimality for flow_item Sort Prop
with flow_items_m := Minimality for flow_items Sort Prop
with flow_entry_m := Minimality for flow_entry Sort Prop
with flow_entries_m := Minimality for flow_entries Sort Prop.
Combined Scheme flow_m from flow_node_m, flow_value_m, flow_item_m, flow_items_m, flow_entry_m, flow_entries_m.
Theorem flow_scans p :
  (forall c w t, flow_node false p c w t -> fnode p c w t) /\
  (forall c j w v, flow_value false p c j w v -> fvalue p c j w v) /\
  (forall w i, flow_item false p w i -> fitem p w i) /\
  (forall w l b, flow_items false p w l b -> fitems p w l b) /\
  (forall c w x, flow_entry false p c w x -> fentry p c w x) /\
  (forall c w l b, flow_entries false p c w l b -> fentries p c w l b).
Proof.
  apply flow_m.
  - intros. now apply fnode_scalar with (st := st).
  - intros. now apply fnode_no_items.
  - intros. now apply fnode_items.
  - intros. now apply fnode_no_entries.
  - intros. now apply fnode_entries.
  - intros. now apply fnode_alias.
  - intros. apply fnode_props; assumption.
  - intros. now apply fnode_empty.
  - intros. apply fvalue_none.
  - intros c j g w t G _ H [J|[J|[J _]]]; [| |discriminate]; apply fvalue_node; auto.
  - intros. now apply fitem_node.
  - intros. now apply fitem_pair.
  - intros. now apply fitem_key.
  - intros. apply fitem_key_value; auto.
  - intros. now apply fitems_last.
  - intros. now apply fitems_comma.
  - intros. now apply fitems_more.
  - intros. apply fentry_pair; auto.
  - intros. now apply fentry_bare.
  - intros. now apply fentry_no_key.
  - intros. now apply fentry_empty.
  - intros. now apply fentry_empty_value.
  - intros. now apply fentry_key.
  - intros. apply fentry_key_value; auto.
  - intros. now apply fentries_last.
  - intros. now apply fentries_comma.
  - intros. now apply fentries_more.
Qed.
