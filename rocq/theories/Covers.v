(** The tokens of a text cover it, but for white space, line breaks and comments. *)
From Verif Require Import Base Tokens Scalar Chars Source SourceProofs Cursor Scanner SpecScan CursorProofs CursorRuns CursorScalars ScannerInv ScannerFetch ScannerRun ScannerTheorems
  SpecScalar SpecJson SpecQuoted SpecBlock SpecPlain SpecStrings SpecProps SpecAccept ExactCursor FoldedQuotes QuotedOnly GapsOnly PropsOnly PlainOnly BlockOnly Stands.
From Coq Require Import String Lia ZifyBool ZifyNat ZifyN.
Local Open Scope list_scope.
Local Open Scope m_scope.

(** ** Implied tokens *)
Inductive grown (l : list token) : list token -> Prop :=
| gr_same : grown l l
| gr_more a b t : grown l (a ++ b) -> implied (k_type t) -> s_end (k_span t) = s_start (k_span t) -> grown l (a ++ t :: b).
Lemma grown_trans l l' l'' : grown l l' -> grown l' l'' -> grown l l''.
Proof. intros H. induction 1; [exact H|now constructor]. Qed.
Lemma grown_push l m t : implied t -> grown l (l ++ [Token (span_empty m) t]).
Proof. intros I. apply gr_more; [rewrite app_nil_r; constructor|exact I|reflexivity]. Qed.
Lemma covers_grown i x D l l' : grown l l' -> covers i x (D ++ l) -> covers i x (D ++ l').
Proof. induction 1 as [|a b t _ IH I S]; intros C; [exact C|]. rewrite app_assoc. apply cv_implied; [|exact I|exact S]. rewrite <- app_assoc. now apply IH. Qed.

(** ** Steps that stay where they are *)
Definition aside (c c' : cursor) : Prop := exists s, c' = Cur (c_src c) (c_mark c) (c_lead c) s.
Lemma aside_same c : aside c c.
Proof. exists (c_ska c). now destruct c. Qed.
Lemma aside_trans c c' c'' : aside c c' -> aside c' c'' -> aside c c''.
Proof. intros (s & ->) (s' & ->). now exists s'. Qed.
Lemma aside_src c c' : aside c c' -> c_src c' = c_src c.
Proof. now intros (s & ->). Qed.
Definition easy {A} (m : SM A) : Prop := forall z z' a, m z = (z', Ok a) -> grown (z_tokens z) (z_tokens z') /\ aside (z_cur z) (z_cur z').
Lemma easy_same {A} (m : SM A) : (forall z z' a, m z = (z', Ok a) -> z_tokens z' = z_tokens z /\ z_cur z' = z_cur z) -> easy m.
Proof. intros S z z' a H. destruct (S _ _ _ H) as [-> ->]. split; [apply gr_same|apply aside_same]. Qed.
Ltac easily := apply easy_same; intros z z' a H.
Lemma easy_save : easy save_simple_key.
Proof. easily. injection H as <- _. destruct (c_ska (z_cur z)); now split. Qed.
Lemma easy_remove : easy remove_simple_key.
Proof. easily. unfold remove_simple_key in H. destruct (z_keys z) as [|k r]; [discriminate|]. destruct (sk_possible k && sk_required k); [discriminate|]. injection H as <- _. now split. Qed.
Lemma easy_one_col : easy roll_one_col_indent.
Proof. easily. injection H as <- _. destruct (z_indents z) as [|[j []] r]; try now split. destruct (z_flow z =? 0)%N; now split. Qed.
Lemma easy_non_block : easy unroll_non_block_indents.
Proof. easily. injection H as <- _. destruct (unroll_non_block_loop (z_indent z) (z_indents z)). now split. Qed.
Lemma easy_increase : easy increase_flow_level.
Proof. easily. unfold increase_flow_level in H. cbv zeta in H. destruct (z_flow _ =? 4294967295)%N; [discriminate|]. injection H as <- _. now split. Qed.
Lemma easy_decrease : easy decrease_flow_level.
Proof. easily. unfold decrease_flow_level in H. destruct (0 <? z_flow z)%N; [destruct (z_keys z); [discriminate|]|]; injection H as <- _; now split. Qed.
Lemma easy_stale : easy stale_simple_keys.
Proof. easily. unfold stale_simple_keys in H. destruct (stale_loop _ _ _) as [k []]; [discriminate|]. injection H as <- _. now split. Qed.
Lemma easy_gets {A} (f : scanner -> A) : easy (gets f).
Proof. easily. injection H as <- _. now split. Qed.
Lemma easy_ret {A} (x : A) : easy (ret x).
Proof. easily. injection H as <- _. now split. Qed.
Lemma easy_err {A} m msg : easy (A := A) (zerr m msg).
Proof. intros z z' a H. discriminate. Qed.
Lemma easy_peek n : easy (zpeek n).
Proof. easily. injection H as <- _. now split. Qed.
Lemma easy_mark : easy zmark.
Proof. easily. injection H as <- _. now split. Qed.
Lemma easy_ska b : easy (lift (set_ska b)).
Proof. intros z z' a H. injection H as <- _. split; [constructor|]. now exists b. Qed.
Lemma easy_modify f : (forall z, z_tokens (f z) = z_tokens z /\ z_cur (f z) = z_cur z) -> easy (modify f).
Proof. intros F. easily. injection H as <- _. apply F. Qed.
Lemma easy_push m t : implied t -> easy (push_token (span_empty m) t).
Proof. intros I z z' a H. injection H as <- _. split; [now apply grown_push|apply aside_same]. Qed.
Lemma easy_insert n m t : implied t -> easy (insert_token n (span_empty m) t).
Proof.
  intros I z z' a H. unfold insert_token in H. destruct (Nat.ltb n (z_parsed z)); [discriminate|]. cbv zeta in H. destruct (Nat.leb _ _); [|discriminate]. injection H as <- _.
  split; [|apply aside_same]. cbn [set_tokens z_tokens]. apply gr_more; [rewrite firstn_skipn; constructor|exact I|reflexivity].
Qed.
Lemma easy_bind {A B} (m : SM A) (k : A -> SM B) : easy m -> (forall a, easy (k a)) -> easy (bind m k).
Proof. intros M K z z' a H. next_step H z1 x E. destruct (M _ _ _ E) as [G1 A1]. destruct (K _ _ _ _ H) as [G2 A2]. split; [exact (grown_trans _ _ _ G1 G2)|exact (aside_trans _ _ _ A1 A2)]. Qed.
Lemma easy_roll col n t m : implied t -> easy (roll_indent col n t m).
Proof.
  intros P z z' a H. unfold roll_indent in H. destruct (0 <? z_flow z)%N; [injection H as <- _; split; [apply gr_same|apply aside_same]|]. cbv zeta in H.
  assert (D : z_tokens (drop_one_col col z) = z_tokens z /\ z_cur (drop_one_col col z) = z_cur z).
  { unfold drop_one_col. destruct (z_indent z <=? col)%N; [|now split]. destruct (z_indents z) as [|[j []] r]; now split. }
  destruct D as [DT DC]. destruct (z_indent (drop_one_col col z) <? col)%N.
  - remember (set_indent col (set_indents ((z_indent (drop_one_col col z), true) :: z_indents (drop_one_col col z)) (drop_one_col col z))) as z1 eqn:E1.
    assert (T1 : z_tokens z1 = z_tokens z) by (rewrite E1; exact DT). assert (C1 : z_cur z1 = z_cur z) by (rewrite E1; exact DC). rewrite <- T1, <- C1.
    destruct n as [n|]; [exact (easy_insert n m t P _ _ _ H)|exact (easy_push m t P _ _ _ H)].
  - injection H as <- _. rewrite DT, DC. split; [apply gr_same|apply aside_same].
Qed.
Lemma unroll_grown m : forall l col ind toks ind' l' toks', unroll_loop col m ind l toks = Some (ind', l', toks') -> grown toks toks'.
Proof.
  induction l as [|[j b] l IH]; intros col ind toks ind' l' toks' H; cbn [unroll_loop] in H; (destruct (col <? ind)%N; [|injection H as <- <- <-; constructor]); [discriminate|].
  apply IH in H. destruct b; [|exact H]. refine (grown_trans _ _ _ _ H). apply grown_push. implies.
Qed.
Lemma easy_unroll col : easy (unroll_indent col).
Proof.
  intros z z' a H. unfold unroll_indent in H. destruct (0 <? z_flow z)%N; [injection H as <- _; split; [apply gr_same|apply aside_same]|].
  destruct (unroll_loop _ _ _ _ _) as [[[ind l] toks]|] eqn:E; [|discriminate]. injection H as <- _. split; [exact (unroll_grown _ _ _ _ _ _ _ _ E)|apply aside_same].
Qed.
Lemma easy_implicit z z' a : end_implicit_mapping (c_mark (z_cur z)) z = (z', Ok a) -> grown (z_tokens z) (z_tokens z') /\ aside (z_cur z) (z_cur z').
Proof.
  intros H. unfold end_implicit_mapping in H. destruct (z_implicit z) as [|[] r]; try (injection H as <- _; split; [apply gr_same|apply aside_same]).
  injection H as <- _. split; [|apply aside_same]. cbn [set_tokens set_implicit set_flow_started z_tokens z_cur]. apply (grown_push _ (c_mark (z_cur z))). implies.
Qed.

(** ** Steps that skip *)
Definition spaced {A} (m : SM A) : Prop := forall z z' a, m z = (z', Ok a) -> grown (z_tokens z) (z_tokens z') /\ forall pre rest, past pre rest (c_src (z_cur z)) -> past pre rest (c_src (z_cur z')).
Lemma easy_spaced {A} (m : SM A) : easy m -> spaced m.
Proof. intros E z z' a H. destruct (E _ _ _ H) as [G S]. split; [exact G|]. now rewrite (aside_src _ _ S). Qed.
Lemma spaced_bind {A B} (m : SM A) (k : A -> SM B) : spaced m -> (forall a, spaced (k a)) -> spaced (bind m k).
Proof. intros M K z z' a H. next_step H z1 x E. destruct (M _ _ _ E) as [G1 A1]. destruct (K _ _ _ _ H) as [G2 A2]. split; [exact (grown_trans _ _ _ G1 G2)|]. intros pre rest P. now apply A2, A1. Qed.
Lemma spaced_lift {A} (m : CM A) : (forall c c' a pre rest, m c = (c', Ok a) -> c_src c = src pre rest -> past pre rest (c_src c')) -> spaced (lift m).
Proof.
  intros M z z' a H. apply lift_ok in H. destruct H as (c & E & ->). split; [constructor|]. intros pre rest P. apply (past_then _ _ _ _ P). intros p r S. exact (M _ _ _ _ _ E S).
Qed.
Lemma spaced_ws fuel tabs ws : spaced (lift (skip_ws_to_eol fuel tabs ws)).
Proof. apply spaced_lift. intros. eapply past_ws; eassumption. Qed.
Lemma spaced_yaml fuel flow : spaced (lift (skip_yaml_whitespace fuel flow)).
Proof. apply spaced_lift. intros. eapply past_yaml; eassumption. Qed.
Lemma spaced_next fuel : spaced (zskip_to_next_token fuel).
Proof. intros z z' a H. unfold zskip_to_next_token in H. revert z z' a H. intros z z' a H. refine (spaced_lift _ _ _ _ _ H). intros. eapply past_next; eassumption. Qed.
Ltac easies :=
  repeat match goal with
  | |- easy (bind _ _) => apply easy_bind; [|intros ?]
  | |- easy (lift (set_ska _)) => apply easy_ska
  | |- easy zmark => apply easy_mark
  | |- easy (zpeek _) => apply easy_peek
  | |- easy (zerr _ _) => apply easy_err
  | |- easy (ret _) => apply easy_ret
  | |- easy (gets _) => apply easy_gets
  | |- easy save_simple_key => apply easy_save
  | |- easy remove_simple_key => apply easy_remove
  | |- easy increase_flow_level => apply easy_increase
  | |- easy decrease_flow_level => apply easy_decrease
  | |- easy unroll_non_block_indents => apply easy_non_block
  | |- easy (unroll_indent _) => apply easy_unroll
  | |- easy roll_one_col_indent => apply easy_one_col
  | |- easy (modify _) => apply easy_modify; intros ?; repeat match goal with |- context [if ?b then _ else _] => destruct b end; split; reflexivity
  | |- easy (roll_indent _ _ _ _) => apply easy_roll; implies
  | |- easy (insert_token _ (span_empty _) _) => apply easy_insert; implies
  | |- easy (push_token (span_empty _) _) => apply easy_push; implies
  | |- easy (if ?b then _ else _) => destruct b
  | |- easy (let (_, _) := ?p in _) => destruct p
  end.
Ltac spaces :=
  repeat match goal with
  | |- spaced (lift (skip_ws_to_eol _ _ _)) => apply spaced_ws
  | |- spaced (lift (skip_yaml_whitespace _ _)) => apply spaced_yaml
  | |- spaced (zskip_to_next_token _) => apply spaced_next
  | |- spaced (value_tab_check _) => unfold value_tab_check
  | |- spaced (bind _ _) => apply spaced_bind; [|intros ?]
  | |- spaced (if ?b then _ else _) => destruct b
  | |- spaced (let (_, _) := ?p in _) => destruct p
  | |- spaced _ => apply easy_spaced; easies; fail
  end.
(** Whatever comes before a token is pushed. *)
Definition pushing (t : token_type) (s : marker) (m : SM unit) : Prop := forall z z' a, m z = (z', Ok a) ->
  exists l e, grown (z_tokens z) l /\ z_tokens z' = l ++ [Token (Span s e) t] /\ forall pre rest, past pre rest (c_src (z_cur z)) -> past pre rest (c_src (z_cur z')).
Lemma pushing_push s e t : pushing t s (push_token (Span s e) t).
Proof. intros z z' a H. injection H as <- _. exists (z_tokens z), e. split; [constructor|]. split; [reflexivity|]. now intros. Qed.
Lemma pushing_bind {A} s t (m : SM A) k : spaced m -> (forall a, pushing t s (k a)) -> pushing t s (bind m k).
Proof.
  intros M K z z' a H. next_step H z1 x E. destruct (M _ _ _ E) as [G1 A1]. destruct (K _ _ _ _ H) as (l & e & G2 & EL & A2). exists l, e. split; [exact (grown_trans _ _ _ G1 G2)|]. split; [exact EL|].
  intros pre rest P. now apply A2, A1.
Qed.
Lemma pushing_err s t m msg : pushing t s (zerr m msg).
Proof. intros z z' a H. discriminate. Qed.
Ltac pushes :=
  repeat match goal with
  | |- pushing _ _ (push_token (Span _ _) _) => apply pushing_push
  | |- pushing _ _ (push_token (span_empty ?m) _) => apply (pushing_push m m)
  | |- pushing _ _ (bind _ _) => apply pushing_bind; [spaces|intros ?]
  | |- pushing _ _ (zerr _ _) => apply pushing_err
  | |- pushing _ _ (if ?b then _ else _) => destruct b
  | |- pushing _ _ (let (_, _) := ?p in _) => destruct p
  end.

(** ** Tokens *)
Definition cov (i : text) (D : list token) (z : scanner) : Prop := exists pre rest, i = pre ++ rest /\ c_src (z_cur z) = src pre rest /\ covers i pre (D ++ z_tokens z).
(** The token [t] is written as [q], a gap follows, and the scanner is behind it. *)
Lemma cov_in i D T z pre q after k p r t s e : covers i pre (D ++ T) -> i = pre ++ q ++ after -> written pre after q t k -> q = p ++ r -> List.length p = k -> s = mark_of (pre ++ p) ->
  (ends_with_text t -> e = mark_of (pre ++ q)) -> (exists l, grown T l /\ z_tokens z = l ++ [Token (Span s e) t]) -> past (pre ++ q) after (c_src (z_cur z)) -> cov i D z.
Proof.
  intros C EI W EQ EK -> EN (l & G & ET) (g & rest' & -> & GP & ES). exists ((pre ++ q) ++ g), rest'. rewrite <- !app_assoc. split; [exact EI|]. split; [now rewrite ES, <- !app_assoc|].
  rewrite ET. rewrite (app_assoc D l). rewrite app_assoc. apply (cv_gap i _ _ g rest'); [|now rewrite <- app_assoc|exact GP].
  apply (cv_token i pre (D ++ l) q (g ++ rest') k (Token (Span _ e) t)); cbn [k_type k_span s_start s_end].
  - exact (covers_grown _ _ _ _ _ G C).
  - exact EI.
  - exact W.
  - subst. rewrite app_length. lia.
  - rewrite <- EK, <- app_length. apply (place_of _ _ (r ++ g ++ rest')). rewrite EI, EQ. now rewrite <- !app_assoc.
  - intros N. rewrite (EN N). apply (place_of _ _ (g ++ rest')). now rewrite <- app_assoc.
Qed.
Lemma cov_signed i D T z pre q after t s e : covers i pre (D ++ T) -> i = pre ++ q ++ after -> written pre after q t 0 -> s = mark_of pre ->
  (ends_with_text t -> e = mark_of (pre ++ q)) -> (exists l, grown T l /\ z_tokens z = l ++ [Token (Span s e) t]) -> past (pre ++ q) after (c_src (z_cur z)) -> cov i D z.
Proof. intros C EI W ES EN ET P. apply (cov_in i D T z pre q after 0 [] q t s e); auto. now rewrite app_nil_r. Qed.
(** [S] says where the scanner is, [G] which tokens have been added. *)
Ltac go H S G L := let z := fresh "z" in let a := fresh "a" in let E := fresh "E" in let G1 := fresh "G" in let A1 := fresh "A" in
  next_step H z a E; destruct (L _ _ _ E) as [G1 A1]; apply (grown_trans _ _ _ G) in G1; apply (aside_trans _ _ _ S) in A1; clear G S E; rename G1 into G; rename A1 into S.
Ltac start z := assert (G : grown (z_tokens z) (z_tokens z)) by constructor; assert (S : aside (z_cur z) (z_cur z)) by apply aside_same.
(** One byte is passed over, then a gap; the token is pushed. *)
Lemma passes i D T pre b rest c z z' a t s m : covers i pre (D ++ T) -> i = pre ++ b :: rest -> c = cur pre (b :: rest) m (c_lead c) (c_ska c) -> aside c (z_cur z) -> grown T (z_tokens z) ->
  s = mark_of pre -> written pre rest [b] t 0 -> ~ ends_with_text t -> forall k, (forall u, pushing t s (k u)) -> bind (lift skip_non_blank) k z = (z', Ok a) -> cov i D z'.
Proof.
  intros C EI EC (s1 & EA) G ES W NE k PK H. next_step H z1 u E. apply lift_ok in E. destruct E as (c1 & E & ->). rewrite EA, EC in E. cbn [cur c_src c_mark c_lead c_ska] in E.
  change (Cur (StrSrc (pre ++ b :: rest) (List.length pre)) m (c_lead c) s1) with (cur pre (b :: rest) m (c_lead c) s1) in E. rewrite e_skip_non_blank in E. injection E as <- _.
  destruct (PK _ _ _ _ H) as (l & e & GL & ET & P). apply (cov_signed i D T z' pre [b] rest t s e); auto.
  - intros X. elim (NE X).
  - exists l. split; [exact (grown_trans _ _ _ G GL)|exact ET].
  - apply P. cbn [set_cur z_cur cur c_src]. apply past_none.
Qed.
Ltac at_mark H S EC := let z := fresh "z" in let m := fresh "m" in let E := fresh "E" in let EM := fresh "EM" in
  next_step H z m E; unfold zmark, get_mark in E; apply lift_ok in E; destruct E as (? & E & ->); injection E as <- EM; rewrite set_cur_self in H;
  let x := fresh "x" in let EA := fresh "EA" in destruct S as (x & EA); rewrite EA, EC in EM; cbn [cur c_src c_mark c_lead c_ska] in EM; subst m; assert (S : aside (z_cur _) (z_cur _)) by (exists x; exact EA); clear EA x.
Ltac pass H C EI EC S G t := refine (passes _ _ _ _ _ _ _ _ _ _ t _ _ C EI _ S G eq_refl _ _ _ _ H); [rewrite EC; reflexivity|..].
Lemma k_open i D pre rest fuel (is_map : bool) z z' a : fetch_flow_collection_start fuel is_map z = (z', Ok a) -> covers i pre (D ++ z_tokens z) -> here pre ((if is_map then 123 else 91)%N :: rest) z ->
  i = pre ++ (if is_map then 123 else 91)%N :: rest -> cov i D z'.
Proof.
  intros H C (l & s & EC) EI. unfold fetch_flow_collection_start in H. start z. go H S G easy_save. go H S G easy_one_col. go H S G easy_increase. go H S G (easy_ska true). at_mark H S EC.
  pass H C EI EC S G (if is_map then TFlowMappingStart else TFlowSequenceStart); [destruct is_map; constructor|destruct is_map; now intros []|]. intros u. pushes.
Qed.
Lemma k_close i D pre rest fuel (is_map : bool) z z' a : fetch_flow_collection_end fuel is_map z = (z', Ok a) -> covers i pre (D ++ z_tokens z) -> here pre ((if is_map then 125 else 93)%N :: rest) z ->
  i = pre ++ (if is_map then 125 else 93)%N :: rest -> cov i D z'.
Proof.
  intros H C (l & s & EC) EI. unfold fetch_flow_collection_end in H. start z. go H S G easy_remove. go H S G easy_decrease. go H S G (easy_ska false). at_mark H S EC.
  next_step H z4 u E. assert (X : grown (z_tokens z) (z_tokens z4) /\ aside (z_cur z) (z_cur z4)).
  { destruct is_map; [injection E as <- _; now split|]. next_step E z5 u1 E1. assert (EM : mark_of pre = c_mark (z_cur z2)) by (destruct S as (x & ->); now rewrite EC). rewrite EM in E1. apply easy_implicit in E1. destruct E1 as [G1 A1]. injection E as <- _.
    split; [exact (grown_trans _ _ _ G G1)|exact (aside_trans _ _ _ S A1)]. }
  clear E G S. destruct X as [G S].
  pass H C EI EC S G (if is_map then TFlowMappingEnd else TFlowSequenceEnd); [destruct is_map; constructor|destruct is_map; now intros []|]. intros u0. pushes.
Qed.
Lemma k_comma i D pre rest fuel z z' a : fetch_flow_entry fuel z = (z', Ok a) -> covers i pre (D ++ z_tokens z) -> here pre (44%N :: rest) z -> i = pre ++ 44%N :: rest -> cov i D z'.
Proof.
  intros H C (l & s & EC) EI. unfold fetch_flow_entry in H. start z. go H S G easy_remove. go H S G (easy_ska true). at_mark H S EC.
  next_step H z4 u E. assert (EM : mark_of pre = c_mark (z_cur z1)) by (destruct S as (x & ->); now rewrite EC). rewrite EM in E. apply easy_implicit in E. destruct E as [G1 A1].
  apply (grown_trans _ _ _ G) in G1. apply (aside_trans _ _ _ S) in A1. pass H C EI EC A1 G1 TFlowEntry; [constructor|now intros []|]. intros u0. pushes.
Qed.
Lemma k_dash i D pre rest fuel z z' a : fetch_block_entry fuel z = (z', Ok a) -> covers i pre (D ++ z_tokens z) -> here pre (45%N :: rest) z -> i = pre ++ 45%N :: rest -> In (nth 0 rest 0%N) white_or_end -> cov i D z'.
Proof.
  intros H C (l & s & EC) EI W. unfold fetch_block_entry in H. start z. at_mark H S EC. go H S G (easy_gets z_flow). go H S G (easy_gets (fun z => c_ska (z_cur z))). go H S G (easy_gets g9hc).
  repeat match type of H with (if ?b then _ else _) _ = _ => destruct b; [discriminate|] end.
  pass H C EI EC S G TBlockEntry; [now constructor|now intros []|]. intros u. pushes.
Qed.
Lemma k_question i D pre rest fuel z z' a : fetch_key fuel z = (z', Ok a) -> covers i pre (D ++ z_tokens z) -> here pre (63%N :: rest) z -> i = pre ++ 63%N :: rest -> In (nth 0 rest 0%N) white_or_end -> cov i D z'.
Proof.
  intros H C (l & s & EC) EI W. unfold fetch_key in H. start z. at_mark H S EC. go H S G (easy_gets z_flow). go H S G (easy_gets (fun z => c_ska (z_cur z))).
  match type of H with bind ?m _ _ = _ => assert (L : easy m) by easies end. go H S G L. clear L. go H S G easy_remove. match type of H with bind ?m _ _ = _ => assert (L : easy m) by easies end. go H S G L.
  pass H C EI EC S G TKey; [now constructor|now intros []|]. intros u. pushes.
Qed.
Lemma k_colon i D pre rest fuel z z' a : fetch_value fuel z = (z', Ok a) -> covers i pre (D ++ z_tokens z) -> here pre (58%N :: rest) z -> i = pre ++ 58%N :: rest -> cov i D z'.
Proof.
  intros H C (l & s & EC) EI. unfold fetch_value in H. start z. go H S G (easy_gets z_keys). destruct a0 as [|k r]; [discriminate|]. at_mark H S EC.
  match type of H with bind ?m _ _ = _ => assert (L : easy m) by easies end. go H S G L. clear L. match type of H with bind ?m _ _ = _ => assert (L : easy m) by easies end. go H S G L.
  pass H C EI EC S G TValue; [now constructor|now intros []|]. intros u. pushes.
Qed.
Lemma k_flow_value i D pre rest fuel z z' a : fetch_flow_value fuel z = (z', Ok a) -> covers i pre (D ++ z_tokens z) -> here pre (58%N :: rest) z -> i = pre ++ 58%N :: rest -> cov i D z'.
Proof.
  intros H C P EI. unfold fetch_flow_value in H. next_step H z1 nc E. injection E as <- _. next_step H z1 m E. injection E as <- _. next_step H z1 ad E. injection E as <- _. rewrite set_cur_self in H.
  match type of H with (if ?b then _ else _) _ = _ => destruct b; [discriminate|] end. eapply k_colon; [exact H|exact C|exact P|exact EI].
Qed.
Lemma aside_here pre rest z z' : here pre rest z -> aside (z_cur z) (z_cur z') -> here pre rest z'.
Proof. intros (l & s & E) (s' & EA). exists l, s'. rewrite EA, E. reflexivity. Qed.
Lemma k_marker i D pre rest c t z z' a : fetch_document_indicator t z = (z', Ok a) -> covers i pre (D ++ z_tokens z) -> here pre (c :: c :: c :: rest) z -> i = pre ++ c :: c :: c :: rest -> c <> 10%N ->
  written pre rest [c; c; c] t 0 -> cov i D z' /\ exists l e, grown (z_tokens z) l /\ z_tokens z' = l ++ [Token (Span (mark_of pre) e) t] /\ e = mark_of (pre ++ [c; c; c]) /\ c_src (z_cur z') = src (pre ++ [c; c; c]) rest.
Proof.
  intros H C (l & s & EC) EI N W. unfold fetch_document_indicator in H. start z. go H S G (easy_unroll 0). go H S G easy_remove. go H S G (easy_ska false). at_mark H S EC.
  next_step H z4 u E. apply lift_ok in E. destruct E as (c1 & E & ->). destruct S as (s1 & EA). rewrite EA, EC in E. cbn [cur c_src c_mark c_lead c_ska] in E.
  change (Cur (StrSrc (pre ++ c :: c :: c :: rest) (List.length pre)) (mark_of pre) l s1) with (cur pre ([c; c; c] ++ rest) (mark_of pre) l s1) in E.
  rewrite (e_skip_n [c; c; c] pre rest (mark_of pre) l s1 3 eq_refl) in E. injection E as <- _. next_step H z5 m E. unfold zmark, get_mark in E. apply lift_ok in E. destruct E as (c2 & E & ->).
  cbn [set_cur z_cur] in E. injection E as <- <-. injection H as <- _.
  assert (EE : mark_add 3 (mark_of pre) = mark_of (pre ++ [c; c; c])) by (apply (flat_place pre [c; c; c]); intros [X|[X|[X|[]]]]; congruence).
  assert (Q : exists l0, grown (z_tokens z) l0 /\ z_tokens z2 ++ [Token (Span (mark_of pre) (mark_add 3 (mark_of pre))) t] = l0 ++ [Token (Span (mark_of pre) (mark_add 3 (mark_of pre))) t]) by (exists (z_tokens z2); now split).
  split.
  - apply (cov_signed i D (z_tokens z) _ pre [c; c; c] rest t (mark_of pre) (mark_add 3 (mark_of pre))); [exact C|exact EI|exact W|reflexivity|intros _; exact EE|exact Q|apply past_none].
  - exists (z_tokens z2), (mark_add 3 (mark_of pre)). split; [exact G|]. split; [reflexivity|]. split; [exact EE|reflexivity].
Qed.
(** What is skipped afterwards. *)
Lemma cov_spaced {A} i D (m : SM A) z z' a : spaced m -> m z = (z', Ok a) -> cov i D z -> cov i D z'.
Proof.
  intros M H (pre & rest & EI & ES & C). destruct (M _ _ _ H) as [G P]. specialize (P pre rest). rewrite ES in P. destruct (P (past_none _ _)) as (g & rest' & -> & GP & ES').
  exists (pre ++ g), rest'. rewrite <- app_assoc. split; [exact EI|]. split; [exact ES'|]. apply (cv_gap _ _ _ _ rest'); [|exact EI|exact GP]. exact (covers_grown _ _ _ _ _ G C).
Qed.
Lemma k_finish i D pre rest fuel z z' a : finish_document fuel z = (z', Ok a) -> covers i pre (D ++ z_tokens z) -> here pre (46%N :: 46%N :: 46%N :: rest) z -> i = pre ++ 46%N :: 46%N :: 46%N :: rest ->
  on_new_line pre -> In (nth 0 rest 0%N) white_or_end -> cov i D z'.
Proof.
  intros H C P EI N W. unfold finish_document in H. next_step H z1 u E. assert (X : cov i D z1) by (refine (proj1 (k_marker i D pre rest 46 TDocumentEnd _ _ _ E C P EI _ _)); [discriminate|now apply (wr_document_end pre rest)]).
  refine (cov_spaced i D _ _ _ _ _ H X). spaces.
Qed.
(** The cursor's part of a token. *)
Lemma lifted_aside {A B} (m : CM A) (k : A -> SM B) pre rest z0 z z' b : bind (lift m) k z = (z', Ok b) -> here pre rest z0 -> aside (z_cur z0) (z_cur z) ->
  exists l s c a, m (cur pre rest (mark_of pre) l s) = (c, Ok a) /\ k a (set_cur c z) = (z', Ok b).
Proof. intros H P S. exact (lifted m k pre rest z z' b H (aside_here _ _ _ _ P S)). Qed.
Lemma k_directive i D pre rest fuel z z' a : fetch_directive fuel z = (z', Ok a) -> covers i pre (D ++ z_tokens z) -> here pre (37%N :: rest) z -> i = pre ++ 37%N :: rest -> on_new_line pre -> cov i D z'.
Proof.
  intros H C P EI N. unfold fetch_directive in H. start z. go H S G (easy_unroll 0). go H S G easy_remove. go H S G (easy_ska false).
  destruct (lifted_aside _ _ _ _ _ _ _ _ H P S) as (l & s & c & tok & E & H'). clear H.
  apply directive_only in E. destruct E as (q & after & EQ & T & LD & PA & SP). injection H' as <- _. rewrite SP.
  apply (cov_signed i D (z_tokens z) _ pre q after (k_type tok) (mark_of pre) (mark_add (List.length q) (mark_of pre))); [exact C|now rewrite <- EQ|now apply wr_directive|reflexivity| | |exact PA].
  - intros _. apply flat_place, flat_no, (directive_flat _ _ T).
  - eexists. split; [exact G|reflexivity].
Qed.
Lemma k_anchor i D pre rest fuel (alias : bool) z z' a : fetch_anchor fuel alias z = (z', Ok a) -> covers i pre (D ++ z_tokens z) -> here pre ((if alias then 42 else 38)%N :: rest) z ->
  i = pre ++ (if alias then 42 else 38)%N :: rest -> cov i D z'.
Proof.
  intros H C P EI. unfold fetch_anchor in H. start z. go H S G easy_save. go H S G (easy_ska false). destruct (lifted_aside _ _ _ _ _ _ _ _ H P S) as (l & s & c & tok & E & H'). clear H.
  apply anchor_only in E. destruct E as (n & after & -> & A & ST & PA & ->). injection H' as <- _. cbn [k_span k_type].
  apply (cov_signed i D (z_tokens z) _ pre ((if alias then 42 else 38)%N :: n) after (if alias then TAlias n else TAnchor n) (mark_of pre) (mark_add (1 + List.length n) (mark_of pre))); [exact C|exact EI|destruct alias; now constructor|reflexivity| | |].
  - intros _. apply (flat_place pre ((if alias then 42 else 38)%N :: n)), flat_no. constructor; [destruct alias; discriminate|exact (anchor_flat _ A)].
  - eexists. split; [exact G|reflexivity].
  - cbn [set_tokens set_cur z_cur]. rewrite PA. apply past_none.
Qed.
Lemma k_tag i D pre rest fuel z z' a : fetch_tag fuel z = (z', Ok a) -> covers i pre (D ++ z_tokens z) -> here pre (33%N :: rest) z -> i = pre ++ 33%N :: rest -> cov i D z'.
Proof.
  intros H C P EI. unfold fetch_tag in H. start z. go H S G easy_save. go H S G (easy_ska false). go H S G (easy_gets z_flow). destruct (lifted_aside _ _ _ _ _ _ _ _ H P S) as (l & s & c & tok & E & H'). clear H.
  apply tag_only in E. destruct E as (q & after & h & v & EQ & T & ST & PA & ->). injection H' as <- _. cbn [k_span k_type].
  apply (cov_signed i D (z_tokens z) _ pre q after (TTag h v) (mark_of pre) (mark_add (List.length q) (mark_of pre))); [exact C|now rewrite <- EQ|now apply (wr_tag _ _ _ _ _ _ T ST)|reflexivity| | |].
  - intros _. apply flat_place, flat_no, (tag_text_flat _ _ _ T).
  - eexists. split; [exact G|reflexivity].
  - cbn [set_tokens set_cur z_cur]. rewrite PA. apply past_none.
Qed.
Lemma k_quoted i D pre rest fuel single z z' a : fetch_flow_scalar fuel single z = (z', Ok a) -> covers i pre (D ++ z_tokens z) -> here pre (quote_byte single :: rest) z -> i = pre ++ quote_byte single :: rest -> cov i D z'.
Proof.
  intros H C P EI. unfold fetch_flow_scalar in H. start z. go H S G easy_save. go H S G (easy_ska false). go H S G (easy_gets z_indent). go H S G (easy_gets z_flow).
  destruct (lifted_aside _ _ _ _ _ _ _ _ H P S) as (l & s & c & tok & E & H'). clear H.
  apply quoted_only in E; [|apply col_pos'].
  destruct E as (q & v & r & after & EQ & T & HR & _ & HC & _ & EC & ->). cbn [k_span k_type] in H'.
  match type of H' with ?m _ = _ => assert (K : pushing (TScalar (if single then SingleQuote else DoubleQuote) v) (mark_of pre) m) by pushes end.
  destruct (K _ _ _ H') as (l0 & e & GL & ET & PA).
  apply (cov_signed i D (z_tokens z) _ pre q (r ++ after) (TScalar (if single then SingleQuote else DoubleQuote) v) (mark_of pre) e); [exact C|now rewrite <- EQ| |reflexivity|destruct single; now intros []| |].
  - destruct single; [apply (wr_quoted _ _ true _ _ _ T)|apply (wr_quoted _ _ false _ _ _ T)].
  - exists l0. split; [exact (grown_trans _ _ _ G GL)|exact ET].
  - apply PA. cbn [set_cur z_cur]. rewrite EC. apply past_gap; [now apply header_gap|]. apply past_at; [constructor|]. cbn [cur c_src]. unfold src. now rewrite <- !app_assoc.
Qed.
Lemma k_plain i D pre rest fuel z z' a : fetch_plain_scalar fuel z = (z', Ok a) -> covers i pre (D ++ z_tokens z) -> here pre rest z -> i = pre ++ rest -> no_blank rest ->
  (forall z1 b, unroll_non_block_indents z = (z1, b) -> (z_indent z1 <= m_col (mark_of pre))%N) -> cov i D z'.
Proof.
  intros H C P EI NB CO. unfold fetch_plain_scalar in H. start z.
  next_step H z1 u E. assert (I1 : z_indents z1 = z_indents z /\ z_indent z1 = z_indent z) by (injection E as <- _; destruct (c_ska (z_cur z)); now split).
  destruct (easy_save _ _ _ E) as [G1 S1]. clear E.
  next_step H z2 u2 E. assert (I2 : z_indents z2 = z_indents z /\ z_indent z2 = z_indent z) by (injection E as <- _; exact I1).
  destruct (easy_ska false _ _ _ E) as [G2 S2]. clear E.
  next_step H z3 u3 E. assert (I3 : (z_indent z3 <= m_col (mark_of pre))%N).
  { destruct I2 as [IA IB]. injection E as <- _. destruct (unroll_non_block_loop (z_indent z2) (z_indents z2)) as [ii rr] eqn:EU. cbn [set_indent z_indent].
    rewrite IA, IB in EU. specialize (CO _ _ eq_refl). rewrite EU in CO. exact CO. }
  destruct (easy_non_block _ _ _ E) as [G3 S3]. clear E.
  apply (grown_trans _ _ _ G2) in G3. apply (grown_trans _ _ _ G1) in G3. apply (aside_trans _ _ _ S2) in S3. apply (aside_trans _ _ _ S1) in S3. clear G S G1 G2 S1 S2.
  next_step H z4 ind E. injection E as <- <-. next_step H z4 flv E. injection E as <- <-.
  destruct (lifted_aside _ _ _ _ _ _ _ _ H P S3) as (l & s & c & tok & E & H'). clear H.
  apply plain_only in E; [|exact NB|now intros _]. destruct E as (q & v & after & -> & T & _ & PA & ->). injection H' as <- _. cbn [k_span k_type].
  apply (cov_signed i D (z_tokens z) _ pre q after (TScalar Plain v) (mark_of pre) (marker_after q (mark_of pre))); [exact C|exact EI|now apply (wr_plain _ _ _ _ _ _ T)|reflexivity|intros _; apply mark_after_place| |exact PA].
  eexists. split; [exact G3|reflexivity].
Qed.
Lemma block_end fuel literal self start c c' tok : scan_block_scalar_body fuel literal self start c = (c', Ok tok) -> s_end (k_span tok) = c_mark c'.
Proof.
  unfold scan_block_scalar_body. intros H. cbv zeta in H. next_step H c1 hdr E. destruct hdr as [ch inc]. next_step H c2 ws E2. next_step H c3 b E3. destruct (negb (is_breakz b)); [discriminate|].
  next_step H c4 cb E4. next_step H c5 b2 E5. destruct (b2 =? 9)%N; [discriminate|]. next_step H c6 it E6. destruct it as [ind tb]. next_step H c7 p E7. next_step H c8 m E8. unfold get_mark in E8. apply gets_ok in E8. destruct E8 as [-> ->].
  destruct p as [b3|]; [|injection H as <- <-; reflexivity]. match type of H with (if ?b then _ else _) _ = _ => destruct b; [discriminate|] end.
  next_step H c9 slt E9. destruct slt as [[string lb] tb2]. next_step H c10 p2 E10. next_step H c11 e E11. unfold get_mark in E11. apply gets_ok in E11. destruct E11 as [-> ->]. injection H as <- <-. reflexivity.
Qed.
Lemma cok_src i c pre rest : cok i c -> i = pre ++ rest -> c_mark c = mark_of pre -> c_src c = src pre rest.
Proof.
  intros (E & L & M) EI EM. destruct c as [[inp p] m l s]. unfold cpos in *. cbn [c_src ss_input ss_pos c_mark] in *. subst inp m. unfold at_pos in EM.
  assert (X : p = List.length pre). { apply (f_equal m_pos) in EM. unfold mark_of in EM. cbn [m_pos] in EM. rewrite firstn_length, Nat.min_l in EM by exact L. lia. }
  unfold src. now rewrite X, <- EI.
Qed.
(** Where the scanner may be after a token that is not the end of the stream. *)
Definition near (i : text) (z : scanner) : Prop := cok i (z_cur z) \/ exists q, z_tokens z = q ++ [the_end i].
Lemma k_block i D pre rest fuel (literal : bool) z z' a : fetch_block_scalar fuel literal z = (z', Ok a) -> covers i pre (D ++ z_tokens z) -> here pre (block_sign literal :: rest) z ->
  i = pre ++ block_sign literal :: rest -> near i z' -> cov i D z'.
Proof.
  intros H C P EI CK. pose proof P as (l & s & EC). unfold fetch_block_scalar in H. start z. go H S G easy_save. go H S G (easy_ska true). at_mark H S EC.
  next_step H z3 u E. apply lift_ok in E. destruct E as (c & E & ->). destruct S as (s1 & EA). rewrite EA, EC in E. cbn [cur c_src c_mark c_lead c_ska] in E.
  change (Cur (StrSrc (pre ++ block_sign literal :: rest) (List.length pre)) (mark_of pre) l s1) with (cur pre (block_sign literal :: rest) (mark_of pre) l s1) in E. rewrite e_skip_non_blank in E. injection E as <- <-.
  next_step H z4 u1 E1. assert (P4 : here (pre ++ [block_sign literal]) rest (set_cur (cur (pre ++ [block_sign literal]) rest (mark_add 1 (mark_of pre)) false s1) z1)).
  { exists false, s1. cbn [set_cur z_cur]. f_equal. rewrite <- mark_after_place. symmetry. apply marker_flat. destruct literal; cbn; intros [X|[]]; discriminate X. }
  destruct (easy_non_block _ _ _ E1) as [G4 S4]. cbn [set_cur z_tokens] in G4. apply (grown_trans _ _ _ G) in G4. assert (P5 := aside_here _ _ _ _ P4 S4). clear E1 P4 S4 EA.
  next_step H z5 ind E2. injection E2 as <- _. destruct (lifted _ _ _ _ _ _ _ H P5) as (l2 & s2 & c & tok & E2 & H'). clear H.
  assert (BE := block_end _ _ _ _ _ _ _ E2).
  apply block_only in E2; [|rewrite <- mark_after_place; rewrite marker_flat; [reflexivity|destruct literal; cbn; intros [X|[]]; discriminate X]].
  destruct E2 as (q & v & k & after & p & r & -> & T & EQ & EK & ->). cbn [k_span s_end] in BE. rewrite mark_after_place, <- app_assoc in BE. cbn [app] in BE. injection H' as <- _. cbn [k_span k_type] in *. destruct CK as [CK|(ql & CK)]; [|apply app_inj_tail in CK; destruct CK as [_ CK]; discriminate CK]. cbn [set_tokens set_cur z_cur] in CK.
  refine (cov_in i D (z_tokens z) _ pre (block_sign literal :: q) after k p r _ _ _ C EI _ EQ EK _ _ _ _).
  - apply (wr_block pre after literal _ _ _ _ T).
  - shelve.
  - shelve.
  - eexists. split; [exact G4|]. reflexivity.
  - cbn [set_tokens set_cur z_cur]. apply past_at; [constructor|]. apply (cok_src i); [exact CK|rewrite EI; cbn [app]; now rewrite <- app_assoc|now symmetry].
  Unshelve.
  + destruct p as [|b p]; subst k; [now rewrite app_nil_r|]. cbn [List.length tl]. cbn [app] in EQ. injection EQ as <- _. rewrite mark_after_place, <- app_assoc. reflexivity.
  + intros _. rewrite mark_after_place, <- app_assoc. reflexivity.
Qed.

(** ** The next token *)
Lemma k_main i D pre b rest fuel z z' a : fetch_main_loop fuel z = (z', Ok a) -> covers i pre (D ++ z_tokens z) -> here pre (b :: rest) z -> i = pre ++ b :: rest -> no_blank (b :: rest) ->
  (forall z1 u, unroll_non_block_indents z = (z1, u) -> (z_indent z1 <= m_col (mark_of pre))%N) -> near i z' -> cov i D z'.
Proof.
  intros H K P EI NB CO CK. pose proof P as (l & s & EC). unfold fetch_main_loop in H.
  next_step H z1 c E. unfold zpeek in E. apply lift_ok in E. destruct E as (c1 & E & ->). rewrite EC, e_peek in E. injection E as <- <-. rewrite <- EC, set_cur_self in H.
  next_step H z1 x E. unfold zpeek in E. apply lift_ok in E. destruct E as (c1 & E & ->). rewrite EC, e_peek in E. injection E as <- <-. rewrite <- EC, set_cur_self in H.
  next_step H z1 flv E. injection E as <- <-. next_step H z1 m E. unfold zmark in E. apply lift_ok in E. destruct E as (c1 & E & ->). injection E as <- <-. rewrite set_cur_self in H.
  next_step H z1 adj E. injection E as <- <-. cbn [nth] in H.
  destruct (b =? 91)%N eqn:Q; [apply N.eqb_eq in Q; subst b; exact (k_open i D pre rest fuel false _ _ _ H K P EI)|clear Q].
  destruct (b =? 123)%N eqn:Q; [apply N.eqb_eq in Q; subst b; exact (k_open i D pre rest fuel true _ _ _ H K P EI)|clear Q].
  destruct (b =? 93)%N eqn:Q; [apply N.eqb_eq in Q; subst b; exact (k_close i D pre rest fuel false _ _ _ H K P EI)|clear Q].
  destruct (b =? 125)%N eqn:Q; [apply N.eqb_eq in Q; subst b; exact (k_close i D pre rest fuel true _ _ _ H K P EI)|clear Q].
  destruct (b =? 44)%N eqn:Q; [apply N.eqb_eq in Q; subst b; exact (k_comma i D pre rest fuel _ _ _ H K P EI)|clear Q].
  destruct ((b =? 45)%N && is_blank_or_breakz (nth 0 rest 0%N)) eqn:Q; [apply andb_prop in Q; destruct Q as [Q W]; apply N.eqb_eq in Q; apply wb_white in W; subst b; exact (k_dash i D pre rest fuel _ _ _ H K P EI W)|clear Q].
  destruct ((b =? 63)%N && is_blank_or_breakz (nth 0 rest 0%N)) eqn:Q; [apply andb_prop in Q; destruct Q as [Q W]; apply N.eqb_eq in Q; apply wb_white in W; subst b; exact (k_question i D pre rest fuel _ _ _ H K P EI W)|clear Q].
  destruct ((b =? 58)%N && is_blank_or_breakz (nth 0 rest 0%N)) eqn:Q; [apply andb_prop in Q; destruct Q as [Q W]; apply N.eqb_eq in Q; subst b; exact (k_colon i D pre rest fuel _ _ _ H K P EI)|clear Q].
  match type of H with (if ?t then _ else _) _ = _ => destruct t eqn:Q end; [apply andb_prop in Q; destruct Q as [Q W]; apply N.eqb_eq in Q; subst b; exact (k_flow_value i D pre rest fuel _ _ _ H K P EI)|clear Q].
  destruct (b =? 42)%N eqn:Q; [apply N.eqb_eq in Q; subst b; exact (k_anchor i D pre rest fuel true _ _ _ H K P EI)|clear Q].
  destruct (b =? 38)%N eqn:Q; [apply N.eqb_eq in Q; subst b; exact (k_anchor i D pre rest fuel false _ _ _ H K P EI)|clear Q].
  destruct (b =? 33)%N eqn:Q; [apply N.eqb_eq in Q; subst b; exact (k_tag i D pre rest fuel _ _ _ H K P EI)|clear Q].
  match type of H with (if ?t then _ else _) _ = _ => destruct t eqn:Q end; [apply andb_prop in Q; destruct Q as [Q W]; apply N.eqb_eq in Q; subst b; exact (k_block i D pre rest fuel true _ _ _ H K P EI CK)|clear Q].
  match type of H with (if ?t then _ else _) _ = _ => destruct t eqn:Q end; [apply andb_prop in Q; destruct Q as [Q W]; apply N.eqb_eq in Q; subst b; exact (k_block i D pre rest fuel false _ _ _ H K P EI CK)|clear Q].
  destruct (b =? 39)%N eqn:Q; [apply N.eqb_eq in Q; subst b; exact (k_quoted i D pre rest fuel true _ _ _ H K P EI)|clear Q].
  destruct (b =? 34)%N eqn:Q; [apply N.eqb_eq in Q; subst b; exact (k_quoted i D pre rest fuel false _ _ _ H K P EI)|clear Q].
  repeat match type of H with (if ?t then _ else _) _ = _ => destruct t end; try exact (k_plain i D pre (b :: rest) fuel _ _ _ H K P EI NB CO).
  unfold unexpected_character in H. destruct (str_peek_char _); discriminate.
Qed.
Lemma k_content i D pre rest fuel z z' a : fetch_next_content fuel z = (z', Ok a) -> covers i pre (D ++ z_tokens z) -> here pre rest z -> i = pre ++ rest -> no_blank rest ->
  (forall z1 u, (z_indent z <= m_col (mark_of pre))%N -> unroll_non_block_indents z = (z1, u) -> (z_indent z1 <= m_col (mark_of pre))%N) -> near i z' -> cov i D z'.
Proof.
  intros H K P EI NB CO CK. pose proof P as (l & s & EC). unfold fetch_next_content in H. cbv zeta in H.
  destruct (str_buf_is_empty (c_src (z_cur z))) eqn:EE.
  { exists pre, rest. split; [exact EI|]. unfold fetch_stream_end in H. next_step H z1 u E.
    assert (K1 : z_tokens z1 = z_tokens z /\ c_src (z_cur z1) = c_src (z_cur z)) by (injection E as <- _; destruct (negb _); now split). clear E.
    next_step H z2 u2 E. assert (K2 : z_tokens z2 = z_tokens z1 /\ c_src (z_cur z2) = c_src (z_cur z1)) by (destruct (end_keys_loop _) as [kk []]; [discriminate|injection E as <- _; now split]). clear E.
    destruct K1 as [T1 S1], K2 as [T2 S2]. rewrite T1 in T2. rewrite S1 in S2. clear z1 T1 S1.
    match type of H with ?m _ = _ => assert (L : easy m) by easies end. destruct (L _ _ _ H) as [G A]. rewrite T2 in G. rewrite (aside_src _ _ A), S2, EC. split; [reflexivity|]. exact (covers_grown _ _ _ _ _ G K). }
  assert (RN : rest <> []). { intros ->. rewrite EC in EE. unfold str_buf_is_empty, cur in EE. cbn [c_src ss_input ss_pos] in EE. rewrite app_nil_r in EE. lia. }
  assert (R : forall zz, (if (m_col (c_mark (z_cur z)) <? z_indent z)%N then zerr (c_mark (z_cur z)) "invalid indentation" z else fetch_main_loop fuel z) = (zz, Ok a) -> near i zz -> cov i D zz).
  { intros zz HZ CZ. destruct (m_col (c_mark (z_cur z)) <? z_indent z)%N eqn:LT; [discriminate|]. rewrite EC in LT. cbn [cur c_mark] in LT.
    destruct rest as [|b rest]; [congruence|]. apply (k_main i D pre b rest fuel _ _ _ HZ K P EI NB); [|exact CZ]. intros z1 u U. apply (CO z1 u); [lia|exact U]. }
  destruct (m_col (c_mark (z_cur z)) =? 1)%N eqn:C1; [|now apply R].
  assert (NL : on_new_line pre) by (apply mark_col; rewrite EC in C1; cbn [cur c_mark] in C1; lia).
  unfold process_start in H. destruct (peekz str_ops (c_src (z_cur z)) 0 =? 37)%N eqn:Q.
  { rewrite EC, cur_peek in Q. apply N.eqb_eq in Q. destruct rest as [|b rest]; [discriminate|]. cbn [nth] in Q. subst b. exact (k_directive i D pre rest fuel _ _ _ H K P EI NL). }
  clear Q. destruct (next_is_three str_ops (c_src (z_cur z)) 45 && is_blank_or_breakz (peekz str_ops (c_src (z_cur z)) 3)) eqn:Q.
  { rewrite EC, cur_peek in Q. apply andb_prop in Q. destruct Q as [Q W]. apply three_is in Q; [|discriminate]. destruct Q as (r & ->). apply wb_white in W.
    refine (proj1 (k_marker i D pre r 45 _ _ _ _ H K P EI _ _)); [discriminate|]. now apply (wr_document pre r). }
  clear Q. destruct (next_is_three str_ops (c_src (z_cur z)) 46 && is_blank_or_breakz (peekz str_ops (c_src (z_cur z)) 3)) eqn:Q; [|now apply R].
  rewrite EC, cur_peek in Q. apply andb_prop in Q. destruct Q as [Q W]. apply three_is in Q; [|discriminate]. destruct Q as (r & ->). apply wb_white in W.
  exact (k_finish i D pre r fuel _ _ _ H K P EI NL W).
Qed.

Lemma k_next i D fuel z z' a : live i D z -> fetch_next_token fuel z = (z', Ok a) -> cov i D z -> cov i D z'.
Proof.
  intros L H K. assert (NR : near i z').
  { assert (A := f_next i D fuel z L). unfold after in A. rewrite H in A. destruct A as (_ & [(A & _)|(A & _)]); [left; exact (l_cur _ _ _ A)|right; destruct (e_toks _ _ _ A) as (q & Q & _); now exists q]. }
  unfold fetch_next_token in H. next_step H z0 st E. injection E as <- <-. rewrite (proj1 (l_flags _ _ _ L)) in H. cbn [negb] in H.
  next_step H z1 u1 E. assert (K1 := cov_spaced i D _ _ _ _ (spaced_next fuel) E K).
  assert (R : zruns i D (zskip_to_next_token fuel) z (fun z' _ => is_blank (peekz str_ops (c_src (z_cur z')) 0) = false /\ is_break (peekz str_ops (c_src (z_cur z')) 0) = false) True True True).
  { apply zr_last, zr_next_token; [exact L|auto|]. intros c C1 _ B L1. now apply zr_ret. }
  unfold zruns in R. rewrite E in R. destruct R as (_ & L1 & _ & B1). clear E K L.
  next_step H z2 u2 E. assert (K2 := cov_spaced i D _ _ _ _ (easy_spaced _ easy_stale) E K1).
  assert (R : zruns i D stale_simple_keys z1 (fun z' _ => z_cur z' = z_cur z1) True True True) by (apply zr_last, zr_stale; [exact L1|]; intros ks L2; now apply zr_ret).
  unfold zruns in R. rewrite E in R. destruct R as (_ & L2 & _ & C2). clear E K1 L1. rewrite <- C2 in B1. clear C2 z1.
  next_step H z3 mm E. unfold zmark in E. apply lift_ok in E. destruct E as (c & E & ->). injection E as <- <-. rewrite set_cur_self in H.
  next_step H z4 u4 E. assert (K4 := cov_spaced i D _ _ _ _ (easy_spaced _ (easy_unroll _)) E K2). destruct (easy_unroll _ _ _ _ E) as [_ A4].
  assert (R : zruns i D (unroll_indent (m_col (c_mark (z_cur z2)))) z2 (fun _ _ => True) True True True) by (apply zr_last, zr_unroll; [exact L2|]; intros z5 L5 _ _ _; now apply zr_ret).
  unfold zruns in R. rewrite E in R. destruct R as (_ & L4 & _ & _). clear E K2.
  destruct K4 as (pre & rest & EI & ES & C4). destruct (cok_cur i _ (l_cur _ _ _ L4)) as (pre' & rest' & l & s & EI' & EC).
  assert (X : pre' = pre /\ rest' = rest).
  { rewrite EC in ES. unfold cur, src in ES. cbn [c_src] in ES. injection ES as E1 E2. rewrite E1 in EI'. clear - E1 E2. revert pre E1 E2. induction pre' as [|x p IH]; intros [|y q] E1 E2; try discriminate E2; [now split|].
    cbn [app] in E1. injection E1 as -> E1. cbn [List.length] in E2. destruct (IH _ E1) as [-> ->]; [lia|now split]. }
  destruct X as [-> ->]. clear EI'. rewrite <- (aside_src _ _ A4) in B1. rewrite EC, !cur_peek in B1.
  refine (k_content i D pre rest fuel _ _ _ H C4 _ EI _ _ NR).
  - now exists l, s.
  - unfold no_blank. destruct B1 as [B1 B2]. unfold is_blank in B1. unfold is_break in B2. cbn [In]. lia.
  - intros z5 u LE U. unfold unroll_non_block_indents, modify in U. pose proof (non_block_le _ _ _ (l_chain _ _ _ L4)) as NB. destruct (unroll_non_block_loop (z_indent z4) (z_indents z4)) as [ind r]. cbn [fst] in NB.
    injection U as <- _. cbn [set_indent set_indents z_indent]. lia.
Qed.
Lemma k_more i D fuel : forall n z z' a, live i D z \/ ended i D z -> fetch_more_tokens n fuel z = (z', Ok a) -> cov i D z -> cov i D z'.
Proof.
  induction n as [|n IH]; intros z z' a S H K; [discriminate|]. cbn [fetch_more_tokens] in H. next_step H z0 toks E. injection E as <- <-.
  destruct S as [L|EN].
  - assert (G : forall z1, live i D z1 -> cov i D z1 -> bind (fetch_next_token fuel) (fun _ => fetch_more_tokens n fuel) z1 = (z', Ok a) -> cov i D z').
    { intros z1 L1 K1 H1. next_step H1 z2 u E. assert (K2 := k_next i D fuel _ _ _ L1 E K1). assert (A := f_next i D fuel z1 L1). unfold after in A. rewrite E in A. destruct A as (_ & A).
      apply (IH z2 z' a); [|exact H1|exact K2]. destruct A as [(A & _)|(A & _)]; [now left|now right]. }
    next_step H z1 need E. destruct (z_tokens z) as [|t r] eqn:ET; [injection E as <- <-; now apply (G z)|].
    next_step E z2 u E2. assert (K2 := cov_spaced i D _ _ _ _ (easy_spaced _ easy_stale) E2 K).
    assert (R : zruns i D stale_simple_keys z (fun z' _ => True) True True True) by (apply zr_last, zr_stale; [exact L|]; intros ks L2; now apply zr_ret).
    unfold zruns in R. rewrite E2 in R. destruct R as (_ & L2 & _). injection E as <- <-. destruct (key_pending z2); [now apply (G z2)|]. injection H as <- _. exact K2.
  - next_step H z1 need E. destruct (e_toks _ _ _ EN) as (q & Q & _). destruct (z_tokens z) as [|t r] eqn:ET; [destruct q; discriminate|].
    next_step E z2 u E2. assert (K2 := cov_spaced i D _ _ _ _ (easy_spaced _ easy_stale) E2 K). assert (KI := e_keys _ _ _ EN).
    unfold stale_simple_keys in E2. rewrite stale_impossible in E2 by (apply Forall_rev; exact KI). rewrite rev_involutive in E2. cbv beta iota zeta in E2. injection E2 as <- _. injection E as <- <-.
    assert (KP : key_pending (set_keys (z_keys z) z) = false).
    { unfold key_pending. cbn [set_keys z_keys]. clear - KI. induction KI as [|k l P _ IH]; [reflexivity|]. cbn [existsb]. rewrite P. exact IH. }
    rewrite KP in H. injection H as <- _. exact K2.
Qed.
Lemma k_step i D p fuel z z' t : ready i D p z -> next fuel z = (z', Ok (Some t)) -> cov i D z -> cov i (D ++ [t]) z'.
Proof.
  intros R H K. destruct (ready_flags_ok _ _ _ _ R) as (F1 & F2 & F3 & F4). unfold next in H. rewrite F1, F2 in H. destruct (next_token fuel z) as [z1 o] eqn:E.
  destruct o as [t1| | | |]; try discriminate. injection H as -> ->. unfold next_token in E. next_step E z2 pr E1. injection E1 as <- <-. rewrite F3 in E. next_step E z2 av E1. injection E1 as <- <-. rewrite F4 in E. cbn [negb] in E.
  next_step E z2 u E1. assert (K2 : cov i D z2).
  { destruct R as (_ & [(-> & -> & _)|[(L & _)|(EN & _)]]); [|exact (k_more i D fuel _ _ _ _ (or_introl L) E1 K)|exact (k_more i D fuel _ _ _ _ (or_intror EN) E1 K)].
    destruct fuel as [|fuel]; [discriminate|]. cbn [fetch_more_tokens] in E1. next_step E1 z3 toks E2. injection E2 as <- <-. change (z_tokens (scanner_new i)) with (@nil token) in E1. cbv iota in E1.
    next_step E1 z3 need E2. injection E2 as <- <-. next_step E1 z3 u3 E2. destruct (start_fetch i (S fuel)) as (z4 & E4 & L4 & _). rewrite E4 in E2. injection E2 as <- _.
    refine (k_more i [] (S fuel) _ _ _ _ (or_introl L4) E1 _). unfold fetch_next_token in E4. next_step E4 z5 st E5. injection E5 as <- <-. change (negb (z_started (scanner_new i))) with true in E4. cbv iota in E4.
    injection E4 as <- . exists [], i. split; [reflexivity|]. split; [reflexivity|]. cbn [app]. apply (cv_implied i [] [] []); [constructor|implies|reflexivity]. }
  destruct K2 as (pre & rest & EI & ES & C2). destruct (z_tokens z2) as [|t2 r] eqn:ET; [discriminate|]. cbv zeta in E. injection E as <- <-. exists pre, rest. split; [exact EI|]. rewrite <- app_assoc. cbn [app]. destruct (is_stream_end t2); (split; [exact ES|exact C2]).
Qed.
(** What has been delivered, and what is still to be. *)
Lemma all_covered i fuel : forall z l z1, delivered fuel z l z1 -> forall D p, ready i D p z -> cov i D z -> cov i (D ++ l) z1.
Proof.
  induction 1 as [z|z z1 z2 t l N1 D1 IH]; intros D p R K; [now rewrite app_nil_r|]. assert (K1 := k_step i D p fuel _ _ _ R N1 K). replace (D ++ t :: l) with ((D ++ [t]) ++ l) by now rewrite <- app_assoc.
  assert (P := next_ok i D p fuel z R). rewrite N1 in P. destruct P as (_ & [(q & Q & R1)|O]); [exact (IH _ _ R1 K1)|]. inversion D1; subst; [now rewrite app_nil_r|].
  match goal with H : next fuel z1 = _ |- _ => rewrite (over_next _ _ _ _ O) in H; discriminate end.
Qed.
Lemma cov_start i : cov i [] (scanner_new i).
Proof. exists [], i. split; [reflexivity|]. split; [reflexivity|]. apply cv_start. Qed.
Theorem some_covered i fuel : exists x rest q, i = x ++ rest /\ covers i x (fst (scan fuel i) ++ q).
Proof.
  unfold scan. destruct (scan_run fuel fuel (scanner_new i)) as [l [z' o]] eqn:E. cbn [fst]. destruct (scan_run_delivered _ _ _ _ _ _ E) as (z1 & DL & _).
  destruct (all_covered i fuel _ _ _ DL [] _ (ready_new i) (cov_start i)) as (x & rest & EI & _ & C). exists x, rest, (z_tokens z1). now split.
Qed.
Lemma last_step i D p fuel z z' t : ready i D p z -> next fuel z = (z', Ok (Some t)) -> k_type t = TStreamEnd -> z_tokens z' = [].
Proof.
  intros R H KT. destruct (ready_flags_ok _ _ _ _ R) as (F1 & F2 & F3 & F4). assert (M := more_ready i D p fuel z R). unfold next in H. rewrite F1, F2 in H. destruct (next_token fuel z) as [z1 o] eqn:E.
  destruct o as [t1| | | |]; try discriminate. injection H as -> ->. unfold next_token in E. next_step E z2 pr E1. injection E1 as <- <-. rewrite F3 in E. next_step E z2 av E1. injection E1 as <- <-. rewrite F4 in E. cbn [negb] in E.
  next_step E z2 u E1. rewrite E1 in M. destruct M as (_ & M). destruct (z_tokens z2) as [|t2 r] eqn:ET; [discriminate|]. cbv zeta in E. injection E as <- <-.
  assert (X : r = []).
  { destruct M as [(L & _)|(EN & _)].
    - assert (X := l_no_end _ _ _ L). rewrite ET in X. apply Forall_app in X as [_ X]. apply Forall_inv in X. contradiction.
    - destruct (e_toks _ _ _ EN) as (q & Q & Q1 & _). rewrite ET in Q. destruct q as [|y q]; cbn [app] in Q; [now injection Q as _ ->|]. injection Q as -> _. apply Forall_app in Q1 as [_ Q1]. apply Forall_inv in Q1. contradiction. }
  subst r. destruct (is_stream_end t2); reflexivity.
Qed.
Lemma over_empty i fuel : forall z l z1, delivered fuel z l z1 -> forall D p, ready i D p z -> over i (D ++ l) z1 -> z_tokens z1 = [].
Proof.
  induction 1 as [z|z z1 z2 t l N1 D1 IH]; intros D p R O.
  - destruct (ready_flags_ok _ _ _ _ R) as (_ & F & _). destruct (o_flags _ _ _ O) as [F1 _]. congruence.
  - replace (D ++ t :: l) with ((D ++ [t]) ++ l) in O by now rewrite <- app_assoc. assert (P := next_ok i D p fuel z R). rewrite N1 in P. destruct P as (_ & [(q & Q & R1)|O1]); [exact (IH _ _ R1 O)|].
    inversion D1; subst; [|match goal with H : next fuel z1 = _ |- _ => rewrite (over_next _ _ _ _ O1) in H; discriminate end].
    apply (last_step i D p fuel z z2 t R N1). destruct (o_toks _ _ _ O1) as (q & E & _). apply app_inj_tail in E. destruct E as [_ ->]. reflexivity.
Qed.
Theorem whole_covered i fuel l z : scan fuel i = (l, (z, Ok tt)) -> z_error z = None -> covers i i l.
Proof.
  intros H NE. unfold scan in H. destruct (scan_run_delivered _ _ _ _ _ _ H) as (z1 & DL & E1).
  assert (K := all_covered i fuel _ _ _ DL [] _ (ready_new i) (cov_start i)). cbn [app] in K.
  destruct E1 as [(E1 & _)|(_ & N1)]; [discriminate|].
  assert (O1 : over i l z1).
  { destruct (delivered_new i fuel l z1 DL) as [(q & _ & R)|O1]; [|exact O1]. assert (P := next_ok i l q fuel z1 R). rewrite N1 in P. destruct P as (_ & e & E & _). rewrite NE in E. discriminate. }
  assert (ET := over_empty i fuel _ _ _ DL [] _ (ready_new i) O1). destruct K as (x & rest & EI & ES & C). rewrite ET, app_nil_r in C.
  destruct (o_cur _ _ _ O1) as (_ & EP & _). unfold cpos in EP. rewrite ES in EP. unfold src in EP. cbn [ss_pos] in EP.
  assert (rest = []) as ->. { rewrite EI in EP. rewrite app_length in EP. destruct rest; [reflexivity|cbn [List.length] in EP; lia]. }
  rewrite app_nil_r in EI. now rewrite EI in C |- *.
Qed.
