(** The scanner over quoted scalars with escapes and over several lines. *)
From Verif Require Import Base Tokens Scalar Chars Source Cursor SpecScalar SpecJson SpecQuoted SpecBlock SpecPlain SpecStrings
  ExactCursor FoldedQuotes ExactPlain JsonCursor BlockScan PlainScan SpecLayout LayoutCursor.
From Coq Require Import String Lia ZifyBool ZifyNat ZifyN.
Local Open Scope list_scope.
Local Open Scope m_scope.

(** ** Codes of characters *)
Lemma positional_scale base h : forall w, positional base w h = (w * positional base 1 h)%N.
Proof.
  induction h as [|c h IH]; intros w; cbn [positional]; [lia|]. rewrite IH, (IH (1 * base)%N). lia.
Qed.
Lemma number_snoc h d : number 16 (h ++ [d]) = (number 16 h * 16 + Z.of_N (digit_val d))%Z.
Proof. unfold number. rewrite rev_app_distr. cbn [rev app positional]. rewrite positional_scale. lia. Qed.
Lemma number_nonneg h : (0 <= number 16 h)%Z.
Proof. unfold number. lia. Qed.
Lemma number_bound h : Forall hex_digit h -> (number 16 h < 16 ^ Z.of_nat (List.length h))%Z.
Proof.
  induction h as [|d h IH] using rev_ind; intros F; [reflexivity|]. apply Forall_app in F. destruct F as [F D].
  inversion_clear D as [|? ? D' _]. destruct (hex_digit_val d D') as (_ & _ & B). specialize (IH F).
  rewrite number_snoc, app_length, Nat2Z.inj_add, Z.pow_add_r by lia. cbn [List.length]. change (16 ^ Z.of_nat 1)%Z with 16%Z. lia.
Qed.
Lemma hex_run start h : forall done pre rest m l s, Forall hex_digit (done ++ h) -> List.length (done ++ h) <= 8 ->
  hex_value start (List.length h) (List.length done) (Z.to_N (number 16 done)) (cur pre (done ++ h ++ rest) m l s)
  = (cur pre (done ++ h ++ rest) m l s, Ok (Z.to_N (number 16 (done ++ h)))).
Proof.
  induction h as [|d h IH]; intros done pre rest m l s F L; cbn [List.length hex_value].
  - now rewrite app_nil_r.
  - assert (D : hex_digit d) by (apply Forall_app in F; destruct F as [_ F]; now inversion F).
    destruct (hex_digit_val d D) as (H1 & H2 & H3).
    unfold bind at 1. rewrite e_peek. cbn [app]. rewrite app_nth2, Nat.sub_diag by lia. cbn [nth]. rewrite H1, H2. cbn [negb].
    replace (done ++ d :: h ++ rest) with ((done ++ [d]) ++ h ++ rest) by (rewrite <- app_assoc; reflexivity).
    replace (done ++ d :: h) with ((done ++ [d]) ++ h) by (rewrite <- app_assoc; reflexivity).
    rewrite <- IH.
    + assert (B : (number 16 done < 16 ^ 7)%Z).
      { apply Z.lt_le_trans with (16 ^ Z.of_nat (List.length done))%Z.
        - apply number_bound. apply Forall_app in F. tauto.
        - apply Z.pow_le_mono_r; [lia|]. rewrite app_length in L. cbn [List.length] in L. clear - L. lia. }
      change (16 ^ 7)%Z with 268435456%Z in B. pose proof (number_nonneg done) as P.
      rewrite app_length. cbn [List.length]. rewrite Nat.add_1_r. f_equal. rewrite number_snoc.
      clear - B P. rewrite N.mod_small by lia. lia.
    + now rewrite <- app_assoc.
    + now rewrite <- app_assoc.
Qed.

(** ** Characters *)
Definition text_ends (single : bool) (rest : text) : Prop :=
  is_blank_or_breakz (nth 0 rest 0%N) = true \/ (nth 0 rest 0%N = quote_byte single /\ (single = true -> nth 1 rest 0%N <> 39%N)).
Lemma piece_runs single start p v fuel string pre rest m l s : piece single p v ->
  consume_chars (S fuel) single start string (cur pre (p ++ rest) m l s)
  = consume_chars fuel single start (string ++ v) (cur (pre ++ p) rest (mark_add (List.length p) m) false s).
Proof.
  intros [b NB NQ NE|E|c x u -> HI U|c n h x u -> HI LH FH NV VB NS U].
  - cbn [app consume_chars]. unfold bind at 1. rewrite e_peek. unfold bind at 1. rewrite e_peek. cbn [nth].
    assert (Y : is_blank_or_breakz b = false) by (unfold is_blank_or_breakz, is_blank, is_break; cbn [In] in NB; lia). rewrite Y.
    destruct single; unfold quote_byte in NQ.
    + replace ((b =? 39)%N) with false by lia. cbn [andb negb]. rewrite !andb_false_r. cbn [andb]. unfold bind at 1. rewrite e_skip_non_blank. reflexivity.
    + specialize (NE eq_refl). rewrite !andb_false_r. replace ((b =? 34)%N) with false by lia. replace ((b =? 92)%N) with false by lia. cbn [andb].
      unfold bind at 1. rewrite e_skip_non_blank. reflexivity.
  - subst single. cbn [app consume_chars]. unfold bind at 1. rewrite e_peek. unfold bind at 1. rewrite e_peek. cbn [nth].
    change (is_blank_or_breakz 39) with false. change ((39 =? 39)%N) with true. cbn [andb]. unfold bind at 1.
    change (39%N :: 39%N :: rest) with ([39; 39]%N ++ rest). rewrite e_skip_n by reflexivity. reflexivity.
  - cbn [app consume_chars]. unfold bind at 1. rewrite e_peek. unfold bind at 1. rewrite e_peek. cbn [nth].
    change (is_blank_or_breakz 92) with false. change ((92 =? 39)%N) with false. change ((92 =? 34)%N) with false. change ((92 =? 92)%N) with true. cbn [andb negb].
    assert (EC : is_break c = false /\ escape_code c = Some (inl x)).
    { cbn [escapes In] in HI. repeat (destruct HI as [HI|HI]; [injection HI as <- <-; repeat split|]). contradiction. }
    destruct EC as (EC1 & EC2). rewrite EC1. unfold resolve_escape. unfold bind at 1. unfold bind at 1. rewrite e_peek. cbn [nth]. rewrite EC2.
    unfold bind at 1. change (92%N :: c :: rest) with ([92%N; c] ++ rest). rewrite e_skip_n by reflexivity. unfold ret at 1.
    rewrite (utf8_implements x u U). reflexivity.
  - cbn [app consume_chars]. unfold bind at 1. rewrite e_peek. unfold bind at 1. rewrite e_peek. cbn [nth].
    change (is_blank_or_breakz 92) with false. change ((92 =? 39)%N) with false. change ((92 =? 34)%N) with false. change ((92 =? 92)%N) with true. cbn [andb negb].
    assert (EC : is_break c = false /\ escape_code c = Some (inr n) /\ n <= 8).
    { cbn [code_escapes In] in HI. repeat (destruct HI as [HI|HI]; [injection HI as <- <-; repeat split; lia|]). contradiction. }
    destruct EC as (EC1 & EC2 & N8). rewrite EC1. unfold resolve_escape. unfold bind at 1. unfold bind at 1. rewrite e_peek. cbn [nth]. rewrite EC2.
    unfold bind at 1. change (92%N :: c :: h ++ rest) with ([92%N; c] ++ h ++ rest). rewrite e_skip_n by reflexivity. cbn [List.length].
    unfold bind at 1.
    pose proof (hex_run start h [] (pre ++ [92%N; c]) rest (mark_add 2 m) false s FH ltac:(cbn [app]; lia)) as HX.
    cbn [app List.length] in HX. change (Z.to_N (number 16 [])) with 0%N in HX. rewrite LH in HX. rewrite HX.
    rewrite NV, N2Z.id.
    assert (CU : char_from_u32 x = Some x).
    { unfold char_from_u32. unfold surrogate in NS. clear - NS VB. replace ((x <? 55296)%N || (57344 <=? x)%N && (x <? 1114112)%N) with true by lia. reflexivity. }
    rewrite CU. unfold bind at 1. rewrite e_skip_n by now rewrite LH. unfold ret at 1. rewrite (utf8_implements x u U).
    rewrite mark_add_add, <- !app_assoc. cbn [app List.length]. reflexivity.
Qed.
Lemma piece_shape single p v : piece single p v -> p <> [] /\ stops p /\ ~ In 10%N p /\ ~ In (nth 0 p 0%N) [0; 32; 9; 10; 13]%N.
Proof.
  intros [b NB _ _|_|c x u _ HI _|c n h x u _ HI _ FH _ _ _ _].
  - split; [discriminate|]. cbn [In] in NB. repeat split; cbn [nth]; try (intros ->; tauto).
    + intros [->|[]]. tauto.
    + cbn [In]. intuition.
  - split; [discriminate|]. split; [repeat split; discriminate|]. split; [now intros [X|[X|[]]]|cbn; intuition discriminate].
  - split; [discriminate|]. split; [repeat split; discriminate|]. split; [|cbn; intuition discriminate]. intros [X|[->|[]]]; [discriminate|].
    cbn [escapes In] in HI. intuition discriminate.
  - split; [discriminate|]. split; [repeat split; discriminate|]. split; [|cbn; intuition discriminate]. intros [X|[->|X]]; [discriminate| |].
    + cbn [code_escapes In] in HI. intuition discriminate.
    + rewrite Forall_forall in FH. specialize (FH _ X). unfold hex_digit in FH. lia.
Qed.
Lemma chars_run single start t u : chars single t u -> forall fuel string pre rest m l s,
  exists f l', fuel <= f /\ consume_chars (List.length t + fuel) single start string (cur pre (t ++ rest) m l s)
  = consume_chars f single start (string ++ u) (cur (pre ++ t) rest (mark_add (List.length t) m) l' s).
Proof.
  induction 1 as [|p v t u P C IH]; intros fuel string pre rest m l s.
  - exists fuel, l. split; [lia|]. cbn [List.length app]. now rewrite mark_add_0, !app_nil_r.
  - destruct (piece_shape single p v P) as (NP & _). destruct p as [|p0 p1] eqn:EP; [congruence|]. rewrite <- EP in *.
    destruct (IH (List.length p1 + fuel) (string ++ v) (pre ++ p) rest (mark_add (List.length p) m) false s) as (f & l' & FF & E).
    exists f, l'. split; [lia|]. rewrite <- app_assoc.
    replace (List.length (p ++ t) + fuel) with (S (List.length t + (List.length p1 + fuel))) by (rewrite app_length, EP; cbn [List.length]; lia).
    rewrite (piece_runs single start p v _ string pre (t ++ rest) m l s P), E, mark_add_add, app_length, <- !app_assoc. reflexivity.
Qed.
Lemma chars_flat single t u : chars single t u -> ~ In 10%N t.
Proof.
  induction 1 as [|p v t u P C IH]; [easy|]. destruct (piece_shape single p v P) as (_ & _ & NL & _). rewrite in_app_iff. tauto.
Qed.
Lemma chars_stops single t u rest : chars single t u -> t <> [] -> stops (t ++ rest).
Proof.
  intros [|p v t' u' P C] N; [congruence|]. destruct (piece_shape single p v P) as (NP & SP & _). destruct p; [congruence|]. exact SP.
Qed.
Lemma ends_here single start fuel string pre rest m l s : text_ends single rest ->
  consume_chars (S fuel) single start string (cur pre rest m l s) = (cur pre rest m l s, Ok (string, false)).
Proof.
  intros E. cbn [consume_chars]. unfold bind. rewrite !e_peek. destruct E as [-> | [-> G]]; [reflexivity|]. destruct single; unfold quote_byte.
  - change (is_blank_or_breakz 39) with false. cbv iota. change ((39 =? 39)%N) with true. cbn [andb].
    rewrite (proj2 (N.eqb_neq _ _) (G eq_refl)). reflexivity.
  - reflexivity.
Qed.
Lemma joins_here start fuel string b pre rest m l s :
  consume_chars (S fuel) false start string (cur pre (92%N :: eol b ++ rest) m l s)
  = (cur (pre ++ 92%N :: eol b) rest (marker_after (92%N :: eol b) m) true s, Ok (string, true)).
Proof.
  cbn [consume_chars]. unfold bind at 1. rewrite e_peek. unfold bind at 1. rewrite e_peek. cbn [nth].
  change (is_blank_or_breakz 92) with false. change ((92 =? 39)%N) with false. change ((92 =? 34)%N) with false. change ((92 =? 92)%N) with true. cbn [andb negb].
  rewrite eol_break. unfold bind at 1. rewrite e_skip_non_blank. unfold bind at 1. rewrite e_break. unfold ret. rewrite marker_step by discriminate.
  rewrite <- app_assoc. reflexivity.
Qed.

(** ** White space *)
Lemma whites_drop indent ws lb tb : forall bs fuel pre rest m l s, Forall white_byte bs -> (indent <= m_col m)%N -> List.length bs <= fuel ->
  flow_blanks fuel indent true ws lb tb (cur pre (bs ++ rest) m l s)
  = flow_blanks (fuel - List.length bs) indent true ws lb tb (cur (pre ++ bs) rest (mark_add (List.length bs) m) l s).
Proof.
  induction bs as [|b bs IH]; intros fuel pre rest m l s W C F.
  - cbn [List.length app]. now rewrite mark_add_0, Nat.sub_0_r, app_nil_r.
  - destruct fuel as [|fuel]; [cbn in F; lia|]. apply Forall_cons_iff in W. destruct W as [HB W]. cbn [List.length] in *.
    cbn [flow_blanks app]. unfold bind. rewrite e_peek, e_get_mark. cbn [nth]. destruct (white_is b HB) as [-> _]. cbn [orb].
    replace ((m_col m <? indent)%N) with false by lia. rewrite andb_false_r. rewrite e_skip_blank. rewrite IH by (auto; unfold mark_add; cbn [Base.m_col]; lia).
    rewrite mark_add_add, <- app_assoc. reflexivity.
Qed.
Lemma starts_drop n indent ws lb tb x fuel pre rest m l s : line_start n x -> (indent <= N.of_nat n + 1)%N -> (1 <= m_col m)%N -> List.length x <= fuel ->
  flow_blanks fuel indent true ws lb tb (cur pre (x ++ rest) m l s)
  = flow_blanks (fuel - List.length x) indent true ws lb tb (cur (pre ++ x) rest (mark_add (List.length x) m) l s).
Proof.
  intros (k & more & -> & W & NK) I C F. rewrite app_length, repeat_length in *. rewrite <- app_assoc. rewrite blanks_drop by lia.
  destruct more as [|b more].
  - cbn [List.length app]. rewrite app_nil_r, Nat.add_0_r. reflexivity.
  - specialize (NK ltac:(discriminate)). rewrite whites_drop; [|exact W|unfold mark_add; cbn [Base.m_col]; lia|lia].
    rewrite mark_add_add, <- !app_assoc, Nat.sub_add_distr. reflexivity.
Qed.
Lemma reads_eol b acc pre rest m l s : read_break acc (cur pre (eol b ++ rest) m l s) = (cur (pre ++ eol b) rest (marker_after (eol b) m) true s, Ok (acc ++ [10%N])).
Proof.
  unfold read_break. destruct b; cbn [eol app]; unfold bind at 1.
  - rewrite e_skip_crlf. unfold ret. repeat f_equal. unfold mark_newline. cbn. f_equal; lia.
  - rewrite e_skip_lf. reflexivity.
Qed.
Lemma first_eol b fuel indent ws lb tb pre rest m l s :
  flow_blanks (S fuel) indent false ws lb tb (cur pre (eol b ++ rest) m l s)
  = flow_blanks fuel indent true [] (lb ++ [10%N]) tb (cur (pre ++ eol b) rest (marker_after (eol b) m) true s).
Proof.
  cbn [flow_blanks]. unfold bind. rewrite e_peek, e_get_mark. rewrite eol_break. destruct (eol_is b rest) as [-> _]. cbn [orb].
  rewrite reads_eol. reflexivity.
Qed.
Lemma further_eol b fuel indent ws lb tb pre rest m l s :
  flow_blanks (S fuel) indent true ws lb tb (cur pre (eol b ++ rest) m l s)
  = flow_blanks fuel indent true ws lb (tb ++ [10%N]) (cur (pre ++ eol b) rest (marker_after (eol b) m) true s).
Proof.
  cbn [flow_blanks]. unfold bind. rewrite e_peek, e_get_mark. rewrite eol_break. destruct (eol_is b rest) as [-> _]. cbn [orb].
  rewrite reads_eol. reflexivity.
Qed.
Lemma eol_col b m : m_col (marker_after (eol b) m) = 1%N.
Proof. now destruct b. Qed.
Lemma start_flat n x : line_start n x -> ~ In 10%N x.
Proof.
  intros (k & more & -> & W & _) H. apply in_app_or in H. destruct H as [H|H]; [now apply no_lf_spaces in H|]. now apply white_no_lf in H.
Qed.
Lemma empties_drop n indent ws lb : (indent <= N.of_nat n + 1)%N -> forall e fuel tb pre rest m s, Forall (fun x => line_start n (fst x)) e ->
  (1 <= m_col m)%N -> List.length (empty_text e) <= fuel ->
  exists f, fuel - List.length (empty_text e) <= f /\ flow_blanks fuel indent true ws lb tb (cur pre (empty_text e ++ rest) m true s)
  = flow_blanks f indent true ws lb (tb ++ repeat 10%N (List.length e)) (cur (pre ++ empty_text e) rest (marker_after (empty_text e) m) true s) /\
    (1 <= m_col (marker_after (empty_text e) m))%N.
Proof.
  intros I. induction e as [|[x b] e IH]; intros fuel tb pre rest m s W C F.
  - exists fuel. split; [cbn; lia|]. cbn [empty_text flat_map app List.length repeat marker_after]. rewrite !app_nil_r. now split.
  - apply Forall_cons_iff in W. destruct W as [W1 W2]. cbn [empty_text flat_map fst snd] in *. fold (empty_text e) in *. rewrite !app_length in F. pose proof (eol_length b) as EL.
    destruct (fuel - List.length x) as [|f1] eqn:EF; [lia|].
    destruct (IH f1 (tb ++ [10%N]) ((pre ++ x) ++ eol b) rest (marker_after (eol b) (mark_add (List.length x) m)) s W2) as (f & FF & E & CC).
    { now rewrite eol_col. }
    { lia. }
    exists f. split; [rewrite !app_length; lia|]. rewrite <- !app_assoc. rewrite (starts_drop n) by (auto; lia). rewrite EF, further_eol, E.
    rewrite !marker_after_app, (marker_flat x) by now apply (start_flat n). split; [|exact CC].
    cbn [List.length repeat]. rewrite <- !app_assoc. reflexivity.
Qed.
Lemma lines_drop n indent b e i more lb rest fuel pre m s ws tb :
  (indent <= N.of_nat n + 1)%N -> Forall (fun x => line_start n (fst x)) e -> n <= i -> Forall white_byte more -> stops rest ->
  m_col m = 1%N -> List.length (empty_text e ++ repeat 32%N i ++ more) < fuel ->
  flow_blanks fuel indent true ws lb tb (cur (pre ++ eol b) (empty_text e ++ repeat 32%N i ++ more ++ rest) m true s)
  = (cur (pre ++ lines_text b e i more) rest (marker_after (empty_text e ++ repeat 32%N i ++ more) m) true s, Ok (true, ws, lb, tb ++ repeat 10%N (List.length e))).
Proof.
  intros I WE NI WM ST C F. rewrite !app_length, repeat_length in F.
  destruct (empties_drop n indent ws lb I e fuel tb (pre ++ eol b) (repeat 32%N i ++ more ++ rest) m s WE ltac:(lia) ltac:(lia)) as (f & FF & -> & C1).
  rewrite blanks_drop by lia. rewrite whites_drop; [|exact WM|unfold mark_add; cbn [Base.m_col]; lia|lia].
  destruct (f - i - List.length more) as [|f1] eqn:EF; [lia|]. rewrite blanks_stop by exact ST.
  rewrite !marker_after_app, (marker_flat (repeat 32%N i)) by apply no_lf_spaces. rewrite repeat_length, (marker_flat more) by now apply white_no_lf.
  unfold lines_text. rewrite <- !app_assoc. reflexivity.
Qed.
Lemma lines_col b e i more m : Forall white_byte more -> m_col (marker_after (lines_text b e i more) m) = (1 + N.of_nat i + N.of_nat (List.length more))%N.
Proof.
  intros W. unfold lines_text. rewrite !marker_after_app.
  assert (X : m_col (marker_after (empty_text e) (marker_after (eol b) m)) = 1%N).
  { assert (Y : m_col (marker_after (eol b) m) = 1%N) by apply eol_col. revert Y. generalize (marker_after (eol b) m).
    induction e as [|[x y] e IH]; intros m0 Y; [exact Y|]. cbn [empty_text flat_map fst snd]. fold (empty_text e). rewrite !marker_after_app. apply IH. apply eol_col. }
  rewrite (marker_flat (repeat 32%N i)) by apply no_lf_spaces. rewrite repeat_length.
  rewrite (marker_flat more) by now apply white_no_lf. unfold mark_add. cbn [Base.m_col]. lia.
Qed.

(** ** The loop *)
Lemma quote_same single : quote_byte single = quote single.
Proof. now destruct single. Qed.
(** What the loop does in one turn. *)
Definition turn (fuel : nat) (single : bool) (indent : N) (start : marker) (string : text) : CM text :=
  let* (string, lblanks) := consume_chars fuel single start string in
  let* c := peek 0 in
  if ((c =? 39)%N && single) || ((c =? 34)%N && negb single) then ret string
  else
    let* (lblanks, ws, lb, tb) := flow_blanks fuel indent lblanks [] [] [] in
    if lblanks then
      match lb with
      | [] => flow_loop fuel single indent start (string ++ lb ++ tb) ws [] []
      | _ => flow_loop fuel single indent start (string ++ match tb with [] => [32%N] | _ => tb end) ws [] []
      end
    else flow_loop fuel single indent start (string ++ ws) [] lb tb.
Lemma loop_turn fuel single indent start string body pre rest m l s : (indent <= m_col m)%N ->
  (m_col m = 1%N -> ~ doc_mark (body ++ [quote_byte single])) ->
  flow_loop (S fuel) single indent start string [] [] [] (cur pre (body ++ quote_byte single :: rest) m l s)
  = turn fuel single indent start string (cur pre (body ++ quote_byte single :: rest) m l s).
Proof.
  intros CI CD. rewrite quote_same in *. cbn [flow_loop]. unfold bind at 1 2 3. rewrite e_get_mark. unfold gets at 1. rewrite e_peek_checked.
  assert (IND : ((m_col m =? 1)%N && next_is_document_indicator str_ops (c_src (cur pre (body ++ quote single :: rest) m l s))) = false).
  { destruct (N.eqb_spec (m_col m) 1) as [C|C]; [|reflexivity]. cbn [andb]. specialize (CD C).
    destruct (next_is_document_indicator str_ops (c_src (cur pre (body ++ quote single :: rest) m l s))) eqn:E; [|reflexivity].
    exfalso. apply CD. refine (indicator_is _ _ _ _ _ E (quote single) (quote_not _ single eq_refl) _ eq_refl _ rest eq_refl). }
  rewrite IND.
  assert (NE : exists x, nth_error (body ++ quote single :: rest) 0 = Some x) by (destruct body; cbn; eauto).
  destruct NE as [x ->]. replace ((m_col m <? indent)%N) with false by lia. reflexivity.
Qed.
Lemma chars_none single u : chars single [] u -> u = [].
Proof.
  intros H. remember [] as t eqn:E. destruct H as [|p v t u P C]; [reflexivity|]. destruct (piece_shape single p v P) as (NP & _). destruct p; [congruence|discriminate].
Qed.
Lemma not_closing single rest : nth 0 rest 0%N <> quote_byte single -> ((nth 0 rest 0%N =? 39)%N && single) || ((nth 0 rest 0%N =? 34)%N && negb single) = false.
Proof. destruct single; cbn [quote_byte andb orb negb]; lia. Qed.
(** A turn that stays in the line, or that ends it. *)
Lemma turn_keeps n single indent start string t u g rest fuel pre m l s : chars single t u -> (indent <= N.of_nat n + 1)%N ->
  match g with QJoin _ _ _ _ _ => False | _ => quote_gap_ok single n g end -> stops rest -> List.length (t ++ quote_gap_text g) < fuel ->
  exists l', turn fuel single indent start string (cur pre (t ++ quote_gap_text g ++ rest) m l s)
  = flow_loop fuel single indent start (string ++ u ++ quote_gap_value g) [] [] [] (cur (pre ++ t ++ quote_gap_text g) rest (marker_after (t ++ quote_gap_text g) m) l' s).
Proof.
  intros C I G ST F. unfold turn. rewrite app_length in F.
  destruct (chars_run single start t u C (fuel - List.length t) string pre (quote_gap_text g ++ rest) m l s) as (f & l1 & FF & E).
  replace (List.length t + (fuel - List.length t)) with fuel in E by lia. unfold bind at 1. rewrite E.
  destruct f as [|f]; [lia|].
  assert (HD : exists b, quote_gap_text g ++ rest = b :: skipn 1 (quote_gap_text g ++ rest) /\ In b [32; 9; 10; 13]%N).
  { destruct g as [bs|tr b e i more|tr b e i more]; [| |contradiction]; cbn [quote_gap_text quote_gap_ok] in *.
    - destruct G as [NB W]. destruct W as [|x bs [-> | ->] W]; [congruence| |]; eexists; (split; [reflexivity|cbn; tauto]).
    - destruct G as (W & _). destruct W as [|x tr [-> | ->] W]; [|eexists; (split; [reflexivity|cbn; tauto])..].
      destruct b; eexists; (split; [reflexivity|cbn; tauto]). }
  destruct HD as (b0 & HD & IB).
  assert (N0 : nth 0 (quote_gap_text g ++ rest) 0%N = b0) by (rewrite HD; reflexivity).
  rewrite ends_here. 2: { left. rewrite N0. clear - IB. cbn [In] in IB. unfold is_blank_or_breakz, is_blank, is_break. lia. }
  unfold bind at 1. rewrite e_peek, not_closing.
  2: { rewrite N0. clear - IB. destruct single; cbn [In quote_byte] in *; lia. }
  unfold bind at 1. rewrite !marker_after_app, (marker_flat t) by now apply (chars_flat single t u).
  destruct g as [bs|tr b e i more|tr b e i more]; [| |contradiction]; cbn [quote_gap_text quote_gap_ok quote_gap_value] in *.
  - destruct G as [NB W]. rewrite blanks_keep by (auto; lia). destruct (fuel - List.length bs) as [|f1] eqn:EF; [lia|].
    rewrite blanks_stop by exact ST. exists l1. cbn [app]. rewrite (marker_flat bs) by now apply white_no_lf. rewrite <- !app_assoc. reflexivity.
  - destruct G as (W & WE & NI & WM). rewrite !app_length in F. unfold lines_text in F. rewrite app_length in F. pose proof (eol_length b) as EL.
    unfold lines_text at 1. rewrite <- !app_assoc. rewrite blanks_keep by (auto; lia).
    destruct (fuel - List.length tr) as [|f1] eqn:EF; [lia|]. rewrite first_eol.
    rewrite (lines_drop n indent) by (auto; try apply eol_col; lia). cbn [app]. exists true.
    replace (marker_after (tr ++ lines_text b e i more) (mark_add (List.length t) m))
      with (marker_after (empty_text e ++ repeat 32%N i ++ more) (marker_after (eol b) (mark_add (List.length tr) (mark_add (List.length t) m)))).
    2: { unfold lines_text. rewrite (marker_after_app tr), (marker_flat tr) by now apply white_no_lf. now rewrite (marker_after_app (eol b)). }
    rewrite <- !app_assoc. destruct e as [|x e]; cbn [List.length repeat]; reflexivity.
Qed.
(** A turn that ends at an escaped line break. *)
Lemma turn_joins n indent start string t u b e i more body rest fuel pre m l s : chars false t u -> (indent <= N.of_nat n + 1)%N ->
  lines_ok n [] e i more -> (body = [] \/ stops body) -> nth 0 body 0%N <> 34%N -> List.length (t ++ 92%N :: lines_text b e i more) + 1 < fuel ->
  (i = 0 /\ more = [] -> ~ doc_mark (body ++ [34%N])) ->
  let g := 92%N :: lines_text b e i more in
  exists f l', fuel - 1 <= f /\ turn fuel false indent start string (cur pre (t ++ g ++ body ++ 34%N :: rest) m l s)
  = turn f false indent start (string ++ u ++ repeat 10%N (List.length e)) (cur (pre ++ t ++ g) (body ++ 34%N :: rest) (marker_after (t ++ g) m) l' s).
Proof.
  intros C I (_ & WE & NI & WM) ST NQ F MD. cbv zeta. set (g := 92%N :: lines_text b e i more) in *. rewrite app_length in F. unfold turn at 1.
  destruct (chars_run false start t u C (fuel - List.length t) string pre (g ++ body ++ 34%N :: rest) m l s) as (f & l1 & FF & E).
  replace (List.length t + (fuel - List.length t)) with fuel in E by lia. unfold bind at 1. rewrite E. destruct f as [|f]; [lia|].
  assert (ST' : stops (body ++ 34%N :: rest)) by (destruct body; [repeat split; discriminate|destruct ST as [ST|ST]; [discriminate|exact ST]]).
  unfold g at 1. cbn [app]. unfold lines_text at 1. rewrite <- !app_assoc. rewrite joins_here. unfold bind at 1. rewrite e_peek.
  assert (MG : marker_after (empty_text e ++ repeat 32%N i ++ more) (marker_after (92%N :: eol b) (mark_add (List.length t) m)) = marker_after (t ++ g) m).
  { unfold g, lines_text. rewrite (marker_after_app t), (marker_flat t) by now apply (chars_flat false t u).
    rewrite !(marker_step 92) by discriminate. now rewrite (marker_after_app (eol b)). }
  assert (CG : m_col (marker_after (t ++ g) m) = (1 + N.of_nat i + N.of_nat (List.length more))%N).
  { unfold g. rewrite marker_after_app, marker_step by discriminate. now apply lines_col. }
  assert (DM : m_col (marker_after (t ++ g) m) = 1%N -> ~ doc_mark (body ++ [quote_byte false])).
  { rewrite CG. intros C1. apply MD. split; [lia|]. destruct more; [reflexivity|cbn [List.length] in C1; lia]. }
  cbn [negb andb orb]. rewrite andb_false_r, andb_true_r. cbn [orb].
  destruct (N.eqb_spec (nth 0 (empty_text e ++ repeat 32%N i ++ more ++ body ++ 34%N :: rest) 0%N) 34) as [E34|N34].
  - (* the quote follows at once *)
    assert (EE : e = [] /\ i = 0 /\ more = [] /\ body = []).
    { destruct e as [|[x y] e].
      - split; [reflexivity|]. cbn [empty_text flat_map app] in E34. destruct i as [|i]; [|discriminate].
        split; [reflexivity|]. cbn [repeat app] in E34. destruct WM as [|z more [-> | ->] WM]; [|discriminate..].
        split; [reflexivity|]. cbn [app] in E34. destruct body; [reflexivity|]. exfalso. now apply NQ.
      - exfalso. apply Forall_cons_iff in WE. destruct WE as [(k & mo & EX & WX & _) _]. cbn [fst] in EX. subst x.
        cbn [empty_text flat_map fst snd] in E34. rewrite <- !app_assoc in E34. destruct k; [|discriminate]. cbn [repeat app] in E34.
        destruct WX as [|z mo [-> | ->] WX]; [|discriminate..]. destruct y; discriminate. }
    destruct EE as (-> & -> & -> & ->). cbn [empty_text flat_map repeat List.length app] in *. rewrite app_nil_r.
    exists fuel, true. split; [lia|]. unfold turn. unfold bind at 1. destruct fuel as [|fuel']; [lia|].
    rewrite ends_here. 2: { right. split; [reflexivity|discriminate]. }
    unfold bind at 1. rewrite e_peek. cbn [nth]. change ((34 =? 39)%N && false || (34 =? 34)%N && negb false) with true. cbv iota. unfold ret.
    rewrite <- MG. cbn [marker_after]. unfold g, lines_text. cbn [empty_text flat_map repeat app]. rewrite app_nil_r, <- !app_assoc. reflexivity.
  - unfold bind at 1.
    replace (pre ++ t) with (pre ++ t) by reflexivity.
    replace ((pre ++ t) ++ 92%N :: eol b) with (((pre ++ t) ++ [92%N]) ++ eol b) by (rewrite <- !app_assoc; reflexivity).
    rewrite (lines_drop n indent); auto.
    2: { rewrite marker_step by discriminate. apply eol_col. }
    2: { unfold g in F. cbn [List.length] in F. unfold lines_text in F. rewrite (app_length (eol b)) in F. lia. }
    rewrite MG. cbn [app]. destruct fuel as [|fuel']; [lia|].
    exists fuel', true. split; [lia|].
    change 34%N with (quote_byte false) at 1. rewrite loop_turn; [|rewrite CG; lia|exact DM].
    unfold g. rewrite <- !app_assoc. reflexivity.
Qed.

Lemma chars_no_quote t u : chars false t u -> nth 0 t 0%N <> 34%N.
Proof.
  intros [|p v t' u' P C]; [discriminate|]. destruct P as [b _ NQ _|E|c x y _ _ _|c n h x y _ _ _ _ _ _ _ _]; cbn [app nth]; [exact NQ|discriminate..].
Qed.
Lemma words_nonempty single n r v : quoted_words single n r v -> r = [] -> v = [].
Proof.
  intros H. destruct H as [|g t u r v G C RT D M]; [reflexivity|]. intros E. exfalso.
  apply app_eq_nil in E. destruct E as [E _]. destruct g as [bs|tr b e i more|tr b e i more]; cbn [quote_gap_text quote_gap_ok] in *.
  - now destruct G.
  - apply app_eq_nil in E. destruct E as [_ E]. unfold lines_text in E. apply app_eq_nil in E. destruct E as [E _]. destruct b; discriminate.
  - apply app_eq_nil in E. destruct E as [_ E]. discriminate.
Qed.
Lemma body_stops single n t u r v q : chars single t u -> quoted_words single n r v -> (r <> [] -> t <> []) -> stops q -> stops (t ++ r ++ q).
Proof.
  intros C M RT Q. destruct t as [|x t].
  - destruct r; [exact Q|exfalso; apply RT; [discriminate|reflexivity]].
  - apply (chars_stops single (x :: t) u); [exact C|discriminate].
Qed.
Lemma quote_byte_stops single rest : stops (quote_byte single :: rest).
Proof. destruct single; repeat split; discriminate. Qed.
Lemma words_run n single indent start rest : (single = true -> nth 0 rest 0%N <> 39%N) -> (indent <= N.of_nat n + 1)%N ->
  forall r v, quoted_words single n r v -> forall t u fuel string pre m l s, chars single t u -> (1 <= m_col m)%N -> (indent <= m_col m)%N ->
  List.length (t ++ r) + 1 < fuel ->
  exists l', turn fuel single indent start string (cur pre (t ++ r ++ quote_byte single :: rest) m l s)
  = (cur (pre ++ t ++ r) (quote_byte single :: rest) (marker_after (t ++ r) m) l' s, Ok (string ++ u ++ v)).
Proof.
  intros QR I. induction 1 as [|g t' u' r v G C' RT D M IH]; intros t u fuel string pre m l s C C1 CI F.
  - cbn [app] in *. rewrite !app_nil_r in *. unfold turn.
    destruct (chars_run single start t u C (fuel - List.length t) string pre (quote_byte single :: rest) m l s) as (f & l1 & FF & E).
    replace (List.length t + (fuel - List.length t)) with fuel in E by lia. unfold bind at 1. rewrite E. destruct f as [|f]; [lia|].
    rewrite ends_here by (right; split; [reflexivity|exact QR]). unfold bind at 1. rewrite e_peek. cbn [nth]. exists l1.
    rewrite (marker_flat t) by now apply (chars_flat single t u). destruct single; reflexivity.
  - assert (ST : stops ((t' ++ r) ++ quote_byte single :: rest)) by (rewrite <- app_assoc; eapply body_stops; eauto using quote_byte_stops).
    assert (SIMPLE : match g with QJoin _ _ _ _ _ => False | _ => True end -> exists l',
      turn fuel single indent start string (cur pre (t ++ quote_gap_text g ++ (t' ++ r) ++ quote_byte single :: rest) m l s)
      = (cur (pre ++ t ++ quote_gap_text g ++ t' ++ r) (quote_byte single :: rest) (marker_after (t ++ quote_gap_text g ++ t' ++ r) m) l' s, Ok (string ++ u ++ quote_gap_value g ++ u' ++ v))).
    { intros NJ.
      assert (G' : match g with QJoin _ _ _ _ _ => False | _ => quote_gap_ok single n g end) by (destruct g; auto).
      assert (LG : 1 <= List.length (quote_gap_text g)).
      { destruct g as [bs|tr b e i more|]; [| |contradiction]; cbn [quote_gap_text]; [destruct G as [G _]; destruct bs; [congruence|cbn; lia]|].
        unfold lines_text. rewrite !app_length. pose proof (eol_length b). lia. }
      rewrite !app_length in F.
      destruct (turn_keeps n single indent start string t u g ((t' ++ r) ++ quote_byte single :: rest) fuel pre m l s C I G' ST) as (l1 & E1).
      { rewrite app_length. lia. }
      rewrite E1. destruct fuel as [|fuel]; [lia|].
      assert (CM : (1 <= m_col (marker_after (t ++ quote_gap_text g) m) /\ indent <= m_col (marker_after (t ++ quote_gap_text g) m))%N /\
        (m_col (marker_after (t ++ quote_gap_text g) m) = 1%N -> at_margin g)).
      { rewrite marker_after_app, (marker_flat t) by now apply (chars_flat single t u).
        destruct g as [bs|tr b e i more|tr b e i more]; cbn [quote_gap_text quote_gap_ok at_margin] in *; [| |contradiction].
        - rewrite (marker_flat bs) by (apply white_no_lf; tauto). unfold mark_add. cbn [Base.m_col]. clear - C1 CI LG. lia.
        - destruct G as (W & WE & NI & WM). rewrite marker_after_app. rewrite lines_col by exact WM. split; [clear - I NI; lia|]. intros E. split; [clear - E; lia|].
          destruct more; [reflexivity|cbn [List.length] in E; clear - E; lia]. }
      destruct CM as ((CM1 & CM2) & CM3).
      rewrite loop_turn; [|exact CM2|]. 2: { intros E. rewrite <- app_assoc. apply D. now apply CM3. }
      rewrite <- app_assoc. destruct (IH t' u' fuel (string ++ u ++ quote_gap_value g) (pre ++ t ++ quote_gap_text g) (marker_after (t ++ quote_gap_text g) m) l1 s C' CM1 CM2) as (l2 & E2).
      { rewrite app_length. lia. }
      exists l2. rewrite E2. rewrite <- (marker_after_app (t ++ quote_gap_text g)), <- !app_assoc. reflexivity. }
    replace (t ++ (quote_gap_text g ++ t' ++ r) ++ quote_byte single :: rest) with (t ++ quote_gap_text g ++ (t' ++ r) ++ quote_byte single :: rest) by (rewrite <- !app_assoc; reflexivity).
    destruct g as [bs|tr b e i more|tr b e i more]; [now apply SIMPLE..|]. clear SIMPLE.
    cbn [quote_gap_text quote_gap_ok quote_gap_value at_margin] in *. destruct G as [-> (W & WE & NI & WM)]. cbn [quote_byte] in *.
    set (g := 92%N :: lines_text b e i more) in *. change ([92%N] ++ lines_text b e i more) with g in F |- * .
    assert (LG : 2 <= List.length g).
    { unfold g, lines_text. cbn [List.length]. rewrite !app_length. pose proof (eol_length b). lia. }
    rewrite !app_length in F.
    assert (LO : lines_ok n [] e i more) by (split; [constructor|tauto]).
    assert (BS : t' ++ r = [] \/ stops (t' ++ r)).
    { destruct (t' ++ r) as [|y z] eqn:EY; [now left|right]. exact ST. }
    assert (NQ : nth 0 (t' ++ r) 0%N <> 34%N).
    { destruct t' as [|y t'']; [|exact (chars_no_quote _ _ C')]. destruct r as [|y r']; [discriminate|exfalso; apply RT; [discriminate|reflexivity]]. }
    assert (MD : i = 0 /\ more = [] -> ~ doc_mark ((t' ++ r) ++ [34%N])) by (rewrite <- app_assoc; exact D).
    (* behind the white space in front of the backslash *)
    assert (J : forall t0 u0 fuel string pre m l, chars false t0 u0 -> List.length t0 + List.length g + List.length (t' ++ r) + 1 < fuel -> exists l',
      turn fuel false indent start string (cur pre (t0 ++ g ++ (t' ++ r) ++ 34%N :: rest) m l s)
      = (cur (pre ++ t0 ++ g ++ t' ++ r) (34%N :: rest) (marker_after (t0 ++ g ++ t' ++ r) m) l' s, Ok (string ++ u0 ++ repeat 10%N (List.length e) ++ u' ++ v))).
    { clear - C I LO BS NQ MD IH C' LG WM NI. intros t0 u0 fuel string pre m l C0 F.
      destruct (turn_joins n indent start string t0 u0 b e i more (t' ++ r) rest fuel pre m l s C0 I LO BS NQ) as (f & l1 & FF & E1).
      { rewrite app_length. fold g. lia. }
      { exact MD. }
      fold g in E1. rewrite E1.
      assert (CG : m_col (marker_after (t0 ++ g) m) = (1 + N.of_nat i + N.of_nat (List.length more))%N).
      { unfold g. rewrite marker_after_app, marker_step by discriminate. now apply lines_col. }
      rewrite <- app_assoc.
      destruct (IH t' u' f (string ++ u0 ++ repeat 10%N (List.length e)) (pre ++ t0 ++ g) (marker_after (t0 ++ g) m) l1 s C') as (l2 & E2).
      { rewrite CG. clear. lia. }
      { rewrite CG. clear - I NI. lia. }
      { lia. }
      exists l2. rewrite E2. rewrite <- (marker_after_app (t0 ++ g)), <- !app_assoc. reflexivity. }
    destruct tr as [|x tr].
    + cbn [app]. destruct (J t u fuel string pre m l C) as (l' & E); [rewrite app_length; cbn [List.length] in F; lia|]. exists l'. exact E.
    + rewrite <- !app_assoc. cbn [List.length] in F.
      destruct (turn_keeps n false indent start string t u (QBlanks (x :: tr)) (g ++ t' ++ r ++ 34%N :: rest) fuel pre m l s C I) as (l1 & E1).
      { split; [discriminate|exact W]. }
      { repeat split; discriminate. }
      { rewrite app_length. cbn [quote_gap_text List.length]. lia. }
      cbn [quote_gap_text quote_gap_value] in E1. rewrite E1. clear E1.
      destruct fuel as [|fuel]; [lia|].
      assert (CM : m_col (marker_after (t ++ x :: tr) m) = (m_col m + N.of_nat (List.length (t ++ x :: tr)))%N).
      { rewrite marker_flat; [reflexivity|]. rewrite in_app_iff. intros [X|X]; [now apply (chars_flat false t u)|now apply white_no_lf in X]. }
      assert (LX : 1 <= List.length (t ++ x :: tr)) by (rewrite app_length; cbn [List.length]; lia).
      replace (g ++ t' ++ r ++ 34%N :: rest) with ((g ++ t' ++ r) ++ quote_byte false :: rest) by (rewrite <- !app_assoc; reflexivity).
      rewrite loop_turn; [|rewrite CM; clear - CI LX; lia|intros E; exfalso; rewrite CM in E; clear - E C1 LX; lia].
      replace ((g ++ t' ++ r) ++ quote_byte false :: rest) with ([] ++ g ++ (t' ++ r) ++ 34%N :: rest) by (rewrite <- !app_assoc; reflexivity).
      destruct (J [] [] fuel (string ++ u ++ x :: tr) (pre ++ t ++ x :: tr) (marker_after (t ++ x :: tr) m) l1 (ch_none _)) as (l2 & E2).
      { rewrite app_length. cbn [List.length]. lia. }
      exists l2. rewrite E2. cbn [app]. rewrite <- (marker_after_app (t ++ x :: tr)), <- !app_assoc. cbn [app]. reflexivity.
Qed.

(** ** The scalar *)
Lemma quoted_text single n q v : quoted_scalar single n q v -> exists body, q = quote_byte single :: body ++ [quote_byte single].
Proof. intros [t u r x _ _]. exists (t ++ r). now rewrite <- app_assoc. Qed.
(** A scalar of one line. *)
Lemma eol_lf b : In 10%N (eol b).
Proof. destruct b; cbn; auto. Qed.
Lemma quoted_line single n k q v : ~ In 10%N q -> quoted_scalar single n q v -> quoted_scalar single k q v.
Proof.
  intros NL Q. revert NL. destruct Q as [t u r x C M]. intros NL. constructor; [exact C|].
  assert (NR : ~ In 10%N r) by (intros H; apply NL; right; apply in_or_app; right; apply in_or_app; now left). clear NL C.
  induction M as [|g t' u' r v G C RT D M IH]; constructor; auto.
  - destruct g as [bs|tr b e i more|tr b e i more]; [exact G|exfalso..]; apply NR; cbn [quote_gap_text]; unfold lines_text; rewrite !in_app_iff; auto using eol_lf.
  - apply IH. intros H. apply NR. rewrite !in_app_iff. auto.
Qed.
Lemma scans_quoted single n q v indent in_flow r after fuel pre m l s : quoted_scalar single n q v -> (indent <= N.of_nat n + 1)%N ->
  line_rest r -> ~ In (nth 0 after 0%N) [32; 9; 35; 39]%N -> (single = true -> nth 0 (r ++ after) 0%N <> 39%N) -> (In 35%N r -> is_breakz (nth 0 after 0%N) = true) ->
  (is_breakz (nth 0 after 0%N) = true \/ (in_flow = true /\ In (nth 0 after 0%N) [44; 125; 93; 58]%N) \/ (in_flow = false /\ nth 0 after 0%N = 58%N /\ ~ In 10%N q)) ->
  List.length (q ++ r) + 2 < fuel -> (0 < m_col m)%N -> (indent <= m_col m + 1)%N ->
  scan_flow_scalar fuel single indent in_flow (cur pre (q ++ r ++ after) m l s)
  = (cur (pre ++ q ++ r) after (mark_add (List.length r) (marker_after q m)) false s,
     Ok (Token (Span m (mark_add (List.length r) (marker_after q m))) (TScalar (if single then SingleQuote else DoubleQuote) v))).
Proof.
  intros Q I LR NB QR BZ END F C1 CI. destruct Q as [t u w x C M].
  set (q := quote_byte single :: t ++ w ++ [quote_byte single]) in *.
  assert (LQ : List.length q = List.length (t ++ w) + 2) by (unfold q; cbn [List.length]; rewrite !app_length; cbn [List.length]; lia).
  rewrite app_length in F.
  unfold scan_flow_scalar. unfold bind at 1. rewrite e_get_mark. unfold q at 1. cbn [app]. rewrite <- !app_assoc. cbn [app].
  unfold bind at 1. rewrite e_skip_non_blank. unfold bind at 1.
  destruct fuel as [|fuel]; [lia|].
  rewrite (app_assoc t w). rewrite loop_turn.
  2: { unfold mark_add. cbn [Base.m_col]. clear - CI. lia. }
  2: { intros E. exfalso. revert E. unfold mark_add. cbn [Base.m_col]. clear - C1. lia. }
  rewrite <- app_assoc.
  destruct (words_run n single indent m (r ++ after) QR I w x M t u fuel [] (pre ++ [quote_byte single]) (mark_add 1 m) false s C) as [l' H].
  { unfold mark_add. cbn [Base.m_col]. clear - C1. lia. }
  { unfold mark_add. cbn [Base.m_col]. clear - CI. lia. }
  { lia. }
  rewrite H. cbn [app]. unfold bind at 1. rewrite e_skip_non_blank. unfold bind at 1.
  match goal with |- context [skip_ws_to_eol _ _ _ (cur ?p (r ++ after) ?mm ?ll ?ss)] => destruct (e_ws_rest r (S fuel) false p after mm ll ss LR) as (any & has & EW & _) end.
  { cbn [In] in *. tauto. }
  { exact BZ. }
  { lia. }
  rewrite EW. unfold bind. rewrite e_peek, e_get_mark.
  assert (QN : quote_byte single <> 10%N) by (destruct single; discriminate).
  assert (EL : mark_add 1 (marker_after (t ++ w) (mark_add 1 m)) = marker_after q m).
  { unfold q. rewrite marker_step by exact QN. rewrite (app_assoc t w), (marker_after_app (t ++ w) [quote_byte single]). symmetry. apply (marker_step (quote_byte single) [] _ QN). }
  rewrite EL.
  match goal with |- context [if ?b then _ else _] => assert (BT : b = true) end.
  { destruct END as [-> | [[-> H1] | (-> & -> & NL)]].
    - now rewrite !orb_true_r.
    - clear - H1. cbn [In] in H1. lia.
    - rewrite marker_flat by exact NL. cbn [mark_add Base.m_line]. rewrite !N.eqb_refl. reflexivity. }
  rewrite BT. unfold ret, q. cbn [app]. rewrite <- !app_assoc. cbn [app]. reflexivity.
Qed.
Lemma scans_quoted_rest single n q v indent in_flow r after fuel pre m l s : quoted_scalar single n q v -> (indent <= N.of_nat n + 1)%N ->
  line_rest r -> may_follow in_flow q after -> (In 35%N r -> In (nth 0 after 0%N) [10; 13; 0]%N) ->
  List.length (q ++ r) + 2 < fuel -> (0 < m_col m)%N -> (indent <= m_col m + 1)%N ->
  scan_flow_scalar fuel single indent in_flow (cur pre (q ++ r ++ after) m l s)
  = (cur (pre ++ q ++ r) after (marker_after (q ++ r) m) false s,
     Ok (Token (Span m (marker_after (q ++ r) m)) (TScalar (if single then SingleQuote else DoubleQuote) v))).
Proof.
  intros Q I LR MF BZ F C1 CI. rewrite marker_after_app, (marker_flat r).
  2: { destruct LR as [k|k c FC]; [apply no_lf_spaces|]. rewrite in_app_iff. intros [X|[X|X]]; [now apply no_lf_spaces in X|discriminate|].
       rewrite Forall_forall in FC. specialize (FC _ X). unfold comment_byte in FC. cbn [In] in FC. tauto. }
  assert (Z : ~ In (nth 0 after 0%N) [32; 9; 35; 39]%N /\ (is_breakz (nth 0 after 0%N) = true \/ (in_flow = true /\ In (nth 0 after 0%N) [44; 125; 93; 58]%N) \/ (in_flow = false /\ nth 0 after 0%N = 58%N /\ ~ In 10%N q))).
  { destruct after as [|c after]; cbn [may_follow nth] in *; [split; [cbn; intuition discriminate|now left]|].
    change (str ",}]:") with [44; 125; 93; 58]%N in MF. split.
    - intros X. cbn [In] in MF, X. repeat (destruct X as [<-|X]; [intuition discriminate|]). exact X.
    - destruct MF as [MF|MF]; [|right; exact MF]. left. cbn [In] in MF. unfold is_breakz, is_break. lia. }
  destruct Z as [Z1 Z2]. apply (scans_quoted single n); auto.
  - intros _ E. destruct LR as [k|k c FC]; destruct k; cbn [repeat app nth] in E; try discriminate.
    apply Z1. rewrite E. cbn. tauto.
  - intros H. specialize (BZ H). cbn [In] in BZ. unfold is_breakz, is_break. lia.
Qed.
