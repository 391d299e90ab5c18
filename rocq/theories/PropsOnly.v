(** Whatever the scanner accepts as an anchor, an alias, a tag or a directive is one. *)
From Verif Require Import Base Tokens Scalar Chars Source Cursor SpecScalar SpecJson SpecQuoted SpecBlock SpecPlain SpecStrings SpecProps SpecAccept
  ExactCursor FoldedQuotes ExactPlain JsonCursor BlockScan PlainScan SpecLayout LayoutCursor StringScan PropsScan QuotedOnly GapsOnly.
From Verif Require ParserProofs.
From Coq Require Import String Lia ZifyBool ZifyNat ZifyN.
Local Open Scope list_scope.
Local Open Scope m_scope.

Ltac next_step H c a E := apply bind_ok in H; destruct H as (c & a & E & H).
Ltac peeked H := let c1 := fresh "c1" in let c := fresh "c" in let E := fresh "E" in
  next_step H c1 c E; first [rewrite e_peek in E|rewrite e_get_mark in E]; injection E as <- <-.

(** ** Character classes *)
Lemma anchor_is b : is_anchor_char b = true -> anchor_byte b.
Proof. intros H. unfold anchor_byte. cbn. unfold is_anchor_char, is_yaml_non_space, is_blank, is_break, is_flow in H. lia. Qed.
Lemma anchor_is_not b : is_anchor_char b = false -> ~ anchor_byte b.
Proof. intros H A. apply anchor_char in A. congruence. Qed.
Lemma alpha_is b : is_alpha b = true -> handle_byte b.
Proof. unfold is_alpha, is_ascii_alphanumeric, is_ascii_digit, handle_byte, SpecProps.word_byte. lia. Qed.
Lemma uri_is b : is_uri_char b = true -> b = 37%N \/ uri_byte b.
Proof.
  unfold is_uri_char. intros H. apply orb_prop in H. destruct H as [H|H].
  - right. left. unfold is_word_char, is_ascii_alphanumeric, is_ascii_digit in H. unfold SpecProps.word_byte. lia.
  - apply existsb_exists in H. destruct H as (x & I & E). apply N.eqb_eq in E. subst x. unfold uri_byte. change (str "#;/?:@&=+$,_.!~*'()[]%") with (str "#;/?:@&=+$,_.!~*'()[]" ++ [37%N]) in I.
    apply in_app_iff in I. destruct I as [I|[I|[]]]; [right; right; exact I|left; auto].
Qed.
Lemma tag_is b : is_tag_char b = true -> b = 37%N \/ tag_byte b.
Proof.
  unfold is_tag_char. intros H. apply andb_prop in H. destruct H as [H N1]. apply andb_prop in H. destruct H as [H N2]. apply uri_is in H. destruct H as [H|H]; [now left|right].
  split; [exact H|]. cbn. unfold is_flow in N2. lia.
Qed.
Lemma handle_tag b : handle_byte b -> tag_byte b.
Proof.
  intros [H| ->].
  - split; [left; exact H|]. cbn. unfold SpecProps.word_byte in H. lia.
  - split; [right; cbn; tauto|]. cbn. lia.
Qed.

(** ** Runs *)
Lemma run_ok p fuel pre rest m l s c' x : p 0%N = false -> run_while p fuel (cur pre rest m l s) = (c', Ok x) ->
  exists rest', rest = x ++ rest' /\ Forall (fun b => p b = true) x /\ p (nth 0 rest' 0%N) = false /\ c' = cur (pre ++ x) rest' (mark_add (List.length x) m) l s.
Proof.
  intros P0 H. unfold run_while in H. change (c_src (cur pre rest m l s)) with (src pre rest) in H.
  destruct (take_while str_ops p fuel (src pre rest)) as [[x1 s1]|] eqn:T; [|discriminate]. injection H as <- <-.
  apply take_ok in T; [|exact P0]. destruct T as (rest' & -> & F & N & ->). exists rest'. split; [reflexivity|]. split; [exact F|]. split; [exact N|].
  unfold cur, src. rewrite <- ?app_assoc. reflexivity.
Qed.
Lemma anchor_chars_ok : forall fuel string pre rest m l s c' n, anchor_chars fuel string (cur pre rest m l s) = (c', Ok n) ->
  exists x rest' l', rest = x ++ rest' /\ n = string ++ x /\ Forall anchor_byte x /\ ~ anchor_byte (nth 0 rest' 0%N) /\ c' = cur (pre ++ x) rest' (mark_add (List.length x) m) l' s.
Proof.
  induction fuel as [|fuel IH]; intros string pre rest m l s c' n H; [discriminate|]. cbn [anchor_chars] in H. peeked H.
  destruct (is_anchor_char (nth 0 rest 0%N)) eqn:A.
  - destruct rest as [|b rest]; [discriminate|]. cbn [nth] in *. next_step H c1 u E. rewrite e_skip_non_blank in E. injection E as <- <-.
    apply IH in H. destruct H as (x & rest' & l' & -> & -> & F & N & ->). exists (b :: x), rest', l'. split; [reflexivity|]. split; [now rewrite <- app_assoc|].
    split; [constructor; [now apply anchor_is|exact F]|]. split; [exact N|]. rewrite mark_add_add, <- app_assoc. reflexivity.
  - injection H as <- <-. exists [], rest, l. rewrite !app_nil_r. split; [reflexivity|]. split; [reflexivity|]. split; [constructor|]. split; [now apply anchor_is_not|].
    cbn [List.length]. now rewrite mark_add_0.
Qed.
Theorem anchor_only alias sign fuel pre rest m l s c' tok : scan_anchor fuel alias (cur pre (sign :: rest) m l s) = (c', Ok tok) ->
  exists n after, rest = n ++ after /\ anchor_name n /\ ~ anchor_byte (nth 0 after 0%N) /\ c_src c' = src (pre ++ sign :: n) after /\
    tok = Token (Span m (mark_add (1 + List.length n) m)) (if alias then TAlias n else TAnchor n).
Proof.
  unfold scan_anchor. intros H. peeked H. next_step H c1 u E. rewrite e_skip_non_blank in E. injection E as <- <-.
  next_step H c1 n E. apply anchor_chars_ok in E. destruct E as (x & after & l' & -> & -> & F & N & ->). peeked H. cbn [app] in H.
  destruct x as [|b x]; [discriminate|]. injection H as <- <-. exists (b :: x), after. split; [reflexivity|]. split; [split; [discriminate|exact F]|]. split; [exact N|].
  split; [replace (pre ++ sign :: b :: x) with ((pre ++ [sign]) ++ b :: x) by (now rewrite <- app_assoc); reflexivity|]. now rewrite mark_add_add.
Qed.

(** ** Escaped characters *)
Lemma two_hex c nc rest v : is_ascii_hexdigit c = true -> is_ascii_hexdigit nc = true -> (exists s s' : cursor, hex2 c nc s = (s', Ok v)) -> exists h, 37%N :: c :: nc :: rest = h ++ rest /\ percent v h /\ List.length h = 3.
Proof.
  intros H1 H2 (s & s' & H). exists [37%N; c; nc]. split; [reflexivity|]. split; [|reflexivity]. exists [c; nc]. split; [reflexivity|]. split; [reflexivity|].
  apply hexdigit_is in H1, H2. split; [auto|]. unfold hex2 in H. destruct (hex_digit_val c H1) as (_ & E1 & _). destruct (hex_digit_val nc H2) as (_ & E2 & _). rewrite E1, E2 in H.
  injection H as _ <-. unfold number. cbn. lia.
Qed.
Lemma hex2_less c nc v (s s' : cursor) : is_ascii_hexdigit c = true -> is_ascii_hexdigit nc = true -> hex2 c nc s = (s', Ok v) -> s' = s /\ (v < 256)%N.
Proof.
  intros H1 H2 H. apply hexdigit_is in H1, H2. unfold hex2 in H. destruct (hex_digit_val c H1) as (_ & E1 & L1). destruct (hex_digit_val nc H2) as (_ & E2 & L2). rewrite E1, E2 in H.
  injection H as <- <-. split; [reflexivity|]. lia.
Qed.
Lemma all_bytes (P : N -> bool) : forallb P (map N.of_nat (seq 0 256)) = true -> forall b, (b < 256)%N -> P b = true.
Proof.
  intros H b L. rewrite forallb_forall in H. apply H. apply in_map_iff. exists (N.to_nat b). split; [lia|]. apply in_seq. lia.
Qed.
Lemma trail_is b : (b < 256)%N -> (N.land b 192 =? 128)%N = true -> (128 <= b < 192)%N.
Proof.
  intros L H. assert (X := all_bytes (fun b => implb (N.land b 192 =? 128)%N ((128 <=? b)%N && (b <? 192)%N)) eq_refl b L). cbv beta in X. rewrite H in X. cbn [implb] in X. lia.
Qed.
(** One turn of the loop. *)
Lemma uri_turn fuel mark width code pre rest m l s c' v : uri_loop (S fuel) mark width code (cur pre rest m l s) = (c', Ok v) ->
  exists b h rest1 l1, rest = h ++ rest1 /\ percent b h /\ List.length h = 3 /\ (b < 256)%N /\
    match width with
    | O => exists w, uri_width b = Some w /\
        match w with S (S w) => uri_loop fuel mark (S w) b (cur (pre ++ h) rest1 (mark_add 3 m) l1 s) = (c', Ok v)
        | _ => c' = cur (pre ++ h) rest1 (mark_add 3 m) l1 s /\ v = b end
    | S w' => (128 <= b < 192)%N /\
        match w' with S w => uri_loop fuel mark (S w) ((code * 256) mod 4294967296 + b)%N (cur (pre ++ h) rest1 (mark_add 3 m) l1 s) = (c', Ok v)
        | _ => c' = cur (pre ++ h) rest1 (mark_add 3 m) l1 s /\ v = ((code * 256) mod 4294967296 + b)%N end
    end.
Proof.
  intros H. cbn [uri_loop] in H. peeked H. peeked H. peeked H.
  match type of H with (if negb ?b then _ else _) _ = _ => destruct b eqn:HX; cbn [negb] in H; [|discriminate H] end.
  apply andb_prop in HX. destruct HX as [HX H2]. apply andb_prop in HX. destruct HX as [HP H1]. apply N.eqb_eq in HP.
  destruct rest as [|p [|c [|nc rest]]]; cbn [nth] in *; try discriminate. subst p.
  next_step H c1 b E. destruct (two_hex c nc rest b H1 H2 (ex_intro _ _ (ex_intro _ _ E))) as (h & EH & PH & LH). destruct (hex2_less _ _ _ _ _ H1 H2 E) as [-> LB]. clear E.
  rewrite EH in H. exists b, h, rest.
  destruct width as [|w'].
  - next_step H c1 wc E. destruct wc as [w code']. destruct (uri_width b) as [w0|] eqn:W; [|discriminate E]. injection E as <- -> <-.
    next_step H c1 u E. rewrite e_skip_n in E by (symmetry; exact LH). rewrite LH in E. injection E as <- <-. exists false. split; [exact EH|]. split; [exact PH|]. split; [exact LH|]. split; [exact LB|].
    exists w. split; [reflexivity|]. destruct w as [|[|w]]; [injection H as <- <-; split; reflexivity|injection H as <- <-; split; reflexivity|exact H].
  - next_step H c1 wc E. destruct wc as [w code']. destruct (N.land b 192 =? 128)%N eqn:T; cbn [negb] in E; [|discriminate E]. injection E as <- <- <-.
    next_step H c1 u E. rewrite e_skip_n in E by (symmetry; exact LH). rewrite LH in E. injection E as <- <-. exists false. split; [exact EH|]. split; [exact PH|]. split; [exact LH|]. split; [exact LB|].
    split; [now apply trail_is|]. destruct w' as [|w]; [injection H as <- <-; split; reflexivity|exact H].
Qed.

Lemma width_is b w : (b < 256)%N -> uri_width b = Some w ->
  (w = 1 /\ (b < 128)%N) \/ (w = 2 /\ (192 <= b < 224)%N) \/ (w = 3 /\ (224 <= b < 240)%N) \/ (w = 4 /\ (240 <= b < 248)%N).
Proof.
  intros L H.
  assert (X := all_bytes (fun b => match uri_width b with None => true | Some w => ((w =? 1)%nat && (b <? 128)%N) || ((w =? 2)%nat && ((192 <=? b)%N && (b <? 224)%N))
    || ((w =? 3)%nat && ((224 <=? b)%N && (b <? 240)%N)) || ((w =? 4)%nat && ((240 <=? b)%N && (b <? 248)%N)) end) eq_refl b L).
  cbv beta in X. rewrite H in X. lia.
Qed.
Lemma shift_small k : (k < 16777216)%N -> ((k * 256) mod 4294967296 = k * 256)%N.
Proof. intros H. apply N.mod_small. lia. Qed.
(** An escaped character. *)
Lemma uri_escape_ok plain fuel mark pre rest m l s c' u : scan_uri_escapes fuel mark (cur pre rest m l s) = (c', Ok u) ->
  exists x rest' l', rest = x ++ rest' /\ x <> [] /\ u <> [] /\ c' = cur (pre ++ x) rest' (mark_add (List.length x) m) l' s /\
    forall w v, taken_uri plain w v -> taken_uri plain (x ++ w) (u ++ v).
Proof.
  unfold scan_uri_escapes. intros H. next_step H c1 code E.
  destruct (char_from_u32 code) as [ch|] eqn:CU; [|discriminate]. injection H as <- <-.
  unfold char_from_u32 in CU. destruct ((code <? 55296)%N || _) eqn:CB; [|discriminate]. injection CU as <-.
  assert (CM : (code < 55296 \/ 57344 <= code <= 1114111)%N) by (clear - CB; lia). clear CB.
  destruct fuel as [|fuel]; [discriminate|]. apply uri_turn in E. destruct E as (b & h & rest1 & l1 & -> & P & LH & LB & w & W & E).
  apply width_is in W; [|exact LB].
  destruct W as [[-> B]|[[-> B]|[[-> B]|[-> B]]]].
  - destruct E as [-> ->]. exists h, rest1, l1. split; [reflexivity|]. split; [intros ->; discriminate LH|]. unfold utf8. replace (b <? 128)%N with true by lia.
    split; [discriminate|]. split; [now rewrite LH|]. intros w v T. cbn [app]. now constructor.
  - destruct fuel as [|fuel]; [discriminate|]. apply uri_turn in E. destruct E as (b2 & h2 & rest2 & l2 & -> & P2 & LH2 & LB2 & B2 & -> & ->).
    rewrite shift_small in CM |- * by lia.
    exists (h ++ h2), rest2, l2. split; [now rewrite <- app_assoc|]. split; [destruct h; discriminate|].
    assert (U := utf8_total (b * 256 + b2) ltac:(lia)). split; [inversion U; discriminate|]. split; [now rewrite app_length, LH, LH2, mark_add_add, <- app_assoc|].
    intros w v T. rewrite <- app_assoc. apply (tu_pair plain b b2); auto. lia.
  - exfalso. destruct fuel as [|fuel]; [discriminate|]. apply uri_turn in E. destruct E as (b2 & h2 & rest2 & l2 & _ & _ & _ & LB2 & B2 & E).
    rewrite shift_small in E by lia. destruct fuel as [|fuel]; [discriminate|]. apply uri_turn in E. destruct E as (b3 & h3 & rest3 & l3 & _ & _ & _ & LB3 & B3 & _ & ->).
    rewrite shift_small in CM by lia. lia.
  - exfalso. destruct fuel as [|fuel]; [discriminate|]. apply uri_turn in E. destruct E as (b2 & h2 & rest2 & l2 & _ & _ & _ & LB2 & B2 & E).
    rewrite shift_small in E by lia. destruct fuel as [|fuel]; [discriminate|]. apply uri_turn in E. destruct E as (b3 & h3 & rest3 & l3 & _ & _ & _ & LB3 & B3 & E).
    rewrite shift_small in E by lia. destruct fuel as [|fuel]; [discriminate|]. apply uri_turn in E. destruct E as (b4 & h4 & rest4 & l4 & _ & _ & _ & LB4 & B4 & _ & ->).
    rewrite shift_small in CM by lia. lia.
Qed.
Lemma uri_one_ok plain fuel mark string pre rest m l s c' v : uri_scans_or_non_blank fuel mark string (cur pre rest m l s) = (c', Ok v) ->
  nth 0 rest 0%N = 37%N \/ plain (nth 0 rest 0%N) -> nth 0 rest 0%N <> 0%N ->
  exists x u rest' l', rest = x ++ rest' /\ x <> [] /\ v = string ++ u /\ c' = cur (pre ++ x) rest' (mark_add (List.length x) m) l' s /\
    forall w v, taken_uri plain w v -> taken_uri plain (x ++ w) (u ++ v).
Proof.
  intros H P NZ. unfold uri_scans_or_non_blank in H. next_step H c1 p E. rewrite e_peek_checked in E. injection E as <- <-.
  destruct rest as [|b rest]; [cbn [nth] in NZ; congruence|]. cbn [nth nth_error] in *.
  destruct (N.eqb_spec b 37) as [-> |NB].
  - next_step H c1 u E. apply (uri_escape_ok plain) in E. destruct E as (x & rest' & l' & E1 & X & _ & -> & T). injection H as <- <-. exists x, u, rest', l'. repeat split; auto.
  - next_step H c1 u E. rewrite e_skip_non_blank in E. injection E as <- <-. injection H as <- <-. exists [b], [b], rest, false. split; [reflexivity|]. split; [discriminate|].
    split; [reflexivity|]. split; [reflexivity|]. intros w v T. cbn [app]. constructor; [|exact T]. destruct P; [congruence|assumption].
Qed.
Lemma uri_chars_ok mark : forall fuel string pre rest m l s c' v, uri_chars fuel mark string (cur pre rest m l s) = (c', Ok v) ->
  exists x u rest' l', rest = x ++ rest' /\ v = string ++ u /\ taken_uri uri_byte x u /\ c' = cur (pre ++ x) rest' (mark_add (List.length x) m) l' s.
Proof.
  induction fuel as [|fuel IH]; intros string pre rest m l s c' v H; [discriminate|]. cbn [uri_chars] in H. peeked H.
  destruct (is_uri_char (nth 0 rest 0%N)) eqn:U.
  - next_step H c1 st E. apply (uri_one_ok uri_byte) in E; [|now apply uri_is|intros Z; rewrite Z in U; discriminate].
    destruct E as (x & u & rest' & l' & -> & X & -> & -> & T). apply IH in H. destruct H as (x2 & u2 & rest2 & l2 & -> & -> & T2 & ->).
    exists (x ++ x2), (u ++ u2), rest2, l2. rewrite <- !app_assoc. split; [reflexivity|]. split; [reflexivity|]. split; [now apply T|]. now rewrite mark_add_add, app_length.
  - injection H as <- <-. exists [], [], rest, l. rewrite !app_nil_r. split; [reflexivity|]. split; [reflexivity|]. split; [constructor|]. cbn [List.length]. now rewrite mark_add_0.
Qed.
Lemma suffix_ok mark : forall fuel string n pre rest m l s c' v n', suffix_chars fuel mark string n (cur pre rest m l s) = (c', Ok (v, n')) ->
  exists x u rest' l', rest = x ++ rest' /\ v = string ++ u /\ taken_uri tag_byte x u /\ (n = 0 -> x = [] -> n' = 0) /\
    c' = cur (pre ++ x) rest' (mark_add (List.length x) m) l' s.
Proof.
  induction fuel as [|fuel IH]; intros string n pre rest m l s c' v n' H; [discriminate|]. cbn [suffix_chars] in H. peeked H.
  destruct (is_tag_char (nth 0 rest 0%N)) eqn:U.
  - next_step H c1 st E.
    assert (NX : exists x u rest' l', rest = x ++ rest' /\ x <> [] /\ st = string ++ u /\ c1 = cur (pre ++ x) rest' (mark_add (List.length x) m) l' s /\
      forall w v, taken_uri tag_byte w v -> taken_uri tag_byte (x ++ w) (u ++ v)).
    { destruct rest as [|b rest]; [discriminate|]. cbn [nth] in *. destruct (N.eqb_spec b 37) as [-> |NB].
      - next_step E c2 u E2. apply (uri_escape_ok tag_byte) in E2. destruct E2 as (x & rest' & l' & E1 & X & _ & -> & T). injection E as <- <-. exists x, u, rest', l'. repeat split; auto.
      - next_step E c2 b' E2. rewrite e_peek_or_space in E2. injection E2 as <- <-. next_step E c2 u E2. rewrite e_skip_non_blank in E2. injection E2 as <- <-. injection E as <- <-.
        exists [b], [b], rest, false. split; [reflexivity|]. split; [discriminate|]. split; [reflexivity|]. split; [reflexivity|]. intros w v0 T. cbn [app]. constructor; [|exact T].
        apply tag_is in U. destruct U; [congruence|assumption]. }
    destruct NX as (x & u & rest' & l' & -> & X & -> & -> & T). apply IH in H. destruct H as (x2 & u2 & rest2 & l2 & -> & -> & T2 & _ & ->).
    exists (x ++ x2), (u ++ u2), rest2, l2. rewrite <- !app_assoc. split; [reflexivity|]. split; [reflexivity|]. split; [now apply T|].
    split; [destruct x; [congruence|discriminate]|now rewrite mark_add_add, app_length].
  - injection H as <- <- <-. exists [], [], rest, l. rewrite !app_nil_r. split; [reflexivity|]. split; [reflexivity|]. split; [constructor|]. split; [auto|]. cbn [List.length]. now rewrite mark_add_0.
Qed.

(** ** Tags *)
Ltac lits := repeat first [progress change (str "!") with [33%N] in *|progress change (str "!<") with [33%N; 60%N] in *|progress change (str ">") with [62%N] in *]; cbn [app] in *.
Lemma handle_ok fuel directive mark pre rest m l s c' h : scan_tag_handle fuel directive mark (cur pre rest m l s) = (c', Ok h) ->
  exists a rest' l', rest = h ++ rest' /\ Forall handle_byte a /\ c' = cur (pre ++ h) rest' (mark_add (List.length h) m) l' s /\
    (h = str "!" ++ a ++ str "!" \/ (h = str "!" ++ a /\ (directive = true -> a = []))).
Proof.
  unfold scan_tag_handle. intros H. peeked H. destruct (N.eqb_spec (nth 0 rest 0%N) 33) as [E|]; [|discriminate]. destruct rest as [|b rest]; [discriminate|]. cbn [nth] in E. subst b. cbn [negb] in H.
  next_step H c1 u E. rewrite e_skip_non_blank in E. injection E as <- <-. next_step H c1 a E. apply run_ok in E; [|reflexivity]. destruct E as (rest' & -> & F & N & ->).
  assert (HA : Forall handle_byte a) by (eapply Forall_impl; [|exact F]; exact alpha_is). rewrite mark_add_add, <- app_assoc in H. cbn [app] in H.
  peeked H. destruct (N.eqb_spec (nth 0 rest' 0%N) 33) as [E|NE].
  - destruct rest' as [|b rest']; [discriminate|]. cbn [nth] in E. subst b. next_step H c1 u E. rewrite e_skip_non_blank in E. injection E as <- <-. injection H as <- <-.
    exists a, rest', false. lits. rewrite <- !app_assoc. cbn [app]. split; [reflexivity|]. split; [exact HA|]. split; [|now left].
    rewrite mark_add_add. cbn [List.length]. rewrite app_length. cbn [List.length]. f_equal; f_equal; lia.
  - destruct (directive && negb (text_eqb (33%N :: a) [33%N])) eqn:D; [discriminate|]. injection H as <- <-.
    exists a, rest', false. lits. split; [reflexivity|]. split; [exact HA|]. split; [reflexivity|]. right. split; [reflexivity|].
    intros ->. cbn [andb] in D. destruct a; [reflexivity|]. discriminate D.
Qed.
Lemma handle_uri a w v : Forall handle_byte a -> taken_uri tag_byte w v -> taken_uri tag_byte (a ++ w) (a ++ v).
Proof. induction 1; [auto|]. intros T. cbn [app]. constructor; [now apply handle_tag|auto]. Qed.
Lemma uri_nil p v : taken_uri p [] v -> v = [].
Proof.
  intros T. inversion T as [|? ? ? ? ? E|? x ? ? ? PX ? E|? ? x ? ? ? ? ? ? PX ? ? ? E]; subst; [reflexivity| |].
  - destruct PX as (h & -> & _). discriminate.
  - destruct PX as (h & -> & _). discriminate.
Qed.
Theorem tag_only fuel in_flow pre rest m l s c' tok : scan_tag fuel in_flow (cur pre (33%N :: rest) m l s) = (c', Ok tok) ->
  exists q after h v, 33%N :: rest = q ++ after /\ taken_tag q h v /\ tag_stop in_flow after /\ c_src c' = src (pre ++ q) after /\ tok = Token (Span m (mark_add (List.length q) m)) (TTag h v).
Proof.
  unfold scan_tag. intros H. peeked H. peeked H. next_step H c1 hs E. destruct hs as [h v].
  assert (X : exists q after l', 33%N :: rest = q ++ after /\ taken_tag q h v /\ c1 = cur (pre ++ q) after (mark_add (List.length q) m) l' s).
  { change (nth 1 (33%N :: rest) 0%N) with (nth 0 rest 0%N) in E. destruct (N.eqb_spec (nth 0 rest 0%N) 60) as [E60|N60].
    - next_step E c2 sf E2. injection E as <- <- <-. unfold scan_verbatim_tag in E2. destruct rest as [|b rest]; [discriminate|]. cbn [nth] in E60. subst b.
      next_step E2 c3 u E. rewrite e_skip_non_blank in E. injection E as <- <-. next_step E2 c3 u E. rewrite e_skip_non_blank in E. injection E as <- <-.
      next_step E2 c3 st E. apply uri_chars_ok in E. destruct E as (x & u & rest' & l' & -> & -> & T & ->). peeked E2.
      destruct (N.eqb_spec (nth 0 rest' 0%N) 62) as [E|]; [|discriminate]. destruct rest' as [|b rest']; [discriminate|]. cbn [nth] in E. subst b. cbn [negb] in E2.
      next_step E2 c3 u0 E. rewrite e_skip_non_blank in E. injection E as <- <-. injection E2 as <- <-.
      exists (str "!<" ++ x ++ str ">"), rest', false. lits. rewrite <- !app_assoc. cbn [app]. split; [reflexivity|]. split; [now apply (tg_verbatim x)|]. rewrite !mark_add_add. cbn [List.length]. rewrite app_length. cbn [List.length]. f_equal; f_equal; lia.
    - next_step E c2 h0 E2. apply handle_ok in E2. destruct E2 as (a & rest' & l' & ER & FA & -> & HH). rewrite ER. clear ER N60.
      destruct (Nat.leb 2 (List.length h0) && starts_bang h0 && ends_bang h0) eqn:NB.
      + assert (H0 : h0 = str "!" ++ a ++ str "!").
        { destruct HH as [HH|[HH _]]; [exact HH|]. exfalso. subst h0. apply andb_prop in NB. destruct NB as [NB EB]. apply andb_prop in NB. destruct NB as [NB _].
          lits. destruct a as [|x a] using rev_ind; [discriminate NB|]. clear IHa. unfold ends_bang in EB. cbn [rev] in EB. rewrite rev_app_distr in EB. cbn [rev app] in EB.
          apply Forall_app in FA. destruct FA as [_ FA]. inversion_clear FA as [|? ? FX _]. apply N.eqb_eq in EB. subst x. destruct FX as [FX|FX]; [unfold SpecProps.word_byte in FX; lia|discriminate]. }
        next_step E c2 sf E2. injection E as <- <- <-. unfold scan_tag_shorthand_suffix in E2. next_step E2 c3 vn E. destruct vn as [v0 n0]. apply suffix_ok in E.
        destruct E as (x & u & rest2 & l2 & -> & -> & T & NX & ->). cbn [tl app] in *. destruct n0 as [|n0]; [discriminate|]. injection E2 as <- <-.
        exists (h0 ++ x), rest2, l2. rewrite <- !app_assoc. split; [reflexivity|]. split; [|now rewrite mark_add_add, app_length].
        subst h0. rewrite <- !app_assoc. apply tg_named; [exact FA|intros ->; discriminate (NX eq_refl eq_refl)|exact T].
      + assert (H0 : h0 = str "!" ++ a).
        { destruct HH as [HH|[HH _]]; [|exact HH]. exfalso. subst h0. lits. unfold ends_bang, starts_bang in NB. cbn [rev] in NB. rewrite rev_app_distr in NB. cbn [rev app] in NB.
          cbn [List.length] in NB. rewrite app_length in NB. cbn [List.length] in NB. replace (Nat.leb 2 (S (List.length a + 1))) with true in NB by (symmetry; apply Nat.leb_le; lia). discriminate. }
        next_step E c2 sf E2. unfold scan_tag_shorthand_suffix in E2. next_step E2 c3 vn E3. destruct vn as [v0 n0]. apply suffix_ok in E3.
        destruct E3 as (x & u & rest2 & l2 & -> & -> & T & _ & ->). destruct n0 as [|n0]; [discriminate|]. injection E2 as <- <-. subst h0. lits. cbn [tl app] in *. pose proof (handle_uri a x u FA T) as TT. exists (33%N :: a ++ x), rest2, l2. split; [cbn [app]; now rewrite <- app_assoc|].
        destruct (a ++ u) as [|y r] eqn:EAU; injection E as <- <- <-.
        * apply app_eq_nil in EAU. destruct EAU as [-> ->]. cbn [app] in *. inversion T; subst.
          -- split; [exact tg_none|]. cbn [List.length]. rewrite mark_add_add, <- ?app_assoc. reflexivity.
          -- exfalso. match goal with U : utf8_of _ ?u, Q : ?u ++ _ = [] |- _ => inversion U; subst; discriminate Q end.
        * split; [|cbn [List.length]; rewrite mark_add_add, app_length, <- ?app_assoc; reflexivity].
          apply (tg_local (a ++ x)); [|exact TT]. intros Z. rewrite Z in TT. apply uri_nil in TT. congruence. }
  destruct X as (q & after & l' & -> & T & ->). peeked H. peeked H.
  match type of H with (if ?b then _ else _) _ = _ => destruct b eqn:ST; [|discriminate H] end. injection H as <- <-.
  exists q, after, h, v. split; [reflexivity|]. split; [exact T|]. split; [|split; reflexivity].
  unfold tag_stop, white_or_end, flow_signs. change (str ",[]{}") with [44; 91; 93; 123; 125]%N. generalize dependent (nth 0 after 0%N). clear. intros b ST. unfold is_blank_or_breakz, is_breakz, is_blank_or_break, is_blank, is_break, is_flow in ST. cbn [In]. destruct in_flow; lia.
Qed.

(** ** Directives *)
Lemma version_ok mark : forall fuel val n pre rest m l s c' v n', version_loop fuel mark val n (cur pre rest m l s) = (c', Ok (v, n')) ->
  exists x rest' l', rest = x ++ rest' /\ Forall SpecProps.digit_byte x /\ v = read_on val x /\ (x <> [] -> (v < 256)%N) /\ n' = n + List.length x /\ (x <> [] -> n' <= 9) /\
    c' = cur (pre ++ x) rest' (mark_add (List.length x) m) l' s.
Proof.
  induction fuel as [|fuel IH]; intros val n pre rest m l s c' v n' H; [discriminate|]. cbn [version_loop] in H. peeked H.
  destruct (is_ascii_digit (nth 0 rest 0%N)) eqn:D.
  - destruct rest as [|b rest]; [discriminate|]. cbn [nth] in *. destruct (Nat.leb_spec 9 n) as [|L9]; [discriminate|]. cbv zeta in H.
    destruct (N.ltb_spec (val * 10 + (b - 48)) 256) as [V|V]; [|discriminate]. next_step H c1 u E. rewrite e_skip_non_blank in E. injection E as <- <-.
    apply IH in H. destruct H as (x & rest' & l' & -> & F & EV & LV & EN & NL & ->). exists (b :: x), rest', l'. split; [reflexivity|].
    assert (DB : SpecProps.digit_byte b) by (unfold SpecProps.digit_byte; unfold is_ascii_digit in D; lia). split; [now constructor|].
    split; [exact EV|]. split; [intros _; destruct x; [cbn [read_on] in EV; subst v; exact V|apply LV; discriminate]|].
    split; [cbn [List.length]; lia|]. split; [|now rewrite mark_add_add, <- app_assoc].
    intros _. destruct x; [cbn [List.length] in EN; lia|apply NL; discriminate].
  - injection H as <- <- <-. exists [], rest, l. rewrite !app_nil_r. split; [reflexivity|]. split; [constructor|]. split; [reflexivity|]. split; [congruence|]. split; [cbn [List.length]; lia|]. split; [congruence|]. cbn [List.length]. now rewrite mark_add_0.
Qed.
Lemma version_number_ok mark fuel pre rest m l s c' v : scan_version_directive_number fuel mark (cur pre rest m l s) = (c', Ok v) ->
  exists x rest' l', rest = x ++ rest' /\ version_number false x v /\ c' = cur (pre ++ x) rest' (mark_add (List.length x) m) l' s.
Proof.
  unfold scan_version_directive_number. intros H. next_step H c1 vn E. destruct vn as [v0 n0]. apply version_ok in E.
  destruct E as (x & rest' & l' & -> & F & -> & LV & EN & NL & ->). destruct n0 as [|n0]; [discriminate|]. injection H as <- <-. cbn [Nat.add] in EN.
  assert (X : x <> []) by (intros ->; discriminate). exists x, rest', l'. split; [reflexivity|]. split; [|reflexivity]. split; [exact X|]. split; [exact F|]. split; [now apply read_on_number|].
  intros _. split; [now apply LV|]. specialize (NL X). lia.
Qed.
Lemma blank_run x : Forall (fun b => is_blank b = true) x -> Forall white_byte x.
Proof. intros F. eapply Forall_impl; [|exact F]. intros b H. unfold is_blank in H. unfold white_byte. lia. Qed.
Lemma prefix_ok fuel mark pre rest m l s c' p : scan_tag_prefix fuel mark (cur pre rest m l s) = (c', Ok p) ->
  exists w rest' l', rest = w ++ rest' /\ taken_prefix w p /\ c' = cur (pre ++ w) rest' (mark_add (List.length w) m) l' s.
Proof.
  unfold scan_tag_prefix. intros H. peeked H. destruct (N.eqb_spec (nth 0 rest 0%N) 33) as [E|N33].
  - destruct rest as [|b rest]; [discriminate|]. cbn [nth] in E. subst b. next_step H c1 u E. rewrite e_skip_non_blank in E. injection E as <- <-.
    apply uri_chars_ok in H. destruct H as (x & u & rest' & l' & -> & -> & T & ->). exists (33%N :: x), rest', l'. split; [reflexivity|]. split; [now apply (tx_local x)|].
    now rewrite mark_add_add, <- app_assoc.
  - destruct (is_tag_char (nth 0 rest 0%N)) eqn:TC; cbn [negb] in H; [|discriminate]. next_step H c1 st E.
    assert (TI := tag_is _ TC). apply (uri_one_ok uri_byte) in E; [|destruct TI as [TI|[TI _]]; auto|intros Z; rewrite Z in TC; discriminate].
    destruct E as (x & u & rest' & l' & -> & X & -> & -> & T). apply uri_chars_ok in H. destruct H as (x2 & u2 & rest2 & l2 & -> & -> & T2 & ->). cbn [app].
    exists (x ++ x2), rest2, l2. split; [now rewrite <- app_assoc|]. split; [|now rewrite mark_add_add, app_length, <- app_assoc].
    apply tx_global; [|now apply T]. destruct x as [|b x]; [congruence|]. cbn [app nth] in TI |- *. destruct TI as [TI|TI]; [left; now left|now right].
Qed.
Lemma breaks_after b : is_break b || (b =? 35)%N = true -> ~ In b [32; 9; 35]%N -> In b [10; 13]%N.
Proof. unfold is_break. cbn [In]. lia. Qed.
Theorem directive_only fuel pre rest m l s c' tok : scan_directive fuel (cur pre (37%N :: rest) m l s) = (c', Ok tok) ->
  exists q after, 37%N :: rest = q ++ after /\ taken_directive q (k_type tok) /\ line_done after /\ past (pre ++ q) after (c_src c') /\ k_span tok = Span m (mark_add (List.length q) m).
Proof.
  unfold scan_directive. intros H. peeked H. next_step H c1 u E. rewrite e_skip_non_blank in E. injection E as <- <-.
  next_step H c1 name E. unfold scan_directive_name in E. peeked E. next_step E c2 n E2. apply run_ok in E2; [|reflexivity]. destruct E2 as (rest1 & -> & FN & _ & ->). peeked E.
  destruct n as [|n0 n]; [discriminate|]. destruct (is_blank_or_break (nth 0 rest1 0%N)) eqn:BB; cbn [negb] in E; [|discriminate]. injection E as <- <-.
  assert (HN : Forall handle_byte (n0 :: n)) by (eapply Forall_impl; [|exact FN]; exact alpha_is). rewrite mark_add_add in H.
  set (name := n0 :: n) in *. next_step H c1 tok1 E.
  assert (X : exists q after l', 37%N :: name ++ rest1 = q ++ after /\ taken_directive q (k_type tok1) /\ k_span tok1 = Span m (mark_add (List.length q) m) /\ c1 = cur (pre ++ q) after (mark_add (List.length q) m) l' s).
  { destruct (text_eqb name (str "YAML")) eqn:EY; [|destruct (text_eqb name (str "TAG")) eqn:ET].
    - apply ParserProofs.text_eqb_eq in EY. assert (LN : S (List.length n) = 4) by (change (S (List.length n)) with (List.length name); now rewrite EY). rewrite EY in *. clear name EY FN HN. unfold scan_version_directive_value in E.
      next_step E c2 bl E2. apply run_ok in E2; [|reflexivity]. destruct E2 as (rest2 & -> & FB & _ & ->). next_step E c2 major E2. apply version_number_ok in E2. destruct E2 as (wa & rest3 & l3 & -> & VA & ->).
      peeked E. destruct (N.eqb_spec (nth 0 rest3 0%N) 46) as [E46|]; [|discriminate]. destruct rest3 as [|b rest3]; [discriminate|]. cbn [nth] in E46. subst b. cbn [negb] in E.
      next_step E c2 u E2. rewrite e_skip_non_blank in E2. injection E2 as <- <-. next_step E c2 minor E2. apply version_number_ok in E2. destruct E2 as (wb & rest4 & l4 & -> & VB & ->).
      peeked E. injection E as <- <-. exists (str "%YAML" ++ bl ++ wa ++ str "." ++ wb), rest4, l4. rewrite <- !app_assoc. split; [reflexivity|]. split.
      + cbn [k_type]. constructor; auto. split; [|now apply blank_run]. intros ->. cbn [app] in BB. destruct VA as (NA & DA & _). destruct wa as [|a wa]; [congruence|]. inversion_clear DA as [|? ? DA1 _].
        cbn [app nth] in BB. unfold SpecProps.digit_byte in DA1. unfold is_blank_or_break, is_blank, is_break in BB. lia.
      + cbn [k_span]. change (str "%YAML") with (37%N :: str "YAML"). change (str ".") with [46%N]. rewrite !mark_add_add. rewrite !app_length. cbn [List.length]. change (List.length (str "YAML")) with 4. change (List.length (str "TAG")) with 3. rewrite <- ?app_assoc. cbn [app].
        split; [f_equal; f_equal; lia|]. f_equal; f_equal; lia.
    - apply ParserProofs.text_eqb_eq in ET. assert (LN : S (List.length n) = 3) by (change (S (List.length n)) with (List.length name); now rewrite ET). rewrite ET in *. clear name ET EY FN HN. unfold scan_tag_directive_value in E.
      next_step E c2 bl E2. apply run_ok in E2; [|reflexivity]. destruct E2 as (rest2 & -> & FB & _ & ->). next_step E c2 h E2. apply handle_ok in E2. destruct E2 as (a & rest3 & l3 & -> & FA & -> & HH).
      next_step E c2 bl2 E2. apply run_ok in E2; [|reflexivity]. destruct E2 as (rest4 & -> & FB2 & _ & ->). next_step E c2 p E2. apply prefix_ok in E2. destruct E2 as (w & rest5 & l5 & -> & PX & ->).
      peeked E. peeked E. match type of E with (if ?b then _ else _) _ = _ => destruct b eqn:ST; [|discriminate E] end. injection E as <- <-.
      exists (str "%TAG" ++ bl ++ h ++ bl2 ++ w), rest5, l5. rewrite <- !app_assoc. split; [reflexivity|]. split.
      + cbn [k_type]. constructor; auto using blank_run.
        * split; [|now apply blank_run]. intros ->. cbn [app] in BB. destruct HH as [-> |[-> _]]; discriminate BB.
        * destruct HH as [-> |[-> Z]]; [now constructor|]. rewrite (Z eq_refl). constructor.
      + cbn [k_span]. change (str "%TAG") with (37%N :: str "TAG"). rewrite !mark_add_add. rewrite !app_length. cbn [List.length]. change (List.length (str "YAML")) with 4. change (List.length (str "TAG")) with 3. rewrite <- ?app_assoc. cbn [app].
        split; [f_equal; f_equal; lia|]. f_equal; f_equal; lia.
    - next_step E c2 r E2. unfold skip_line in E2. apply run_ok in E2; [|reflexivity]. destruct E2 as (rest2 & -> & FB & _ & ->). peeked E. injection E as <- <-.
      exists (str "%" ++ name ++ r), rest2, false. change (str "%") with [37%N]. rewrite <- !app_assoc. split; [reflexivity|]. split.
      + cbn [k_type]. apply td_reserved; auto.
        * unfold name. discriminate.
        * intros Z. rewrite Z in EY. discriminate.
        * intros Z. rewrite Z in ET. discriminate.
        * destruct r as [|b r]; [now left|right]. assert (CB : Forall comment_byte (b :: r)).
          { eapply Forall_impl; [|exact FB]. intros x Y. unfold comment_byte. cbn [In]. unfold is_breakz, is_break in Y. lia. }
          split; [|exact CB]. cbn [app nth] in BB |- *. inversion_clear CB as [|? ? CB1 _]. unfold comment_byte in CB1. cbn [In] in CB1. unfold is_blank_or_break, is_blank, is_break in BB. unfold white_byte. lia.
      + cbn [k_span]. rewrite !mark_add_add. rewrite !app_length. cbn [List.length]. change (List.length (str "YAML")) with 4. change (List.length (str "TAG")) with 3. rewrite <- ?app_assoc. cbn [app].
        split; [f_equal; f_equal; lia|]. f_equal; f_equal; lia. }
  clear E. destruct X as (q & after & l' & -> & T & SP & ->). next_step H c1 ws E. apply ws_ok in E. destruct E as (w & e & -> & HR & -> & _ & HC & NW). peeked H.
  match type of H with (if ?b then _ else _) _ = _ => destruct b eqn:ST; [|discriminate H] end. next_step H c1 u E. injection H as <- <-.
  assert (PB := past_break _ _ _ _ _ _ _ E). exists q, (w ++ e). split; [reflexivity|]. split; [exact T|].
  split; [|split; [exact (past_gap _ _ _ _ (header_gap _ _ HR HC) PB)|exact SP]]. exists w, e. split; [reflexivity|]. split; [exact HR|]. now apply breaks_after.
Qed.
