(** What [escape_str] writes, and how the scanner reads it back. *)
From Verif Require Import Base Tokens Scalar Chars Source Cursor ExactCursor Yaml Emitter.
From Coq Require Import String Lia ZifyBool ZifyNat ZifyN.
Local Open Scope list_scope.

(** A byte inside double quotes as the emitter writes it. *)
Definition double_enc (b : N) : text :=
  if is_escaped b then match escape_of b with Some t => t | None => [] end else [b].

Lemma escaped_has b : is_escaped b = true -> exists t, escape_of b = Some t.
Proof.
  unfold is_escaped, escape_of. intros H.
  repeat match goal with |- context [if ?c then _ else _] => destruct c eqn:?; eauto end. lia.
Qed.

Lemma hex_char_ok d : (d < 16)%N ->
  as_hex (hex_char d) = Some d /\ is_ascii_hexdigit (hex_char d) = true.
Proof.
  intros H. unfold as_hex, hex_char, is_ascii_hexdigit, is_ascii_digit.
  destruct (N.ltb_spec d 10).
  - replace ((48 <=? 48 + d)%N && (48 + d <=? 57)%N) with true by lia. split; [f_equal; lia|reflexivity].
  - replace ((48 <=? 97 + (d - 10))%N && (97 + (d - 10) <=? 57)%N) with false by lia.
    replace ((97 <=? 97 + (d - 10))%N && (97 + (d - 10) <=? 102)%N) with true by lia.
    split; [f_equal; lia|]. now rewrite orb_true_r.
Qed.

Lemma reads_simple_escape fuel start string pre rest m l s x b :
  escape_code x = Some (inl b) -> (b < 128)%N -> is_break x = false ->
  consume_chars (S fuel) false start string (cur pre (92%N :: x :: rest) m l s)
  = consume_chars fuel false start (string ++ [b])
      (cur (pre ++ [92%N; x]) rest (mark_add 2 m) false s).
Proof.
  intros E B K. cbn [consume_chars]. unfold bind. rewrite !e_peek. cbn [nth].
  change (is_blank_or_breakz 92) with false. cbv iota.
  change ((92 =? 39)%N) with false. change ((92 =? 34)%N) with false.
  change ((92 =? 92)%N) with true. cbn [andb negb]. rewrite K.
  unfold resolve_escape, bind. rewrite e_peek. cbn [nth]. rewrite E.
  change (92%N :: x :: rest) with ([92%N; x] ++ rest).
  rewrite e_skip_n by reflexivity. cbn [List.length].
  unfold ret, utf8. replace ((b <? 128)%N) with true by lia. reflexivity.
Qed.
Lemma hex_step start n i v x pre rest m l s :
  as_hex (nth i rest 0%N) = Some x -> is_ascii_hexdigit (nth i rest 0%N) = true ->
  hex_value start (S n) i v (cur pre rest m l s)
  = hex_value start n (S i) ((v * 16) mod 4294967296 + x)%N (cur pre rest m l s).
Proof. intros A B. cbn [hex_value]. unfold bind. rewrite e_peek, A, B. reflexivity. Qed.
Lemma reads_u_escape fuel start string pre rest m lead s h l :
  (h < 16)%N -> (l < 16)%N -> (h * 16 + l < 128)%N ->
  consume_chars (S fuel) false start string
    (cur pre (str "\u00" ++ [hex_char h; hex_char l] ++ rest) m lead s)
  = consume_chars fuel false start (string ++ [(h * 16 + l)%N])
      (cur (pre ++ str "\u00" ++ [hex_char h; hex_char l]) rest (mark_add 6 m) false s).
Proof.
  intros HH HL B. destruct (hex_char_ok h HH) as [H1 H2]. destruct (hex_char_ok l HL) as [L1 L2].
  cbn [consume_chars]. unfold bind. rewrite !e_peek.
  change (str "\u00") with [92; 117; 48; 48]%N. cbn [app nth].
  change (is_blank_or_breakz 92) with false. cbv iota.
  change ((92 =? 39)%N) with false. change ((92 =? 34)%N) with false.
  change ((92 =? 92)%N) with true. cbn [andb negb]. change (is_break 117) with false. cbv iota.
  unfold resolve_escape, bind. rewrite e_peek. cbn [nth].
  change (escape_code 117) with (Some (inr 4 : N + nat)%type). cbv iota.
  change (92%N :: 117%N :: 48%N :: 48%N :: hex_char h :: hex_char l :: rest)
    with ([92%N; 117%N] ++ [48%N; 48%N; hex_char h; hex_char l] ++ rest).
  cbv beta. rewrite (e_skip_n [92%N; 117%N]) by reflexivity.
  cbn [app].
  rewrite (hex_step start 3 0 0 0) by reflexivity.
  rewrite (hex_step start 2 1 _ 0) by reflexivity.
  rewrite (hex_step start 1 2 _ h) by assumption.
  rewrite (hex_step start 0 3 _ l) by assumption.
  change ((((0 * 16) mod 4294967296 + 0) * 16) mod 4294967296 + 0)%N with 0%N.
  change ((0 * 16) mod 4294967296)%N with 0%N. rewrite N.add_0_l.
  rewrite (N.mod_small (h * 16)) by lia. cbn [hex_value]. unfold ret at 1.
  unfold char_from_u32. replace ((h * 16 + l <? 55296)%N) with true by lia. cbn [orb].
  change (48%N :: 48%N :: hex_char h :: hex_char l :: rest)
    with ([48%N; 48%N; hex_char h; hex_char l] ++ rest).
  cbv beta. rewrite (e_skip_n [48%N; 48%N; hex_char h; hex_char l]) by reflexivity. rewrite mark_add_add.
  unfold ret, utf8. replace ((h * 16 + l <? 128)%N) with true by lia.
  rewrite <- app_assoc. reflexivity.
Qed.

Lemma double_good b : good_byte false double_enc b.
Proof.
  unfold good_byte.
  destruct (N.eq_dec b 32) as [->|D]; [left; split; [left; reflexivity|reflexivity]|].
  right. unfold double_enc. destruct (is_escaped b) eqn:EE.
  - destruct (escaped_has b EE) as [t ET]. rewrite ET.
    assert (SH : exists x y, t = 92%N :: x :: y).
    { revert ET. unfold escape_of.
      repeat match goal with |- context [if ?c then _ else _] => destruct c end;
        intros [= <-]; cbv; eauto. }
    split.
    + intros fuel start string pre rest m lead s. unfold double_enc. rewrite EE, ET. clear SH.
      revert ET. unfold escape_of.
      repeat match goal with |- context [if N.eqb b ?c then _ else _] => destruct (N.eqb_spec b c) as [->|] end;
        try (intros [= <-]; apply reads_simple_escape; reflexivity).
      destruct ((b <=? 31)%N || (b =? 127)%N) eqn:EB; [|discriminate].
      match goal with |- Some ?x = Some t -> _ =>
        intros ET'; assert (ET2 : t = x) by congruence; rewrite ET2; clear ET' end.
      assert (HB : b = (b / 16 * 16 + b mod 16)%N).
      { rewrite N.mul_comm. apply N.div_mod. discriminate. }
      assert (H2 : (b / 16 < 16)%N) by (apply N.div_lt_upper_bound; lia).
      assert (H3 : (b mod 16 < 16)%N) by (apply N.mod_lt; discriminate).
      rewrite <- app_assoc. rewrite reads_u_escape by (auto; lia). now rewrite <- HB.
    + destruct SH as (x & y & ->). split; [discriminate|]. cbn [nth]. lia.
  - split.
    + intros fuel start string pre rest m lead s. unfold double_enc. rewrite EE. cbn [app consume_chars]. unfold bind.
      rewrite !e_peek. cbn [nth]. unfold is_escaped in EE.
      assert (X : is_blank_or_breakz b = false)
        by (unfold is_blank_or_breakz, is_blank, is_break; lia).
      rewrite X. rewrite !andb_false_r. cbn [negb].
      replace ((b =? 34)%N) with false by lia. replace ((b =? 92)%N) with false by lia. cbn [andb].
      now rewrite e_skip_non_blank.
    + unfold is_escaped in EE. split; [discriminate|]. cbn [nth]. lia.
Qed.

(** ** What [escape_str] writes *)
(** A method that writes [t] when the writer takes everything, and keeps the level. *)
Definition writes (a : EM) (t : text) : Prop :=
  forall e, a e = (Emitter.Emitter (e_level e) (e_out e ++ t), EmitOk).

(** ** Quoted scalars read back *)
Lemma double_scan indent in_flow rest t fuel pre m l s :
  ends_quoted in_flow rest = true -> List.length t + 1 < fuel ->
  (0 < m_col m)%N -> (indent <= m_col m + 1)%N ->
  let q := 34%N :: flat_map double_enc t ++ [34%N] in
  let m' := mark_add (List.length q) m in
  scan_flow_scalar fuel false indent in_flow (cur pre (q ++ rest) m l s)
  = (cur (pre ++ q) rest m' false s, Ok (Token (Span m m') (TScalar DoubleQuote t))).
Proof.
  intros E F C I. apply (scan_flow_run false double_enc); auto.
  apply Forall_forall. intros b _. apply double_good.
Qed.
Lemma single_scan indent in_flow rest t fuel pre m l s :
  ~ In 10%N t -> ~ In 13%N t -> ~ In 0%N t ->
  ends_quoted in_flow rest = true -> List.length t + 1 < fuel ->
  (0 < m_col m)%N -> (indent <= m_col m + 1)%N ->
  let q := 39%N :: flat_map single_enc t ++ [39%N] in
  let m' := mark_add (List.length q) m in
  scan_flow_scalar fuel true indent in_flow (cur pre (q ++ rest) m l s)
  = (cur (pre ++ q) rest m' false s, Ok (Token (Span m m') (TScalar SingleQuote t))).
Proof.
  intros A B D E F C I. apply (scan_flow_run true single_enc); auto.
  apply Forall_forall. intros b H. apply single_good; intros ->; auto.
Qed.
