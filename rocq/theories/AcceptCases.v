(** What is accepted and what YAML allows: single quotes, and cases where they differ. *)
From Verif Require Import Base Tokens Scalar Chars Source Cursor Scanner SpecScan SpecScalar SpecJson SpecQuoted SpecBlock SpecPlain SpecStrings SpecProps SpecAccept
  ExactCursor QuotedOnly PropsOnly.
From Coq Require Import String Lia ZifyBool ZifyNat ZifyN.
Local Open Scope list_scope.

(** ** Between single quotes *)
Lemma gap_first n g : quote_gap_ok true n g -> forall r, nth 0 (quote_gap_text g ++ r) 0%N <> 92%N.
Proof.
  intros G r. destruct g as [bs|tr b e i more|tr b e i more]; cbn [quote_gap_ok quote_gap_text] in *.
  - destruct G as [NE F]. destruct bs as [|x bs]; [congruence|]. inversion_clear F as [|? ? W _]. cbn [app nth]. destruct W as [-> | ->]; discriminate.
  - destruct G as (F & _). destruct tr as [|x tr]; [|inversion_clear F as [|? ? W _]; cbn [app nth]; destruct W as [-> | ->]; discriminate]. destruct b; discriminate.
  - destruct G as [X _]. discriminate.
Qed.
Lemma single_words n r v : taken_words true n r v -> quoted_words true n r v.
Proof.
  assert (NF : forall r v, taken_words true n r v -> nth 0 r 0%N <> 92%N).
  { intros r0 v0 T. destruct T as [|g t u r1 v1 G _ _ _ _|g r1 v1 G _ _ _|tr b X _]; [discriminate|now apply (gap_first n)|now apply (gap_first n)|discriminate]. }
  induction 1 as [|g t u r v G C NE DM T IH|g r v G NL (b & r' & E) T IH|tr b X F]; [constructor|now constructor| |discriminate].
  exfalso. apply NF in T. subst r. now apply T.
Qed.
Lemma single_scalar n q v : taken_scalar true n q v -> quoted_scalar true n q v.
Proof. intros [t u r w C T]. constructor; [exact C|now apply single_words]. Qed.
Theorem single_only indent in_flow fuel pre rest m l s c' tok :
  scan_flow_scalar fuel true indent in_flow (cur pre (39%N :: rest) m l s) = (c', Ok tok) -> (0 < m_col m)%N ->
  exists q v r after, 39%N :: rest = q ++ r ++ after /\ quoted_scalar true (N.to_nat (indent - 1)) q v /\ header_rest r /\ may_follow in_flow q after /\
    (In 35%N r -> In (nth 0 after 0%N) [10; 13; 0]%N) /\
    c' = cur (pre ++ q ++ r) after (marker_after (q ++ r) m) false s /\ tok = Token (Span m (marker_after (q ++ r) m)) (TScalar SingleQuote v).
Proof.
  intros H C. apply (quoted_only true) in H; [|exact C]. destruct H as (q & v & r & after & EQ & T & HR & MF & CO & _ & EC & ET).
  exists q, v, r, after. split; [exact EQ|]. split; [now apply single_scalar|]. now repeat split.
Qed.

(** ** Differences *)
Lemma piece_first p v : piece false p v -> exists b r, p = b :: r /\ ~ In b [32; 9; 10; 13; 0; 34]%N /\ (b = 92%N -> r <> [] /\ ~ In (nth 0 r 0%N) [10; 13]%N).
Proof.
  intros [b B Q X|X|c w u _ I _|c k h w u _ I L _ _ _ _ _]; [|discriminate| |].
  - exists b, []. split; [reflexivity|]. split; [|intros ->; now destruct (X eq_refl)]. cbn in *. intuition.
  - exists 92%N, [c]. split; [reflexivity|]. split; [cbn; lia|]. intros _. split; [discriminate|]. cbn [nth]. unfold escapes in I. cbn in I. cbn.
    intros X. assert (Y : c = 10%N \/ c = 13%N) by (destruct X as [X|[X|[]]]; auto). clear X. repeat (destruct I as [I|I]; [injection I as <- <-; destruct Y; discriminate|]). exact I.
  - exists 92%N, (c :: h). split; [reflexivity|]. split; [cbn; lia|]. intros _. split; [discriminate|]. cbn [nth]. unfold code_escapes in I. cbn in I. cbn.
    intros X. assert (Y : c = 10%N \/ c = 13%N) by (destruct X as [X|[X|[]]]; auto). clear X. repeat (destruct I as [I|I]; [injection I as <- <-; destruct Y; discriminate|]). exact I.
Qed.
(** A line that starts with an escaped line break. *)
Definition odd_lines : text := [34; 10; 92; 10; 34]%N.
Lemma odd_read : exists c, scan_flow_scalar 30 false 0 false (Cur (StrSrc odd_lines 0) (Marker 0 1 1) false true) = (c, Ok (Token (Span (Marker 0 1 1) (Marker 5 2 3)) (TScalar DoubleQuote [32%N]))).
Proof. eexists. vm_compute. reflexivity. Qed.
Lemma chars_first t u : chars false t u -> t = [] \/ (~ In (nth 0 t 0%N) [32; 9; 10; 13; 0; 34]%N /\ (nth 0 t 0%N = 92%N -> ~ In (nth 1 t 0%N) [10; 13; 0]%N)).
Proof.
  intros [|p v t' u' P C]; [now left|right]. assert (NZ := P). apply piece_first in P. destruct P as (b & r & -> & N & M). cbn [app nth]. split; [exact N|]. intros ->. destruct (M eq_refl) as [NE NB].
  destruct r as [|c r]; [congruence|]. cbn [app nth] in *. intros [X|[X|[X|[]]]]; subst c; [apply NB; cbn; tauto|apply NB; cbn; tauto|].
  inversion NZ as [| |c0 v0 u0 _ I _|c0 k h v0 u0 _ I L _ _ _ _ _]; subst; unfold escapes, code_escapes in I; cbn in I; repeat (destruct I as [I|I]; [discriminate I|]); exact I.
Qed.
Lemma white_first b t x c : Forall white_byte (b :: t) -> b :: x = c -> nth 0 c 0%N = 32%N \/ nth 0 c 0%N = 9%N.
Proof. intros F <-. inversion_clear F as [|? ? W _]. exact W. Qed.
Lemma odd_not n v : ~ quoted_scalar false n odd_lines v.
Proof.
  intros H. remember odd_lines as q eqn:EQ. destruct H as [t u r w C T]. injection EQ as EQ. destruct (chars_first _ _ C) as [-> |[X _]].
  2:{ destruct t as [|b t]; [apply X; cbn; tauto|]. injection EQ as -> _. apply X. cbn. tauto. }
  cbn [app] in EQ. apply (app_inj_tail r [10; 92; 10]%N) in EQ. destruct EQ as [-> _]. clear C.
  remember [10; 92; 10]%N as q eqn:EQ. destruct T as [|g t0 u0 r v G C NE _ _]; [discriminate|]. destruct g as [bs|tr b e i more|tr b e i more]; cbn [quote_gap_ok quote_gap_text] in *.
  - destruct G as [NB F]. destruct bs as [|b bs]; [congruence|]. cbn [app] in EQ. destruct (white_first _ _ _ _ F EQ) as [X|X]; discriminate X.
  - destruct G as (F & FE & _ & FM). destruct tr as [|c tr]; [|cbn [app] in EQ; destruct (white_first _ _ _ _ F EQ) as [X|X]; discriminate X]. cbn [app] in EQ. unfold lines_text in EQ. rewrite <- !app_assoc in EQ.
    destruct b; [discriminate|]. cbn [eol app] in EQ. injection EQ as EQ.
    destruct e as [|[x xb] e].
    2:{ exfalso. inversion_clear FE as [|? ? L _]. destruct L as (k & mo & L & FW & _). cbn [fst] in L. subst x. unfold empty_text in EQ. cbn [flat_map fst snd] in EQ. rewrite <- !app_assoc in EQ. destruct k; [|discriminate]. cbn [repeat app] in EQ.
        destruct mo as [|c mo]; [destruct xb; discriminate|]. cbn [app] in EQ. destruct (white_first _ _ _ _ FW EQ) as [X|X]; discriminate X. }
    cbn [empty_text flat_map app] in EQ. destruct i; [|discriminate]. cbn [repeat app] in EQ. destruct more as [|c more]; [|exfalso; cbn [app] in EQ; destruct (white_first _ _ _ _ FM EQ) as [X|X]; discriminate X]. cbn [app] in EQ.
    destruct (chars_first _ _ C) as [-> |[_ X]].
    + cbn [app] in EQ. subst r. apply NE; [discriminate|reflexivity].
    + destruct t0 as [|a [|a1 t0]]; [cbn [app] in EQ; subst r; apply NE; [discriminate|reflexivity]| |]; cbn [app] in EQ.
      * injection EQ as -> _. apply X; [reflexivity|]. cbn. tauto.
      * injection EQ as -> -> _. apply X; [reflexivity|]. cbn. tauto.
  - destruct G as (_ & F & _). destruct tr as [|c tr]; [discriminate|]. cbn [app] in EQ. destruct (white_first _ _ _ _ F EQ) as [X|X]; discriminate X.
Qed.
(** A tag without anything between its brackets. *)
Lemma bare_read : exists c, scan_tag 30 false (Cur (StrSrc (str "!<> a") 0) (Marker 0 1 1) false true) = (c, Ok (Token (Span (Marker 0 1 1) (Marker 3 4 1)) (TTag [] []))).
Proof. eexists. vm_compute. reflexivity. Qed.
Lemma bare_not h v : ~ tag_text true (str "!<>") h v.
Proof.
  intros H. remember (str "!<>") as q eqn:EQ. change (str "!<>") with [33; 60; 62]%N in EQ. destruct H as [w v NE _|h w v F NE _|w v NE U|].
  - change (str "!<") with [33; 60]%N in EQ. change (str ">") with [62%N] in EQ. cbn [app] in EQ. injection EQ as EQ. destruct w as [|a [|b w]]; [congruence|discriminate|discriminate].
  - change (str "!") with [33%N] in EQ. cbn [app] in EQ. injection EQ as EQ. assert (I : In 33%N [60; 62]%N) by (rewrite <- EQ; apply in_or_app; right; now left). cbn in I. lia.
  - change (str "!") with [33%N] in EQ. cbn [app] in EQ. injection EQ as ->. remember [60; 62]%N as q eqn:EQ. destruct U as [|b w v B _|c u ws w v UT _ P _]; [discriminate| |].
    + injection EQ as -> _. destruct B as [[B|B] _]; [unfold SpecProps.word_byte in B; lia|]. cbn in B. lia.
    + destruct P as [|b x u ws P _]; [inversion UT; subst; discriminate|]. destruct P as (hx & -> & _). cbn [List.concat app] in EQ. discriminate.
  - discriminate.
Qed.
(** A handle with an underscore. *)
Lemma score_read : exists c, scan_tag 30 false (Cur (StrSrc (str "!x_y!z a") 0) (Marker 0 1 1) false true) = (c, Ok (Token (Span (Marker 0 1 1) (Marker 6 7 1)) (TTag (str "!x_y!") (str "z")))).
Proof. eexists. vm_compute. reflexivity. Qed.
Lemma score_not : ~ tag_text true (str "!x_y!z") (str "!x_y!") (str "z").
Proof.
  intros H. remember (str "!x_y!") as h eqn:EH. change (str "!x_y!") with [33; 120; 95; 121; 33]%N in EH. destruct H as [w v NE _|h w v F NE _|w v NE U|]; try discriminate.
  change (str "!") with [33%N] in EH. cbn [app] in EH. injection EH as EH. apply (app_inj_tail h [120; 95; 121]%N) in EH. destruct EH as [-> _]. inversion_clear F as [|? ? _ F1]. inversion_clear F1 as [|? ? X _]. unfold SpecProps.word_byte in X. lia.
Qed.
Lemma accepted_anyway :
  (exists c, scan_flow_scalar 30 false 0 false (Cur (StrSrc odd_lines 0) (Marker 0 1 1) false true) = (c, Ok (Token (Span (Marker 0 1 1) (Marker 5 2 3)) (TScalar DoubleQuote [32%N]))) /\
     forall n v, ~ quoted_scalar false n odd_lines v) /\
  (exists c, scan_tag 30 false (Cur (StrSrc (str "!<> a") 0) (Marker 0 1 1) false true) = (c, Ok (Token (Span (Marker 0 1 1) (Marker 3 4 1)) (TTag [] []))) /\
     forall h v, ~ tag_text true (str "!<>") h v) /\
  (exists c, scan_tag 30 false (Cur (StrSrc (str "!x_y!z a") 0) (Marker 0 1 1) false true) = (c, Ok (Token (Span (Marker 0 1 1) (Marker 6 7 1)) (TTag (str "!x_y!") (str "z")))) /\
     ~ tag_text true (str "!x_y!z") (str "!x_y!") (str "z")).
Proof.
  destruct odd_read as (c1 & E1), bare_read as (c2 & E2), score_read as (c3 & E3). split; [exists c1; split; [exact E1|exact odd_not]|]. split; [exists c2; split; [exact E2|exact bare_not]|].
  exists c3. split; [exact E3|exact score_not].
Qed.
(** Tokens that do not stand in a text. *)
Lemma no_single : ~ stands (str "a b") (Token (Span (Marker 0 1 1) (Marker 1 2 1)) (TScalar SingleQuote (str "a"))).
Proof.
  intros [(before & q & after & k & EI & W & _)|[I _]]; [|cbn in I; repeat (destruct I as [I|I]; [discriminate I|]); exact I].
  cbn [k_type] in W. inversion W; subst.
  - match goal with H : taken_directive _ _ |- _ => inversion H end.
  - match goal with H : taken_scalar ?b _ _ _ |- _ => destruct b; try discriminate; inversion H; subst end.
    assert (X : In 39%N (str "a b")) by (rewrite EI; apply in_or_app; right; now left). cbn in X. lia.
  - match goal with H : (if ?b then Literal else Folded) = _ |- _ => destruct b; discriminate H end.
Qed.
Lemma no_dash : ~ stands (str "a b") (Token (Span (Marker 0 1 1) (Marker 1 2 1)) TBlockEntry).
Proof.
  intros [(before & q & after & k & EI & W & _)|[I _]]; [|cbn in I; repeat (destruct I as [I|I]; [discriminate I|]); exact I].
  cbn [k_type] in W. inversion W; subst.
  - assert (X : In 45%N (str "a b")) by (rewrite EI; apply in_or_app; right; now left). cbn in X. lia.
  - match goal with H : taken_directive _ _ |- _ => inversion H end.
Qed.

(** ** Covering *)
Lemma gap_not_comma after g : gap after g -> nth 0 g 0%N <> 44%N.
Proof. intros [|b g' I _|w g' _ _ _]; cbn [nth]; [discriminate| |discriminate]. cbn [In] in I. intros ->. destruct I as [I|[I|[I|[I|[]]]]]; discriminate. Qed.
Lemma nothing_covered x l : covers (str ",") x l -> l = [] -> x = [].
Proof.
  induction 1 as [|x l g after C IH E G|x l q after k t C IH E W LE P1 P2|x l l' t C IH IM SE]; intros L; [reflexivity| | |].
  - specialize (IH L). subst x. cbn [app] in E |- *. assert (NC := gap_not_comma _ _ G). destruct g as [|b g]; [reflexivity|]. exfalso. apply NC. cbn [app nth] in *. injection E as <- _. reflexivity.
  - destruct l; discriminate.
  - destruct l; discriminate.
Qed.
Lemma no_cover : ~ covers (str ",") (str ",") [].
Proof. intros C. assert (X := nothing_covered _ _ C eq_refl). discriminate X. Qed.
