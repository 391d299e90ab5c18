(** Documents that are one plain scalar over several lines. *)
From Verif Require Import Base Tokens Scalar Chars Source Cursor Scanner Yaml Emitter ExactCursor EmitterText EmitterProofs.
From Verif Require Import SpecTree SpecStream SpecEmit SpecQuoted SpecScalar FoldedQuotes ExactPlain EagerScan ScanSteps NodeScan DumpScan ScalarDocs ScalarDocsRead.
From Verif Require Import LoadText SpecBlock SpecPlain PlainScan ScalarProofs ScalarTags.
From Coq Require Import String Lia ZifyBool ZifyNat ZifyN.
Local Open Scope list_scope.

(** ** Texts with white space are strings *)
Definition inky (t : text) : Prop := Forall (fun c => 32 < c)%N t.
Lemma inky_in t l : In t l -> Forall inky l -> inky t.
Proof. intros I F. exact (proj1 (Forall_forall _ _) F t I). Qed.
Lemma inky_digits (p : N -> Prop) ds : (forall c, p c -> 32 < c)%N -> all_digits p ds -> inky ds.
Proof. intros H [_ F]. apply Forall_forall. intros c Hc. apply H. exact (proj1 (Forall_forall _ _) F c Hc). Qed.
Lemma inky_signed (p : N -> Prop) b t z : (forall c, p c -> 32 < c)%N -> signed p b t z -> inky t.
Proof.
  intros H [ds D|ds D|ds D]; pose proof (inky_digits p ds H D) as I; [exact I| |]; (apply Forall_app; split; [|exact I]);
  constructor; try constructor; reflexivity.
Qed.
Lemma dec_inky c : dec_digit c -> (32 < c)%N. Proof. unfold dec_digit. lia. Qed.
Lemma oct_inky c : oct_digit c -> (32 < c)%N. Proof. unfold oct_digit. lia. Qed.
Lemma hex_inky c : hex_digit c -> (32 < c)%N. Proof. unfold hex_digit. lia. Qed.
Ltac ink := repeat first [apply Forall_nil | apply Forall_cons; [reflexivity|]].
Lemma inky_int t z : core_int t z \/ extra_int t z -> inky t.
Proof.
  intros [[t' z' S|ds D|ds D]|[ds z' S _|ds z' S _|ds z' S _]].
  - exact (inky_signed _ _ _ _ dec_inky S).
  - apply Forall_app. split; [ink|exact (inky_digits _ _ oct_inky D)].
  - apply Forall_app. split; [ink|exact (inky_digits _ _ hex_inky D)].
  - apply Forall_app. split; [ink|exact (inky_signed _ _ _ _ dec_inky S)].
  - apply Forall_app. split; [ink|exact (inky_signed _ _ _ _ oct_inky S)].
  - apply Forall_app. split; [ink|exact (inky_signed _ _ _ _ hex_inky S)].
Qed.
Lemma inky_dec ds : Forall dec_digit ds -> inky ds.
Proof. intros F. apply Forall_forall. intros c Hc. apply dec_inky. exact (proj1 (Forall_forall _ _) F c Hc). Qed.
Lemma inky_sign sg n : opt_sign sg n -> inky sg.
Proof. intros [| |]; ink. Qed.
Lemma inky_float t f : denotes_float t f -> inky t.
Proof.
  destruct f as [n| |n m e]; cbn [denotes_float].
  - intros I. destruct n; eapply inky_in; try exact I; repeat (constructor; [ink|]); constructor.
  - intros I. eapply inky_in; [exact I|]. repeat (constructor; [ink|]); constructor.
  - intros [sg neg mt ip fp et e' SG MT EX]. apply Forall_app. split; [exact (inky_sign _ _ SG)|]. apply Forall_app. split.
    + destruct MT as [ip _ D|ip fp D1 D2 _]; [now apply inky_dec|]. apply Forall_app. split; [now apply inky_dec|].
      apply Forall_app. split; [ink|now apply inky_dec].
    + destruct EX as [|x sg' neg' ds X SG' D]; [ink|]. constructor; [destruct X; subst; reflexivity|]. apply Forall_app.
      split; [exact (inky_sign _ _ SG')|exact (inky_digits _ _ dec_inky D)].
Qed.
Lemma white_string t : (exists c, In c t /\ (c <= 32)%N) -> value_from_cow_and_metadata t Plain None = YScalar (SString t).
Proof.
  intros (c & I & L).
  assert (N : ~ inky t). { intros F. pose proof (proj1 (Forall_forall _ _) F c I) as X. cbv beta in X. lia. }
  apply everything_else.
  - intros X. apply N. eapply inky_in; [exact X|]. repeat (constructor; [ink|]); constructor.
  - intros b X. apply N. destruct b; (eapply inky_in; [exact X|]; repeat (constructor; [ink|]); constructor).
  - intros z. split; intros X; apply N; apply (inky_int t z); auto.
  - intros f X. apply N. exact (inky_float t f X).
Qed.

(** ** Documents *)
Lemma start_begins w : plain_start w -> w <> [] -> Forall (word_char false) w ->
  exists b r, w = b :: r /\ begins b /\ b <> 37%N.
Proof.
  intros PS NE FC. destruct w as [|b r]; [congruence|]. exists b, r. split; [reflexivity|].
  inversion_clear FC as [|? ? Cb _]. destruct Cb as [Cb _].
  unfold plain_start in PS. cbn [nth] in PS.
  assert (X : b <> 35%N /\ b <> 37%N).
  { destruct PS as [PS|[PS _]]; cbn in PS; lia. }
  split; [|tauto]. unfold begins. cbn [In] in *. intuition.
Qed.
Lemma start_main fuel pre w x M L A toks k i s fs adj : plain_start w -> w <> [] -> Forall (word_char false) w ->
  fetch_main_loop fuel (zs (cur pre (w ++ x) M L A) toks k i s fs adj)
  = fetch_plain_scalar fuel (zs (cur pre (w ++ x) M L A) toks k i s fs adj).
Proof.
  intros PS NE FC. rewrite main_start. destruct w as [|b r]; [congruence|]. cbn [app nth] in *. cbv zeta.
  unfold plain_start in PS. cbn [nth] in PS.
  assert (H : forall y, In y [91; 123; 93; 125; 44; 42; 38; 33; 124; 62; 39; 34; 37; 64; 96]%N -> (b =? y)%N = false).
  { intros y Hy. apply N.eqb_neq. intros ->. destruct PS as [PS|[PS _]]; [apply PS|]; clear - Hy PS; cbn in *; intuition (subst; auto 20; discriminate). }
  rewrite (H 91%N), (H 123%N), (H 93%N), (H 125%N), (H 44%N), (H 42%N), (H 38%N), (H 33%N), (H 124%N), (H 62%N), (H 39%N), (H 34%N), (H 37%N), (H 64%N), (H 96%N) by (cbn [In]; tauto).
  cbn [andb orb].
  destruct PS as [PS|[PS L2]].
  - rewrite (proj2 (N.eqb_neq b 45)), (proj2 (N.eqb_neq b 63)), (proj2 (N.eqb_neq b 58)) by (intros ->; apply PS; cbn; tauto). reflexivity.
  - destruct r as [|y r]; [cbn in L2; lia|]. cbn [nth app].
    inversion_clear FC as [|? ? _ FC']. inversion_clear FC' as [|? ? Cy _]. destruct (word_char_facts false y Cy) as [Y _].
    assert (Y' : is_blank_or_break y = false) by (unfold is_blank_or_breakz, is_blank_or_break, is_blank, is_break in *; lia).
    rewrite Y, Y'. cbn in PS. destruct PS as [<- |[<- |[<- |[]]]]; reflexivity.
Qed.
Lemma folded_plain_doc fuel w ws g :
  plain_start w -> plain_word false w (nth 0 (more_text ws ++ fold_text g) 0%N) -> plain_words false 0 ws (fold_text g) ->
  white_gap g -> no_look_alikes false ws (fold_text g) -> ~ doc_mark (w ++ more_text ws ++ fold_text g) ->
  let t := w ++ more_text ws ++ fold_text g in List.length t + 6 < fuel ->
  scalar_doc fuel t Plain (w ++ more_value ws).
Proof.
  intros PS PW PWS FF NL DM t F. assert (WC : Forall (word_char false) w) by apply PW. assert (W0 : w <> []) by apply PW.
  destruct (start_begins w PS W0 WC) as (b & r0 & EW & B & B37).
  set (r := r0 ++ more_text ws ++ fold_text g). assert (ET : t = b :: r) by (unfold t, r; rewrite EW; reflexivity).
  set (z0 := zs (cur [] t (Marker 0 1 1) true true) [Token (Span (Marker 0 1 1) (Marker 0 1 1)) TStreamStart] (skey_new (Marker 0 0 0)) 0 [] false 0).
  destruct (round_at fuel z0 [] b r (Marker 0 1 1) true true [TStreamStart] (skey_new (Marker 0 0 0)) 0 [] 0 [] 0
    (fun z2 => exists toks k' fs adj l' a' m', z2 = zs (cur t [] m' l' a') toks k' 0 [] fs adj /\
       map k_type toks = [TStreamStart; TScalar Plain (w ++ more_value ws)] /\ idle k')) as (z2 & R & P).
  - unfold z0. rewrite ET. now apply At_here.
  - exact B.
  - rewrite <- ET. unfold marker_line. rewrite ET at 1. cbn [nth]. rewrite (proj2 (N.eqb_neq b 37) B37). cbn [orb].
    destruct (_ && is_blank_or_breakz _) eqn:E; [|reflexivity]. elim DM.
    apply (indicator_mark [] t (Marker 0 0 0) true true). unfold next_is_document_indicator, next_is_three. rewrite !cur_peek. exact E.
  - cbn. lia.
  - intros H. discriminate.
  - apply unrolls_none. cbn. lia.
  - intros toks fs adj ETK _. cbn [repeat] in ETK. rewrite app_nil_r in ETK. rewrite <- ET. unfold t at 1.
    rewrite start_main by auto. unfold fetch_plain_scalar. unfold bind at 1. rewrite zs_save.
    unfold bind at 1. rewrite zs_lift, e_set_ska. unfold bind at 1. rewrite (zs_non_block 0 []) by (exact I || (left; auto)).
    unfold bind at 1. unfold gets at 1. unfold bind at 1. unfold gets at 1.
    match goal with |- context [z_indent (zs ?a ?b ?c ?d ?e ?f ?g)] => change (z_indent (zs a b c d e f g)) with 0%N end.
    match goal with |- context [z_flow (zs ?a ?b ?c ?d ?e ?f ?g)] => change (z_flow (zs a b c d e f g)) with 0%N end.
    change ((0 <? 0)%N) with false. unfold bind at 1. rewrite zs_lift.
    pose proof (plain_scanned fuel 0 false w ws g [] [] (Marker 0 1 1) true false) as X. rewrite !app_nil_r in X. cbv zeta in X.
    rewrite <- !app_assoc in X. rewrite X; clear X; auto; [|now constructor|discriminate|intros (Y & _); discriminate|cbn; lia|discriminate|].
    2:{ revert F. unfold t. lia. }
    rewrite zs_push. cbn [k_span k_type app].
    match goal with |- context [zs ?c ?d ?e ?f ?g ?h ?j] => destruct (zs_stale_idle c d e f g h j) as (k' & ES & K) end.
    { eapply (saved_idle _ _ _ _ _ _ 0%N []); [left; split; reflexivity|cbn; lia|apply idle_impossible]. }
    do 2 eexists. split; [reflexivity|]. split; [exact ES|]. split; [cbn [zs z_tokens]; rewrite app_length; cbn [List.length]; lia|].
    do 7 eexists. split; [reflexivity|]. split; [rewrite map_app, ETK; reflexivity|].
    destruct K as [-> | ->]; [|apply idle_impossible].
    eapply (saved_idle _ _ _ _ _ _ 0%N []); [left; split; reflexivity|cbn; lia|apply idle_impossible].
  - destruct P as (toks & k' & fs & adj & l' & a' & m' & -> & ETK & IK).
    eapply (end_of_scalar fuel t m' l' a' toks k' fs adj Plain (w ++ more_value ws)); eauto; [lia|].
    eapply rounds_more; [apply round_start|]. apply rounds_one. exact R.
Qed.
Lemma value_white f n after ws : plain_words f n ws after -> ws <> [] -> exists c, In c (more_value ws) /\ (c <= 32)%N.
Proof.
  destruct ws as [|[g w] ws]; [congruence|]. intros (FF & G0 & _) _. cbn [more_value flat_map fst snd].
  assert (X : exists c, In c (fold_value g) /\ (c <= 32)%N).
  { destruct g as [bs|tr b e i more]; cbn [fold_value fold_text white_gap] in *.
    - destruct FF as [|x bs [-> | ->] _]; [congruence| |]; eexists; (split; [now left|lia]).
    - destruct e as [|x e]; [exists 32%N; split; [now left|lia]|]. cbn [List.length repeat]. exists 10%N. split; [now left|lia]. }
  destruct X as (c & I & L). exists c. split; [|exact L]. apply in_or_app. left. apply in_or_app. now left.
Qed.
Theorem folded_plain_loads fuel w ws g :
  plain_start w -> plain_word false w (nth 0 (more_text ws ++ fold_text g) 0%N) -> plain_words false 0 ws (fold_text g) -> ws <> [] ->
  white_gap g -> no_look_alikes false ws (fold_text g) -> ~ doc_mark (w ++ more_text ws ++ fold_text g) ->
  let t := w ++ more_text ws ++ fold_text g in List.length t + 200 <= fuel ->
  load_text fuel t = Ok [YScalar (SString (w ++ more_value ws))].
Proof.
  intros PS PW PWS N FF NL DM t F. rewrite (load_scalar fuel t Plain (w ++ more_value ws)); [|apply folded_plain_doc; auto; fold t; lia|lia].
  do 2 f_equal. apply white_string. destruct (value_white _ _ _ _ PWS N) as (c & I & L). exists c. split; [|exact L].
  apply in_or_app. now right.
Qed.

(** ** As stated *)
Lemma plain_scalar_scans fuel n f w ws g after pre m l s :
  let t := w ++ more_text ws in
  plain_scalar f n w ws g after -> plain_place f n m (t ++ fold_text g ++ after) ->
  comment_behind n g after -> no_dash f w (nth 0 (more_text ws ++ fold_text g ++ after) 0%N) ->
  no_look_alikes f ws (fold_text g ++ after) -> (l = true -> ~ doc_mark (t ++ fold_text g ++ after)) ->
  List.length (t ++ fold_text g) + 5 < fuel ->
  let doc := pre ++ t ++ fold_text g ++ after in
  scan_plain_scalar fuel n f (Cur (StrSrc doc (List.length pre)) m l s)
  = (Cur (StrSrc doc (List.length pre + List.length (t ++ fold_text g))) (marker_after (t ++ fold_text g) m) (breaks g) (s || breaks g),
     Ok (Token (Span m (marker_after t m)) (TScalar Plain (w ++ more_value ws)))).
Proof.
  intros t (P1 & P2 & P3) (L1 & L2 & _) CB ND NL DM F doc.
  pose proof (plain_scanned fuel n f w ws g after pre m l s P1 P2 P3 CB ND NL) as X. unfold t in *. rewrite <- !app_assoc in *.
  cbv zeta in X. specialize (X DM L1 L2 F). unfold cur in X. rewrite <- !app_assoc in X. unfold doc. rewrite <- ?app_assoc. rewrite X.
  rewrite !app_length. reflexivity.
Qed.

(** ** What fails *)
Definition indented_marker : list (fold_gap * text) := [(NewLines [] false [] 1 [], str "---")].
Lemma indented_marker_scalar : plain_scalar false 0 (str "a") indented_marker (Inline []) [].
Proof.
  assert (W : forall b, In b (str "a-") -> word_char false b).
  { intros b H. split; [|discriminate]. cbn in *. intuition (subst; discriminate). }
  split; [|split; [|constructor; constructor]].
  - split; [discriminate|]. split; [|split; [discriminate|intros E; discriminate]]. apply Forall_forall. intros b H. apply W. cbn in *. tauto.
  - cbn. split; [repeat split; constructor|]. split; [discriminate|]. split; [lia|]. split; [intros [E _]; discriminate|].
    split; [|exact I]. split; [discriminate|]. split; [|split; [discriminate|intros E; discriminate]].
    apply Forall_forall. intros b H. apply W. cbn in *. tauto.
Qed.
Lemma indented_marker_fails fuel y : load_text fuel (str "a" ++ more_text indented_marker) <> Ok y.
Proof. do 30 (destruct fuel as [|fuel]; [vm_compute; discriminate|]). vm_compute. discriminate. Qed.
Definition lone_dash : list (fold_gap * text) := [(Inline [32%N], str "-")].
Lemma lone_dash_scalar : plain_scalar true 0 (str "a") lone_dash (Inline []) (str "]").
Proof.
  assert (W : forall b, In b (str "a-") -> word_char true b).
  { intros b H. unfold word_char, flow_sign. cbn in *. intuition (subst; discriminate). }
  split; [|split; [|constructor; [constructor|exact I|reflexivity|cbn; tauto]]].
  - split; [discriminate|]. split; [|split; [discriminate|intros E; discriminate]]. apply Forall_forall. intros b H. apply W. cbn in *. tauto.
  - cbn. split; [repeat constructor|]. split; [discriminate|]. split; [exact I|]. split; [tauto|].
    split; [|exact I]. split; [discriminate|]. split; [|split; [discriminate|intros E; discriminate]].
    apply Forall_forall. intros b H. apply W. cbn in *. tauto.
Qed.
Lemma lone_dash_fails fuel y : load_text fuel (str "[" ++ str "a" ++ more_text lone_dash ++ str "]") <> Ok y.
Proof. do 30 (destruct fuel as [|fuel]; [vm_compute; discriminate|]). vm_compute. discriminate. Qed.
(** The scalar at the start of [t] is scanned as [v]. *)
Definition scanned_as (f : bool) (n : N) (m : marker) (t v : text) : Prop :=
  exists fuel c sp, scan_plain_scalar fuel n f (Cur (StrSrc t 0) m false false) = (c, Ok (Token sp (TScalar Plain v))).
Ltac not_scanned := intros (fuel & c & sp & E); revert E; do 30 (destruct fuel as [|fuel]; [vm_compute; discriminate|]); vm_compute; discriminate.
Lemma indented_marker_scan : ~ scanned_as false 0 (Marker 0 1 1) (str "a" ++ more_text indented_marker) (str "a" ++ more_value indented_marker).
Proof. not_scanned. Qed.
Lemma lone_dash_scan : ~ scanned_as true 0 (Marker 0 2 1) (str "a" ++ more_text lone_dash ++ str "]") (str "a" ++ more_value lone_dash).
Proof. not_scanned. Qed.
Definition tab_comment : fold_gap := NewLines [] false [] 0 [9%N].
Lemma tab_comment_scalar : plain_scalar false 1 (str "a") [] tab_comment (str "#c" ++ [10%N; 32%N; 98%N]).
Proof.
  split; [|split; [exact I|]].
  - split; [discriminate|]. split; [|split; [discriminate|intros E; discriminate]]. apply Forall_forall. intros b H.
    split; [|discriminate]. cbn in *. intuition (subst; discriminate).
  - apply ps_comment; [|discriminate]. split; [constructor|]. split; [constructor|]. constructor; [now right|constructor].
Qed.
Lemma tab_comment_loads : load_text 200 (str "- a" ++ fold_text tab_comment ++ str "#c" ++ [10%N; 32%N; 98%N]) = Ok [YSeq [YScalar (SString (str "a" ++ [10%N] ++ str "b"))]].
Proof. vm_compute. reflexivity. Qed.
Lemma tab_comment_scan : ~ scanned_as false 1 (Marker 0 3 1) (str "a" ++ fold_text tab_comment ++ str "#c" ++ [10%N; 32%N; 98%N]) (str "a").
Proof. not_scanned. Qed.
Lemma no_marker_a : ~ doc_mark (str "a" ++ more_text indented_marker).
Proof. intros (r & [E|E] & _); discriminate. Qed.
Lemma joined_not_a : str "a" ++ [10%N] ++ str "b" <> str "a".
Proof. discriminate. Qed.

(** ** Examples *)
Ltac no_mark := let r := fresh in let E := fresh in intros (r & [E|E] & ?); vm_compute in E; try congruence.
Ltac a_word := split; [discriminate|split; [apply Forall_forall; let b := fresh in let H := fresh in intros b H; unfold word_char, flow_sign; cbn in *; intuition (subst; discriminate)
  |split; [discriminate|unfold ends_colon, flow_sign; cbn; intuition discriminate]]].
Ltac whites := repeat first [apply Forall_nil | apply Forall_cons; [first [now left | now right | cbn [fst]]|]].
Lemma words_meet : let ws := [(Inline [32; 9]%N, str "b:c#"); (NewLines [32%N] true [([9%N], false); ([], true)] 2 [9%N], str "-"); (NewLines [] false [] 3 [], str "-e")] in
  let g := NewLines [9%N] false [] 0 [] in let after := str "k: v" in
  plain_scalar false 2 (str "?a") ws g after /\ plain_place false 2 (Marker 4 4 1) (str "?a" ++ more_text ws ++ fold_text g ++ after) /\
  comment_behind 2 g after /\ no_look_alikes false ws (fold_text g ++ after) /\
  str "?a" ++ more_value ws = str "?a " ++ [9%N] ++ str "b:c#" ++ [10; 10]%N ++ str "- -e".
Proof.
  intros ws g after. split; [|split; [|split; [|split]]].
  - split; [a_word|split].
    + cbn [plain_words ws]. split; [cbn; whites|]. split; [discriminate|]. split; [exact I|]. split; [intros []|]. split; [a_word|].
      split; [cbn; repeat split; whites|]. split; [discriminate|]. split; [cbn; lia|]. split; [intros [E _]; discriminate|]. split; [a_word|].
      split; [cbn; repeat split; whites|]. split; [discriminate|]. split; [cbn; lia|]. split; [intros [E _]; discriminate|]. split; [a_word|exact I].
    + apply ps_less; [cbn; repeat split; whites|reflexivity|reflexivity|cbn; lia].
  - split; [cbn; lia|]. split; [discriminate|]. intros _. no_mark.
  - discriminate.
  - cbn [no_look_alikes ws]. repeat match goal with |- _ /\ _ => split | |- no_dash _ _ _ => intros (E & _); discriminate | |- True => exact I | |- _ -> _ => first [discriminate | intros _; no_mark] end.
  - reflexivity.
Qed.
Lemma flow_meets : let ws := [(NewLines [] false [] 1 [9%N], str "::-")] in let g := Inline [32%N] in let after := str ",b]" in
  plain_scalar true 1 (str "a") ws g after /\ plain_place true 1 (Marker 3 3 1) (str "a" ++ more_text ws ++ fold_text g ++ after) /\
  comment_behind 1 g after /\ no_dash true (str "a") 10 /\ no_look_alikes true ws (fold_text g ++ after) /\
  str "a" ++ more_value ws = str "a ::-".
Proof.
  intros ws g after. split; [|split; [|split; [|split; [|split]]]].
  - split; [a_word|split].
    + cbn [plain_words ws]. split; [cbn; repeat split; whites|]. split; [discriminate|]. split; [cbn; lia|]. split; [intros [E _]; discriminate|]. split; [a_word|exact I].
    + apply ps_flow; [cbn; whites|exact I|reflexivity|cbn; tauto].
  - split; [cbn; lia|]. split; [cbn; lia|]. intros _. no_mark.
  - discriminate.
  - intros (_ & E & _). discriminate.
  - cbn [no_look_alikes ws]. split; [intros _; no_mark|split; [intros (_ & E & _); discriminate|exact I]].
  - reflexivity.
Qed.
Lemma document_meets : let ws := [(NewLines [] false [] 0 [], str "---b"); (Inline [32%N], str "---")] in let g := NewLines [] false [([9%N], false)] 0 [9%N] in
  plain_start (str "1") /\ plain_word false (str "1") 10 /\ plain_words false 0 ws (fold_text g) /\ white_gap g /\
  no_look_alikes false ws (fold_text g) /\ ~ doc_mark (str "1" ++ more_text ws ++ fold_text g) /\ str "1" ++ more_value ws = str "1 ---b ---".
Proof.
  intros ws g. split; [|split; [|split; [|split; [|split; [|split]]]]].
  - left. cbn. intuition discriminate.
  - a_word.
  - cbn [plain_words ws]. split; [cbn; repeat split; whites|]. split; [discriminate|]. split; [cbn; lia|]. split.
    { intros _ (r & [E|E] & M); vm_compute in E; [|discriminate]. injection E as <-. cbn in M. intuition discriminate. }
    split; [a_word|]. split; [cbn; whites|]. split; [discriminate|]. split; [exact I|]. split; [intros []|]. split; [a_word|exact I].
  - cbn. repeat split; whites.
  - cbn [no_look_alikes ws]. split; [|split; [intros (E & _); discriminate|split; [discriminate|split; [intros (E & _); discriminate|exact I]]]].
    intros _ (r & [E|E] & M); vm_compute in E; [|discriminate]. injection E as <-. cbn in M. intuition discriminate.
  - no_mark.
  - reflexivity.
Qed.
