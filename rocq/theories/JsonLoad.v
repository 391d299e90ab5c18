(** Loading JSON texts. *)
From Verif Require Import Base Tokens Scalar Yaml Chars Source Cursor Scanner ExactCursor SpecQuoted ExactPlain EagerScan ScanSteps.
From Verif Require Import SpecScalar SpecJson NodeScan DumpScan JsonCursor FlowScan JsonScan.
From Verif Require Import SpecTree SpecStream SpecLoad SpecEvents Parser ParserRun Loader LoadText SpecValue Pipeline TextDocs ParserStream ParserAccept LoaderProofs LoaderLoad RoundTrip.
From Verif Require Import ScannerHang.
From Coq Require Import String Lia ZifyBool ZifyNat ZifyN.
Local Open Scope list_scope.

Lemma start_spot fuel w : List.length w + 5 < fuel ->
  spot fuel w [TStreamStart] 0 false false (zs (cur [] w (Marker 0 1 1) true true) [Token (Span (Marker 0 1 1) (Marker 0 1 1)) TStreamStart] (skey_new (Marker 0 0 0)) 0 [] false 0).
Proof.
  intros F. exists [], [], (Marker 0 1 1), true, true, [Token (Span (Marker 0 1 1) (Marker 0 1 1)) TStreamStart], [skey_new (Marker 0 0 0)], [], false, 0%N.
  split; [reflexivity|]. repeat split; auto; try discriminate; try (constructor; auto; fail).
  - constructor; [intros X; discriminate|constructor].
Qed.
Theorem json_text_scans w y fuel : json_text false w y -> (N.of_nat (List.length w) < 4294967295)%N -> List.length w + 5 < fuel ->
  exists toks z tr n, scan fuel w = (toks, (z, Ok tt)) /\ map k_type toks = stream_toks 0 [Doc [] false (Some tr) 0] /\
    means tr n y /\ List.length toks <= List.length w + 2.
Proof.
  intros [g v y' g' W J W'] L F. rewrite !app_length in L.
  pose proof (start_spot fuel (g ++ v ++ g') F) as S0. rewrite <- (app_nil_r g') in S0 at 1.
  apply spot_gap in S0; [|exact W].
  destruct (proj1 json_scans v y' J fuel g' [] _ 0 false false _ S0 W' eq_refl ltac:(lia)) as (z1 & tr & n & (n1 & R1) & S1 & M & LT).
  destruct (end_step fuel _ false false z1 S1) as (z2 & R2 & TK & FIN).
  { cbn [app]. constructor; [exact I|]. apply M. }
  assert (RR : rounds fuel (S (n1 + 1)) (scanner_new (g ++ v ++ g')) z2).
  { eapply rounds_more; [apply round_start|]. eapply rounds_trans; [exact R1|]. apply rounds_one. exact R2. }
  assert (TS : map k_type (z_tokens z2) = stream_toks 0 [Doc [] false (Some tr) 0]).
  { rewrite TK. unfold stream_toks, doc_toks. cbn [repeat app flat_map map d_dirs d_explicit d_root d_ends opt_list]. now rewrite !app_nil_r. }
  assert (LZ : List.length (z_tokens z2) <= List.length (g ++ v ++ g') + 2).
  { rewrite <- (map_length k_type), TK, !app_length. cbn [List.length]. lia. }
  pose proof (rounds_tokens _ _ _ _ RR) as NT.
  destruct (scan_all fuel _ _ z2 RR FIN) as (z' & E); [lia|lia|].
  exists (z_tokens z2), z', tr, n. auto.
Qed.
Theorem json_loads w y fuel : json_text false w y -> (N.of_nat (List.length w) < 4294967295)%N -> 32 * List.length w + 200 <= fuel ->
  load_text fuel w = Ok [y].
Proof.
  intros J L F. destruct (json_text_scans w y fuel J L ltac:(lia)) as (toks & z & tr & n & E & T & M & LT).
  unfold load_text. rewrite E. set (er := scan_error z). set (mk := c_mark (z_cur z)).
  assert (B : block_tree false tr) by (destruct M as (FT & _); destruct tr; try exact FT; contradiction).
  pose proof (doc_events toks er mk false tr n B (fun tags => proj1 (proj2 M) tags []) T) as EV. cbv zeta in EV.
  assert (HL : exists p' r, load fuel true (new_parser toks er mk false) = (p', Ok r) /\ map fst r = docs_evs [(false, n)]).
  { rewrite <- EV. apply load_accepts; rewrite ?EV.
    - unfold docs_evs. right. apply in_app_iff. right. now left.
    - unfold docs_evs. cbn [flat_map]. unfold doc_evs. cbn [fst snd app aliases_local]. rewrite !app_nil_r, <- app_assoc. apply M. intros i. exact I.
    - lia. }
  destruct HL as (p' & r & HL & HR). unfold load_from. rewrite HL, HR.
  assert (DV : docs_values kept_pairs [] [(false, n)] = ([y], [])).
  { unfold docs_values. cbn [thread snd]. rewrite (proj1 (proj2 (proj2 M))). reflexivity. }
  rewrite (stream_run _ _ _ DV). reflexivity.
Qed.

(** ** What is left out *)
Lemma after_cr : forall fuel b ind c, c_src c = str_new [13; 49]%N -> snd (skip_to_next_token fuel b ind 0 c) = Fuel.
Proof.
  induction fuel as [|fuel IH]; intros b ind c E; [reflexivity|].
  destruct c as [s m ld sk]. cbn [c_src] in E. subst s. cbn [skip_to_next_token].
  unfold bind at 1, peek, gets at 1. cbn -[skip_to_next_token].
  exact (IH b ind (Cur (str_new [13; 49]%N) m ld true) eq_refl).
Qed.
Lemma cr_not_loaded fuel : load_text fuel [13; 49]%N = Fuel.
Proof.
  assert (H : snd (snd (scan fuel [13; 49]%N)) = Fuel).
  { apply hang_scan. clear fuel. intros fuel. unfold fetch_next_token. unfold bind at 1, gets. cbv beta iota.
    change (z_started (z_started_on [13; 49]%N)) with true. cbn [negb]. apply bind_fuel.
    unfold zskip_to_next_token. apply lift_fuel. apply after_cr. reflexivity. }
  unfold load_text. destruct (scan fuel [13; 49]%N) as [toks [z []]]; try discriminate H. reflexivity.
Qed.
Lemma tab_not_loaded fuel y : load_text fuel (str "{""a"":" ++ 9%N :: str "1}") <> Ok y.
Proof. do 30 (destruct fuel as [|fuel]; [vm_compute; discriminate|]). vm_compute. discriminate. Qed.
Lemma pair_not_loaded fuel y : load_text fuel (34 :: 92 :: str "ud83d" ++ 92 :: str "ude00" ++ [34])%N <> Ok y.
Proof. do 30 (destruct fuel as [|fuel]; [vm_compute; discriminate|]). vm_compute. discriminate. Qed.
Lemma cr_json : json_text true [13; 49]%N (YScalar (SInt 1)).
Proof.
  refine (jt_intro true [13%N] [49%N] _ [] (jw_cr _ _ eq_refl (jw_none _)) _ (jw_none _)). apply j_number.
  refine (jn_integer [] false [49%N] jsg_none _ _); [apply jnat_more; [lia|constructor]|]. unfold i64_range. cbn. lia.
Qed.
Lemma tab_json : json_text true (str "{""a"":" ++ 9%N :: str "1}") (YMap [(YScalar (SString [97%N]), YScalar (SInt 1))]).
Proof.
  refine (jt_intro true [] (str "{""a"":" ++ 9%N :: str "1}") _ [] (jw_none _) _ (jw_none _)).
  refine (j_object true (str """a"":" ++ 9%N :: str "1") _ _).
  refine (jm_last true [] [97%N] [97%N] [] [9%N] [49%N] _ [] (jw_none _) _ (jw_none _) _ _ _ (jw_none _)).
  - apply jc_byte; try discriminate. constructor.
  - apply jw_byte; [cbn; auto|constructor].
  - now left.
  - apply j_number. refine (jn_integer [] false [49%N] jsg_none _ _); [apply jnat_more; [lia|constructor]|]. unfold i64_range. cbn. lia.
Qed.
Lemma pair_json : json_text true (34 :: 92 :: str "ud83d" ++ 92 :: str "ude00" ++ [34])%N (YScalar (SString [240; 159; 152; 128]%N)).
Proof.
  refine (jt_intro true [] (34 :: 92 :: str "ud83d" ++ 92 :: str "ude00" ++ [34])%N _ [] (jw_none _) _ (jw_none _)).
  refine (j_string true (92 :: str "ud83d" ++ 92 :: str "ude00")%N _ _).
  refine (jc_pair true (str "d83d") (str "de00") 55357 56832 [240; 159; 152; 128]%N [] [] eq_refl _ _ _ _ _ (jc_none _)).
  - split; [reflexivity|]. split; [|reflexivity]. repeat constructor; unfold hex_digit; cbn; lia.
  - split; [reflexivity|]. split; [|reflexivity]. repeat constructor; unfold hex_digit; cbn; lia.
  - lia.
  - lia.
  - refine (u8_four 0 31 24 0 _ _ _ _ _); lia.
Qed.
