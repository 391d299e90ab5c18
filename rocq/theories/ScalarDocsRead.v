(** Loading and deserialising documents that are one scalar. *)
From Verif Require Import Base Tokens Scalar Chars Source Cursor Scanner Yaml Emitter ExactCursor EmitterText EmitterProofs.
From Verif Require Import SpecTree SpecStream SpecEmit SpecQuoted SpecScalar FoldedQuotes ExactPlain EagerScan ScanSteps NodeScan DumpScan ScalarDocs.
From Verif Require Import SpecLoad Loader LoadText SpecValue ParserStream ParserAccept LoaderProofs LoaderLoad RoundTripScalars RoundTrip RoundTripExact.
From Verif Require Import ParserIter SpecIter IterProofs Serde SpecSerde SerdeProofs FromText Parser ParserRun SpecEvents Pipeline TextDocs.
From Verif Require Import SerdeSer SpecSer SerProofs EmitterStated.
From Coq Require Import String Lia ZifyBool ZifyNat ZifyN List.
Local Open Scope list_scope.

(** The text [w] is the one scalar [v] in style [st]. *)
Definition scalar_doc (fuel : nat) (w : text) (st : scalar_type) (v : text) : Prop :=
  exists toks z, scan fuel w = (toks, (z, Ok tt)) /\
    map k_type toks = stream_toks 0 [Doc [] false (Some (TrScalar no_props st v)) 0].
Lemma load_scalar fuel w st v : scalar_doc fuel w st v -> 200 <= fuel ->
  load_text fuel w = Ok [value_from_cow_and_metadata v st None].
Proof.
  intros (toks & z & E & T) F. unfold load_text. rewrite E. set (er := scan_error z). set (mk := c_mark (z_cur z)).
  set (n := NdScalar (ScalarValue v st 0 None)).
  pose proof (doc_events toks er mk false (TrScalar no_props st v) n I ltac:(reflexivity) T) as EV. cbv zeta in EV.
  assert (HL : exists p' r, load fuel true (new_parser toks er mk false) = (p', Ok r) /\ map fst r = docs_evs [(false, n)]).
  { rewrite <- EV. apply load_accepts; rewrite ?EV.
    - unfold docs_evs. right. apply in_app_iff. right. now left.
    - cbn. auto.
    - apply (f_equal (@List.length token_type)) in T. rewrite map_length in T. cbn in T. lia. }
  destruct HL as (p' & r & HL & HR). unfold load_from. rewrite HL, HR.
  assert (DV : docs_values kept_pairs [] [(false, n)] = ([value_from_cow_and_metadata v st None], [])) by reflexivity.
  rewrite (stream_run _ _ _ DV). reflexivity.
Qed.
Lemma from_scalar fuel w st v t x : scalar_doc fuel w st v -> 5 <= fuel ->
  reads false t = true -> denotes (fun n => yaml_null n /\ seen_as_null n) seen_as_value t (NScalar (ScalarValue v st 0 None)) x ->
  from_text fuel t w = Ok (DOk x).
Proof.
  intros (toks & z & E & T) F R D. set (n := NdScalar (ScalarValue v st 0 None)).
  apply (from_one_document fuel w toks z false (TrScalar no_props st v) n t x E T I); [reflexivity|exact I|exact R|exact D|cbn; lia].
Qed.

(** ** Quoted documents *)
Lemma flow_doc fuel (single : bool) w m' sp st v :
  nth 0 w 0%N = (if single then 39%N else 34%N) -> List.length w + 3 < fuel ->
  (let doc := [] ++ w ++ [] in
   scan_flow_scalar fuel single 0 false (Cur (StrSrc doc (List.length (@nil N))) (Marker 0 1 1) true false)
   = (Cur (StrSrc doc (List.length (@nil N) + List.length w)) m' false false, Ok (Token sp (TScalar st v)))) ->
  scalar_doc fuel w st v.
Proof.
  intros Q F E. cbv zeta in E. cbn [app] in E. rewrite app_nil_r in E. apply (quoted_doc fuel single w m' false sp); auto.
  unfold cur. rewrite app_nil_r. exact E.
Qed.
Lemma double_lines_doc fuel w ws : double_word w -> Forall (fun x => double_word (snd x)) ws -> words_fit as_is 34%N 0 ws ->
  List.length (in_quotes as_is 34%N w ws) + 3 < fuel ->
  scalar_doc fuel (in_quotes as_is 34%N w ws) DoubleQuote (w ++ words_read ws).
Proof.
  intros W WS FIT F. eapply (flow_doc fuel false); [reflexivity|exact F|].
  apply folded_double; [exact W|exact WS|exact FIT|exact I|reflexivity|discriminate|]. change (List.length (in_quotes as_is 34%N w ws) < fuel). lia.
Qed.
Lemma single_lines_doc fuel w ws : single_word w -> Forall (fun x => single_word (snd x)) ws -> words_fit quote_doubled 39%N 0 ws ->
  List.length (in_quotes quote_doubled 39%N w ws) + 3 < fuel ->
  scalar_doc fuel (in_quotes quote_doubled 39%N w ws) SingleQuote (w ++ words_read ws).
Proof.
  intros W WS FIT F. eapply (flow_doc fuel true); [reflexivity|exact F|].
  apply folded_single; [exact W|exact WS|exact FIT|exact I|reflexivity|discriminate|]. change (List.length (in_quotes quote_doubled 39%N w ws) < fuel). lia.
Qed.
Lemma single_doc fuel t : ~ In 10%N t -> ~ In 13%N t -> ~ In 0%N t -> List.length (in_single_quotes t) + 3 < fuel ->
  scalar_doc fuel (in_single_quotes t) SingleQuote t.
Proof.
  intros A B C F. eapply (flow_doc fuel true); [reflexivity|exact F|].
  assert (List.length t + 1 < fuel).
  { revert F. unfold in_single_quotes. rewrite double_quotes_enc. rewrite !app_length. cbn [List.length].
    assert (List.length t <= List.length (flat_map single_enc t)); [|lia].
    clear. induction t as [|c t IH]; [cbn; lia|]. cbn [flat_map List.length]. rewrite app_length.
    assert (1 <= List.length (single_enc c)); [|lia]. unfold single_enc. destruct (_ =? _)%N; cbn; lia. }
  apply single_quoted_text_reads_back; auto; [exact I|reflexivity|discriminate].
Qed.
Lemma serialized_doc f (ws : list word) t fuel : Forall (fun w => fst w <> []) ws -> t = List.concat (map fst ws) ->
  plain_content t -> single_blanks t -> no_marker_word t ->
  exists written, serialize f (SerStr ws) = Ok written /\
    (List.length written + 3 < fuel -> scalar_doc fuel written DoubleQuote t).
Proof.
  intros NE E P B M. destruct (serialized_reads_back f ws t NE E P B M) as (written & EW & H).
  exists written. split; [exact EW|]. intros F.
  assert (Q : nth 0 written 0%N = 34%N).
  { revert EW. cbn [serialize]. unfold serialize_str, use_complex_form. replace (N.of_nat 0 <=? depth_limit f)%N with true by lia. cbn [negb].
    unfold write_double_quote_multi. destruct (multi_loop f 0 ws [] 0) as [o l]. injection 1 as <-. reflexivity. }
  eapply (flow_doc fuel false); [exact Q|exact F|].
  apply H; [exact I|reflexivity|discriminate|lia].
Qed.
Lemma plain_scalar_doc fuel w : plain_text w -> List.length w + 5 < fuel -> scalar_doc fuel w Plain w.
Proof. intros [A B] F. exact (plain_doc fuel w A B F). Qed.
