(** Quoted scalars as tokens and as documents. *)
From Verif Require Import Base Tokens Scalar Chars Source Cursor Yaml LoadText SpecScalar SpecTree SpecStream SpecJson SpecQuoted SpecBlock SpecPlain SpecStrings SpecLayout.
From Verif Require Import ExactCursor FoldedQuotes LayoutCursor StringScan LayoutDocs LayoutLoad.
From Coq Require Import String Lia.
Local Open Scope list_scope.

Lemma quoted_scanned : forall (single : bool) (n : nat) (q v before r after : text) (in_flow : bool) (indent : N)
    (m : marker) (lead ska : bool) (fuel : nat),
  quoted_scalar single n q v -> (indent <= N.of_nat n + 1)%N -> line_rest r -> may_follow in_flow q after ->
  (In 35%N r -> In (nth 0 after 0%N) [10; 13; 0]%N) -> (0 < m_col m)%N -> (indent <= m_col m + 1)%N ->
  List.length (q ++ r) + 2 < fuel ->
  let doc := before ++ q ++ r ++ after in
  let m' := marker_after (q ++ r) m in
  scan_flow_scalar fuel single indent in_flow (Cur (StrSrc doc (List.length before)) m lead ska)
  = (Cur (StrSrc doc (List.length (before ++ q ++ r))) m' false ska,
     Ok (Token (Span m m') (TScalar (if single then SingleQuote else DoubleQuote) v))).
Proof.
  intros single n q v before r after in_flow indent m lead ska fuel Q I R MF BZ C CI F. cbv zeta.
  pose proof (scans_quoted_rest single n q v indent in_flow r after fuel before m lead ska Q I R MF BZ F C CI) as E.
  unfold cur in E. rewrite E. rewrite <- !app_assoc. reflexivity.
Qed.
Lemma quoted_loads (single : bool) (q v g : text) (fuel : nat) :
  quoted_scalar single 0 q v -> to_end g -> 64 * List.length (q ++ g) + 64 <= fuel ->
  load_text fuel (q ++ g) = Ok [YScalar (SString v)].
Proof.
  intros Q G F. set (st := if single then SingleQuote else DoubleQuote).
  apply (layout_loads fuel (q ++ g) 0 [Doc [] false (Some (TrScalar no_props st v)) 0] [YScalar (SString v)]); [|repeat constructor| |exact F].
  - apply (sm_bare true [] 0 q _ None g 0 []); [constructor| |apply tl_end, fi_line, G]. apply nd_scalar; [lia|]. now apply ws_quoted.
  - constructor; [|constructor]. exists []. apply om_node. apply means_quoted. unfold st. destruct single; discriminate.
Qed.

(** ** An example *)
Definition string_sample : text :=
  str """a\tb \" ++ [13; 10; 10]%N ++ str "  c" ++ [10; 9]%N ++ str "d\u00e9''\" ++ [10%N] ++ str """".
Lemma string_sample_quoted : quoted_scalar false 0 string_sample (str "a" ++ [9%N] ++ str "b " ++ [10%N] ++ str "c d" ++ [195; 169]%N ++ str "''") /\
  string_sample = str """a\tb \" ++ [13; 10; 10]%N ++ str "  c" ++ [10; 9]%N ++ str "d\u00e9''\" ++ [10%N] ++ str """" /\
  to_end (str " # end" ++ [10%N]) /\ line_rest (str " # end").
Proof.
  assert (B : forall b, ~ In b [32; 9; 10; 13; 0; 34; 92]%N -> forall t u, chars false t u -> chars false (b :: t) (b :: u)).
  { intros b N t u C. apply (ch_more false [b] [b] t u); [|exact C]. constructor; cbn [In] in *; [tauto| |]; intros; intros ->; tauto. }
  assert (LR : line_rest (str " # end")) by (apply (lr_comment 0 (str " end")); repeat constructor; not_in).
  split; [|split; [reflexivity|split; [|exact LR]]].
  - apply (qt_words false 0 (str "a\tb") (str "a" ++ [9%N] ++ str "b") (str " \" ++ [13; 10; 10]%N ++ str "  c" ++ [10; 9]%N ++ str "d\u00e9''\" ++ [10%N])).
    + apply B; [not_in|]. apply (ch_more false (str "\t") [9%N] (str "b") (str "b")); [|apply B; [not_in|constructor]].
      apply (pc_escape false 116%N 9%N); [reflexivity|vm_compute; tauto|now constructor].
    + apply (mw_more false 0 (QJoin [32%N] true [([], false)] 2 []) (str "c") (str "c") ([10; 9]%N ++ str "d\u00e9''\" ++ [10%N]) (str " d" ++ [195; 169]%N ++ str "''")).
      * split; [reflexivity|]. split; [repeat constructor|]. split; [|split; [lia|constructor]]. constructor; [|constructor]. exists 0, []. split; [reflexivity|]. split; [constructor|]. intros _. lia.
      * apply B; [not_in|constructor].
      * discriminate.
      * intros [X _]. discriminate.
      * apply (mw_more false 0 (QBreak [] false [] 0 [9%N]) (str "d\u00e9''") (str "d" ++ [195; 169]%N ++ str "''") (str "\" ++ [10%N]) []).
        -- split; [constructor|]. split; [constructor|]. split; [lia|]. constructor; [now right|constructor].
        -- apply B; [not_in|]. apply (ch_more false (str "\u00e9") [195; 169]%N (str "''") (str "''")).
           ++ apply (pc_code false 117%N 4 (str "00e9") 233%N); try reflexivity.
              ** vm_compute. tauto.
              ** repeat constructor; vm_compute; intuition congruence.
              ** discriminate.
              ** unfold surrogate. lia.
              ** apply (u8_two 3 41); lia.
           ++ apply B; [not_in|]. apply B; [not_in|]. constructor.
        -- discriminate.
        -- intros [_ X]. discriminate.
        -- apply (mw_more false 0 (QJoin [] false [] 0 []) [] [] [] []); [|constructor|intros H; now elim H| |constructor].
           ++ split; [reflexivity|]. split; [constructor|]. split; [constructor|]. split; [lia|constructor].
           ++ intros _ (y & [Y|Y] & _); vm_compute in Y; discriminate.
  - apply (te_lines (str " # end") false [] []); [exact LR|constructor|exact (el_spaces 0)].
Qed.
