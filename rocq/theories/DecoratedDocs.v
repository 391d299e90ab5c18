(** A document with anchors, aliases and tags, and what of them is not loaded as it is meant. *)
From Verif Require Import SpecProps.
From Verif Require Import Base Tokens Scalar Yaml LoadText SpecScalar SpecTree SpecStream SpecBlock SpecLayout LayoutLoad.
From Verif Require Import PropsDocs.
From Coq Require Import String Lia.
Local Open Scope list_scope.

Definition deco_flow : text := str "[*a , &a 7, !!null : *a ]".
Definition deco : text :=
  str "--- &r !!map" ++ lf ++ str "&k k: &a x" ++ lf ++ str "*a : !t" ++ lf ++ str "- *k" ++ lf ++ str "- &e !!str" ++ lf ++
  str "- !!str" ++ lf ++ str "  |" ++ lf ++ str "  y" ++ lf ++ str "- " ++ deco_flow.
Definition named_by (n : string) : props := Props (Some (str n)) None false.
Definition core_by (n : string) : props := Props None (Some (str "!!", str n)) false.
Definition a_plain (n : string) : tree := TrScalar no_props Plain (str n).
Definition deco_flow_tree : tree :=
  TrFlowSeq no_props [INode (TrAlias (str "a")); INode (TrScalar (named_by "a") Plain (str "7"));
    IPair (TrEmpty (core_by "null")) (VNode (TrAlias (str "a")))] false.
Definition deco_items : list (option tree) :=
  [Some (TrAlias (str "k")); Some (TrEmpty (Props (Some (str "e")) (Some (str "!!", str "str")) false));
   Some (TrScalar (core_by "str") Literal (str "y" ++ lf)); Some deco_flow_tree].
Definition deco_tree : tree :=
  TrBlockMap (Props (Some (str "r")) (Some (str "!!", str "map")) false)
    [(KNode (TrScalar (named_by "k") Plain (str "k")), VNode (TrScalar (named_by "a") Plain (str "x")));
     (KNode (TrAlias (str "a")), VNode (TrIndentless (Props None (Some (str "!", str "t")) false) deco_items))].
Definition deco_docs : list doc := [Doc [] true (Some deco_tree) 0].
Definition a_string (n : text) : yaml := YScalar (SString n).
Definition deco_list : list yaml :=
  [a_string (str "k"); a_string []; a_string (str "y" ++ lf);
   YSeq [a_string (str "x"); YScalar (SInt 7); YMap [(YScalar SNull, YScalar (SInt 7))]]].
Definition deco_pairs : list (yaml * yaml) :=
  [(a_string (str "k"), a_string (str "x")); (a_string (str "x"), YTagged (Tag (str "!") (str "t")) (YSeq deco_list))].
Definition deco_value : yaml := YMap deco_pairs.

Ltac anchor_ok := split; [discriminate|each ltac:(not_in)].
Lemma an_anchor (n : string) : anchor_name (str n) -> props_text false (38%N :: str n) (named_by n).
Proof. intros H. now apply pt_anchor. Qed.
Lemma core_text (s : string) : str s <> [] -> uri_text false tag_byte (str s) (str s) -> tag_text false (str "!!" ++ str s) (str "!!") (str s).
Proof. intros N H. apply (tt_named false [] (str s)); [constructor|exact N|exact H]. Qed.
Ltac core_ok := apply core_text; [discriminate|plainly; uris].
Lemma deco_flow_node : flow_node false 1 true deco_flow deco_flow_tree.
Proof.
  assert (SP : flow_gap 1 (str " ")) by apply one_space.
  assert (AL : forall c, flow_node false 1 c (str "*a") (TrAlias (str "a"))) by (intros c; apply (fn_alias false 1 c (str "a")); anchor_ok).
  apply (fn_items false 1 true [] (str "*a , &a 7, !!null : *a ")); [apply no_space|].
  apply (fi_more false 1 (str "*a") _ (str " ") (str " ") (str "&a 7, !!null : *a ")); [apply ft_node, AL|exact SP|exact SP|].
  apply (fi_more false 1 (str "&a 7") _ [] (str " ") (str "!!null : *a ")); [|apply no_space|exact SP|].
  - apply ft_node. apply (fn_props false 1 true (str "&a") (named_by "a") (str " ") (str "7") (TrScalar no_props Plain (str "7"))); [apply (an_anchor "a"); anchor_ok|exact SP|discriminate|apply one_flow; not_in|reflexivity].
  - apply (fi_last false 1 (str "!!null : *a") _ (str " ")); [|exact SP].
    apply (ft_pair false 1 (str "!!null") (TrEmpty (core_by "null")) 1 (str " *a")); [|not_in|discriminate|].
    + apply fn_empty. apply pt_tag, (core_text "null"); [discriminate|plainly; uris].
    + apply (fv_node false 1 false false (str " ") (str "*a")); [exact SP|apply AL|right; left; discriminate].
Qed.
Lemma deco_stream : stream deco 0 deco_docs.
Proof.
  assert (WK : forall p, written_scalar p Plain (str "k") (str "k")) by (intros p; apply one_word; not_in).
  assert (WX : forall p, written_scalar p Plain (str "x") (str "x")) by (intros p; apply one_word; not_in).
  assert (TT : tag_text false (str "!t") (str "!") (str "t")) by (apply (tt_local false (str "t")); [discriminate|plainly; uris]).
  assert (WL : written_block 1 Literal (str "|" ++ lf ++ str "  y" ++ lf) (str "y" ++ lf) 2).
  { apply (wb_lines 1 true [] Clipped None [] false (Line [] (str "y") false) [] [] 2).
    - constructor.
    - constructor; constructor.
    - split; [vm_compute; discriminate|discriminate].
    - constructor; [|constructor]. split; [constructor|]. split; [discriminate|]. split; [not_in|]. split; [not_in|discriminate].
    - constructor.
    - lia. }
  pose (d1 := str "- *k"). pose (d4 := str "- " ++ deco_flow). pose (d3 := str "- !!str" ++ lf ++ str "  |" ++ lf ++ str "  y" ++ lf). pose (d2 := str "- &e !!str").
  assert (IT : items 0 (d1 ++ lf ++ d2 ++ lf ++ d3 ++ d4) deco_items None).
  { apply (it_more 0 (str " *k") _ None lf (d2 ++ lf ++ d3 ++ d4)); [|exact (ow_plain 0)|].
    { apply (pt_beside true 0 1 0 (str "*k")). apply (nd_alias 1 2 (str "k")); [lia|anchor_ok]. }
    apply (it_more 0 (str " &e !!str") _ None lf (d3 ++ d4)); [|exact (ow_plain 0)|].
    { apply (pt_beside true 0 1 0 (str "&e !!str")). apply nd_props; [lia|]. apply (pt_both false (str "e") 0 (str "!!str")); [anchor_ok|]. core_ok. }
    apply (it_more 0 (str " !!str" ++ lf ++ str "  |" ++ lf ++ str "  y" ++ lf) _ (Some 2) [] d4); [|apply (ow_here 2 0); lia|].
    { apply (pt_beside true 0 1 0 (str "!!str" ++ lf ++ str "  |" ++ lf ++ str "  y" ++ lf)).
      apply (nd_props_below true 1 2 (str "!!str") (core_by "str") (lf ++ str "  ") 2 (str "|" ++ lf ++ str "  y" ++ lf) (TrScalar no_props Literal (str "y" ++ lf)) (Some 2)); [lia| |exact (next_plain 2)| |reflexivity].
      - apply pt_tag. core_ok.
      - apply nd_block; [lia|exact WL]. }
    apply (it_one 0 (str " " ++ deco_flow)). apply (pt_beside true 0 1 0 deco_flow). apply nd_flow; [lia|exact deco_flow_node|reflexivity|reflexivity|vm_compute; reflexivity]. }
  assert (ND : node true 0 4 (str "&r !!map" ++ lf ++ str "&k k: &a x" ++ lf ++ str "*a : !t" ++ lf ++ d1 ++ lf ++ d2 ++ lf ++ d3 ++ d4) deco_tree None).
  { apply (nd_props_below false 0 4 (str "&r !!map") (Props (Some (str "r")) (Some (str "!!", str "map")) false) lf 0 (str "&k k: &a x" ++ lf ++ str "*a : !t" ++ lf ++ d1 ++ lf ++ d2 ++ lf ++ d3 ++ d4)
      (TrBlockMap no_props _)); [lia| |exact (next_plain 0)| |reflexivity].
    - apply (pt_both false (str "r") 0 (str "!!map")); [anchor_ok|core_ok].
    - apply nd_map; [lia|]. apply (es_more 0 (str "&k k: &a x") _ None lf (str "*a : !t" ++ lf ++ d1 ++ lf ++ d2 ++ lf ++ d3 ++ d4)).
      + apply (en_beside 0 (str "&k k") (TrScalar (named_by "k") Plain (str "k")) 0 0 (str "&a x")).
        * split; [|split; [not_in|vm_compute; lia]]. apply (kt_props (str "&k") (named_by "k") 0 Plain (str "k") (str "k") 0); [apply (an_anchor "k"); anchor_ok|apply WK].
        * apply (nd_props_beside 1 6 (str "&a") (named_by "a") 0 (str "x") (TrScalar no_props Plain (str "x"))); [lia|apply (an_anchor "a"); anchor_ok| |reflexivity]. apply nd_scalar; [lia|apply WX].
      + exact (ow_plain 0).
      + apply es_one. apply (en_props_dashes 0 (str "*a") (TrAlias (str "a")) 1 0 (str "!t") (Props None (Some (str "!", str "t")) false) lf (d1 ++ lf ++ d2 ++ lf ++ d3 ++ d4)).
        * split; [|split; [not_in|vm_compute; lia]]. apply (kt_alias (str "a") 1); [anchor_ok|lia].
        * apply pt_tag, TT.
        * exact (next_plain 0).
        * exact IT. }
  refine (sm_marked [] deco deco_docs _ _); [constructor|].
  change (marked (str "---" ++ str " " ++ (str "&r !!map" ++ lf ++ str "&k k: &a x" ++ lf ++ str "*a : !t" ++ lf ++ d1 ++ lf ++ d2 ++ lf ++ d3 ++ d4) ++ []) deco_docs).
  apply (mk_beside 0 (str "&r !!map" ++ lf ++ str "&k k: &a x" ++ lf ++ str "*a : !t" ++ lf ++ d1 ++ lf ++ d2 ++ lf ++ d3 ++ d4) deco_tree None []); [exact ND|].
  apply tl_end, fi_line, te_rest. exact (lr_spaces 0).
Qed.
Lemma core_as n : tagged_as [] (core_by n) (Some (Tag core_prefix (str n))).
Proof. apply (ta_some [] _ (str "!!") (str n)); [reflexivity|]. now apply TM_core. Qed.
Lemma core_is n : core_name Narrow (Tag core_prefix (str n)) (str n).
Proof. split; [reflexivity|]. intros _. reflexivity. Qed.
Lemma last_alias E n y : alias_means (E ++ [(n, Some y)]) n y.
Proof. exists E, []. split; [reflexivity|intros []]. Qed.
Lemma seven_means E : tree_means Narrow [] E (TrScalar (named_by "a") Plain (str "7")) (YScalar (SInt 7)) [(str "a", Some (YScalar (SInt 7)))].
Proof.
  apply (tm_scalar Narrow [] E (named_by "a") None); [now constructor|]. apply sc_plain, pm_int; [|vm_compute; split; [discriminate|reflexivity]].
  apply core_dec. apply (signed_none dec_digit 10%N (str "7")). split; [discriminate|]. repeat constructor; vm_compute; discriminate.
Qed.
Lemma letter_means E (n : string) (pr : props) : pr_tag pr = None -> (57 <? nth 0 (str n) 0)%N = true -> ~ In (nth 0 (str n) 0%N) (str "~nNtTfF") ->
  tree_means Narrow [] E (TrScalar pr Plain (str n)) (a_string (str n)) (anchored pr (Some (a_string (str n)))).
Proof. intros P A B. apply (tm_scalar Narrow [] E pr None); [now constructor|]. apply sc_plain, word_string; [now apply above_sign|exact B]. Qed.
Lemma deco_means : Forall2 (doc_means Narrow) deco_docs [deco_value].
Proof.
  constructor; [|constructor]. eexists. unfold deco_docs, d_root. apply om_node. apply (tm_map Narrow [] [] _ (Some (Tag core_prefix (str "map"))) _ deco_pairs deco_value [(str "k", Some (a_string (str "k"))); (str "a", Some (a_string (str "x"))); (str "e", Some (a_string [])); (str "a", Some (YScalar (SInt 7)))]).
  - apply (ta_some [] _ (str "!!") (str "map")); [reflexivity|]. now apply TM_core.
  - unfold deco_pairs. apply lm_cons with (D' := [(str "e", Some (a_string [])); (str "a", Some (YScalar (SInt 7)))]) (D := [(str "k", Some (a_string (str "k"))); (str "a", Some (a_string (str "x")))]).
    + apply (pr_pair Narrow [] _ _ _ _ [(str "k", Some (a_string (str "k")))] _ [(str "a", Some (a_string (str "x")))]).
      * apply km_node; [|intros _; exact I]. apply letter_means; [reflexivity|reflexivity|not_in].
      * apply vm_node. apply letter_means; [reflexivity|reflexivity|not_in].
    + apply lm_cons with (D := [(str "e", Some (a_string [])); (str "a", Some (YScalar (SInt 7)))]) (D' := []); [|apply lm_nil].
      apply (pr_pair Narrow [] _ _ _ _ [] _ [(str "e", Some (a_string [])); (str "a", Some (YScalar (SInt 7)))]).
      * apply km_node; [|intros _; exact I]. apply tm_alias. exact (last_alias [(str "r", None); (str "k", _)] _ _).
      * apply vm_node. apply (tm_dashes Narrow [] _ (Props None (Some (str "!", str "t")) false) (Some (Tag (str "!") (str "t"))) _ deco_list _ [(str "e", Some (a_string [])); (str "a", Some (YScalar (SInt 7)))]).
        -- apply (ta_some [] _ (str "!") (str "t")); [reflexivity|]. apply TM_other; [reflexivity|]. intros (x & X). destruct x; discriminate.
        -- apply lm_cons with (D := []) (D' := [(str "e", Some (a_string [])); (str "a", Some (YScalar (SInt 7)))]).
           { apply om_node, tm_alias. exists [(str "r", None)], [(str "a", Some (a_string (str "x")))]. split; [reflexivity|]. intros [X|[]]. discriminate. }
           apply lm_cons with (D := [(str "e", Some (a_string []))]) (D' := [(str "a", Some (YScalar (SInt 7)))]).
           { apply om_node. apply (tm_empty Narrow [] _ (Props (Some (str "e")) (Some (str "!!", str "str")) false) (Some (Tag core_prefix (str "str"))) (a_string [])).
             - apply (ta_some [] _ (str "!!") (str "str")); [reflexivity|]. now apply TM_core.
             - apply ey_str, core_is. }
           apply lm_cons with (D := []) (D' := [(str "a", Some (YScalar (SInt 7)))]).
           { apply om_node. apply (tm_scalar Narrow [] _ (core_by "str") (Some (Tag core_prefix (str "str")))); [apply core_as|]. apply sc_str, core_is. }
           apply lm_cons with (D := [(str "a", Some (YScalar (SInt 7)))]) (D' := []); [|apply lm_nil].
           apply om_node. apply means_flow_seq. apply lm_cons with (D := []) (D' := [(str "a", Some (YScalar (SInt 7)))]).
           { apply im_node, tm_alias. exists [(str "r", None); (str "k", Some (a_string (str "k")))], [(str "e", Some (a_string []))]. split; [reflexivity|]. intros [X|[]]. discriminate. }
           apply lm_cons with (D := [(str "a", Some (YScalar (SInt 7)))]) (D' := []); [apply im_node, seven_means|].
           apply lm_cons with (D := []) (D' := []); [|apply lm_nil]. apply (im_pair Narrow [] _ _ _ _ [] _ []); [|intros _; exact I|].
           ++ apply (tm_empty Narrow [] _ (core_by "null") (Some (Tag core_prefix (str "null")))); [apply core_as|]. apply ey_null, core_is.
           ++ apply vm_node, tm_alias. exact (last_alias [(str "r", None); (str "k", _); (str "a", _); (str "e", _)] _ _).
        -- apply cm_other. split; [discriminate|]. intros name X. discriminate.
  - apply cm_core, core_is.
Qed.
(** ** Directives *)
Definition declared : text :=
  str "# one" ++ lf ++ str "%TAG !e! tag:e.com,2000:  # c" ++ lf ++ lf ++ str "---" ++ lf ++ str "- !e!x 1" ++ lf ++ str "- 7" ++ lf ++ str "..." ++ lf ++
  str "%YAML 1.2" ++ lf ++ str "--- !<x> 7" ++ lf.
Definition declared_docs : list doc :=
  [Doc [DTag (str "!e!") (str "tag:e.com,2000:")] true (Some (TrBlockSeq no_props [Some (TrScalar (Props None (Some (str "!e!", str "x")) false) Plain (str "1")); Some (a_plain "7")])) 1;
   Doc [DVersion 1 2] true (Some (TrScalar (Props None (Some ([], str "x")) false) Plain (str "7"))) 0].
Definition declared_values : list yaml :=
  [YSeq [YTagged (Tag (str "tag:e.com,2000:") (str "x")) (YScalar (SInt 1)); YScalar (SInt 7)];
   YTagged (Tag [] (str "x")) (YScalar (SInt 7))].
Lemma declared_stream : stream declared 0 declared_docs.
Proof.
  assert (W1 : forall p, written_scalar p Plain (str "1") (str "1")) by (intros p; apply one_word; not_in).
  assert (W7 : forall p, written_scalar p Plain (str "7") (str "7")) by (intros p; apply one_word; not_in).
  assert (D1 : directive_text false (str "%TAG !e! tag:e.com,2000:") (DTag (str "!e!") (str "tag:e.com,2000:"))).
  { apply (dt_tag false (str " ") (str "!e!") (str " ") (str "tag:e.com,2000:")); [split; [discriminate|each ltac:(now left)]| |split; [discriminate|each ltac:(now left)]|].
    - apply (th_named (str "e")). each ltac:(right; right; left; split; vm_compute; discriminate).
    - apply (tp_global false 116%N (str "ag:e.com,2000:")); [split; [left; right; right; left; split; vm_compute; discriminate|not_in]|plainly; uris]. }
  assert (D2 : directive_text false (str "%YAML 1.2") (DVersion 1 2)).
  { apply (dt_version false (str " ") (str "1") 1 (str "2") 2); [split; [discriminate|each ltac:(now left)]|..];
      (split; [discriminate|]; split; [each ltac:(split; vm_compute; discriminate)|]; split; [reflexivity|intros _; split; [reflexivity|cbn; lia]]). }
  assert (T1 : tag_text false (str "!e!x") (str "!e!") (str "x")).
  { apply (tt_named false (str "e") (str "x")); [each ltac:(right; right; left; split; vm_compute; discriminate)|discriminate|plainly; uris]. }
  assert (T2 : tag_text false (str "!<x>") [] (str "x")) by (apply (tt_verbatim false (str "x")); [discriminate|plainly; uris]).
  pose (seq := str "- !e!x 1" ++ lf ++ str "- 7").
  assert (NS : node false 0 0 seq (TrBlockSeq no_props [Some (TrScalar (Props None (Some (str "!e!", str "x")) false) Plain (str "1")); Some (a_plain "7")]) None).
  { apply nd_seq; [lia|]. apply (it_more 0 (str " !e!x 1") _ None lf (str "- 7")); [|exact (ow_plain 0)|].
    - apply (pt_beside true 0 1 0 (str "!e!x 1")). apply (nd_props_beside 1 2 (str "!e!x") _ 0 (str "1") (TrScalar no_props Plain (str "1"))); [lia|now apply pt_tag|apply nd_scalar; [lia|apply W1]|reflexivity].
    - apply (it_one 0 (str " 7")). apply (pt_beside true 0 1 0 (str "7")). apply nd_scalar; [lia|apply W7]. }
  assert (NT : node true 0 4 (str "!<x> 7") (TrScalar (Props None (Some ([], str "x")) false) Plain (str "7")) None).
  { apply (nd_props_beside 0 4 (str "!<x>") _ 0 (str "7") (TrScalar no_props Plain (str "7"))); [lia|now apply pt_tag|apply nd_scalar; [lia|apply W7]|reflexivity]. }
  pose (second := str "--- !<x> 7" ++ lf).
  assert (M2 : marked second [Doc [] true (Some (TrScalar (Props None (Some ([], str "x")) false) Plain (str "7"))) 0]).
  { apply (mk_beside 0 (str "!<x> 7") _ None lf 0 []); [exact NT|]. apply tl_end, fi_line. apply (te_lines [] false [] []); [exact (lr_spaces 0)|constructor|exact (el_spaces 0)]. }
  pose (first := str "---" ++ lf ++ seq ++ lf ++ str "..." ++ lf ++ str "%YAML 1.2" ++ lf ++ second).
  assert (M1 : marked first (Doc [] true (Some (TrBlockSeq no_props [Some (TrScalar (Props None (Some (str "!e!", str "x")) false) Plain (str "1")); Some (a_plain "7")])) 1 :: tl declared_docs)).
  { apply (mk_below false lf 0 seq _ None (lf ++ str "..." ++ lf ++ str "%YAML 1.2" ++ lf ++ second) 1); [exact (next_plain 0)|exact NS|].
    apply (tl_dots false None lf (lf ++ str "%YAML 1.2" ++ lf ++ second) 0); [exact (ow_plain 0)|].
    apply (tl_directed lf (str "%YAML 1.2" ++ lf ++ second)); [exact (next_plain 0)|].
    apply (di_last (str "%YAML 1.2") (DVersion 1 2) [] false [] second); [exact D2|exact (lr_spaces 0)|constructor|exact M2]. }
  apply (sm_directed [(str "# one", false)] (str "%TAG !e! tag:e.com,2000:" ++ str "  # c" ++ lf ++ lf ++ first)).
  - constructor; [|constructor]. apply (el_comment 0 (str " one")). each ltac:(not_in).
  - apply (di_last (str "%TAG !e! tag:e.com,2000:") _ (str "  # c") false [([], false)] first); [exact D1| |constructor; [exact (el_spaces 0)|constructor]|exact M1].
    apply (lr_comment 1 (str " c")). each ltac:(not_in).
Qed.
Lemma declared_means : Forall2 (doc_means Narrow) declared_docs declared_values.
Proof.
  assert (I1 : plain_means Narrow (str "1") (SInt 1)).
  { apply pm_int; [|vm_compute; split; [discriminate|reflexivity]]. apply core_dec. apply (signed_none dec_digit 10%N (str "1")). split; [discriminate|]. repeat constructor; vm_compute; discriminate. }
  assert (I7 : plain_means Narrow (str "7") (SInt 7)).
  { apply pm_int; [|vm_compute; split; [discriminate|reflexivity]]. apply core_dec. apply (signed_none dec_digit 10%N (str "7")). split; [discriminate|]. repeat constructor; vm_compute; discriminate. }
  constructor; [|constructor; [|constructor]]; eexists; apply om_node.
  - apply means_seq. apply lm_cons with (D := []) (D' := []); [|apply lm_cons with (D := []) (D' := []); [|apply lm_nil]]; apply om_node.
    + apply (tm_scalar Narrow _ _ (Props None (Some (str "!e!", str "x")) false) (Some (Tag (str "tag:e.com,2000:") (str "x")))).
      * apply (ta_some _ _ (str "!e!") (str "x")); [reflexivity|]. now apply TM_declared.
      * apply sc_other; [split; [discriminate|intros name X; vm_compute in X; discriminate]|]. now apply sc_plain.
    + now apply means_plain.
  - apply (tm_scalar Narrow _ _ _ (Some (Tag [] (str "x")))).
    + apply (ta_some _ _ [] (str "x")); [reflexivity|]. apply TM_other; [reflexivity|]. intros (x & X). destruct x; discriminate.
    + apply sc_other; [split; [discriminate|intros name X; vm_compute in X; discriminate]|]. now apply sc_plain.
Qed.
(** ** What fails *)
(** A text with a meaning that is never loaded. *)
Definition misread (w : text) (y : yaml) : Prop :=
  exists lead l, stream w lead l /\ Forall2 (doc_means Standard) l [y] /\ forall fuel, load_text fuel w <> Ok [y].
Lemma misread_scalar w h s v y : tag_text false w h s -> written_scalar 0 Plain v v ->
  alone_means Standard (TrScalar (Props None (Some (h, s)) false) Plain v) y ->
  (forall fuel, load_text fuel (w ++ repeat 32%N 1 ++ v) <> Ok [y]) -> misread (w ++ repeat 32%N 1 ++ v) y.
Proof.
  intros T V (D & M) L. exists 0, [Doc [] false (Some (TrScalar (Props None (Some (h, s)) false) Plain v)) 0]. split; [|split; [|exact L]].
  - rewrite <- (app_nil_r (w ++ _)). apply (sm_bare true [] 0 (w ++ repeat 32%N 1 ++ v) (TrScalar (Props None (Some (h, s)) false) Plain v) None [] 0 []); [constructor| |apply tl_end, fi_line, te_rest; exact (lr_spaces 0)].
    apply (nd_props_beside 0 0 w (Props None (Some (h, s)) false) 0 v (TrScalar no_props Plain v)); [lia|now apply pt_tag| |reflexivity]. apply nd_scalar; [lia|exact V].
  - constructor; [|constructor]. exists D. now apply om_node.
Qed.
Tactic Notation "never_loads" integer(n) := intros fuel; do n (destruct fuel as [|fuel]; [vm_compute; discriminate|]); vm_compute; discriminate.
(** Core tags written in full stay around the value. *)
Lemma verbatim_misread : misread (str "!<tag:yaml.org,2002:int> 3") (YScalar (SInt 3)).
Proof.
  apply (misread_scalar (str "!<tag:yaml.org,2002:int>") [] (str "tag:yaml.org,2002:int") (str "3")).
  - apply (tt_verbatim false (str "tag:yaml.org,2002:int") (str "tag:yaml.org,2002:int")); [discriminate|plainly; uris].
  - apply one_word; not_in.
  - eexists. apply (tm_scalar Standard [] [] _ (Some (Tag [] (str "tag:yaml.org,2002:int")))).
    + apply (ta_some [] _ [] (str "tag:yaml.org,2002:int")); [reflexivity|]. apply TM_other; [reflexivity|]. intros (x & X). destruct x; discriminate.
    + apply sc_int; [split; [reflexivity|intros N; now elim N]| |vm_compute; split; [discriminate|reflexivity]|intros N; now elim N].
      apply core_dec. apply (signed_none dec_digit 10%N (str "3")). split; [discriminate|]. repeat constructor; vm_compute; discriminate.
  - never_loads 60.
Qed.
(** The tag [!] makes a string of a number. *)
Lemma mark_misread : misread (str "! 3") (a_string (str "3")).
Proof.
  apply (misread_scalar (str "!") [] (str "!") (str "3")); [constructor|apply one_word; not_in| |never_loads 30].
  eexists. apply (tm_scalar Standard [] [] _ (Some (Tag [] (str "!")))).
  - apply (ta_some [] _ [] (str "!")); [reflexivity|]. apply TM_other; [reflexivity|]. intros (x & X). destruct x; discriminate.
  - now apply sc_plainly.
Qed.
(** A hexadecimal integer. *)
Lemma hex_misread : misread (str "!!int 0x1F") (YScalar (SInt 31)).
Proof.
  apply (misread_scalar (str "!!int") (str "!!") (str "int") (str "0x1F")); [core_ok| | |never_loads 40].
  - apply (ws_plain 0 (str "0x1F") []); [left; not_in| |split; discriminate|constructor].
    split; [discriminate|]. split; [|split; [not_in|discriminate]]. each ltac:(split; [not_in|discriminate]).
  - eexists. apply (tm_scalar Standard [] [] _ (Some (Tag core_prefix (str "int")))); [apply core_as|].
    apply sc_int; [split; [reflexivity|intros N; now elim N]| |vm_compute; split; [discriminate|reflexivity]|intros N; now elim N].
    apply (core_hex (str "1F")). split; [discriminate|]. hexes.
Qed.
(** A key with a tag. *)
Lemma key_misread : misread (str "!t k: v") (YMap [(YTagged (Tag (str "!") (str "t")) (a_string (str "k")), a_string (str "v"))]).
Proof.
  assert (TT : tag_text false (str "!t") (str "!") (str "t")) by (apply (tt_local false (str "t")); [discriminate|plainly; uris]).
  pose (pr := Props None (Some (str "!", str "t")) false).
  exists 0, [Doc [] false (Some (TrBlockMap no_props [(KNode (TrScalar pr Plain (str "k")), VNode (a_plain "v"))])) 0]. split; [|split; [|never_loads 60]].
  - apply (sm_bare false [] 0 (str "!t k: v") _ None [] 0 []); [constructor| |apply tl_end, fi_line, te_rest; exact (lr_spaces 0)].
    apply nd_map; [lia|]. apply es_one. apply (en_beside 0 (str "!t k") (TrScalar pr Plain (str "k")) 0 0 (str "v")).
    + split; [|split; [not_in|vm_compute; lia]]. apply (kt_props (str "!t") pr 0 Plain (str "k") (str "k") 0); [now apply pt_tag|apply one_word; not_in].
    + apply nd_scalar; [lia|]. apply one_word; not_in.
  - constructor; [|constructor]. exists []. apply om_node, means_map. apply lm_cons with (D := []) (D' := []); [|apply lm_nil]. apply (pr_pair Standard [] _ _ _ _ [] _ []).
    + apply km_node; [|intros N; now elim N]. apply (tm_scalar Standard [] [] pr (Some (Tag (str "!") (str "t")))).
      * apply (ta_some [] _ (str "!") (str "t")); [reflexivity|]. apply TM_other; [reflexivity|]. intros (x & X). destruct x; discriminate.
      * apply sc_other; [split; [discriminate|intros name X; discriminate]|]. apply sc_plain, word_string; [now apply above_sign|not_in].
    + apply vm_node. apply means_plain, word_string; [now apply above_sign|not_in].
Qed.
(** A missing node with a tag. *)
Lemma none_misread : misread (str "!t") (YTagged (Tag (str "!") (str "t")) (YScalar SNull)).
Proof.
  assert (TT : tag_text false (str "!t") (str "!") (str "t")) by (apply (tt_local false (str "t")); [discriminate|plainly; uris]).
  exists 0, [Doc [] false (Some (TrEmpty (Props None (Some (str "!", str "t")) false))) 0]. split; [|split; [|never_loads 30]].
  - apply (sm_bare true [] 0 (str "!t") _ None [] 0 []); [constructor| |apply tl_end, fi_line, te_rest; exact (lr_spaces 0)]. apply nd_props; [lia|]. now apply pt_tag.
  - constructor; [|constructor]. eexists. apply om_node. apply (tm_empty Standard [] [] _ (Some (Tag (str "!") (str "t")))).
    + apply (ta_some [] _ (str "!") (str "t")); [reflexivity|]. apply TM_other; [reflexivity|]. intros (x & X). destruct x; discriminate.
    + apply ey_other; [constructor|]. split; [discriminate|intros name X; discriminate].
Qed.
(** Of two directives the first is forgotten. *)
Definition twice : text := str "%TAG !a! x:" ++ lf ++ str "%TAG !b! y:" ++ lf ++ str "--- !a!z 7".
Definition twice_docs : list doc :=
  [Doc [DTag (str "!a!") (str "x:"); DTag (str "!b!") (str "y:")] true (Some (TrScalar (Props None (Some (str "!a!", str "z")) false) Plain (str "7"))) 0].
Lemma two_misread : misread twice (YTagged (Tag (str "x:") (str "z")) (YScalar (SInt 7))).
Proof.
  exists 0, twice_docs. split; [|split].
  - assert (W7 : forall p, written_scalar p Plain (str "7") (str "7")) by (intros p; apply one_word; not_in).
    assert (DA : directive_text false (str "%TAG !a! x:") (DTag (str "!a!") (str "x:"))).
    { apply (dt_tag false (str " ") (str "!a!") (str " ") (str "x:")); [split; [discriminate|each ltac:(now left)]| |split; [discriminate|each ltac:(now left)]|].
      - apply (th_named (str "a")). each ltac:(right; right; left; split; vm_compute; discriminate).
      - apply (tp_global false 120%N (str ":")); [split; [left; right; right; left; split; vm_compute; discriminate|not_in]|plainly; uris]. }
    assert (DB : directive_text false (str "%TAG !b! y:") (DTag (str "!b!") (str "y:"))).
    { apply (dt_tag false (str " ") (str "!b!") (str " ") (str "y:")); [split; [discriminate|each ltac:(now left)]| |split; [discriminate|each ltac:(now left)]|].
      - apply (th_named (str "b")). each ltac:(right; right; left; split; vm_compute; discriminate).
      - apply (tp_global false 121%N (str ":")); [split; [left; right; right; left; split; vm_compute; discriminate|not_in]|plainly; uris]. }
    assert (T1 : tag_text false (str "!a!z") (str "!a!") (str "z")).
    { apply (tt_named false (str "a") (str "z")); [each ltac:(right; right; left; split; vm_compute; discriminate)|discriminate|plainly; uris]. }
    apply (sm_directed [] twice); [constructor|]. apply (di_more (str "%TAG !a! x:") _ [] false [] (str "%TAG !b! y:" ++ lf ++ str "--- !a!z 7")); [exact DA|exact (lr_spaces 0)|constructor|].
    apply (di_last (str "%TAG !b! y:") _ [] false [] (str "--- !a!z 7")); [exact DB|exact (lr_spaces 0)|constructor|].
    apply (mk_beside 0 (str "!a!z 7") _ None [] 0 []); [|apply tl_end, fi_line, te_rest; exact (lr_spaces 0)].
    apply (nd_props_beside 0 4 (str "!a!z") _ 0 (str "7") (TrScalar no_props Plain (str "7"))); [lia|now apply pt_tag|apply nd_scalar; [lia|apply W7]|reflexivity].
  - constructor; [|constructor]. eexists. apply om_node. apply (tm_scalar Standard _ _ _ (Some (Tag (str "x:") (str "z")))).
    + apply (ta_some _ _ (str "!a!") (str "z")); [reflexivity|]. now apply TM_declared.
    + apply sc_other; [split; [discriminate|intros name X; vm_compute in X; discriminate]|]. apply sc_plain, pm_int; [|vm_compute; split; [discriminate|reflexivity]].
      apply core_dec. apply (signed_none dec_digit 10%N (str "7")). split; [discriminate|]. repeat constructor; vm_compute; discriminate.
  - never_loads 60.
Qed.

(** ** Missing nodes *)
(** [- a:], [-], [- {b, c: }], [- !t], [---]. *)
Definition gaps : text := str "- a:" ++ lf ++ str "-" ++ lf ++ str "- {b, c: }" ++ lf ++ str "- !t" ++ lf ++ str "---" ++ lf.
Definition gap_word (n : string) : tree := TrScalar no_props Plain (str n).
Definition gap_map : tree := TrFlowMap no_props [(KBare (gap_word "b"), VAbsent); (KNode (gap_word "c"), VEmpty)] false.
Definition gap_items : list (option tree) :=
  [Some (TrBlockMap no_props [(KNode (gap_word "a"), VEmpty)]); None; Some gap_map; Some (TrEmpty (Props None (Some (str "!", str "t")) false))].
Definition gaps_docs : list doc := [Doc [] false (Some (TrBlockSeq no_props gap_items)) 0; Doc [] true None 0].
Definition gaps_values : list yaml :=
  [YSeq [YMap [(a_string (str "a"), a_string [])]; a_string []; YMap [(a_string (str "b"), a_string []); (a_string (str "c"), a_string [])];
         YTagged (Tag (str "!") (str "t")) (a_string [])]; a_string []].
Lemma gaps_stream : stream gaps 0 gaps_docs.
Proof.
  assert (M : tail false None (lf ++ str "---" ++ lf) 0 [Doc [] true None 0]).
  { apply (tl_marked false None lf (str "---" ++ lf)); [exact (ow_plain 0)|]. apply (mk_empty lf). apply tl_end, fi_line.
    apply (te_lines [] false [] []); [exact (lr_spaces 0)|constructor|exact (el_spaces 0)]. }
  assert (FM : flow_node false 1 true (str "{b, c: }") gap_map).
  { apply (fn_entries false 1 true [] (str "b, c: ")); [apply no_space|].
    apply (fl_more false 1 (str "b") _ [] (str " ") (str "c: ")); [|apply no_space|apply one_space|].
    - apply fe_bare. apply one_flow; not_in.
    - apply (fl_last false 1 true (str "c:") _ (str " ")); [|apply one_space].
      apply (fe_pair false 1 true (str "c") _ [] []); [apply one_flow; not_in|apply no_space|exact I|discriminate|constructor]. }
  apply (sm_bare false [] 0 (str "- a:" ++ lf ++ str "-" ++ lf ++ str "- {b, c: }" ++ lf ++ str "- !t") _ None (lf ++ str "---" ++ lf) 0); [constructor| |exact M].
  apply nd_seq; [lia|].
  apply (it_more 0 (str " a:") _ None lf (str "-" ++ lf ++ str "- {b, c: }" ++ lf ++ str "- !t")); [|exact (ow_plain 0)|].
  { apply (pt_beside false 0 1 0 (str "a:")). apply nd_map; [lia|]. apply es_one. apply (en_empty 2 (str "a") _ 0). split; [apply kt_scalar, one_word; not_in|]. split; [not_in|vm_compute; lia]. }
  apply (it_more 0 [] None None lf (str "- {b, c: }" ++ lf ++ str "- !t")); [constructor|exact (ow_plain 0)|].
  apply (it_more 0 (str " {b, c: }") _ None lf (str "- !t")); [|exact (ow_plain 0)|].
  { apply (pt_beside true 0 1 0 (str "{b, c: }")). apply nd_flow; [lia|exact FM|reflexivity|reflexivity|vm_compute; reflexivity]. }
  apply (it_one 0 (str " !t")). apply (pt_beside true 0 1 0 (str "!t")). apply nd_props; [lia|]. apply pt_tag. apply (tt_local false (str "t")); [discriminate|plainly; uris].
Qed.
Lemma gaps_means : Forall2 (doc_means Filled) gaps_docs gaps_values.
Proof.
  assert (W : forall E n, (57 <? nth 0 (str n) 0)%N = true -> ~ In (nth 0 (str n) 0%N) (str "~nNtTfF") -> tree_means Filled [] E (gap_word n) (a_string (str n)) [])
    by (intros E n; apply word_means).
  constructor; [|constructor; [|constructor]]; exists []; [|apply om_none; constructor].
  apply om_node, means_seq, list_plain. constructor; [|constructor; [|constructor; [|constructor; [|constructor]]]].
  - apply om_node, means_map, list_plain. constructor; [|constructor]. apply pair_plain; [apply key_plain; [apply W; [reflexivity|not_in]|exact I]|apply vm_empty; constructor].
  - apply om_none. constructor.
  - apply om_node, means_flow_map, list_plain. constructor; [|constructor; [|constructor]]; apply pair_plain.
    + apply km_bare; [apply W; [reflexivity|not_in]|intros _; exact I].
    + apply vm_absent. constructor.
    + apply key_plain; [apply W; [reflexivity|not_in]|exact I].
    + apply vm_empty. constructor.
  - apply om_node. apply (tm_empty Filled [] [] (Props None (Some (str "!", str "t")) false) (Some (Tag (str "!") (str "t")))).
    + apply (ta_some [] _ (str "!") (str "t")); [reflexivity|]. apply TM_other; [reflexivity|]. intros (x & X). destruct x; discriminate.
    + apply ey_other; [constructor|]. split; [discriminate|intros name X; discriminate].
Qed.
