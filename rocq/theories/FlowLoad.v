(** Whole texts that are one flow collection, and flow collections that are not read as they are meant. *)
From Verif Require Import SpecProps.
From Verif Require Import Base Tokens Scalar Yaml Source Cursor Scanner SpecTree SpecStream Parser LoadText SpecBlock SpecPlain SpecFlow SpecLayout TreeLike LayoutLoad.
From Coq Require Import String Lia.
Local Open Scope list_scope.

Lemma bare_or t : bare t \/ ~ bare t.
Proof.
  assert (X : forall pr, pr = no_props \/ pr <> no_props).
  { intros [[a|] [g|] [|]]; try (right; discriminate). now left. }
  destruct t; cbn [bare]; auto.
Qed.
(** A collection, perhaps with properties, is a node. *)
Lemma flow_is_node w t : flow_node false 0 true w t -> collection t = true -> (N.of_nat (List.length w) < 4294967294)%N -> node true 0 0 w t None.
Proof.
  intros F C L. destruct (bare_or t) as [B|B]; [apply nd_flow; [apply Nat.le_0_l|exact F|exact C|exact B|exact L]|]. remember true as c eqn:Ec in F. destruct F as [c st w v F|c g G|c g w l b G F|c g G|c g w l b G F|c n A|c w pr g w' t P G N F B'|c w pr P]; try (elim B; reflexivity); try discriminate C.
  assert (C' : collection t = true) by (destruct t; cbn [bare] in B'; try contradiction; exact C).
  assert (L' : (N.of_nat (List.length w') < 4294967294)%N) by (rewrite !app_length in L; clear - L; lia).
  destruct G as [(k & ->)|(m & Lm & G)].
  - destruct k as [|k]; [now elim N|]. subst c. apply nd_props_beside; [apply Nat.le_0_l|exact P| |exact B']. apply nd_flow; [apply Nat.le_0_l|exact F|exact C'|exact B'|exact L'].
  - subst c. apply (nd_props_below true 0 0 w pr g m w' t None); [apply Nat.le_0_l|exact P|exact G| |exact B']. apply nd_flow; [apply Nat.le_0_l|exact F|exact C'|exact B'|exact L'].
Qed.
Lemma flow_stream w t g : flow_node false 0 true w t -> collection t = true -> (N.of_nat (List.length w) < 4294967294)%N -> to_end g ->
  stream (w ++ g) 0 [Doc [] false (Some t) 0].
Proof.
  intros F C L G. apply (sm_bare true [] 0 w t None g 0 []); [constructor|now apply flow_is_node|]. apply tl_end, fi_line, G.
Qed.
Theorem flow_loads fuel w t y g : flow_node false 0 true w t -> collection t = true -> (N.of_nat (List.length w) < 4294967294)%N -> to_end g ->
  alone_means Narrow t y -> 64 * List.length (w ++ g) + 64 <= fuel -> load_text fuel (w ++ g) = Ok [y].
Proof.
  intros F C L G (D & M) H. apply (layout_loads fuel (w ++ g) 0 [Doc [] false (Some t) 0]); [now apply flow_stream|repeat constructor| |exact H].
  constructor; [|constructor]. exists D. now constructor.
Qed.

(** ** What is not read as it is meant *)
Definition a_word (b : N) : tree := TrScalar no_props Plain [b].
Definition b_pair (k v : N) : key tree * value tree := (KNode (a_word k), VNode (a_word v)).
(** [[a: {b: c, d: e}]] *)
Definition pair_text : text := str "[a: {b: c, d: e}]".
Definition pair_tree : tree :=
  TrFlowSeq no_props [IPair (a_word 97) (VNode (TrFlowMap no_props [b_pair 98 99; b_pair 100 101] false))] false.
Definition a_value (b : N) : yaml := YScalar (SString [b]).
Definition pair_yaml : yaml := YSeq [YMap [(a_value 97, YMap [(a_value 98, a_value 99); (a_value 100, a_value 101)])]].
Lemma pair_node : flow_node true 0 true pair_text pair_tree.
Proof.
  assert (E : forall c k v, ~ In k [32; 9; 10; 13; 0]%N -> ~ In k (str "-?:,[]{}#&*!|>'""%@`") -> ~ In v [32; 9; 10; 13; 0]%N -> ~ In v (str "-?:,[]{}#&*!|>'""%@`") ->
    flow_entry true 0 c [k; 58; 32; v]%N (b_pair k v)).
  { intros c k v K1 K2 V1 V2. apply (fe_pair true 0 c [k] _ [] [32; v]%N); [now apply one_flow|apply no_space|exact I|discriminate|].
    apply (fv_node true 0 c false [32%N] [v]); [apply one_space|now apply one_flow|right; left; discriminate]. }
  apply (fn_items true 0 true [] (str "a: {b: c, d: e}")); [apply no_space|]. apply (fi_last true 0 (str "a: {b: c, d: e}") _ []); [|apply no_space].
  apply (ft_pair true 0 (str "a") _ 0 (str " {b: c, d: e}")); [apply one_flow; not_in|not_in|exact I|].
  apply (fv_node true 0 true false (str " ") (str "{b: c, d: e}")); [apply one_space| |right; left; discriminate].
  apply (fn_entries true 0 true [] (str "b: c, d: e")); [apply no_space|].
  apply (fl_more true 0 (str "b: c") _ [] (str " ") (str "d: e")); [apply E; not_in|apply no_space|apply one_space|].
  apply (fl_last true 0 true (str "d: e") _ []); [apply E; not_in|apply no_space].
Qed.
Ltac letter := apply word_means; [reflexivity|not_in].
Lemma pair_value_means : alone_means Narrow pair_tree pair_yaml.
Proof.
  exists []. apply means_flow_seq, list_plain. constructor; [|constructor]. apply item_plain; [letter|intros _; exact I|]. apply vm_node, means_flow_map, list_plain. constructor; [|constructor; [|constructor]]; (apply pair_plain; [apply key_plain; [letter|exact I]|apply vm_node; letter]).
Qed.
Lemma pair_fails fuel : load_text fuel pair_text <> Ok [pair_yaml].
Proof. do 60 (destruct fuel as [|fuel]; [vm_compute; discriminate|]). vm_compute. discriminate. Qed.
(** [{a:[b]}] *)
Definition close_text : text := str "{a:[b]}".
Definition close_tree : tree := TrFlowMap no_props [(KNode (a_word 97), VNode (TrFlowSeq no_props [INode (a_word 98)] false))] false.
Definition close_yaml : yaml := YMap [(a_value 97, YSeq [a_value 98])].
Lemma close_node : flow_node true 0 true close_text close_tree.
Proof.
  apply (fn_entries true 0 true [] (str "a:[b]")); [apply no_space|]. apply (fl_last true 0 true (str "a:[b]") _ []); [|apply no_space].
  apply (fe_pair true 0 true (str "a") _ [] (str "[b]")); [apply one_flow; not_in|apply no_space|exact I|discriminate|].
  apply (fv_node true 0 true false [] (str "[b]")); [apply no_space| |right; right; split; reflexivity].
  apply (fn_items true 0 true [] (str "b")); [apply no_space|]. apply (fi_last true 0 (str "b") _ []); [apply ft_node, one_flow; not_in|apply no_space].
Qed.
Lemma close_means : alone_means Narrow close_tree close_yaml.
Proof.
  exists []. apply means_flow_map, list_plain. constructor; [|constructor]. apply pair_plain; [apply key_plain; [letter|exact I]|]. apply vm_node, means_flow_seq, list_plain. constructor; [|constructor]. apply im_node. letter.
Qed.
Lemma close_fails fuel : load_text fuel close_text <> Ok [close_yaml].
Proof. do 40 (destruct fuel as [|fuel]; [vm_compute; discriminate|]). vm_compute. discriminate. Qed.
(** [{[a]] and in the next line [:b}] *)
Definition apart_text : text := str "{[a]" ++ lf ++ str ":b}".
Definition apart_tree : tree := TrFlowMap no_props [(KNode (TrFlowSeq no_props [INode (a_word 97)] false), VNode (a_word 98))] false.
Definition apart_yaml : yaml := YMap [(YSeq [a_value 97], a_value 98)].
Lemma apart_node : flow_node true 0 true apart_text apart_tree.
Proof.
  apply (fn_entries true 0 true [] (str "[a]" ++ lf ++ str ":b")); [apply no_space|]. apply (fl_last true 0 true (str "[a]" ++ lf ++ str ":b") _ []); [|apply no_space].
  apply (fe_pair true 0 true (str "[a]") _ lf (str "b")); [| |exact I|discriminate|].
  - apply (fn_items true 0 true [] (str "a")); [apply no_space|]. apply (fi_last true 0 (str "a") _ []); [apply ft_node, one_flow; not_in|apply no_space].
  - right. exists 0. split; [lia|]. exact (next_plain 0).
  - apply (fv_node true 0 true true [] (str "b")); [apply no_space|apply one_flow; not_in|now left].
Qed.
Lemma apart_means : alone_means Narrow apart_tree apart_yaml.
Proof.
  exists []. apply means_flow_map, list_plain. constructor; [|constructor]. apply pair_plain; [|apply vm_node; letter]. apply key_plain; [apply means_flow_seq, list_plain|exact I]. constructor; [|constructor]. apply im_node. letter.
Qed.
Lemma apart_fails fuel : load_text fuel apart_text <> Ok [apart_yaml].
Proof. do 40 (destruct fuel as [|fuel]; [vm_compute; discriminate|]). vm_compute. discriminate. Qed.
(** [[a -]] *)
Definition dash_text : text := str "[a -]".
Definition dash_tree : tree := TrFlowSeq no_props [INode (TrScalar no_props Plain (str "a -"))] false.
Definition dash_yaml : yaml := YSeq [YScalar (SString (str "a -"))].
Lemma dash_node : flow_node true 0 true dash_text dash_tree.
Proof.
  apply (fn_items true 0 true [] (str "a -")); [apply no_space|]. apply (fi_last true 0 (str "a -") _ []); [|apply no_space].
  apply ft_node, fn_scalar. apply (fs_plain true 0 (str "a") [(Inline [32%N], str "-")]).
  - left. not_in.
  - split; [discriminate|]. split; [repeat constructor; [not_in|intros _; not_in]|]. split; discriminate.
  - split; discriminate.
  - constructor; [|constructor]. cbn [fst snd]. split; [constructor; [left; reflexivity|constructor]|]. split; [discriminate|]. split; [exact I|]. split; [|discriminate].
    split; [discriminate|]. split; [repeat constructor; [not_in|intros _; not_in]|]. split; discriminate.
  - discriminate.
Qed.
Lemma dash_means : alone_means Narrow dash_tree dash_yaml.
Proof. exists []. apply means_flow_seq, list_plain. constructor; [|constructor]. apply im_node. letter. Qed.
Lemma dash_fails fuel : load_text fuel dash_text <> Ok [dash_yaml].
Proof. do 40 (destruct fuel as [|fuel]; [vm_compute; discriminate|]). vm_compute. discriminate. Qed.
