(** The token stream of a JSON text. *)
From Verif Require Import Base Tokens Scalar Yaml Chars Source Cursor Scanner ExactCursor SpecQuoted ExactPlain EagerScan ScanSteps.
From Verif Require Import SpecScalar SpecJson NodeScan DumpScan JsonCursor FlowScan.
From Verif Require Import SpecTree SpecStream SpecLoad SpecEvents Loader SpecValue Pipeline TextDocs ParserStream LoaderLoad RoundTrip ScalarTags ScalarProofs.
From Coq Require Import String Lia ZifyBool ZifyNat ZifyN.
Local Open Scope list_scope.

(** ** What a tree stands for *)
(** How the value is written. *)
Definition json_word (t : text) (s : scalar) : Prop :=
  json_number t s \/ (t = str "null" /\ s = SNull) \/ (t = str "true" /\ s = SBool true) \/ (t = str "false" /\ s = SBool false).
Inductive noted : vnode -> yaml -> Prop :=
| nd_word t s : json_word t s -> noted (NdScalar (ScalarValue t Plain 0 None)) (YScalar s)
| nd_string x : noted (NdScalar (ScalarValue x DoubleQuote 0 None)) (YScalar (SString x))
| nd_seq ns ys : Forall2 noted ns ys -> noted (NdSeq 0 None ns) (YSeq ys)
| nd_map ns ys : Forall2 (fun n y => exists k m z, n = (NdScalar (ScalarValue k DoubleQuote 0 None), m) /\ y = (YScalar (SString k), z) /\ noted m z) ns ys ->
    noted (NdMap 0 None ns) (YMap ys).
Definition means (tr : tree) (n : vnode) (y : yaml) : Prop :=
  flow_tree tr /\ (forall tags before, tree_events tags before tr = Some (node_evs n)) /\
  (forall e, value_of kept_pairs e n = (y, e)) /\ good_key y /\ alias_free n /\
  (forall ids r, (forall ids, aliases_local ids r) -> aliases_local ids (node_evs n ++ r)) /\ clean (tree_toks tr) /\ noted n y.
Inductive all_mean : list tree -> list vnode -> list yaml -> Prop :=
| am_nil : all_mean [] [] []
| am_cons t n y ts ns ys : means t n y -> all_mean ts ns ys -> all_mean (t :: ts) (n :: ns) (y :: ys).
Definition pair_tree (x : text * tree) : key tree * value tree := (KNode (TrScalar no_props DoubleQuote (fst x)), VNode (snd x)).
Definition pair_node (x : text * vnode) : vnode * vnode := (NdScalar (ScalarValue (fst x) DoubleQuote 0 None), snd x).
Inductive pairs_mean : list (text * tree) -> list (text * vnode) -> list (yaml * yaml) -> Prop :=
| pm_nil : pairs_mean [] [] []
| pm_cons k t n y ts ns ys : means t n y -> pairs_mean ts ns ys ->
    pairs_mean ((k, t) :: ts) ((k, n) :: ns) ((YScalar (SString k), y) :: ys).

Lemma means_scalar st v s : value_from_cow_and_metadata v st None = YScalar s -> noted (NdScalar (ScalarValue v st 0 None)) (YScalar s) ->
  means (TrScalar no_props st v) (NdScalar (ScalarValue v st 0 None)) (YScalar s).
Proof.
  intros E ND. split; [exact I|]. split; [reflexivity|]. split.
  { intros e. cbn [value_of sv_value sv_type sv_tag sv_anchor remember]. now rewrite E. }
  split; [exact I|]. split; [exact I|]. split; [intros ids r R; cbn; apply R|]. split; [repeat constructor|exact ND].
Qed.
Lemma means_seq ts ns ys : all_mean ts ns ys -> means (TrFlowSeq no_props (map INode ts) false) (NdSeq 0 None ns) (YSeq ys).
Proof.
  intros H. split.
  { cbn [flow_tree]. split; [|reflexivity]. apply all_of_Forall, Forall_map. induction H as [|t n y ts ns ys M H IH]; constructor; [apply M|exact IH]. }
  split.
  { intros tags before. cbn [tree_events props_tag no_props pr_tag obind node_evs]. unfold enclose.
    match goal with |- context [list_events _ _ ?b _] => generalize b end. intros b.
    match goal with |- obind ?x _ = _ => assert (X : x = Some (flat_map node_evs ns)) end.
    { revert b. induction H as [|t n y ts ns ys M H IH]; intros b; [reflexivity|].
      cbn [map list_events item_events flat_map]. rewrite (proj1 (proj2 M)). cbn [obind]. rewrite IH. reflexivity. }
    rewrite X. reflexivity. }
  split.
  { intros e. cbn [value_of with_tag remember].
    assert (X : thread (value_of kept_pairs) e ns = (ys, e)).
    { induction H as [|t n y ts ns ys M H IH]; [reflexivity|]. cbn [thread]. rewrite (proj1 (proj2 (proj2 M))), IH. reflexivity. }
    rewrite X. reflexivity. }
  split; [exact I|]. split.
  { cbn [alias_free]. apply all_of_Forall. induction H as [|t n y ts ns ys M H IH]; constructor; [apply M|exact IH]. }
  split.
  { intros ids r R. cbn [node_evs app aliases_local].
    match goal with |- aliases_local ?i _ => generalize i end. rewrite <- app_assoc.
    assert (R' : forall ids, aliases_local ids ([ESequenceEnd] ++ r)) by (intros i; cbn; apply R).
    revert R'. generalize ([ESequenceEnd] ++ r). intros r' R'.
    induction H as [|t n y ts ns ys M H IH]; intros i; [apply R'|]. cbn [flat_map]. rewrite <- app_assoc.
    apply M. intros j. apply IH. }
  split; [|constructor; induction H as [|t n y ts ns ys M H IH]; constructor; [apply M|exact IH]].
  cbn [tree_toks props_toks no_props pr_tag_first pr_anchor pr_tag opt_list app trail].
  constructor; [exact I|]. apply clean_app. split; [|repeat constructor].
  induction H as [|t n y ts ns ys M H IH]; [constructor|]. cbn [map]. destruct ts as [|t' ts].
  - cbn [map commas item_toks]. apply M.
  - change (clean (tree_toks t ++ TFlowEntry :: commas (item_toks tree_toks) (map INode (t' :: ts)))).
    apply clean_app. split; [apply M|]. constructor; [exact I|exact IH].
Qed.
Lemma means_map ts ns ys : pairs_mean ts ns ys -> means (TrFlowMap no_props (map pair_tree ts) false) (NdMap 0 None (map pair_node ns)) (YMap ys).
Proof.
  intros H. split.
  { cbn [flow_tree]. split; [|reflexivity]. apply all_of_Forall, Forall_map. induction H as [|k t n y ts ns ys M H IH]; constructor; [|exact IH].
    cbn. split; [exact I|]. split; [exact I|apply M]. }
  split.
  { intros tags before. cbn [tree_events props_tag no_props pr_tag obind node_evs]. unfold enclose.
    match goal with |- context [list_events _ _ ?b _] => generalize b end. intros b.
    match goal with |- obind ?x _ = Some (_ :: ?e ++ _) => assert (X : x = Some e) end.
    { revert b. induction H as [|k t n y ts ns ys M H IH]; intros b; [reflexivity|].
      cbn [map list_events pair_tree pair_node fst snd pair_events key_events value_events tree_events props_tag no_props pr_tag obind].
      rewrite (proj1 (proj2 M)). cbn [obind]. rewrite IH. reflexivity. }
    rewrite X. reflexivity. }
  split.
  { intros e. cbn [value_of with_tag remember].
    match goal with |- context [thread ?f e ?a] => assert (X : thread f e a = (ys, e)) end.
    { induction H as [|k t n y ts ns ys M H IH]; [reflexivity|]. cbn [map pair_node fst snd thread value_of sv_value sv_type sv_tag sv_anchor remember].
      rewrite (proj1 (proj2 (proj2 M))), IH. reflexivity. }
    rewrite X, kept_good; [reflexivity|]. clear X. induction H; constructor; auto. exact I. }
  split; [exact I|]. split.
  { cbn [alias_free]. apply all_of_Forall, Forall_map. induction H as [|k t n y ts ns ys M H IH]; constructor; [|exact IH]. split; [exact I|apply M]. }
  split.
  { intros ids r R. cbn [node_evs app aliases_local].
    match goal with |- aliases_local ?i _ => generalize i end. rewrite <- app_assoc.
    assert (R' : forall ids, aliases_local ids ([EMappingEnd] ++ r)) by (intros i; cbn; apply R).
    revert R'. generalize ([EMappingEnd] ++ r). intros r' R'.
    induction H as [|k t n y ts ns ys M H IH]; intros i; [apply R'|]. cbn [map pair_node fst snd flat_map node_evs]. rewrite <- !app_assoc.
    cbn [app aliases_local]. apply M. intros j. apply IH. }
  split; [|constructor; induction H as [|k t n y ts ns ys M H IH]; constructor; [exists k, n, y; split; [reflexivity|split; [reflexivity|apply M]]|exact IH]].
  cbn [tree_toks props_toks no_props pr_tag_first pr_anchor pr_tag opt_list app trail].
  constructor; [exact I|]. apply clean_app. split; [|repeat constructor].
  induction H as [|k t n y ts ns ys M H IH]; [constructor|]. cbn [map].
  assert (X : clean (pair_toks tree_toks (pair_tree (k, t)))).
  { cbn. repeat (constructor; [exact I|]). apply M. }
  destruct ts as [|t' ts]; [exact X|].
  change (clean (pair_toks tree_toks (pair_tree (k, t)) ++ TFlowEntry :: commas (pair_toks tree_toks) (map pair_tree (t' :: ts)))).
  apply clean_app. split; [exact X|]. constructor; [exact I|exact IH].
Qed.

(** ** Words *)
Lemma natural_digits ds : json_natural ds -> ds <> [] /\ Forall dec_digit ds.
Proof. destruct 1 as [|d ds D F]; (split; [discriminate|]); constructor; auto; unfold dec_digit; lia. Qed.
Lemma digits_bare ds : Forall dec_digit ds -> Forall bare_byte ds.
Proof. apply Forall_impl. intros b H. now left. Qed.
Lemma exponent_bare et e : exponent et e -> Forall bare_byte et.
Proof.
  unfold bare_byte. change (str "+-.E") with [43; 45; 46; 69]%N. destruct 1 as [|c sg neg ds C S [_ D]]; [constructor|].
  constructor; [cbn [In]; lia|]. apply Forall_app. split; [|now apply digits_bare].
  destruct S; [constructor| |]; (constructor; [cbn [In]; lia|constructor]).
Qed.
Lemma fraction_bare ft fp : json_fraction ft fp -> Forall bare_byte ft.
Proof.
  destruct 1 as [|ds [_ D]]; [constructor|]. constructor; [|now apply digits_bare].
  unfold bare_byte. change (str "+-.E") with [43; 45; 46; 69]%N. cbn [In]. lia.
Qed.
Lemma number_bare sg neg ds r : json_sign sg neg -> json_natural ds -> Forall bare_byte r -> bare (sg ++ ds ++ r).
Proof.
  intros S D R. destruct (natural_digits ds D) as [N F]. destruct ds as [|c ds]; [congruence|]. inversion_clear F as [|? ? C F'].
  split.
  - apply Forall_app. split; [|apply Forall_app; split; [|exact R]].
    + destruct S; [constructor|constructor; [|constructor]]. unfold bare_byte. change (str "+-.E") with [43; 45; 46; 69]%N. cbn [In]. lia.
    + constructor; [now left|now apply digits_bare].
  - destruct S; cbn [app nth minus].
    + now left.
    + right. right. split; [reflexivity|exact C].
Qed.
Lemma signed_bytes t z : signed dec_digit 10 t z -> Forall (fun b => dec_digit b \/ b = 43%N \/ b = 45%N) t.
Proof.
  assert (X : forall ds, Forall dec_digit ds -> Forall (fun b => dec_digit b \/ b = 43%N \/ b = 45%N) ds)
    by (intros ds; apply Forall_impl; auto).
  destruct 1 as [ds [_ D]|ds [_ D]|ds [_ D]]; [now apply X| |]; cbn [app plus minus]; constructor; auto.
Qed.
Lemma number_value t s : json_number t s -> bare t /\ value_from_cow_and_metadata t Plain None = YScalar s.
Proof.
  destruct 1 as [sg neg ds S D R|sg neg ds ft fp et e m S D FR EX NI EM].
  - split; [rewrite <- (app_nil_r ds); now apply (number_bare sg neg)|].
    destruct (natural_digits ds D) as [N F]. apply decimal_notations; [|exact R].
    destruct S; cbn [negated app]; constructor; now split.
  - split; [apply (number_bare sg neg); auto; apply Forall_app; split; [eapply fraction_bare|eapply exponent_bare]; eauto|].
    destruct (natural_digits ds D) as [N F]. apply float_spellings. split.
    + cbn [denotes_float]. rewrite EM. rewrite (app_assoc ds). constructor; auto.
      * destruct S; constructor.
      * destruct FR as [|fs [_ FS]]; [rewrite app_nil_r; now apply ma_int|]. apply (ma_point ds fs); auto.
    + intros (z & SZ & RZ). destruct (ft ++ et) as [|b r] eqn:EB.
      * destruct NI as [NI|NI]; [congruence|]. rewrite app_nil_r in SZ.
        assert (SN : signed dec_digit 10 (sg ++ ds) (negated neg (number 10 ds))) by (destruct S; cbn [negated app]; constructor; now split).
        rewrite (signed_unique _ _ _ SZ SN) in RZ. contradiction.
      * apply signed_bytes in SZ. apply Forall_app in SZ. destruct SZ as [_ SZ]. apply Forall_app in SZ. destruct SZ as [_ SZ].
        apply Forall_inv in SZ. unfold dec_digit in SZ.
        destruct FR as [|fs [_ FS]]; cbn [app] in EB.
        -- destruct EX as [|c sg' neg' ds' C _ _]; [discriminate|]. injection EB as <- _. lia.
        -- injection EB as <- _. lia.
Qed.

(** ** Values *)
Lemma first_app (t r : text) : t <> [] -> nth 0 (t ++ r) 0%N = nth 0 t 0%N.
Proof. destruct t; [congruence|reflexivity]. Qed.
Lemma json_first full v y : json full v y -> v <> [] /\ begins (nth 0 v 0%N).
Proof.
  assert (B : forall b, (33 <= b)%N -> b <> 35%N -> begins b) by (unfold begins; cbn [In]; lia).
  destruct 1 as [| | |t s N|t x C|g W|t l E|g W|t l M]; try (split; [discriminate|apply B; [cbn; lia|discriminate]]).
  destruct (number_value t s N) as [[_ H] _]. destruct t as [|b t].
  - exfalso. cbn in H. unfold dec_digit in H. lia.
  - split; [discriminate|]. cbn [nth] in *. unfold dec_digit in H. apply B; lia.
Qed.
Lemma value_word t s fuel g rest T d ob want z : bare t -> value_from_cow_and_metadata t Plain None = YScalar s -> json_word t s ->
  spot fuel (t ++ g ++ rest) T d ob want z -> json_white false g -> value_ends (0 <? N.of_nat d)%N rest ->
  exists z' tr n, reach fuel z z' /\ spot fuel rest (T ++ tree_toks tr) d ob false z' /\ means tr n (YScalar s) /\ List.length (tree_toks tr) <= List.length t.
Proof.
  intros B V JW H W E. destruct (plain_step fuel t g rest T d ob want z H B W E) as (z' & R & S).
  exists z', (TrScalar no_props Plain t), (NdScalar (ScalarValue t Plain 0 None)). split; [now apply reach_one|]. split; [exact S|].
  split; [apply means_scalar; [exact V|now constructor]|]. destruct t; [|cbn; lia]. destruct B as [_ B]. cbn in B. unfold dec_digit in B. lia.
Qed.
Lemma commas_more {A} (f : A -> list token_type) x l : l <> [] -> commas f (x :: l) = f x ++ TFlowEntry :: commas f l.
Proof. destruct l; [congruence|reflexivity]. Qed.

Definition value_scans (v : text) (y : yaml) : Prop :=
  forall fuel g rest T d ob want z, spot fuel (v ++ g ++ rest) T d ob want z -> json_white false g -> value_ends (0 <? N.of_nat d)%N rest ->
  (N.of_nat (List.length v + d) < 4294967295)%N ->
  exists z' tr n, reach fuel z z' /\ spot fuel rest (T ++ tree_toks tr) d ob false z' /\ means tr n y /\
    List.length (tree_toks tr) <= List.length v.
Definition elements_scan (t : text) (l : list yaml) : Prop :=
  exists g0 t', t = g0 ++ t' /\ json_white false g0 /\ t' <> [] /\ begins (nth 0 t' 0%N) /\
  forall fuel rest T d ob z, spot fuel (t' ++ 93%N :: rest) T (S d) ob true z -> (N.of_nat (List.length t + S d) < 4294967295)%N ->
  exists z' ts ns, reach fuel z z' /\ spot fuel (93%N :: rest) (T ++ commas (item_toks tree_toks) (map INode ts)) (S d) ob false z' /\
    all_mean ts ns l /\ ts <> [] /\ List.length (commas (item_toks tree_toks) (map INode ts)) <= List.length t.
Definition members_scan (t : text) (l : list (yaml * yaml)) : Prop :=
  exists g0 t', t = g0 ++ t' /\ json_white false g0 /\ t' <> [] /\ begins (nth 0 t' 0%N) /\
  forall fuel rest T d z, spot fuel (t' ++ 125%N :: rest) T (S d) true true z -> (N.of_nat (List.length t + S d) < 4294967295)%N ->
  exists z' ts ns, reach fuel z z' /\ spot fuel (125%N :: rest) (T ++ commas (pair_toks tree_toks) (map pair_tree ts)) (S d) true false z' /\
    pairs_mean ts ns l /\ ts <> [] /\ List.length (commas (pair_toks tree_toks) (map pair_tree ts)) <= List.length t.

Lemma ends_closing is_map rest d : value_ends (0 <? N.of_nat (S d))%N (closing is_map :: rest).
Proof. replace (0 <? N.of_nat (S d))%N with true by lia. destruct is_map; cbn; auto. Qed.
Lemma ends_comma rest d : value_ends (0 <? N.of_nat (S d))%N (44%N :: rest).
Proof. replace (0 <? N.of_nat (S d))%N with true by lia. cbn; auto. Qed.
Lemma ends_begins in_flow rest : value_ends in_flow rest -> begins (nth 0 rest 0%N).
Proof. intros E. apply (value_ends_facts _ _ E). Qed.
Lemma empty_scans (is_map : bool) g : json_white false g -> forall y, (if is_map then y = YMap [] else y = YSeq []) ->
  value_scans (opening is_map :: g ++ [closing is_map]) y.
Proof.
  intros W y EY fuel g' rest T d ob want z H W' E D. cbn [app] in H. rewrite <- app_assoc in H. cbn [app] in H.
  assert (BC : forall r, begins (nth 0 (closing is_map :: r) 0%N)) by (intros r; destruct is_map; unfold begins; cbn; lia).
  destruct (open_step fuel is_map g (closing is_map :: g' ++ rest) T d ob want z H W (BC _) ltac:(lia)) as (z1 & R1 & S1).
  destruct (close_step fuel is_map g' rest _ d _ true z1 S1 W' (ends_begins _ _ E)) as (z2 & R2 & S2).
  apply (spot_weaken _ _ _ _ _ ob _ false) in S2; [|intros ->; apply orb_true_r|auto].
  destruct is_map; subst y.
  - exists z2, (TrFlowMap no_props (map pair_tree (@nil (text * tree))) false), (NdMap 0 None (map pair_node (@nil (text * vnode)))).
    split; [eapply reach_trans; eapply reach_one; eauto|]. split; [rewrite <- app_assoc in S2; exact S2|].
    split; [apply means_map; constructor|]. cbn. rewrite app_length. cbn. lia.
  - exists z2, (TrFlowSeq no_props (map INode (@nil tree)) false), (NdSeq 0 None []).
    split; [eapply reach_trans; eapply reach_one; eauto|]. split; [rewrite <- app_assoc in S2; exact S2|].
    split; [apply means_seq; constructor|]. cbn. rewrite app_length. cbn. lia.
Qed.
Theorem json_scans :
  (forall v y, json false v y -> value_scans v y) /\
  (forall t l, json_elements false t l -> elements_scan t l) /\
  (forall t l, json_members false t l -> members_scan t l).
Proof.
  apply (json_mutind false (fun v y _ => value_scans v y) (fun t l _ => elements_scan t l) (fun t l _ => members_scan t l)).
  - intros fuel g rest T d ob want z H W E _. eapply value_word; eauto; [|right; left; auto].
    split; [|cbn; lia]. cbn. unfold bare_byte. repeat (constructor; [lia|]). constructor.
  - intros fuel g rest T d ob want z H W E _. eapply value_word; eauto; [|right; right; left; auto].
    split; [|cbn; lia]. cbn. unfold bare_byte. repeat (constructor; [lia|]). constructor.
  - intros fuel g rest T d ob want z H W E _. eapply value_word; eauto; [|right; right; right; auto].
    split; [|cbn; lia]. cbn. unfold bare_byte. repeat (constructor; [lia|]). constructor.
  - intros t s N fuel g rest T d ob want z H W E _. destruct (number_value t s N) as [B V]. eapply value_word; eauto. now left.
  - intros t x C fuel g rest T d ob want z H W E _.
    destruct (quoted_step fuel t x g rest T d ob want z H C W E) as (z' & R & SP).
    exists z', (TrScalar no_props DoubleQuote x), (NdScalar (ScalarValue x DoubleQuote 0 None)). split; [now apply reach_one|]. split; [exact SP|].
    split; [apply means_scalar; [reflexivity|constructor]|]. cbn. lia.
  - intros g W. now apply (empty_scans false g W).
  - intros t l _ (g0 & t' & -> & W0 & N0 & B0 & IH) fuel g rest T d ob want z H W E D.
    cbn [app] in H. rewrite <- !app_assoc in H. cbn [List.length] in D. rewrite app_length in D. cbn [List.length] in D.
    destruct (open_step fuel false g0 (t' ++ [93%N] ++ g ++ rest) T d ob want z H W0) as (z1 & R1 & S1); [now rewrite first_app|lia|].
    destruct (IH fuel (g ++ rest) _ d _ z1 S1 ltac:(lia)) as (z2 & ts & ns & R2 & S2 & AM & NE & LT).
    destruct (close_step fuel false g rest _ d _ false z2 S2 W (ends_begins _ _ E)) as (z3 & R3 & S3).
    exists z3, (TrFlowSeq no_props (map INode ts) false), (NdSeq 0 None ns).
    split; [eapply reach_trans; [apply reach_one; exact R1|]; eapply reach_trans; [exact R2|]; apply reach_one; exact R3|].
    split; [rewrite <- !app_assoc in S3; exact S3|]. split; [now apply means_seq|].
    cbn [tree_toks props_toks no_props pr_tag_first pr_anchor pr_tag opt_list app trail List.length]. rewrite !app_length in *. cbn [List.length]. lia.
  - intros g W. now apply (empty_scans true g W).
  - intros t l _ (g0 & t' & -> & W0 & N0 & B0 & IH) fuel g rest T d ob want z H W E D.
    cbn [app] in H. rewrite <- !app_assoc in H. cbn [List.length] in D. rewrite app_length in D. cbn [List.length] in D.
    destruct (open_step fuel true g0 (t' ++ [125%N] ++ g ++ rest) T d ob want z H W0) as (z1 & R1 & S1); [now rewrite first_app|lia|].
    destruct (IH fuel (g ++ rest) _ d z1 S1 ltac:(lia)) as (z2 & ts & ns & R2 & S2 & AM & NE & LT).
    destruct (close_step fuel true g rest _ d _ false z2 S2 W (ends_begins _ _ E)) as (z3 & R3 & S3).
    apply (spot_weaken _ _ _ _ _ ob _ false) in S3; [|auto|auto].
    exists z3, (TrFlowMap no_props (map pair_tree ts) false), (NdMap 0 None (map pair_node ns)).
    split; [eapply reach_trans; [apply reach_one; exact R1|]; eapply reach_trans; [exact R2|]; apply reach_one; exact R3|].
    split; [rewrite <- !app_assoc in S3; exact S3|]. split; [now apply means_map|].
    cbn [tree_toks props_toks no_props pr_tag_first pr_anchor pr_tag opt_list app trail List.length]. rewrite !app_length in *. cbn [List.length]. lia.
  - intros g v y g' W J IH W'. destruct (json_first _ _ _ J) as [NV BV]. exists g, (v ++ g'). split; [reflexivity|]. split; [exact W|].
    split; [destruct v; [congruence|discriminate]|]. split; [now rewrite first_app|].
    intros fuel rest T d ob z H D. rewrite <- app_assoc in H. rewrite !app_length in D.
    destruct (IH fuel g' (93%N :: rest) T (S d) ob true z H W' (ends_closing false rest d) ltac:(lia)) as (z' & tr & n & R & SP & M & L).
    exists z', [tr], [n]. split; [exact R|]. split; [exact SP|]. split; [repeat constructor; apply M|]. split; [discriminate|].
    cbn [map commas item_toks]. rewrite !app_length. lia.
  - intros g v y g' t l W J IH W' _ (g0 & t' & -> & W0 & N0 & B0 & IHt). destruct (json_first _ _ _ J) as [NV BV].
    exists g, (v ++ g' ++ 44%N :: g0 ++ t'). split; [reflexivity|]. split; [exact W|].
    split; [destruct v; [congruence|discriminate]|]. split; [now rewrite first_app|].
    intros fuel rest T d ob z H D. rewrite <- !app_assoc in H. cbn [app] in H. rewrite <- app_assoc in H.
    rewrite !app_length in D. cbn [List.length] in D. rewrite app_length in D.
    destruct (IH fuel g' (44%N :: g0 ++ t' ++ 93%N :: rest) T (S d) ob true z H W' (ends_comma _ d) ltac:(lia)) as (z1 & tr & n & R1 & S1 & M & L).
    destruct (comma_step fuel g0 (t' ++ 93%N :: rest) _ d ob false z1 S1 W0) as (z2 & R2 & S2); [now rewrite first_app|].
    destruct (IHt fuel rest _ d ob z2 S2 ltac:(rewrite app_length; lia)) as (z3 & ts & ns & R3 & S3 & AM & NE & LT).
    exists z3, (tr :: ts), (n :: ns). split; [eapply reach_trans; [exact R1|]; eapply reach_trans; [apply reach_one; exact R2|exact R3]|].
    cbn [map]. rewrite commas_more by (destruct ts; [congruence|discriminate]). cbn [item_toks].
    split; [rewrite <- !app_assoc in S3; exact S3|]. split; [now constructor|]. split; [discriminate|].
    rewrite !app_length in *. cbn [List.length]. rewrite ?app_length in *. lia.
  - intros g k x g1 g2 v y g3 W C W1 W2 AC J IH W3. destruct (json_first _ _ _ J) as [NV BV].
    exists g, ((34%N :: k ++ [34%N]) ++ g1 ++ 58%N :: g2 ++ v ++ g3). split; [reflexivity|]. split; [exact W|].
    split; [discriminate|]. split; [unfold begins; cbn; lia|].
    intros fuel rest T d z H D.
    assert (EQ : ((34%N :: k ++ [34%N]) ++ g1 ++ 58%N :: g2 ++ v ++ g3) ++ 125%N :: rest = in_json_quotes k ++ g1 ++ 58%N :: g2 ++ v ++ g3 ++ 125%N :: rest).
    { unfold in_json_quotes. rewrite <- !app_assoc. cbn [app]. rewrite <- !app_assoc. reflexivity. }
    rewrite EQ in H. clear EQ. rewrite !app_length in D. cbn [List.length] in D. rewrite !app_length in D.
    destruct (member_step fuel k x g1 g2 (v ++ g3 ++ 125%N :: rest) T d z H C W1 W2) as (z1 & R1 & S1).
    { unfold after_colon in *. now rewrite first_app. }
    { now rewrite first_app. }
    destruct (IH fuel g3 (125%N :: rest) _ (S d) true false z1 S1 W3 (ends_closing true rest d) ltac:(lia)) as (z' & tr & n & R & SP & M & L).
    exists z', [(x, tr)], [(x, n)]. split; [eapply reach_trans; [eexists; exact R1|exact R]|].
    split; [rewrite <- app_assoc in SP; exact SP|]. split; [repeat constructor; apply M|]. split; [discriminate|].
    cbn [map commas pair_tree pair_toks key_toks value_toks tree_toks props_toks no_props pr_tag_first pr_anchor pr_tag opt_list app fst snd List.length].
    repeat (rewrite !app_length; cbn [List.length]). lia.
  - intros g k x g1 g2 v y g3 t l W C W1 W2 AC J IH W3 _ (g0 & t' & -> & W0 & N0 & B0 & IHt). destruct (json_first _ _ _ J) as [NV BV].
    exists g, ((34%N :: k ++ [34%N]) ++ g1 ++ 58%N :: g2 ++ v ++ g3 ++ 44%N :: g0 ++ t'). split; [reflexivity|]. split; [exact W|].
    split; [discriminate|]. split; [unfold begins; cbn; lia|].
    intros fuel rest T d z H D.
    assert (EQ : ((34%N :: k ++ [34%N]) ++ g1 ++ 58%N :: g2 ++ v ++ g3 ++ 44%N :: g0 ++ t') ++ 125%N :: rest
       = in_json_quotes k ++ g1 ++ 58%N :: g2 ++ v ++ g3 ++ 44%N :: g0 ++ t' ++ 125%N :: rest).
    { unfold in_json_quotes. rewrite <- !app_assoc. cbn [app]. rewrite <- !app_assoc. cbn [app]. rewrite <- !app_assoc. reflexivity. }
    rewrite EQ in H. clear EQ. rewrite !app_length in D. cbn [List.length] in D. rewrite !app_length in D. cbn [List.length] in D. rewrite !app_length in D.
    destruct (member_step fuel k x g1 g2 (v ++ g3 ++ 44%N :: g0 ++ t' ++ 125%N :: rest) T d z H C W1 W2) as (z1 & R1 & S1).
    { unfold after_colon in *. now rewrite first_app. }
    { now rewrite first_app. }
    destruct (IH fuel g3 (44%N :: g0 ++ t' ++ 125%N :: rest) _ (S d) true false z1 S1 W3 (ends_comma _ d) ltac:(lia)) as (z2 & tr & n & R2 & S2 & M & L).
    destruct (comma_step fuel g0 (t' ++ 125%N :: rest) _ d true false z2 S2 W0) as (z3 & R3 & S3); [now rewrite first_app|].
    destruct (IHt fuel rest _ d z3 S3 ltac:(rewrite app_length; lia)) as (z4 & ts & ns & R4 & S4 & AM & NE & LT).
    exists z4, ((x, tr) :: ts), ((x, n) :: ns).
    split; [eapply reach_trans; [eexists; exact R1|]; eapply reach_trans; [exact R2|]; eapply reach_trans; [apply reach_one; exact R3|exact R4]|].
    cbn [map]. rewrite commas_more by (destruct ts; [congruence|discriminate]).
    split; [rewrite <- !app_assoc in S4; exact S4|]. split; [now constructor|]. split; [discriminate|].
    cbn [pair_tree pair_toks key_toks value_toks tree_toks props_toks no_props pr_tag_first pr_anchor pr_tag opt_list app fst snd List.length].
    rewrite !app_length in LT. repeat (rewrite !app_length; cbn [List.length]). lia.
Qed.
