(** Trees that stand for the same events: a single pair of a flow sequence may be written as a mapping. *)
From Verif Require Import SpecProps.
From Verif Require Import Base Tokens SpecEvents SpecTree ParserTree NodeScan.
From Coq Require Import String Lia.
Local Open Scope list_scope.

Definition same (t t' : tree) : Prop :=
  (forall tags before, tree_events tags before t' = tree_events tags before t) /\
  names_of (tree_toks t') = names_of (tree_toks t) /\
  (flow_tree t -> flow_tree t') /\ (forall b, block_tree b t -> block_tree b t').
Lemma same_refl t : same t t.
Proof. repeat split; auto. Qed.
Lemma same_trans a b c : same a b -> same b c -> same a c.
Proof.
  intros (A1 & A2 & A3 & A4) (B1 & B2 & B3 & B4). split; [intros; now rewrite B1|]. split; [now rewrite B2|]. split; auto.
Qed.
(** So they do with properties put on both. *)
Definition like (t t' : tree) : Prop :=
  same t t' /\ (bare t -> bare t' /\ forall pr, same (with_props pr t) (with_props pr t')).
Lemma like_same t t' : like t t' -> same t t'.
Proof. intros H. apply H. Qed.
Lemma like_refl t : like t t.
Proof. split; [apply same_refl|]. intros B. split; [exact B|]. intros pr. apply same_refl. Qed.
Lemma like_trans a b c : like a b -> like b c -> like a c.
Proof.
  intros [A1 A2] [B1 B2]. split; [now apply (same_trans a b c)|]. intros H. destruct (A2 H) as [H' A3]. destruct (B2 H') as [H'' B3].
  split; [exact H''|]. intros pr. eapply same_trans; eauto.
Qed.
Lemma bare_with pr t : bare t -> bare (with_props pr t) -> pr = no_props.
Proof. destruct t; cbn [bare with_props]; intuition. Qed.
Lemma with_toks pr t : bare t -> tree_toks (with_props pr t) = props_toks pr ++ tree_toks t.
Proof. destruct t; cbn [bare with_props tree_toks]; intros H; try contradiction; subst; reflexivity. Qed.
Lemma props_text_some f w pr : props_text f w pr -> has_props pr /\ pr <> no_props.
Proof. intros []; (split; [cbn [has_props pr_anchor pr_tag]; (left; discriminate) || (right; discriminate)|discriminate]). Qed.
Lemma like_with pr t t' : pr <> no_props -> bare t -> like t t' -> like (with_props pr t) (with_props pr t').
Proof.
  intros N B [_ H]. destruct (H B) as [B' S]. split; [apply S|]. intros X. now destruct (N (bare_with pr t B X)).
Qed.
Inductive value_like : value tree -> value tree -> Prop :=
| vl_absent : value_like VAbsent VAbsent
| vl_empty : value_like VEmpty VEmpty
| vl_node t t' : like t t' -> value_like (VNode t) (VNode t').
Inductive key_like : key tree -> key tree -> Prop :=
| kl_none : key_like KNone KNone
| kl_empty : key_like KEmpty KEmpty
| kl_node t t' : like t t' -> key_like (KNode t) (KNode t')
| kl_bare t t' : like t t' -> key_like (KBare t) (KBare t').
Definition pair_like (x x' : key tree * value tree) : Prop := key_like (fst x) (fst x') /\ value_like (snd x) (snd x').
Inductive opt_like : option tree -> option tree -> Prop :=
| ol_none : opt_like None None
| ol_some t t' : like t t' -> opt_like (Some t) (Some t').
Definition item_like (i i' : item tree) : Prop :=
  (forall tags before, item_events (tree_events tags) tree_toks before i' = item_events (tree_events tags) tree_toks before i) /\
  names_of (item_toks tree_toks i') = names_of (item_toks tree_toks i) /\
  (item_all flow_tree i -> item_all flow_tree i').

(** ** Parts *)
Lemma value_like_events v v' : value_like v v' -> forall tags before, value_events (tree_events tags) before v' = value_events (tree_events tags) before v.
Proof. intros [| |t t' ((E & _) & _)] tags before; [reflexivity|reflexivity|]. apply E. Qed.
Lemma value_like_names v v' : value_like v v' -> names_of (value_toks tree_toks v') = names_of (value_toks tree_toks v).
Proof. intros [| |t t' ((_ & N & _) & _)]; [reflexivity|reflexivity|]. cbn [value_toks names_of]. exact N. Qed.
Lemma value_like_flow v v' : value_like v v' -> value_all flow_tree v -> value_all flow_tree v'.
Proof. intros [| |t t' ((_ & _ & F & _) & _)]; auto. Qed.
Lemma value_like_block b v v' : value_like v v' -> value_all (block_tree b) v -> value_all (block_tree b) v'.
Proof. intros [| |t t' ((_ & _ & _ & F) & _)]; auto. apply F. Qed.
Lemma key_like_events k k' : key_like k k' -> forall tags before, key_events (tree_events tags) before k' = key_events (tree_events tags) before k.
Proof. intros [| |t t' ((E & _) & _)|t t' ((E & _) & _)] tags before; try reflexivity; apply E. Qed.
Lemma key_like_names k k' : key_like k k' -> names_of (key_toks tree_toks k') = names_of (key_toks tree_toks k).
Proof. intros [| |t t' ((_ & N & _) & _)|t t' ((_ & N & _) & _)]; try reflexivity; cbn [key_toks names_of]; exact N. Qed.
Lemma key_like_flow k k' : key_like k k' -> key_all flow_tree k -> key_all flow_tree k'.
Proof. intros [| |t t' ((_ & _ & F & _) & _)|t t' ((_ & _ & F & _) & _)]; auto. Qed.
Lemma key_like_block b k k' : key_like k k' -> key_all (block_tree b) k -> key_all (block_tree b) k'.
Proof. intros [| |t t' ((_ & _ & _ & F) & _)|t t' ((_ & _ & _ & F) & _)]; auto; apply F. Qed.
Lemma pair_like_events x x' : pair_like x x' -> forall tags before,
  pair_events (tree_events tags) tree_toks before x' = pair_events (tree_events tags) tree_toks before x.
Proof.
  destruct x as [k v], x' as [k' v']. intros [K V] tags before. cbn [fst snd pair_events] in *.
  rewrite (key_like_events k k' K), (key_like_names k k' K). destruct (key_events _ _ k); [|reflexivity]. cbn [obind].
  now rewrite (value_like_events v v' V).
Qed.
Lemma pair_like_names x x' : pair_like x x' -> names_of (pair_toks tree_toks x') = names_of (pair_toks tree_toks x).
Proof.
  destruct x as [k v], x' as [k' v']. intros [K V]. cbn [fst snd pair_toks] in *.
  now rewrite !names_of_app, (key_like_names k k' K), (value_like_names v v' V).
Qed.
Lemma pair_like_flow x x' : pair_like x x' -> flow_pair x -> flow_pair x'.
Proof. destruct x as [k v], x' as [k' v']. intros [K V]. cbn [fst snd] in *. destruct K, V; auto. Qed.
Lemma pair_like_block x x' : pair_like x x' -> block_pair x -> block_pair x'.
Proof. destruct x as [k v], x' as [k' v']. intros [K V]. cbn [fst snd] in *. destruct K, V; auto. Qed.
Lemma opt_like_events o o' : opt_like o o' -> forall tags before, opt_events (tree_events tags) before o' = opt_events (tree_events tags) before o.
Proof. intros [|t t' ((E & _) & _)] tags before; [reflexivity|]. apply E. Qed.
Lemma opt_like_names o o' : opt_like o o' -> names_of (opt_list tree_toks o') = names_of (opt_list tree_toks o).
Proof. intros [|t t' ((_ & N & _) & _)]; [reflexivity|]. exact N. Qed.

(** ** Lists of parts *)
Lemma list_like {A} (f f' : list text -> A -> option (list event)) (toks : A -> list token_type) (R : A -> A -> Prop) l l' :
  Forall2 R l l' -> (forall x x', R x x' -> (forall before, f' before x' = f before x) /\ names_of (toks x') = names_of (toks x)) ->
  forall before, list_events f' toks before l' = list_events f toks before l.
Proof.
  intros H E. induction H as [|x x' l l' X _ IH]; intros before; [reflexivity|]. cbn [list_events].
  destruct (E x x' X) as [E1 E2]. rewrite E1, E2. destruct (f before x); [|reflexivity]. cbn [obind]. now rewrite IH.
Qed.
Lemma commas_names {A} (toks : A -> list token_type) (R : A -> A -> Prop) l l' :
  Forall2 R l l' -> (forall x x', R x x' -> names_of (toks x') = names_of (toks x)) -> names_of (commas toks l') = names_of (commas toks l).
Proof.
  intros H E. induction H as [|x x' l l' X H IH]; [reflexivity|]. destruct H as [|y y' l l' Y H]; [now apply E|].
  cbn [commas]. cbn [commas] in IH. rewrite !names_of_app, (E x x' X). cbn [names_of]. now rewrite IH.
Qed.
Lemma flat_names {A} (toks : A -> list token_type) (R : A -> A -> Prop) l l' :
  Forall2 R l l' -> (forall x x', R x x' -> names_of (toks x') = names_of (toks x)) -> names_of (flat_map toks l') = names_of (flat_map toks l).
Proof.
  intros H E. induction H as [|x x' l l' X H IH]; [reflexivity|]. cbn [flat_map]. now rewrite !names_of_app, (E x x' X), IH.
Qed.
Lemma all_like {A} (P : A -> Prop) (R : A -> A -> Prop) l l' : Forall2 R l l' -> (forall x x', R x x' -> P x -> P x') -> all_of P l -> all_of P l'.
Proof. intros H E. induction H as [|x x' l l' X H IH]; [auto|]. cbn [all_of]. intros [HA HB]. split; [eapply E; eauto|auto]. Qed.
Lemma nil_like {A} (R : A -> A -> Prop) l l' : Forall2 R l l' -> l' = [] -> l = [].
Proof. intros [|x x' r r' X H]; [auto|discriminate]. Qed.

(** ** Collections *)
Lemma same_flow_seq pr l l' b : Forall2 item_like l l' -> same (TrFlowSeq pr l b) (TrFlowSeq pr l' b).
Proof.
  intros H. split; [|split; [|split]].
  - intros tags before. cbn [tree_events]. f_equal.
    rewrite (list_like (item_events (tree_events tags) tree_toks) (item_events (tree_events tags) tree_toks) (item_toks tree_toks) item_like l l' H); [reflexivity|].
    intros x x' (E & N & _). auto.
  - cbn [tree_toks].
    rewrite !names_of_app. cbn [names_of]. rewrite ?names_of_app. now rewrite (commas_names (item_toks tree_toks) item_like l l' H) by (intros x x' (_ & N & _); exact N).
  - cbn [flow_tree]. intros [A B]. split; [|intros E; apply B; now apply (nil_like item_like l l')].
    revert A. apply (all_like _ item_like l l' H). intros x x' (_ & _ & F). exact F.
  - intros i. cbn [block_tree flow_tree]. intros [A B]. split; [|intros E; apply B; now apply (nil_like item_like l l')].
    revert A. apply (all_like _ item_like l l' H). intros x x' (_ & _ & F). exact F.
Qed.
Lemma like_flow_seq pr l l' b : Forall2 item_like l l' -> like (TrFlowSeq pr l b) (TrFlowSeq pr l' b).
Proof. intros H. split; [now apply same_flow_seq|]. intros B. split; [exact B|]. intros pr'. now apply same_flow_seq. Qed.
Lemma same_flow_map pr l l' b : Forall2 pair_like l l' -> same (TrFlowMap pr l b) (TrFlowMap pr l' b).
Proof.
  intros H.
  assert (FL : flow_tree (TrFlowMap pr l b) -> flow_tree (TrFlowMap pr l' b)).
  { cbn [flow_tree]. intros [A B]. split; [|intros E; apply B; now apply (nil_like pair_like l l')].
    revert A. apply (all_like _ pair_like l l' H). intros x x' X (F & KV). split; [now apply (pair_like_flow x x')|].
    destruct x as [k v], x' as [k' v'], X as [K V]. cbn [fst snd] in *. split; [eapply key_like_flow|eapply value_like_flow]; eauto; apply KV. }
  split; [|split; [|split; [exact FL|intros i; exact FL]]].
  - intros tags before. cbn [tree_events]. f_equal.
    rewrite (list_like (pair_events (tree_events tags) tree_toks) (pair_events (tree_events tags) tree_toks) (pair_toks tree_toks) pair_like l l' H); [reflexivity|].
    intros x x' X. split; [intros; now apply pair_like_events|now apply pair_like_names].
  - cbn [tree_toks].
    rewrite !names_of_app. cbn [names_of]. rewrite ?names_of_app. now rewrite (commas_names (pair_toks tree_toks) pair_like l l' H) by (intros; now apply pair_like_names).
Qed.
Lemma like_flow_map pr l l' b : Forall2 pair_like l l' -> like (TrFlowMap pr l b) (TrFlowMap pr l' b).
Proof. intros H. split; [now apply same_flow_map|]. intros B. split; [exact B|]. intros pr'. now apply same_flow_map. Qed.
Lemma no_gap_like l l' : Forall2 pair_like l l' -> no_gap l -> no_gap l'.
Proof.
  induction 1 as [|[k v] [k' v'] l l' X H IH]; [auto|]. cbn [no_gap]. intros [A B]. split; [|auto].
  destruct X as [_ V]. cbn [fst snd] in *. destruct V; auto. destruct H as [|[k1 v1] [k1' v1'] r r' [K1 _] _]; auto. cbn [fst snd] in *. destruct K1; auto.
Qed.
Lemma same_block_map pr l l' : Forall2 pair_like l l' -> same (TrBlockMap pr l) (TrBlockMap pr l').
Proof.
  intros H. split; [|split; [|split]].
  - intros tags before. cbn [tree_events]. f_equal.
    rewrite (list_like (pair_events (tree_events tags) tree_toks) (pair_events (tree_events tags) tree_toks) (pair_toks tree_toks) pair_like l l' H); [reflexivity|].
    intros x x' X. split; [intros; now apply pair_like_events|now apply pair_like_names].
  - cbn [tree_toks].
    rewrite !names_of_app. cbn [names_of]. rewrite ?names_of_app. now rewrite (flat_names (pair_toks tree_toks) pair_like l l' H) by (intros; now apply pair_like_names).
  - intros [].
  - intros i. cbn [block_tree]. intros [A B]. split; [|now apply (no_gap_like l l')].
    revert A. apply (all_like _ pair_like l l' H). intros x x' X (F & KV). split; [now apply (pair_like_block x x')|].
    destruct x as [k v], x' as [k' v'], X as [K V]. cbn [fst snd] in *. split; [eapply key_like_block|eapply value_like_block]; eauto; apply KV.
Qed.
Lemma like_block_map pr l l' : Forall2 pair_like l l' -> like (TrBlockMap pr l) (TrBlockMap pr l').
Proof. intros H. split; [now apply same_block_map|]. intros B. split; [exact B|]. intros pr'. now apply same_block_map. Qed.
Lemma opt_like_block o o' : opt_like o o' -> match o with Some t => block_tree false t | None => True end -> match o' with Some t => block_tree false t | None => True end.
Proof. intros [|t t' ((_ & _ & _ & F) & _)]; auto. Qed.
Lemma same_block_seq pr l l' : Forall2 opt_like l l' -> same (TrBlockSeq pr l) (TrBlockSeq pr l').
Proof.
  intros H. split; [|split; [|split]].
  - intros tags before. cbn [tree_events]. f_equal.
    rewrite (list_like (opt_events (tree_events tags)) (opt_events (tree_events tags)) (opt_list tree_toks) opt_like l l' H); [reflexivity|].
    intros x x' X. split; [intros; now apply opt_like_events|now apply opt_like_names].
  - cbn [tree_toks].
    rewrite !names_of_app. cbn [names_of]. rewrite ?names_of_app. now rewrite (flat_names (fun o => TBlockEntry :: opt_list tree_toks o) opt_like l l' H) by (intros; cbn [names_of]; now apply opt_like_names).
  - intros [].
  - intros i. cbn [block_tree]. apply (all_like _ opt_like l l' H). apply opt_like_block.
Qed.
Lemma like_block_seq pr l l' : Forall2 opt_like l l' -> like (TrBlockSeq pr l) (TrBlockSeq pr l').
Proof. intros H. split; [now apply same_block_seq|]. intros B. split; [exact B|]. intros pr'. now apply same_block_seq. Qed.
Lemma same_indentless pr l l' : Forall2 opt_like l l' -> same (TrIndentless pr l) (TrIndentless pr l').
Proof.
  intros H. split; [|split; [|split]].
  - intros tags before. cbn [tree_events]. f_equal.
    rewrite (list_like (opt_events (tree_events tags)) (opt_events (tree_events tags)) (opt_list tree_toks) opt_like l l' H); [reflexivity|].
    intros x x' X. split; [intros; now apply opt_like_events|now apply opt_like_names].
  - cbn [tree_toks].
    rewrite ?names_of_app; now rewrite (flat_names (fun o => TBlockEntry :: opt_list tree_toks o) opt_like l l' H) by (intros; cbn [names_of]; now apply opt_like_names).
  - intros [].
  - intros i. cbn [block_tree]. intros (A & B & C). split; [exact A|]. split; [intros E; apply B; now apply (nil_like opt_like l l')|].
    revert C. apply (all_like _ opt_like l l' H). apply opt_like_block.
Qed.
Lemma like_indentless pr l l' : Forall2 opt_like l l' -> like (TrIndentless pr l) (TrIndentless pr l').
Proof. intros H. split; [now apply same_indentless|]. intros B. split; [exact B|]. intros pr'. now apply same_indentless. Qed.

(** ** Items *)
Lemma item_node t t' : like t t' -> item_like (INode t) (INode t').
Proof. intros ((E & N & F & _) & _). split; [exact E|]. split; [exact N|exact F]. Qed.
Lemma item_pair k k' v v' : like k k' -> value_like v v' -> item_like (IPair k v) (IPair k' v').
Proof.
  intros ((E & N & F & _) & _) V. split; [|split].
  - intros tags before. cbn [item_events]. rewrite E, N. destruct (tree_events tags before k); [|reflexivity]. cbn [obind].
    now rewrite (value_like_events v v' V).
  - cbn [item_toks names_of]. now rewrite !names_of_app, N, (value_like_names v v' V).
  - cbn [item_all]. intros [A B]. split; [auto|now apply (value_like_flow v v')].
Qed.
(** A single pair as a mapping. *)
Lemma item_mapping k k' v v' : like k k' -> value_like v v' -> item_like (IPair k v) (INode (TrFlowMap no_props [(KNode k', v')] false)).
Proof.
  intros ((E & N & F & _) & _) V. split; [|split].
  - intros tags before. cbn [item_events tree_events list_events pair_events key_events key_toks names_of props_tag props_id no_props pr_tag pr_anchor obind props_toks pr_tag_first opt_list app].
    rewrite app_nil_r, E, N. destruct (tree_events tags before k) as [e|]; [|reflexivity]. cbn [obind].
    rewrite (value_like_events v v' V). destruct (value_events _ _ v) as [e'|]; [|reflexivity]. cbn [obind enclose]. rewrite app_nil_r. now rewrite <- app_assoc.
  - cbn [item_toks tree_toks props_toks no_props pr_anchor pr_tag pr_tag_first opt_list app names_of commas pair_toks key_toks trail].
    rewrite !names_of_app. cbn [names_of]. rewrite app_nil_r, N, (value_like_names v v' V). rewrite ?names_of_app; cbn [names_of]; rewrite ?app_nil_r; reflexivity.
  - cbn [item_all flow_tree all_of flow_pair key_all]. intros [A B]. repeat split; auto.
    + now apply (value_like_flow v v').
Qed.
