(** The notation of the test cases tells events apart. *)
From Verif Require Import Base Tokens Scalar ScalarProofs Parser Pipeline TestText TestEvents SpecTestEvents.
From Coq Require Import String Lia.
Local Open Scope list_scope.

(** ** Cutting at the first occurrence *)
Lemma cut_unique (c : N) : forall a a' r r', ~ In c a -> ~ In c a' -> a ++ c :: r = a' ++ c :: r' -> a = a' /\ r = r'.
Proof.
  induction a as [|x a IH]; intros [|x' a'] r r' N N' E; cbn [app] in E.
  - injection E as E. auto.
  - injection E as E _. elim N'. now left.
  - injection E as E _. elim N. now left.
  - injection E as E1 E2. destruct (IH a' r r') as [-> ->]; [intros I; apply N; now right|intros I; apply N'; now right|exact E2|]. subst. auto.
Qed.
Lemma lines_unique {A B} (f : A -> text) (g : B -> text) : forall l l',
  (forall x, In x l -> ~ In 10%N (f x)) -> (forall x, In x l' -> ~ In 10%N (g x)) ->
  flat_map (fun x => line (f x)) l = flat_map (fun x => line (g x)) l' -> Forall2 (fun x y => f x = g y) l l'.
Proof.
  induction l as [|x l IH]; intros [|y l'] F G E; cbn [flat_map] in E.
  - constructor.
  - exfalso. unfold line in E. destruct (g y); discriminate E.
  - exfalso. unfold line in E. destruct (f x); discriminate E.
  - unfold line in E. rewrite <- !app_assoc in E. cbn [app] in E.
    apply cut_unique in E; [|apply F; now left|apply G; now left]. destruct E as [E1 E2]. constructor; [exact E1|].
    apply IH; [intros z I; apply F; now right|intros z I; apply G; now right|exact E2].
Qed.

(** ** One line *)
Definition anchor_text (a : option text) : text := match a with Some n => str " &" ++ n | None => [] end.
Definition tag_text (t : option text) : text := match t with Some n => str " <" ++ n ++ str ">" | None => [] end.
(** The line of a noted event. *)
Definition note (x : noted_event) : text :=
  match x with
  | NtStreamStart => str "+STR" | NtStreamEnd => str "-STR" | NtDocStart => str "+DOC" | NtDocEnd => str "-DOC"
  | NtAlias a => str "=ALI *" ++ a
  | NtScalar a t s v => str "=VAL" ++ anchor_text a ++ tag_text t ++ str " " ++ style_text s ++ v
  | NtSeqStart a t => str "+SEQ" ++ anchor_text a ++ tag_text t
  | NtSeqEnd => str "-SEQ"
  | NtMapStart a t => str "+MAP" ++ anchor_text a ++ tag_text t
  | NtMapEnd => str "-MAP"
  end.
Lemma tag_texts t : extract_tag_full t = tag_text (tag_name t).
Proof. destruct t as [t|]; [|reflexivity]. cbn [extract_tag_full tag_name option_map tag_text]. now rewrite <- app_assoc. Qed.
Lemma written name e x : noted_as name e x -> write_event YamlFormat name e = line (note x).
Proof.
  intros H. destruct H as [| | | |id a H|id H|v|a t| |a t|]; try reflexivity; cbn [write_event emit_stream note].
  - now rewrite H.
  - now rewrite H.
  - now rewrite tag_texts.
  - now rewrite tag_texts.
  - now rewrite tag_texts.
Qed.
Lemma not_in_app {A} (x : A) a b : ~ In x a -> ~ In x b -> ~ In x (a ++ b).
Proof. intros H H' I. apply in_app_or in I. tauto. Qed.
Ltac no10 := cbn; intuition discriminate.
Lemma anchor_no10 a : name_ok a -> ~ In 10%N (anchor_text a).
Proof. intros H. destruct a as [n|]; [|intros []]. apply not_in_app; [no10|]. apply (H n eq_refl). Qed.
Lemma tag_no10 t : tag_ok t -> ~ In 10%N (tag_text t).
Proof. intros H. destruct t as [n|]; [|intros []]. apply not_in_app; [no10|]. apply not_in_app; [apply (H n eq_refl)|no10]. Qed.
Lemma note_no10 x : one_line x -> ~ In 10%N (note x).
Proof.
  destruct x as [| | | |a|a t s v|a t| |a t|]; cbn [one_line note]; intros H; try no10.
  - apply not_in_app; [no10|]. apply (H a eq_refl).
  - destruct H as (A & T & V). apply not_in_app; [no10|]. apply not_in_app; [now apply anchor_no10|]. apply not_in_app; [now apply tag_no10|].
    apply not_in_app; [no10|]. apply not_in_app; [destruct s; no10|exact V].
  - destruct H as (A & T). apply not_in_app; [no10|]. apply not_in_app; [now apply anchor_no10|now apply tag_no10].
  - destruct H as (A & T). apply not_in_app; [no10|]. apply not_in_app; [now apply anchor_no10|now apply tag_no10].
Qed.
(** Behind the anchor and the tag: nothing, or a space and a style. *)
Definition tail_ok (r : text) : Prop := r = [] \/ exists s v, r = str " " ++ style_text s ++ v.
Lemma style_unique s s' v v' : style_text s ++ v = style_text s' ++ v' -> s = s' /\ v = v'.
Proof. destruct s, s'; cbn; intros [= ->]; auto. Qed.
Lemma tag_unique t t' r r' : tag_ok t -> tag_ok t' -> tail_ok r -> tail_ok r' -> tag_text t ++ r = tag_text t' ++ r' -> t = t' /\ r = r'.
Proof.
  intros T T' R R' E. destruct t as [n|], t' as [n'|]; cbn [tag_text] in E.
  - cbn [str app] in E. injection E as E. rewrite <- !app_assoc in E. cbn [app] in E.
    apply cut_unique in E; [|apply (T n eq_refl)|apply (T' n' eq_refl)]. destruct E as [-> ->]. auto.
  - exfalso. destruct R' as [->|(s & v & ->)]; [discriminate E|]. destruct s; discriminate E.
  - exfalso. destruct R as [->|(s & v & ->)]; [discriminate E|]. destruct s; discriminate E.
  - auto.
Qed.
(** Behind the anchor: nothing or a space, but no ampersand behind it. *)
Definition rest_ok (r : text) : Prop := r = [] \/ exists c v, r = 32%N :: c :: v /\ c <> 38%N.
Lemma tail_rest t r : tail_ok r -> rest_ok (tag_text t ++ r).
Proof.
  intros R. destruct t as [n|]; cbn [tag_text app].
  - right. exists 60%N, ((n ++ str ">") ++ r). split; [reflexivity|discriminate].
  - destruct R as [->|(s & v & ->)]; [now left|]. right. destruct s; (eexists _, v; split; [reflexivity|discriminate]).
Qed.
Lemma anchor_unique a a' r r' : name_ok a -> name_ok a' -> rest_ok r -> rest_ok r' -> anchor_text a ++ r = anchor_text a' ++ r' -> a = a' /\ r = r'.
Proof.
  assert (CUT : forall n n' r r', ~ In 32%N n -> ~ In 32%N n' -> rest_ok r -> rest_ok r' -> n ++ r = n' ++ r' -> n = n' /\ r = r').
  { clear. intros n n' r r' N N' [->|(c & v & -> & _)] [->|(c' & v' & -> & _)] E.
    - rewrite !app_nil_r in E. auto.
    - exfalso. apply N. rewrite app_nil_r in E. rewrite E. apply in_or_app. right. now left.
    - exfalso. apply N'. rewrite app_nil_r in E. rewrite <- E. apply in_or_app. right. now left.
    - apply cut_unique in E; auto. destruct E as [-> ->]. auto. }
  intros A A' R R' E. destruct a as [n|], a' as [n'|]; cbn [anchor_text] in E.
  - cbn [str app] in E. injection E as E. apply CUT in E; [|apply (A n eq_refl)|apply (A' n' eq_refl)|exact R|exact R']. destruct E as [-> ->]. auto.
  - exfalso. destruct R' as [->|(c & v & -> & C)]; [discriminate E|]. injection E as E _. congruence.
  - exfalso. destruct R as [->|(c & v & -> & C)]; [discriminate E|]. injection E as E _. congruence.
  - auto.
Qed.
Lemma props_unique a a' t t' r r' : name_ok a -> name_ok a' -> tag_ok t -> tag_ok t' -> tail_ok r -> tail_ok r' ->
  anchor_text a ++ tag_text t ++ r = anchor_text a' ++ tag_text t' ++ r' -> a = a' /\ t = t' /\ r = r'.
Proof.
  intros A A' T T' R R' E. apply anchor_unique in E; [|exact A|exact A'|now apply tail_rest|now apply tail_rest]. destruct E as [-> E].
  apply tag_unique in E; [|exact T|exact T'|exact R|exact R']. destruct E as [-> ->]. auto.
Qed.
Lemma note_unique x y : one_line x -> one_line y -> note x = note y -> x = y.
Proof.
  intros X Y E. destruct x as [| | | |a|a t s v|a t| |a t|], y as [| | | |a'|a' t' s' v'|a' t'| |a' t'|]; try discriminate E; try reflexivity; cbn [note one_line] in *.
  - apply app_inv_head in E. now subst.
  - apply app_inv_head in E. destruct X as (A & T & _), Y as (A' & T' & _).
    apply props_unique in E; auto; [|right; eauto|right; eauto]. destruct E as (-> & -> & E). apply app_inv_head in E. apply style_unique in E. destruct E as [-> ->]. reflexivity.
  - apply app_inv_head in E. destruct X as (A & T), Y as (A' & T'). rewrite <- (app_nil_r (tag_text t)), <- (app_nil_r (tag_text t')) in E.
    apply props_unique in E; auto; try (now left). destruct E as (-> & -> & _). reflexivity.
  - apply app_inv_head in E. destruct X as (A & T), Y as (A' & T'). rewrite <- (app_nil_r (tag_text t)), <- (app_nil_r (tag_text t')) in E.
    apply props_unique in E; auto; try (now left). destruct E as (-> & -> & _). reflexivity.
Qed.

(** ** Whole streams *)
Definition noted_all (l : list (parser * event)) (xs : list noted_event) : Prop :=
  Forall2 (fun x y => noted_as (get_anchor (fst x)) (snd x) y) l xs.
Lemma written_all l xs : noted_all l xs -> flat_map (fun x => write_event YamlFormat (get_anchor (fst x)) (snd x)) l = flat_map (fun x => line (note x)) xs.
Proof. induction 1 as [|x y l xs H F IH]; [reflexivity|]. cbn [flat_map]. rewrite IH. f_equal. exact (written _ _ _ H). Qed.
Lemma streams_told_apart n n' p p' l l' q q' xs ys :
  events_until n p = Some (l, q) -> events_until n' p' = Some (l', q') ->
  noted_all l xs -> noted_all l' ys -> Forall one_line xs -> Forall one_line ys ->
  write_str_from_event YamlFormat n p = write_str_from_event YamlFormat n' p' -> xs = ys.
Proof.
  intros E E' X Y OX OY W. unfold write_str_from_event in W. rewrite E, E' in W. cbn [emit_stream emit_err is_inline app] in W.
  assert (Z : forall q, match snd (next_event q) with Some (Err _) => [] | _ => @nil N end = []) by (intros q0; destruct (snd (next_event q0)) as [[]|]; reflexivity).
  assert (W' : flat_map (fun x => line (note x)) xs = flat_map (fun x => line (note x)) ys).
  { rewrite <- (written_all l xs X), <- (written_all l' ys Y). injection W as W.
    destruct (next_event q) as [? [[]|]], (next_event q') as [? [[]|]]; rewrite ?app_nil_r in W; exact W. }
  rewrite Forall_forall in OX, OY.
  apply lines_unique in W'; [|intros x I; apply note_no10; auto|intros x I; apply note_no10; auto].
  clear - OX OY W'. induction W' as [|x y xs ys H F IH]; [reflexivity|]. f_equal.
  - apply note_unique; [apply OX; now left|apply OY; now left|exact H].
  - apply IH; intros z I; [apply OX|apply OY]; now right.
Qed.
Lemma reads_noted p xs : reads_events p xs -> forall n l q, events_until n p = Some (l, q) -> noted_all l xs.
Proof.
  induction 1 as [p p' r E NR|p p' e s x xs E N R IH]; intros n l q H; (destruct n as [|n]; [discriminate|]); cbn [events_until] in H; rewrite E in H.
  - destruct r as [[[e s]|er| | |]|]; try (injection H as <- <-; constructor). now elim (NR (e, s)).
  - destruct (events_until n p') as [[l' q']|] eqn:U; [|discriminate]. injection H as <- <-. constructor; [exact N|]. exact (IH n l' q' U).
Qed.
Lemma cases_tell_apart n n' i i' events xs ys :
  assert_eq_event_case YamlFormat n i events = true -> assert_eq_event_case YamlFormat n' i' events = true ->
  ends_with events (str "ERR") = false ->
  reads_events (parser_of_text n i false) xs -> reads_events (parser_of_text n' i' false) ys -> Forall one_line xs -> Forall one_line ys -> xs = ys.
Proof.
  unfold assert_eq_event_case. intros A A' NE X Y OX OY. rewrite NE in A, A'. cbv zeta in A, A'.
  destruct (write_str_from_event YamlFormat n (parser_of_text n i false)) as [l|] eqn:W; [|discriminate].
  destruct (write_str_from_event YamlFormat n' (parser_of_text n' i' false)) as [l'|] eqn:W'; [|discriminate].
  cbn [Bool.eqb andb orb] in A, A'. apply text_eqb_iff in A, A'.
  pose proof W as V. pose proof W' as V'. unfold write_str_from_event in V, V'.
  destruct (events_until n (parser_of_text n i false)) as [[m q]|] eqn:U; [|discriminate].
  destruct (events_until n' (parser_of_text n' i' false)) as [[m' q']|] eqn:U'; [|discriminate].
  refine (streams_told_apart _ _ _ _ _ _ _ _ xs ys U U' (reads_noted _ _ X _ _ _ U) (reads_noted _ _ Y _ _ _ U') OX OY _). congruence.
Qed.
(** Every run of the parser has its noted events. *)
Lemma every_noted name e : exists x, noted_as name e x.
Proof. destruct e as [| | | |id| | | | |]; try (eexists; constructor; fail). destruct (name id) as [a|] eqn:E; [exists (NtAlias a)|exists (NtAlias [])]; now constructor. Qed.
Lemma runs_have_events n : forall p r, events_until n p = Some r -> exists xs, reads_events p xs.
Proof.
  induction n as [|n IH]; intros p r H; [discriminate|]. cbn [events_until] in H. destruct (next_event p) as [p' o] eqn:E.
  assert (C : (exists e s, o = Some (Ok (e, s))) \/ forall x, o <> Some (Ok x)).
  { destruct o as [[[e s]|er| | |]|]; [left; eauto|right; discriminate..]. }
  destruct C as [(e & s & ->)|C].
  - destruct (events_until n p') as [r'|] eqn:U; [|discriminate]. destruct (IH p' r' U) as (xs & R).
    destruct (every_noted (fun id => option_map fst (find (fun a => Nat.eqb (snd a) id) (p_anchors p'))) e) as (x & N). exists (x :: xs). econstructor; eauto.
  - exists []. econstructor; eauto.
Qed.

(** ** Examples *)
Ltac run_events := repeat (first [eapply re_event; [vm_compute; reflexivity|constructor; vm_compute; reflexivity|]|eapply re_event; [vm_compute; reflexivity|constructor|]|eapply re_end; [vm_compute; reflexivity|discriminate]]).
Definition case_text : text := str "k: &a !t ""v""" ++ [10%N] ++ str "l: *a".
Definition case_events : text := str "+STR\n+DOC\n+MAP\n=VAL :k\n=VAL &a <!t> ""v\n=VAL :l\n=ALI *a\n-MAP\n-DOC\n-STR\n".
Definition case_noted : list noted_event :=
  [NtStreamStart; NtDocStart; NtMapStart None None; NtScalar None None Plain (str "k");
   NtScalar (Some (str "a")) (Some (str "!t")) DoubleQuote (str "v"); NtScalar None None Plain (str "l");
   NtAlias (str "a"); NtMapEnd; NtDocEnd; NtStreamEnd].
