(** The lines the emitter writes: every nested line is indented by the configured number of spaces
    for each level. *)
From Verif Require Import Base Tokens Scalar Yaml Emitter EmitterText SpecEmit EmitterProofs.
From Coq Require Import String Lia ZifyBool ZifyNat ZifyN.
Local Open Scope list_scope.

(** ** Scalars fit on a line *)
Definition on_line (t : text) : Prop := line_content t.
Lemma on_line_cons c r : c <> 32%N -> c <> 10%N -> ~ In 10%N r -> on_line (c :: r).
Proof. intros A B C. split; [intros [D|D]; auto|eauto]. Qed.
Lemma decimal_digits : forall fuel n acc, Forall (fun b => 48 <= b <= 57)%N acc ->
  Forall (fun b => 48 <= b <= 57)%N (decimal fuel n acc).
Proof.
  induction fuel as [|fuel IH]; intros n acc F; [exact F|]. cbn [decimal].
  assert (Forall (fun b => 48 <= b <= 57)%N (48 + n mod 10 :: acc)%N).
  { constructor; [|exact F]. pose proof (N.mod_upper_bound n 10). lia. }
  destruct (n <? 10)%N; auto.
Qed.
Lemma decimal_nonempty : forall fuel n acc, acc <> [] -> decimal fuel n acc <> [].
Proof.
  induction fuel as [|fuel IH]; intros n acc F; [exact F|]. cbn [decimal].
  destruct (n <? 10)%N; [discriminate|]. apply IH. discriminate.
Qed.
Lemma display_N_digits n : Forall (fun b => 48 <= b <= 57)%N (display_N n).
Proof. apply decimal_digits. constructor. Qed.
Lemma display_N_cons n : exists c r, display_N n = c :: r /\ (48 <= c <= 57)%N.
Proof.
  pose proof (display_N_digits n) as D. unfold display_N in *.
  destruct (decimal (S (N.size_nat n)) n []) as [|c r] eqn:E.
  - exfalso. cbn [decimal] in E. destruct (n <? 10)%N; [discriminate|].
    revert E. apply decimal_nonempty. discriminate.
  - inversion_clear D. eauto.
Qed.
Lemma digits_no_break t : Forall (fun b => 48 <= b <= 57)%N t -> ~ In 10%N t.
Proof. intros F I. rewrite Forall_forall in F. specialize (F _ I). lia. Qed.
Lemma strip_zeros_incl t x : In x (strip_zeros t) -> In x t.
Proof.
  unfold strip_zeros. rewrite <- !in_rev. rewrite (in_rev t x). generalize (rev t) as l.
  induction l as [|b l IH]; [auto|]. intros I.
  destruct (N.eq_dec b 48) as [->|D]; [right; now apply IH|].
  enough (E : (fix go (l : text) := match l with 48%N :: r => go r | _ => l end) (b :: l) = b :: l)
    by (now rewrite E in I).
  clear I IH. destruct b as [|p]; [reflexivity|]. do 6 (destruct p as [p|p|]; try reflexivity). congruence.
Qed.
Lemma on_line_display_N n : on_line (display_N n).
Proof.
  split; [apply digits_no_break, display_N_digits|].
  destruct (display_N_cons n) as (c & r & -> & C). exists c, r. split; [reflexivity|lia].
Qed.
Lemma on_line_minus t : on_line t -> on_line (45%N :: t).
Proof. intros [A _]. apply on_line_cons; [discriminate|discriminate|exact A]. Qed.
Lemma on_line_display_Z z : on_line (display_Z z).
Proof.
  unfold display_Z. destruct (z <? 0)%Z; [apply on_line_minus|]; apply on_line_display_N.
Qed.
Lemma on_line_app t u : on_line t -> ~ In 10%N u -> on_line (t ++ u).
Proof.
  intros [A (c & r & -> & B)] C. split; [|exists c, (r ++ u); auto].
  rewrite in_app_iff. tauto.
Qed.
Lemma on_line_const (t : text) :
  (negb (existsb (N.eqb 10) t) && match t with c :: _ => negb (c =? 32)%N | [] => false end) = true -> on_line t.
Proof.
  intros H. apply andb_prop in H. destruct H as [A B]. split.
  - intros I. apply negb_true_iff in A. assert (existsb (N.eqb 10) t = true) by (apply existsb_exists; exists 10%N; auto). congruence.
  - destruct t as [|c r]; [discriminate|]. exists c, r. split; [reflexivity|]. lia.
Qed.
Lemma on_line_display_f64 f : on_line (display_f64 f).
Proof.
  destruct f as [n| |n m e]; cbn [display_f64].
  - destruct n; now apply on_line_const.
  - now apply on_line_const.
  - assert (S : forall t, on_line t -> on_line ((if n then [45%N] else []) ++ t))
      by (intros t T; destruct n; [now apply on_line_minus|exact T]).
    destruct (0 <=? e)%Z.
    + apply S, on_line_display_N.
    + apply S. apply on_line_app; [apply on_line_display_N|].
      set (fp := strip_zeros _).
      assert (F : ~ In 10%N fp).
      { intros I. unfold fp in I. apply strip_zeros_incl in I. apply in_app_iff in I. destruct I as [I|I].
        - apply repeat_spec in I. discriminate.
        - revert I. apply digits_no_break, display_N_digits. }
      destruct fp; [easy|]. intros [D|D]; [discriminate|auto].
Qed.
Lemma plain_on_line t : need_quotes t = false -> on_line t.
Proof.
  unfold need_quotes. destruct t as [|c r]; [discriminate|]. intros H.
  repeat (apply orb_false_elim in H; destruct H as [H ?]).
  apply N.eqb_neq in H. split; [|eauto].
  intros I. match goal with E : existsb needs_quotes_byte _ = false |- _ => rename E into Q end.
  assert (existsb needs_quotes_byte (c :: r) = true) by (apply existsb_exists; eauto).
  congruence.
Qed.
Lemma double_enc_no_break b : ~ In 10%N (double_enc b).
Proof.
  unfold double_enc. destruct (is_escaped b) eqn:E.
  - destruct (escaped_has b E) as [t T]. rewrite T. revert T. unfold escape_of.
    repeat match goal with |- context [if N.eqb b ?c then _ else _] => destruct (N.eqb_spec b c) as [->|] end;
      try (intros T; assert (X : forall u, u = Some t -> match u with Some v => ~ In 10%N v | None => True end)
             by (intros u ->; assert (HT : t = t) by reflexivity; revert T; vm_compute; intros [= <-]; vm_compute; intuition discriminate);
           exact (X _ eq_refl)).
    destruct ((b <=? 31)%N || (b =? 127)%N) eqn:EB; [|discriminate].
    match goal with |- Some ?x = Some t -> _ =>
      intros ET'; assert (ET2 : t = x) by congruence; rewrite ET2; clear ET' end.
    rewrite in_app_iff. intros [I|I]; [revert I; vm_compute; intuition discriminate|].
    cbn [In] in I. unfold hex_char in I.
    destruct (b / 16 <? 10)%N, (b mod 16 <? 10)%N; lia.
  - intros [D|[]]. subst. discriminate.
Qed.
Lemma quoted_on_line t : on_line (quoted t).
Proof.
  apply on_line_cons; [discriminate|discriminate|]. rewrite in_app_iff. intros [I|[I|[]]]; [|discriminate].
  apply in_flat_map in I. destruct I as (b & _ & I). now apply double_enc_no_break in I.
Qed.
Lemma stext_on_line s l v : multiline_strings s = false -> on_line (stext s l v).
Proof.
  intros M. destruct v as [|t|b|f|z]; cbn [stext].
  - now apply on_line_const.
  - unfold should_emit_string_as_block; rewrite M; cbn [andb].
    destruct (need_quotes t) eqn:Q; [apply quoted_on_line|now apply plain_on_line].
  - destruct b; now apply on_line_const.
  - apply on_line_display_f64.
  - apply on_line_display_Z.
Qed.

(** ** Lines put together *)
(** As [lined], the first line being a content as well. *)
Definition lines_at (n : nat) (t : text) (levels : list Z) : Prop :=
  exists first ls, t = glue n first ls /\ line_content first /\
    Forall (fun x => line_content (snd x)) ls /\ map fst ls = levels.
Lemma lines_lined n t ls : lines_at n t ls -> lined n t ls.
Proof. intros (f & l & A & [B _] & C & D). exists f, l. auto. Qed.
Lemma lined_one n t : ~ In 10%N t -> lined n t [].
Proof. intros A. exists t, []. unfold glue. cbn. rewrite app_nil_r. auto. Qed.
Lemma lines_one n t : line_content t -> lines_at n t [].
Proof. intros A. exists t, []. unfold glue. cbn. rewrite app_nil_r. auto. Qed.
Lemma glue_app n f l1 l2 : glue n f (l1 ++ l2) = glue n (glue n f l1) l2.
Proof. unfold glue. now rewrite map_app, concat_app, app_assoc. Qed.
Lemma glue_pre n f t l : glue n (f ++ t) l = f ++ glue n t l.
Proof. unfold glue. now rewrite app_assoc. Qed.
Lemma content_app t u : line_content t -> ~ In 10%N u -> line_content (t ++ u).
Proof. apply on_line_app. Qed.
(** Text continuing on the last line. *)
Lemma lined_app n t u a b : lined n t a -> lined n u b -> lined n (t ++ u) (a ++ b).
Proof.
  intros (f & l & -> & A & B & <-) (g & k & -> & C & D & <-). rewrite <- map_app.
  destruct l as [|x l _] using rev_ind.
  - exists (f ++ g), k. repeat split; auto; [|rewrite in_app_iff; tauto].
    rewrite glue_pre. f_equal. unfold glue. cbn [map List.concat]. apply app_nil_r.
  - exists f, (l ++ [(fst x, snd x ++ g)] ++ k).
    apply Forall_app in B. destruct B as [B1 B2]. inversion_clear B2 as [|? ? B3 _].
    repeat split.
    + rewrite !glue_app. rewrite <- glue_pre. f_equal. unfold glue. cbn [map List.concat fst snd app].
      rewrite !app_nil_r. cbn [app]. rewrite <- !app_assoc. cbn [app]. now rewrite <- !app_assoc.
    + exact A.
    + apply Forall_app. split; [exact B1|]. apply Forall_app. split; [|exact D].
      constructor; [|constructor]. now apply content_app.
    + rewrite !map_app. cbn [map fst]. now rewrite <- app_assoc.
Qed.
Lemma lined_cons n c t a : c <> 10%N -> lined n t a -> lined n (c :: t) a.
Proof.
  intros C L. apply (lined_app n [c] t [] a); [|exact L]. apply lined_one. intros [D|[]]. auto.
Qed.
Lemma lines_app n t u a b : lines_at n t a -> lined n u b -> lines_at n (t ++ u) (a ++ b).
Proof.
  intros (f & l & -> & A & B & <-) U.
  destruct A as [A0 (c & r & -> & C)].
  assert (L : lined n (glue n r l) (map fst l)).
  { exists r, l. repeat split; auto. intros I. apply A0. now right. }
  destruct (lined_app n _ _ _ _ L U) as (f & k & E & P & Q & R).
  exists (c :: f), k. repeat split; auto.
  - change (c :: r) with ([c] ++ r). rewrite glue_pre, <- app_assoc, E.
    change (c :: f) with ([c] ++ f). now rewrite glue_pre.
  - intros [D|D]; [|auto]. apply A0. now left.
  - eauto.
Qed.
Lemma lines_cons n c t a : c <> 10%N -> c <> 32%N -> lined n t a -> lines_at n (c :: t) a.
Proof.
  intros C D L. apply (lines_app n [c] t [] a); [|exact L]. apply lines_one.
  split; [|eauto]. intros [E|[]]. auto.
Qed.
(** A new line. *)
Lemma lined_nl s l t a : lines_at (best_indent s) t a -> lined (best_indent s) (nl s l ++ t) (l :: a).
Proof.
  intros (f & k & -> & A & B & <-). exists [], ((l, f) :: k). repeat split; auto.
  - unfold nl, glue. cbn [map List.concat fst snd app]. rewrite <- !app_assoc. reflexivity.
Qed.

(** ** Values *)
Definition layout (s : settings) (y : yaml) : Prop := tags_fit y -> forall l,
  lined (best_indent s) (ntext s l y) (line_levels (compact s) l y) /\
  (match y with YAlias _ => False | _ => True end ->
   lines_at (best_indent s) (ntext s l y) (line_levels (compact s) l y)).
Lemma layout_lines s y :
  (tags_fit y -> forall l, lines_at (best_indent s) (ntext s l y) (line_levels (compact s) l y)) -> layout s y.
Proof. intros H F l. split; [apply lines_lined|intros _]; auto. Qed.
Lemma gap_lined s l i y : layout s y -> tags_fit y ->
  lined (best_indent s) (gap s l i y ++ ntext s l y)
        (opening (i && compact s) l y ++ line_levels (compact s) l y).
Proof.
  intros L F. destruct (L F l) as [L1 L2]. unfold gap, opening.
  destruct (nonempty_collection y && negb (i && compact s)) eqn:E.
  - apply lined_nl. apply L2. now destruct y.
  - cbn [app]. now apply lined_cons.
Qed.
Lemma tags_fit_seq l : tags_fit (YSeq l) -> Forall tags_fit l.
Proof. induction l; cbn; intros H; constructor; [tauto|]. apply IHl, H. Qed.
Lemma tags_fit_map l : tags_fit (YMap l) -> Forall (fun x => tags_fit (fst x) /\ tags_fit (snd x)) l.
Proof. induction l; cbn; intros H; constructor; [tauto|]. apply IHl, H. Qed.
Lemma layout_loop {A} s l (f : A -> text) (g : A -> list Z) x r :
  Forall (fun x => lines_at (best_indent s) (f x) (g x)) (x :: r) ->
  lines_at (best_indent s) (f x ++ flat_map (fun x => nl s l ++ f x) r) (g x ++ flat_map (fun x => l :: g x) r).
Proof.
  intros F. inversion_clear F as [|? ? FX FR]. apply lines_app; [exact FX|].
  induction FR as [|y r H F IH]; [apply lined_one; auto|]. cbn [flat_map].
  apply (lined_app _ _ _ (l :: g y)); [now apply lined_nl|exact IH].
Qed.
Lemma layout_item s l x : layout s x -> tags_fit x ->
  lines_at (best_indent s) (itext s l x) (opening (compact s) l x ++ line_levels (compact s) l x).
Proof.
  intros L F. unfold itext. apply lines_cons; [discriminate|discriminate|]. now apply (gap_lined s l true).
Qed.
Definition entry_levels (c : bool) (l : Z) (x : yaml * yaml) : list Z :=
  match fst x with
  | YSeq _ | YMap _ =>
      opening c l (fst x) ++ line_levels c l (fst x) ++ l :: opening c l (snd x) ++ line_levels c l (snd x)
  | _ => line_levels c l (fst x) ++ opening false l (snd x) ++ line_levels c l (snd x)
  end.
Lemma layout_entry s l x : layout s (fst x) -> layout s (snd x) -> tags_fit (fst x) -> tags_fit (snd x) ->
  lines_at (best_indent s) (etext s l x) (entry_levels (compact s) l x).
Proof.
  destruct x as [k v]. cbn [fst snd]. intros K V FK FV.
  assert (VC : forall i, lines_at (best_indent s) (58%N :: gap s l i v ++ ntext s l v)
            (opening (i && compact s) l v ++ line_levels (compact s) l v))
    by (intros i; apply lines_cons; [discriminate|discriminate|]; now apply gap_lined).
  unfold etext, entry_levels. cbn [fst snd]. destruct (complex_key k) eqn:E.
  - assert (X : lines_at (best_indent s) (63%N :: gap s l true k ++ ntext s l k ++ nl s l
                    ++ 58%N :: gap s l true v ++ ntext s l v)
       (opening (compact s) l k ++ line_levels (compact s) l k ++ l :: opening (compact s) l v ++ line_levels (compact s) l v)).
    { apply lines_cons; [discriminate|discriminate|]. rewrite (app_assoc (gap s l true k)), (app_assoc (opening (compact s) l k)).
      apply lined_app; [now apply (gap_lined s l true)|].
      apply lined_nl. exact (VC true). }
    destruct k; try discriminate; exact X.
  - assert (X : lines_at (best_indent s) (ntext s l k ++ 58%N :: gap s l false v ++ ntext s l v)
       (line_levels (compact s) l k ++ opening false l v ++ line_levels (compact s) l v)).
    { destruct (K FK l) as [_ K2].
      assert (D : {id | k = YAlias id} + {match k with YAlias _ => False | _ => True end})
        by (destruct k; eauto).
      destruct D as [[id ->]|D].
      - exact (VC false).
      - apply lines_app; [now apply K2|]. apply lines_lined. exact (VC false). }
    destruct k; try discriminate; exact X.
Qed.
Lemma flat_map_map {A} l (g : A -> list Z) (x : A) r :
  tl (flat_map (fun x => l :: g x) (x :: r)) = g x ++ flat_map (fun x => l :: g x) r.
Proof. reflexivity. Qed.
Lemma display_tag_line t : tag_fits t -> line_content (display_tag t).
Proof.
  intros (A & B & C). unfold display_tag. destruct (text_eqb (t_handle t) [33%N]).
  - now apply on_line_cons.
  - destruct (t_handle t) as [|c r].
    + now apply on_line_cons.
    + apply on_line_app.
      * split; [exact A|]. exists c, r. split; [reflexivity|]. intros ->. now apply (C r).
      * intros [D|D]; [discriminate|auto].
Qed.
Lemma layout_node s : multiline_strings s = false -> forall y, layout s y.
Proof.
  intros M. induction y as [| v | id | r IH | r IH | t y IH] using yaml_induction.
  - apply layout_lines. intros _ l. cbn [ntext line_levels]. apply lines_one. now apply on_line_const.
  - apply layout_lines. intros _ l. cbn [ntext line_levels]. apply lines_one. now apply stext_on_line.
  - intros _ l. cbn [ntext line_levels]. split; [apply lined_one; auto|contradiction].
  - apply layout_lines. intros F l. destruct r as [|x r]; [apply lines_one; now apply on_line_const|].
    rewrite ntext_seq. apply tags_fit_seq in F.
    apply (layout_loop s (l + 1) (itext s (l + 1)) (fun x => opening (compact s) (l + 1) x ++ line_levels (compact s) (l + 1) x)).
    rewrite Forall_forall in *. intros y I. apply layout_item; auto.
  - apply layout_lines. intros F l. destruct r as [|x r]; [apply lines_one; now apply on_line_const|].
    rewrite ntext_map. apply tags_fit_map in F.
    apply (layout_loop s (l + 1) (etext s (l + 1)) (entry_levels (compact s) (l + 1))).
    rewrite Forall_forall in *. intros y I. destruct (IH y I), (F y I). apply layout_entry; auto.
  - apply layout_lines. intros [F1 F2] l. cbn [ntext line_levels].
    apply (lines_app _ _ _ []); [apply lines_one; now apply display_tag_line|].
    apply lined_cons; [discriminate|]. destruct (IH F2 l) as [I1 I2].
    unfold opening. rewrite andb_true_r. destruct (nonempty_collection y) eqn:E.
    + apply lined_nl. apply I2. now destruct y.
    + exact I1.
Qed.
Lemma node_layout s y l o : accepts s = any_writer -> multiline_strings s = false -> tags_fit y ->
  exists t, emit_node s y (Emitter.Emitter l o) = (Emitter.Emitter l (o ++ t), EmitOk) /\
    lined (best_indent s) t (line_levels (compact s) l y).
Proof.
  intros W M F. exists (ntext s l y). split; [now apply emits_node|]. apply layout_node; auto.
Qed.
