(** Proofs about the emitter: levels and layout. *)
From Verif Require Import Base Tokens Scalar Chars Source Cursor ExactCursor Yaml Emitter EmitterText SpecEmit.
From Coq Require Import String Lia ZifyBool ZifyNat ZifyN.
Local Open Scope list_scope.

(** ** Induction on values *)
Lemma yaml_induction (P : yaml -> Prop) :
  P YBad -> (forall s, P (YScalar s)) -> (forall id, P (YAlias id)) ->
  (forall l, Forall P l -> P (YSeq l)) ->
  (forall l, Forall (fun x => P (fst x) /\ P (snd x)) l -> P (YMap l)) ->
  (forall t y, P y -> P (YTagged t y)) ->
  forall y, P y.
Proof.
  intros HB HS HA HQ HM HT. fix IH 1. intros [| s | l | l | t y | id].
  - exact HB.
  - apply HS.
  - apply HQ. induction l as [|x l IHl]; constructor; [apply IH|exact IHl].
  - apply HM. induction l as [|[k v] l IHl]; constructor; [split; apply IH|exact IHl].
  - apply HT. apply IH.
  - apply HA.
Qed.

(** ** The loops of [emit_node] *)
Definition items (s : settings) := fix items (first : bool) (l : list yaml) : EM :=
  match l with
  | [] => done
  | x :: r =>
      (if first then done else new_line s) ;;
      write (accepts s) [45%N] ;;
      before_val s true x ;; emit_node s x ;;
      items false r
  end.
Definition entry (s : settings) (k v : yaml) : EM :=
  if complex_key k then
    write (accepts s) [63%N] ;;
    before_val s true k ;; emit_node s k ;;
    new_line s ;;
    write (accepts s) [58%N] ;;
    before_val s true v ;; emit_node s v
  else
    emit_node s k ;;
    write (accepts s) [58%N] ;;
    before_val s false v ;; emit_node s v.
Definition entries (s : settings) := fix entries (first : bool) (l : list (yaml * yaml)) : EM :=
  match l with
  | [] => done
  | (k, v) :: r =>
      (if first then done else new_line s) ;;
      entry s k v ;;
      entries false r
  end.
Lemma items_cons s first x r : items s first (x :: r) =
  ((if first then done else new_line s) ;; write (accepts s) [45%N] ;;
   before_val s true x ;; emit_node s x ;; items s false r).
Proof. reflexivity. Qed.
Lemma entries_cons s first k v r : entries s first ((k, v) :: r) =
  ((if first then done else new_line s) ;; entry s k v ;; entries s false r).
Proof. reflexivity. Qed.
Lemma emit_seq s x l :
  emit_node s (YSeq (x :: l)) = (add_level 1 ;; items s true (x :: l) ;; add_level (-1)).
Proof. reflexivity. Qed.
Lemma emit_map s x l :
  emit_node s (YMap (x :: l)) = (add_level 1 ;; entries s true (x :: l) ;; add_level (-1)).
Proof. reflexivity. Qed.

(** ** The level *)
(** Whatever the writer does, the level does not sink below where it was, and a method that succeeds
    leaves it where it was. *)
Definition keeps (a : EM) : Prop := forall e,
  (e_level e <= e_level (fst (a e)))%Z /\ (snd (a e) = EmitOk -> e_level (fst (a e)) = e_level e).
Lemma keeps_seq a b : keeps a -> keeps b -> keeps (a ;; b).
Proof.
  intros A B e. unfold seqm. destruct (A e) as [A1 A2]. destruct (a e) as [e1 [| | |]]; cbn [fst snd] in *;
    try (split; [exact A1|discriminate]).
  specialize (A2 eq_refl). destruct (B e1) as [B1 B2]. rewrite <- A2. split; auto.
Qed.
Lemma keeps_done : keeps done. Proof. intros e. cbn. split; [lia|auto]. Qed.
Lemma keeps_write w t : keeps (write w t).
Proof. intros e. unfold write. destruct (w (e_out e) t); cbn; split; auto; lia. Qed.
Lemma keeps_fuel : keeps (fun e => (e, EmitFuel)). Proof. intros e. cbn. split; [lia|auto]. Qed.
Lemma keeps_panic : keeps (fun e => (e, EmitPanic)). Proof. intros e. cbn. split; [lia|auto]. Qed.
Lemma keeps_up a : keeps a -> keeps (add_level 1 ;; a ;; add_level (-1)).
Proof.
  intros A e. unfold seqm, add_level. cbv iota.
  destruct (A (Emitter.Emitter (e_level e + 1) (e_out e))) as [A1 A2].
  destruct (a (Emitter.Emitter (e_level e + 1) (e_out e))) as [e2 [| | |]]; cbn [fst snd e_level] in *;
    try (split; [lia|discriminate]).
  specialize (A2 eq_refl). lia.
Qed.
Lemma keeps_times n a : keeps a -> keeps (times n a).
Proof. intros A. induction n; [apply keeps_done|]. cbn [times]. now apply keeps_seq. Qed.
Lemma keeps_indent s : keeps (write_indent s).
Proof.
  intros e. unfold write_indent. apply keeps_times. apply keeps_times. apply keeps_write.
Qed.
Lemma keeps_new_line s : keeps (new_line s).
Proof. apply keeps_seq; [apply keeps_write|apply keeps_indent]. Qed.
Lemma keeps_escape_loop w : forall n v, keeps (escape_loop w n v).
Proof.
  induction n as [|n IH]; intros v; [apply keeps_fuel|]. cbn [escape_loop].
  destruct v as [|b v]; [apply keeps_done|].
  destruct (until_escaped (b :: v)) as [a [|x r]]; [apply keeps_write|].
  apply keeps_seq; [destruct a; [apply keeps_done|apply keeps_write]|].
  destruct (escape_of x); [|apply keeps_panic]. apply keeps_seq; [apply keeps_write|apply IH].
Qed.
Lemma keeps_escape w v : keeps (escape_str w v).
Proof. repeat apply keeps_seq; auto using keeps_write, keeps_escape_loop. Qed.
Lemma keeps_literal s v : keeps (emit_literal_block s v).
Proof.
  unfold emit_literal_block. apply keeps_seq; [apply keeps_write|]. apply keeps_up.
  induction (lines_from [] v) as [|x r IH]; [apply keeps_done|].
  repeat apply keeps_seq; auto using keeps_write, keeps_new_line, keeps_indent.
Qed.
Lemma keeps_scalar s v : keeps (emit_scalar s v).
Proof.
  destruct v; cbn [emit_scalar]; auto using keeps_write.
  repeat match goal with |- context [if ?c then _ else _] => destruct c end;
    auto using keeps_write, keeps_literal, keeps_escape.
Qed.
Lemma keeps_before s i y : keeps (before_val s i y).
Proof.
  unfold before_val. destruct y as [| |[|? ?]|[|? ?]| |]; auto using keeps_write;
  (destruct (i && compact s); [apply keeps_write|]);
  (apply keeps_seq; [apply keeps_write|]); apply keeps_up; apply keeps_indent.
Qed.
Lemma keeps_node s y : keeps (emit_node s y).
Proof.
  induction y as [| v | id | l IH | l IH | t y IH] using yaml_induction;
    try solve [cbn [emit_node]; auto using keeps_write, keeps_done, keeps_scalar].
  - destruct l as [|x0 l0]; [apply keeps_write|]. rewrite emit_seq. apply keeps_up.
    generalize true as first.
    induction IH as [|x l Hx Hl IHl]; intros first; [apply keeps_done|]. rewrite items_cons.
    apply keeps_seq; [destruct first; auto using keeps_done, keeps_new_line|].
    apply keeps_seq; [apply keeps_write|].
    apply keeps_seq; [apply keeps_before|]. apply keeps_seq; auto.
  - destruct l as [|x0 l0]; [apply keeps_write|]. rewrite emit_map. apply keeps_up.
    generalize true as first.
    induction IH as [|[k v] l [Hk Hv] Hl IHl]; intros first; [apply keeps_done|]. rewrite entries_cons.
    cbn [fst snd] in *.
    apply keeps_seq; [destruct first; auto using keeps_done, keeps_new_line|].
    apply keeps_seq; [|apply IHl]. unfold entry.
    destruct (complex_key k).
    + apply keeps_seq; [apply keeps_write|]. apply keeps_seq; [apply keeps_before|].
      apply keeps_seq; [exact Hk|]. apply keeps_seq; [apply keeps_new_line|].
      apply keeps_seq; [apply keeps_write|]. apply keeps_seq; [apply keeps_before|exact Hv].
    + apply keeps_seq; [exact Hk|].
      apply keeps_seq; [apply keeps_write|]. apply keeps_seq; [apply keeps_before|exact Hv].
  - cbn [emit_node]. apply keeps_seq; [apply keeps_write|]. apply keeps_seq; [|exact IH].
    destruct (is_non_empty_collection y); [|apply keeps_done]. apply keeps_up. apply keeps_new_line.
Qed.

(** ** The text written into a string *)
(** [a], begun at level [l], writes [t]. *)
Definition emits (l : Z) (a : EM) (t : text) : Prop :=
  forall o, a (Emitter.Emitter l o) = (Emitter.Emitter l (o ++ t), EmitOk).
Lemma emits_seq l a b t u : emits l a t -> emits l b u -> emits l (a ;; b) (t ++ u).
Proof. intros A B o. unfold seqm. rewrite A, B. now rewrite app_assoc. Qed.
Lemma emits_done l : emits l done []. Proof. intros o. unfold done. now rewrite app_nil_r. Qed.
Lemma emits_write l t : emits l (write any_writer t) t. Proof. intros o. reflexivity. Qed.
Lemma emits_up l a t : emits (l + 1) a t -> emits l (add_level 1 ;; a ;; add_level (-1)) t.
Proof.
  intros A o. unfold seqm, add_level. cbn [e_level e_out]. rewrite A. cbn [e_level e_out].
  repeat f_equal. lia.
Qed.
Lemma emits_times l n a t : emits l a t -> emits l (times n a) (List.concat (repeat t n)).
Proof.
  intros A. induction n; [apply emits_done|]. cbn [times repeat List.concat]. now apply emits_seq.
Qed.
Lemma concat_repeat (b : N) n : List.concat (repeat [b] n) = repeat b n.
Proof. induction n; cbn; congruence. Qed.
Lemma concat_repeat2 (b : N) n k : List.concat (repeat (repeat b n) k) = repeat b (n * k).
Proof.
  rewrite Nat.mul_comm. induction k; [reflexivity|]. cbn [repeat List.concat Nat.mul].
  rewrite IHk. now rewrite repeat_app.
Qed.
(** A line break and the indentation of a level. *)
Definition nl (s : settings) (l : Z) : text := 10%N :: repeat 32%N (best_indent s * Z.to_nat l).
Lemma emits_indent s l : accepts s = any_writer ->
  emits l (write_indent s) (repeat 32%N (best_indent s * Z.to_nat l)).
Proof.
  intros W o. unfold write_indent. cbn [e_level]. rewrite W.
  rewrite <- concat_repeat2. apply emits_times.
  rewrite <- concat_repeat. apply emits_times. apply emits_write.
Qed.
Lemma emits_new_line s l : accepts s = any_writer -> emits l (new_line s) (nl s l).
Proof.
  intros W. unfold new_line. rewrite W. apply (emits_seq l _ _ [10%N]); [apply emits_write|].
  now apply emits_indent.
Qed.

Lemma until_spec v : exists a r, until_escaped v = (a, r) /\ v = a ++ r /\
  Forall (fun b => is_escaped b = false) a /\
  match r with b :: _ => is_escaped b = true | [] => True end.
Proof.
  induction v as [|b v IH]; [exists [], []; auto|]. cbn [until_escaped].
  destruct (is_escaped b) eqn:E.
  - exists [], (b :: v). auto.
  - destruct IH as (a & r & -> & -> & F & G). exists (b :: a), r. auto.
Qed.
Lemma double_plain a : Forall (fun b => is_escaped b = false) a -> flat_map double_enc a = a.
Proof.
  induction 1 as [|b a H F IH]; [reflexivity|]. cbn [flat_map]. unfold double_enc at 1.
  rewrite H, IH. reflexivity.
Qed.
Lemma emits_escape_loop l : forall n v, List.length v < n ->
  emits l (escape_loop any_writer n v) (flat_map double_enc v).
Proof.
  induction n as [|n IH]; intros v L; [lia|]. cbn [escape_loop].
  destruct v as [|b v]; [apply emits_done|].
  destruct (until_spec (b :: v)) as (a & r & U & E & F & G). rewrite U.
  destruct r as [|x r].
  - rewrite app_nil_r in E. rewrite <- E in F. rewrite double_plain by exact F. apply emits_write.
  - rewrite E, flat_map_app. rewrite (double_plain a) by exact F.
    apply emits_seq; [destruct a; [apply emits_done|apply emits_write]|].
    destruct (escaped_has x G) as [t ET]. rewrite ET. cbn [flat_map]. unfold double_enc at 1.
    rewrite G, ET. apply emits_seq; [apply emits_write|]. apply IH.
    rewrite E, app_length in L. cbn [List.length] in L. lia.
Qed.
(** Text in double quotes with the escapes of the emitter. *)
Definition quoted (v : text) : text := 34%N :: flat_map double_enc v ++ [34%N].
Lemma emits_escape l v : emits l (escape_str any_writer v) (quoted v).
Proof.
  unfold escape_str, quoted.
  apply (emits_seq l _ _ [34%N]); [apply emits_write|].
  apply emits_seq; [|apply emits_write]. apply emits_escape_loop. lia.
Qed.

(** The text of a scalar at a level. *)
Definition stext (s : settings) (l : Z) (v : scalar) : text :=
  match v with
  | SString t =>
      if should_emit_string_as_block s t then
        (if ends_with 10 t then str "|" else str "|-")
        ++ flat_map (fun x => nl s (l + 1) ++ x) (lines_from [] t)
      else if need_quotes t then quoted t else t
  | SBool b => if b then str "true" else str "false"
  | SInt z => display_Z z
  | SFloat f => display_f64 f
  | SNull => str "~"
  end.
Lemma emits_scalar s l v : accepts s = any_writer -> emits l (emit_scalar s v) (stext s l v).
Proof.
  intros W. destruct v; cbn [emit_scalar stext]; rewrite ?W; try apply emits_write.
  destruct (should_emit_string_as_block s t).
  - unfold emit_literal_block. rewrite W. apply emits_seq; [apply emits_write|]. apply emits_up.
    induction (lines_from [] t) as [|x r IH]; [apply emits_done|]. cbn [flat_map].
    rewrite <- app_assoc. apply emits_seq; [now apply emits_new_line|].
    apply emits_seq; [apply emits_write|exact IH].
  - destruct (need_quotes t); [apply emits_escape|apply emits_write].
Qed.
(** What stands between an indicator and a value. *)
Definition gap (s : settings) (l : Z) (inline : bool) (y : yaml) : text :=
  if nonempty_collection y && negb (inline && compact s) then nl s (l + 1) else [32%N].
Lemma emits_before s l i y : accepts s = any_writer -> emits l (before_val s i y) (gap s l i y).
Proof.
  intros W. unfold before_val, gap. rewrite W.
  assert (U : emits l (write any_writer [10%N] ;; add_level 1 ;; write_indent s ;; add_level (-1)) (nl s (l + 1))).
  { apply (emits_seq l _ _ [10%N]); [apply emits_write|]. apply emits_up. now apply emits_indent. }
  destruct y as [| |[|? ?]|[|? ?]| |]; cbn [nonempty_collection andb]; try apply emits_write;
    destruct (i && compact s); cbn [negb]; auto using emits_write.
Qed.
(** The text of a value at a level (that of the enclosing node). *)
Fixpoint ntext (s : settings) (l : Z) (y : yaml) : text :=
  match y with
  | YBad => str "~"
  | YScalar v => stext s l v
  | YAlias _ => []
  | YSeq [] => str "[]"
  | YSeq (x :: r) =>
      let one := fun x => 45%N :: gap s (l + 1) true x ++ ntext s (l + 1) x in
      one x ++ flat_map (fun x => nl s (l + 1) ++ one x) r
  | YMap [] => str "{}"
  | YMap (x :: r) =>
      let one := fun x =>
        if complex_key (fst x) then
          63%N :: gap s (l + 1) true (fst x) ++ ntext s (l + 1) (fst x) ++ nl s (l + 1)
          ++ 58%N :: gap s (l + 1) true (snd x) ++ ntext s (l + 1) (snd x)
        else
          ntext s (l + 1) (fst x) ++ 58%N :: gap s (l + 1) false (snd x) ++ ntext s (l + 1) (snd x) in
      one x ++ flat_map (fun x => nl s (l + 1) ++ one x) r
  | YTagged t y =>
      display_tag t ++ 32%N :: (if nonempty_collection y then nl s (l + 1) else []) ++ ntext s l y
  end.
(** The text of an item of a sequence at level [l] and of an entry of a mapping. *)
Definition itext (s : settings) (l : Z) (x : yaml) : text := 45%N :: gap s l true x ++ ntext s l x.
Definition etext (s : settings) (l : Z) (x : yaml * yaml) : text :=
  if complex_key (fst x) then
    63%N :: gap s l true (fst x) ++ ntext s l (fst x) ++ nl s l
    ++ 58%N :: gap s l true (snd x) ++ ntext s l (snd x)
  else
    ntext s l (fst x) ++ 58%N :: gap s l false (snd x) ++ ntext s l (snd x).
Lemma ntext_seq s l x r :
  ntext s l (YSeq (x :: r)) = itext s (l + 1) x ++ flat_map (fun x => nl s (l + 1) ++ itext s (l + 1) x) r.
Proof. reflexivity. Qed.
Lemma ntext_map s l x r :
  ntext s l (YMap (x :: r)) = etext s (l + 1) x ++ flat_map (fun x => nl s (l + 1) ++ etext s (l + 1) x) r.
Proof. reflexivity. Qed.


Lemma emits_item s l (first : bool) x : accepts s = any_writer ->
  (forall lv, emits lv (emit_node s x) (ntext s lv x)) ->
  emits l ((if first then done else new_line s) ;; write (accepts s) [45%N] ;;
     before_val s true x ;; emit_node s x) ((if first then [] else nl s l) ++ itext s l x).
Proof.
  intros W H. rewrite W. apply emits_seq; [destruct first; [apply emits_done|now apply emits_new_line]|].
  unfold itext. apply (emits_seq l _ _ [45%N]); [apply emits_write|].
  apply emits_seq; [now apply emits_before|apply H].
Qed.
Lemma emits_entry s l k v : accepts s = any_writer ->
  (forall lv, emits lv (emit_node s k) (ntext s lv k)) ->
  (forall lv, emits lv (emit_node s v) (ntext s lv v)) ->
  emits l (entry s k v) (etext s l (k, v)).
Proof.
  intros W K V. unfold entry, etext. cbn [fst snd]. rewrite W. destruct (complex_key k).
  - apply (emits_seq l _ _ [63%N]); [apply emits_write|].
    apply emits_seq; [now apply emits_before|]. apply emits_seq; [apply K|].
    apply emits_seq; [now apply emits_new_line|].
    apply (emits_seq l _ _ [58%N]); [apply emits_write|].
    apply emits_seq; [now apply emits_before|apply V].
  - apply emits_seq; [apply K|]. apply (emits_seq l _ _ [58%N]); [apply emits_write|].
    apply emits_seq; [now apply emits_before|apply V].
Qed.
Lemma seqm_assoc a b c e : ((a ;; b) ;; c) e = (a ;; (b ;; c)) e.
Proof. unfold seqm. now destruct (a e) as [e1 [| | |]]. Qed.
Lemma seqm_assoc4 a b c d f e : ((a ;; b ;; c ;; d) ;; f) e = (a ;; b ;; c ;; d ;; f) e.
Proof.
  unfold seqm. destruct (a e) as [e1 [| | |]]; try reflexivity.
  destruct (b e1) as [e2 [| | |]]; try reflexivity.
  now destruct (c e2) as [e3 [| | |]].
Qed.
Lemma emits_ext l a b t : (forall e, a e = b e) -> emits l a t -> emits l b t.
Proof. intros E A o. rewrite <- E. apply A. Qed.
Lemma emits_node s : accepts s = any_writer -> forall y l, emits l (emit_node s y) (ntext s l y).
Proof.
  intros W. assert (WR : forall l t, emits l (write (accepts s) t) t) by (rewrite W; apply emits_write).
  induction y as [| v | id | l IH | l IH | t y IH] using yaml_induction; intros lv.
  - apply WR.
  - now apply emits_scalar.
  - apply emits_done.
  - destruct l as [|x0 l0]; [apply WR|]. rewrite emit_seq, ntext_seq. apply emits_up.
    assert (G : forall (first : bool) x l, Forall (fun y => forall lv, emits lv (emit_node s y) (ntext s lv y)) (x :: l) ->
      emits (lv + 1) (items s first (x :: l))
        (((if first then [] else nl s (lv + 1)) ++ itext s (lv + 1) x)
                     ++ flat_map (fun x => nl s (lv + 1) ++ itext s (lv + 1) x) l)).
    { intros first x l. revert first x. induction l as [|y l IHl]; intros first x F; inversion_clear F as [|? ? Fx Fl].
      - rewrite items_cons. change (items s false []) with done. 
        eapply emits_ext; [|apply emits_seq; [apply (emits_item s _ first x W Fx)|apply emits_done]].
        intros e. apply seqm_assoc4.
      - rewrite items_cons. 
        eapply emits_ext; [|apply emits_seq; [apply (emits_item s _ first x W Fx)|apply (IHl false y Fl)]].
        intros e. apply seqm_assoc4. }
    exact (G true x0 l0 IH).
  - destruct l as [|x0 l0]; [apply WR|]. rewrite emit_map, ntext_map. apply emits_up.
    assert (G : forall (first : bool) x l, Forall (fun kv => (forall lv, emits lv (emit_node s (fst kv)) (ntext s lv (fst kv)))
         /\ (forall lv, emits lv (emit_node s (snd kv)) (ntext s lv (snd kv)))) (x :: l) ->
      emits (lv + 1) (entries s first (x :: l))
        ((if first then [] else nl s (lv + 1)) ++ etext s (lv + 1) x
                     ++ flat_map (fun x => nl s (lv + 1) ++ etext s (lv + 1) x) l)).
    { intros first x l. revert first x. induction l as [|y l IHl]; intros first [k v] F; inversion_clear F as [|? ? [Fk Fv] Fl];
        cbn [fst snd] in Fk, Fv; rewrite entries_cons;
        (apply emits_seq; [destruct first; [apply emits_done|now apply emits_new_line]|]);
        (apply emits_seq; [now apply emits_entry|]).
      - apply emits_done.
      - cbn [flat_map]. rewrite <- app_assoc. apply (IHl false y Fl). }
    exact (G true x0 l0 IH).
  - cbn [emit_node ntext].
    change (32%N :: (if nonempty_collection y then nl s (lv + 1) else []) ++ ntext s lv y)
      with ([32%N] ++ (if nonempty_collection y then nl s (lv + 1) else []) ++ ntext s lv y).
    rewrite (app_assoc (display_tag t)).
    apply emits_seq; [apply WR|]. apply emits_seq; [|apply IH].
    replace (is_non_empty_collection y) with (nonempty_collection y)
      by (destruct y as [| |[|? ?]|[|? ?]| |]; reflexivity).
    destruct (nonempty_collection y); [|apply emits_done].
    apply emits_up. now apply emits_new_line.
Qed.
