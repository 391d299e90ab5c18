(** The invariant of the scanner between two steps, and the methods that keep it. *)
From Verif Require Import Base Tokens Scalar Chars Source SourceProofs Cursor Scanner SpecScan
  CursorProofs CursorRuns CursorScalars.
From Coq Require Import Lia ZifyBool ZifyNat ZifyN String.

(** ** Lists of tokens and their depth *)
Lemma depth_app a b : block_depth (a ++ b) = (block_depth a + block_depth b)%Z.
Proof. induction a as [|t a IH]; [reflexivity|]. cbn [block_depth fold_right app] in *. unfold block_depth in *. rewrite IH. lia. Qed.
Lemma depth_one t : block_depth [t] = block_change t.
Proof. unfold block_depth. cbn [fold_right]. lia. Qed.
Definition nonneg (l : list token) : Prop := forall p s, l = p ++ s -> (0 <= block_depth p)%Z.
Lemma nonneg_all l : nonneg l -> (0 <= block_depth l)%Z.
Proof. intros H. apply (H l []). rewrite app_nil_r. reflexivity. Qed.
Lemma nonneg_app_l a b : nonneg (a ++ b) -> nonneg a.
Proof. intros H p s ->. apply (H p (s ++ b)). rewrite app_assoc. reflexivity. Qed.
Lemma app_split {A} (a b p s : list A) : a ++ b = p ++ s ->
  (exists m, a = p ++ m /\ s = m ++ b) \/ (exists m, p = a ++ m /\ b = m ++ s).
Proof.
  revert p; induction a as [|x a IH]; intros p E.
  - right. exists p. auto.
  - destruct p as [|y p].
    + left. exists (x :: a). cbn in E. auto.
    + injection E as -> E. destruct (IH p E) as [(m & -> & ->)|(m & -> & ->)].
      * left. exists m. auto.
      * right. exists m. auto.
Qed.
Lemma nonneg_snoc l t : nonneg l -> (0 <= block_depth (l ++ [t]))%Z -> nonneg (l ++ [t]).
Proof.
  intros H Ht p s E. destruct (app_split _ _ _ _ E) as [(m & -> & _)|(m & -> & E2)].
  - apply (H p m). reflexivity.
  - destruct m as [|y m]; [rewrite app_nil_r; apply nonneg_all; auto|].
    injection E2 as <- E2. symmetry in E2. apply app_eq_nil in E2 as [-> ->]. exact Ht.
Qed.
Lemma nonneg_insert a b t : nonneg (a ++ b) -> (0 <= block_change t)%Z -> nonneg (a ++ t :: b).
Proof.
  intros H Ht p s E. destruct (app_split _ _ _ _ E) as [(m & -> & _)|(m & -> & E2)].
  - apply (H p (m ++ b)). rewrite app_assoc. reflexivity.
  - destruct m as [|y m].
    + rewrite app_nil_r. apply nonneg_all. apply nonneg_app_l in H. exact H.
    + injection E2 as <- ->. assert (X := H (a ++ m) s ltac:(rewrite <- app_assoc; reflexivity)).
      change (t :: m) with ([t] ++ m). rewrite !depth_app, depth_one in *. lia.
Qed.
(** The number of stack entries that ask for a block end. *)
Fixpoint opens (l : list (N * bool)) : Z :=
  match l with [] => 0 | (_, b) :: r => (if b then 1 else 0) + opens r end%Z.
Lemma opens_nonneg l : (0 <= opens l)%Z.
Proof. induction l as [|[j []] l IH]; cbn [opens]; lia. Qed.
(** The greatest column in the text. *)
Definition colmax (i : text) : N :=
  fold_right N.max 1%N (map (fun n => m_col (at_pos i n)) (seq 0 (S (List.length i)))).
Lemma fold_max_le l x : In x l -> (x <= fold_right N.max 1%N l)%N.
Proof. induction l as [|y l IH]; intros []; cbn [fold_right]; subst; [lia|specialize (IH H); lia]. Qed.
Lemma colmax_le i n : n <= List.length i -> (m_col (at_pos i n) <= colmax i)%N.
Proof. intros H. apply fold_max_le. apply in_map_iff. exists n. split; [reflexivity|]. apply in_seq. lia. Qed.
Lemma col_pos i n : (1 <= m_col (at_pos i n))%N.
Proof. unfold at_pos, mark_of. cbn [m_col]. lia. Qed.

(** Indents strictly increasing towards the top, the lowest one 0. *)
Fixpoint chain (K indent : N) (l : list (N * bool)) : Prop :=
  match l with
  | [] => indent = 0%N
  | (j, b) :: r => (j < indent)%N /\ (indent <= if b then K else K + 1)%N /\ chain K j r
  end.
Definition key_ok (i : text) (hi lo top : nat) (k : skey) : Prop :=
  sk_possible k = true -> lo <= sk_number k <= top /\ between i 0 hi (sk_mark k).

(** [live i D z]: the scanner after delivering [D], before the end of the stream is fetched. *)
Record live (i : text) (D : list token) (z : scanner) : Prop := Live {
  l_cur : cok i (z_cur z);
  l_parsed : List.length D = z_parsed z;
  l_depth_keys : List.length (z_keys z) = S (N.to_nat (z_flow z));
  l_keys : Forall (key_ok i (cpos (z_cur z)) (z_parsed z) (z_parsed z + List.length (z_tokens z))) (z_keys z);
  l_chain : chain (colmax i) (z_indent z) (z_indents z);
  l_nonneg : nonneg (D ++ z_tokens z);
  l_depth : block_depth (D ++ z_tokens z) = opens (z_indents z);
  l_toks : Forall (tok_in i 0 (cpos (z_cur z))) (D ++ z_tokens z);
  l_no_end : Forall (fun t => k_type t <> TStreamEnd) (D ++ z_tokens z);
  l_flags : z_started z = true /\ z_end_reached z = false /\ z_end_produced z = false /\ z_error z = None }.

Lemma tok_in_le i a b b' t : tok_in i a b t -> b <= b' -> tok_in i a b' t.
Proof. intros (s & e & H1 & H2 & H3) H. exists s, e. split; [lia|split; [lia|auto]]. Qed.
Lemma tok_in_ge i a a' b t : tok_in i a b t -> a' <= a -> tok_in i a' b t.
Proof. intros (s & e & H1 & H2 & H3) H. exists s, e. split; [lia|split; [lia|auto]]. Qed.
Lemma key_ok_le i hi hi' lo top top' k : key_ok i hi lo top k -> hi <= hi' -> top <= top' -> key_ok i hi' lo top' k.
Proof.
  intros H Hh Ht P. destruct (H P) as (H1 & H2). split; [lia|]. eapply between_le; eauto.
Qed.

Definition size (z : scanner) : nat := List.length (z_tokens z) + List.length (z_indents z).
(** A change of fields other than the cursor. *)
Record fr (n : nat) (z z' : scanner) : Prop := Fr {
  fr_cur : z_cur z' = z_cur z;
  fr_parsed : z_parsed z' = z_parsed z;
  fr_toks : List.length (z_tokens z) <= List.length (z_tokens z');
  fr_size : size z' <= size z + n }.
Lemma fr_refl n z : fr n z z.
Proof. constructor; auto; lia. Qed.

Definition stopped (i : text) (z : scanner) (e : yerr) : Prop := err_in i (cpos (z_cur z)) e.
(** As [runs], for a method of the whole scanner. *)
Definition zruns {A} (i : text) (D : list token) (m : SM A) (z : scanner)
    (P : scanner -> A -> Prop) (F X U : Prop) : Prop :=
  let (z', o) := m z in
  cok i (z_cur z') /\
  match o with
  | Ok a => live i D z' /\ cpos (z_cur z) <= cpos (z_cur z') /\ P z' a
  | Err e => stopped i z' e
  | Panic => X
  | Ub => U
  | Fuel => F
  end.

Lemma zr_ret {A} i D (a : A) z (P : scanner -> A -> Prop) F X U : live i D z -> P z a -> zruns i D (ret a) z P F X U.
Proof. intros H HP. unfold zruns, ret. split; [apply H|]. auto. Qed.
Lemma zr_err {A} i D m msg z (P : scanner -> A -> Prop) F X U : live i D z -> mark_in i (cpos (z_cur z)) m ->
  zruns (A := A) i D (zerr m msg) z P F X U.
Proof. intros H HP. unfold zruns, zerr, fail. split; [apply H|]. exact HP. Qed.
Lemma zr_bind {A B} i D (m : SM A) (k : A -> SM B) z P F1 X1 U1 Q (F X U : Prop) :
  zruns i D m z P F1 X1 U1 -> (F1 -> F) -> (X1 -> X) -> (U1 -> U) ->
  (forall z' a, live i D z' -> cpos (z_cur z) <= cpos (z_cur z') -> P z' a -> zruns i D (k a) z' Q F X U) ->
  zruns i D (bind m k) z Q F X U.
Proof.
  unfold zruns, bind. intros H HF HX HU Hk. destruct (m z) as [z' o].
  destruct o; destruct H as (C & H); auto.
  destruct H as (H1 & H2 & H3).
  specialize (Hk _ _ H1 H2 H3). destruct (k a z') as [z'' o'']. destruct Hk as (C' & Hk).
  split; [auto|]. destruct o''; auto. destruct Hk as (K1 & K2 & K3). split; [auto|split; [lia|auto]].
Qed.
Lemma zr_weaken {A} i D (m : SM A) z (P P' : scanner -> A -> Prop) (F F' X X' U U' : Prop) :
  zruns i D m z P F X U ->
  (forall z' a, live i D z' -> cpos (z_cur z) <= cpos (z_cur z') -> P z' a -> P' z' a) ->
  (F -> F') -> (X -> X') -> (U -> U') -> zruns i D m z P' F' X' U'.
Proof.
  unfold zruns. intros H HP HF HX HU. destruct (m z) as [z' []]; destruct H as (C & H); auto.
  destruct H as (H1 & H2 & H3). auto.
Qed.
Lemma zr_gets {A B} i D (f : scanner -> A) (k : A -> SM B) z Q F X U :
  zruns i D (k (f z)) z Q F X U -> zruns i D (bind (gets f) k) z Q F X U.
Proof. exact (fun H => H). Qed.
Lemma set_cur_self z : set_cur (z_cur z) z = z.
Proof. destruct z. reflexivity. Qed.
Lemma zr_mark {B} i D (k : marker -> SM B) z Q F X U :
  zruns i D (k (c_mark (z_cur z))) z Q F X U -> zruns i D (bind zmark k) z Q F X U.
Proof.
  unfold zmark, lift, bind, get_mark, gets. cbv beta. unfold zruns.
  rewrite set_cur_self. exact (fun H => H).
Qed.
Lemma zr_peek {B} i D n (k : N -> SM B) z Q F X U :
  zruns i D (k (peekz str_ops (c_src (z_cur z)) n)) z Q F X U -> zruns i D (bind (zpeek n) k) z Q F X U.
Proof.
  unfold zpeek, lift, bind, peek, gets. cbv beta. unfold zruns.
  rewrite set_cur_self. exact (fun H => H).
Qed.
Lemma zr_assoc {A B C} i D (m : SM A) (f : A -> SM B) (g : B -> SM C) z Q F X U :
  zruns i D (bind m (fun x => bind (f x) g)) z Q F X U -> zruns i D (bind (bind m f) g) z Q F X U.
Proof. unfold zruns, bind. destruct (m z) as [z' []]; auto. Qed.
Lemma zr_ret_bind {A B} i D (a : A) (k : A -> SM B) z Q F X U :
  zruns i D (k a) z Q F X U -> zruns i D (bind (ret a) k) z Q F X U.
Proof. exact (fun H => H). Qed.
Lemma zr_err_bind {A B} i D m msg (k : A -> SM B) z (Q : scanner -> B -> Prop) F X U :
  live i D z -> mark_in i (cpos (z_cur z)) m -> zruns i D (bind (zerr m msg) k) z Q F X U.
Proof. intros H HP. unfold zruns, bind, zerr, fail. split; [apply H|exact HP]. Qed.

(** Moving the cursor forward. *)
Lemma live_move i D z c : live i D z -> cok i c -> cpos (z_cur z) <= cpos c -> live i D (set_cur c z).
Proof.
  intros H C L. destruct H. constructor; auto.
  - eapply Forall_impl; [|exact l_keys0]. intros k Hk. eapply key_ok_le; eauto.
  - eapply Forall_impl; [|exact l_toks0]. intros t Ht. eapply tok_in_le; eauto.
Qed.
Lemma zr_lift {A B} i D (m : CM A) (k : A -> SM B) z P F1 X1 Q (F X U : Prop) : live i D z ->
  runs i m (z_cur z) P F1 X1 -> (F1 -> F) -> (X1 -> X) ->
  (forall c a, cok i c -> cpos (z_cur z) <= cpos c -> P c a -> live i D (set_cur c z) ->
     zruns i D (k a) (set_cur c z) Q F X U) ->
  zruns i D (bind (lift m) k) z Q F X U.
Proof.
  intros H R HF HX Hk. unfold zruns, bind, lift, runs in *. destruct (m (z_cur z)) as [c o].
  destruct R as (R1 & R2 & R3). destruct o; cbn [z_cur set_cur]; auto; [|tauto].
  assert (L := live_move i D z c H R1 R2). specialize (Hk c a R1 R2 R3 L).
  destruct (k a (set_cur c z)) as [z' o']. destruct Hk as (K0 & Hk). split; [auto|].
  destruct o'; auto. destruct Hk as (K1 & K2 & K3). cbn [set_cur z_cur] in K2. split; [auto|split; [lia|auto]].
Qed.
(** The cursor methods used directly. *)
Lemma runs_tail {A} i (m : CM A) c P F X : runs i (bind m (fun a => ret a)) c P F X -> runs i m c P F X.
Proof. unfold runs, bind, ret. destruct (m c) as [c' []]; auto. Qed.
Lemma zr_skip1 {B} i D (k : unit -> SM B) z Q F X U : live i D z ->
  peekz str_ops (c_src (z_cur z)) 0 <> 0%N -> peekz str_ops (c_src (z_cur z)) 0 <> 10%N ->
  (forall c, cok i c -> cpos c = cpos (z_cur z) + 1 -> c_ska c = c_ska (z_cur z) -> live i D (set_cur c z) ->
     zruns i D (k tt) (set_cur c z) Q F X U) ->
  zruns i D (bind (lift skip_non_blank) k) z Q F X U.
Proof.
  intros H Z0 Z1 Hk.
  eapply (zr_lift _ _ _ _ _ (fun c (_ : unit) => cpos c = cpos (z_cur z) + 1 /\ c_ska c = c_ska (z_cur z)) False False);
    [auto| |tauto|tauto|].
  - apply runs_tail. apply runs_skip1; [apply H|auto|auto|]. intros c C E _ S. apply runs_ret; auto.
  - intros c [] C L [E S] LV. apply Hk; auto.
Qed.
Lemma zr_set_ska {B} i D b (k : unit -> SM B) z Q F X U : live i D z ->
  (forall c, cok i c -> cpos c = cpos (z_cur z) -> c_src c = c_src (z_cur z) -> c_mark c = c_mark (z_cur z) ->
     live i D (set_cur c z) -> zruns i D (k tt) (set_cur c z) Q F X U) ->
  zruns i D (bind (lift (set_ska b)) k) z Q F X U.
Proof.
  intros H Hk.
  pose (c := Cur (c_src (z_cur z)) (c_mark (z_cur z)) (c_lead (z_cur z)) b).
  assert (C : cok i c) by apply H.
  specialize (Hk c C eq_refl eq_refl eq_refl (live_move i D z c H C (Nat.le_refl _))).
  exact Hk.
Qed.

(** Changes of the other fields. *)
Lemma zr_mod {B} i D (f : scanner -> scanner) (k : unit -> SM B) z Q F X U :
  z_cur (f z) = z_cur z ->
  zruns i D (k tt) (f z) Q F X U -> zruns i D (bind (modify f) k) z Q F X U.
Proof. unfold zruns, bind, modify. intros E H. rewrite E in H. exact H. Qed.
Lemma live_fields i D z z' : live i D z ->
  z_cur z' = z_cur z -> z_tokens z' = z_tokens z -> z_keys z' = z_keys z -> z_indents z' = z_indents z ->
  z_parsed z' = z_parsed z -> z_flow z' = z_flow z -> z_indent z' = z_indent z ->
  z_started z' = z_started z -> z_end_reached z' = z_end_reached z -> z_end_produced z' = z_end_produced z ->
  z_error z' = z_error z -> live i D z'.
Proof.
  intros [] E1 E2 E3 E4 E5 E6 E7 E8 E9 E10 E11. constructor; rewrite ?E1, ?E2, ?E3, ?E4, ?E5, ?E6, ?E7, ?E8, ?E9, ?E10, ?E11; auto.
Qed.
Ltac fields := eapply live_fields; [eassumption|reflexivity..].

Lemma live_push i D z t : live i D z -> tok_in i 0 (cpos (z_cur z)) t -> quiet t ->
  live i D (set_tokens (z_tokens z ++ [t]) z).
Proof.
  intros H T (Q0 & Q1 & _). destruct H. constructor; auto; cbn [set_tokens z_cur z_tokens z_keys z_indents z_parsed z_flow z_indent].
  - eapply Forall_impl; [|exact l_keys0]. intros k Hk. eapply key_ok_le; eauto. rewrite app_length. lia.
  - rewrite app_assoc. apply nonneg_snoc; auto. rewrite depth_app, depth_one, l_depth0, Q0.
    assert (X := opens_nonneg (z_indents z)). lia.
  - rewrite app_assoc, depth_app, depth_one, l_depth0, Q0. lia.
  - rewrite app_assoc. apply Forall_app. auto.
  - rewrite app_assoc. apply Forall_app. auto.
Qed.
Lemma push_fr z t : fr 1 z (set_tokens (z_tokens z ++ [t]) z).
Proof. constructor; auto; unfold size; cbn [set_tokens z_tokens z_indents]; rewrite app_length; cbn [List.length]; lia. Qed.
Lemma zr_push {B} i D s t (k : unit -> SM B) z Q F X U : live i D z ->
  tok_in i 0 (cpos (z_cur z)) (Token s t) -> quiet (Token s t) ->
  (forall z', live i D z' -> fr 1 z z' -> zruns i D (k tt) z' Q F X U) ->
  zruns i D (bind (push_token s t) k) z Q F X U.
Proof.
  intros H T Qt Hk. unfold push_token. apply zr_mod; [reflexivity|]. apply Hk; [apply live_push; auto|apply push_fr].
Qed.
Lemma zr_push_last i D s t z (Q : scanner -> unit -> Prop) F X U : live i D z ->
  tok_in i 0 (cpos (z_cur z)) (Token s t) -> quiet (Token s t) ->
  (forall z', live i D z' -> fr 1 z z' -> Q z' tt) ->
  zruns i D (push_token s t) z Q F X U.
Proof.
  intros H T Qt Hk. unfold zruns, push_token, modify. split; [apply H|].
  assert (L := live_push i D z _ H T Qt). split; [auto|]. split; [auto|]. apply Hk; auto. apply push_fr.
Qed.

(** ** Indentation *)
Lemma span_empty_in i c t : cok i c -> tok_in i 0 (cpos c) (Token (span_empty (c_mark c)) t).
Proof. intros (_ & L & M). exists (cpos c), (cpos c). split; [lia|]. split; [lia|]. cbn [k_span]. rewrite M. reflexivity. Qed.
Lemma live_block_end i D z j r : live i D z -> z_indents z = (j, true) :: r ->
  live i D (set_indent j (set_indents r (set_tokens (z_tokens z ++ [Token (span_empty (c_mark (z_cur z))) TBlockEnd]) z))).
Proof.
  intros H E. assert (T := span_empty_in i (z_cur z) TBlockEnd (l_cur _ _ _ H)).
  destruct H. rewrite E in *. cbn [chain opens] in *. constructor; auto;
    cbn [set_indent set_indents set_tokens z_cur z_tokens z_keys z_indents z_parsed z_flow z_indent].
  - eapply Forall_impl; [|exact l_keys0]. intros k Hk. eapply key_ok_le; eauto. rewrite app_length. lia.
  - apply l_chain0.
  - rewrite app_assoc. apply nonneg_snoc; auto. rewrite depth_app, depth_one, l_depth0. cbn [block_change k_type].
    assert (X := opens_nonneg r). lia.
  - rewrite app_assoc, depth_app, depth_one, l_depth0. cbn [block_change k_type]. lia.
  - rewrite app_assoc. apply Forall_app. auto.
  - rewrite app_assoc. apply Forall_app. split; auto. constructor; auto. discriminate.
Qed.
Lemma live_drop i D z j r : live i D z -> z_indents z = (j, false) :: r ->
  live i D (set_indent j (set_indents r z)).
Proof.
  intros H E. destruct H. rewrite E in *. cbn [chain opens] in *. constructor; auto;
    cbn [set_indent set_indents z_cur z_tokens z_keys z_indents z_parsed z_flow z_indent].
  apply l_chain0.
Qed.
Lemma set_back z : set_indent (z_indent z) (set_indents (z_indents z) (set_tokens (z_tokens z) z)) = z.
Proof. destruct z. reflexivity. Qed.
Lemma unroll_live i D col : forall l z, live i D z -> z_indents z = l ->
  exists ind r toks, unroll_loop col (c_mark (z_cur z)) (z_indent z) (z_indents z) (z_tokens z) = Some (ind, r, toks) /\
    let z' := set_indent ind (set_indents r (set_tokens toks z)) in
    live i D z' /\ fr 0 z z' /\ (ind <= col)%N /\ (exists k, z_indents z = k ++ r) /\ (z_indent z <= col -> z' = z)%N.
Proof.
  induction l as [|[j b] l IH]; intros z H E; rewrite E in *.
  - cbn [unroll_loop]. assert (C := l_chain _ _ _ H). rewrite E in C. cbn [chain] in C. rewrite C.
    destruct (N.ltb_spec col 0); [lia|]. exists (z_indent z), [], (z_tokens z).
    rewrite C at 1. split; [reflexivity|]. cbv zeta.
    assert (EZ : set_indent (z_indent z) (set_indents [] (set_tokens (z_tokens z) z)) = z) by (rewrite <- E; apply set_back).
    rewrite EZ. split; [auto|]. split; [apply fr_refl|]. split; [lia|]. split; [exists []; reflexivity|auto].
  - cbn [unroll_loop]. destruct (N.ltb_spec col (z_indent z)) as [LT|GE].
    + destruct b.
      * assert (H1 := live_block_end i D z j l H E).
        specialize (IH _ H1 eq_refl).
        cbn [set_indent set_indents set_tokens z_cur z_tokens z_keys z_indents z_parsed z_flow z_indent] in IH.
        destruct IH as (ind & r & toks & E1 & L1 & F1 & C1 & (k & K1) & S1).
        exists ind, r, toks. split; [exact E1|]. cbv zeta in *.
        match type of L1 with live _ _ ?Z => change Z with (set_indent ind (set_indents r (set_tokens toks z))) in * end.
        split; [exact L1|]. split.
        { destruct F1 as [A1 A2 A3 A4]. constructor; [reflexivity|reflexivity| |];
          unfold size in *; cbn [set_indent set_indents set_tokens z_tokens z_indents] in *;
          rewrite ?app_length, ?E in *; cbn [List.length] in *; lia. }
        split; [exact C1|]. split; [exists ((j, true) :: k); cbn [app]; f_equal; exact K1|lia].
      * assert (H1 := live_drop i D z j l H E).
        specialize (IH _ H1 eq_refl).
        cbn [set_indent set_indents set_tokens z_cur z_tokens z_keys z_indents z_parsed z_flow z_indent] in IH.
        destruct IH as (ind & r & toks & E1 & L1 & F1 & C1 & (k & K1) & S1).
        exists ind, r, toks. split; [exact E1|]. cbv zeta in *.
        match type of L1 with live _ _ ?Z => change Z with (set_indent ind (set_indents r (set_tokens toks z))) in * end.
        split; [exact L1|]. split.
        { destruct F1 as [A1 A2 A3 A4]. constructor; [reflexivity|reflexivity| |];
          unfold size in *; cbn [set_indent set_indents set_tokens z_tokens z_indents] in *;
          rewrite ?app_length, ?E in *; cbn [List.length] in *; lia. }
        split; [exact C1|]. split; [exists ((j, false) :: k); cbn [app]; f_equal; exact K1|lia].
    + exists (z_indent z), ((j, b) :: l), (z_tokens z). split; [reflexivity|]. cbv zeta.
      assert (EZ : set_indent (z_indent z) (set_indents ((j, b) :: l) (set_tokens (z_tokens z) z)) = z) by (rewrite <- E; apply set_back).
      rewrite EZ. split; [auto|]. split; [apply fr_refl|]. split; [lia|]. split; [exists []; reflexivity|auto].
Qed.
Lemma zr_unroll {B} i D col (k : unit -> SM B) z Q F X U : live i D z ->
  (forall z', live i D z' -> fr 0 z z' -> z_flow z' = z_flow z -> (z_flow z = 0 -> z_indent z' <= col)%N ->
     zruns i D (k tt) z' Q F X U) ->
  zruns i D (bind (unroll_indent col) k) z Q F X U.
Proof.
  intros H Hk. unfold zruns, bind, unroll_indent.
  destruct (0 <? z_flow z)%N eqn:FL.
  - assert (R := Hk z H (fr_refl 0 z) eq_refl ltac:(lia)). exact R.
  - destruct (unroll_live i D col _ z H eq_refl) as (ind & r & toks & E & L & FR & C & _). rewrite E.
    assert (R := Hk _ L FR eq_refl ltac:(auto)). unfold zruns in R. exact R.
Qed.
Lemma chain_weak K l : forall ind, chain K ind l -> (ind <= K + 1)%N.
Proof. destruct l as [|[j []] l]; intros ind; cbn [chain]; lia. Qed.
Lemma drop_one_live i D col z : live i D z ->
  live i D (drop_one_col col z) /\ fr 0 z (drop_one_col col z) /\ z_tokens (drop_one_col col z) = z_tokens z /\
  z_flow (drop_one_col col z) = z_flow z.
Proof.
  intros H. unfold drop_one_col. destruct (z_indent z <=? col)%N; [|split; [auto|split; [apply fr_refl|auto]]].
  destruct (z_indents z) as [|[j []] r] eqn:E; try (split; [auto|split; [apply fr_refl|auto]]).
  split; [apply live_drop; auto|]. split; [|auto].
  constructor; auto. unfold size. cbn [set_indent set_indents z_tokens z_indents]. rewrite E. cbn [List.length]. lia.
Qed.
(** Inserting a token that does not close anything. *)
Lemma live_insert_gen i D z n s t l ind :
  live i D z -> z_parsed z <= n <= z_parsed z + List.length (z_tokens z) ->
  tok_in i 0 (cpos (z_cur z)) (Token s t) -> t <> TStreamEnd -> (0 <= block_change (Token s t))%Z ->
  chain (colmax i) ind l -> opens l = (opens (z_indents z) + block_change (Token s t))%Z ->
  live i D (set_tokens (firstn (n - z_parsed z) (z_tokens z) ++ Token s t :: skipn (n - z_parsed z) (z_tokens z))
     (set_indent ind (set_indents l z))).
Proof.
  intros H Hn T NE BC CH OP. destruct H.
  set (p := n - z_parsed z) in *.
  assert (LE : List.length (firstn p (z_tokens z) ++ Token s t :: skipn p (z_tokens z)) = S (List.length (z_tokens z))).
  { rewrite app_length, firstn_length. cbn [List.length]. rewrite skipn_length. unfold p. lia. }
  assert (IN : forall PP : token -> Prop, Forall PP (D ++ z_tokens z) -> PP (Token s t) ->
    Forall PP (D ++ firstn p (z_tokens z) ++ Token s t :: skipn p (z_tokens z))).
  { intros PP HA HT. apply Forall_app in HA as [HD HZ]. apply Forall_app. split; auto.
    rewrite <- (firstn_skipn p (z_tokens z)) in HZ. apply Forall_app in HZ as [Z1 Z2].
    apply Forall_app. split; auto. }
  constructor; auto; cbn [set_tokens set_indent set_indents z_cur z_tokens z_keys z_indents z_parsed z_flow z_indent].
  - rewrite LE. eapply Forall_impl; [|exact l_keys0]. intros k Hk. eapply key_ok_le; eauto. lia.
  - rewrite app_assoc. apply nonneg_insert; auto. rewrite <- app_assoc, firstn_skipn. auto.
  - rewrite app_assoc, depth_app. change (Token s t :: ?l) with ([Token s t] ++ l). rewrite !depth_app, depth_one.
    rewrite OP, <- l_depth0. rewrite <- (firstn_skipn p (z_tokens z)) at 3. rewrite !depth_app. lia.
Qed.
Lemma insert_eq n s t z : z_parsed z <= n <= z_parsed z + List.length (z_tokens z) ->
  insert_token n s t z =
    (set_tokens (firstn (n - z_parsed z) (z_tokens z) ++ Token s t :: skipn (n - z_parsed z) (z_tokens z)) z, Ok tt).
Proof.
  intros H. unfold insert_token. destruct (Nat.ltb_spec n (z_parsed z)); [lia|].
  destruct (Nat.leb_spec (n - z_parsed z) (List.length (z_tokens z))); [reflexivity|lia].
Qed.
Lemma insert_len (l : list token) p t : p <= List.length l ->
  List.length (firstn p l ++ t :: skipn p l) = S (List.length l).
Proof. intros H. rewrite app_length, firstn_length. cbn [List.length]. rewrite skipn_length. lia. Qed.
Lemma set_back2 z : set_indent (z_indent z) (set_indents (z_indents z) z) = z.
Proof. destruct z. reflexivity. Qed.
Lemma zr_insert {B} i D n s t (k : unit -> SM B) z Q F X U : live i D z ->
  z_parsed z <= n <= z_parsed z + List.length (z_tokens z) ->
  tok_in i 0 (cpos (z_cur z)) (Token s t) -> quiet (Token s t) ->
  (forall z', live i D z' -> fr 1 z z' -> zruns i D (k tt) z' Q F X U) ->
  zruns i D (bind (insert_token n s t) k) z Q F X U.
Proof.
  intros H Hn T (Q0 & Q1 & Q2) Hk.
  assert (L := live_insert_gen i D z n s t (z_indents z) (z_indent z) H Hn T Q1 ltac:(lia) (l_chain _ _ _ H) ltac:(lia)).
  rewrite set_back2 in L.
  assert (FR : fr 1 z (set_tokens (firstn (n - z_parsed z) (z_tokens z) ++ Token s t :: skipn (n - z_parsed z) (z_tokens z)) z)).
  { constructor; auto; unfold size; cbn [set_tokens z_tokens z_indents]; rewrite insert_len by lia; lia. }
  specialize (Hk _ L FR). unfold zruns, bind in *. rewrite insert_eq by auto. exact Hk.
Qed.
Lemma tok_in_mark i hi m t : between i 0 hi m -> tok_in i 0 hi (Token (span_empty m) t).
Proof. intros (n & Hn & ->). exists n, n. split; [lia|]. split; [lia|reflexivity]. Qed.
Lemma zr_roll {B} i D col number t m (k : unit -> SM B) z Q F X U : live i D z ->
  match number with Some n => z_parsed z <= n <= z_parsed z + List.length (z_tokens z) | None => True end ->
  between i 0 (cpos (z_cur z)) m -> (col <= colmax i)%N -> t = TBlockSequenceStart \/ t = TBlockMappingStart ->
  (forall z', live i D z' -> fr 2 z z' -> z_flow z' = z_flow z -> zruns i D (k tt) z' Q F X U) ->
  zruns i D (bind (roll_indent col number t m) k) z Q F X U.
Proof.
  intros H Hn M CB Ht Hk. unfold zruns, bind, roll_indent.
  destruct (0 <? z_flow z)%N eqn:FL.
  { assert (R := Hk z H (fr_refl 2 z) eq_refl). exact R. }
  cbv zeta. destruct (drop_one_live i D col z H) as (L0 & F0 & T0 & FL0).
  set (z0 := drop_one_col col z) in *. clearbody z0. destruct F0 as [A1 A2 A3 A4].
  assert (T : tok_in i 0 (cpos (z_cur z0)) (Token (span_empty m) t)) by (rewrite A1; apply tok_in_mark; auto).
  assert (BC : block_change (Token (span_empty m) t) = 1%Z) by (destruct Ht; subst; reflexivity).
  assert (NE : t <> TStreamEnd) by (destruct Ht; subst; discriminate).
  destruct (N.ltb_spec (z_indent z0) col) as [LT|GE].
  - assert (CH : chain (colmax i) col ((z_indent z0, true) :: z_indents z0)).
    { cbn [chain]. split; [auto|]. split; [auto|]. apply (l_chain _ _ _ L0). }
    assert (OP : opens ((z_indent z0, true) :: z_indents z0) =
      (opens (z_indents z0) + block_change (Token (span_empty m) t))%Z) by (rewrite BC; cbn [opens]; lia).
    set (z1 := set_indent col (set_indents ((z_indent z0, true) :: z_indents z0) z0)).
    assert (G : forall n, z_parsed z0 <= n <= z_parsed z0 + List.length (z_tokens z0) ->
      live i D (set_tokens (firstn (n - z_parsed z0) (z_tokens z0) ++ Token (span_empty m) t :: skipn (n - z_parsed z0) (z_tokens z0)) z1)).
    { intros n Hn0. apply live_insert_gen; auto; lia. }
    assert (FR : forall l, List.length l = S (List.length (z_tokens z0)) -> fr 2 z (set_tokens l z1)).
    { intros l Hl. constructor.
      - exact A1.
      - exact A2.
      - cbn [set_tokens z_tokens]. lia.
      - unfold size in *. unfold z1. cbn [set_tokens set_indent set_indents z_tokens z_indents List.length]. lia. }
    destruct number as [n|].
    + assert (Hn1 : z_parsed z1 <= n <= z_parsed z1 + List.length (z_tokens z1)).
      { unfold z1. cbn [set_tokens set_indent set_indents z_tokens z_indents z_parsed]. rewrite A2, T0. auto. }
      rewrite insert_eq by exact Hn1.
      assert (Hn0 : z_parsed z0 <= n <= z_parsed z0 + List.length (z_tokens z0)) by exact Hn1.
      assert (R := Hk _ (G n Hn0) (FR _ (insert_len (z_tokens z0) (n - z_parsed z0) _ ltac:(lia))) FL0).
      unfold zruns in R. rewrite <- A1. exact R.
    + specialize (G (z_parsed z0 + List.length (z_tokens z0)) ltac:(lia)).
      replace (z_parsed z0 + List.length (z_tokens z0) - z_parsed z0) with (List.length (z_tokens z0)) in G by lia.
      rewrite firstn_all, skipn_all in G.
      unfold push_token, modify.
      assert (LL : List.length (z_tokens z0 ++ [Token (span_empty m) t]) = S (List.length (z_tokens z0)))
        by (rewrite app_length; cbn [List.length]; lia).
      assert (R := Hk _ G (FR _ LL) FL0). unfold zruns in R. rewrite <- A1. exact R.
  - assert (FR : fr 2 z z0) by (constructor; auto; lia).
    assert (R := Hk _ L0 FR FL0). unfold zruns in R. rewrite A1 in R. exact R.
Qed.
Ltac fold_zruns :=
  match goal with |- let (_, _) := ?k tt ?Z in _ =>
    match goal with Hk : forall _, _ -> _ |- _ =>
      match type of Hk with context [zruns ?i ?D _ _ ?Q ?F ?X ?U] => change (zruns i D (k tt) Z Q F X U) end end end.
Lemma zr_roll_one {B} i D (k : unit -> SM B) z Q F X U : live i D z ->
  (forall z', live i D z' -> fr 1 z z' -> z_flow z' = z_flow z -> zruns i D (k tt) z' Q F X U) ->
  zruns i D (bind roll_one_col_indent k) z Q F X U.
Proof.
  intros H Hk. unfold roll_one_col_indent. apply zr_mod; [destruct (z_indents z) as [|[j []] r], (z_flow z =? 0)%N; reflexivity|].
  destruct (z_indents z) as [|[j []] r] eqn:E; try (apply Hk; [auto|apply fr_refl|reflexivity]).
  destruct (z_flow z =? 0)%N; try (apply Hk; [auto|apply fr_refl|reflexivity]).
  rewrite <- E. apply Hk; [|constructor; auto; unfold size; cbn [set_indent set_indents z_tokens z_indents List.length]; lia|reflexivity].
  destruct H. constructor; auto; cbn [set_indent set_indents z_cur z_tokens z_keys z_indents z_parsed z_flow z_indent].
  rewrite E in l_chain0 |- *. cbn [chain] in *. split; [lia|]. split; [lia|exact l_chain0].
Qed.
Lemma non_block_live i D : forall l z, live i D z -> z_indents z = l ->
  let (ind, r) := unroll_non_block_loop (z_indent z) l in
  live i D (set_indent ind (set_indents r z)) /\ List.length r <= List.length l /\ (ind <= z_indent z)%N.
Proof.
  induction l as [|[j b] l IH]; intros z H E; cbn [unroll_non_block_loop].
  - assert (C := l_chain _ _ _ H). rewrite E in C. cbn [chain] in C.
    rewrite <- E, set_back2. split; [auto|split; [auto|lia]].
  - destruct b.
    + assert (C := l_chain _ _ _ H). rewrite E in C. cbn [chain] in C.
      rewrite <- E, set_back2. split; [auto|split; [auto|lia]].
    + assert (H1 := live_drop i D z j l H E). specialize (IH _ H1 eq_refl).
      cbn [set_indent set_indents z_indent] in IH.
      destruct (unroll_non_block_loop j l) as [ind r]. destruct IH as (L1 & L2 & L3).
      assert (C := l_chain _ _ _ H). rewrite E in C. cbn [chain] in C.
      split; [exact L1|split; [cbn [List.length]; lia|lia]].
Qed.
Lemma zr_non_block {B} i D (k : unit -> SM B) z Q F X U : live i D z ->
  (forall z', live i D z' -> fr 0 z z' -> z_flow z' = z_flow z -> (z_indent z' <= z_indent z)%N ->
     zruns i D (k tt) z' Q F X U) ->
  zruns i D (bind unroll_non_block_indents k) z Q F X U.
Proof.
  intros H Hk. unfold unroll_non_block_indents.
  assert (L := non_block_live i D _ z H eq_refl).
  apply zr_mod; destruct (unroll_non_block_loop (z_indent z) (z_indents z)) as [ind r]; [reflexivity|].
  destruct L as (L & LE & LI). apply Hk; [auto| |reflexivity|exact LI].
  constructor; auto. unfold size. cbn [set_indent set_indents z_tokens z_indents]. lia.
Qed.
(** ** Flow levels and simple keys *)
Lemma key_new_ok i hi lo top : key_ok i hi lo top (skey_new (Marker 0 0 0)).
Proof. intros X. discriminate. Qed.
Lemma impossible_ok i hi lo top k : key_ok i hi lo top (impossible k).
Proof. intros X. discriminate. Qed.
Lemma zr_increase {B} i D (k : unit -> SM B) z Q F X U : live i D z ->
  (forall z', live i D z' -> fr 0 z z' -> zruns i D (k tt) z' Q F X U) ->
  zruns i D (bind increase_flow_level k) z Q F X U.
Proof.
  intros H Hk. unfold zruns, bind, increase_flow_level. cbv zeta.
  cbn [set_keys z_flow]. destruct (z_flow z =? 4294967295)%N eqn:E.
  - cbn [set_keys z_cur]. split; [apply H|]. unfold stopped. cbn [set_keys z_cur err_in]. apply mark_in_self. apply H.
  - fold_zruns. apply Hk.
    + destruct H. constructor; auto; cbn [set_flow set_keys z_cur z_tokens z_keys z_indents z_parsed z_flow z_indent].
      * cbn [List.length]. lia.
      * constructor; [apply key_new_ok|auto].
    + constructor; auto. unfold size. cbn [set_flow set_keys z_tokens z_indents]. lia.
Qed.
Lemma zr_decrease {B} i D (k : unit -> SM B) z Q F X U : live i D z ->
  (forall z', live i D z' -> fr 0 z z' -> zruns i D (k tt) z' Q F X U) ->
  zruns i D (bind decrease_flow_level k) z Q F X U.
Proof.
  intros H Hk. unfold zruns, bind, decrease_flow_level.
  destruct (0 <? z_flow z)%N eqn:E; [|assert (R := Hk z H (fr_refl 0 z)); exact R].
  destruct (z_keys z) as [|k0 r] eqn:EK.
  - assert (X0 := l_depth_keys _ _ _ H). rewrite EK in X0. discriminate.
  - fold_zruns. apply Hk.
    + destruct H. rewrite EK in *. constructor; auto; cbn [set_flow set_keys z_cur z_tokens z_keys z_indents z_parsed z_flow z_indent].
      * cbn [List.length] in *. lia.
      * inversion l_keys0; auto.
    + constructor; auto. unfold size. cbn [set_flow set_keys z_tokens z_indents]. lia.
Qed.
Lemma stale_ok i hi lo top flow m : forall l, Forall (key_ok i hi lo top) l ->
  Forall (key_ok i hi lo top) (fst (stale_loop flow m l)) /\ List.length (fst (stale_loop flow m l)) = List.length l.
Proof.
  induction l as [|k l IH]; intros H; cbn [stale_loop].
  - auto.
  - inversion H; subst. destruct (IH ltac:(auto)) as [I1 I2].
    destruct (_ && _ && _).
    + destruct (sk_required k); [auto|]. destruct (stale_loop flow m l) as [r e]. cbn [fst] in *.
      split; [constructor; [apply impossible_ok|auto]|cbn [List.length]; lia].
    + destruct (stale_loop flow m l) as [r e]. cbn [fst] in *.
      split; [constructor; auto|cbn [List.length]; lia].
Qed.
Lemma live_keys i D z l : live i D z ->
  Forall (key_ok i (cpos (z_cur z)) (z_parsed z) (z_parsed z + List.length (z_tokens z))) l ->
  List.length l = List.length (z_keys z) -> live i D (set_keys l z).
Proof. intros [] HL HN. constructor; auto. cbn [set_keys z_keys z_flow]. lia. Qed.
Lemma keys_fr l z : fr 0 z (set_keys l z).
Proof. constructor; auto. unfold size. cbn [set_keys z_tokens z_indents]. lia. Qed.
Lemma zr_stale {B} i D (k : unit -> SM B) z Q F X U : live i D z ->
  (forall l, live i D (set_keys l z) -> zruns i D (k tt) (set_keys l z) Q F X U) ->
  zruns i D (bind stale_simple_keys k) z Q F X U.
Proof.
  intros H Hk. unfold zruns, bind, stale_simple_keys.
  assert (S0 := stale_ok i (cpos (z_cur z)) (z_parsed z) (z_parsed z + List.length (z_tokens z)) (z_flow z) (c_mark (z_cur z))
    (rev (z_keys z)) ltac:(apply Forall_rev; apply H)).
  destruct (stale_loop _ _ _) as [l e]. cbn [fst] in S0. destruct S0 as [S1 S2].
  assert (L : live i D (set_keys (rev l) z)).
  { apply live_keys; auto; [apply Forall_rev; auto|]. rewrite rev_length in *. lia. }
  destruct e; [|fold_zruns; apply Hk; auto].
  split; [apply H|]. unfold stopped. cbn [set_keys z_cur err_in]. apply mark_in_self. apply H.
Qed.
Lemma zr_remove {B} i D (k : unit -> SM B) z Q F X U : live i D z ->
  (forall l, live i D (set_keys l z) -> zruns i D (k tt) (set_keys l z) Q F X U) ->
  zruns i D (bind remove_simple_key k) z Q F X U.
Proof.
  intros H Hk. unfold zruns, bind, remove_simple_key.
  destruct (z_keys z) as [|k0 r] eqn:EK.
  - assert (X0 := l_depth_keys _ _ _ H). rewrite EK in X0. discriminate.
  - destruct (_ && _).
    + split; [apply H|]. unfold stopped. cbn [err_in]. apply mark_in_self. apply H.
    + fold_zruns. apply Hk. apply live_keys; auto; [|rewrite EK; reflexivity].
      assert (X0 := l_keys _ _ _ H). rewrite EK in X0. inversion X0; subst. constructor; [apply impossible_ok|auto].
Qed.
Lemma zr_save_at {B} i D (k : unit -> SM B) z Q F X U : live i D z ->
  (forall z', live i D z' -> fr 0 z z' -> z_indent z' = z_indent z -> zruns i D (k tt) z' Q F X U) ->
  zruns i D (bind save_simple_key k) z Q F X U.
Proof.
  intros H Hk. unfold save_simple_key. apply zr_mod; [destruct (c_ska (z_cur z)); reflexivity|].
  destruct (c_ska (z_cur z)); [|apply Hk; [auto|apply fr_refl|reflexivity]].
  cbv zeta. apply Hk; [|apply keys_fr|reflexivity].
  assert (X0 := l_keys _ _ _ H). assert (X1 := l_depth_keys _ _ _ H).
  destruct (z_keys z) as [|k0 r] eqn:EK; [discriminate|]. apply live_keys; auto; [|rewrite EK; reflexivity].
  inversion X0; subst. constructor; [|auto]. intros _. cbn [sk_number sk_mark]. split; [lia|].
  apply between_self; [apply H|lia].
Qed.
Lemma zr_save {B} i D (k : unit -> SM B) z Q F X U : live i D z ->
  (forall z', live i D z' -> fr 0 z z' -> zruns i D (k tt) z' Q F X U) ->
  zruns i D (bind save_simple_key k) z Q F X U.
Proof. intros H Hk. apply zr_save_at; auto. Qed.
Lemma zr_end_implicit {B} i D m (k : unit -> SM B) z Q F X U : live i D z -> between i 0 (cpos (z_cur z)) m ->
  (forall z', live i D z' -> fr 1 z z' -> zruns i D (k tt) z' Q F X U) ->
  zruns i D (bind (end_implicit_mapping m) k) z Q F X U.
Proof.
  intros H (n & Hn & M) Hk. unfold zruns, bind, end_implicit_mapping.
  assert (R0 := Hk z H (fr_refl 1 z)).
  destruct (z_implicit z) as [|[] r] eqn:EI; try exact R0.
  unfold push_token, modify.
  set (z1 := set_implicit (IPossible :: r) (set_flow_started false z)).
  assert (L1 : live i D z1) by (unfold z1; fields).
  assert (T : tok_in i 0 (cpos (z_cur z1)) (Token (Span m (c_mark (z_cur z))) TFlowMappingEnd)).
  { exists n, (cpos (z_cur z)). split; [lia|]. split; [auto|]. cbn [k_span]. f_equal; [auto|apply H]. }
  assert (L2 := live_push i D z1 _ L1 T ltac:(repeat split; discriminate)).
  assert (FR : fr 1 z (set_tokens (z_tokens z1 ++ [Token (Span m (c_mark (z_cur z))) TFlowMappingEnd]) z1)).
  { constructor; auto; unfold size; cbn [set_tokens z1 set_implicit set_flow_started z_tokens z_indents];
      rewrite app_length; cbn [List.length]; lia. }
  exact (Hk _ L2 FR).
Qed.
