(** Texts on which the scanner never comes to an end: no bound on the steps is enough. *)
From Verif Require Import Base Tokens Scalar Chars Source Cursor Scanner SpecScan.
From Coq Require Import Lia String.

(** A method that always exhausts the bound, as part of a longer one. *)
Lemma bind_fuel {S A B} (m : M S A) (k : A -> M S B) s : snd (m s) = Fuel -> snd (bind m k s) = Fuel.
Proof. unfold bind. destruct (m s) as [s' []]; cbn [snd]; congruence. Qed.
Lemma lift_fuel {A} (m : CM A) z : snd (m (z_cur z)) = Fuel -> snd (lift m z) = Fuel.
Proof. unfold lift. destruct (m (z_cur z)) as [c o]. auto. Qed.

(** The state after the start of the stream has been delivered. *)
Definition z_started_on (i : text) : scanner :=
  Scanner (Cur (str_new i) (Marker 0 1 1) true true) [] None [skey_new (Marker 0 0 0)] [] [] false
    false true false false 0 1 0 0.
Definition token_start : token := Token (Span (Marker 0 1 1) (Marker 0 1 1)) TStreamStart.
Lemma next_start i fuel : next (S (S fuel)) (scanner_new i) = (z_started_on i, Ok (Some token_start)).
Proof. reflexivity. Qed.
Lemma hang_scan i : (forall fuel, snd (fetch_next_token fuel (z_started_on i)) = Fuel) ->
  forall fuel, snd (snd (scan fuel i)) = Fuel.
Proof.
  intros H fuel. unfold scan. destruct fuel as [|[|fuel]]; [reflexivity|reflexivity|].
  set (f := S fuel). change (scan_run (S f) (S f) (scanner_new i)) with
    (match next (S f) (scanner_new i) with
      | (z, Ok None) => ([], (z, Ok tt))
      | (z, Ok (Some t)) => let (l, r) := scan_run f (S f) z in (t :: l, r)
      | (z, Err e) => ([], (z, Err e))
      | (z, Panic) => ([], (z, Panic))
      | (z, Ub) => ([], (z, Ub))
      | (z, Fuel) => ([], (z, Fuel))
      end).
  unfold f at 1. rewrite next_start. fold f.
  enough (E : snd (snd (scan_run f (S f) (z_started_on i))) = Fuel)
    by (destruct (scan_run f (S f) (z_started_on i)) as [l [z o]]; exact E).
  unfold f at 1. cbn [scan_run]. specialize (H (S f)).
  unfold next. change (z_error (z_started_on i)) with (@None yerr). change (z_end_reached (z_started_on i)) with false.
  cbv iota. unfold next_token.
  assert (E : snd (fetch_more_tokens (S f) (S f) (z_started_on i)) = Fuel).
  { cbn [fetch_more_tokens]. unfold bind at 1, gets. cbv beta iota. change (z_tokens (z_started_on i)) with (@nil token).
    cbv iota. unfold bind at 1, ret. cbv beta iota. apply bind_fuel. exact H. }
  unfold bind at 1, gets at 1. cbv beta iota. change (z_end_produced (z_started_on i)) with false. cbv iota.
  unfold bind at 1, gets at 1. cbv beta iota. change (z_available (z_started_on i)) with false. cbn [negb]. unfold bind.
  destruct (fetch_more_tokens (S f) (S f) (z_started_on i)) as [z []]; cbn [snd] in E; try discriminate.
  reflexivity.
Qed.

(** ** A carriage return without line feed *)
Lemma cr_stuck : forall fuel b ind c, c_src c = str_new [13%N] ->
  snd (skip_to_next_token fuel b ind 0 c) = Fuel.
Proof.
  induction fuel as [|fuel IH]; intros b ind c E; [reflexivity|].
  destruct c as [s m ld sk]. cbn [c_src] in E. subst s. cbn [skip_to_next_token].
  unfold bind at 1, peek, gets at 1. cbn -[skip_to_next_token].
  specialize (IH b ind (Cur (str_new [13%N]) m ld true) eq_refl).
  exact IH.
Qed.
Lemma cr_hangs fuel : snd (snd (scan fuel [13%N])) = Fuel.
Proof.
  apply hang_scan. clear fuel. intros fuel. unfold fetch_next_token. unfold bind at 1, gets. cbv beta iota.
  change (z_started (z_started_on [13%N])) with true. cbn [negb]. apply bind_fuel.
  unfold zskip_to_next_token. apply lift_fuel. apply cr_stuck. reflexivity.
Qed.

(** ** A NUL byte in a quoted scalar *)
Definition nul_cursor (ska : bool) : cursor := Cur (StrSrc [34%N; 0%N] 1) (Marker 1 2 1) false ska.
Lemma nul_stuck ska start : forall fuel string ws lb tb,
  snd (flow_loop fuel false 0 start string ws lb tb (nul_cursor ska)) = Fuel.
Proof.
  induction fuel as [|fuel IH]; intros string ws lb tb; [reflexivity|].
  cbn [flow_loop]. unfold bind at 1, get_mark, gets at 1. cbn -[flow_loop consume_chars flow_blanks].
  destruct fuel as [|fuel]; [reflexivity|].
  cbn -[flow_loop]. apply IH.
Qed.
Lemma nul_hangs fuel : snd (snd (scan fuel [34%N; 0%N])) = Fuel.
Proof.
  apply hang_scan. clear fuel. intros fuel. destruct fuel as [|fuel]; [reflexivity|].
  assert (E := nul_stuck false (Marker 0 1 1) (S fuel) [] [] [] []).
  unfold nul_cursor in E.
  set (fl := flow_loop (S fuel)) in *.
  assert (X : forall m, scan_flow_scalar (S fuel) false 0 false m =
    (bind get_mark (fun start => bind skip_non_blank (fun _ => bind (fl false 0%N start [] [] [] []) (fun string =>
      bind skip_non_blank (fun _ => bind (skip_ws_to_eol (S fuel) true false) (fun _ =>
      bind (peek 0) (fun c => bind get_mark (fun m =>
  if (((c =? 44)%N || (c =? 125)%N || (c =? 93)%N) && false)
     || is_breakz c
     || ((c =? 58)%N && negb false && (m_line start =? m_line m)%N)
     || ((c =? 58)%N && false)
  then ret (Token (Span start m) (TScalar (if false then SingleQuote else DoubleQuote) string))
  else err m "invalid trailing content after double-quoted scalar")))))))) m) by reflexivity.
  clearbody fl.
  assert (Y : snd (scan_flow_scalar (S fuel) false 0 false (Cur (str_new [34%N; 0%N]) (Marker 0 1 1) true false)) = Fuel).
  { rewrite X. unfold bind at 1, get_mark, gets at 1. cbv beta iota.
    unfold bind at 1. change (skip_non_blank (Cur (str_new [34%N; 0%N]) (Marker 0 1 1) true false))
      with (Cur (StrSrc [34%N; 0%N] 1) (Marker 1 2 1) false false, Ok tt). cbv beta iota. apply bind_fuel. exact E. }
  clear X E fl.
  assert (Z : exists z1, z_cur z1 = Cur (str_new [34%N; 0%N]) (Marker 0 1 1) true false /\
     fetch_next_token (S fuel) (z_started_on [34%N; 0%N]) =
     bind (lift (scan_flow_scalar (S fuel) false 0 false)) (fun tok =>
       bind (zskip_to_next_token (S fuel)) (fun _ =>
         bind (modify (fun z => set_adjacent (m_pos (c_mark (z_cur z))) z)) (fun _ =>
           push_token (k_span tok) (k_type tok)))) z1).
  { eexists. split; [|reflexivity]. reflexivity. }
  destruct Z as (z1 & E1 & ->). apply bind_fuel. apply lift_fuel. rewrite E1. exact Y.
Qed.
