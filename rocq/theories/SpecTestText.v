(** The notation of the test cases: a backslash and a letter for the bytes that are not written plainly;
    a backslash in front of any other byte stands for that byte. *)
From Verif Require Import Base.
Local Open Scope N_scope.

Definition letter_means (l c : N) : Prop :=
  (l = 110 /\ c = 10) \/ (l = 114 /\ c = 13) \/ (l = 116 /\ c = 9) \/ (l = 98 /\ c = 8) \/ (l = 92 /\ c = 92).
(** [notation false]: only the known letters stand behind a backslash. *)
Inductive notation (any : bool) : text -> text -> Prop :=
| nt_end : notation any [] []
| nt_plain c t u : c <> 92 -> notation any t u -> notation any (c :: t) (c :: u)
| nt_escape l c t u : letter_means l c -> notation any t u -> notation any (92 :: l :: t) (c :: u)
| nt_other c t u : any = true -> (forall d, ~ letter_means c d) -> notation any t u ->
    notation any (92 :: c :: t) (c :: u).
(** Writing a text in the notation. *)
Fixpoint in_notation (t : text) : text :=
  match t with
  | [] => []
  | c :: r =>
      (if c =? 10 then [92; 110] else if c =? 13 then [92; 114] else if c =? 9 then [92; 116]
       else if c =? 8 then [92; 98] else if c =? 92 then [92; 92] else [c]) ++ in_notation r
  end%list.
