(** Documents on which deserialisation goes wrong, and examples. *)
From Verif Require Import Base Tokens Scalar ParserIter SpecScalar Serde SpecSerde.
From Coq Require Import String Lia.
Local Open Scope list_scope.

(** A plain scalar, a quoted scalar, collections, the events of a document, and the type [i32]. *)
Definition p (s : string) : node := NScalar (ScalarValue (str s) Plain 0 None).
Definition q (s : string) : node := NScalar (ScalarValue (str s) DoubleQuote 0 None).
Definition seq (l : list node) : node := NSeq 0 None l.
Definition mapping (l : list (node * node)) : node := NMap 0 None l.
Definition document (n : node) : list yam_event := YDocStart :: node_yams n ++ [YDocEnd].
Definition i32 : target := DInt (-2147483648) 2147483647.
Definition an_enum : target := DEnum [(str "Unit", (KUnit, DUnit)); (str "Newtype", (KNewtype, i32))].

Lemma p_int null some s ds z : str s = ds -> Forall dec_digit ds -> ds <> [] -> number 10 ds = z -> (z < 2147483648)%Z ->
  denotes null some i32 (p s) (VInt z).
Proof.
  intros E F N V B. assert (Q : (0 <= z)%Z) by (subst z; unfold number; lia).
  exists (ScalarValue (str s) Plain 0 None), z. split; [reflexivity|]. split; [reflexivity|]. cbn [sv_value]. split.
  - rewrite E, <- V. apply signed_none. now split.
  - split; [lia|]. intros _. reflexivity.
Qed.
Lemma p_one null some : denotes null some i32 (p "1") (VInt 1).
Proof. apply (p_int null some "1" [49%N]); [reflexivity| |discriminate|reflexivity|reflexivity]. repeat constructor; vm_compute; discriminate. Qed.
Lemma p_two null some : denotes null some i32 (p "2") (VInt 2).
Proof. apply (p_int null some "2" [50%N]); [reflexivity| |discriminate|reflexivity|reflexivity]. repeat constructor; vm_compute; discriminate. Qed.
Lemma p_string null some s : parse_from_cow_and_metadata (str s) Plain None = Some (SString (str s)) ->
  denotes null some DString (p s) (VString (str s)).
Proof. intros E. now exists (ScalarValue (str s) Plain 0 None), (str s). Qed.
Lemma not_null s : str s <> [] -> parse_from_cow_and_metadata (str s) Plain None <> Some SNull -> ~ yaml_null (p s).
Proof. intros N R (v & E & H). injection E as <-. destruct H as [[_ H]|H]; [exact (N H)|exact (R H)]. Qed.

Definition w_options : node := seq [p "1"; p "2"].
Lemma options_denote : denotes yaml_null (fun n => ~ yaml_null n) (DVec (DOption i32)) w_options (VSeq [VSome (VInt 1); VSome (VInt 2)]).
Proof.
  exists 0, None, [p "1"; p "2"], [VSome (VInt 1); VSome (VInt 2)]. split; [reflexivity|]. split; [reflexivity|].
  constructor; [|constructor; [|constructor]]; right; (split; [apply not_null; vm_compute; discriminate|]).
  - exists (VInt 1). split; [reflexivity|apply p_one].
  - exists (VInt 2). split; [reflexivity|apply p_two].
Qed.
Definition w_pairs : node := seq [seq [p "1"; p "2"]].
Lemma pairs_denote null some : denotes null some (DVec (DTuple [i32; i32])) w_pairs (VSeq [VSeq [VInt 1; VInt 2]]).
Proof.
  exists 0, None, [seq [p "1"; p "2"]], [VSeq [VInt 1; VInt 2]]. split; [reflexivity|]. split; [reflexivity|].
  constructor; [|constructor]. exists 0, None, [p "1"; p "2"], [VInt 1; VInt 2]. split; [reflexivity|]. split; [reflexivity|].
  split; [apply p_one|]. split; [apply p_two|exact I].
Qed.
Definition w_structs : node := seq [mapping [(p "a", p "1")]].
Lemma key_a : forall name n, key_is name (p "a", n) -> name = str "a".
Proof. intros name n (v & E & R). injection E as <-. vm_compute in R. injection R as <-. reflexivity. Qed.
Lemma structs_denote null some : denotes null some (DVec (DStruct [(str "a", i32)])) w_structs (VSeq [VStruct [(str "a", VInt 1)]]).
Proof.
  exists 0, None, [mapping [(p "a", p "1")]], [VStruct [(str "a", VInt 1)]]. split; [reflexivity|]. split; [reflexivity|].
  constructor; [|constructor]. exists 0, None, [(p "a", p "1")], [(str "a", VInt 1)]. split; [reflexivity|]. split; [reflexivity|].
  split; [repeat constructor; intros []|]. split; [|split].
  - constructor; [|constructor]. exists (str "a"). split; [now exists (ScalarValue (str "a") Plain 0 None)|now left].
  - intros [|e1 l1] e l2 name E K; [|injection E as _ E; now destruct l1]. injection E as <- <-. constructor.
  - split; [reflexivity|]. split; [|exact I]. left. exists (p "a", p "1"). split; [now left|].
    split; [now exists (ScalarValue (str "a") Plain 0 None)|apply p_one].
Qed.
Definition w_last_list : node := mapping [(p "a", seq [p "1"; seq [p "2"]]); (p "b", seq [p "2"; seq []])].
Lemma last_list_denotes null some : denotes null some (DMap DString (DTuple [i32; DVec i32])) w_last_list
  (VMap [(VString (str "a"), VSeq [VInt 1; VSeq [VInt 2]]); (VString (str "b"), VSeq [VInt 2; VSeq []])]).
Proof.
  exists 0, None, [(p "a", seq [p "1"; seq [p "2"]]); (p "b", seq [p "2"; seq []])],
    [(VString (str "a"), VSeq [VInt 1; VSeq [VInt 2]]); (VString (str "b"), VSeq [VInt 2; VSeq []])].
  split; [reflexivity|]. split; [reflexivity|]. constructor; [|constructor; [|constructor]].
  - split; [apply p_string; reflexivity|]. exists 0, None, [p "1"; seq [p "2"]], [VInt 1; VSeq [VInt 2]].
    split; [reflexivity|]. split; [reflexivity|]. split; [apply p_one|]. split; [|exact I].
    exists 0, None, [p "2"], [VInt 2]. split; [reflexivity|]. split; [reflexivity|]. constructor; [apply p_two|constructor].
  - split; [apply p_string; reflexivity|]. exists 0, None, [p "2"; seq []], [VInt 2; VSeq []].
    split; [reflexivity|]. split; [reflexivity|]. split; [apply p_two|]. split; [|exact I].
    exists 0, None, [], []. split; [reflexivity|]. split; [reflexivity|]. constructor.
Qed.
Definition w_enums : node := mapping [(p "x", mapping [(p "Newtype", p "1")]); (p "y", p "Unit")].
Lemma enums_denote null some : denotes null some (DMap DString an_enum) w_enums
  (VMap [(VString (str "x"), VEnum (str "Newtype") (VInt 1)); (VString (str "y"), VEnum (str "Unit") VUnit)]).
Proof.
  exists 0, None, [(p "x", mapping [(p "Newtype", p "1")]); (p "y", p "Unit")],
    [(VString (str "x"), VEnum (str "Newtype") (VInt 1)); (VString (str "y"), VEnum (str "Unit") VUnit)].
  split; [reflexivity|]. split; [reflexivity|]. constructor; [|constructor; [|constructor]].
  - split; [apply p_string; reflexivity|]. right. exists 0, None, (p "Newtype"), (p "1"), (str "Newtype"), (VInt 1).
    split; [reflexivity|]. split; [reflexivity|]. split; [now exists (ScalarValue (str "Newtype") Plain 0 None)|].
    right. split; [discriminate|]. left. split; [reflexivity|]. split; [discriminate|apply p_one].
  - split; [apply p_string; reflexivity|]. left. exists (ScalarValue (str "Unit") Plain 0 None).
    split; [reflexivity|]. split; [reflexivity|]. now exists DUnit.
Qed.
Lemma tilde_denotes : denotes yaml_null (fun n => ~ yaml_null n) (DOption i32) (p "~") VNone.
Proof. left. split; [|reflexivity]. exists (ScalarValue (str "~") Plain 0 None). split; [reflexivity|]. now right. Qed.
Lemma quoted_denotes : denotes yaml_null (fun n => ~ yaml_null n) (DOption DString) (q "null") (VSome (VString (str "null"))).
Proof.
  right. split.
  - intros (v & E & [[H _]|H]); injection E as <-; discriminate.
  - exists (VString (str "null")). split; [reflexivity|]. now exists (ScalarValue (str "null") DoubleQuote 0 None), (str "null").
Qed.

(** What is read instead, for any fuel that is enough. *)
Lemma options_read k : from_events (6 + k) (DVec (DOption i32)) (document w_options) = DOk (VSeq [VSome (VInt 2)]).
Proof. reflexivity. Qed.
Lemma pairs_read k : from_events (9 + k) (DVec (DTuple [i32; i32])) (document w_pairs) = DErr (DUnexpected "SeqStart").
Proof. reflexivity. Qed.
Lemma structs_read k : from_events (9 + k) (DVec (DStruct [(str "a", i32)])) (document w_structs) = DErr (DUnexpected "MapStart").
Proof. reflexivity. Qed.
Lemma last_list_read k : from_events (20 + k) (DMap DString (DTuple [i32; DVec i32])) (document w_last_list) = DErr DCustom.
Proof. reflexivity. Qed.
Lemma enums_read k : from_events (20 + k) (DMap DString an_enum) (document w_enums)
  = DOk (VMap [(VString (str "x"), VEnum (str "Newtype") (VInt 1))]).
Proof. reflexivity. Qed.
Lemma tilde_read k : from_events k (DOption i32) (document (p "~")) = DErr DCustom.
Proof. reflexivity. Qed.
Lemma quoted_read k : from_events k (DOption DString) (document (q "null")) = DOk VNone.
Proof. reflexivity. Qed.
(** The last list of a tuple: the end of the tuple is left behind. *)
Lemma last_list_rest k rest last :
  de (6 + k) (DTuple [i32; DVec i32]) (Des (node_yams (seq [p "1"; seq [p "2"]]) ++ rest) last false)
  = (Des (YSeqEnd :: rest) YSeqEnd false, DOk (VSeq [VInt 1; VSeq [VInt 2]])).
Proof. reflexivity. Qed.
