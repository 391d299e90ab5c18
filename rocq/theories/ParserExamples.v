(** Concrete token streams used by the examples beside the property theorems. *)
From Verif Require Import Base Tokens Parser ParserRun.
From Coq Require Import String.

Definition mk0 : marker := Marker 0 1 1.
Definition tk (t : token_type) : token := Token (span_empty mk0) t.
Definition eof_err : yerr := ScannerErr mk0 "unexpected eof".
Definition pl (s : string) : token_type := TScalar Plain (str s).

(** Tokens of [- &a x\n- {k: *a}\n- &a y\n- *a\n]. *)
Definition toks_anchors : list token := map tk
  [TStreamStart; TBlockSequenceStart;
   TBlockEntry; TAnchor (str "a"); pl "x";
   TBlockEntry; TFlowMappingStart; TKey; pl "k"; TValue; TAlias (str "a"); TFlowMappingEnd;
   TBlockEntry; TAnchor (str "a"); pl "y";
   TBlockEntry; TAlias (str "a");
   TBlockEnd; TStreamEnd].
(** Tokens of [[a, *nope]]. *)
Definition toks_unknown : list token := map tk
  [TStreamStart; TFlowSequenceStart; pl "a"; TFlowEntry; TAlias (str "nope"); TFlowSequenceEnd].
(** A malformed stream: closing brackets without opening ones. *)
Definition toks_bad : list token := map tk
  [TStreamStart; TBlockMappingStart; TKey; TFlowSequenceStart; TFlowMappingEnd; TBlockEnd; TBlockEnd].
