(** Specification of whole streams: documents with directives, markers and a root node, the tokens
    they are written as and the events they denote. Independent of the parser. *)
From Verif Require Import Base Tokens SpecEvents SpecTree.

Inductive directive := DVersion (major minor : N) | DTag (handle prefix : text).
(** [d_dirs]: the directives before [---]; [d_explicit]: whether [---] is written; [d_root]: the
    node, if any; [d_ends]: how many [...] markers follow. *)
Record doc := Doc { d_dirs : list directive; d_explicit : bool; d_root : option tree; d_ends : nat }.

Definition dir_tok (d : directive) : token_type :=
  match d with DVersion a b => TVersionDirective a b | DTag h p => TTagDirective h p end.
Definition doc_toks (d : doc) : list token_type :=
  map dir_tok (d_dirs d) ++ (if d_explicit d then [TDocumentStart] else []) ++
  opt_list tree_toks (d_root d) ++ repeat TDocumentEnd (d_ends d).
(** [lead]: markers before the first document. *)
Definition stream_toks (lead : nat) (ds : list doc) : list token_type :=
  TStreamStart :: repeat TDocumentEnd lead ++ flat_map doc_toks ds ++ [TStreamEnd].

(** The tags declared by directives. *)
Definition dirs_table (l : list directive) : list (text * text) :=
  flat_map (fun d => match d with DTag h p => [(h, p)] | _ => [] end) l.
(** The tags declared by the last directive alone. *)
Definition last_table (l : list directive) : list (text * text) :=
  match rev l with d :: _ => dirs_table [d] | [] => [] end.
(** The tags declared for a document, [tbl] being how directives are understood: those of its own
    directives; a parser that keeps tags falls back on those of the previous document if there are
    no directives. *)
Definition doc_table (tbl : list directive -> list (text * text)) (keep : bool)
  (prev : list (text * text)) (d : doc) : list (text * text) :=
  match d_dirs d with [] => if keep then prev else [] | l => tbl l end.

(** The events of the documents, given the names anchored so far. [tags] is what the tags used in
    the document stand for. *)
Inductive docs_mean (tbl : list directive -> list (text * text)) (keep : bool)
  : list (text * text) -> list text -> list doc -> list event -> Prop :=
| DM_nil tg before : docs_mean tbl keep tg before [] []
| DM_cons tg before d ds tags e es :
    (forall h s t, tags h s = Some t -> tag_means (doc_table tbl keep tg d) h s (Some t)) ->
    opt_events (tree_events tags) before (d_root d) = Some e ->
    docs_mean tbl keep (doc_table tbl keep tg d) (before ++ names_of (doc_toks d)) ds es ->
    docs_mean tbl keep tg before (d :: ds)
      (EDocumentStart (d_explicit d) :: e ++ EDocumentEnd :: es).
Definition stream_means (tbl : list directive -> list (text * text)) (keep : bool) (ds : list doc)
  (evs : list event) : Prop :=
  exists es, evs = EStreamStart :: es ++ [EStreamEnd] /\ docs_mean tbl keep [] [] ds es.

(** Which documents may be written: directives need [---]; without [---] there must be a node;
    directives, and a document without [---], can only come first or after a [...] marker. *)
Definition doc_ok (free : bool) (d : doc) : Prop :=
  (d_dirs d <> [] -> d_explicit d = true /\ free = true) /\
  (d_explicit d = false -> d_root d <> None /\ free = true) /\
  match d_root d with Some t => block_tree false t | None => True end.
Fixpoint docs_ok (free : bool) (ds : list doc) : Prop :=
  match ds with
  | [] => True
  | d :: r => doc_ok free d /\ docs_ok (Nat.ltb 0 (d_ends d)) r
  end.
(** The number of [%YAML] directives. *)
Definition versions (l : list directive) : nat :=
  List.length (filter (fun d => match d with DVersion _ _ => true | _ => false end) l).
Definition one_version (d : doc) : Prop := versions (d_dirs d) <= 1.
(** At most one directive per document (see C08 for why). *)
Definition one_directive (d : doc) : Prop := List.length (d_dirs d) <= 1.

(** The tokens that end a node outside an indentation-less context. *)
Definition node_stop (v : list token_type) : Prop :=
  match v with
  | TFlowEntry :: _ | TFlowSequenceEnd :: _ | TFlowMappingEnd :: _ | TValue :: _ | TKey :: _
  | TBlockEnd :: _ | TBlockEntry :: _ | TDocumentStart :: _ | TDocumentEnd :: _ | TStreamEnd :: _ => True
  | _ => False
  end.
