(** Model of the loader: [yam-core/src/prelude/loader.rs], for [Node = Yaml]. *)
From Verif Require Import Base Tokens Scalar Yaml Parser ParserRun.
From Coq Require Import String.

(** [prelude/loader.rs:34-42] [YamlLoader]. Stacks have their top first; the anchor map
    ([BTreeMap<usize, Node>]) has the latest insertion first. *)
Record loader := Loader {
  ld_docs : list yaml;
  ld_doc_stack : list (yaml * nat * option tag);
  ld_key_stack : list yaml;
  ld_anchor_map : list (nat * yaml)
}.
(** [prelude/loader.rs:44-56] [Default]. *)
Definition new_loader : loader := Loader [] [] [] [].

(** [BTreeMap::get] on the anchor map. *)
Fixpoint anchor_get (id : nat) (m : list (nat * yaml)) : option yaml :=
  match m with
  | [] => None
  | (i, y) :: r => if Nat.eqb id i then Some y else anchor_get id r
  end.

(** [prelude/loader.rs:122-155] [insert_new_node]. *)
Definition insert_new_node (node : yaml) (anchor_id : nat) (tg : option tag) (l : loader)
  : out loader :=
  let am := if Nat.ltb 0 anchor_id then (anchor_id, node) :: ld_anchor_map l
            else ld_anchor_map l in
  match ld_doc_stack l with
  | (parent, pa, pt) :: rest =>
      let node := match tg with
                  | Some t => if is_collection node && negb (is_yaml_core_schema t)
                              then into_tagged node t else node
                  | None => node
                  end in
      match parent with
      | YSeq els =>
          Ok (Loader (ld_docs l) ((YSeq (els ++ [node]), pa, pt) :: rest) (ld_key_stack l) am)
      | YMap els =>
          match ld_key_stack l with
          | [] => Panic
          | curr_key :: keys =>
              if is_bad_value curr_key then
                Ok (Loader (ld_docs l) ((parent, pa, pt) :: rest) (node :: keys) am)
              else
                Ok (Loader (ld_docs l) ((YMap (els ++ [(curr_key, node)]), pa, pt) :: rest)
                      (YBad :: keys) am)
          end
      | _ => Ok (Loader (ld_docs l) ((parent, pa, pt) :: rest) (ld_key_stack l) am)
      end
  | [] => Ok (Loader (ld_docs l) [(node, anchor_id, tg)] (ld_key_stack l) am)
  end.

(** [prelude/loader.rs:406-466] [on_event]; [Yaml] ignores markers and spans
    ([prelude/mod.rs:945-991], the defaults of [with_start], [with_end], [with_span]). *)
Definition loader_event (ev : event) (l : loader) : out loader :=
  match ev with
  | EDocumentStart _ | EStreamStart | EStreamEnd => Ok l
  | EDocumentEnd =>
      match ld_doc_stack l with
      | [] => Ok (Loader (ld_docs l ++ [YBad]) [] (ld_key_stack l) (ld_anchor_map l))
      | [(y, _, _)] => Ok (Loader (ld_docs l ++ [y]) [] (ld_key_stack l) (ld_anchor_map l))
      | _ => Panic
      end
  | ESequenceStart aid tg =>
      Ok (Loader (ld_docs l) ((YSeq [], aid, tg) :: ld_doc_stack l) (ld_key_stack l) (ld_anchor_map l))
  | EMappingStart aid tg =>
      Ok (Loader (ld_docs l) ((YMap [], aid, tg) :: ld_doc_stack l) (YBad :: ld_key_stack l)
            (ld_anchor_map l))
  | EMappingEnd | ESequenceEnd =>
      let keys := match ev with
                  | EMappingEnd => match ld_key_stack l with [] => None | _ :: k => Some k end
                  | _ => Some (ld_key_stack l)
                  end in
      match keys with
      | None => Panic
      | Some keys =>
          match ld_doc_stack l with
          | [] => Panic
          | (node, anchor_id, tg) :: rest =>
              let node := match tg with
                          | Some t => if negb (is_yaml_core_schema t) then into_tagged node t else node
                          | None => node
                          end in
              insert_new_node node anchor_id None (Loader (ld_docs l) rest keys (ld_anchor_map l))
          end
      end
  | EScalar v =>
      insert_new_node (value_from_cow_and_metadata (sv_value v) (sv_type v) (sv_tag v))
        (sv_anchor v) (sv_tag v) l
  | EAlias id =>
      insert_new_node (match anchor_get id (ld_anchor_map l) with Some v => v | None => YBad end)
        0 None l
  end.

(** The events sent to the loader, one after the other. *)
Fixpoint loader_run (evs : list event) (l : loader) : out loader :=
  match evs with
  | [] => Ok l
  | ev :: r => match loader_event ev l with
               | Ok l' => loader_run r l'
               | Err e => Err e
               | Panic => Panic
               | Ub => Ub
               | Fuel => Fuel
               end
  end.

(** [prelude/loader.rs:188-194] [load_from_parser], [236-241] [load_from]: the tokens are those the
    scanner produces for the input ([e]: its error or end, [mk]: its mark). The events the parser
    sends are handed to the loader when the parser has finished; a loader panic on events sent
    before a parser error is therefore shown by [loader_run] on those events only. *)
Definition load_from (fuel : nat) (toks : list token) (e : yerr) (mk : marker) : out (list yaml) :=
  match load fuel true (new_parser toks e mk false) with
  | (_, Ok evs) => match loader_run (map fst evs) new_loader with
                   | Ok l => Ok (ld_docs l)
                   | Err e => Err e | Panic => Panic | Ub => Ub | Fuel => Fuel
                   end
  | (_, Err e) => Err e | (_, Panic) => Panic | (_, Ub) => Ub | (_, Fuel) => Fuel
  end.

(** [prelude/loader.rs:285-294] [load_single], [334-344] [load_single_from_parser], [386-395]
    [load_single_source]. *)
Definition load_single (fuel : nat) (toks : list token) (e : yerr) (mk : marker) : out yaml :=
  match load fuel false (new_parser toks e mk false) with
  | (_, Ok evs) => match loader_run (map fst evs) new_loader with
                   | Ok l => match ld_docs l with y :: _ => Ok y | [] => Err NoDocument end
                   | Err e => Err e | Panic => Panic | Ub => Ub | Fuel => Fuel
                   end
  | (_, Err e) => Err e | (_, Panic) => Panic | (_, Ub) => Ub | (_, Fuel) => Fuel
  end.
