(** Anchors, aliases, tags and directives (YAML 1.2.2, sections 5.6, 6.8, 6.9 and 7.1), stated without the
    scanner. *)
From Verif Require Import Base Tokens SpecScalar SpecJson SpecBlock SpecTree SpecStream.
From Coq Require Import String.
Local Open Scope list_scope.

(** ** Anchors *)
Definition white_or_end : text := [32; 9; 10; 13; 0]%N.
Definition flow_signs : text := str ",[]{}".
Definition anchor_byte (b : N) : Prop := ~ In b (white_or_end ++ flow_signs).
Definition anchor_name (n : text) : Prop := n <> [] /\ Forall anchor_byte n.

(** ** Tags *)
Definition word_byte (b : N) : Prop := (48 <= b <= 57 \/ 65 <= b <= 90 \/ 97 <= b <= 122 \/ b = 45)%N.
Definition uri_byte (b : N) : Prop := word_byte b \/ In b (str "#;/?:@&=+$,_.!~*'()[]").
Definition tag_byte (b : N) : Prop := uri_byte b /\ ~ In b (str "!,[]{}").
(** A byte as a percent sign and two digits. *)
Definition percent (b : N) (w : text) : Prop :=
  exists h, w = 37%N :: h /\ List.length h = 2 /\ Forall hex_digit h /\ number 16 h = Z.of_N b.
(** Characters of an address, as they are written and as they are meant; [full = false] leaves out escaped
    characters beyond ASCII. *)
Inductive uri_text (full : bool) (plain : N -> Prop) : text -> text -> Prop :=
| ut_end : uri_text full plain [] []
| ut_byte b w v : plain b -> uri_text full plain w v -> uri_text full plain (b :: w) (b :: v)
| ut_escape c u ws w v : utf8_of c u -> (full = false -> (c < 128)%N) -> Forall2 percent u ws -> uri_text full plain w v ->
    uri_text full plain (List.concat ws ++ w) (u ++ v).
(** A tag: text, handle and suffix.  Verbatim tags have no handle. *)
Inductive tag_text (full : bool) : text -> text -> text -> Prop :=
| tt_verbatim w v : w <> [] -> uri_text full uri_byte w v -> tag_text full (str "!<" ++ w ++ str ">") [] v
| tt_named h w v : Forall word_byte h -> w <> [] -> uri_text full tag_byte w v ->
    tag_text full (str "!" ++ h ++ str "!" ++ w) (str "!" ++ h ++ str "!") v
| tt_local w v : w <> [] -> uri_text full tag_byte w v -> tag_text full (str "!" ++ w) (str "!") v
| tt_none : tag_text full (str "!") [] (str "!").
(** What may follow a tag. *)
Definition tag_stop (in_flow : bool) (after : text) : Prop :=
  In (nth 0 after 0%N) white_or_end \/ (in_flow = true /\ In (nth 0 after 0%N) flow_signs).

(** ** Properties of a node *)
(** An anchor, a tag, or both in either order. *)
Inductive props_text (full : bool) : text -> props -> Prop :=
| pt_anchor n : anchor_name n -> props_text full (38%N :: n) (Props (Some n) None false)
| pt_tag w h s : tag_text full w h s -> props_text full w (Props None (Some (h, s)) false)
| pt_both n k w h s : anchor_name n -> tag_text full w h s ->
    props_text full (38%N :: n ++ repeat 32%N (S k) ++ w) (Props (Some n) (Some (h, s)) false)
| pt_back w h s k n : tag_text full w h s -> anchor_name n ->
    props_text full (w ++ repeat 32%N (S k) ++ 38%N :: n) (Props (Some n) (Some (h, s)) true).
(** The node with these properties; a node without any. *)
Definition with_props (pr : props) (t : tree) : tree :=
  match t with
  | TrEmpty _ => TrEmpty pr
  | TrAlias n => TrAlias n
  | TrScalar _ st v => TrScalar pr st v
  | TrFlowSeq _ l b => TrFlowSeq pr l b
  | TrFlowMap _ l b => TrFlowMap pr l b
  | TrBlockSeq _ l => TrBlockSeq pr l
  | TrBlockMap _ l => TrBlockMap pr l
  | TrIndentless _ l => TrIndentless pr l
  end.
Definition bare (t : tree) : Prop :=
  match t with
  | TrEmpty _ | TrAlias _ => False
  | TrScalar pr _ _ | TrFlowSeq pr _ _ | TrFlowMap pr _ _ | TrBlockSeq pr _ | TrBlockMap pr _ | TrIndentless pr _ => pr = no_props
  end.

(** ** Directives *)
Definition digit_byte (b : N) : Prop := (48 <= b <= 57)%N.
Definition blanks (w : text) : Prop := w <> [] /\ Forall white_byte w.
(** A version number; [full = false] leaves out those above 255 and those of more than nine digits. *)
Definition version_number (full : bool) (w : text) (n : N) : Prop :=
  w <> [] /\ Forall digit_byte w /\ number 10 w = Z.of_N n /\ (full = false -> (n < 256)%N /\ List.length w <= 9).
Inductive tag_handle : text -> Prop :=
| th_primary : tag_handle (str "!")
| th_named h : Forall word_byte h -> tag_handle (str "!" ++ h ++ str "!").
Inductive tag_prefix (full : bool) : text -> text -> Prop :=
| tp_local w v : uri_text full uri_byte w v -> tag_prefix full (str "!" ++ w) (str "!" ++ v)
| tp_global b w v : tag_byte b -> uri_text full uri_byte w v -> tag_prefix full (b :: w) (b :: v).
(** The text of a directive; a reserved one declares nothing. *)
Inductive directive_text (full : bool) : text -> directive -> Prop :=
| dt_version s wa a wb b : blanks s -> version_number full wa a -> version_number full wb b ->
    directive_text full (str "%YAML" ++ s ++ wa ++ str "." ++ wb) (DVersion a b)
| dt_tag s h s' w p : blanks s -> tag_handle h -> blanks s' -> tag_prefix full w p ->
    directive_text full (str "%TAG" ++ s ++ h ++ s' ++ w) (DTag h p)
| dt_reserved n r : n <> [] -> Forall word_byte n -> n <> str "YAML" -> n <> str "TAG" ->
    r = [] \/ (white_byte (nth 0 r 0%N) /\ Forall comment_byte r) -> directive_text full (str "%" ++ n ++ r) (DTag [] []).
