(** Loading documents that are one block scalar; those that fail. *)
From Verif Require Import Base Tokens Scalar Yaml LoadText ExactCursor Cursor Source Scanner ScalarDocsRead SpecBlock BlockScan BlockCut BlockDoc BlockHang.
From Coq Require Import String Lia ZifyBool ZifyNat ZifyN.
Local Open Scope list_scope.

Theorem block_document_loads literal h e digit ht b first more tail n s fuel :
  indicators h e digit -> header_rest ht -> indentation 0 digit n first -> Forall (good_line n) (first :: more) ->
  Forall (fun x => fst x <= n) tail -> s <= n ->
  s = n \/ n < 125 -> nth 0 (words first) 0%N <> 9%N \/ n <> 0 \/ before first <> [] ->
  let w := block_sign literal :: h ++ ht ++ eol b ++ flat_map (line_text n) (first :: more) ++ blank_lines tail ++ repeat 32%N s in
  List.length w + 200 <= fuel ->
  load_text fuel w = Ok [YScalar (SString (block_value literal e first more tail))].
Proof.
  intros HI HR HD HF HT HS HW HTab w F. inversion_clear HF as [|? ? HF1 HM].
  assert (EW : w = block_sign literal :: h ++ ht ++ eol b ++ block_lines n (first :: more) tail s []).
  { unfold w, block_lines. now rewrite app_nil_r. }
  rewrite EW in *. clear w EW. cbn [List.length] in F.
  rewrite (load_scalar fuel _ (if literal then Literal else Folded) (block_value literal e first more tail)).
  - destruct literal; reflexivity.
  - eapply block_scalar_doc; eauto. lia.
  - lia.
Qed.
Theorem block_scalar_scans literal h e digit ht b first more tail n s after col start pre m l a fuel :
  indicators h e digit -> header_rest ht -> indentation col digit n first -> Forall (good_line n) (first :: more) ->
  Forall (fun x => fst x <= n) tail -> block_ends n s after -> (after = [] -> s = n \/ n < 125) ->
  nth 0 (words first) 0%N <> 9%N \/ n <> 0 \/ before first <> [] ->
  let w := h ++ ht ++ eol b ++ flat_map (line_text n) (first :: more) ++ blank_lines tail ++ repeat 32%N s in
  List.length w + 5 < fuel ->
  exists m' sp, scan_block_scalar_body fuel literal col start (Cur (StrSrc (pre ++ w ++ after) (List.length pre)) m l a)
    = (Cur (StrSrc (pre ++ w ++ after) (List.length pre + List.length w)) m' true a,
       Ok (Token sp (TScalar (if literal then Literal else Folded) (block_value literal e first more tail)))) /\ m_col m' = (N.of_nat s + 1)%N.
Proof.
  intros HI HR HD HF HT HE HW HTab w F. inversion_clear HF as [|? ? HF1 HM].
  assert (EW : forall x, w ++ x = h ++ ht ++ eol b ++ block_lines n (first :: more) tail s x).
  { intros x. unfold w, block_lines. now rewrite <- !app_assoc. }
  assert (EN : w = h ++ ht ++ eol b ++ block_lines n (first :: more) tail s []) by (rewrite <- EW; now rewrite app_nil_r).
  destruct (e_block_scalar literal h e digit ht b first more tail n s after col start fuel pre m l a) as (m' & sp & E & C & _); auto.
  { rewrite <- EN. exact F. }
  exists m', sp. split; [|exact C]. rewrite <- EN, <- EW in E. unfold cur in E. rewrite E. rewrite app_length, <- app_assoc. reflexivity.
Qed.

Theorem cut_document_loads literal h e digit ht b l last n fuel :
  indicators h e digit -> header_rest ht -> indentation 0 digit n (hd last l) -> Forall (good_line n) l -> good_line n last ->
  nth 0 (words (hd last l)) 0%N <> 9%N \/ n <> 0 \/ before (hd last l) <> [] ->
  let w := block_sign literal :: h ++ ht ++ eol b ++ cut_lines n l last in
  List.length w + 200 <= fuel ->
  load_text fuel w = Ok [YScalar (SString (block_text literal (l ++ [last]) ++ match e with Stripped => [] | _ => [10%N] end))].
Proof.
  intros HI HR HD HL HF HTab w F. unfold w in *. clear w. cbn [List.length] in F.
  destruct (e_block_cut literal h e digit ht b l last n 0 (Marker 0 1 1) fuel [block_sign literal] (mark_add 1 (Marker 0 1 1)) false true) as (m' & l' & sp & E); auto; [lia|].
  rewrite (load_scalar fuel _ (if literal then Literal else Folded) (cut_value literal e (l ++ [last]))).
  - destruct literal; reflexivity.
  - eapply block_doc; [exact E|lia].
  - lia.
Qed.

(** ** Failures *)
Lemma empty_not_loaded fuel : load_text fuel [124; 10]%N <> Ok [YScalar (SString [])].
Proof. do 30 (destruct fuel as [|fuel]; [vm_compute; discriminate|]). vm_compute. discriminate. Qed.
Lemma tab_first_not_loaded fuel y : load_text fuel [124; 10; 9; 97; 10]%N <> Ok y.
Proof. do 30 (destruct fuel as [|fuel]; [vm_compute; discriminate|]). vm_compute. discriminate. Qed.
Lemma wide_not_loaded fuel : load_text fuel (wide_text 125) = Fuel.
Proof.
  pose proof (wide_hangs fuel) as H. unfold load_text. destruct (scan fuel (wide_text 125)) as [toks [z []]]; try discriminate H. reflexivity.
Qed.
Lemma empty_document : block_document true [124; 10]%N [].
Proof. exact (bd_empty true [] Clipped None [] false [] in_none (hr_blanks [] (Forall_nil _)) (Forall_nil _)). Qed.
Lemma tab_document : block_document true [124; 10; 9; 97; 10]%N [9; 97; 10]%N.
Proof.
  refine (bd_lines true [] Clipped None [] false (Line [] [9; 97]%N false) [] [] 0 0 in_none (hr_blanks [] (Forall_nil _)) _ _ (Forall_nil _) (le_n _)).
  - split; [cbn; lia|discriminate].
  - constructor; [|constructor]. repeat split; [constructor|discriminate|cbn; lia|cbn; lia|]. intros _ (c & r & [-> | ->] & E & _); discriminate.
Qed.
Lemma wide_document : block_document true (wide_text 125) [97; 10]%N.
Proof.
  refine (bd_lines true [] Clipped None [] false (Line [] [97]%N false) [] [] 125 0 in_none (hr_blanks [] (Forall_nil _)) _ _ (Forall_nil _) _).
  - split; [lia|discriminate].
  - constructor; [|constructor]. repeat split; [constructor|discriminate|cbn; lia|cbn; lia|]. discriminate.
  - lia.
Qed.
Lemma cut_clipped : cut_document true [124; 10; 97]%N [97]%N.
Proof.
  refine (cd_lines true [] Clipped None [] false [] (Line [] [97]%N false) 0 in_none (hr_blanks [] (Forall_nil _)) _ (Forall_nil _) _).
  - split; [cbn; lia|discriminate].
  - repeat split; [constructor|discriminate|cbn; lia|cbn; lia|]. intros _ (c & r & [-> | ->] & E & _); discriminate.
Qed.
Lemma cut_not_loaded fuel : load_text fuel [124; 10; 97]%N <> Ok [YScalar (SString [97]%N)].
Proof. do 30 (destruct fuel as [|fuel]; [vm_compute; discriminate|]). vm_compute. discriminate. Qed.
