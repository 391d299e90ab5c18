(** The project's own event tests (yam-test-bench/tests/yam_test_saph.rs:7-331, texts in
    yam-test-bench/src/consts.rs), run on the model of scanner and parser.  These are tests of the
    model, not proofs: they show that it behaves as the code is expected to on these texts.
    Cases that expect an error are left out: the project's helper does not check them. *)
From Verif Require Import Base Tokens Source Cursor Scanner Parser Pipeline.
From Coq Require Import String.

(** [Parser::get_anchor] as the test helper uses it (yam-test-bench/src/lib.rs:92-95). *)
Definition anchor_name (p : parser) (id : nat) : option text :=
  option_map fst (find (fun x => Nat.eqb (snd x) id) (p_anchors p)).
(** [extract_anchor] (yam-test-bench/src/lib.rs:146-155). *)
Definition show_anchor (p : parser) (id : nat) : text :=
  match anchor_name p id with Some n => str " &" ++ n | None => [] end.
(** [extract_tag_full] (yam-test-bench/src/lib.rs:132-144). *)
Definition show_tag (t : option tag) : text :=
  match t with Some t => str " <" ++ t_handle t ++ t_suffix t ++ str ">" | None => [] end.
(** [Display] of the scalar type (used at yam-test-bench/src/lib.rs:106). *)
Definition show_style (s : scalar_type) : text :=
  match s with
  | Plain => str ":" | Folded => str ">" | Literal => str "|" | SingleQuote => str "'"
  | DoubleQuote => str """"
  end.
(** One line of [write_str_from_event] without the stream events (yam-test-bench/src/lib.rs:77-125). *)
Definition show_event (p : parser) (e : event) : text :=
  match e with
  | EStreamStart | EStreamEnd => []
  | EDocumentStart _ => str "+DOC" ++ [10%N]
  | EDocumentEnd => str "-DOC" ++ [10%N]
  | EAlias id => str "=ALI *" ++ match anchor_name p id with Some n => n | None => [] end ++ [10%N]
  | EScalar v =>
      str "=VAL" ++ show_anchor p (sv_anchor v) ++ show_tag (sv_tag v) ++ str " "
        ++ show_style (sv_type v) ++ sv_value v ++ [10%N]
  | ESequenceStart a t => str "+SEQ" ++ show_anchor p a ++ show_tag t ++ [10%N]
  | ESequenceEnd => str "-SEQ" ++ [10%N]
  | EMappingStart a t => str "+MAP" ++ show_anchor p a ++ show_tag t ++ [10%N]
  | EMappingEnd => str "-MAP" ++ [10%N]
  end.
(** The loop of [write_str_from_event] (yam-test-bench/src/lib.rs:85-122). *)
Fixpoint show_events (n : nat) (p : parser) : text :=
  match n with
  | O => str "FUEL"
  | S n =>
      match next_event p with
      | (p', Some (Ok (e, _))) => show_event p' e ++ show_events n p'
      | _ => []
      end
  end.
(** White space trimmed at the end of the result (yam-test-bench/src/lib.rs:127-129). *)
Fixpoint trim (l : text) : text :=
  match l with
  | c :: r => if (N.eqb c 32 || N.eqb c 10 || N.eqb c 9 || N.eqb c 13)%bool then trim r else l
  | [] => []
  end.
(** [assert_eq_event_case_with_opts] with [FormatOpts::InlineTest] (yam-test-bench/src/lib.rs:30-42). *)
Definition passes (i expected : text) : bool :=
  text_eqb
    (rev (trim (rev (10%N :: show_events 3000 (parser_of_text 3000 i false))))) expected.

Example test_block_lit_plain1 : passes
  [10; 32; 32; 97; 10; 32; 32; 98; 10; 32; 32; 99; 10; 32; 32; 32; 32; 100; 10; 32; 32; 101;
   10]%N
  [10; 43; 68; 79; 67; 10; 61; 86; 65; 76; 32; 58; 97; 32; 98; 32; 99; 32; 100; 32; 101; 10; 45;
   68; 79; 67]%N = true.
Proof. vm_compute. reflexivity. Qed.
Example test_block_lit_plain2 : passes
  [10; 97; 10; 98; 10; 32; 32; 99; 10; 100; 10; 10; 101; 10; 10]%N
  [10; 43; 68; 79; 67; 10; 61; 86; 65; 76; 32; 58; 97; 32; 98; 32; 99; 32; 100; 10; 101; 10; 45;
   68; 79; 67]%N = true.
Proof. vm_compute. reflexivity. Qed.
Example test_block_lit_plain_escape : passes
  [10; 98; 108; 111; 99; 107; 58; 32; 124; 10; 32; 32; 72; 101; 108; 108; 111; 92; 110]%N
  [10; 43; 68; 79; 67; 10; 43; 77; 65; 80; 10; 61; 86; 65; 76; 32; 58; 98; 108; 111; 99; 107;
   10; 61; 86; 65; 76; 32; 124; 72; 101; 108; 108; 111; 92; 110; 10; 10; 45; 77; 65; 80; 10; 45;
   68; 79; 67]%N = true.
Proof. vm_compute. reflexivity. Qed.
Example test_block_lit_plain1_again2 : passes
  [10; 45; 45; 45; 32; 124; 49; 43; 32; 35; 116; 115; 116; 115]%N
  [10; 43; 68; 79; 67; 10; 61; 86; 65; 76; 32; 124; 10; 45; 68; 79; 67]%N = true.
Proof. vm_compute. reflexivity. Qed.
Example test_block_lit_plain2_again2 : passes
  [10; 45; 45; 45; 32; 124; 49; 45]%N
  [10; 43; 68; 79; 67; 10; 61; 86; 65; 76; 32; 124; 10; 45; 68; 79; 67]%N = true.
Proof. vm_compute. reflexivity. Qed.
Example test_block_lit_plain3 : passes
  [10; 45; 45; 45; 32; 124; 43; 10; 32; 97; 98; 10; 10; 32; 32; 10; 46; 46; 46]%N
  [10; 43; 68; 79; 67; 10; 61; 86; 65; 76; 32; 124; 97; 98; 10; 10; 32; 10; 10; 45; 68; 79;
   67]%N = true.
Proof. vm_compute. reflexivity. Qed.
Example test_block_lit_fold_block : passes
  [10; 62; 10; 32; 97; 10; 32; 98; 10; 10; 32; 99; 10; 10; 10; 32; 100]%N
  [10; 43; 68; 79; 67; 10; 61; 86; 65; 76; 32; 62; 97; 32; 98; 10; 99; 10; 10; 100; 10; 10; 45;
   68; 79; 67]%N = true.
Proof. vm_compute. reflexivity. Qed.
Example test_block_lit_fold_simple1 : passes
  [10; 45; 45; 45; 32; 62; 49; 43]%N
  [10; 43; 68; 79; 67; 10; 61; 86; 65; 76; 32; 62; 10; 45; 68; 79; 67]%N = true.
Proof. vm_compute. reflexivity. Qed.
Example test_block_lit_fold_simple2 : passes
  [10; 45; 45; 45; 32; 62; 49; 45]%N
  [10; 43; 68; 79; 67; 10; 61; 86; 65; 76; 32; 62; 10; 45; 68; 79; 67]%N = true.
Proof. vm_compute. reflexivity. Qed.
Example test_block_lit_fold1 : passes
  [10; 32; 32; 45; 32; 62; 49; 45; 10; 32; 32; 32; 49; 10; 32; 32; 32; 32; 50; 10; 32; 32; 32;
   51; 10; 32; 32; 32; 52; 10; 10]%N
  [10; 43; 68; 79; 67; 10; 43; 83; 69; 81; 10; 61; 86; 65; 76; 32; 62; 49; 10; 32; 50; 10; 51;
   32; 52; 10; 45; 83; 69; 81; 10; 45; 68; 79; 67]%N = true.
Proof. vm_compute. reflexivity. Qed.
Example test_block_lit_fold2 : passes
  [10; 32; 62; 10; 10; 10; 32; 32; 118; 97; 108; 105; 100; 10]%N
  [10; 43; 68; 79; 67; 10; 61; 86; 65; 76; 32; 62; 10; 10; 118; 97; 108; 105; 100; 10; 10; 45;
   68; 79; 67]%N = true.
Proof. vm_compute. reflexivity. Qed.
Example test_block_lit_plain_block : passes
  [10; 32; 112; 108; 97; 105; 110; 58; 10; 32; 32; 32; 115; 112; 97; 110; 115; 10; 32; 32; 32;
   108; 105; 110; 101; 115; 10; 10; 32; 113; 117; 111; 116; 101; 100; 58; 10; 32; 32; 32; 34;
   116; 101; 120; 116; 34; 10]%N
  [10; 43; 68; 79; 67; 10; 43; 77; 65; 80; 10; 61; 86; 65; 76; 32; 58; 112; 108; 97; 105; 110;
   10; 61; 86; 65; 76; 32; 58; 115; 112; 97; 110; 115; 32; 108; 105; 110; 101; 115; 10; 61; 86;
   65; 76; 32; 58; 113; 117; 111; 116; 101; 100; 10; 61; 86; 65; 76; 32; 34; 116; 101; 120; 116;
   10; 45; 77; 65; 80; 10; 45; 68; 79; 67]%N = true.
Proof. vm_compute. reflexivity. Qed.
Example test_block_lit_plain_chomp : passes
  [10; 67; 104; 111; 109; 112; 105; 110; 103; 58; 32; 124; 10; 32; 32; 67; 108; 105; 112; 112;
   101; 100; 10; 10]%N
  [10; 43; 68; 79; 67; 10; 43; 77; 65; 80; 10; 61; 86; 65; 76; 32; 58; 67; 104; 111; 109; 112;
   105; 110; 103; 10; 61; 86; 65; 76; 32; 124; 67; 108; 105; 112; 112; 101; 100; 10; 10; 45; 77;
   65; 80; 10; 45; 68; 79; 67]%N = true.
Proof. vm_compute. reflexivity. Qed.
Example test_block_lit_plain_str : passes
  [10; 115; 116; 114; 105; 112; 58; 32; 124; 45; 10; 32; 32; 116; 101; 120; 116; 10; 99; 108;
   105; 112; 58; 32; 124; 10; 32; 32; 116; 101; 120; 116; 10; 107; 101; 101; 112; 58; 32; 124;
   43; 10; 32; 32; 116; 101; 120; 116]%N
  [10; 43; 68; 79; 67; 10; 43; 77; 65; 80; 10; 61; 86; 65; 76; 32; 58; 115; 116; 114; 105; 112;
   10; 61; 86; 65; 76; 32; 124; 116; 101; 120; 116; 10; 61; 86; 65; 76; 32; 58; 99; 108; 105;
   112; 10; 61; 86; 65; 76; 32; 124; 116; 101; 120; 116; 10; 10; 61; 86; 65; 76; 32; 58; 107;
   101; 101; 112; 10; 61; 86; 65; 76; 32; 124; 116; 101; 120; 116; 10; 10; 45; 77; 65; 80; 10;
   45; 68; 79; 67]%N = true.
Proof. vm_compute. reflexivity. Qed.
Example test_block_lit_plain_multiline : passes
  [10; 103; 101; 110; 101; 114; 105; 99; 58; 32; 33; 33; 115; 116; 114; 32; 124; 10; 32; 116;
   101; 115; 116; 10; 32; 116; 101; 115; 116; 10]%N
  [10; 43; 68; 79; 67; 10; 43; 77; 65; 80; 10; 61; 86; 65; 76; 32; 58; 103; 101; 110; 101; 114;
   105; 99; 10; 61; 86; 65; 76; 32; 60; 116; 97; 103; 58; 121; 97; 109; 108; 46; 111; 114; 103;
   44; 50; 48; 48; 50; 58; 115; 116; 114; 62; 32; 124; 116; 101; 115; 116; 10; 116; 101; 115;
   116; 10; 10; 45; 77; 65; 80; 10; 45; 68; 79; 67]%N = true.
Proof. vm_compute. reflexivity. Qed.
Example test_block_multi : passes
  [10; 49; 115; 116; 32; 108; 105; 110; 101; 10; 10; 32; 50; 110; 100; 32; 110; 111; 110; 10;
   32; 32; 32; 32; 51; 114; 100; 32; 110; 111; 110; 10]%N
  [10; 43; 68; 79; 67; 10; 61; 86; 65; 76; 32; 58; 49; 115; 116; 32; 108; 105; 110; 101; 10; 50;
   110; 100; 32; 110; 111; 110; 32; 51; 114; 100; 32; 110; 111; 110; 10; 45; 68; 79; 67]%N = true.
Proof. vm_compute. reflexivity. Qed.
Example test_block_tag : passes
  [10; 37; 84; 65; 71; 32; 33; 101; 33; 32; 116; 97; 103; 58; 101; 120; 97; 109; 112; 108; 101;
   46; 99; 111; 109; 44; 50; 48; 48; 48; 58; 97; 112; 112; 47; 10; 45; 45; 45; 10; 45; 32; 33;
   108; 111; 99; 97; 108; 32; 102; 111; 111; 10; 45; 32; 33; 33; 115; 116; 114; 32; 98; 97; 114;
   10; 45; 32; 33; 101; 33; 116; 97; 103; 37; 50; 49; 32; 98; 97; 122]%N
  [10; 43; 68; 79; 67; 10; 43; 83; 69; 81; 10; 61; 86; 65; 76; 32; 60; 33; 108; 111; 99; 97;
   108; 62; 32; 58; 102; 111; 111; 10; 61; 86; 65; 76; 32; 60; 116; 97; 103; 58; 121; 97; 109;
   108; 46; 111; 114; 103; 44; 50; 48; 48; 50; 58; 115; 116; 114; 62; 32; 58; 98; 97; 114; 10;
   61; 86; 65; 76; 32; 60; 116; 97; 103; 58; 101; 120; 97; 109; 112; 108; 101; 46; 99; 111; 109;
   44; 50; 48; 48; 48; 58; 97; 112; 112; 47; 116; 97; 103; 33; 62; 32; 58; 98; 97; 122; 10; 45;
   83; 69; 81; 10; 45; 68; 79; 67]%N = true.
Proof. vm_compute. reflexivity. Qed.
Example test_block_short_tag : passes
  [10; 45; 45; 45; 10; 45; 32; 33; 108; 111; 99; 97; 108; 32; 102; 111; 111; 10; 45; 32; 33; 33;
   115; 116; 114; 32; 98; 97; 114; 10]%N
  [10; 43; 68; 79; 67; 10; 43; 83; 69; 81; 10; 61; 86; 65; 76; 32; 60; 33; 108; 111; 99; 97;
   108; 62; 32; 58; 102; 111; 111; 10; 61; 86; 65; 76; 32; 60; 116; 97; 103; 58; 121; 97; 109;
   108; 46; 111; 114; 103; 44; 50; 48; 48; 50; 58; 115; 116; 114; 62; 32; 58; 98; 97; 114; 10;
   45; 83; 69; 81; 10; 45; 68; 79; 67]%N = true.
Proof. vm_compute. reflexivity. Qed.
Example test_block_tag1_1 : passes
  [10; 32; 32; 33; 33; 115; 116; 114; 32; 97]%N
  [10; 43; 68; 79; 67; 10; 61; 86; 65; 76; 32; 60; 116; 97; 103; 58; 121; 97; 109; 108; 46; 111;
   114; 103; 44; 50; 48; 48; 50; 58; 115; 116; 114; 62; 32; 58; 97; 10; 45; 68; 79; 67]%N = true.
Proof. vm_compute. reflexivity. Qed.
Example test_block_tag1_2 : passes
  [10; 32; 32; 33; 33; 115; 116; 114; 10; 32; 32; 97]%N
  [10; 43; 68; 79; 67; 10; 61; 86; 65; 76; 32; 60; 116; 97; 103; 58; 121; 97; 109; 108; 46; 111;
   114; 103; 44; 50; 48; 48; 50; 58; 115; 116; 114; 62; 32; 58; 97; 10; 45; 68; 79; 67]%N = true.
Proof. vm_compute. reflexivity. Qed.
Example test_block_tag_def : passes
  [10; 32; 33; 32; 116; 101; 115; 116; 10]%N
  [10; 43; 68; 79; 67; 10; 61; 86; 65; 76; 32; 60; 33; 62; 32; 58; 116; 101; 115; 116; 10; 45;
   68; 79; 67]%N = true.
Proof. vm_compute. reflexivity. Qed.
Example test_block_tag_exp : passes
  [10; 33; 60; 116; 97; 103; 58; 121; 97; 109; 108; 46; 111; 114; 103; 44; 50; 48; 48; 50; 58;
   115; 116; 114; 62; 32; 102; 111; 111; 32; 58; 10; 32; 32; 33; 60; 33; 98; 97; 114; 62; 32;
   98; 97; 122]%N
  [10; 43; 68; 79; 67; 10; 43; 77; 65; 80; 10; 61; 86; 65; 76; 32; 60; 116; 97; 103; 58; 121;
   97; 109; 108; 46; 111; 114; 103; 44; 50; 48; 48; 50; 58; 115; 116; 114; 62; 32; 58; 102; 111;
   111; 10; 61; 86; 65; 76; 32; 60; 33; 98; 97; 114; 62; 32; 58; 98; 97; 122; 10; 45; 77; 65;
   80; 10; 45; 68; 79; 67]%N = true.
Proof. vm_compute. reflexivity. Qed.
Example test_block_complex_tag : passes
  [10; 45; 32; 33; 33; 115; 116; 114; 32; 99; 10; 45; 45; 45; 32; 33; 33; 115; 116; 114; 10;
   100; 10; 101]%N
  [10; 43; 68; 79; 67; 10; 43; 83; 69; 81; 10; 61; 86; 65; 76; 32; 60; 116; 97; 103; 58; 121;
   97; 109; 108; 46; 111; 114; 103; 44; 50; 48; 48; 50; 58; 115; 116; 114; 62; 32; 58; 99; 10;
   45; 83; 69; 81; 10; 45; 68; 79; 67; 10; 43; 68; 79; 67; 10; 61; 86; 65; 76; 32; 60; 116; 97;
   103; 58; 121; 97; 109; 108; 46; 111; 114; 103; 44; 50; 48; 48; 50; 58; 115; 116; 114; 62; 32;
   58; 100; 32; 101; 10; 45; 68; 79; 67]%N = true.
Proof. vm_compute. reflexivity. Qed.
Example test_block_anchor_colon : passes
  [10; 38; 110; 111; 100; 101; 51; 58; 32; 32; 107; 101; 121; 32; 58; 32; 115; 99; 97; 108; 97;
   114; 51; 10; 42; 110; 111; 100; 101; 51; 58; 32; 58; 32; 120]%N
  [10; 43; 68; 79; 67; 10; 43; 77; 65; 80; 10; 61; 86; 65; 76; 32; 38; 110; 111; 100; 101; 51;
   58; 32; 58; 107; 101; 121; 10; 61; 86; 65; 76; 32; 58; 115; 99; 97; 108; 97; 114; 51; 10; 61;
   65; 76; 73; 32; 42; 110; 111; 100; 101; 51; 58; 10; 61; 86; 65; 76; 32; 58; 120; 10; 45; 77;
   65; 80; 10; 45; 68; 79; 67]%N = true.
Proof. vm_compute. reflexivity. Qed.
Example test_block_multiline_comment1 : passes
  [10; 32; 32; 109; 117; 108; 58; 10; 32; 32; 32; 32; 97; 98; 99; 32; 32; 35; 32; 97; 32; 99;
   111; 109; 109; 101; 110; 116; 10]%N
  [10; 43; 68; 79; 67; 10; 43; 77; 65; 80; 10; 61; 86; 65; 76; 32; 58; 109; 117; 108; 10; 61;
   86; 65; 76; 32; 58; 97; 98; 99; 10; 45; 77; 65; 80; 10; 45; 68; 79; 67]%N = true.
Proof. vm_compute. reflexivity. Qed.
Example test_block_multiline_comment1_2 : passes
  [10; 32; 32; 109; 117; 108; 32; 32; 58; 10; 32; 32; 32; 32; 97; 98; 99; 32; 32; 35; 32; 97;
   32; 99; 111; 109; 109; 101; 110; 116; 10]%N
  [10; 43; 68; 79; 67; 10; 43; 77; 65; 80; 10; 61; 86; 65; 76; 32; 58; 109; 117; 108; 10; 61;
   86; 65; 76; 32; 58; 97; 98; 99; 10; 45; 77; 65; 80; 10; 45; 68; 79; 67]%N = true.
Proof. vm_compute. reflexivity. Qed.
Example test_block_multiline_comment3 : passes
  [10; 32; 32; 109; 117; 108; 116; 105; 58; 10; 32; 32; 32; 32; 97; 98; 10; 32; 32; 32; 32; 120;
   121; 122; 32; 32; 35; 32; 97; 32; 99; 111; 109; 109; 101; 101; 110; 116; 10]%N
  [10; 43; 68; 79; 67; 10; 43; 77; 65; 80; 10; 61; 86; 65; 76; 32; 58; 109; 117; 108; 116; 105;
   10; 61; 86; 65; 76; 32; 58; 97; 98; 32; 120; 121; 122; 10; 45; 77; 65; 80; 10; 45; 68; 79;
   67]%N = true.
Proof. vm_compute. reflexivity. Qed.
Example test_block_seq_empty1 : passes
  [10; 45; 10]%N
  [10; 43; 68; 79; 67; 10; 43; 83; 69; 81; 10; 61; 86; 65; 76; 32; 58; 10; 45; 83; 69; 81; 10;
   45; 68; 79; 67]%N = true.
Proof. vm_compute. reflexivity. Qed.
Example test_block_seq_empty2 : passes
  [10; 45; 10; 45; 32]%N
  [10; 43; 68; 79; 67; 10; 43; 83; 69; 81; 10; 61; 86; 65; 76; 32; 58; 10; 61; 86; 65; 76; 32;
   58; 10; 45; 83; 69; 81; 10; 45; 68; 79; 67]%N = true.
Proof. vm_compute. reflexivity. Qed.
Example test_block_seq_multi : passes
  [10; 45; 32; 97; 10; 32; 98; 10; 10; 32; 99]%N
  [10; 43; 68; 79; 67; 10; 43; 83; 69; 81; 10; 61; 86; 65; 76; 32; 58; 97; 32; 98; 10; 99; 10;
   45; 83; 69; 81; 10; 45; 68; 79; 67]%N = true.
Proof. vm_compute. reflexivity. Qed.
Example test_block_seq_alias_seq1 : passes
  [10; 38; 115; 101; 113; 10; 32; 45; 32; 97; 10; 32]%N
  [10; 43; 68; 79; 67; 10; 43; 83; 69; 81; 32; 38; 115; 101; 113; 10; 61; 86; 65; 76; 32; 58;
   97; 10; 45; 83; 69; 81; 10; 45; 68; 79; 67]%N = true.
Proof. vm_compute. reflexivity. Qed.
Example test_block_seq_alias_seq3 : passes
  [10; 32; 32; 45; 32; 38; 110; 111; 100; 101; 32; 97; 10; 32; 32]%N
  [10; 43; 68; 79; 67; 10; 43; 83; 69; 81; 10; 61; 86; 65; 76; 32; 38; 110; 111; 100; 101; 32;
   58; 97; 10; 45; 83; 69; 81; 10; 45; 68; 79; 67]%N = true.
Proof. vm_compute. reflexivity. Qed.
Example test_block_seq_nested : passes
  [10; 32; 32; 45; 32; 45; 32; 97; 10; 32; 32; 32; 32; 45; 32; 98; 10; 32; 32; 32; 32; 45; 32;
   45; 32; 99; 10; 32; 32; 45; 32; 100; 10]%N
  [10; 43; 68; 79; 67; 10; 43; 83; 69; 81; 10; 43; 83; 69; 81; 10; 61; 86; 65; 76; 32; 58; 97;
   10; 61; 86; 65; 76; 32; 58; 98; 10; 43; 83; 69; 81; 10; 61; 86; 65; 76; 32; 58; 99; 10; 45;
   83; 69; 81; 10; 45; 83; 69; 81; 10; 61; 86; 65; 76; 32; 58; 100; 10; 45; 83; 69; 81; 10; 45;
   68; 79; 67]%N = true.
Proof. vm_compute. reflexivity. Qed.
Example test_block_seq_block1 : passes
  [10; 32; 32; 32; 32; 45; 32; 120; 10; 32; 32; 32; 32; 45; 32; 121; 10]%N
  [10; 43; 68; 79; 67; 10; 43; 83; 69; 81; 10; 61; 86; 65; 76; 32; 58; 120; 10; 61; 86; 65; 76;
   32; 58; 121; 10; 45; 83; 69; 81; 10; 45; 68; 79; 67]%N = true.
Proof. vm_compute. reflexivity. Qed.
Example test_block_seq_block2 : passes
  [10; 45; 32; 120; 10; 45; 32; 121; 10]%N
  [10; 43; 68; 79; 67; 10; 43; 83; 69; 81; 10; 61; 86; 65; 76; 32; 58; 120; 10; 61; 86; 65; 76;
   32; 58; 121; 10; 45; 83; 69; 81; 10; 45; 68; 79; 67]%N = true.
Proof. vm_compute. reflexivity. Qed.
Example test_block_seq_plain1 : passes
  [10; 32; 32; 45; 32; 120; 10; 32; 32; 32; 45; 32; 121; 10]%N
  [10; 43; 68; 79; 67; 10; 43; 83; 69; 81; 10; 61; 86; 65; 76; 32; 58; 120; 32; 45; 32; 121; 10;
   45; 83; 69; 81; 10; 45; 68; 79; 67]%N = true.
Proof. vm_compute. reflexivity. Qed.
Example test_block_seq_plain2 : passes
  [10; 45; 32; 120; 32; 45; 32; 121; 10]%N
  [10; 43; 68; 79; 67; 10; 43; 83; 69; 81; 10; 61; 86; 65; 76; 32; 58; 120; 32; 45; 32; 121; 10;
   45; 83; 69; 81; 10; 45; 68; 79; 67]%N = true.
Proof. vm_compute. reflexivity. Qed.
Example test_block_map_simple1 : passes
  [10; 97; 58; 32; 98; 10]%N
  [10; 43; 68; 79; 67; 10; 43; 77; 65; 80; 10; 61; 86; 65; 76; 32; 58; 97; 10; 61; 86; 65; 76;
   32; 58; 98; 10; 45; 77; 65; 80; 10; 45; 68; 79; 67]%N = true.
Proof. vm_compute. reflexivity. Qed.
Example test_block_map_simple2 : passes
  [10; 97; 58; 10; 32; 32; 98; 10]%N
  [10; 43; 68; 79; 67; 10; 43; 77; 65; 80; 10; 61; 86; 65; 76; 32; 58; 97; 10; 61; 86; 65; 76;
   32; 58; 98; 10; 45; 77; 65; 80; 10; 45; 68; 79; 67]%N = true.
Proof. vm_compute. reflexivity. Qed.
Example test_block_map_multi : passes
  [10; 120; 58; 32; 97; 10; 32; 98; 10; 10; 32; 99]%N
  [10; 43; 68; 79; 67; 10; 43; 77; 65; 80; 10; 61; 86; 65; 76; 32; 58; 120; 10; 61; 86; 65; 76;
   32; 58; 97; 32; 98; 10; 99; 10; 45; 77; 65; 80; 10; 45; 68; 79; 67]%N = true.
Proof. vm_compute. reflexivity. Qed.
Example test_block_map_alias1 : passes
  [10; 34; 116; 111; 112; 49; 34; 32; 58; 32; 38; 110; 111; 100; 101; 10; 32; 32; 38; 120; 49;
   32; 39; 107; 101; 121; 49; 39; 32; 58; 32; 39; 118; 97; 108; 39; 10; 10; 39; 116; 111; 112;
   50; 39; 32; 58; 10; 32; 32; 42; 120; 49; 32; 58; 32; 32; 115; 99; 97; 108; 97; 114; 50; 10]%N
  [10; 43; 68; 79; 67; 10; 43; 77; 65; 80; 10; 61; 86; 65; 76; 32; 34; 116; 111; 112; 49; 10;
   43; 77; 65; 80; 32; 38; 110; 111; 100; 101; 10; 61; 86; 65; 76; 32; 38; 120; 49; 32; 39; 107;
   101; 121; 49; 10; 61; 86; 65; 76; 32; 39; 118; 97; 108; 10; 45; 77; 65; 80; 10; 61; 86; 65;
   76; 32; 39; 116; 111; 112; 50; 10; 43; 77; 65; 80; 10; 61; 65; 76; 73; 32; 42; 120; 49; 10;
   61; 86; 65; 76; 32; 58; 115; 99; 97; 108; 97; 114; 50; 10; 45; 77; 65; 80; 10; 45; 77; 65;
   80; 10; 45; 68; 79; 67]%N = true.
Proof. vm_compute. reflexivity. Qed.
Example test_block_map_alias2 : passes
  [10; 116; 111; 112; 51; 58; 32; 38; 97; 108; 105; 97; 115; 49; 10; 32; 32; 42; 97; 108; 105;
   97; 115; 49; 32; 58; 32; 115; 99; 97; 108; 97; 114; 51; 10; 32]%N
  [10; 43; 68; 79; 67; 10; 43; 77; 65; 80; 10; 61; 86; 65; 76; 32; 58; 116; 111; 112; 51; 10;
   43; 77; 65; 80; 32; 38; 97; 108; 105; 97; 115; 49; 10; 61; 65; 76; 73; 32; 42; 97; 108; 105;
   97; 115; 49; 10; 61; 86; 65; 76; 32; 58; 115; 99; 97; 108; 97; 114; 51; 10; 45; 77; 65; 80;
   10; 45; 77; 65; 80; 10; 45; 68; 79; 67]%N = true.
Proof. vm_compute. reflexivity. Qed.
Example test_block_map_alias_comp : passes
  [10; 38; 109; 97; 112; 10; 38; 107; 101; 121; 32; 91; 32; 38; 105; 116; 101; 109; 32; 97; 44;
   32; 98; 93; 58; 32; 118; 97; 108; 117; 101; 10]%N
  [10; 43; 68; 79; 67; 10; 43; 77; 65; 80; 32; 38; 109; 97; 112; 10; 43; 83; 69; 81; 32; 38;
   107; 101; 121; 10; 61; 86; 65; 76; 32; 38; 105; 116; 101; 109; 32; 58; 97; 10; 61; 86; 65;
   76; 32; 58; 98; 10; 45; 83; 69; 81; 10; 61; 86; 65; 76; 32; 58; 118; 97; 108; 117; 101; 10;
   45; 77; 65; 80; 10; 45; 68; 79; 67]%N = true.
Proof. vm_compute. reflexivity. Qed.
Example test_block_map_quotes : passes
  [10; 34; 100; 111; 117; 98; 108; 101; 34; 32; 58; 10; 32; 32; 39; 115; 105; 110; 103; 108;
   101; 39; 32; 32; 58; 32; 32; 32; 38; 97; 108; 105; 97; 115; 32; 112; 108; 97; 105; 110; 10]%N
  [10; 43; 68; 79; 67; 10; 43; 77; 65; 80; 10; 61; 86; 65; 76; 32; 34; 100; 111; 117; 98; 108;
   101; 10; 43; 77; 65; 80; 10; 61; 86; 65; 76; 32; 39; 115; 105; 110; 103; 108; 101; 10; 61;
   86; 65; 76; 32; 38; 97; 108; 105; 97; 115; 32; 58; 112; 108; 97; 105; 110; 10; 45; 77; 65;
   80; 10; 45; 77; 65; 80; 10; 45; 68; 79; 67]%N = true.
Proof. vm_compute. reflexivity. Qed.
Example test_block_map_double_quotes : passes
  [10; 113; 117; 111; 116; 101; 58; 32; 34; 97; 92; 47; 98; 34; 10]%N
  [10; 43; 68; 79; 67; 10; 43; 77; 65; 80; 10; 61; 86; 65; 76; 32; 58; 113; 117; 111; 116; 101;
   10; 61; 86; 65; 76; 32; 34; 97; 47; 98; 10; 45; 77; 65; 80; 10; 45; 68; 79; 67]%N = true.
Proof. vm_compute. reflexivity. Qed.
Example test_block_map_double_quotes_mul : passes
  [10; 113; 117; 111; 116; 101; 100; 58; 32; 34; 109; 117; 108; 116; 105; 10; 32; 32; 108; 105;
   110; 101; 34; 10; 32]%N
  [10; 43; 68; 79; 67; 10; 43; 77; 65; 80; 10; 61; 86; 65; 76; 32; 58; 113; 117; 111; 116; 101;
   100; 10; 61; 86; 65; 76; 32; 34; 109; 117; 108; 116; 105; 32; 108; 105; 110; 101; 10; 45; 77;
   65; 80; 10; 45; 68; 79; 67]%N = true.
Proof. vm_compute. reflexivity. Qed.
Example test_block_map_empty : passes
  [10; 58; 32; 97; 10; 58; 32; 98; 10]%N
  [10; 43; 68; 79; 67; 10; 43; 77; 65; 80; 10; 61; 86; 65; 76; 32; 58; 10; 61; 86; 65; 76; 32;
   58; 97; 10; 61; 86; 65; 76; 32; 58; 10; 61; 86; 65; 76; 32; 58; 98; 10; 45; 77; 65; 80; 10;
   45; 68; 79; 67]%N = true.
Proof. vm_compute. reflexivity. Qed.
Example test_block_map_empty_nested : passes
  [10; 97; 32; 58; 10; 32; 98; 58; 10; 32; 32; 99; 58; 10; 100; 58]%N
  [10; 43; 68; 79; 67; 10; 43; 77; 65; 80; 10; 61; 86; 65; 76; 32; 58; 97; 10; 43; 77; 65; 80;
   10; 61; 86; 65; 76; 32; 58; 98; 10; 43; 77; 65; 80; 10; 61; 86; 65; 76; 32; 58; 99; 10; 61;
   86; 65; 76; 32; 58; 10; 45; 77; 65; 80; 10; 45; 77; 65; 80; 10; 61; 86; 65; 76; 32; 58; 100;
   10; 61; 86; 65; 76; 32; 58; 10; 45; 77; 65; 80; 10; 45; 68; 79; 67]%N = true.
Proof. vm_compute. reflexivity. Qed.
Example test_block_map_empty_input : passes
  [10; 58]%N
  [10; 43; 68; 79; 67; 10; 43; 77; 65; 80; 10; 61; 86; 65; 76; 32; 58; 10; 61; 86; 65; 76; 32;
   58; 10; 45; 77; 65; 80; 10; 45; 68; 79; 67]%N = true.
Proof. vm_compute. reflexivity. Qed.
Example test_block_map_empty_multi : passes
  [10; 58; 10; 32; 32; 58]%N
  [10; 43; 68; 79; 67; 10; 43; 77; 65; 80; 10; 61; 86; 65; 76; 32; 58; 10; 43; 77; 65; 80; 10;
   61; 86; 65; 76; 32; 58; 10; 61; 86; 65; 76; 32; 58; 10; 45; 77; 65; 80; 10; 45; 77; 65; 80;
   10; 45; 68; 79; 67]%N = true.
Proof. vm_compute. reflexivity. Qed.
Example test_block_map_empty_key1 : passes
  [10; 58; 10; 32; 97]%N
  [10; 43; 68; 79; 67; 10; 43; 77; 65; 80; 10; 61; 86; 65; 76; 32; 58; 10; 61; 86; 65; 76; 32;
   58; 97; 10; 45; 77; 65; 80; 10; 45; 68; 79; 67]%N = true.
Proof. vm_compute. reflexivity. Qed.
Example test_block_map_empty_key2 : passes
  [10; 58; 32; 97]%N
  [10; 43; 68; 79; 67; 10; 43; 77; 65; 80; 10; 61; 86; 65; 76; 32; 58; 10; 61; 86; 65; 76; 32;
   58; 97; 10; 45; 77; 65; 80; 10; 45; 68; 79; 67]%N = true.
Proof. vm_compute. reflexivity. Qed.
Example test_block_map_empty_input_mixed : passes
  [10; 32; 97; 58; 10; 32; 32; 32; 120; 10; 32; 32; 32; 117; 10; 32; 99; 32; 58; 10]%N
  [10; 43; 68; 79; 67; 10; 43; 77; 65; 80; 10; 61; 86; 65; 76; 32; 58; 97; 10; 61; 86; 65; 76;
   32; 58; 120; 32; 117; 10; 61; 86; 65; 76; 32; 58; 99; 10; 61; 86; 65; 76; 32; 58; 10; 45; 77;
   65; 80; 10; 45; 68; 79; 67]%N = true.
Proof. vm_compute. reflexivity. Qed.
Example test_block_map_empty_map2_input : passes
  [10; 58; 10; 97; 58; 32; 98; 10; 58; 32; 99; 10; 100; 58; 10]%N
  [10; 43; 68; 79; 67; 10; 43; 77; 65; 80; 10; 61; 86; 65; 76; 32; 58; 10; 61; 86; 65; 76; 32;
   58; 10; 61; 86; 65; 76; 32; 58; 97; 10; 61; 86; 65; 76; 32; 58; 98; 10; 61; 86; 65; 76; 32;
   58; 10; 61; 86; 65; 76; 32; 58; 99; 10; 61; 86; 65; 76; 32; 58; 100; 10; 61; 86; 65; 76; 32;
   58; 10; 45; 77; 65; 80; 10; 45; 68; 79; 67]%N = true.
Proof. vm_compute. reflexivity. Qed.
Example test_block_map_explicit_key : passes
  [10; 32; 32; 35; 32; 83; 101; 116; 115; 32; 97; 114; 101; 32; 114; 101; 112; 114; 101; 115;
   101; 110; 116; 101; 100; 32; 97; 115; 32; 97; 10; 45; 45; 45; 10; 63; 32; 97; 10; 63; 32; 98;
   10; 63; 32; 99; 10]%N
  [10; 43; 68; 79; 67; 10; 43; 77; 65; 80; 10; 61; 86; 65; 76; 32; 58; 97; 10; 61; 86; 65; 76;
   32; 58; 10; 61; 86; 65; 76; 32; 58; 98; 10; 61; 86; 65; 76; 32; 58; 10; 61; 86; 65; 76; 32;
   58; 99; 10; 61; 86; 65; 76; 32; 58; 10; 45; 77; 65; 80; 10; 45; 68; 79; 67]%N = true.
Proof. vm_compute. reflexivity. Qed.
Example test_block_map_explicit_key_again2 : passes
  [10; 32; 32; 63; 32; 120; 10; 32; 32; 32; 63; 32; 120; 10]%N
  [10; 43; 68; 79; 67; 10; 43; 77; 65; 80; 10; 61; 86; 65; 76; 32; 58; 120; 32; 63; 32; 120; 10;
   61; 86; 65; 76; 32; 58; 10; 45; 77; 65; 80; 10; 45; 68; 79; 67]%N = true.
Proof. vm_compute. reflexivity. Qed.
Example test_block_map_explicit_fold : passes
  [10; 32; 63; 32; 62; 10; 32; 32; 32; 116; 101; 115; 116; 10; 32; 58; 32; 120; 10]%N
  [10; 43; 68; 79; 67; 10; 43; 77; 65; 80; 10; 61; 86; 65; 76; 32; 62; 116; 101; 115; 116; 10;
   10; 61; 86; 65; 76; 32; 58; 120; 10; 45; 77; 65; 80; 10; 45; 68; 79; 67]%N = true.
Proof. vm_compute. reflexivity. Qed.
Example test_block_map_explicit_input : passes
  [10; 32; 32; 63; 32; 116; 101; 115; 116; 10; 32; 32; 58; 32; 118; 97; 108; 117; 101; 10]%N
  [10; 43; 68; 79; 67; 10; 43; 77; 65; 80; 10; 61; 86; 65; 76; 32; 58; 116; 101; 115; 116; 10;
   61; 86; 65; 76; 32; 58; 118; 97; 108; 117; 101; 10; 45; 77; 65; 80; 10; 45; 68; 79; 67]%N = true.
Proof. vm_compute. reflexivity. Qed.
Example test_block_map_explicit_mix_input : passes
  [10; 32; 32; 63; 32; 116; 101; 115; 116; 10; 32; 32; 58; 32; 118; 97; 108; 117; 101; 10; 32;
   32; 116; 120; 58; 32; 120; 10]%N
  [10; 43; 68; 79; 67; 10; 43; 77; 65; 80; 10; 61; 86; 65; 76; 32; 58; 116; 101; 115; 116; 10;
   61; 86; 65; 76; 32; 58; 118; 97; 108; 117; 101; 10; 61; 86; 65; 76; 32; 58; 116; 120; 10; 61;
   86; 65; 76; 32; 58; 120; 10; 45; 77; 65; 80; 10; 45; 68; 79; 67]%N = true.
Proof. vm_compute. reflexivity. Qed.
Example test_block_map_explicit_complex : passes
  [10; 45; 45; 45; 10; 63; 10; 45; 32; 97; 10; 45; 32; 98; 10; 58; 10; 45; 32; 99]%N
  [10; 43; 68; 79; 67; 10; 43; 77; 65; 80; 10; 43; 83; 69; 81; 10; 61; 86; 65; 76; 32; 58; 97;
   10; 61; 86; 65; 76; 32; 58; 98; 10; 45; 83; 69; 81; 10; 43; 83; 69; 81; 10; 61; 86; 65; 76;
   32; 58; 99; 10; 45; 83; 69; 81; 10; 45; 77; 65; 80; 10; 45; 68; 79; 67]%N = true.
Proof. vm_compute. reflexivity. Qed.
Example test_block_map_nested : passes
  [10; 34; 116; 111; 112; 49; 34; 32; 58; 10; 32; 32; 39; 107; 101; 121; 49; 39; 32; 58; 10; 32;
   32; 32; 32; 100; 111; 119; 110; 32; 58; 32; 38; 120; 49; 32; 116; 101; 115; 116; 10; 39; 116;
   111; 112; 50; 39; 32; 58; 10; 32; 32; 42; 120; 49; 32; 58; 32; 32; 115; 99; 97; 108; 97; 114;
   50; 10]%N
  [10; 43; 68; 79; 67; 10; 43; 77; 65; 80; 10; 61; 86; 65; 76; 32; 34; 116; 111; 112; 49; 10;
   43; 77; 65; 80; 10; 61; 86; 65; 76; 32; 39; 107; 101; 121; 49; 10; 43; 77; 65; 80; 10; 61;
   86; 65; 76; 32; 58; 100; 111; 119; 110; 10; 61; 86; 65; 76; 32; 38; 120; 49; 32; 58; 116;
   101; 115; 116; 10; 45; 77; 65; 80; 10; 45; 77; 65; 80; 10; 61; 86; 65; 76; 32; 39; 116; 111;
   112; 50; 10; 43; 77; 65; 80; 10; 61; 65; 76; 73; 32; 42; 120; 49; 10; 61; 86; 65; 76; 32; 58;
   115; 99; 97; 108; 97; 114; 50; 10; 45; 77; 65; 80; 10; 45; 77; 65; 80; 10; 45; 68; 79; 67]%N = true.
Proof. vm_compute. reflexivity. Qed.
Example test_block_map_complex_nested : passes
  [10; 110; 111; 116; 58; 10; 32; 32; 116; 119; 111; 58; 32; 91; 10; 32; 32; 32; 32; 110; 101;
   115; 116; 10; 32; 32; 32; 93; 10; 32; 32]%N
  [10; 43; 68; 79; 67; 10; 43; 77; 65; 80; 10; 61; 86; 65; 76; 32; 58; 110; 111; 116; 10; 43;
   77; 65; 80; 10; 61; 86; 65; 76; 32; 58; 116; 119; 111; 10; 43; 83; 69; 81; 10; 61; 86; 65;
   76; 32; 58; 110; 101; 115; 116; 10; 45; 83; 69; 81; 10; 45; 77; 65; 80; 10; 45; 77; 65; 80;
   10; 45; 68; 79; 67]%N = true.
Proof. vm_compute. reflexivity. Qed.
Example test_block_map_nested_input : passes
  [10; 45; 45; 45; 10; 104; 114; 58; 32; 35; 32; 49; 57; 57; 56; 32; 104; 114; 32; 114; 97; 110;
   107; 105; 110; 103; 10; 32; 32; 45; 32; 77; 97; 114; 107; 32; 77; 99; 71; 119; 105; 114; 101;
   10; 32; 32; 45; 32; 83; 97; 109; 109; 121; 32; 83; 111; 115; 97; 10]%N
  [10; 43; 68; 79; 67; 10; 43; 77; 65; 80; 10; 61; 86; 65; 76; 32; 58; 104; 114; 10; 43; 83; 69;
   81; 10; 61; 86; 65; 76; 32; 58; 77; 97; 114; 107; 32; 77; 99; 71; 119; 105; 114; 101; 10; 61;
   86; 65; 76; 32; 58; 83; 97; 109; 109; 121; 32; 83; 111; 115; 97; 10; 45; 83; 69; 81; 10; 45;
   77; 65; 80; 10; 45; 68; 79; 67]%N = true.
Proof. vm_compute. reflexivity. Qed.
Example test_block_map_complex_key : passes
  [10; 97; 33; 34; 35; 36; 37; 38; 39; 40; 41; 42; 43; 44; 45; 46; 47; 48; 57; 58; 59; 60; 61;
   62; 63; 64; 65; 90; 91; 92; 93; 94; 95; 96; 97; 122; 123; 124; 125; 126; 58; 32; 115; 97;
   102; 101; 10; 58; 102; 111; 111; 58; 32; 98; 97; 122; 10; 45; 102; 111; 111; 58; 32; 98; 111;
   111; 10]%N
  [10; 43; 68; 79; 67; 10; 43; 77; 65; 80; 10; 61; 86; 65; 76; 32; 58; 97; 33; 34; 35; 36; 37;
   38; 39; 40; 41; 42; 43; 44; 45; 46; 47; 48; 57; 58; 59; 60; 61; 62; 63; 64; 65; 90; 91; 92;
   93; 94; 95; 96; 97; 122; 123; 124; 125; 126; 10; 61; 86; 65; 76; 32; 58; 115; 97; 102; 101;
   10; 61; 86; 65; 76; 32; 58; 58; 102; 111; 111; 10; 61; 86; 65; 76; 32; 58; 98; 97; 122; 10;
   61; 86; 65; 76; 32; 58; 45; 102; 111; 111; 10; 61; 86; 65; 76; 32; 58; 98; 111; 111; 10; 45;
   77; 65; 80; 10; 45; 68; 79; 67]%N = true.
Proof. vm_compute. reflexivity. Qed.
Example test_block_map_commend_input : passes
  [10; 104; 114; 58; 10; 32; 32; 45; 32; 97; 97; 97; 10; 32; 32; 35; 32; 99; 111; 109; 109; 101;
   110; 116; 10; 32; 32; 45; 32; 38; 120; 120; 32; 98; 98; 98; 10]%N
  [10; 43; 68; 79; 67; 10; 43; 77; 65; 80; 10; 61; 86; 65; 76; 32; 58; 104; 114; 10; 43; 83; 69;
   81; 10; 61; 86; 65; 76; 32; 58; 97; 97; 97; 10; 61; 86; 65; 76; 32; 38; 120; 120; 32; 58; 98;
   98; 98; 10; 45; 83; 69; 81; 10; 45; 77; 65; 80; 10; 45; 68; 79; 67]%N = true.
Proof. vm_compute. reflexivity. Qed.
Example test_block_mix_seq_map : passes
  [10; 45; 10; 32; 32; 107; 101; 121; 58; 32; 120; 10; 32; 32; 118; 97; 108; 58; 32; 56; 10; 45;
   10; 32; 32; 118; 97; 108; 58; 32; 121; 10]%N
  [10; 43; 68; 79; 67; 10; 43; 83; 69; 81; 10; 43; 77; 65; 80; 10; 61; 86; 65; 76; 32; 58; 107;
   101; 121; 10; 61; 86; 65; 76; 32; 58; 120; 10; 61; 86; 65; 76; 32; 58; 118; 97; 108; 10; 61;
   86; 65; 76; 32; 58; 56; 10; 45; 77; 65; 80; 10; 43; 77; 65; 80; 10; 61; 86; 65; 76; 32; 58;
   118; 97; 108; 10; 61; 86; 65; 76; 32; 58; 121; 10; 45; 77; 65; 80; 10; 45; 83; 69; 81; 10;
   45; 68; 79; 67]%N = true.
Proof. vm_compute. reflexivity. Qed.
Example test_block_mix_seq_map_again2 : passes
  [10; 32; 32; 115; 101; 113; 117; 101; 110; 99; 101; 58; 10; 32; 32; 45; 32; 97; 10; 32; 32;
   109; 97; 112; 112; 105; 110; 103; 58; 10; 32; 32; 32; 102; 111; 111; 58; 32; 98; 97; 114; 10;
   32]%N
  [10; 43; 68; 79; 67; 10; 43; 77; 65; 80; 10; 61; 86; 65; 76; 32; 58; 115; 101; 113; 117; 101;
   110; 99; 101; 10; 43; 83; 69; 81; 10; 61; 86; 65; 76; 32; 58; 97; 10; 45; 83; 69; 81; 10; 61;
   86; 65; 76; 32; 58; 109; 97; 112; 112; 105; 110; 103; 10; 43; 77; 65; 80; 10; 61; 86; 65; 76;
   32; 58; 102; 111; 111; 10; 61; 86; 65; 76; 32; 58; 98; 97; 114; 10; 45; 77; 65; 80; 10; 45;
   77; 65; 80; 10; 45; 68; 79; 67]%N = true.
Proof. vm_compute. reflexivity. Qed.
Example test_block_rzp5 : passes
  [10; 63; 32; 35; 32; 108; 97; 108; 97; 10; 32; 45; 32; 115; 101; 113; 49; 10; 10]%N
  [10; 43; 68; 79; 67; 10; 43; 77; 65; 80; 10; 43; 83; 69; 81; 10; 61; 86; 65; 76; 32; 58; 115;
   101; 113; 49; 10; 45; 83; 69; 81; 10; 61; 86; 65; 76; 32; 58; 10; 45; 77; 65; 80; 10; 45; 68;
   79; 67]%N = true.
Proof. vm_compute. reflexivity. Qed.
Example test_block_m5dy_x1 : passes
  [10; 63; 32; 91; 32; 78; 101; 119; 32; 89; 111; 114; 107; 32; 89; 97; 110; 107; 101; 101; 115;
   44; 10; 32; 32; 32; 32; 65; 116; 108; 97; 110; 116; 97; 32; 66; 114; 97; 118; 101; 115; 32;
   93; 10; 58; 32; 91; 32; 50; 48; 48; 49; 45; 48; 55; 45; 48; 50; 44; 32; 50; 48; 48; 49; 45;
   48; 56; 45; 49; 50; 44; 10; 32; 32; 32; 32; 50; 48; 48; 49; 45; 48; 56; 45; 49; 52; 32; 93;
   10]%N
  [10; 43; 68; 79; 67; 10; 43; 77; 65; 80; 10; 43; 83; 69; 81; 10; 61; 86; 65; 76; 32; 58; 78;
   101; 119; 32; 89; 111; 114; 107; 32; 89; 97; 110; 107; 101; 101; 115; 10; 61; 86; 65; 76; 32;
   58; 65; 116; 108; 97; 110; 116; 97; 32; 66; 114; 97; 118; 101; 115; 10; 45; 83; 69; 81; 10;
   43; 83; 69; 81; 10; 61; 86; 65; 76; 32; 58; 50; 48; 48; 49; 45; 48; 55; 45; 48; 50; 10; 61;
   86; 65; 76; 32; 58; 50; 48; 48; 49; 45; 48; 56; 45; 49; 50; 10; 61; 86; 65; 76; 32; 58; 50;
   48; 48; 49; 45; 48; 56; 45; 49; 52; 10; 45; 83; 69; 81; 10; 45; 77; 65; 80; 10; 45; 68; 79;
   67]%N = true.
Proof. vm_compute. reflexivity. Qed.
Example test_block_m5dy_x2 : passes
  [10; 63; 32; 97; 10; 58; 10; 32; 32; 45; 32; 99; 49; 10; 10; 63; 32; 98; 10; 58; 32; 99]%N
  [10; 43; 68; 79; 67; 10; 43; 77; 65; 80; 10; 61; 86; 65; 76; 32; 58; 97; 10; 43; 83; 69; 81;
   10; 61; 86; 65; 76; 32; 58; 99; 49; 10; 45; 83; 69; 81; 10; 61; 86; 65; 76; 32; 58; 98; 10;
   61; 86; 65; 76; 32; 58; 99; 10; 45; 77; 65; 80; 10; 45; 68; 79; 67]%N = true.
Proof. vm_compute. reflexivity. Qed.
Example test_block_kk5p_x1 : passes
  [10; 99; 111; 109; 112; 108; 101; 120; 49; 58; 10; 32; 32; 63; 32; 45; 32; 97]%N
  [10; 43; 68; 79; 67; 10; 43; 77; 65; 80; 10; 61; 86; 65; 76; 32; 58; 99; 111; 109; 112; 108;
   101; 120; 49; 10; 43; 77; 65; 80; 10; 43; 83; 69; 81; 10; 61; 86; 65; 76; 32; 58; 97; 10; 45;
   83; 69; 81; 10; 61; 86; 65; 76; 32; 58; 10; 45; 77; 65; 80; 10; 45; 77; 65; 80; 10; 45; 68;
   79; 67]%N = true.
Proof. vm_compute. reflexivity. Qed.
Example test_block_kk5p_x2 : passes
  [10; 99; 111; 109; 112; 108; 101; 120; 53; 58; 10; 32; 32; 63; 32; 45; 32; 97; 10; 32; 32; 58;
   32; 45; 32; 98]%N
  [10; 43; 68; 79; 67; 10; 43; 77; 65; 80; 10; 61; 86; 65; 76; 32; 58; 99; 111; 109; 112; 108;
   101; 120; 53; 10; 43; 77; 65; 80; 10; 43; 83; 69; 81; 10; 61; 86; 65; 76; 32; 58; 97; 10; 45;
   83; 69; 81; 10; 43; 83; 69; 81; 10; 61; 86; 65; 76; 32; 58; 98; 10; 45; 83; 69; 81; 10; 45;
   77; 65; 80; 10; 45; 77; 65; 80; 10; 45; 68; 79; 67]%N = true.
Proof. vm_compute. reflexivity. Qed.
Example test_block_mjs9 : passes
  [10; 62; 10; 32; 32; 97; 32; 10; 10; 32; 32; 9; 32; 98; 10; 10; 32; 32; 99; 10]%N
  [10; 43; 68; 79; 67; 10; 61; 86; 65; 76; 32; 62; 97; 32; 10; 10; 9; 32; 98; 10; 10; 99; 10;
   10; 45; 68; 79; 67]%N = true.
Proof. vm_compute. reflexivity. Qed.
Example test_block_k858 : passes
  [10; 115; 116; 114; 105; 112; 58; 32; 62; 45; 10; 10; 99; 108; 105; 112; 58; 32; 62; 10; 10;
   107; 101; 101; 112; 58; 32; 124; 43; 10; 10]%N
  [10; 43; 68; 79; 67; 10; 43; 77; 65; 80; 10; 61; 86; 65; 76; 32; 58; 115; 116; 114; 105; 112;
   10; 61; 86; 65; 76; 32; 62; 10; 61; 86; 65; 76; 32; 58; 99; 108; 105; 112; 10; 61; 86; 65;
   76; 32; 62; 10; 61; 86; 65; 76; 32; 58; 107; 101; 101; 112; 10; 61; 86; 65; 76; 32; 124; 10;
   10; 45; 77; 65; 80; 10; 45; 68; 79; 67]%N = true.
Proof. vm_compute. reflexivity. Qed.
Example test_block_ukk6 : passes
  [10; 33; 10]%N
  [10; 43; 68; 79; 67; 10; 61; 86; 65; 76; 32; 60; 33; 62; 32; 58; 10; 45; 68; 79; 67]%N = true.
Proof. vm_compute. reflexivity. Qed.
Example test_block_fh7j_x1 : passes
  [10; 45; 32; 33; 33; 115; 116; 114; 10; 45; 32; 33; 33; 110; 117; 108; 108; 32; 58; 32; 97]%N
  [10; 43; 68; 79; 67; 10; 43; 83; 69; 81; 10; 61; 86; 65; 76; 32; 60; 116; 97; 103; 58; 121;
   97; 109; 108; 46; 111; 114; 103; 44; 50; 48; 48; 50; 58; 115; 116; 114; 62; 32; 58; 10; 43;
   77; 65; 80; 10; 61; 86; 65; 76; 32; 60; 116; 97; 103; 58; 121; 97; 109; 108; 46; 111; 114;
   103; 44; 50; 48; 48; 50; 58; 110; 117; 108; 108; 62; 32; 58; 10; 61; 86; 65; 76; 32; 58; 97;
   10; 45; 77; 65; 80; 10; 45; 83; 69; 81; 10; 45; 68; 79; 67]%N = true.
Proof. vm_compute. reflexivity. Qed.
Example test_block_fh7j_x2 : passes
  [10; 45; 32; 33; 33; 115; 116; 114; 32; 58; 32; 33; 33; 110; 117; 108; 108]%N
  [10; 43; 68; 79; 67; 10; 43; 83; 69; 81; 10; 43; 77; 65; 80; 10; 61; 86; 65; 76; 32; 60; 116;
   97; 103; 58; 121; 97; 109; 108; 46; 111; 114; 103; 44; 50; 48; 48; 50; 58; 115; 116; 114; 62;
   32; 58; 10; 61; 86; 65; 76; 32; 60; 116; 97; 103; 58; 121; 97; 109; 108; 46; 111; 114; 103;
   44; 50; 48; 48; 50; 58; 110; 117; 108; 108; 62; 32; 58; 10; 45; 77; 65; 80; 10; 45; 83; 69;
   81; 10; 45; 68; 79; 67]%N = true.
Proof. vm_compute. reflexivity. Qed.
Example test_block_fh7j_x3 : passes
  [10; 45; 10; 32; 32; 98; 58; 32; 33; 33; 115; 116; 114; 10; 45; 32; 120]%N
  [10; 43; 68; 79; 67; 10; 43; 83; 69; 81; 10; 43; 77; 65; 80; 10; 61; 86; 65; 76; 32; 58; 98;
   10; 61; 86; 65; 76; 32; 60; 116; 97; 103; 58; 121; 97; 109; 108; 46; 111; 114; 103; 44; 50;
   48; 48; 50; 58; 115; 116; 114; 62; 32; 58; 10; 45; 77; 65; 80; 10; 61; 86; 65; 76; 32; 58;
   120; 10; 45; 83; 69; 81; 10; 45; 68; 79; 67]%N = true.
Proof. vm_compute. reflexivity. Qed.
Example test_block_fh7j_x4 : passes
  [10; 45; 32; 33; 33; 115; 116; 114; 10; 45; 32; 33; 33; 115; 116; 114; 32; 58; 32; 33; 33;
   110; 117; 108; 108; 10]%N
  [10; 43; 68; 79; 67; 10; 43; 83; 69; 81; 10; 61; 86; 65; 76; 32; 60; 116; 97; 103; 58; 121;
   97; 109; 108; 46; 111; 114; 103; 44; 50; 48; 48; 50; 58; 115; 116; 114; 62; 32; 58; 10; 43;
   77; 65; 80; 10; 61; 86; 65; 76; 32; 60; 116; 97; 103; 58; 121; 97; 109; 108; 46; 111; 114;
   103; 44; 50; 48; 48; 50; 58; 115; 116; 114; 62; 32; 58; 10; 61; 86; 65; 76; 32; 60; 116; 97;
   103; 58; 121; 97; 109; 108; 46; 111; 114; 103; 44; 50; 48; 48; 50; 58; 110; 117; 108; 108;
   62; 32; 58; 10; 45; 77; 65; 80; 10; 45; 83; 69; 81; 10; 45; 68; 79; 67]%N = true.
Proof. vm_compute. reflexivity. Qed.
Example test_block_dc7x : passes
  [10; 115; 101; 113; 58; 10; 32; 32; 45; 32; 97; 9]%N
  [10; 43; 68; 79; 67; 10; 43; 77; 65; 80; 10; 61; 86; 65; 76; 32; 58; 115; 101; 113; 10; 43;
   83; 69; 81; 10; 61; 86; 65; 76; 32; 58; 97; 10; 45; 83; 69; 81; 10; 45; 77; 65; 80; 10; 45;
   68; 79; 67]%N = true.
Proof. vm_compute. reflexivity. Qed.
Example test_block_y79y_04_x1 : passes
  [10; 45; 32; 45]%N
  [10; 43; 68; 79; 67; 10; 43; 83; 69; 81; 10; 43; 83; 69; 81; 10; 61; 86; 65; 76; 32; 58; 10;
   45; 83; 69; 81; 10; 45; 83; 69; 81; 10; 45; 68; 79; 67]%N = true.
Proof. vm_compute. reflexivity. Qed.
Example test_block_y79y_06_x2 : passes
  [10; 63; 32; 45]%N
  [10; 43; 68; 79; 67; 10; 43; 77; 65; 80; 10; 43; 83; 69; 81; 10; 61; 86; 65; 76; 32; 58; 10;
   45; 83; 69; 81; 10; 61; 86; 65; 76; 32; 58; 10; 45; 77; 65; 80; 10; 45; 68; 79; 67]%N = true.
Proof. vm_compute. reflexivity. Qed.
Example test_block_y79y_06_x3 : passes
  [10; 63; 32; 45; 10]%N
  [10; 43; 68; 79; 67; 10; 43; 77; 65; 80; 10; 43; 83; 69; 81; 10; 61; 86; 65; 76; 32; 58; 10;
   45; 83; 69; 81; 10; 61; 86; 65; 76; 32; 58; 10; 45; 77; 65; 80; 10; 45; 68; 79; 67]%N = true.
Proof. vm_compute. reflexivity. Qed.
Example test_block_y79y_09_x2 : passes
  [10; 63; 32; 107; 101; 121; 58; 10]%N
  [10; 43; 68; 79; 67; 10; 43; 77; 65; 80; 10; 43; 77; 65; 80; 10; 61; 86; 65; 76; 32; 58; 107;
   101; 121; 10; 61; 86; 65; 76; 32; 58; 10; 45; 77; 65; 80; 10; 61; 86; 65; 76; 32; 58; 10; 45;
   77; 65; 80; 10; 45; 68; 79; 67]%N = true.
Proof. vm_compute. reflexivity. Qed.
Example test_block_y79y_09_x3 : passes
  [10; 63; 32; 107; 101; 121; 58; 10; 58; 32]%N
  [10; 43; 68; 79; 67; 10; 43; 77; 65; 80; 10; 43; 77; 65; 80; 10; 61; 86; 65; 76; 32; 58; 107;
   101; 121; 10; 61; 86; 65; 76; 32; 58; 10; 45; 77; 65; 80; 10; 61; 86; 65; 76; 32; 58; 10; 45;
   77; 65; 80; 10; 45; 68; 79; 67]%N = true.
Proof. vm_compute. reflexivity. Qed.
Example test_block_9kax_x1 : passes
  [10; 38; 97; 49; 10; 33; 33; 115; 116; 114; 10; 115; 99; 97; 108; 97; 114; 49]%N
  [10; 43; 68; 79; 67; 10; 61; 86; 65; 76; 32; 38; 97; 49; 32; 60; 116; 97; 103; 58; 121; 97;
   109; 108; 46; 111; 114; 103; 44; 50; 48; 48; 50; 58; 115; 116; 114; 62; 32; 58; 115; 99; 97;
   108; 97; 114; 49; 10; 45; 68; 79; 67]%N = true.
Proof. vm_compute. reflexivity. Qed.
Example test_block_9kax_x2 : passes
  [10; 33; 33; 115; 116; 114; 10; 38; 97; 49; 10; 115; 99; 97; 108; 97; 114; 49]%N
  [10; 43; 68; 79; 67; 10; 61; 86; 65; 76; 32; 38; 97; 49; 32; 60; 116; 97; 103; 58; 121; 97;
   109; 108; 46; 111; 114; 103; 44; 50; 48; 48; 50; 58; 115; 116; 114; 62; 32; 58; 115; 99; 97;
   108; 97; 114; 49; 10; 45; 68; 79; 67]%N = true.
Proof. vm_compute. reflexivity. Qed.
Example test_block_9kax_x3 : passes
  [10; 38; 97; 52; 32; 33; 33; 109; 97; 112; 10; 38; 97; 53; 32; 33; 33; 115; 116; 114; 32; 107;
   101; 121; 53; 58; 32; 118; 97; 108; 117; 101; 52; 10]%N
  [10; 43; 68; 79; 67; 10; 43; 77; 65; 80; 32; 38; 97; 52; 32; 60; 116; 97; 103; 58; 121; 97;
   109; 108; 46; 111; 114; 103; 44; 50; 48; 48; 50; 58; 109; 97; 112; 62; 10; 61; 86; 65; 76;
   32; 38; 97; 53; 32; 60; 116; 97; 103; 58; 121; 97; 109; 108; 46; 111; 114; 103; 44; 50; 48;
   48; 50; 58; 115; 116; 114; 62; 32; 58; 107; 101; 121; 53; 10; 61; 86; 65; 76; 32; 58; 118;
   97; 108; 117; 101; 52; 10; 45; 77; 65; 80; 10; 45; 68; 79; 67]%N = true.
Proof. vm_compute. reflexivity. Qed.
Example test_block_9kax_x4 : passes
  [10; 97; 54; 58; 32; 49; 10; 38; 97; 110; 99; 104; 111; 114; 54; 32; 98; 54; 58; 32; 50]%N
  [10; 43; 68; 79; 67; 10; 43; 77; 65; 80; 10; 61; 86; 65; 76; 32; 58; 97; 54; 10; 61; 86; 65;
   76; 32; 58; 49; 10; 61; 86; 65; 76; 32; 38; 97; 110; 99; 104; 111; 114; 54; 32; 58; 98; 54;
   10; 61; 86; 65; 76; 32; 58; 50; 10; 45; 77; 65; 80; 10; 45; 68; 79; 67]%N = true.
Proof. vm_compute. reflexivity. Qed.
Example test_block_9kax_x5 : passes
  [10; 33; 33; 109; 97; 112; 10; 38; 97; 56; 32; 33; 33; 115; 116; 114; 32; 107; 101; 121; 56;
   58; 32; 118; 97; 108; 117; 101; 55]%N
  [10; 43; 68; 79; 67; 10; 43; 77; 65; 80; 32; 60; 116; 97; 103; 58; 121; 97; 109; 108; 46; 111;
   114; 103; 44; 50; 48; 48; 50; 58; 109; 97; 112; 62; 10; 61; 86; 65; 76; 32; 38; 97; 56; 32;
   60; 116; 97; 103; 58; 121; 97; 109; 108; 46; 111; 114; 103; 44; 50; 48; 48; 50; 58; 115; 116;
   114; 62; 32; 58; 107; 101; 121; 56; 10; 61; 86; 65; 76; 32; 58; 118; 97; 108; 117; 101; 55;
   10; 45; 77; 65; 80; 10; 45; 68; 79; 67]%N = true.
Proof. vm_compute. reflexivity. Qed.
Example test_block_6jwb : passes
  [10; 102; 111; 111; 58; 10; 32; 32; 45; 32; 33; 33; 109; 97; 112; 10; 32; 32; 32; 32; 107; 58;
   32; 118; 10]%N
  [10; 43; 68; 79; 67; 10; 43; 77; 65; 80; 10; 61; 86; 65; 76; 32; 58; 102; 111; 111; 10; 43;
   83; 69; 81; 10; 43; 77; 65; 80; 32; 60; 116; 97; 103; 58; 121; 97; 109; 108; 46; 111; 114;
   103; 44; 50; 48; 48; 50; 58; 109; 97; 112; 62; 10; 61; 86; 65; 76; 32; 58; 107; 10; 61; 86;
   65; 76; 32; 58; 118; 10; 45; 77; 65; 80; 10; 45; 83; 69; 81; 10; 45; 77; 65; 80; 10; 45; 68;
   79; 67]%N = true.
Proof. vm_compute. reflexivity. Qed.
Example test_block_u99r_x1 : passes
  [10; 91; 33; 33; 115; 116; 114; 44; 32; 120; 120; 120; 93]%N
  [10; 43; 68; 79; 67; 10; 43; 83; 69; 81; 10; 61; 86; 65; 76; 32; 60; 116; 97; 103; 58; 121;
   97; 109; 108; 46; 111; 114; 103; 44; 50; 48; 48; 50; 58; 115; 116; 114; 62; 32; 58; 10; 61;
   86; 65; 76; 32; 58; 120; 120; 120; 10; 45; 83; 69; 81; 10; 45; 68; 79; 67]%N = true.
Proof. vm_compute. reflexivity. Qed.
Example test_block_s7bg : passes
  [10; 45; 32; 58; 44]%N
  [10; 43; 68; 79; 67; 10; 43; 83; 69; 81; 10; 61; 86; 65; 76; 32; 58; 58; 44; 10; 45; 83; 69;
   81; 10; 45; 68; 79; 67]%N = true.
Proof. vm_compute. reflexivity. Qed.
Example test_block_74h7 : passes
  [10; 33; 33; 115; 116; 114; 32; 97; 58; 32; 98; 10; 99; 58; 32; 33; 33; 105; 110; 116; 32; 52;
   50; 10; 33; 33; 115; 116; 114; 32; 50; 51; 58; 32; 33; 33; 98; 111; 111; 108; 32; 102; 97;
   108; 115; 101]%N
  [10; 43; 68; 79; 67; 10; 43; 77; 65; 80; 10; 61; 86; 65; 76; 32; 60; 116; 97; 103; 58; 121;
   97; 109; 108; 46; 111; 114; 103; 44; 50; 48; 48; 50; 58; 115; 116; 114; 62; 32; 58; 97; 10;
   61; 86; 65; 76; 32; 58; 98; 10; 61; 86; 65; 76; 32; 58; 99; 10; 61; 86; 65; 76; 32; 60; 116;
   97; 103; 58; 121; 97; 109; 108; 46; 111; 114; 103; 44; 50; 48; 48; 50; 58; 105; 110; 116; 62;
   32; 58; 52; 50; 10; 61; 86; 65; 76; 32; 60; 116; 97; 103; 58; 121; 97; 109; 108; 46; 111;
   114; 103; 44; 50; 48; 48; 50; 58; 115; 116; 114; 62; 32; 58; 50; 51; 10; 61; 86; 65; 76; 32;
   60; 116; 97; 103; 58; 121; 97; 109; 108; 46; 111; 114; 103; 44; 50; 48; 48; 50; 58; 98; 111;
   111; 108; 62; 32; 58; 102; 97; 108; 115; 101; 10; 45; 77; 65; 80; 10; 45; 68; 79; 67]%N = true.
Proof. vm_compute. reflexivity. Qed.
Example test_block_735y : passes
  [10; 45; 32; 62; 10; 32; 66; 108; 111; 99; 107; 32; 115; 99; 97; 108; 97; 114; 10; 45; 32; 33;
   33; 109; 97; 112; 32; 35; 32; 66; 108; 111; 99; 107; 32; 99; 111; 108; 108; 101; 99; 116;
   105; 111; 110; 10; 32; 32; 102; 111; 111; 32; 58; 32; 98; 97; 114; 10]%N
  [10; 43; 68; 79; 67; 10; 43; 83; 69; 81; 10; 61; 86; 65; 76; 32; 62; 66; 108; 111; 99; 107;
   32; 115; 99; 97; 108; 97; 114; 10; 10; 43; 77; 65; 80; 32; 60; 116; 97; 103; 58; 121; 97;
   109; 108; 46; 111; 114; 103; 44; 50; 48; 48; 50; 58; 109; 97; 112; 62; 10; 61; 86; 65; 76;
   32; 58; 102; 111; 111; 10; 61; 86; 65; 76; 32; 58; 98; 97; 114; 10; 45; 77; 65; 80; 10; 45;
   83; 69; 81; 10; 45; 68; 79; 67]%N = true.
Proof. vm_compute. reflexivity. Qed.
Example test_block_57h4_x1 : passes
  [10; 32; 32; 115; 101; 113; 117; 101; 110; 99; 101; 58; 32; 33; 33; 115; 101; 113; 10; 32; 32;
   45; 32; 97; 10; 32; 32; 45; 32; 33; 33; 115; 116; 114; 10; 32; 32; 32; 32; 45; 32; 98; 10;
   32; 32; 109; 97; 112; 112; 105; 110; 103; 58; 32; 33; 33; 109; 97; 112; 10; 32; 32; 32; 32;
   102; 111; 111; 58; 32; 98; 97; 114; 10]%N
  [10; 43; 68; 79; 67; 10; 43; 77; 65; 80; 10; 61; 86; 65; 76; 32; 58; 115; 101; 113; 117; 101;
   110; 99; 101; 10; 43; 83; 69; 81; 32; 60; 116; 97; 103; 58; 121; 97; 109; 108; 46; 111; 114;
   103; 44; 50; 48; 48; 50; 58; 115; 101; 113; 62; 10; 61; 86; 65; 76; 32; 58; 97; 10; 43; 83;
   69; 81; 32; 60; 116; 97; 103; 58; 121; 97; 109; 108; 46; 111; 114; 103; 44; 50; 48; 48; 50;
   58; 115; 116; 114; 62; 10; 61; 86; 65; 76; 32; 58; 98; 10; 45; 83; 69; 81; 10; 45; 83; 69;
   81; 10; 61; 86; 65; 76; 32; 58; 109; 97; 112; 112; 105; 110; 103; 10; 43; 77; 65; 80; 32; 60;
   116; 97; 103; 58; 121; 97; 109; 108; 46; 111; 114; 103; 44; 50; 48; 48; 50; 58; 109; 97; 112;
   62; 10; 61; 86; 65; 76; 32; 58; 102; 111; 111; 10; 61; 86; 65; 76; 32; 58; 98; 97; 114; 10;
   45; 77; 65; 80; 10; 45; 77; 65; 80; 10; 45; 68; 79; 67]%N = true.
Proof. vm_compute. reflexivity. Qed.
Example test_block_57h4_x2 : passes
  [10; 32; 32; 45; 32; 33; 33; 115; 116; 114; 10; 32; 32; 32; 32; 45; 32; 98]%N
  [10; 43; 68; 79; 67; 10; 43; 83; 69; 81; 10; 43; 83; 69; 81; 32; 60; 116; 97; 103; 58; 121;
   97; 109; 108; 46; 111; 114; 103; 44; 50; 48; 48; 50; 58; 115; 116; 114; 62; 10; 61; 86; 65;
   76; 32; 58; 98; 10; 45; 83; 69; 81; 10; 45; 83; 69; 81; 10; 45; 68; 79; 67]%N = true.
Proof. vm_compute. reflexivity. Qed.
Example test_block_57h4_x3 : passes
  [10; 32; 32; 115; 101; 113; 117; 101; 110; 99; 101; 58; 32; 33; 33; 115; 101; 113; 10; 32; 32;
   45; 32; 97]%N
  [10; 43; 68; 79; 67; 10; 43; 77; 65; 80; 10; 61; 86; 65; 76; 32; 58; 115; 101; 113; 117; 101;
   110; 99; 101; 10; 43; 83; 69; 81; 32; 60; 116; 97; 103; 58; 121; 97; 109; 108; 46; 111; 114;
   103; 44; 50; 48; 48; 50; 58; 115; 101; 113; 62; 10; 61; 86; 65; 76; 32; 58; 97; 10; 45; 83;
   69; 81; 10; 45; 77; 65; 80; 10; 45; 68; 79; 67]%N = true.
Proof. vm_compute. reflexivity. Qed.
Example test_block_hmq5 : passes
  [10; 33; 33; 115; 116; 114; 32; 38; 97; 49; 32; 34; 102; 111; 111; 34; 58; 10; 32; 32; 33; 33;
   115; 116; 114; 32; 98; 97; 114; 10; 38; 97; 50; 32; 98; 97; 122; 32; 58; 32; 42; 97; 49;
   10]%N
  [10; 43; 68; 79; 67; 10; 43; 77; 65; 80; 10; 61; 86; 65; 76; 32; 38; 97; 49; 32; 60; 116; 97;
   103; 58; 121; 97; 109; 108; 46; 111; 114; 103; 44; 50; 48; 48; 50; 58; 115; 116; 114; 62; 32;
   34; 102; 111; 111; 10; 61; 86; 65; 76; 32; 60; 116; 97; 103; 58; 121; 97; 109; 108; 46; 111;
   114; 103; 44; 50; 48; 48; 50; 58; 115; 116; 114; 62; 32; 58; 98; 97; 114; 10; 61; 86; 65; 76;
   32; 38; 97; 50; 32; 58; 98; 97; 122; 10; 61; 65; 76; 73; 32; 42; 97; 49; 10; 45; 77; 65; 80;
   10; 45; 68; 79; 67]%N = true.
Proof. vm_compute. reflexivity. Qed.
Example test_block_g9hc_x2_1 : passes
  [10; 115; 101; 113; 58; 10; 32; 38; 97; 110; 99; 104; 111; 114; 10; 32; 45; 32; 97]%N
  [10; 43; 68; 79; 67; 10; 43; 77; 65; 80; 10; 61; 86; 65; 76; 32; 58; 115; 101; 113; 10; 43;
   83; 69; 81; 32; 38; 97; 110; 99; 104; 111; 114; 10; 61; 86; 65; 76; 32; 58; 97; 10; 45; 83;
   69; 81; 10; 45; 77; 65; 80; 10; 45; 68; 79; 67]%N = true.
Proof. vm_compute. reflexivity. Qed.
Example test_block_g9hc_x2_2 : passes
  [10; 32; 115; 101; 113; 58; 10; 32; 32; 9; 38; 97; 110; 99; 104; 111; 114; 10; 32; 32; 45; 32;
   97]%N
  [10; 43; 68; 79; 67; 10; 43; 77; 65; 80; 10; 61; 86; 65; 76; 32; 58; 115; 101; 113; 10; 43;
   83; 69; 81; 32; 38; 97; 110; 99; 104; 111; 114; 10; 61; 86; 65; 76; 32; 58; 97; 10; 45; 83;
   69; 81; 10; 45; 77; 65; 80; 10; 45; 68; 79; 67]%N = true.
Proof. vm_compute. reflexivity. Qed.
Example test_block_7t8x_x1 : passes
  [10; 62; 10; 32; 108; 105; 110; 101; 10; 10; 32; 35; 32; 67; 111; 109; 109; 101; 110; 116;
   10]%N
  [10; 43; 68; 79; 67; 10; 61; 86; 65; 76; 32; 62; 108; 105; 110; 101; 10; 35; 32; 67; 111; 109;
   109; 101; 110; 116; 10; 10; 45; 68; 79; 67]%N = true.
Proof. vm_compute. reflexivity. Qed.
Example test_block_7t8x_x2 : passes
  [10; 62; 10; 32; 108; 105; 110; 101; 10; 10; 35; 32; 67; 111; 109; 109; 101; 110; 116; 10]%N
  [10; 43; 68; 79; 67; 10; 61; 86; 65; 76; 32; 62; 108; 105; 110; 101; 10; 10; 45; 68; 79; 67]%N = true.
Proof. vm_compute. reflexivity. Qed.
Example test_block_6vjk_x1 : passes
  [10; 124; 10; 32; 88; 88; 10; 32; 88; 49; 10; 10; 32; 32; 32; 89; 49; 10; 32; 32; 32; 89; 50;
   10; 10; 32; 90; 51; 10]%N
  [10; 43; 68; 79; 67; 10; 61; 86; 65; 76; 32; 124; 88; 88; 10; 88; 49; 10; 10; 32; 32; 89; 49;
   10; 32; 32; 89; 50; 10; 10; 90; 51; 10; 10; 45; 68; 79; 67]%N = true.
Proof. vm_compute. reflexivity. Qed.
Example test_block_6vjk_x2 : passes
  [10; 62; 10; 32; 88; 49; 10; 10; 32; 32; 32; 89; 49; 10; 32; 32; 32; 89; 50; 10; 10; 32; 90;
   51; 10]%N
  [10; 43; 68; 79; 67; 10; 61; 86; 65; 76; 32; 62; 88; 49; 10; 10; 32; 32; 89; 49; 10; 32; 32;
   89; 50; 10; 10; 90; 51; 10; 10; 45; 68; 79; 67]%N = true.
Proof. vm_compute. reflexivity. Qed.
Example test_block_jef9 : passes
  [10; 45; 32; 124; 43; 10; 32; 32; 32]%N
  [10; 43; 68; 79; 67; 10; 43; 83; 69; 81; 10; 61; 86; 65; 76; 32; 124; 10; 10; 45; 83; 69; 81;
   10; 45; 68; 79; 67]%N = true.
Proof. vm_compute. reflexivity. Qed.
Example test_block_f6mc_x1 : passes
  [10; 97; 58; 32; 62; 50; 10; 32; 32; 32; 109; 111; 114; 101; 10; 32; 32; 110; 111; 114; 109;
   97; 108; 10]%N
  [10; 43; 68; 79; 67; 10; 43; 77; 65; 80; 10; 61; 86; 65; 76; 32; 58; 97; 10; 61; 86; 65; 76;
   32; 62; 32; 109; 111; 114; 101; 10; 110; 111; 114; 109; 97; 108; 10; 10; 45; 77; 65; 80; 10;
   45; 68; 79; 67]%N = true.
Proof. vm_compute. reflexivity. Qed.
Example test_block_f6mc_x2 : passes
  [10; 98; 58; 32; 62; 50; 10; 10; 10; 32; 32; 32; 109; 111; 114; 101; 10; 32; 32; 110; 111;
   114; 109; 97; 108; 10]%N
  [10; 43; 68; 79; 67; 10; 43; 77; 65; 80; 10; 61; 86; 65; 76; 32; 58; 98; 10; 61; 86; 65; 76;
   32; 62; 10; 10; 32; 109; 111; 114; 101; 10; 110; 111; 114; 109; 97; 108; 10; 10; 45; 77; 65;
   80; 10; 45; 68; 79; 67]%N = true.
Proof. vm_compute. reflexivity. Qed.
Example test_block_pw8x_x1 : passes
  [10; 45; 10; 32; 32; 63; 32; 38; 100; 10; 45; 10; 32; 32; 63; 32; 38; 101; 10; 32; 32; 58; 32;
   38; 97]%N
  [10; 43; 68; 79; 67; 10; 43; 83; 69; 81; 10; 43; 77; 65; 80; 10; 61; 86; 65; 76; 32; 38; 100;
   32; 58; 10; 61; 86; 65; 76; 32; 58; 10; 45; 77; 65; 80; 10; 43; 77; 65; 80; 10; 61; 86; 65;
   76; 32; 38; 101; 32; 58; 10; 61; 86; 65; 76; 32; 38; 97; 32; 58; 10; 45; 77; 65; 80; 10; 45;
   83; 69; 81; 10; 45; 68; 79; 67]%N = true.
Proof. vm_compute. reflexivity. Qed.
Example test_block_pw8x_x2 : passes
  [10; 45; 10; 32; 32; 63; 32; 38; 100]%N
  [10; 43; 68; 79; 67; 10; 43; 83; 69; 81; 10; 43; 77; 65; 80; 10; 61; 86; 65; 76; 32; 38; 100;
   32; 58; 10; 61; 86; 65; 76; 32; 58; 10; 45; 77; 65; 80; 10; 45; 83; 69; 81; 10; 45; 68; 79;
   67]%N = true.
Proof. vm_compute. reflexivity. Qed.
Example test_block_pw8x_x3 : passes
  [10; 45; 10; 32; 32; 63; 32; 38; 101; 10; 32; 32; 58; 32; 38; 97]%N
  [10; 43; 68; 79; 67; 10; 43; 83; 69; 81; 10; 43; 77; 65; 80; 10; 61; 86; 65; 76; 32; 38; 101;
   32; 58; 10; 61; 86; 65; 76; 32; 38; 97; 32; 58; 10; 45; 77; 65; 80; 10; 45; 83; 69; 81; 10;
   45; 68; 79; 67]%N = true.
Proof. vm_compute. reflexivity. Qed.
Example test_block_q9wf : passes
  [10; 123; 125; 58; 10; 32; 32; 104; 114; 58; 32; 97]%N
  [10; 43; 68; 79; 67; 10; 43; 77; 65; 80; 10; 43; 77; 65; 80; 10; 45; 77; 65; 80; 10; 43; 77;
   65; 80; 10; 61; 86; 65; 76; 32; 58; 104; 114; 10; 61; 86; 65; 76; 32; 58; 97; 10; 45; 77; 65;
   80; 10; 45; 77; 65; 80; 10; 45; 68; 79; 67]%N = true.
Proof. vm_compute. reflexivity. Qed.
Example test_block_4aw9 : passes
  [10; 45; 32; 97; 97; 97; 58; 32; 124; 50; 10; 32; 32; 32; 32; 120; 120; 120]%N
  [10; 43; 68; 79; 67; 10; 43; 83; 69; 81; 10; 43; 77; 65; 80; 10; 61; 86; 65; 76; 32; 58; 97;
   97; 97; 10; 61; 86; 65; 76; 32; 124; 120; 120; 120; 10; 10; 45; 77; 65; 80; 10; 45; 83; 69;
   81; 10; 45; 68; 79; 67]%N = true.
Proof. vm_compute. reflexivity. Qed.
Example test_block_87e4_x1 : passes
  [10; 39; 105; 109; 112; 108; 105; 99; 105; 116; 32; 98; 108; 111; 99; 107; 32; 107; 101; 121;
   39; 32; 58; 32; 91; 10; 32; 32; 39; 105; 109; 112; 108; 105; 99; 105; 116; 32; 102; 108; 111;
   119; 32; 107; 101; 121; 39; 32; 58; 32; 118; 97; 108; 117; 101; 44; 10; 32; 93; 10]%N
  [10; 43; 68; 79; 67; 10; 43; 77; 65; 80; 10; 61; 86; 65; 76; 32; 39; 105; 109; 112; 108; 105;
   99; 105; 116; 32; 98; 108; 111; 99; 107; 32; 107; 101; 121; 10; 43; 83; 69; 81; 10; 43; 77;
   65; 80; 10; 61; 86; 65; 76; 32; 39; 105; 109; 112; 108; 105; 99; 105; 116; 32; 102; 108; 111;
   119; 32; 107; 101; 121; 10; 61; 86; 65; 76; 32; 58; 118; 97; 108; 117; 101; 10; 45; 77; 65;
   80; 10; 45; 83; 69; 81; 10; 45; 77; 65; 80; 10; 45; 68; 79; 67]%N = true.
Proof. vm_compute. reflexivity. Qed.
Example test_block_6hb6 : passes
  [10; 78; 111; 116; 32; 105; 110; 100; 101; 110; 116; 101; 100; 58; 10; 32; 70; 108; 111; 119;
   32; 115; 116; 121; 108; 101; 58; 32; 91; 32; 32; 32; 32; 32; 32; 32; 35; 32; 99; 111; 109;
   109; 101; 110; 116; 10; 32; 32; 32; 66; 121; 32; 116; 119; 111; 44; 32; 32; 32; 32; 32; 32;
   32; 32; 32; 32; 32; 35; 32; 99; 111; 109; 109; 101; 110; 116; 10; 32; 32; 65; 108; 115; 111;
   32; 98; 121; 32; 116; 119; 111; 44; 32; 32; 32; 32; 32; 32; 32; 35; 32; 99; 111; 109; 109;
   101; 110; 116; 10; 32; 32; 9; 83; 116; 105; 108; 108; 32; 98; 121; 32; 116; 119; 111; 32; 32;
   32; 32; 32; 35; 32; 99; 111; 109; 109; 101; 110; 116; 10; 32; 32; 32; 32; 93; 32; 32; 32; 32;
   32; 32; 35; 32; 99; 111; 109; 109; 101; 110; 116; 10]%N
  [10; 43; 68; 79; 67; 10; 43; 77; 65; 80; 10; 61; 86; 65; 76; 32; 58; 78; 111; 116; 32; 105;
   110; 100; 101; 110; 116; 101; 100; 10; 43; 77; 65; 80; 10; 61; 86; 65; 76; 32; 58; 70; 108;
   111; 119; 32; 115; 116; 121; 108; 101; 10; 43; 83; 69; 81; 10; 61; 86; 65; 76; 32; 58; 66;
   121; 32; 116; 119; 111; 10; 61; 86; 65; 76; 32; 58; 65; 108; 115; 111; 32; 98; 121; 32; 116;
   119; 111; 10; 61; 86; 65; 76; 32; 58; 83; 116; 105; 108; 108; 32; 98; 121; 32; 116; 119; 111;
   10; 45; 83; 69; 81; 10; 45; 77; 65; 80; 10; 45; 77; 65; 80; 10; 45; 68; 79; 67]%N = true.
Proof. vm_compute. reflexivity. Qed.
Example test_block_7zz5 : passes
  [10; 107; 101; 121; 50; 58; 32; 123; 125; 10]%N
  [10; 43; 68; 79; 67; 10; 43; 77; 65; 80; 10; 61; 86; 65; 76; 32; 58; 107; 101; 121; 50; 10;
   43; 77; 65; 80; 10; 45; 77; 65; 80; 10; 45; 77; 65; 80; 10; 45; 68; 79; 67]%N = true.
Proof. vm_compute. reflexivity. Qed.
Example test_block_87e4_x2 : passes
  [10; 39; 105; 109; 112; 108; 105; 99; 105; 116; 32; 98; 108; 111; 99; 107; 32; 107; 101; 121;
   39; 32; 58; 32; 91; 10; 32; 32; 39; 105; 109; 112; 108; 105; 99; 105; 116; 32; 102; 108; 111;
   119; 32; 107; 101; 121; 39; 32; 58; 32; 118; 97; 108; 117; 101; 10; 32; 93; 10]%N
  [10; 43; 68; 79; 67; 10; 43; 77; 65; 80; 10; 61; 86; 65; 76; 32; 39; 105; 109; 112; 108; 105;
   99; 105; 116; 32; 98; 108; 111; 99; 107; 32; 107; 101; 121; 10; 43; 83; 69; 81; 10; 43; 77;
   65; 80; 10; 61; 86; 65; 76; 32; 39; 105; 109; 112; 108; 105; 99; 105; 116; 32; 102; 108; 111;
   119; 32; 107; 101; 121; 10; 61; 86; 65; 76; 32; 58; 118; 97; 108; 117; 101; 10; 45; 77; 65;
   80; 10; 45; 83; 69; 81; 10; 45; 77; 65; 80; 10; 45; 68; 79; 67]%N = true.
Proof. vm_compute. reflexivity. Qed.
Example test_block_8kb6 : passes
  [10; 45; 32; 123; 32; 109; 117; 108; 116; 105; 10; 32; 32; 108; 105; 110; 101; 44; 32; 97; 58;
   32; 98; 125; 10]%N
  [10; 43; 68; 79; 67; 10; 43; 83; 69; 81; 10; 43; 77; 65; 80; 10; 61; 86; 65; 76; 32; 58; 109;
   117; 108; 116; 105; 32; 108; 105; 110; 101; 10; 61; 86; 65; 76; 32; 58; 10; 61; 86; 65; 76;
   32; 58; 97; 10; 61; 86; 65; 76; 32; 58; 98; 10; 45; 77; 65; 80; 10; 45; 83; 69; 81; 10; 45;
   68; 79; 67]%N = true.
Proof. vm_compute. reflexivity. Qed.
Example test_block_v9d5 : passes
  [10; 45; 32; 63; 32; 101; 97; 114; 116; 104; 58; 32; 98; 108; 117; 101; 10; 32; 32; 58; 32;
   109; 111; 111; 110; 58; 32; 119; 104; 105; 116; 101; 10]%N
  [10; 43; 68; 79; 67; 10; 43; 83; 69; 81; 10; 43; 77; 65; 80; 10; 43; 77; 65; 80; 10; 61; 86;
   65; 76; 32; 58; 101; 97; 114; 116; 104; 10; 61; 86; 65; 76; 32; 58; 98; 108; 117; 101; 10;
   45; 77; 65; 80; 10; 43; 77; 65; 80; 10; 61; 86; 65; 76; 32; 58; 109; 111; 111; 110; 10; 61;
   86; 65; 76; 32; 58; 119; 104; 105; 116; 101; 10; 45; 77; 65; 80; 10; 45; 77; 65; 80; 10; 45;
   83; 69; 81; 10; 45; 68; 79; 67]%N = true.
Proof. vm_compute. reflexivity. Qed.
Example test_block_2xxw : passes
  [10; 45; 45; 45; 32; 33; 33; 115; 101; 116; 10; 63; 32; 77; 97; 114; 107; 32; 77; 99; 71; 119;
   105; 114; 101]%N
  [10; 43; 68; 79; 67; 10; 43; 77; 65; 80; 32; 60; 116; 97; 103; 58; 121; 97; 109; 108; 46; 111;
   114; 103; 44; 50; 48; 48; 50; 58; 115; 101; 116; 62; 10; 61; 86; 65; 76; 32; 58; 77; 97; 114;
   107; 32; 77; 99; 71; 119; 105; 114; 101; 10; 61; 86; 65; 76; 32; 58; 10; 45; 77; 65; 80; 10;
   45; 68; 79; 67]%N = true.
Proof. vm_compute. reflexivity. Qed.
Example test_block_a2m4 : passes
  [10; 63; 32; 97; 10; 58; 32; 45; 9; 98]%N
  [10; 43; 68; 79; 67; 10; 43; 77; 65; 80; 10; 61; 86; 65; 76; 32; 58; 97; 10; 43; 83; 69; 81;
   10; 61; 86; 65; 76; 32; 58; 98; 10; 45; 83; 69; 81; 10; 45; 77; 65; 80; 10; 45; 68; 79; 67]%N = true.
Proof. vm_compute. reflexivity. Qed.
Example test_block_7w2p : passes
  [10; 63; 32; 97; 10; 63; 32; 98; 10; 99; 58; 10]%N
  [10; 43; 68; 79; 67; 10; 43; 77; 65; 80; 10; 61; 86; 65; 76; 32; 58; 97; 10; 61; 86; 65; 76;
   32; 58; 10; 61; 86; 65; 76; 32; 58; 98; 10; 61; 86; 65; 76; 32; 58; 10; 61; 86; 65; 76; 32;
   58; 99; 10; 61; 86; 65; 76; 32; 58; 10; 45; 77; 65; 80; 10; 45; 68; 79; 67]%N = true.
Proof. vm_compute. reflexivity. Qed.
Example test_block_5we3 : passes
  [10; 10; 63; 32; 101; 120; 112; 108; 105; 99; 105; 116; 32; 107; 101; 121; 32; 35; 32; 69;
   109; 112; 116; 121; 32; 118; 97; 108; 117; 101; 10; 63; 32; 124; 10; 32; 32; 98; 108; 111;
   99; 107; 32; 107; 101; 121]%N
  [10; 43; 68; 79; 67; 10; 43; 77; 65; 80; 10; 61; 86; 65; 76; 32; 58; 101; 120; 112; 108; 105;
   99; 105; 116; 32; 107; 101; 121; 10; 61; 86; 65; 76; 32; 58; 10; 61; 86; 65; 76; 32; 124; 98;
   108; 111; 99; 107; 32; 107; 101; 121; 10; 10; 61; 86; 65; 76; 32; 58; 10; 45; 77; 65; 80; 10;
   45; 68; 79; 67]%N = true.
Proof. vm_compute. reflexivity. Qed.
Example test_block_6kgn : passes
  [10; 97; 58; 32; 38; 97; 110; 99; 104; 111; 114; 10; 98; 58; 32; 42; 97; 110; 99; 104; 111;
   114]%N
  [10; 43; 68; 79; 67; 10; 43; 77; 65; 80; 10; 61; 86; 65; 76; 32; 58; 97; 10; 61; 86; 65; 76;
   32; 38; 97; 110; 99; 104; 111; 114; 32; 58; 10; 61; 86; 65; 76; 32; 58; 98; 10; 61; 65; 76;
   73; 32; 42; 97; 110; 99; 104; 111; 114; 10; 45; 77; 65; 80; 10; 45; 68; 79; 67]%N = true.
Proof. vm_compute. reflexivity. Qed.
Example test_block_syw4_x1_1 : passes
  [10; 104; 114; 58; 32; 32; 54; 53; 32; 32; 32; 32; 35; 32; 72; 111; 109; 101; 32; 114; 117;
   110; 115; 10; 97; 118; 103; 58; 32; 48; 46; 50; 55; 56; 32; 35; 32; 66; 97; 116; 116; 105;
   110; 103; 32; 97; 118; 101; 114; 97; 103; 101; 10]%N
  [10; 43; 68; 79; 67; 10; 43; 77; 65; 80; 10; 61; 86; 65; 76; 32; 58; 104; 114; 10; 61; 86; 65;
   76; 32; 58; 54; 53; 10; 61; 86; 65; 76; 32; 58; 97; 118; 103; 10; 61; 86; 65; 76; 32; 58; 48;
   46; 50; 55; 56; 10; 45; 77; 65; 80; 10; 45; 68; 79; 67]%N = true.
Proof. vm_compute. reflexivity. Qed.
Example test_block_syw4_x1_2 : passes
  [10; 104; 114; 58; 32; 32; 54; 53; 10; 97; 118; 103; 58; 32; 48; 46; 50; 55; 56; 10]%N
  [10; 43; 68; 79; 67; 10; 43; 77; 65; 80; 10; 61; 86; 65; 76; 32; 58; 104; 114; 10; 61; 86; 65;
   76; 32; 58; 54; 53; 10; 61; 86; 65; 76; 32; 58; 97; 118; 103; 10; 61; 86; 65; 76; 32; 58; 48;
   46; 50; 55; 56; 10; 45; 77; 65; 80; 10; 45; 68; 79; 67]%N = true.
Proof. vm_compute. reflexivity. Qed.
Example test_block_y79y_00_x1 : passes
  [10; 32; 32; 102; 111; 111; 58; 32; 124; 10; 32; 32; 9; 9; 9; 10; 9; 9; 9; 10]%N
  [10; 43; 68; 79; 67; 10; 43; 77; 65; 80; 10; 61; 86; 65; 76; 32; 58; 102; 111; 111; 10; 61;
   86; 65; 76; 32; 124; 10; 45; 77; 65; 80; 10; 45; 68; 79; 67]%N = true.
Proof. vm_compute. reflexivity. Qed.
Example test_block_y79y_00_x2 : passes
  [10; 102; 111; 111; 58; 10; 10; 98; 97; 114; 58; 32; 49]%N
  [10; 43; 68; 79; 67; 10; 43; 77; 65; 80; 10; 61; 86; 65; 76; 32; 58; 102; 111; 111; 10; 61;
   86; 65; 76; 32; 58; 10; 61; 86; 65; 76; 32; 58; 98; 97; 114; 10; 61; 86; 65; 76; 32; 58; 49;
   10; 45; 77; 65; 80; 10; 45; 68; 79; 67]%N = true.
Proof. vm_compute. reflexivity. Qed.
Example test_block_33x3 : passes
  [10; 45; 32; 33; 33; 105; 110; 116; 32; 49; 10; 45; 32; 33; 33; 105; 110; 116; 32; 45; 50;
   10]%N
  [10; 43; 68; 79; 67; 10; 43; 83; 69; 81; 10; 61; 86; 65; 76; 32; 60; 116; 97; 103; 58; 121;
   97; 109; 108; 46; 111; 114; 103; 44; 50; 48; 48; 50; 58; 105; 110; 116; 62; 32; 58; 49; 10;
   61; 86; 65; 76; 32; 60; 116; 97; 103; 58; 121; 97; 109; 108; 46; 111; 114; 103; 44; 50; 48;
   48; 50; 58; 105; 110; 116; 62; 32; 58; 45; 50; 10; 45; 83; 69; 81; 10; 45; 68; 79; 67]%N = true.
Proof. vm_compute. reflexivity. Qed.
Example test_block_3alj_x1 : passes
  [10; 32; 45; 32; 45; 32; 115; 49; 95; 105; 49; 10; 32; 32; 32; 45; 32; 115; 49; 95; 105; 50;
   10; 32; 45; 32; 115; 50; 10]%N
  [10; 43; 68; 79; 67; 10; 43; 83; 69; 81; 10; 43; 83; 69; 81; 10; 61; 86; 65; 76; 32; 58; 115;
   49; 95; 105; 49; 10; 61; 86; 65; 76; 32; 58; 115; 49; 95; 105; 50; 10; 45; 83; 69; 81; 10;
   61; 86; 65; 76; 32; 58; 115; 50; 10; 45; 83; 69; 81; 10; 45; 68; 79; 67]%N = true.
Proof. vm_compute. reflexivity. Qed.
Example test_block_3alj_x2 : passes
  [10; 45; 32; 45; 32; 115; 49; 95; 105; 49; 10; 32; 32; 45; 32; 115; 49; 95; 105; 50; 10; 45;
   32; 115; 50; 10]%N
  [10; 43; 68; 79; 67; 10; 43; 83; 69; 81; 10; 43; 83; 69; 81; 10; 61; 86; 65; 76; 32; 58; 115;
   49; 95; 105; 49; 10; 61; 86; 65; 76; 32; 58; 115; 49; 95; 105; 50; 10; 45; 83; 69; 81; 10;
   61; 86; 65; 76; 32; 58; 115; 50; 10; 45; 83; 69; 81; 10; 45; 68; 79; 67]%N = true.
Proof. vm_compute. reflexivity. Qed.
Example test_single_quote_test1 : passes
  [10; 32; 32; 39; 115; 105; 110; 103; 108; 101; 32; 113; 117; 111; 116; 101; 39; 10; 32; 32;
   32; 32]%N
  [10; 43; 68; 79; 67; 10; 61; 86; 65; 76; 32; 39; 115; 105; 110; 103; 108; 101; 32; 113; 117;
   111; 116; 101; 10; 45; 68; 79; 67]%N = true.
Proof. vm_compute. reflexivity. Qed.
Example test_single_quote_test2 : passes
  [10; 32; 32; 39; 115; 105; 110; 103; 108; 101; 10; 32; 32; 113; 117; 111; 116; 101; 39]%N
  [10; 43; 68; 79; 67; 10; 61; 86; 65; 76; 32; 39; 115; 105; 110; 103; 108; 101; 32; 113; 117;
   111; 116; 101; 10; 45; 68; 79; 67]%N = true.
Proof. vm_compute. reflexivity. Qed.
Example test_single_quote_escape_input : passes
  [39; 102; 111; 114; 32; 115; 105; 110; 103; 108; 101; 32; 113; 117; 111; 116; 101; 44; 32;
   117; 115; 101; 32; 39; 39; 32; 116; 119; 111; 32; 111; 102; 32; 116; 104; 101; 109; 39]%N
  [10; 43; 68; 79; 67; 10; 61; 86; 65; 76; 32; 39; 102; 111; 114; 32; 115; 105; 110; 103; 108;
   101; 32; 113; 117; 111; 116; 101; 44; 32; 117; 115; 101; 32; 39; 32; 116; 119; 111; 32; 111;
   102; 32; 116; 104; 101; 109; 10; 45; 68; 79; 67]%N = true.
Proof. vm_compute. reflexivity. Qed.
Example test_single_quote_escape_input_multiline : passes
  [39; 102; 111; 114; 32; 115; 105; 110; 103; 108; 101; 32; 113; 117; 111; 116; 101; 44; 32;
   117; 115; 101; 10; 39; 39; 32; 116; 119; 111; 32; 111; 102; 32; 116; 104; 101; 109; 39]%N
  [10; 43; 68; 79; 67; 10; 61; 86; 65; 76; 32; 39; 102; 111; 114; 32; 115; 105; 110; 103; 108;
   101; 32; 113; 117; 111; 116; 101; 44; 32; 117; 115; 101; 32; 39; 32; 116; 119; 111; 32; 111;
   102; 32; 116; 104; 101; 109; 10; 45; 68; 79; 67]%N = true.
Proof. vm_compute. reflexivity. Qed.
Example test_double_quote : passes
  [10; 32; 32; 34; 100; 111; 117; 98; 108; 101; 32; 113; 117; 111; 116; 101; 34; 10; 32; 32; 32;
   32]%N
  [10; 43; 68; 79; 67; 10; 61; 86; 65; 76; 32; 34; 100; 111; 117; 98; 108; 101; 32; 113; 117;
   111; 116; 101; 10; 45; 68; 79; 67]%N = true.
Proof. vm_compute. reflexivity. Qed.
Example test_double_quote_split : passes
  [10; 32; 32; 34; 100; 111; 117; 98; 108; 101; 10; 32; 32; 113; 117; 111; 116; 101; 34; 10]%N
  [10; 43; 68; 79; 67; 10; 61; 86; 65; 76; 32; 34; 100; 111; 117; 98; 108; 101; 32; 113; 117;
   111; 116; 101; 10; 45; 68; 79; 67]%N = true.
Proof. vm_compute. reflexivity. Qed.
Example test_double_quote_multiline : passes
  [10; 32; 34; 116; 101; 115; 116; 10; 10; 32; 32; 32; 116; 97; 98; 34; 32]%N
  [10; 43; 68; 79; 67; 10; 61; 86; 65; 76; 32; 34; 116; 101; 115; 116; 10; 116; 97; 98; 10; 45;
   68; 79; 67]%N = true.
Proof. vm_compute. reflexivity. Qed.
Example test_double_quote_multiline1 : passes
  [10; 32; 32; 103; 101; 110; 58; 32; 34; 92; 10; 32; 32; 32; 32; 32; 32; 102; 111; 111; 92; 10;
   32; 32; 32; 32; 32; 32; 98; 97; 114; 32; 32; 32; 10; 32; 32; 32; 32; 32; 32; 98; 97; 122; 32;
   34; 10]%N
  [10; 43; 68; 79; 67; 10; 43; 77; 65; 80; 10; 61; 86; 65; 76; 32; 58; 103; 101; 110; 10; 61;
   86; 65; 76; 32; 34; 102; 111; 111; 98; 97; 114; 32; 98; 97; 122; 32; 10; 45; 77; 65; 80; 10;
   45; 68; 79; 67]%N = true.
Proof. vm_compute. reflexivity. Qed.
Example test_double_quote_multiline2 : passes
  [10; 32; 45; 32; 34; 100; 111; 117; 98; 108; 101; 32; 32; 32; 10; 32; 32; 32; 32; 32; 32; 32;
   32; 32; 32; 32; 32; 32; 10; 32; 113; 117; 111; 116; 101; 34; 32]%N
  [10; 43; 68; 79; 67; 10; 43; 83; 69; 81; 10; 61; 86; 65; 76; 32; 34; 100; 111; 117; 98; 108;
   101; 10; 113; 117; 111; 116; 101; 10; 45; 83; 69; 81; 10; 45; 68; 79; 67]%N = true.
Proof. vm_compute. reflexivity. Qed.
Example test_double_quote_tabs1 : passes
  [32; 34; 49; 32; 116; 101; 115; 116; 10; 32; 32; 32; 32; 92; 9; 116; 97; 98; 34; 32]%N
  [10; 43; 68; 79; 67; 10; 61; 86; 65; 76; 32; 34; 49; 32; 116; 101; 115; 116; 32; 9; 116; 97;
   98; 10; 45; 68; 79; 67]%N = true.
Proof. vm_compute. reflexivity. Qed.
Example test_double_quote_tabs2 : passes
  [10; 32; 32; 32; 32; 34; 49; 32; 116; 101; 115; 116; 10; 32; 32; 32; 32; 32; 32; 92; 116; 116;
   97; 98; 34; 32]%N
  [10; 43; 68; 79; 67; 10; 61; 86; 65; 76; 32; 34; 49; 32; 116; 101; 115; 116; 32; 9; 116; 97;
   98; 10; 45; 68; 79; 67]%N = true.
Proof. vm_compute. reflexivity. Qed.
Example test_double_quote_tabs3 : passes
  [10; 34; 49; 32; 116; 101; 115; 116; 92; 116; 10; 32; 32; 32; 32; 116; 97; 98; 34; 32]%N
  [10; 43; 68; 79; 67; 10; 61; 86; 65; 76; 32; 34; 49; 32; 116; 101; 115; 116; 9; 32; 116; 97;
   98; 10; 45; 68; 79; 67]%N = true.
Proof. vm_compute. reflexivity. Qed.
Example test_double_quote_tabs4 : passes
  [10; 32; 32; 32; 32; 34; 49; 32; 116; 101; 115; 116; 92; 116; 10; 32; 32; 32; 32; 32; 32; 32;
   32; 116; 97; 98; 34; 32]%N
  [10; 43; 68; 79; 67; 10; 61; 86; 65; 76; 32; 34; 49; 32; 116; 101; 115; 116; 9; 32; 116; 97;
   98; 10; 45; 68; 79; 67]%N = true.
Proof. vm_compute. reflexivity. Qed.
Example test_double_quote_tabs5 : passes
  [10; 32; 32; 32; 32; 34; 49; 32; 116; 101; 115; 116; 92; 9; 10; 32; 32; 32; 32; 32; 32; 32;
   32; 116; 97; 98; 34; 32; 32; 32]%N
  [10; 43; 68; 79; 67; 10; 61; 86; 65; 76; 32; 34; 49; 32; 116; 101; 115; 116; 9; 32; 116; 97;
   98; 10; 45; 68; 79; 67]%N = true.
Proof. vm_compute. reflexivity. Qed.
Example test_double_quote_empty : passes
  [10; 97; 58; 32; 39; 10; 32; 32; 39; 10; 98; 58; 32; 39; 32; 32; 10; 32; 32; 39; 10; 32; 32]%N
  [10; 43; 68; 79; 67; 10; 43; 77; 65; 80; 10; 61; 86; 65; 76; 32; 58; 97; 10; 61; 86; 65; 76;
   32; 39; 32; 10; 61; 86; 65; 76; 32; 58; 98; 10; 61; 86; 65; 76; 32; 39; 32; 10; 45; 77; 65;
   80; 10; 45; 68; 79; 67]%N = true.
Proof. vm_compute. reflexivity. Qed.
Example test_double_quote_x1_g4rs : passes
  [117; 110; 105; 99; 111; 100; 101; 58; 32; 34; 83; 111; 115; 97; 32; 100; 105; 100; 32; 102;
   105; 110; 101; 46; 92; 117; 50; 54; 51; 65; 34]%N
  [10; 43; 68; 79; 67; 10; 43; 77; 65; 80; 10; 61; 86; 65; 76; 32; 58; 117; 110; 105; 99; 111;
   100; 101; 10; 61; 86; 65; 76; 32; 34; 83; 111; 115; 97; 32; 100; 105; 100; 32; 102; 105; 110;
   101; 46; 226; 152; 186; 10; 45; 77; 65; 80; 10; 45; 68; 79; 67]%N = true.
Proof. vm_compute. reflexivity. Qed.
Example test_double_quote_x2_g4rs : passes
  [117; 110; 105; 99; 111; 100; 101; 58; 32; 34; 83; 111; 115; 97; 32; 100; 105; 100; 32; 102;
   105; 110; 101; 46; 226; 152; 186; 34]%N
  [10; 43; 68; 79; 67; 10; 43; 77; 65; 80; 10; 61; 86; 65; 76; 32; 58; 117; 110; 105; 99; 111;
   100; 101; 10; 61; 86; 65; 76; 32; 34; 83; 111; 115; 97; 32; 100; 105; 100; 32; 102; 105; 110;
   101; 46; 226; 152; 186; 10; 45; 77; 65; 80; 10; 45; 68; 79; 67]%N = true.
Proof. vm_compute. reflexivity. Qed.
Example test_double_quote_x3_g4rs : passes
  [104; 101; 120; 32; 101; 115; 99; 58; 32; 34; 92; 120; 48; 100; 92; 120; 48; 97; 32; 105; 115;
   32; 92; 114; 92; 110; 34]%N
  [10; 43; 68; 79; 67; 10; 43; 77; 65; 80; 10; 61; 86; 65; 76; 32; 58; 104; 101; 120; 32; 101;
   115; 99; 10; 61; 86; 65; 76; 32; 34; 13; 10; 32; 105; 115; 32; 13; 10; 10; 45; 77; 65; 80;
   10; 45; 68; 79; 67]%N = true.
Proof. vm_compute. reflexivity. Qed.
Example test_double_quote_6wpf : passes
  [10; 34; 10; 32; 32; 98; 97; 122; 10; 34]%N
  [10; 43; 68; 79; 67; 10; 61; 86; 65; 76; 32; 34; 32; 98; 97; 122; 32; 10; 45; 68; 79; 67]%N = true.
Proof. vm_compute. reflexivity. Qed.
Example test_double_quote_np9h : passes
  [10; 34; 102; 111; 108; 100; 101; 100; 10; 116; 111; 32; 97; 32; 115; 112; 97; 99; 101; 44;
   10; 10; 116; 111; 32; 97; 32; 108; 105; 110; 101; 32; 102; 101; 101; 100; 44; 32; 111; 114;
   32; 9; 92; 10; 32; 92; 32; 9; 110; 111; 110; 45; 99; 111; 110; 116; 101; 110; 116; 34]%N
  [10; 43; 68; 79; 67; 10; 61; 86; 65; 76; 32; 34; 102; 111; 108; 100; 101; 100; 32; 116; 111;
   32; 97; 32; 115; 112; 97; 99; 101; 44; 10; 116; 111; 32; 97; 32; 108; 105; 110; 101; 32; 102;
   101; 101; 100; 44; 32; 111; 114; 32; 9; 32; 9; 110; 111; 110; 45; 99; 111; 110; 116; 101;
   110; 116; 10; 45; 68; 79; 67]%N = true.
Proof. vm_compute. reflexivity. Qed.
Example test_test_escape1 : passes
  [10; 32; 34; 97; 92; 47; 98; 34; 10]%N
  [10; 43; 68; 79; 67; 10; 61; 86; 65; 76; 32; 34; 97; 47; 98; 10; 45; 68; 79; 67]%N = true.
Proof. vm_compute. reflexivity. Qed.
Example test_test_escape2 : passes
  [10; 34; 102; 111; 111; 92; 110; 98; 97; 114; 92; 92; 98; 97; 122; 34; 58; 32; 50; 51]%N
  [10; 43; 68; 79; 67; 10; 43; 77; 65; 80; 10; 61; 86; 65; 76; 32; 34; 102; 111; 111; 10; 98;
   97; 114; 92; 98; 97; 122; 10; 61; 86; 65; 76; 32; 58; 50; 51; 10; 45; 77; 65; 80; 10; 45; 68;
   79; 67]%N = true.
Proof. vm_compute. reflexivity. Qed.
Example test_test_escape3 : passes
  [10; 32; 34; 100; 111; 117; 98; 108; 101; 32; 113; 117; 111; 116; 101; 32; 40; 92; 34; 41;
   34]%N
  [10; 43; 68; 79; 67; 10; 61; 86; 65; 76; 32; 34; 100; 111; 117; 98; 108; 101; 32; 113; 117;
   111; 116; 101; 32; 40; 34; 41; 10; 45; 68; 79; 67]%N = true.
Proof. vm_compute. reflexivity. Qed.
Example test_flow_null1 : passes
  [10; 110; 117; 108; 108; 10]%N
  [10; 43; 68; 79; 67; 10; 61; 86; 65; 76; 32; 58; 110; 117; 108; 108; 10; 45; 68; 79; 67]%N = true.
Proof. vm_compute. reflexivity. Qed.
Example test_flow_null2 : passes
  [13; 10; 110; 117; 108; 108; 13; 10]%N
  [10; 43; 68; 79; 67; 10; 61; 86; 65; 76; 32; 58; 110; 117; 108; 108; 10; 45; 68; 79; 67]%N = true.
Proof. vm_compute. reflexivity. Qed.
Example test_flow_multi_word : passes
  [10; 32; 32; 110; 117; 108; 108; 32; 116; 101; 115; 116; 32; 120; 121]%N
  [10; 43; 68; 79; 67; 10; 61; 86; 65; 76; 32; 58; 110; 117; 108; 108; 32; 116; 101; 115; 116;
   32; 120; 121; 10; 45; 68; 79; 67]%N = true.
Proof. vm_compute. reflexivity. Qed.
Example test_flow_multiline : passes
  [10; 116; 101; 115; 116; 10; 120; 116; 10]%N
  [10; 43; 68; 79; 67; 10; 61; 86; 65; 76; 32; 58; 116; 101; 115; 116; 32; 120; 116; 10; 45; 68;
   79; 67]%N = true.
Proof. vm_compute. reflexivity. Qed.
Example test_flow_plain_scalar : passes
  [10; 32; 32; 97; 10; 32; 32; 98; 10; 32; 99]%N
  [10; 43; 68; 79; 67; 10; 61; 86; 65; 76; 32; 58; 97; 32; 98; 32; 99; 10; 45; 68; 79; 67]%N = true.
Proof. vm_compute. reflexivity. Qed.
Example test_flow_tag : passes
  [10; 37; 84; 65; 71; 32; 33; 109; 33; 32; 33; 109; 121; 45; 10; 45; 45; 45; 32; 35; 32; 66;
   117; 108; 98; 32; 104; 101; 114; 101; 10; 33; 109; 33; 108; 105; 103; 104; 116; 32; 102; 108;
   117; 111; 114; 101; 115; 99; 101; 110; 116; 10; 46; 46; 46]%N
  [10; 43; 68; 79; 67; 10; 61; 86; 65; 76; 32; 60; 33; 109; 121; 45; 108; 105; 103; 104; 116;
   62; 32; 58; 102; 108; 117; 111; 114; 101; 115; 99; 101; 110; 116; 10; 45; 68; 79; 67]%N = true.
Proof. vm_compute. reflexivity. Qed.
Example test_flow_alias : passes
  [10; 38; 115; 101; 113; 32; 91; 32; 38; 105; 116; 101; 109; 32; 39; 97; 39; 93; 10]%N
  [10; 43; 68; 79; 67; 10; 43; 83; 69; 81; 32; 38; 115; 101; 113; 10; 61; 86; 65; 76; 32; 38;
   105; 116; 101; 109; 32; 39; 97; 10; 45; 83; 69; 81; 10; 45; 68; 79; 67]%N = true.
Proof. vm_compute. reflexivity. Qed.
Example test_flow_seq1 : passes
  [10; 91; 120; 44; 32; 121; 93; 10]%N
  [10; 43; 68; 79; 67; 10; 43; 83; 69; 81; 10; 61; 86; 65; 76; 32; 58; 120; 10; 61; 86; 65; 76;
   32; 58; 121; 10; 45; 83; 69; 81; 10; 45; 68; 79; 67]%N = true.
Proof. vm_compute. reflexivity. Qed.
Example test_flow_seq2 : passes
  [10; 91; 120; 32; 44; 121; 93; 10]%N
  [10; 43; 68; 79; 67; 10; 43; 83; 69; 81; 10; 61; 86; 65; 76; 32; 58; 120; 10; 61; 86; 65; 76;
   32; 58; 121; 10; 45; 83; 69; 81; 10; 45; 68; 79; 67]%N = true.
Proof. vm_compute. reflexivity. Qed.
Example test_flow_imp_map_in_seq1 : passes
  [10; 91; 58; 93; 10]%N
  [10; 43; 68; 79; 67; 10; 43; 83; 69; 81; 10; 43; 77; 65; 80; 10; 61; 86; 65; 76; 32; 58; 10;
   61; 86; 65; 76; 32; 58; 10; 45; 77; 65; 80; 10; 45; 83; 69; 81; 10; 45; 68; 79; 67]%N = true.
Proof. vm_compute. reflexivity. Qed.
Example test_flow_imp_map_in_seq2 : passes
  [10; 91; 123; 58; 125; 93; 10]%N
  [10; 43; 68; 79; 67; 10; 43; 83; 69; 81; 10; 43; 77; 65; 80; 10; 61; 86; 65; 76; 32; 58; 10;
   61; 86; 65; 76; 32; 58; 10; 45; 77; 65; 80; 10; 45; 83; 69; 81; 10; 45; 68; 79; 67]%N = true.
Proof. vm_compute. reflexivity. Qed.
Example test_flow_seq_edge_case : passes
  [10; 32; 91; 58; 120; 93]%N
  [10; 43; 68; 79; 67; 10; 43; 83; 69; 81; 10; 61; 86; 65; 76; 32; 58; 58; 120; 10; 45; 83; 69;
   81; 10; 45; 68; 79; 67]%N = true.
Proof. vm_compute. reflexivity. Qed.
Example test_flow_map_complex : passes
  [10; 123; 91; 120; 44; 121; 93; 58; 97; 125; 10]%N
  [10; 43; 68; 79; 67; 10; 43; 77; 65; 80; 10; 43; 83; 69; 81; 10; 61; 86; 65; 76; 32; 58; 120;
   10; 61; 86; 65; 76; 32; 58; 121; 10; 45; 83; 69; 81; 10; 61; 86; 65; 76; 32; 58; 97; 10; 45;
   77; 65; 80; 10; 45; 68; 79; 67]%N = true.
Proof. vm_compute. reflexivity. Qed.
Example test_flow_map_unquoted : passes
  [10; 123; 120; 58; 121; 125; 10]%N
  [10; 43; 68; 79; 67; 10; 43; 77; 65; 80; 10; 61; 86; 65; 76; 32; 58; 120; 58; 121; 10; 61; 86;
   65; 76; 32; 58; 10; 45; 77; 65; 80; 10; 45; 68; 79; 67]%N = true.
Proof. vm_compute. reflexivity. Qed.
Example test_flow_map_explicit1 : passes
  [10; 123; 120; 58; 32; 121; 125; 10]%N
  [10; 43; 68; 79; 67; 10; 43; 77; 65; 80; 10; 61; 86; 65; 76; 32; 58; 120; 10; 61; 86; 65; 76;
   32; 58; 121; 10; 45; 77; 65; 80; 10; 45; 68; 79; 67]%N = true.
Proof. vm_compute. reflexivity. Qed.
Example test_flow_map_explicit2 : passes
  [10; 123; 63; 32; 120; 58; 32; 121; 125; 10]%N
  [10; 43; 68; 79; 67; 10; 43; 77; 65; 80; 10; 61; 86; 65; 76; 32; 58; 120; 10; 61; 86; 65; 76;
   32; 58; 121; 10; 45; 77; 65; 80; 10; 45; 68; 79; 67]%N = true.
Proof. vm_compute. reflexivity. Qed.
Example test_flow_map_explicit3 : passes
  [10; 123; 120; 58; 32; 35; 99; 111; 109; 109; 101; 110; 116; 10; 32; 121; 125; 10]%N
  [10; 43; 68; 79; 67; 10; 43; 77; 65; 80; 10; 61; 86; 65; 76; 32; 58; 120; 10; 61; 86; 65; 76;
   32; 58; 121; 10; 45; 77; 65; 80; 10; 45; 68; 79; 67]%N = true.
Proof. vm_compute. reflexivity. Qed.
Example test_flow_map_quoted1 : passes
  [10; 123; 34; 97; 98; 34; 10; 58; 32; 34; 120; 121; 34; 125; 10]%N
  [10; 43; 68; 79; 67; 10; 43; 77; 65; 80; 10; 61; 86; 65; 76; 32; 34; 97; 98; 10; 61; 86; 65;
   76; 32; 34; 120; 121; 10; 45; 77; 65; 80; 10; 45; 68; 79; 67]%N = true.
Proof. vm_compute. reflexivity. Qed.
Example test_flow_map_quoted2 : passes
  [10; 123; 34; 97; 98; 34; 10; 58; 120; 121; 125; 10]%N
  [10; 43; 68; 79; 67; 10; 43; 77; 65; 80; 10; 61; 86; 65; 76; 32; 34; 97; 98; 10; 61; 86; 65;
   76; 32; 58; 120; 121; 10; 45; 77; 65; 80; 10; 45; 68; 79; 67]%N = true.
Proof. vm_compute. reflexivity. Qed.
Example test_flow_map_empty1 : passes
  [10; 123; 58; 125; 10]%N
  [10; 43; 68; 79; 67; 10; 43; 77; 65; 80; 10; 61; 86; 65; 76; 32; 58; 10; 61; 86; 65; 76; 32;
   58; 10; 45; 77; 65; 80; 10; 45; 68; 79; 67]%N = true.
Proof. vm_compute. reflexivity. Qed.
Example test_flow_map_empty2 : passes
  [10; 123; 32; 58; 32; 125; 10]%N
  [10; 43; 68; 79; 67; 10; 43; 77; 65; 80; 10; 61; 86; 65; 76; 32; 58; 10; 61; 86; 65; 76; 32;
   58; 10; 45; 77; 65; 80; 10; 45; 68; 79; 67]%N = true.
Proof. vm_compute. reflexivity. Qed.
Example test_flow_map_two_empty : passes
  [10; 123; 58; 44; 32; 58; 125; 10]%N
  [10; 43; 68; 79; 67; 10; 43; 77; 65; 80; 10; 61; 86; 65; 76; 32; 58; 10; 61; 86; 65; 76; 32;
   58; 10; 61; 86; 65; 76; 32; 58; 10; 61; 86; 65; 76; 32; 58; 10; 45; 77; 65; 80; 10; 45; 68;
   79; 67]%N = true.
Proof. vm_compute. reflexivity. Qed.
Example test_flow_map_empty_nodes : passes
  [10; 123; 10; 32; 32; 32; 32; 97; 58; 32; 34; 98; 34; 44; 10; 32; 32; 32; 32; 120; 44; 10; 32;
   32; 32; 32; 121; 58; 44; 10; 125; 10]%N
  [10; 43; 68; 79; 67; 10; 43; 77; 65; 80; 10; 61; 86; 65; 76; 32; 58; 97; 10; 61; 86; 65; 76;
   32; 34; 98; 10; 61; 86; 65; 76; 32; 58; 120; 10; 61; 86; 65; 76; 32; 58; 10; 61; 86; 65; 76;
   32; 58; 121; 10; 61; 86; 65; 76; 32; 58; 10; 45; 77; 65; 80; 10; 45; 68; 79; 67]%N = true.
Proof. vm_compute. reflexivity. Qed.
Example test_flow_map_seq_as_key1 : passes
  [10; 91; 97; 44; 32; 98; 93; 58; 32; 51; 32]%N
  [10; 43; 68; 79; 67; 10; 43; 77; 65; 80; 10; 43; 83; 69; 81; 10; 61; 86; 65; 76; 32; 58; 97;
   10; 61; 86; 65; 76; 32; 58; 98; 10; 45; 83; 69; 81; 10; 61; 86; 65; 76; 32; 58; 51; 10; 45;
   77; 65; 80; 10; 45; 68; 79; 67]%N = true.
Proof. vm_compute. reflexivity. Qed.
Example test_flow_map_seq_as_key2 : passes
  [10; 91; 97; 44; 32; 91; 98; 44; 99; 93; 93; 58; 32; 51; 32]%N
  [10; 43; 68; 79; 67; 10; 43; 77; 65; 80; 10; 43; 83; 69; 81; 10; 61; 86; 65; 76; 32; 58; 97;
   10; 43; 83; 69; 81; 10; 61; 86; 65; 76; 32; 58; 98; 10; 61; 86; 65; 76; 32; 58; 99; 10; 45;
   83; 69; 81; 10; 45; 83; 69; 81; 10; 61; 86; 65; 76; 32; 58; 51; 10; 45; 77; 65; 80; 10; 45;
   68; 79; 67]%N = true.
Proof. vm_compute. reflexivity. Qed.
Example test_flow_map_seq_as_key3 : passes
  [10; 32; 91; 91; 97; 93; 58; 32; 51; 93]%N
  [10; 43; 68; 79; 67; 10; 43; 83; 69; 81; 10; 43; 77; 65; 80; 10; 43; 83; 69; 81; 10; 61; 86;
   65; 76; 32; 58; 97; 10; 45; 83; 69; 81; 10; 61; 86; 65; 76; 32; 58; 51; 10; 45; 77; 65; 80;
   10; 45; 83; 69; 81; 10; 45; 68; 79; 67]%N = true.
Proof. vm_compute. reflexivity. Qed.
Example test_flow_map_seq_as_key4 : passes
  [10; 32; 91; 32; 91; 97; 93; 58; 32; 100; 44; 32; 101; 93; 58; 32; 51]%N
  [10; 43; 68; 79; 67; 10; 43; 77; 65; 80; 10; 43; 83; 69; 81; 10; 43; 77; 65; 80; 10; 43; 83;
   69; 81; 10; 61; 86; 65; 76; 32; 58; 97; 10; 45; 83; 69; 81; 10; 61; 86; 65; 76; 32; 58; 100;
   10; 45; 77; 65; 80; 10; 61; 86; 65; 76; 32; 58; 101; 10; 45; 83; 69; 81; 10; 61; 86; 65; 76;
   32; 58; 51; 10; 45; 77; 65; 80; 10; 45; 68; 79; 67]%N = true.
Proof. vm_compute. reflexivity. Qed.
Example test_flow_map_edge1 : passes
  [10; 32; 123; 120; 58; 32; 58; 120; 125]%N
  [10; 43; 68; 79; 67; 10; 43; 77; 65; 80; 10; 61; 86; 65; 76; 32; 58; 120; 10; 61; 86; 65; 76;
   32; 58; 58; 120; 10; 45; 77; 65; 80; 10; 45; 68; 79; 67]%N = true.
Proof. vm_compute. reflexivity. Qed.
Example test_flow_map_edge2 : passes
  [10; 32; 123; 58; 120; 125]%N
  [10; 43; 68; 79; 67; 10; 43; 77; 65; 80; 10; 61; 86; 65; 76; 32; 58; 58; 120; 10; 61; 86; 65;
   76; 32; 58; 10; 45; 77; 65; 80; 10; 45; 68; 79; 67]%N = true.
Proof. vm_compute. reflexivity. Qed.
Example test_flow_9mmw_x1 : passes
  [10; 91; 32; 34; 74; 83; 79; 78; 32; 108; 105; 107; 101; 34; 58; 97; 100; 106; 97; 99; 101;
   110; 116; 32; 93]%N
  [10; 43; 68; 79; 67; 10; 43; 83; 69; 81; 10; 43; 77; 65; 80; 10; 61; 86; 65; 76; 32; 34; 74;
   83; 79; 78; 32; 108; 105; 107; 101; 10; 61; 86; 65; 76; 32; 58; 97; 100; 106; 97; 99; 101;
   110; 116; 10; 45; 77; 65; 80; 10; 45; 83; 69; 81; 10; 45; 68; 79; 67]%N = true.
Proof. vm_compute. reflexivity. Qed.
Example test_flow_9mmw_x2 : passes
  [10; 91; 32; 123; 74; 83; 79; 78; 58; 32; 108; 105; 107; 101; 125; 58; 97; 100; 106; 97; 99;
   101; 110; 116; 32; 93]%N
  [10; 43; 68; 79; 67; 10; 43; 83; 69; 81; 10; 43; 77; 65; 80; 10; 43; 77; 65; 80; 10; 61; 86;
   65; 76; 32; 58; 74; 83; 79; 78; 10; 61; 86; 65; 76; 32; 58; 108; 105; 107; 101; 10; 45; 77;
   65; 80; 10; 61; 86; 65; 76; 32; 58; 97; 100; 106; 97; 99; 101; 110; 116; 10; 45; 77; 65; 80;
   10; 45; 83; 69; 81; 10; 45; 68; 79; 67]%N = true.
Proof. vm_compute. reflexivity. Qed.
Example test_flow_wz62 : passes
  [10; 123; 10; 32; 32; 32; 32; 102; 111; 111; 32; 58; 32; 33; 33; 115; 116; 114; 44; 10; 32;
   32; 32; 32; 33; 33; 115; 116; 114; 32; 58; 32; 98; 97; 114; 44; 10; 32; 32; 125]%N
  [10; 43; 68; 79; 67; 10; 43; 77; 65; 80; 10; 61; 86; 65; 76; 32; 58; 102; 111; 111; 10; 61;
   86; 65; 76; 32; 60; 116; 97; 103; 58; 121; 97; 109; 108; 46; 111; 114; 103; 44; 50; 48; 48;
   50; 58; 115; 116; 114; 62; 32; 58; 10; 61; 86; 65; 76; 32; 60; 116; 97; 103; 58; 121; 97;
   109; 108; 46; 111; 114; 103; 44; 50; 48; 48; 50; 58; 115; 116; 114; 62; 32; 58; 10; 61; 86;
   65; 76; 32; 58; 98; 97; 114; 10; 45; 77; 65; 80; 10; 45; 68; 79; 67]%N = true.
Proof. vm_compute. reflexivity. Qed.
Example test_flow_wz62_again2 : passes
  [10; 123; 10; 32; 32; 32; 32; 102; 111; 111; 32; 58; 32; 33; 33; 115; 116; 114; 44; 10; 32;
   32; 32; 32; 33; 33; 115; 116; 114; 32; 58; 32; 98; 97; 114; 44; 10; 32; 32; 125]%N
  [10; 43; 68; 79; 67; 10; 43; 77; 65; 80; 10; 61; 86; 65; 76; 32; 58; 102; 111; 111; 10; 61;
   86; 65; 76; 32; 60; 116; 97; 103; 58; 121; 97; 109; 108; 46; 111; 114; 103; 44; 50; 48; 48;
   50; 58; 115; 116; 114; 62; 32; 58; 10; 61; 86; 65; 76; 32; 60; 116; 97; 103; 58; 121; 97;
   109; 108; 46; 111; 114; 103; 44; 50; 48; 48; 50; 58; 115; 116; 114; 62; 32; 58; 10; 61; 86;
   65; 76; 32; 58; 98; 97; 114; 10; 45; 77; 65; 80; 10; 45; 68; 79; 67]%N = true.
Proof. vm_compute. reflexivity. Qed.
Example test_flow_c2dt : passes
  [10; 123; 10; 34; 101; 109; 112; 116; 121; 34; 58; 10; 125; 32]%N
  [10; 43; 68; 79; 67; 10; 43; 77; 65; 80; 10; 61; 86; 65; 76; 32; 34; 101; 109; 112; 116; 121;
   10; 61; 86; 65; 76; 32; 58; 10; 45; 77; 65; 80; 10; 45; 68; 79; 67]%N = true.
Proof. vm_compute. reflexivity. Qed.
Example test_flow_cvw2_x2 : passes
  [10; 91; 97; 44; 32; 35; 99; 111; 109; 109; 101; 110; 116; 10; 93]%N
  [10; 43; 68; 79; 67; 10; 43; 83; 69; 81; 10; 61; 86; 65; 76; 32; 58; 97; 10; 45; 83; 69; 81;
   10; 45; 68; 79; 67]%N = true.
Proof. vm_compute. reflexivity. Qed.
Example test_flow_8udb_x1 : passes
  [10; 91; 10; 115; 105; 110; 103; 108; 101; 58; 32; 112; 97; 105; 114; 44; 10; 93]%N
  [10; 43; 68; 79; 67; 10; 43; 83; 69; 81; 10; 43; 77; 65; 80; 10; 61; 86; 65; 76; 32; 58; 115;
   105; 110; 103; 108; 101; 10; 61; 86; 65; 76; 32; 58; 112; 97; 105; 114; 10; 45; 77; 65; 80;
   10; 45; 83; 69; 81; 10; 45; 68; 79; 67]%N = true.
Proof. vm_compute. reflexivity. Qed.
Example test_flow_8udb_x2 : passes
  [10; 91; 91; 32; 93; 44; 10; 115; 105; 110; 103; 108; 101; 58; 32; 112; 97; 105; 114; 44;
   93]%N
  [10; 43; 68; 79; 67; 10; 43; 83; 69; 81; 10; 43; 83; 69; 81; 10; 45; 83; 69; 81; 10; 43; 77;
   65; 80; 10; 61; 86; 65; 76; 32; 58; 115; 105; 110; 103; 108; 101; 10; 61; 86; 65; 76; 32; 58;
   112; 97; 105; 114; 10; 45; 77; 65; 80; 10; 45; 83; 69; 81; 10; 45; 68; 79; 67]%N = true.
Proof. vm_compute. reflexivity. Qed.
Example test_flow_dk4h_x2 : passes
  [10; 91; 32; 63; 32; 107; 101; 121; 10; 32; 32; 58; 32; 118; 97; 108; 117; 101; 93]%N
  [10; 43; 68; 79; 67; 10; 43; 83; 69; 81; 10; 43; 77; 65; 80; 10; 61; 86; 65; 76; 32; 58; 107;
   101; 121; 10; 61; 86; 65; 76; 32; 58; 118; 97; 108; 117; 101; 10; 45; 77; 65; 80; 10; 45; 83;
   69; 81; 10; 45; 68; 79; 67]%N = true.
Proof. vm_compute. reflexivity. Qed.
Example test_flow_dff7 : passes
  [10; 123; 10; 63; 10; 125]%N
  [10; 43; 68; 79; 67; 10; 43; 77; 65; 80; 10; 61; 86; 65; 76; 32; 58; 10; 61; 86; 65; 76; 32;
   58; 10; 45; 77; 65; 80; 10; 45; 68; 79; 67]%N = true.
Proof. vm_compute. reflexivity. Qed.
Example test_flow_ehf6 : passes
  [10; 33; 33; 109; 97; 112; 32; 123; 10; 32; 32; 32; 32; 107; 58; 32; 33; 33; 115; 101; 113;
   32; 91; 97; 44; 32; 33; 33; 115; 116; 114; 32; 98; 93; 10; 125]%N
  [10; 43; 68; 79; 67; 10; 43; 77; 65; 80; 32; 60; 116; 97; 103; 58; 121; 97; 109; 108; 46; 111;
   114; 103; 44; 50; 48; 48; 50; 58; 109; 97; 112; 62; 10; 61; 86; 65; 76; 32; 58; 107; 10; 43;
   83; 69; 81; 32; 60; 116; 97; 103; 58; 121; 97; 109; 108; 46; 111; 114; 103; 44; 50; 48; 48;
   50; 58; 115; 101; 113; 62; 10; 61; 86; 65; 76; 32; 58; 97; 10; 61; 86; 65; 76; 32; 60; 116;
   97; 103; 58; 121; 97; 109; 108; 46; 111; 114; 103; 44; 50; 48; 48; 50; 58; 115; 116; 114; 62;
   32; 58; 98; 10; 45; 83; 69; 81; 10; 45; 77; 65; 80; 10; 45; 68; 79; 67]%N = true.
Proof. vm_compute. reflexivity. Qed.
Example test_flow_x38w : passes
  [10; 123; 38; 97; 32; 91; 93; 58; 32; 42; 97; 125; 10]%N
  [10; 43; 68; 79; 67; 10; 43; 77; 65; 80; 10; 43; 83; 69; 81; 32; 38; 97; 10; 45; 83; 69; 81;
   10; 61; 65; 76; 73; 32; 42; 97; 10; 45; 77; 65; 80; 10; 45; 68; 79; 67]%N = true.
Proof. vm_compute. reflexivity. Qed.
Example test_flow_cn3r_x1 : passes
  [10; 91; 10; 32; 123; 32; 38; 101; 32; 101; 58; 32; 102; 32; 125; 44; 10; 32; 38; 103; 32;
   123; 32; 103; 58; 32; 104; 32; 125; 10; 93]%N
  [10; 43; 68; 79; 67; 10; 43; 83; 69; 81; 10; 43; 77; 65; 80; 10; 61; 86; 65; 76; 32; 38; 101;
   32; 58; 101; 10; 61; 86; 65; 76; 32; 58; 102; 10; 45; 77; 65; 80; 10; 43; 77; 65; 80; 32; 38;
   103; 10; 61; 86; 65; 76; 32; 58; 103; 10; 61; 86; 65; 76; 32; 58; 104; 10; 45; 77; 65; 80;
   10; 45; 83; 69; 81; 10; 45; 68; 79; 67]%N = true.
Proof. vm_compute. reflexivity. Qed.
Example test_flow_cn3r_x2 : passes
  [10; 32; 32; 123; 32; 38; 101; 32; 101; 58; 32; 102; 32; 125; 10]%N
  [10; 43; 68; 79; 67; 10; 43; 77; 65; 80; 10; 61; 86; 65; 76; 32; 38; 101; 32; 58; 101; 10; 61;
   86; 65; 76; 32; 58; 102; 10; 45; 77; 65; 80; 10; 45; 68; 79; 67]%N = true.
Proof. vm_compute. reflexivity. Qed.
Example test_flow_cn3r_x3 : passes
  [10; 91; 38; 99; 32; 99; 58; 32; 100; 93; 10]%N
  [10; 43; 68; 79; 67; 10; 43; 83; 69; 81; 10; 43; 77; 65; 80; 10; 61; 86; 65; 76; 32; 38; 99;
   32; 58; 99; 10; 61; 86; 65; 76; 32; 58; 100; 10; 45; 77; 65; 80; 10; 45; 83; 69; 81; 10; 45;
   68; 79; 67]%N = true.
Proof. vm_compute. reflexivity. Qed.
Example test_flow_cn3r_x4 : passes
  [10; 91; 38; 103; 32; 123; 103; 58; 32; 104; 125; 93]%N
  [10; 43; 68; 79; 67; 10; 43; 83; 69; 81; 10; 43; 77; 65; 80; 32; 38; 103; 10; 61; 86; 65; 76;
   32; 58; 103; 10; 61; 86; 65; 76; 32; 58; 104; 10; 45; 77; 65; 80; 10; 45; 83; 69; 81; 10; 45;
   68; 79; 67]%N = true.
Proof. vm_compute. reflexivity. Qed.
Example test_flow_5t43 : passes
  [10; 45; 32; 123; 32; 34; 107; 101; 121; 34; 58; 118; 97; 108; 117; 101; 32; 125; 10; 45; 32;
   123; 32; 34; 107; 101; 121; 34; 58; 58; 118; 97; 108; 117; 101; 32; 125]%N
  [10; 43; 68; 79; 67; 10; 43; 83; 69; 81; 10; 43; 77; 65; 80; 10; 61; 86; 65; 76; 32; 34; 107;
   101; 121; 10; 61; 86; 65; 76; 32; 58; 118; 97; 108; 117; 101; 10; 45; 77; 65; 80; 10; 43; 77;
   65; 80; 10; 61; 86; 65; 76; 32; 34; 107; 101; 121; 10; 61; 86; 65; 76; 32; 58; 58; 118; 97;
   108; 117; 101; 10; 45; 77; 65; 80; 10; 45; 83; 69; 81; 10; 45; 68; 79; 67]%N = true.
Proof. vm_compute. reflexivity. Qed.
Example test_flow_frk4 : passes
  [10; 123; 10; 32; 32; 32; 32; 63; 32; 102; 111; 111; 32; 58; 44; 10; 32; 32; 32; 32; 58; 32;
   98; 97; 114; 44; 10; 125]%N
  [10; 43; 68; 79; 67; 10; 43; 77; 65; 80; 10; 61; 86; 65; 76; 32; 58; 102; 111; 111; 10; 61;
   86; 65; 76; 32; 58; 10; 61; 86; 65; 76; 32; 58; 10; 61; 86; 65; 76; 32; 58; 98; 97; 114; 10;
   45; 77; 65; 80; 10; 45; 68; 79; 67]%N = true.
Proof. vm_compute. reflexivity. Qed.
Example test_docs_empty_input : passes
  [10; 37; 89; 65; 77; 76; 32; 49; 46; 50; 10; 45; 45; 45; 10]%N
  [10; 43; 68; 79; 67; 10; 61; 86; 65; 76; 32; 58; 10; 45; 68; 79; 67]%N = true.
Proof. vm_compute. reflexivity. Qed.
Example test_docs_multi_doc1 : passes
  [10; 45; 45; 45; 10; 63; 32; 97; 10; 58; 32; 98; 10; 45; 45; 45; 10; 45; 32; 99; 10]%N
  [10; 43; 68; 79; 67; 10; 43; 77; 65; 80; 10; 61; 86; 65; 76; 32; 58; 97; 10; 61; 86; 65; 76;
   32; 58; 98; 10; 45; 77; 65; 80; 10; 45; 68; 79; 67; 10; 43; 68; 79; 67; 10; 43; 83; 69; 81;
   10; 61; 86; 65; 76; 32; 58; 99; 10; 45; 83; 69; 81; 10; 45; 68; 79; 67]%N = true.
Proof. vm_compute. reflexivity. Qed.
Example test_docs_multi_doc2 : passes
  [10; 45; 45; 45; 10; 45; 45; 45]%N
  [10; 43; 68; 79; 67; 10; 61; 86; 65; 76; 32; 58; 10; 45; 68; 79; 67; 10; 43; 68; 79; 67; 10;
   61; 86; 65; 76; 32; 58; 10; 45; 68; 79; 67]%N = true.
Proof. vm_compute. reflexivity. Qed.
Example test_docs_multi_doc3 : passes
  [10; 45; 45; 45; 10; 35; 32; 69; 109; 112; 116; 121; 10; 46; 46; 46; 10; 37; 89; 65; 77; 76;
   32; 49; 46; 50; 10; 45; 45; 45]%N
  [10; 43; 68; 79; 67; 10; 61; 86; 65; 76; 32; 58; 10; 45; 68; 79; 67; 10; 43; 68; 79; 67; 10;
   61; 86; 65; 76; 32; 58; 10; 45; 68; 79; 67]%N = true.
Proof. vm_compute. reflexivity. Qed.
Example test_docs_footer : passes
  [10; 34; 116; 101; 115; 116; 34; 10; 46; 46; 46; 10]%N
  [10; 43; 68; 79; 67; 10; 61; 86; 65; 76; 32; 34; 116; 101; 115; 116; 10; 45; 68; 79; 67]%N = true.
Proof. vm_compute. reflexivity. Qed.
Example test_docs_6zkb : passes
  [10; 68; 111; 99; 117; 109; 101; 110; 116; 10; 45; 45; 45; 10; 35; 32; 69; 109; 112; 116; 121;
   10; 46; 46; 46]%N
  [10; 43; 68; 79; 67; 10; 61; 86; 65; 76; 32; 58; 68; 111; 99; 117; 109; 101; 110; 116; 10; 45;
   68; 79; 67; 10; 43; 68; 79; 67; 10; 61; 86; 65; 76; 32; 58; 10; 45; 68; 79; 67]%N = true.
Proof. vm_compute. reflexivity. Qed.
Example test_docs_bec7 : passes
  [10; 37; 89; 65; 77; 76; 32; 49; 46; 51; 32; 35; 32; 65; 116; 116; 101; 109; 112; 116; 32;
   112; 97; 114; 115; 105; 110; 103; 10; 32; 32; 32; 32; 32; 32; 32; 32; 32; 32; 35; 32; 119;
   105; 116; 104; 32; 97; 32; 119; 97; 114; 110; 105; 110; 103; 10; 45; 45; 45; 10; 34; 102;
   111; 111; 34]%N
  [10; 43; 68; 79; 67; 10; 61; 86; 65; 76; 32; 34; 102; 111; 111; 10; 45; 68; 79; 67]%N = true.
Proof. vm_compute. reflexivity. Qed.
Example test_docs_comment1 : passes
  [10; 45; 45; 45; 10; 123; 32; 34; 102; 111; 111; 34; 32; 35; 32; 99; 111; 109; 109; 101; 110;
   116; 10; 32; 32; 58; 98; 97; 114; 32; 125; 10]%N
  [10; 43; 68; 79; 67; 10; 43; 77; 65; 80; 10; 61; 86; 65; 76; 32; 34; 102; 111; 111; 10; 61;
   86; 65; 76; 32; 58; 98; 97; 114; 10; 45; 77; 65; 80; 10; 45; 68; 79; 67]%N = true.
Proof. vm_compute. reflexivity. Qed.
Example test_docs_various_trailing1 : passes
  [10; 97; 58; 32; 34; 100; 111; 117; 98; 108; 101; 10; 32; 32; 113; 117; 111; 116; 101; 115;
   34; 32; 35; 32; 108; 97; 108; 97]%N
  [10; 43; 68; 79; 67; 10; 43; 77; 65; 80; 10; 61; 86; 65; 76; 32; 58; 97; 10; 61; 86; 65; 76;
   32; 34; 100; 111; 117; 98; 108; 101; 32; 113; 117; 111; 116; 101; 115; 10; 45; 77; 65; 80;
   10; 45; 68; 79; 67]%N = true.
Proof. vm_compute. reflexivity. Qed.
Example test_docs_various_trailing2 : passes
  [10; 98; 58; 32; 112; 108; 97; 105; 110; 10; 32; 118; 97; 108; 117; 101; 32; 32; 35; 32; 108;
   97; 108; 97]%N
  [10; 43; 68; 79; 67; 10; 43; 77; 65; 80; 10; 61; 86; 65; 76; 32; 58; 98; 10; 61; 86; 65; 76;
   32; 58; 112; 108; 97; 105; 110; 32; 118; 97; 108; 117; 101; 10; 45; 77; 65; 80; 10; 45; 68;
   79; 67]%N = true.
Proof. vm_compute. reflexivity. Qed.
Example test_docs_various_trailing3 : passes
  [10; 98; 32; 58; 32; 112; 108; 97; 105; 110; 10; 32; 118; 97; 108; 117; 101; 32; 32; 35; 32;
   108; 97; 108; 97]%N
  [10; 43; 68; 79; 67; 10; 43; 77; 65; 80; 10; 61; 86; 65; 76; 32; 58; 98; 10; 61; 86; 65; 76;
   32; 58; 112; 108; 97; 105; 110; 32; 118; 97; 108; 117; 101; 10; 45; 77; 65; 80; 10; 45; 68;
   79; 67]%N = true.
Proof. vm_compute. reflexivity. Qed.
Example test_docs_various_trailing4 : passes
  [10; 63; 32; 35; 32; 99; 49; 10; 32; 45; 32; 115; 101; 113; 49; 10; 58; 32; 35; 32; 99; 50;
   10; 32; 45; 32; 35; 99; 51; 10; 32; 32; 115; 101; 113; 50]%N
  [10; 43; 68; 79; 67; 10; 43; 77; 65; 80; 10; 43; 83; 69; 81; 10; 61; 86; 65; 76; 32; 58; 115;
   101; 113; 49; 10; 45; 83; 69; 81; 10; 43; 83; 69; 81; 10; 61; 86; 65; 76; 32; 58; 115; 101;
   113; 50; 10; 45; 83; 69; 81; 10; 45; 77; 65; 80; 10; 45; 68; 79; 67]%N = true.
Proof. vm_compute. reflexivity. Qed.
Example test_comments_example_8_1_1 : passes
  [10; 45; 32; 124; 32; 35; 32; 69; 109; 112; 116; 121; 32; 104; 101; 97; 100; 101; 114; 226;
   134; 147; 10; 32; 108; 105; 116; 101; 114; 97; 108]%N
  [10; 43; 68; 79; 67; 10; 43; 83; 69; 81; 10; 61; 86; 65; 76; 32; 124; 108; 105; 116; 101; 114;
   97; 108; 10; 10; 45; 83; 69; 81; 10; 45; 68; 79; 67]%N = true.
Proof. vm_compute. reflexivity. Qed.
Example test_comments_example_8_1_2 : passes
  [10; 45; 32; 62; 49; 32; 35; 32; 73; 110; 100; 101; 110; 116; 97; 116; 105; 111; 110; 32; 105;
   110; 100; 105; 99; 97; 116; 111; 114; 226; 134; 147; 10; 32; 32; 102; 111; 108; 100; 101;
   100]%N
  [10; 43; 68; 79; 67; 10; 43; 83; 69; 81; 10; 61; 86; 65; 76; 32; 62; 32; 102; 111; 108; 100;
   101; 100; 10; 10; 45; 83; 69; 81; 10; 45; 68; 79; 67]%N = true.
Proof. vm_compute. reflexivity. Qed.
Example test_comments_example_8_1_3 : passes
  [10; 45; 32; 124; 43; 32; 35; 32; 67; 104; 111; 109; 112; 105; 110; 103; 32; 105; 110; 100;
   105; 99; 97; 116; 111; 114; 226; 134; 147; 10; 32; 107; 101; 101; 112]%N
  [10; 43; 68; 79; 67; 10; 43; 83; 69; 81; 10; 61; 86; 65; 76; 32; 124; 107; 101; 101; 112; 10;
   10; 45; 83; 69; 81; 10; 45; 68; 79; 67]%N = true.
Proof. vm_compute. reflexivity. Qed.
Example test_comments_example_8_1_4 : passes
  [10; 45; 32; 62; 49; 45; 32; 35; 32; 66; 111; 116; 104; 32; 105; 110; 100; 105; 99; 97; 116;
   111; 114; 115; 226; 134; 147; 10; 32; 32; 115; 116; 114; 105; 112]%N
  [10; 43; 68; 79; 67; 10; 43; 83; 69; 81; 10; 61; 86; 65; 76; 32; 62; 32; 115; 116; 114; 105;
   112; 10; 45; 83; 69; 81; 10; 45; 68; 79; 67]%N = true.
Proof. vm_compute. reflexivity. Qed.
