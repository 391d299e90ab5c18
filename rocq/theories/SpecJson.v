(** JSON texts (RFC 8259) and the values they stand for, stated without the scanner, parser and
    loader.  Of the model only the types of values are used. *)
From Verif Require Import Base Tokens Scalar Yaml SpecScalar.
From Coq Require Import String.
Local Open Scope list_scope.

(** [full = true] is all of RFC 8259; [full = false] leaves out three things: a carriage return that
    is not followed by a line feed, pairs of surrogate escapes, and nothing but tabs between a colon
    and a number or a literal name. *)

(** White space between tokens. *)
Inductive json_white (full : bool) : text -> Prop :=
| jw_none : json_white full []
| jw_byte b r : In b [32; 9; 10]%N -> json_white full r -> json_white full (b :: r)
| jw_crlf r : json_white full r -> json_white full (13%N :: 10%N :: r)
| jw_cr r : full = true -> json_white full r -> json_white full (13%N :: r).

(** The UTF-8 bytes of a code point. *)
Inductive utf8_of : N -> text -> Prop :=
| u8_one c : (c < 128)%N -> utf8_of c [c]
| u8_two a b : (2 <= a < 32)%N -> (b < 64)%N -> utf8_of (a * 64 + b) [192 + a; 128 + b]%N
| u8_three a b c : (a < 16)%N -> (b < 64)%N -> (c < 64)%N -> (2048 <= a * 4096 + b * 64 + c)%N ->
    utf8_of (a * 4096 + b * 64 + c) [224 + a; 128 + b; 128 + c]%N
| u8_four a b c d : (a < 5)%N -> (b < 64)%N -> (c < 64)%N -> (d < 64)%N ->
    (65536 <= a * 262144 + b * 4096 + c * 64 + d)%N ->
    utf8_of (a * 262144 + b * 4096 + c * 64 + d) [240 + a; 128 + b; 128 + c; 128 + d]%N.

(** Four hexadecimal digits. *)
Definition hex4 (t : text) (v : N) : Prop :=
  List.length t = 4 /\ Forall hex_digit t /\ number 16 t = Z.of_N v.
Definition surrogate (v : N) : Prop := (55296 <= v < 57344)%N.
(** The letter of a two-character escape, and the character. *)
Definition json_escapes : list (N * N) :=
  [(34, 34); (92, 92); (47, 47); (98, 8); (102, 12); (110, 10); (114, 13); (116, 9)]%N.
(** What stands between quotes, and the bytes it stands for. *)
Inductive json_chars (full : bool) : text -> text -> Prop :=
| jc_none : json_chars full [] []
| jc_byte b t x : (32 <= b)%N -> b <> 34%N -> b <> 92%N -> json_chars full t x ->
    json_chars full (b :: t) (b :: x)
| jc_escape c v t x : In (c, v) json_escapes -> json_chars full t x ->
    json_chars full (92%N :: c :: t) (v :: x)
| jc_unicode h v u t x : hex4 h v -> ~ surrogate v -> utf8_of v u -> json_chars full t x ->
    json_chars full (92%N :: 117%N :: h ++ t) (u ++ x)
| jc_pair h1 h2 v1 v2 u t x : full = true -> hex4 h1 v1 -> hex4 h2 v2 ->
    (55296 <= v1 < 56320)%N -> (56320 <= v2 < 57344)%N ->
    utf8_of (65536 + (v1 - 55296) * 1024 + (v2 - 56320)) u -> json_chars full t x ->
    json_chars full (92%N :: 117%N :: h1 ++ 92%N :: 117%N :: h2 ++ t) (u ++ x).

(** Numbers: an integer literal in the signed 64-bit range is that integer, any other number is the
    decimal fraction it is written as. *)
Inductive json_sign : text -> bool -> Prop :=
| jsg_none : json_sign [] false
| jsg_minus : json_sign minus true.
Inductive json_natural : text -> Prop :=
| jnat_zero : json_natural [48%N]
| jnat_more d ds : (49 <= d <= 57)%N -> Forall dec_digit ds -> json_natural (d :: ds).
Inductive json_fraction : text -> text -> Prop :=
| jfr_none : json_fraction [] []
| jfr_some ds : all_digits dec_digit ds -> json_fraction (46%N :: ds) ds.
Definition negated (neg : bool) (z : Z) : Z := if neg then (- z)%Z else z.
Inductive json_number : text -> scalar -> Prop :=
| jn_integer sg neg ds : json_sign sg neg -> json_natural ds -> i64_range (negated neg (number 10 ds)) ->
    json_number (sg ++ ds) (SInt (negated neg (number 10 ds)))
| jn_other sg neg ds ft fp et e m : json_sign sg neg -> json_natural ds -> json_fraction ft fp -> exponent et e ->
    ft ++ et <> [] \/ ~ i64_range (negated neg (number 10 ds)) ->
    Z.of_N m = number 10 (ds ++ fp) ->
    json_number (sg ++ ds ++ ft ++ et) (SFloat (FNum neg m (e - Z.of_nat (List.length fp)))).

(** White space [g] between a colon and the value [v]. *)
Definition after_colon (full : bool) (g v : text) : Prop :=
  full = true \/ g = [] \/ ~ Forall (fun b => b = 9%N) g \/ In (nth 0 v 0%N) (str """[{").

(** Values; the elements of an array; the members of an object. *)
Inductive json (full : bool) : text -> yaml -> Prop :=
| j_null : json full (str "null") (YScalar SNull)
| j_true : json full (str "true") (YScalar (SBool true))
| j_false : json full (str "false") (YScalar (SBool false))
| j_number t s : json_number t s -> json full t (YScalar s)
| j_string t x : json_chars full t x -> json full (34%N :: t ++ [34%N]) (YScalar (SString x))
| j_empty_array g : json_white full g -> json full (91%N :: g ++ [93%N]) (YSeq [])
| j_array t l : json_elements full t l -> json full (91%N :: t ++ [93%N]) (YSeq l)
| j_empty_object g : json_white full g -> json full (123%N :: g ++ [125%N]) (YMap [])
| j_object t l : json_members full t l -> json full (123%N :: t ++ [125%N]) (YMap l)
with json_elements (full : bool) : text -> list yaml -> Prop :=
| je_last g v y g' : json_white full g -> json full v y -> json_white full g' ->
    json_elements full (g ++ v ++ g') [y]
| je_more g v y g' t l : json_white full g -> json full v y -> json_white full g' ->
    json_elements full t l -> json_elements full (g ++ v ++ g' ++ 44%N :: t) (y :: l)
with json_members (full : bool) : text -> list (yaml * yaml) -> Prop :=
| jm_last g k x g1 g2 v y g3 : json_white full g -> json_chars full k x -> json_white full g1 ->
    json_white full g2 -> after_colon full g2 v -> json full v y -> json_white full g3 ->
    json_members full (g ++ (34%N :: k ++ [34%N]) ++ g1 ++ 58%N :: g2 ++ v ++ g3) [(YScalar (SString x), y)]
| jm_more g k x g1 g2 v y g3 t l : json_white full g -> json_chars full k x -> json_white full g1 ->
    json_white full g2 -> after_colon full g2 v -> json full v y -> json_white full g3 ->
    json_members full t l ->
    json_members full (g ++ (34%N :: k ++ [34%N]) ++ g1 ++ 58%N :: g2 ++ v ++ g3 ++ 44%N :: t)
      ((YScalar (SString x), y) :: l).
(** A JSON text. *)
Inductive json_text (full : bool) : text -> yaml -> Prop :=
| jt_intro g v y g' : json_white full g -> json full v y -> json_white full g' ->
    json_text full (g ++ v ++ g') y.

Scheme json_mind := Induction for json Sort Prop
  with elements_mind := Induction for json_elements Sort Prop
  with members_mind := Induction for json_members Sort Prop.
Combined Scheme json_mutind from json_mind, elements_mind, members_mind.
