(** What plain scalars denote, stated without the model's parsing functions: the YAML core-schema
    spellings (YAML 1.2.2, section 10.3.2) as declarative predicates on texts. Of the model only the
    types of values and tags are used. *)
From Verif Require Import Base Tokens Scalar.
From Coq Require Import String.
Local Open Scope N_scope.

(** Digits and their values. *)
Definition dec_digit (c : N) : Prop := 48 <= c <= 57.
Definition oct_digit (c : N) : Prop := 48 <= c <= 55.
Definition hex_digit (c : N) : Prop := 48 <= c <= 57 \/ 97 <= c <= 102 \/ 65 <= c <= 70.
Definition digit_val (c : N) : N :=
  if c <=? 57 then c - 48 else if c <=? 70 then c - 55 else c - 87.

(** The number a digit string denotes in a base: the last digit counts one, every digit to the
    left of it [base] times as much as its right neighbour. *)
Fixpoint positional (base : N) (weight : N) (rev_digits : text) : N :=
  match rev_digits with
  | [] => 0
  | c :: r => digit_val c * weight + positional base (weight * base) r
  end.
Definition number (base : N) (digits : text) : Z := Z.of_N (positional base 1 (rev digits)).

Definition all_digits (p : N -> Prop) (t : text) : Prop := t <> [] /\ Forall p t.

(** [+] and [-]. *)
Definition plus : text := [43].
Definition minus : text := [45].

(** Optionally signed digit strings in a base. *)
Inductive signed (p : N -> Prop) (base : N) : text -> Z -> Prop :=
| signed_none ds : all_digits p ds -> signed p base ds (number base ds)
| signed_plus ds : all_digits p ds -> signed p base (plus ++ ds) (number base ds)
| signed_minus ds : all_digits p ds -> signed p base (minus ++ ds) (- number base ds).

(** Core-schema integers: [[-+]?[0-9]+], [0o[0-7]+], [0x[0-9a-fA-F]+]. *)
Inductive core_int : text -> Z -> Prop :=
| core_dec t z : signed dec_digit 10 t z -> core_int t z
| core_oct ds : all_digits oct_digit ds -> core_int (str "0o" ++ ds) (number 8 ds)
| core_hex ds : all_digits hex_digit ds -> core_int (str "0x" ++ ds) (number 16 ds).

(** The spellings yam accepts beyond the core schema: a sign after [0x]/[0o], and a second sign
    after [+]. *)
Inductive extra_int : text -> Z -> Prop :=
| extra_plus ds z : signed dec_digit 10 ds z -> (exists r, ds = plus ++ r \/ ds = minus ++ r) ->
    extra_int (plus ++ ds) z
| extra_oct ds z : signed oct_digit 8 ds z -> (exists r, ds = plus ++ r \/ ds = minus ++ r) ->
    extra_int (str "0o" ++ ds) z
| extra_hex ds z : signed hex_digit 16 ds z -> (exists r, ds = plus ++ r \/ ds = minus ++ r) ->
    extra_int (str "0x" ++ ds) z.

(** The signed 64-bit range. *)
Definition i64_range (z : Z) : Prop := (- 2 ^ 63 <= z < 2 ^ 63)%Z.

Definition null_spelling (t : text) : Prop :=
  In t [str "~"; str "null"; str "Null"; str "NULL"].
Definition bool_spelling (t : text) (b : bool) : Prop :=
  In t (if b then [str "true"; str "True"; str "TRUE"] else [str "false"; str "False"; str "FALSE"]).

(** Core-schema floats: [[-+]?(\.[0-9]+|[0-9]+(\.[0-9]* )?)([eE][-+]?[0-9]+)?], with the decimal
    mantissa (digits before and after the point, the number of digits after it) and exponent. *)
Inductive opt_sign : text -> bool -> Prop :=
| os_none : opt_sign [] false
| os_plus : opt_sign plus false
| os_minus : opt_sign minus true.

Inductive mantissa : text -> text -> text -> Prop :=
| ma_int ip : ip <> [] -> Forall dec_digit ip -> mantissa ip ip []
| ma_point ip fp : Forall dec_digit ip -> Forall dec_digit fp -> ip <> [] \/ fp <> [] ->
    mantissa (ip ++ [46] ++ fp) ip fp.

Inductive exponent : text -> Z -> Prop :=
| ex_none : exponent [] 0
| ex_some e sg neg ds : e = 101 \/ e = 69 -> opt_sign sg neg -> all_digits dec_digit ds ->
    exponent (e :: sg ++ ds) (if neg then - number 10 ds else number 10 ds)%Z.

(** [float_number t neg m e]: the text [t] is written as the number [(-1)^neg * m * 10^e]. *)
Inductive float_number : text -> bool -> Z -> Z -> Prop :=
| fn_intro sg neg mt ip fp et e :
    opt_sign sg neg -> mantissa mt ip fp -> exponent et e ->
    float_number (sg ++ mt ++ et) neg (number 10 (ip ++ fp)) (e - Z.of_nat (List.length fp)).

Definition inf_spelling (t : text) (neg : bool) : Prop :=
  In t (if neg then [str "-.inf"; str "-.Inf"; str "-.INF"]
        else [str ".inf"; str ".Inf"; str ".INF"; str "+.inf"; str "+.Inf"; str "+.INF"]).
Definition nan_spelling (t : text) : Prop := In t [str ".nan"; str ".NaN"; str ".NAN"].

(** The text denotes the floating point value. *)
Definition denotes_float (t : text) (f : fl) : Prop :=
  match f with
  | FInf neg => inf_spelling t neg
  | FNan => nan_spelling t
  | FNum neg m e => float_number t neg (Z.of_N m) e
  end.

(** The canonical decimal notation of an integer (what Rust prints): no leading zeros, a [-] for
    negative numbers. *)
Fixpoint dec_digits (fuel : nat) (n : N) (acc : text) : text :=
  match fuel with
  | O => acc
  | S f => if n <? 10 then (48 + n) :: acc else dec_digits f (n / 10) ((48 + n mod 10) :: acc)
  end.
Definition show_N (n : N) : text := dec_digits (S (N.size_nat n)) n [].
Definition show_Z (z : Z) : text :=
  if (z <? 0)%Z then minus ++ show_N (Z.to_N (- z)) else show_N (Z.to_N z).

(** A tag of the core schema with the given name. *)
Definition core_tag (g : tag) (name : text) : Prop :=
  t_handle g = str "tag:yaml.org,2002:" /\ t_suffix g = name.
