(** Model of scalar resolution: [yam-core/src/node/scalar.rs]. *)
From Verif Require Import Base Tokens.
From Coq Require Import String.
Local Open Scope N_scope.

(** A floating point value. [f64] values are represented by the decimal number they were read
    from ([FNum neg m e] is [(-1)^neg * m * 10^e]); rounding to the nearest [f64] is not
    modelled. *)
Inductive fl := FInf (neg : bool) | FNan | FNum (neg : bool) (m : N) (e : Z).

(** [node/scalar.rs:16-28] [YamlScalar] with [FP = f64], [INT = i64], [STR = Cow<str>]. *)
Inductive scalar :=
| SNull
| SString (t : text)
| SBool (b : bool)
| SFloat (f : fl)
| SInt (z : Z).

(** [i64::MIN] and [i64::MAX] (Rust core). *)
Definition i64_min : Z := (-9223372036854775808)%Z.
Definition i64_max : Z := 9223372036854775807%Z.
Definition in_i64 (z : Z) : bool := ((i64_min <=? z) && (z <=? i64_max))%Z.

(** [char::to_digit] (Rust core) for radix 8, 10 and 16. *)
Definition to_digit (radix c : N) : option N :=
  let v := if (48 <=? c) && (c <=? 57) then Some (c - 48)
           else if (97 <=? c) && (c <=? 122) then Some (c - 97 + 10)
           else if (65 <=? c) && (c <=? 90) then Some (c - 65 + 10)
           else None in
  match v with
  | Some d => if d <? radix then Some d else None
  | None => None
  end.

(** The accumulation loop of [i64::from_str_radix] (Rust core): [checked_mul] by the radix, then
    [checked_add] ([checked_sub] for a negative number) of the digit. *)
Fixpoint radix_loop (neg : bool) (radix : N) (acc : Z) (t : text) : option Z :=
  match t with
  | [] => Some acc
  | c :: r =>
      match to_digit radix c with
      | None => None
      | Some d =>
          let a := (acc * Z.of_N radix)%Z in
          if in_i64 a then
            let b := (if neg then a - Z.of_N d else a + Z.of_N d)%Z in
            if in_i64 b then radix_loop neg radix b r else None
          else None
      end
  end.

(** [i64::from_str_radix] (Rust core); also [str::parse::<i64>] with radix 10. *)
Definition from_str_radix (radix : N) (t : text) : option Z :=
  match t with
  | [] => None
  | [c] => if (c =? 43) || (c =? 45) then None else radix_loop false radix 0 t
  | c :: r => if c =? 43 then radix_loop false radix 0 r
              else if c =? 45 then radix_loop true radix 0 r
              else radix_loop false radix 0 t
  end.

(** [node/scalar.rs:201-204] [parse_i64_from_cow]: [v.parse::<i64>()]. *)
Definition parse_i64 (t : text) : option Z := from_str_radix 10 t.

(** [u8::is_ascii_digit] (Rust core). *)
Definition is_ascii_digit (c : N) : bool := (48 <=? c) && (c <=? 57).

(** Longest prefix of ASCII digits (part of [core::num::dec2flt], Rust core). *)
Fixpoint take_digits (t : text) : text * text :=
  match t with
  | c :: r => if is_ascii_digit c then let '(d, r') := take_digits r in (c :: d, r') else ([], t)
  | [] => ([], [])
  end.

(** Value of a list of ASCII digits (the mantissa of [core::num::dec2flt], Rust core). *)
Definition digits_num (t : text) : N := fold_left (fun a c => a * 10 + (c - 48)) t 0.

(** An optional sign (part of [core::num::dec2flt], Rust core): whether it was [-], and the rest. *)
Definition split_sign (t : text) : bool * text :=
  match t with
  | s :: r => if s =? 45 then (true, r) else if s =? 43 then (false, r) else (false, t)
  | [] => (false, t)
  end.

(** The exponent part of [core::num::dec2flt] (Rust core): empty, or [e]/[E], an optional sign and
    at least one digit up to the end. *)
Definition parse_exp (t : text) : option Z :=
  match t with
  | [] => Some 0%Z
  | c :: r =>
      if (c =? 101) || (c =? 69) then
        let '(neg, r1) := split_sign r in
        let '(ds, rest) := take_digits r1 in
        match ds, rest with
        | _ :: _, [] => Some (if neg then - Z.of_N (digits_num ds) else Z.of_N (digits_num ds))%Z
        | _, _ => None
        end
      else None
  end.

(** [str::parse::<f64>] (Rust core [dec2flt]) on number texts: sign, digits, optional point and
    digits, optional exponent. The names [inf], [infinity], [nan] it also accepts contain no
    digit, so they cannot reach it from [parse_core_schema_fp]; they give [None] here. *)
Definition parse_f64 (t : text) : option fl :=
  let '(neg, t1) := split_sign t in
  let '(ip, t2) := take_digits t1 in
  let '(fp, t3) := match t2 with
                   | c :: r => if c =? 46 then take_digits r else ([], t2)
                   | [] => ([], t2)
                   end in
  match (ip ++ fp)%list with
  | [] => None
  | _ => match parse_exp t3 with
         | Some e => Some (FNum neg (digits_num (ip ++ fp)) (e - Z.of_nat (List.length fp)))
         | None => None
         end
  end.

(** Membership in a list of literals: models [matches!(s, "a" | "b")]. *)
Definition one_of (t : text) (l : list text) : bool := existsb (text_eqb t) l.

(** [node/scalar.rs:188-199] [parse_core_schema_fp]. *)
Definition parse_core_schema_fp (t : text) : option fl :=
  if one_of t [str ".inf"; str ".Inf"; str ".INF"; str "+.inf"; str "+.Inf"; str "+.INF"]
  then Some (FInf false)
  else if one_of t [str "-.inf"; str "-.Inf"; str "-.INF"] then Some (FInf true)
  else if one_of t [str ".nan"; str ".NaN"; str ".NAN"] then Some FNan
  else if existsb is_ascii_digit t then parse_f64 t
  else None.

(** [node/scalar.rs:131-151], the prefix match of [parse_from_cow]. *)
Definition prefixed_int (t : text) : option Z :=
  match t with
  | a :: b :: r =>
      if (a =? 48) && (b =? 120) then from_str_radix 16 r
      else if (a =? 48) && (b =? 111) then from_str_radix 8 r
      else if a =? 43 then from_str_radix 10 (b :: r)
      else None
  | _ => None
  end.

(** [node/scalar.rs:153-167], the keyword match of [parse_from_cow]. *)
Definition keyword (t : text) : option scalar :=
  match t with
  | [a] => if a =? 126 then Some SNull else None
  | [a; _; _; _] =>
      let f := N.land a 223 in
      if (f =? 78) && one_of t [str "null"; str "Null"; str "NULL"] then Some SNull
      else if (f =? 84) && one_of t [str "true"; str "True"; str "TRUE"] then Some (SBool true)
      else None
  | [_; _; _; _; _] =>
      if one_of t [str "false"; str "False"; str "FALSE"] then Some (SBool false) else None
  | _ => None
  end.

(** [node/scalar.rs:126-177] [parse_from_cow]. *)
Definition parse_from_cow (t : text) : scalar :=
  match prefixed_int t with
  | Some i => SInt i
  | None =>
      match keyword t with
      | Some s => s
      | None =>
          match parse_i64 t with
          | Some i => SInt i
          | None =>
              match parse_core_schema_fp t with
              | Some f => SFloat f
              | None => SString t
              end
          end
      end
  end.

(** [scalar_type != ScalarType::Plain] (derived [PartialEq] of [prelude/mod.rs] [ScalarType]). *)
Definition is_plain (s : scalar_type) : bool :=
  match s with Plain => true | _ => false end.

(** [node/scalar.rs:98-111], the suffix match of [parse_from_cow_and_metadata]. *)
Definition parse_core_tagged (t : text) (tg : tag) : option scalar :=
  let sfx := t_suffix tg in
  if text_eqb sfx (str "bool") then
    (* [v.parse::<bool>()] *)
    if text_eqb t (str "true") then Some (SBool true)
    else if text_eqb t (str "false") then Some (SBool false)
    else None
  else if text_eqb sfx (str "int") then option_map SInt (parse_i64 t)
  else if text_eqb sfx (str "float") then option_map SFloat (parse_core_schema_fp t)
  else if text_eqb sfx (str "null") then if is_null_tagged t tg then Some SNull else None
  else if text_eqb sfx (str "str") then Some (SString t)
  else None.

(** [node/scalar.rs:82-120] [parse_from_cow_and_metadata]. *)
Definition parse_from_cow_and_metadata (t : text) (style : scalar_type) (tg : option tag)
  : option scalar :=
  if negb (is_plain style) then Some (SString t)
  else match tg with
       | Some g => if is_yaml_core_schema g then parse_core_tagged t g
                   else Some (parse_from_cow t)
       | None => Some (parse_from_cow t)
       end.

(** [node/scalar.rs:60-62] [parse_from_scalar]. *)
Definition parse_from_scalar (v : scalar_value) : option scalar :=
  parse_from_cow_and_metadata (sv_value v) (sv_type v) (sv_tag v).
