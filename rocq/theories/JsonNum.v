(** Numbers in request bodies and responses: json.Number.Float64, which is
    strconv.ParseFloat(s, 64), and the conversion float32(x) of a float64
    (document.go:357-364).

    Simplifications.
    - A json.Number comes out of the JSON decoder, so its text is a JSON number
      literal; ParseFloat accepts more (hexadecimal, underscores, "inf"), which
      cannot occur.  Other texts give [None] here.
    - ParseFloat rounds correctly (to nearest, ties to even); its algorithm is
      not followed. *)
From Coq Require Import String Ascii DecimalString DecimalN.
From Verif Require Import Base F32.
Local Open Scope string_scope.
Local Open Scope Z_scope.

(** Value of a decimal digit.
    encoding/json and strconv (library), as config values reach user_config.go:211-245. *)
Definition digit (c : ascii) : option Z :=
  let n := Z.of_N (N_of_ascii c) in
  if (48 <=? n) && (n <=? 57) then Some (n - 48) else None.

(** A run of digits: its value appended to [n], how many, the rest.
    encoding/json and strconv (library), as config values reach user_config.go:211-245. *)
Fixpoint read_digits (s : string) (n k : Z) : Z * Z * string :=
  match s with
  | String c s' =>
      match digit c with
      | Some d => read_digits s' (10 * n + d) (k + 1)
      | None => (n, k, s)
      end
  | EmptyString => (n, k, s)
  end.

(** The exponent part: [None] if it is malformed.
    encoding/json and strconv (library), as config values reach user_config.go:211-245. *)
Definition read_exp (s : string) : option Z :=
  match s with
  | EmptyString => Some 0
  | String c s1 =>
      if Ascii.eqb c "e" || Ascii.eqb c "E" then
        let (neg, s2) := match s1 with
                         | String "-" t => (true, t)
                         | String "+" t => (false, t)
                         | _ => (false, s1)
                         end in
        match read_digits s2 0 0 with
        | (n, k, EmptyString) => if k =? 0 then None else Some (if neg then - n else n)
        | _ => None
        end
      else None
  end.

(** A number literal as sign, mantissa and power of ten.
    encoding/json and strconv (library), as config values reach user_config.go:211-245. *)
Definition decimal_of (s : string) : option (bool * Z * Z) :=
  let (neg, s1) := match s with String "-" t => (true, t) | _ => (false, s) end in
  match read_digits s1 0 0 with
  | (n, k, s2) =>
      if k =? 0 then None
      else
        match s2 with
        | String "." s3 =>
            match read_digits s3 n 0 with
            | (m, f, s4) =>
                if f =? 0 then None
                else match read_exp s4 with Some e => Some (neg, m, e - f) | None => None end
            end
        | _ => match read_exp s2 with Some e => Some (neg, n, e) | None => None end
        end
  end.

(** The float64 nearest to [m * 10^e].
    encoding/json and strconv (library), as config values reach user_config.go:211-245. *)
Definition f64_of_decimal (neg : bool) (m e : Z) : f64 :=
  match m with
  | Zpos p =>
      if 0 <=? e then
        match m * 10 ^ e with
        | Zpos q => binary_round prec64 emax64 neg q 0
        | _ => S754_zero neg
        end
      else
        match 10 ^ (- e) with
        | Zpos q => SFdiv prec64 emax64 (S754_finite neg p 0) (S754_finite false q 0)
        | _ => S754_zero neg
        end
  | _ => S754_zero neg
  end.

(** json.Number.Float64: [None] is an error; a value beyond the float64 range is
    one.
    encoding/json and strconv (library), as config values reach user_config.go:211-245. *)
Definition f64_of_num (s : string) : option f64 :=
  match decimal_of s with
  | Some (neg, m, e) =>
      match f64_of_decimal neg m e with
      | S754_infinity _ => None
      | x => Some x
      end
  | None => None
  end.

(** document.go:359-364 *)
Definition f32_of_num (s : string) : option f32 :=
  match f64_of_num s with Some x => Some (f32_of_f64 x) | None => None end.

(** The JSON text of a uint64 or an int (json.Marshal of "hnswId", document.go:432). *)
Definition int_text (z : Z) : string :=
  match z with
  | Zneg p => "-" ++ NilZero.string_of_uint (N.to_uint (Npos p))
  | _ => NilZero.string_of_uint (N.to_uint (Z.to_N z))
  end.

