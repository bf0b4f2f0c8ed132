(** Model of the texts of vectors, matrices and quaternions
    (/repo/include/OpenSpaceToolkit/Mathematics/Object/Eigen.hpp, below Eigen, and
    /repo/src/OpenSpaceToolkit/Mathematics/Geometry/3D/Transformation/Rotation/Quaternion.cpp): printing and parsing of
    binary64 numbers, in the "C" locale. *)

From Coq Require Import List Bool ZArith NArith String Ascii DecimalString Floats.SpecFloat.
From Verif Require Import Result.
Import ListNotations.
Local Open Scope string_scope.
Local Open Scope Z_scope.

(** *** The C library *)
(** Decimal digits of a natural number. *)
Definition digits (n : Z) : string := NilEmpty.string_of_uint (N.to_uint (Z.to_N n)).
Definition digit_count (n : Z) : Z := Z.of_nat (String.length (digits n)).
Fixpoint zeros (n : nat) : string := match n with O => "" | S n => String "0" (zeros n) end.
(** "s.erase(s.find_last_not_of('0') + 1)". *)
Fixpoint strip_zeros (s : string) : string :=
  match s with
  | "" => ""
  | String c r => match strip_zeros r with "" => if Ascii.eqb c "0" then "" else String c "" | r => String c r end
  end.
Definition minus (s : bool) : string := if s then "-" else "".
(** The magnitude of a finite number, as a quotient. *)
Definition magnitude (m : positive) (e : Z) : Z * Z := if 0 <=? e then (Zpos m * 2 ^ e, 1) else (Zpos m, 2 ^ (- e)).
(** Nearest integer to a / b, ties to even. *)
Definition round_quotient (a b : Z) : Z :=
  let q := a / b in
  match 2 * (a mod b) ?= b with Lt => q | Gt => q + 1 | Eq => if Z.even q then q else q + 1 end.
(** printf's "%.<p>f", and std::fixed with precision p, of a / b. *)
Definition pad (n : Z) (s : string) : string := zeros (Z.to_nat n - String.length s) ++ s.
Definition fixed (p a b : Z) : string :=
  let n := round_quotient (a * 10 ^ p) b in
  digits (n / 10 ^ p) ++ (if p =? 0 then "" else "." ++ pad p (digits (n mod 10 ^ p))).
(** The decimal exponent of a / b > 0: 10 ^ x <= a / b < 10 ^ (x + 1). *)
Definition exponent10 (a b : Z) : Z :=
  if b <=? a then digit_count (a / b) - 1
  else let k := digit_count (b / a) in if b <=? a * 10 ^ (k - 1) then 1 - k else - k.
(** printf's "%.15g", and the default format with precision 15, of a / b > 0. *)
Definition scaled (a b k : Z) : Z := if 0 <=? k then round_quotient (a * 10 ^ k) b else round_quotient a (b * 10 ^ (- k)).
Definition fraction (s : string) : string := match strip_zeros s with "" => "" | s => "." ++ s end.
Definition general15 (a b : Z) : string :=
  let x := exponent10 a b in
  let d := scaled a b (14 - x) in
  let '(x, d) := if d =? 10 ^ 15 then (x + 1, 10 ^ 14) else (x, d) in
  let s := digits d in
  if (x <? -4) || (15 <=? x) then
    substring 0 1 s ++ fraction (substring 1 14 s) ++ "e" ++ (if x <? 0 then "-" else "+") ++ pad 2 (digits (Z.abs x))
  else if x <? 0 then "0." ++ zeros (Z.to_nat (- x - 1)) ++ strip_zeros s
  else substring 0 (Z.to_nat (x + 1)) s ++ fraction (substring (Z.to_nat (x + 1)) (Z.to_nat (14 - x)) s).

(** The binary64 number nearest to n 10 ^ k (n 2 ^ k). *)
Definition nearest10 (s : bool) (n k : Z) : spec_float :=
  match n with
  | Zpos p =>
    if 0 <=? k then binary_normalize 53 1024 (cond_Zopp s (n * 10 ^ k)) 0 s
    else
      match 10 ^ (- k) with
      | Zpos q => let '(m, e, l) := SFdiv_core_binary 53 1024 (Zpos p) 0 (Zpos q) 0 in binary_round_aux 53 1024 s m e l
      | _ => S754_nan
      end
  | _ => S754_zero s
  end.
Definition nearest2 (s : bool) (n k : Z) : spec_float :=
  match n with Zpos p => binary_normalize 53 1024 (cond_Zopp s n) k s | _ => S754_zero s end.
(** The digits at the beginning of a text. *)
Definition is_digit (c : ascii) : bool := (48 <=? Z.of_nat (nat_of_ascii c)) && (Z.of_nat (nat_of_ascii c) <=? 57).
Definition digit_value (c : ascii) : Z := Z.of_nat (nat_of_ascii c) - 48.
Definition lower (c : ascii) : ascii :=
  let n := nat_of_ascii c in if Nat.leb 65 n && Nat.leb n 90 then ascii_of_nat (n + 32) else c.
Definition hex_value (c : ascii) : option Z :=
  if is_digit c then Some (digit_value c)
  else let n := nat_of_ascii (lower c) in if Nat.leb 97 n && Nat.leb n 102 then Some (Z.of_nat n - 87) else None.
(** [take value base s n]: the digits in front of [s] read after [n], how many they are, and the rest. *)
Fixpoint take (value : ascii -> option Z) (base : Z) (s : string) (n : Z) : Z * Z * string :=
  match s with
  | String c r =>
    match value c with
    | Some d => let '(v, k, t) := take value base r (n * base + d) in (v, k + 1, t)
    | None => (n, 0, s)
    end
  | "" => (n, 0, s)
  end.
Definition decimal_value (c : ascii) : option Z := if is_digit c then Some (digit_value c) else None.
(** "e" or "p", an optional sign and digits; 0 when there is no such thing. *)
Definition signed (s : string) : bool * string :=
  match s with
  | String c r => if Ascii.eqb c "-" then (true, r) else if Ascii.eqb c "+" then (false, r) else (false, s)
  | "" => (false, s)
  end.
Definition exponent (letter : ascii) (s : string) : Z :=
  match s with
  | String c r =>
    if Ascii.eqb (lower c) letter then
      let '(neg, r) := signed r in
      let '(v, k, _) := take decimal_value 10 r 0 in
      if neg then - v else v
    else 0
  | "" => 0
  end.
(** digits [. digits]: the number without its point, the digits before and after it, and the rest. *)
Definition mantissa (value : ascii -> option Z) (base : Z) (s : string) : Z * Z * Z * string :=
  let '(n, k, r) := take value base s 0 in
  match r with
  | String "." t => let '(n, j, t) := take value base t n in (n, k, j, if k + j =? 0 then r else t)
  | _ => (n, k, 0, r)
  end.
Fixpoint starts (p s : string) : bool :=
  match p, s with
  | "", _ => true
  | String a p, String b s => Ascii.eqb a (lower b) && starts p s
  | _, _ => false
  end.
Definition is_space (c : ascii) : bool := let n := nat_of_ascii c in Nat.eqb n 32 || Nat.leb 9 n && Nat.leb n 13.
Fixpoint skip_spaces (s : string) : string :=
  match s with String c r => if is_space c then skip_spaces r else s | "" => "" end.
(** atof: the longest prefix that is a number; 0 if there is none. *)
Definition atof (s : string) : spec_float :=
  let '(neg, s) := signed (skip_spaces s) in
  if starts "inf" s then S754_infinity neg
  else if starts "nan" s then S754_nan
  else
    let hex := match s with String a (String b r) => if Ascii.eqb a "0" && Ascii.eqb (lower b) "x" then Some r else None | _ => None end in
    match match hex with Some r => let '(n, k, j, t) := mantissa hex_value 16 r in if k + j =? 0 then None else Some (n, j, t) | None => None end with
    | Some (n, j, t) => nearest2 neg n (exponent "p" t - 4 * j)
    | None =>
      let '(n, k, j, t) := mantissa decimal_value 10 s in
      if k + j =? 0 then S754_zero false else nearest10 neg n (exponent "e" t - j)
    end.

(** *** Eigen.hpp *)
(** 37, 61: std::isnan, std::isinf. *)
Definition sf_isNaN (x : spec_float) : bool := match x with S754_nan => true | _ => false end.
Definition sf_isInf (x : spec_float) : bool := match x with S754_infinity _ => true | _ => false end.
(** A matrix of [rows] rows and [cols] columns; a vector has one column. *)
Record matrix := mkMatrix { mx_cols : nat; mx_rows : list (list spec_float) }.
Definition vector (l : list spec_float) : matrix := mkMatrix 1 (map (fun x => [x]) l).
(** 31-45: isNaN. *)
Definition mx_isNaN (m : matrix) : bool := existsb (existsb sf_isNaN) (mx_rows m).
(** 55-69: isInf. *)
Definition mx_isInf (m : matrix) : bool := existsb (existsb sf_isInf) (mx_rows m).
(** 18-21: isDefined. *)
Definition mx_isDefined (m : matrix) : bool := negb (mx_isNaN m) && negb (mx_isInf m).
(** 130-170: ScalarToString(double, int); not called for NaN and infinities. *)
Definition is_integer (m : positive) (e : Z) : bool := let '(a, b) := magnitude m e in a mod b =? 0.
Definition ScalarToString (x : spec_float) (precision : Z) : string :=
  match x with
  | S754_zero s =>
    if precision <? 0 then strip_zeros (minus s ++ fixed 6 0 1) ++ "0" else minus s ++ fixed precision 0 1
  | S754_finite s m e =>
    let '(a, b) := magnitude m e in
    if (precision <? 0) && is_integer m e then strip_zeros (minus s ++ fixed 6 a b) ++ "0"
    else if 0 <=? precision then minus s ++ fixed precision a b
    else minus s ++ general15 a b
  | S754_infinity s => minus s ++ "inf"
  | S754_nan => "nan"
  end.
(** 196-209: one element. *)
Definition element (precision : Z) (x : spec_float) : string :=
  if sf_isNaN x then "NaN" else if sf_isInf x then "Inf" else ScalarToString x precision.
(** 194-215, 187-226: elements and rows separated by ", ". *)
Fixpoint join (l : list string) : string :=
  match l with
  | [] => ""
  | [s] => s
  | s :: r => s ++ ", " ++ join r
  end.
(** 181-231: toString. *)
Definition row_text (precision : Z) (cols : nat) (r : list spec_float) : string :=
  let s := join (map (element precision) r) in if Nat.ltb 1 cols then "[" ++ s ++ "]" else s.
Definition mx_toString (precision : Z) (m : matrix) : string :=
  "[" ++ join (map (row_text precision (mx_cols m)) (mx_rows m)) ++ "]".
(** 444, 458: getline(stream, token, ',') until it fails. *)
Fixpoint tokens (s : string) : list string :=
  match s with
  | "" => []
  | String c r =>
    if Ascii.eqb c "," then "" :: tokens r
    else match tokens r with [] => [String c ""] | t :: l => String c t :: l end
  end.
(** 428-467: Parse.  The std::runtime_error thrown is an [ERuntime] here. *)
Definition last_char (s : string) : option ascii := String.get (String.length s - 1) s.
Definition char_is (c : ascii) (o : option ascii) : bool := match o with Some d => Ascii.eqb d c | None => false end.
Definition VectorXd_Parse (s : string) : result (list spec_float) :=
  if Nat.ltb (String.length s) 3 || (negb (char_is "[" (String.get 0 s)) || negb (char_is "]" (last_char s))) then Err ERuntime
  else Ok (map atof (tokens (substring 1 (String.length s - 2) s))).

(** *** Quaternion.cpp *)
(** Quaternion.hpp 58-64: Format. *)
Inductive qformat := XYZS | SXYZ.
(** A quaternion of binary64 components. *)
Record quat64 := mkQ64 { q64_x : spec_float; q64_y : spec_float; q64_z : spec_float; q64_s : spec_float }.
(** A NaN makes an undefined Real. *)
Definition q64_isDefined (q : quat64) : bool :=
  negb (sf_isNaN (q64_x q) || sf_isNaN (q64_y q) || sf_isNaN (q64_z q) || sf_isNaN (q64_s q)).
(** 23-36, 38-44: from four components or a vector. *)
Definition Quaternion64 (a b c d : spec_float) (f : qformat) : quat64 :=
  match f with XYZS => mkQ64 a b c d | SXYZ => mkQ64 b c d a end.
(** 377-398: toVector. *)
Definition q64_toVector (q : quat64) (f : qformat) : result (list spec_float) :=
  if negb (q64_isDefined q) then Err EUndefined
  else match f with
       | XYZS => Ok [q64_x q; q64_y q; q64_z q; q64_s q]
       | SXYZ => Ok [q64_s q; q64_x q; q64_y q; q64_z q]
       end.
(** 400-403: toString(Format); 405-408: toString(Integer, Format), [None]: Integer::Undefined(). *)
Definition q64_toString (q : quat64) (f : qformat) : result string :=
  let! v := q64_toVector q f in Ok (mx_toString (-1) (vector v)).
Definition q64_toString_precision (precision : option Z) (q : quat64) (f : qformat) : result string :=
  let! v := q64_toVector q f in
  Ok (match precision with Some p => mx_toString p (vector v) | None => mx_toString (-1) (vector v) end).
(** 646-663: Parse. *)
Definition q64_Parse (s : string) (f : qformat) : result quat64 :=
  if String.eqb s "" then Err EUndefined
  else
    let! v := VectorXd_Parse s in
    match v with
    | [a; b; c; d] => Ok (Quaternion64 a b c d f)
    | _ => Err ERuntime
    end.
