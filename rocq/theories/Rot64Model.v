(** Quaternions and rotation matrices in double precision.

    As in [FloatModel] and [Geo64Model], [Real] and [double] are binary64 numbers and the order
    in which Eigen adds three products is a parameter [r].  An undefined quaternion or matrix is
    [None].  Real::Epsilon() is the parameter [eps]. *)

From Coq Require Import List Bool ZArith Floats.SpecFloat.
From Verif Require Import Result AngleModel FloatModel Geo64Model.
Import ListNotations.

(** Quaternion.hpp: x_, y_, z_, s_. *)
Record f4 := F4 { q64x : spec_float; q64y : spec_float; q64z : spec_float; q64s : spec_float }.
Definition vec64 (q : f4) : f3 := F3 (q64x q) (q64y q) (q64z q).
(** Quaternion.cpp 45-51: from a vector and a scalar. *)
Definition parts64 (v : f3) (s : spec_float) : f4 := F4 (fx v) (fy v) (fz v) s.
Definition fscale3 (k : spec_float) (v : f3) : f3 := F3 (b64_mul k (fx v)) (b64_mul k (fy v)) (b64_mul k (fz v)).
Definition one_64 : spec_float := b64_of_Z 1.
Definition two_64 : spec_float := b64_of_Z 2.

(** *** Quaternion.cpp *)
(** 498-501: Unit. *)
Definition q64_Unit : f4 := F4 zero64 zero64 zero64 one_64.
(** 53-63: operator==. *)
Definition q64_eq (p q : option f4) : bool :=
  match p, q with
  | Some p, Some q =>
    SFeqb (q64x p) (q64x q) && SFeqb (q64y p) (q64y q) && SFeqb (q64z p) (q64z q) && SFeqb (q64s p) (q64s q)
    || SFeqb (q64x p) (SFopp (q64x q)) && SFeqb (q64y p) (SFopp (q64y q)) && SFeqb (q64z p) (SFopp (q64z q)) && SFeqb (q64s p) (SFopp (q64s q))
  | _, _ => false
  end.
(** 70-75: operator+. *)
Definition q64_add (p q : option f4) : result f4 :=
  let! p := need3 p in let! q := need3 q in
  Ok (parts64 (fadd3 (vec64 p) (vec64 q)) (sf_add (q64s p) (q64s q))).
(** 87-95: product with a scalar. *)
Definition q64_scale (p : option f4) (k : spec_float) : result f4 :=
  let! p := need3 p in
  Ok (F4 (b64_mul (q64x p) k) (b64_mul (q64y p) k) (b64_mul (q64z p) k) (b64_mul (q64s p) k)).
(** 322-335: crossMultiply, on defined operands. *)
Definition fmul4 (r : order) (p q : f4) : f4 :=
  parts64
    (fsub3 (fadd3 (fscale3 (q64s q) (vec64 p)) (fscale3 (q64s p) (vec64 q))) (fcross3 (vec64 p) (vec64 q)))
    (sf_sub (b64_mul (q64s p) (q64s q)) (fdot3 r (vec64 p) (vec64 q))).
(** 77-80, 127-132, 322-335. *)
Definition q64_mul (r : order) (p q : option f4) : result f4 :=
  let! p := need3 p in let! q := need3 q in Ok (fmul4 r p q).
(** 352-360: dotProduct; 441-449: the sum of squares. *)
Definition fdot4 (p q : f4) : spec_float :=
  sf_add (sf_add (sf_add (b64_mul (q64x p) (q64x q)) (b64_mul (q64y p) (q64y q))) (b64_mul (q64z p) (q64z q))) (b64_mul (q64s p) (q64s q)).
Definition q64_dotProduct (p q : option f4) : result spec_float :=
  let! p := need3 p in let! q := need3 q in Ok (fdot4 p q).
(** 312-320: norm. *)
Definition fnorm4 (q : f4) : spec_float := b64_sqrt (fdot4 q q).
Definition q64_norm (q : option f4) : result spec_float := let! q := need3 q in Ok (fnorm4 q).
(** 427-439: conjugate. *)
Definition fconj4 (q : f4) : f4 := F4 (SFopp (q64x q)) (SFopp (q64y q)) (SFopp (q64z q)) (q64s q).
Definition q64_conjugate (q : option f4) : result f4 := let! q := need3 q in Ok (fconj4 q).
(** 463-479: rectify. *)
Definition q64_rectify (q : option f4) : result f4 :=
  let! q := need3 q in
  Ok (if SFltb (q64s q) zero64 then F4 (SFopp (q64x q)) (SFopp (q64y q)) (SFopp (q64z q)) (SFopp (q64s q)) else q).
(** 410-425: normalize; 255-258: toNormalized. *)
Definition q64_normalize (eps : spec_float) (q : option f4) : result f4 :=
  let! q := need3 q in
  let n := fnorm4 q in
  if SFltb (SFabs n) eps then Err ERuntime
  else Ok (F4 (b64_div (q64x q) n) (b64_div (q64y q) n) (b64_div (q64z q) n) (b64_div (q64s q) n)).
(** 441-461: inverse. *)
Definition q64_inverse (eps : spec_float) (q : option f4) : result f4 :=
  let! q := need3 q in
  let n := fdot4 q q in
  if SFltb (SFabs n) eps then Err ERuntime
  else Ok (F4 (b64_div (SFopp (q64x q)) n) (b64_div (SFopp (q64y q)) n) (b64_div (SFopp (q64z q)) n) (b64_div (q64s q) n)).
(** 97-105: operator/. *)
Definition q64_div (r : order) (eps : spec_float) (p q : option f4) : result f4 :=
  let! n := q64_norm q in
  if SFltb n eps then Err ERuntime
  else let! i := q64_inverse eps q in q64_mul r p (Some i).
(** 169-182: isUnitary. *)
Definition q64_isUnitary (q : option f4) (tol : option spec_float) : result bool :=
  let! q := need3 q in
  match tol with
  | None => Err EUndefined
  | Some t => if SFleb t zero64 then Err EUndefined else Ok (SFleb (SFabs (sf_sub (fnorm4 q) one_64)) t)
  end.
(** 362-375: rotateVector; 82-85: operator*(Vector3d), with the tolerance Real::Epsilon(). *)
Definition frotate (r : order) (q : f4) (v : f3) : f3 :=
  vec64 (fmul4 r (fmul4 r q (parts64 v zero64)) (fconj4 q)).
Definition q64_rotateVector (r : order) (q : option f4) (v : option f3) (tol : option spec_float) : result f3 :=
  let! v := need3 v in
  let! u := q64_isUnitary q tol in
  if u then let! q := need3 q in Ok (frotate r q v) else Err ERuntime.
(** 687-700: LERP. *)
Definition q64_LERP (p q : option f4) (k : option spec_float) : result f4 :=
  let! k := need3 k in
  if SFltb k zero64 || SFltb one_64 k then Err ERuntime
  else
    let! a := q64_scale p (sf_sub one_64 k) in
    let! b := q64_scale q k in
    q64_add (Some a) (Some b).

(** *** RotationMatrix.cpp *)
(** RotationMatrix.hpp: matrix_; here its columns. *)
Record f33 := F33 { c64_0 : f3; c64_1 : f3; c64_2 : f3 }.
Definition row64_0 (m : f33) : f3 := F3 (fx (c64_0 m)) (fx (c64_1 m)) (fx (c64_2 m)).
Definition row64_1 (m : f33) : f3 := F3 (fy (c64_0 m)) (fy (c64_1 m)) (fy (c64_2 m)).
Definition row64_2 (m : f33) : f3 := F3 (fz (c64_0 m)) (fz (c64_1 m)) (fz (c64_2 m)).
(** 24-56: the constructor. *)
Definition rm64_ok (r : order) (eps : spec_float) (m : f33) : bool :=
  let long c := SFltb eps (sf_sub (fnorm3 r c) one_64) in
  let oblique c d := SFltb eps (SFabs (fdot3 r c d)) in
  negb (long (c64_0 m)) && negb (long (c64_1 m)) && negb (long (c64_2 m))
  && negb (oblique (c64_0 m) (c64_1 m)) && negb (oblique (c64_1 m) (c64_2 m)) && negb (oblique (c64_2 m) (c64_0 m)).
Definition RotationMatrix64 (r : order) (eps : spec_float) (m : f33) : result f33 :=
  if rm64_ok r eps m then Ok m else Err ERuntime.
(** Eigen's products of matrices and vectors. *)
Definition fmulv3 (r : order) (m : f33) (v : f3) : f3 :=
  F3 (fdot3 r (row64_0 m) v) (fdot3 r (row64_1 m) v) (fdot3 r (row64_2 m) v).
Definition fmul33 (r : order) (m n : f33) : f33 :=
  F33 (fmulv3 r m (c64_0 n)) (fmulv3 r m (c64_1 n)) (fmulv3 r m (c64_2 n)).
(** 111-119: operator==. *)
Definition rm64_eq (m n : option f33) : bool :=
  match m, n with
  | Some m, Some n => feq3 (c64_0 m) (c64_0 n) && feq3 (c64_1 m) (c64_1 n) && feq3 (c64_2 m) (c64_2 n)
  | _, _ => false
  end.
(** 126-134, 136-149: products. *)
Definition rm64_mul (r : order) (eps : spec_float) (m n : option f33) : result f33 :=
  let! m := need3 m in let! n := need3 n in RotationMatrix64 r eps (fmul33 r m n).
Definition rm64_mulv (r : order) (m : option f33) (v : option f3) : result f3 :=
  let! v := need3 v in let! m := need3 m in Ok (fmulv3 r m v).
(** 262-270: toTransposed; 272-283: transpose, without the constructor's checks. *)
Definition ftranspose (m : f33) : f33 := F33 (row64_0 m) (row64_1 m) (row64_2 m).
Definition rm64_toTransposed (r : order) (eps : spec_float) (m : option f33) : result f33 :=
  let! m := need3 m in RotationMatrix64 r eps (ftranspose m).
Definition rm64_transpose (m : option f33) : result f33 := let! m := need3 m in Ok (ftranspose m).
(** 290-293: Unit. *)
Definition id64 : f33 := F33 (F3 one_64 zero64 zero64) (F3 zero64 one_64 zero64) (F3 zero64 zero64 one_64).
Definition rm64_Unit (r : order) (eps : spec_float) : result f33 := RotationMatrix64 r eps id64.
(** 480-494: the matrix of a quaternion. *)
Definition fmatrix (q : f4) : f33 :=
  let x := q64x q in let y := q64y q in let z := q64z q in let s := q64s q in
  let m00 := sf_add (sf_sub (sf_sub (b64_mul x x) (b64_mul y y)) (b64_mul z z)) (b64_mul s s) in
  let m01 := b64_mul two_64 (sf_add (b64_mul x y) (b64_mul z s)) in
  let m02 := b64_mul two_64 (sf_sub (b64_mul x z) (b64_mul y s)) in
  let m10 := b64_mul two_64 (sf_sub (b64_mul y x) (b64_mul z s)) in
  let m11 := sf_add (sf_sub (sf_add (b64_mul (SFopp x) x) (b64_mul y y)) (b64_mul z z)) (b64_mul s s) in
  let m12 := b64_mul two_64 (sf_add (b64_mul y z) (b64_mul x s)) in
  let m20 := b64_mul two_64 (sf_add (b64_mul z x) (b64_mul y s)) in
  let m21 := b64_mul two_64 (sf_sub (b64_mul z y) (b64_mul x s)) in
  let m22 := sf_add (sf_add (sf_sub (b64_mul (SFopp x) x) (b64_mul y y)) (b64_mul z z)) (b64_mul s s) in
  F33 (F3 m00 m10 m20) (F3 m01 m11 m21) (F3 m02 m12 m22).
(** 458-497: from a quaternion. *)
Definition rm64_of_quaternion (r : order) (eps : spec_float) (q : option f4) : result f33 :=
  let! q' := need3 q in
  let! u := q64_isUnitary q (Some eps) in
  if negb u then Err ERuntime
  else if q64_eq q (Some q64_Unit) then rm64_Unit r eps
  else RotationMatrix64 r eps (fmatrix q').
(** Quaternion.cpp 522-584: a quaternion from a matrix. *)
Definition q64_of_matrix (r : order) (eps : spec_float) (m : option f33) : result f4 :=
  let! m := need3 m in
  let m00 := fx (c64_0 m) in let m10 := fy (c64_0 m) in let m20 := fz (c64_0 m) in
  let m01 := fx (c64_1 m) in let m11 := fy (c64_1 m) in let m21 := fz (c64_1 m) in
  let m02 := fx (c64_2 m) in let m12 := fy (c64_2 m) in let m22 := fz (c64_2 m) in
  let t := sum64 r m00 m11 m22 in
  let peak a := sf_sub (sf_add one_64 (b64_mul two_64 a)) t in
  if SFleb m00 t && SFleb m11 t && SFleb m22 t then
    q64_normalize eps (Some (F4 (sf_sub m12 m21) (sf_sub m20 m02) (sf_sub m01 m10) (sf_add one_64 t)))
  else if SFleb t m00 && SFleb m11 m00 && SFleb m22 m00 then
    q64_normalize eps (Some (F4 (peak m00) (sf_add m01 m10) (sf_add m02 m20) (sf_sub m12 m21)))
  else if SFleb m00 m11 && SFleb t m11 && SFleb m22 m11 then
    q64_normalize eps (Some (F4 (sf_add m10 m01) (peak m11) (sf_add m12 m21) (sf_sub m20 m02)))
  else if SFleb m00 m22 && SFleb m11 m22 && SFleb t m22 then
    q64_normalize eps (Some (F4 (sf_add m20 m02) (sf_add m21 m12) (peak m22) (sf_sub m01 m10)))
  else Err ERuntime.
