(** Model of the 3D rotations: Quaternion.cpp, RotationMatrix.cpp, RotationVector.cpp and
    EulerAngle.cpp in /repo/src/OpenSpaceToolkit/Mathematics/Geometry/3D/Transformation/Rotation/.

    Exact real arithmetic.  A quaternion with an undefined component, a matrix or a vector with
    a NaN coefficient is [None]: which component is undefined cannot be observed.  [eps] is
    Real::Epsilon().  A result that is NaN or infinite in C++ (logarithm of 0, arc cosine
    outside [-1, 1], square root of a negative number) is [UB]. *)

From Coq Require Import List Bool Reals.
From Verif Require Import Result DOrder Vec Mat3 AngleModel.
Local Open Scope R_scope.

(** Quaternion.hpp: x_, y_, z_, s_. *)
Record quat := Q4 { qx : R; qy : R; qz : R; qs : R }.

Definition vec (q : quat) : v3 := V3 (qx q) (qy q) (qz q).
(** Quaternion.cpp 46-52: from a vector part and a scalar part. *)
Definition of_parts (v : v3) (s : R) : quat := Q4 (vx v) (vy v) (vz v) s.

(** Checks that an object is defined. *)
Definition needd {A} (x : option A) : result A :=
  match x with Some a => Ok a | None => Err EUndefined end.

(** *** C library functions *)
(** std::atan2(y, x) (no signed zeros). *)
Definition atan2 (y x : R) : R :=
  if Rlt_dec 0 x then atan (y / x)
  else if Rlt_dec x 0 then (if Rlt_dec y 0 then atan (y / x) - PI else atan (y / x) + PI)
  else if Rlt_dec 0 y then PI / 2 else if Rlt_dec y 0 then - (PI / 2) else 0.
Definition acos_ (x : R) : result R := if Rle_dec (Rabs x) 1 then Ok (acos x) else UB.
Definition asin_ (x : R) : result R := if Rle_dec (Rabs x) 1 then Ok (asin x) else UB.
Definition sqrt_ (x : R) : result R := if Rlt_dec x 0 then UB else Ok (sqrt x).
Definition log_ (x : R) : result R := if Rlt_dec 0 x then Ok (ln x) else UB.

(** *** Quaternion *)
(** Quaternion.cpp 24-44, 377-398: component order. *)
Inductive format := XYZS | SXYZ.
Definition of_components (a b c d : R) (f : format) : quat :=
  match f with XYZS => Q4 a b c d | SXYZ => Q4 b c d a end.
Definition toVector (q : option quat) (f : format) : result (R * R * R * R) :=
  let! q := needd q in
  match f with
  | XYZS => Ok (qx q, qy q, qz q, qs q)
  | SXYZ => Ok (qs q, qx q, qy q, qz q)
  end.
(** 498-501. *)
Definition q_Unit : quat := Q4 0 0 0 1.

Definition Reqb (a b : R) : bool := if Req_EM_T a b then true else false.
Definition Rleb (a b : R) : bool := if Rle_dec a b then true else false.

(** 54-63: operator==. *)
Definition q_eq (p q : option quat) : bool :=
  match p, q with
  | Some p, Some q =>
    (Reqb (qx p) (qx q) && Reqb (qy p) (qy q) && Reqb (qz p) (qz q) && Reqb (qs p) (qs q))
    || (Reqb (qx p) (- qx q) && Reqb (qy p) (- qy q) && Reqb (qz p) (- qz q) && Reqb (qs p) (- qs q))
  | _, _ => false
  end.

(** 70-75 (and += 112-125): operator+. *)
Definition q_add (p q : option quat) : result quat :=
  let! p := needd p in
  let! q := needd q in
  Ok (of_parts (add3 (vec p) (vec q)) (qs p + qs q)).
(** 87-95: product with a scalar. *)
Definition q_scale (p : option quat) (k : R) : result quat :=
  let! p := needd p in Ok (of_parts (scale3 k (vec p)) (qs p * k)).

(** 322-335: crossMultiply, on defined operands. *)
Definition qmul (p q : quat) : quat :=
  of_parts
    (sub3 (add3 (scale3 (qs q) (vec p)) (scale3 (qs p) (vec q))) (cross3 (vec p) (vec q)))
    (qs p * qs q - dot3 (vec p) (vec q)).
(** 77-80, 127-132, 322-335. *)
Definition crossMultiply (p q : option quat) : result quat :=
  let! p := needd p in let! q := needd q in Ok (qmul p q).
(** 337-350: dotMultiply. *)
Definition dotMultiply (p q : option quat) : result quat :=
  let! p := needd p in
  let! q := needd q in
  Ok (of_parts
        (add3 (add3 (scale3 (qs q) (vec p)) (scale3 (qs p) (vec q))) (cross3 (vec p) (vec q)))
        (qs p * qs q - dot3 (vec p) (vec q))).
(** 352-360: dotProduct. *)
Definition dotProduct (p q : option quat) : result R :=
  let! p := needd p in
  let! q := needd q in
  Ok (qx p * qx q + qy p * qy q + qz p * qz q + qs p * qs q).

(** 312-320: norm. *)
Definition qnorm (q : quat) : R := sqrt (qx q * qx q + qy q * qy q + qz q * qz q + qs q * qs q).
Definition norm (q : option quat) : result R := let! q := needd q in Ok (qnorm q).

(** 427-439: conjugate; 260-263: toConjugate. *)
Definition qconj (q : quat) : quat := Q4 (- qx q) (- qy q) (- qz q) (qs q).
Definition conjugate (q : option quat) : result quat := let! q := needd q in Ok (qconj q).
(** 463-479: rectify; 270-273: toRectify. *)
Definition q_rectify (q : option quat) : result quat :=
  let! q := needd q in
  Ok (if Rltb (qs q) 0 then Q4 (- qx q) (- qy q) (- qz q) (- qs q) else q).

Section Eps.
Variable eps : R.

(** 410-425: normalize; 255-258: toNormalized. *)
Definition normalize (q : option quat) : result quat :=
  let! q := needd q in
  let n := qnorm q in
  if Rltb (Rabs n) eps then Err ERuntime else Ok (Q4 (qx q / n) (qy q / n) (qz q / n) (qs q / n)).

(** 441-461: inverse; 265-268: toInverse. *)
Definition inverse (q : option quat) : result quat :=
  let! q := needd q in
  let n := qx q * qx q + qy q * qy q + qz q * qz q + qs q * qs q in
  if Rltb (Rabs n) eps then Err ERuntime else Ok (Q4 (- qx q / n) (- qy q / n) (- qz q / n) (qs q / n)).

(** 97-105 (and /= 134-144): operator/. *)
Definition q_div (p q : option quat) : result quat :=
  let! n := norm q in
  if Rltb n eps then Err ERuntime
  else let! i := inverse q in crossMultiply p (Some i).

(** 169-182: isUnitary. *)
Definition isUnitary (q : option quat) (tol : option R) : result bool :=
  let! q := needd q in
  match tol with
  | None => Err EUndefined
  | Some t => if Rleb t 0 then Err EUndefined else Ok (Rleb (Rabs (qnorm q - 1)) t)
  end.

(** 362-375: rotateVector; 82-85: operator*(Vector3d), with the default tolerance. *)
Definition rotateVector (q : option quat) (v : option v3) (tol : option R) : result v3 :=
  let! v := needd v in
  let! u := isUnitary q tol in
  if u then
    let! q := needd q in Ok (vec (qmul (qmul q (of_parts v 0)) (qconj q)))
  else Err ERuntime.
Definition q_rotate (q : option quat) (v : option v3) : result v3 := rotateVector q v (Some eps).

(** 275-288: exp; 290-303: log; 305-310: pow. *)
Definition q_exp (q : option quat) : result quat :=
  let! q := needd q in
  let n := norm3 (vec q) in
  if Rleb n eps then Ok q_Unit
  else q_scale (Some (of_parts (scale3 (sin n / n) (vec q)) (cos n))) (exp (qs q)).
Definition q_log (q : option quat) : result quat :=
  let! q := needd q in
  let n := norm3 (vec q) in
  let! l := log_ (qnorm q) in
  if Rleb n eps then Ok (of_parts zero3 l)
  else Ok (of_parts (scale3 (atan2 n (qs q) / n) (vec q)) l).
Definition q_pow (q : option quat) (a : R) : result quat :=
  let! l := q_log q in
  let! m := q_scale (Some l) a in
  q_exp (Some m).

(** 481-491: angularDifferenceWith; the second quaternion is not looked at when the first is not unitary. *)
Definition angularDifferenceWith (p q : option quat) : result angle :=
  let! up := isUnitary p (Some eps) in
  if negb up then Err ERuntime
  else
    let! uq := isUnitary q (Some eps) in
    if negb uq then Err ERuntime
    else
      let! r := q_div p q in
      let! d := normalize (Some r) in
      let! a := acos_ (Rabs (qs d)) in
      Ok (Radians (2 * a)).

(** 184-193: isNear. *)
Definition q_isNear (fuel : nat) (p q : option quat) (tol : angle) : result bool :=
  if negb (angle_isDefined tol) then Err EUndefined
  else
    let! d := angularDifferenceWith p q in
    let! a := inRadians fuel d (Some 0) (Some (2 * PI)) in
    let! t := inRadians fuel tol (Some 0) (Some (2 * PI)) in
    Ok (Rleb a t).

(** *** RotationVector *)
(** RotationVector.hpp: axis_, angle_. *)
Record rotvec := mkRV { rv_axis : option v3; rv_angle : angle }.

(** RotationVector.cpp 24-32: from an axis and an angle. *)
Definition RotationVector (a : option v3) (t : angle) : result rotvec :=
  match a with
  | None => Ok (mkRV None t)
  | Some a => if Rltb eps (Rabs (norm3 a - 1)) then Err ERuntime else Ok (mkRV (Some (normalized3 a)) t)
  end.
(** 34-42: from a vector. *)
Definition RotationVector_of_vector (v : option v3) (u : unit) : rotvec :=
  match v with
  | None => mkRV None (mkA None u)
  | Some v =>
    let a := normalized3 v in
    mkRV (Some (if v3_eq_dec a zero3 then V3 0 0 1 else a)) (mkA (Some (norm3 v)) u)
  end.
(** 79-102: isDefined, getAxis, getAngle. *)
Definition rv_isDefined (r : rotvec) : bool :=
  match rv_axis r with Some _ => angle_isDefined (rv_angle r) | None => false end.
Definition getAxis (r : rotvec) : result v3 := if rv_isDefined r then needd (rv_axis r) else Err EUndefined.
Definition getAngle (r : rotvec) : result angle := if rv_isDefined r then Ok (rv_angle r) else Err EUndefined.
(** 44-58: operator==. *)
Definition v3_eqb (a b : v3) : bool := if v3_eq_dec a b then true else false.
Definition rv_eq (fuel : nat) (r s : rotvec) : result bool :=
  if negb (rv_isDefined r) || negb (rv_isDefined s) then Ok false
  else
    let! a := needd (rv_axis r) in
    let! b := needd (rv_axis s) in
    let! za := angle_isZero (rv_angle r) in
    let! zb := angle_isZero (rv_angle s) in
    if za && zb then Ok true
    else
      let! e1 := if v3_eqb a b then angle_eq fuel (rv_angle r) (rv_angle s) else Ok false in
      if e1 then Ok true
      else if v3_eqb a (opp3 b) then let! o := angle_opp (rv_angle s) in angle_eq fuel (rv_angle r) o
      else Ok false.
(** 104-124: rectify. *)
Definition rv_rectify (r : rotvec) : result rotvec :=
  if negb (rv_isDefined r) then Err EUndefined
  else
    let! a := needd (rv_axis r) in
    let! n := angle_isNegative (rv_angle r) in
    let! t := if n then angle_opp (rv_angle r) else Ok (rv_angle r) in
    let a := if n then opp3 a else a in
    let! tr := in_unit t Radian in
    let! pr := in_unit angle_Pi Radian in
    if Rltb pr tr then let! t' := angle_sub angle_TwoPi t in Ok (mkRV (Some (opp3 a)) t')
    else Ok (mkRV (Some a) t).
(** 143-176: Unit, X, Y, Z. *)
Definition rv_Unit : result rotvec := RotationVector (Some (V3 0 0 1)) angle_Zero.
Definition rv_along (a : v3) (t : angle) : result rotvec :=
  if angle_isDefined t then RotationVector (Some a) t else Err EUndefined.
Definition rv_X := rv_along (V3 1 0 0).
Definition rv_Y := rv_along (V3 0 1 0).
Definition rv_Z := rv_along (V3 0 0 1).
(** 178-199: from a quaternion. *)
Definition rv_of_quaternion (q : option quat) : result rotvec :=
  let! q' := needd q in
  let! u := isUnitary q (Some eps) in
  if negb u then Err ERuntime
  else if q_eq q (Some q_Unit) || Reqb (Rabs (qs q')) 1 then rv_Unit
  else
    let! d := sqrt_ (1 - qs q' * qs q') in
    let axis := normalized3 (scale3 (/ d) (vec q')) in
    let! a := acos_ (qs q') in
    RotationVector (Some axis) (Radians (2 * a)).

(** *** RotationMatrix *)
(** RotationMatrix.cpp 24-56 (and 58-109, from nine coefficients): constructor.  On a matrix
    with a NaN every comparison is false: the matrix is accepted. *)
Definition columns_ok (m : m3) : bool :=
  negb (Rltb eps (norm3 (col3 m 0) - 1)) && negb (Rltb eps (norm3 (col3 m 1) - 1))
  && negb (Rltb eps (norm3 (col3 m 2) - 1))
  && negb (Rltb eps (Rabs (dot3 (col3 m 0) (col3 m 1)))) && negb (Rltb eps (Rabs (dot3 (col3 m 1) (col3 m 2))))
  && negb (Rltb eps (Rabs (dot3 (col3 m 2) (col3 m 0)))).
Definition RotationMatrix (m : m3) : result m3 := if columns_ok m then Ok m else Err ERuntime.
Definition RotationMatrix_opt (m : option m3) : result (option m3) :=
  match m with None => Ok None | Some m => rmap Some (RotationMatrix m) end.

(** 111-119: operator==. *)
Definition rm_eq (a b : option m3) : bool :=
  match a, b with Some a, Some b => if m3_eq_dec a b then true else false | _, _ => false end.
(** 126-134, 136-149: products. *)
Definition rm_mul (a b : option m3) : result m3 :=
  let! a := needd a in let! b := needd b in RotationMatrix (mul3 a b).
Definition rm_mulv (a : option m3) (v : option v3) : result v3 :=
  let! v := needd v in let! a := needd a in Ok (mulv3 a v).
(** 151-189: operator(); Eigen's operator() is outside its storage for an index of 3 or more. *)
Definition entry3 (m : m3) (i j : nat) : result R :=
  match i, j with
  | 0, 0 => Ok (m00 m) | 0, 1 => Ok (m01 m) | 0, 2 => Ok (m02 m)
  | 1, 0 => Ok (m10 m) | 1, 1 => Ok (m11 m) | 1, 2 => Ok (m12 m)
  | 2, 0 => Ok (m20 m) | 2, 1 => Ok (m21 m) | 2, 2 => Ok (m22 m)
  | _, _ => UB
  end%nat.
Definition rm_at (m : option m3) (i j : nat) : result R :=
  if Nat.ltb 3 i then Err ERuntime
  else if Nat.ltb 3 j then Err ERuntime
  else let! m := needd m in entry3 m i j.
(** 222-250: getRowAt, getColumnAt. *)
Definition getRowAt (m : option m3) (i : nat) : result v3 :=
  if Nat.leb 3 i then Err ERuntime else let! m := needd m in Ok (row3 m i).
Definition getColumnAt (m : option m3) (j : nat) : result v3 :=
  if Nat.leb 3 j then Err ERuntime else let! m := needd m in Ok (col3 m j).
(** 262-283: toTransposed (transpose does the same in place, without the constructor's checks). *)
Definition toTransposed (m : option m3) : result m3 := let! m := needd m in RotationMatrix (transpose3 m).
Definition rm_transpose (m : option m3) : result m3 := let! m := needd m in Ok (transpose3 m).
(** 290-293. *)
Definition rm_Unit : result m3 := RotationMatrix id3.

(** 295-344: RX, RY, RZ. *)
Definition mRX (t : R) : m3 := M3 1 0 0 0 (cos t) (sin t) 0 (- sin t) (cos t).
Definition mRY (t : R) : m3 := M3 (cos t) 0 (- sin t) 0 1 0 (sin t) 0 (cos t).
Definition mRZ (t : R) : m3 := M3 (cos t) (sin t) 0 (- sin t) (cos t) 0 0 0 1.
Definition elementary (f : R -> m3) (a : angle) : result m3 :=
  if angle_isDefined a then let! t := in_unit a Radian in RotationMatrix (f t) else Err EUndefined.
Definition RX := elementary mRX.
Definition RY := elementary mRY.
Definition RZ := elementary mRZ.

(** 346-399, 401-456: Rows, Columns. *)
Definition vectors_ok (a b c : v3) : bool :=
  negb (Rltb eps (norm3 a - 1)) && negb (Rltb eps (norm3 b - 1)) && negb (Rltb eps (norm3 c - 1))
  && negb (Rltb eps (Rabs (dot3 a b))) && negb (Rltb eps (Rabs (dot3 b c))) && negb (Rltb eps (Rabs (dot3 c a))).
Definition Rows (a b c : option v3) : result m3 :=
  let! a := needd a in let! b := needd b in let! c := needd c in
  if vectors_ok a b c then RotationMatrix (of_rows a b c) else Err ERuntime.
Definition Columns (a b c : option v3) : result m3 :=
  let! a := needd a in let! b := needd b in let! c := needd c in
  if vectors_ok a b c then RotationMatrix (of_cols a b c) else Err ERuntime.

(** 480-494: the matrix of a quaternion. *)
Definition q_matrix (q : quat) : m3 :=
  let x := qx q in let y := qy q in let z := qz q in let s := qs q in
  M3 (x * x - y * y - z * z + s * s) (2 * (x * y + z * s)) (2 * (x * z - y * s))
     (2 * (y * x - z * s)) (- x * x + y * y - z * z + s * s) (2 * (y * z + x * s))
     (2 * (z * x + y * s)) (2 * (z * y - x * s)) (- x * x - y * y + z * z + s * s).
(** 458-497: from a quaternion. *)
Definition rm_of_quaternion (q : option quat) : result m3 :=
  let! q' := needd q in
  let! u := isUnitary q (Some eps) in
  if negb u then Err ERuntime
  else if q_eq q (Some q_Unit) then rm_Unit
  else RotationMatrix (q_matrix q').

(** 513-528: the matrix of an axis and an angle. *)
Definition axis_angle_matrix (a : v3) (t : R) : m3 :=
  let x := vx a in let y := vy a in let z := vz a in
  let c := cos t in let s := sin t in
  M3 (c + (1 - c) * x * x) ((1 - c) * x * y + s * z) ((1 - c) * x * z - s * y)
     ((1 - c) * y * x - s * z) (c + (1 - c) * y * y) ((1 - c) * y * z + s * x)
     ((1 - c) * z * x + s * y) ((1 - c) * z * y - s * x) (c + (1 - c) * z * z).
(** 499-531: from a rotation vector. *)
Definition rm_of_rotvec (r : rotvec) : result m3 :=
  if negb (rv_isDefined r) then Err EUndefined
  else
    let! a := getAxis r in
    let! t := getAngle r in
    let! t := in_unit t Radian in
    RotationMatrix (axis_angle_matrix a t).

(** 565-643: VectorBasis. *)
Definition basis_rows (u1 u2 : v3) : m3 :=
  let a := normalized3 u1 in
  let c := normalized3 (cross3 a (normalized3 u2)) in
  of_rows a (cross3 c a) c.
Definition parallel_b (u1 u2 : v3) : bool :=
  Rltb (Rabs (Rabs (dot3 (normalized3 u1) (normalized3 u2)) - 1)) eps.
Definition VectorBasis (u1 u2 v1 v2 : option v3) : result m3 :=
  let! u1 := needd u1 in let! u2 := needd u2 in let! v1 := needd v1 in let! v2 := needd v2 in
  if Rltb (norm3 u1) eps then Err ERuntime
  else if Rltb (norm3 u2) eps then Err ERuntime
  else if Rltb (norm3 v1) eps then Err ERuntime
  else if Rltb (norm3 v2) eps then Err ERuntime
  else if parallel_b u1 u2 then Err ERuntime
  else if parallel_b v1 v2 then Err ERuntime
  else RotationMatrix (mul3 (transpose3 (basis_rows v1 v2)) (basis_rows u1 u2)).

(** RotationVector.cpp 201-223: from a matrix. *)
Definition rv_of_matrix (m : option m3) : result rotvec :=
  let! m := needd m in
  let! a := acos_ ((trace3 m - 1) / 2) in
  if Rltb (Rabs a) eps then RotationVector (Some (V3 1 0 0)) (Radians a)
  else
    let w := V3 (m12 m - m21 m) (m20 m - m02 m) (m01 m - m10 m) in
    RotationVector (Some (normalized3 w)) (Radians a).

(** *** Quaternion constructions *)
(** Quaternion.cpp 510-520: from a rotation vector. *)
Definition q_of_rotvec (r : rotvec) : result quat :=
  let! t := getAngle r in
  let! t := in_unit t Radian in
  let! a := getAxis r in
  normalize (Some (of_parts (scale3 (sin (t / 2)) a) (cos (t / 2)))).

(** 522-584: from a matrix. *)
Definition q_of_matrix (m : option m3) : result quat :=
  let! m := needd m in
  let t := trace3 m in
  if Rleb (m00 m) t && Rleb (m11 m) t && Rleb (m22 m) t then
    normalize (Some (Q4 (m12 m - m21 m) (m20 m - m02 m) (m01 m - m10 m) (1 + t)))
  else if Rleb t (m00 m) && Rleb (m11 m) (m00 m) && Rleb (m22 m) (m00 m) then
    normalize (Some (Q4 (1 + 2 * m00 m - t) (m01 m + m10 m) (m02 m + m20 m) (m12 m - m21 m)))
  else if Rleb (m00 m) (m11 m) && Rleb t (m11 m) && Rleb (m22 m) (m11 m) then
    normalize (Some (Q4 (m10 m + m01 m) (1 + 2 * m11 m - t) (m12 m + m21 m) (m20 m - m02 m)))
  else if Rleb (m00 m) (m22 m) && Rleb (m11 m) (m22 m) && Rleb t (m22 m) then
    normalize (Some (Q4 (m20 m + m02 m) (m21 m + m12 m) (1 + 2 * m22 m - t) (m01 m - m10 m)))
  else Err ERuntime.

(** EulerAngle.hpp: phi_, theta_, psi_, axisSequence_. *)
Inductive axis_sequence := SeqUndefined | XYZ | ZXY | ZYX.
Record euler := mkE { e_phi : angle; e_theta : angle; e_psi : angle; e_seq : axis_sequence }.
(** EulerAngle.cpp 99-103: isDefined. *)
Definition e_isDefined (e : euler) : bool :=
  angle_isDefined (e_phi e) && angle_isDefined (e_theta e) && angle_isDefined (e_psi e)
  && match e_seq e with SeqUndefined => false | _ => true end.
(** 105-108: isUnitary. *)
Definition e_isUnitary (e : euler) : result bool :=
  let! a := angle_isZero (e_phi e) in
  if negb a then Ok false
  else
    let! b := angle_isZero (e_theta e) in
    if negb b then Ok false else angle_isZero (e_psi e).
(** 47-72: operator==. *)
Definition seq_eqb (a b : axis_sequence) : bool :=
  match a, b with SeqUndefined, SeqUndefined | XYZ, XYZ | ZXY, ZXY | ZYX, ZYX => true | _, _ => false end.
Definition and3 (a b c : result bool) : result bool :=
  let! x := a in if x then (let! y := b in if y then c else Ok false) else Ok false.
Definition e_eq (fuel : nat) (d e : euler) : result bool :=
  if negb (e_isDefined d) || negb (e_isDefined e) then Ok false
  else if negb (seq_eqb (e_seq d) (e_seq e)) then Ok false
  else
    let! same := and3 (angle_eq fuel (e_phi d) (e_phi e)) (angle_eq fuel (e_theta d) (e_theta e))
                      (angle_eq fuel (e_psi d) (e_psi e)) in
    if same then Ok true
    else
      and3 (let! p := angle_add (e_phi d) angle_Pi in angle_eq fuel p (e_phi e))
           (let! t := angle_sub angle_Pi (e_theta d) in angle_eq fuel t (e_theta e))
           (let! p := angle_add (e_psi d) angle_Pi in angle_eq fuel p (e_psi e)).

(** Quaternion.cpp 597-639: the quaternion of three angles. *)
Definition q_of_angles (seq : axis_sequence) (phi theta psi : R) : option quat :=
  let cf := cos (phi / 2) in let ct := cos (theta / 2) in let cp := cos (psi / 2) in
  let sf := sin (phi / 2) in let st := sin (theta / 2) in let sp := sin (psi / 2) in
  match seq with
  | XYZ => Some (Q4 (sf * ct * cp + cf * st * sp) (cf * st * cp - sf * ct * sp)
                    (cf * ct * sp + sf * st * cp) (cf * ct * cp - sf * st * sp))
  | ZXY => Some (Q4 (cf * st * cp - sf * ct * sp) (cf * ct * sp + sf * st * cp)
                    (cf * st * sp + sf * ct * cp) (cf * ct * cp - sf * st * sp))
  | ZYX => Some (Q4 (cf * ct * sp - sf * st * cp) (cf * st * cp + sf * ct * sp)
                    (sf * ct * cp - cf * st * sp) (cf * ct * cp + sf * st * sp))
  | SeqUndefined => None
  end.
(** 586-644: from Euler angles. *)
Definition q_of_euler (e : euler) : result quat :=
  if negb (e_isDefined e) then Err EUndefined
  else
    let! phi := in_unit (e_phi e) Radian in
    let! theta := in_unit (e_theta e) Radian in
    let! psi := in_unit (e_psi e) Radian in
    match q_of_angles (e_seq e) phi theta psi with
    | Some q => normalize (Some q)
    | None => Err EToBeImplemented
    end.
(** RotationMatrix.cpp 533-563: from Euler angles. *)
Definition product3 (a b c : result m3) : result m3 :=
  let! a := a in let! b := b in let! c := c in
  let! ab := rm_mul (Some a) (Some b) in rm_mul (Some ab) (Some c).
Definition rm_of_euler (e : euler) : result m3 :=
  if negb (e_isDefined e) then Err EUndefined
  else
    match e_seq e with
    | XYZ => product3 (RX (e_phi e)) (RY (e_theta e)) (RZ (e_psi e))
    | ZXY => product3 (RX (e_psi e)) (RY (e_phi e)) (RZ (e_theta e))
    | ZYX => product3 (RX (e_psi e)) (RY (e_theta e)) (RZ (e_phi e))
    | SeqUndefined => Err EToBeImplemented
    end.
(** RotationVector.cpp 225-228: from Euler angles. *)
Definition rv_of_euler (e : euler) : result rotvec :=
  let! q := q_of_euler e in rv_of_quaternion (Some q).

(** EulerAngle.cpp 244-252, 305-313: the final adjustment, and the (constant) sequence. *)
Definition e_adjust (phi theta psi : R) : euler :=
  if Rltb phi 0 then mkE (Radians (phi + PI)) (Radians (PI - theta)) (Radians (psi + PI)) ZYX
  else mkE (Radians phi) (Radians theta) (Radians psi) ZYX.
(** EulerAngle.cpp 262-314: from a matrix. *)
Definition e_of_matrix (m : option m3) (seq : axis_sequence) : result euler :=
  let! m := needd m in
  match seq with
  | XYZ => let! t := asin_ (m20 m) in Ok (e_adjust (atan2 (- m21 m) (m22 m)) t (atan2 (- m10 m) (m00 m)))
  | ZXY => let! t := asin_ (m12 m) in Ok (e_adjust (atan2 (- m10 m) (m11 m)) t (atan2 (- m02 m) (m22 m)))
  | ZYX => let! t := asin_ (- m02 m) in Ok (e_adjust (atan2 (m01 m) (m00 m)) t (atan2 (m12 m) (m22 m)))
  | SeqUndefined => Err EToBeImplemented
  end.
(** EulerAngle.cpp 206-253: from a quaternion. *)
Definition e_of_quaternion (q : option quat) (seq : axis_sequence) : result euler :=
  let! q' := needd q in
  let! u := isUnitary q (Some eps) in
  if negb u then Err ERuntime
  else
    let x := qx q' in let y := qy q' in let z := qz q' in let s := qs q' in
    match seq with
    | ZYX =>
      let! t := asin_ (- 2 * (x * z - y * s)) in
      Ok (e_adjust (atan2 (2 * (x * y + s * z)) (s * s - z * z - y * y + x * x)) t
                   (atan2 (2 * (y * z + x * s)) (s * s + z * z - y * y - x * x)))
    | _ => let! m := rm_of_quaternion q in e_of_matrix (Some m) seq
    end.
(** EulerAngle.cpp 255-260: from a rotation vector. *)
Definition e_of_rotvec (r : rotvec) (seq : axis_sequence) : result euler :=
  let! q := q_of_rotvec r in e_of_quaternion (Some q) seq.
(** EulerAngle.cpp 110-113: isNear. *)
Definition e_isNear (fuel : nat) (d e : euler) (tol : angle) : result bool :=
  let! p := q_of_euler d in let! q := q_of_euler e in q_isNear fuel (Some p) (Some q) tol.

(** Quaternion.cpp 665-685: ShortestRotation. *)
Definition ShortestRotation (u v : option v3) : result quat :=
  let! u := needd u in
  let! v := needd v in
  let a := normalized3 u in
  let b := normalized3 v in
  normalize (Some (of_parts (cross3 b a) (1 + dot3 a b))).

(** 687-700: LERP; 702-707: NLERP; 709-729: SLERP. *)
Definition ratio_ok (r : option R) : result R :=
  let! r := need r in if Rltb r 0 || Rltb 1 r then Err ERuntime else Ok r.
Definition LERP (p q : option quat) (r : option R) : result quat :=
  let! r := ratio_ok r in
  let! a := q_scale p (1 - r) in
  let! b := q_scale q r in
  q_add (Some a) (Some b).
Definition NLERP (p q : option quat) (r : option R) : result quat :=
  let! l := LERP p q r in normalize (Some l).
Definition SLERP (p q : option quat) (r : option R) : result quat :=
  let! r := ratio_ok r in
  let! d := dotProduct p q in
  let! i := inverse p in
  let! j := if Rleb 0 d then Ok i else q_scale (Some i) (-1) in
  let! m := crossMultiply (Some j) q in
  let! w := q_pow (Some m) r in
  let! n := crossMultiply p (Some w) in
  normalize (Some n).
End Eps.
