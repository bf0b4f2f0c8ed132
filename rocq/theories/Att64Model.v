(** Constructions of rotations in double precision: from axes, angles, Euler angles and pairs of
    vectors (Quaternion.cpp, RotationMatrix.cpp and RotationVector.cpp, as in [Rot64Model]).

    std::cos, std::sin and std::acos are the parameters [fcos], [fsin] and [facos]: nothing is
    assumed about them here.  Angles are binary64 numbers of radians, as inRadians() returns
    them; an undefined angle is [None].  [r] is the order in which Eigen adds three products,
    [eps] is Real::Epsilon(). *)

From Coq Require Import List Bool ZArith Floats.SpecFloat.
From Verif Require Import Result AngleModel FloatModel Geo64Model RotModel Rot64Model.
Import ListNotations.

(** *** RotationVector.cpp *)
(** RotationVector.hpp: axis_, angle_. *)
Record rv64 := mkRV64 { rv64_axis : option f3; rv64_angle : option spec_float }.
Definition axis64 (i j k : Z) : f3 := F3 (b64_of_Z i) (b64_of_Z j) (b64_of_Z k).
(** 24-32: from an axis and an angle. *)
Definition RotationVector64 (r : order) (eps : spec_float) (a : option f3) (t : option spec_float) : result rv64 :=
  match a with
  | None => Ok (mkRV64 None t)
  | Some a =>
    if SFltb eps (SFabs (sf_sub (fnorm3 r a) one_64)) then Err ERuntime
    else Ok (mkRV64 (Some (fnormalized3 r a)) t)
  end.
(** 34-42: from a vector, the angle being its norm (in radians). *)
Definition rv64_of_vector (r : order) (v : option f3) : rv64 :=
  match v with
  | None => mkRV64 None None
  | Some v =>
    let a := fnormalized3 r v in
    mkRV64 (Some (if feq3 a (axis64 0 0 0) then axis64 0 0 1 else a)) (Some (fnorm3 r v))
  end.
(** 79-102: isDefined, getAxis, getAngle. *)
Definition rv64_get (v : rv64) : result (f3 * spec_float) :=
  match rv64_axis v, rv64_angle v with Some a, Some t => Ok (a, t) | _, _ => Err EUndefined end.
(** 143-146: Unit. *)
Definition rv64_Unit (r : order) (eps : spec_float) : result rv64 :=
  RotationVector64 r eps (Some (axis64 0 0 1)) (Some zero64).
(** 178-199: from a quaternion.  The square root of a negative number is [UB], as in [RotModel]. *)
Definition rv64_of_quaternion (facos : spec_float -> spec_float) (r : order) (eps : spec_float) (q : option f4) : result rv64 :=
  let! q' := need3 q in
  let! u := q64_isUnitary q (Some eps) in
  if negb u then Err ERuntime
  else if q64_eq q (Some q64_Unit) || SFeqb (SFabs (q64s q')) one_64 then rv64_Unit r eps
  else
    let d := sf_sub one_64 (b64_mul (q64s q') (q64s q')) in
    if SFltb d zero64 then UB
    else
      RotationVector64 r eps (Some (fnormalized3 r (fdiv3 (vec64 q') (b64_sqrt d))))
        (Some (b64_mul two_64 (facos (q64s q')))).

(** *** Quaternion.cpp *)
(** 510-520: from a rotation vector. *)
Definition q64_of_rotvec (fcos fsin : spec_float -> spec_float) (eps : spec_float) (v : rv64) : result f4 :=
  let! (a, t) := rv64_get v in
  q64_normalize eps (Some (parts64 (fscale3 (fsin (b64_div t two_64)) a) (fcos (b64_div t two_64)))).
(** An Euler angle: phi, theta, psi and the sequence (EulerAngle.hpp). *)
Record euler64 := mkE64 { e64_phi : option spec_float; e64_theta : option spec_float; e64_psi : option spec_float; e64_seq : axis_sequence }.
(** EulerAngle.cpp 99-103: isDefined. *)
Definition e64_get (e : euler64) : result (spec_float * spec_float * spec_float) :=
  match e64_phi e, e64_theta e, e64_psi e, e64_seq e with
  | Some a, Some b, Some c, (XYZ | ZXY | ZYX) => Ok (a, b, c)
  | _, _, _, _ => Err EUndefined
  end.
(** 609-639: the quaternion of the cosines and sines of three half angles. *)
Definition mul64_3 (x y z : spec_float) : spec_float := b64_mul (b64_mul x y) z.
Definition q64_of_halves (seq : axis_sequence) (cf ct cp sf st sp : spec_float) : option f4 :=
  match seq with
  | XYZ => Some (F4 (sf_add (mul64_3 sf ct cp) (mul64_3 cf st sp)) (sf_sub (mul64_3 cf st cp) (mul64_3 sf ct sp))
                    (sf_add (mul64_3 cf ct sp) (mul64_3 sf st cp)) (sf_sub (mul64_3 cf ct cp) (mul64_3 sf st sp)))
  | ZXY => Some (F4 (sf_sub (mul64_3 cf st cp) (mul64_3 sf ct sp)) (sf_add (mul64_3 cf ct sp) (mul64_3 sf st cp))
                    (sf_add (mul64_3 cf st sp) (mul64_3 sf ct cp)) (sf_sub (mul64_3 cf ct cp) (mul64_3 sf st sp)))
  | ZYX => Some (F4 (sf_sub (mul64_3 cf ct sp) (mul64_3 sf st cp)) (sf_add (mul64_3 cf st cp) (mul64_3 sf ct sp))
                    (sf_sub (mul64_3 sf ct cp) (mul64_3 cf st sp)) (sf_add (mul64_3 cf ct cp) (mul64_3 sf st sp)))
  | SeqUndefined => None
  end.
(** 586-644: from Euler angles. *)
Definition q64_of_euler (fcos fsin : spec_float -> spec_float) (eps : spec_float) (e : euler64) : result f4 :=
  let! (a, b, c) := e64_get e in
  let c2 x := fcos (b64_div x two_64) in
  let s2 x := fsin (b64_div x two_64) in
  match q64_of_halves (e64_seq e) (c2 a) (c2 b) (c2 c) (s2 a) (s2 b) (s2 c) with
  | Some q => q64_normalize eps (Some q)
  | None => Err EToBeImplemented
  end.
(** 665-685: ShortestRotation. *)
Definition q64_ShortestRotation (r : order) (eps : spec_float) (u v : option f3) : result f4 :=
  let! u := need3 u in
  let! v := need3 v in
  let a := fnormalized3 r u in
  let b := fnormalized3 r v in
  q64_normalize eps (Some (parts64 (fcross3 b a) (sf_add one_64 (fdot3 r a b)))).
(** 702-707: NLERP. *)
Definition q64_NLERP (eps : spec_float) (p q : option f4) (k : option spec_float) : result f4 :=
  let! w := q64_LERP p q k in q64_normalize eps (Some w).

(** *** RotationMatrix.cpp *)
(** 295-344: RX, RY, RZ. *)
Definition m64_RX (c s : spec_float) : f33 :=
  F33 (F3 one_64 zero64 zero64) (F3 zero64 c (SFopp s)) (F3 zero64 s c).
Definition m64_RY (c s : spec_float) : f33 :=
  F33 (F3 c zero64 s) (F3 zero64 one_64 zero64) (F3 (SFopp s) zero64 c).
Definition m64_RZ (c s : spec_float) : f33 :=
  F33 (F3 c (SFopp s) zero64) (F3 s c zero64) (F3 zero64 zero64 one_64).
Definition elementary64 (f : spec_float -> spec_float -> f33) (fcos fsin : spec_float -> spec_float) (r : order) (eps : spec_float)
  (t : option spec_float) : result f33 :=
  let! t := need3 t in RotationMatrix64 r eps (f (fcos t) (fsin t)).
Definition RX64 := elementary64 m64_RX.
Definition RY64 := elementary64 m64_RY.
Definition RZ64 := elementary64 m64_RZ.
(** 346-399, 401-456: Rows, Columns. *)
Definition Rows64 (r : order) (eps : spec_float) (a b c : option f3) : result f33 :=
  let! a := need3 a in let! b := need3 b in let! c := need3 c in
  if rm64_ok r eps (F33 a b c) then RotationMatrix64 r eps (ftranspose (F33 a b c)) else Err ERuntime.
Definition Columns64 (r : order) (eps : spec_float) (a b c : option f3) : result f33 :=
  let! a := need3 a in let! b := need3 b in let! c := need3 c in
  if rm64_ok r eps (F33 a b c) then RotationMatrix64 r eps (F33 a b c) else Err ERuntime.
(** 513-528: the matrix of an axis and the cosine and sine of an angle. *)
Definition m64_axis_angle (a : f3) (c s : spec_float) : f33 :=
  let x := fx a in let y := fy a in let z := fz a in
  let k u v := b64_mul (b64_mul (sf_sub one_64 c) u) v in
  F33 (F3 (sf_add c (k x x)) (sf_sub (k y x) (b64_mul s z)) (sf_add (k z x) (b64_mul s y)))
      (F3 (sf_add (k x y) (b64_mul s z)) (sf_add c (k y y)) (sf_sub (k z y) (b64_mul s x)))
      (F3 (sf_sub (k x z) (b64_mul s y)) (sf_add (k y z) (b64_mul s x)) (sf_add c (k z z))).
(** 499-531: from a rotation vector. *)
Definition rm64_of_rotvec (fcos fsin : spec_float -> spec_float) (r : order) (eps : spec_float) (v : rv64) : result f33 :=
  let! (a, t) := rv64_get v in
  RotationMatrix64 r eps (m64_axis_angle a (fcos t) (fsin t)).
(** 533-563: from Euler angles. *)
Definition product64 (r : order) (eps : spec_float) (a b c : result f33) : result f33 :=
  let! a := a in let! b := b in let! c := c in
  let! ab := rm64_mul r eps (Some a) (Some b) in rm64_mul r eps (Some ab) (Some c).
Definition rm64_of_euler (fcos fsin : spec_float -> spec_float) (r : order) (eps : spec_float) (e : euler64) : result f33 :=
  let! (a, b, c) := e64_get e in
  let X t := RX64 fcos fsin r eps (Some t) in
  let Y t := RY64 fcos fsin r eps (Some t) in
  let Z t := RZ64 fcos fsin r eps (Some t) in
  match e64_seq e with
  | XYZ => product64 r eps (X a) (Y b) (Z c)
  | ZXY => product64 r eps (X c) (Y a) (Z b)
  | ZYX => product64 r eps (X c) (Y b) (Z a)
  | SeqUndefined => Err EToBeImplemented
  end.
(** 565-643: VectorBasis. *)
Definition basis64 (r : order) (a b : f3) : f33 :=
  let n := fnormalized3 r (fcross3 a b) in ftranspose (F33 a (fcross3 n a) n).
Definition parallel64 (r : order) (eps : spec_float) (a b : f3) : bool :=
  SFltb (SFabs (sf_sub (SFabs (fdot3 r a b)) one_64)) eps.
Definition VectorBasis64 (r : order) (eps : spec_float) (u1 u2 v1 v2 : option f3) : result f33 :=
  let! u1 := need3 u1 in let! u2 := need3 u2 in let! v1 := need3 v1 in let! v2 := need3 v2 in
  if SFltb (fnorm3 r u1) eps then Err ERuntime
  else if SFltb (fnorm3 r u2) eps then Err ERuntime
  else if SFltb (fnorm3 r v1) eps then Err ERuntime
  else if SFltb (fnorm3 r v2) eps then Err ERuntime
  else
    let a1 := fnormalized3 r u1 in let a2 := fnormalized3 r u2 in
    if parallel64 r eps a1 a2 then Err ERuntime
    else
      let b1 := fnormalized3 r v1 in let b2 := fnormalized3 r v2 in
      if parallel64 r eps b1 b2 then Err ERuntime
      else RotationMatrix64 r eps (fmul33 r (ftranspose (basis64 r b1 b2)) (basis64 r a1 a2)).
