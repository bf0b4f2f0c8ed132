(** Euler angles of quaternions, matrices and rotation vectors in double precision.

    As in [Att64Model]: the functions of the C library are parameters. *)

From Coq Require Import List Bool ZArith Floats.SpecFloat.
From Verif Require Import Result AngleModel FloatModel Geo64Model Rot64Model RotModel Att64Model.
Import ListNotations.

(** *** EulerAngle.cpp *)
(** Angle.cpp 459-462: Radians; a NaN makes the angle undefined. *)
Definition radians64 (x : spec_float) : option spec_float := match x with S754_nan => None | _ => Some x end.
(** 244-252, 305-313: the final adjustment, and the (constant) sequence. *)
Definition e64_adjust (phi theta psi : spec_float) : euler64 :=
  if SFltb phi zero64 then mkE64 (radians64 (sf_add phi pi64)) (radians64 (sf_sub pi64 theta)) (radians64 (sf_add psi pi64)) ZYX
  else mkE64 (radians64 phi) (radians64 theta) (radians64 psi) ZYX.
(** 262-314: from a matrix. *)
Definition e64_of_matrix (fatan2 : spec_float -> spec_float -> spec_float) (fasin : spec_float -> spec_float) (m : option f33) (seq : axis_sequence) : result euler64 :=
  let! m := need3 m in
  let m00 := fx (c64_0 m) in let m10 := fy (c64_0 m) in let m20 := fz (c64_0 m) in
  let m01 := fx (c64_1 m) in let m11 := fy (c64_1 m) in let m21 := fz (c64_1 m) in
  let m02 := fx (c64_2 m) in let m12 := fy (c64_2 m) in let m22 := fz (c64_2 m) in
  match seq with
  | XYZ => Ok (e64_adjust (fatan2 (SFopp m21) m22) (fasin m20) (fatan2 (SFopp m10) m00))
  | ZXY => Ok (e64_adjust (fatan2 (SFopp m10) m11) (fasin m12) (fatan2 (SFopp m02) m22))
  | ZYX => Ok (e64_adjust (fatan2 m01 m00) (fasin (SFopp m02)) (fatan2 m12 m22))
  | SeqUndefined => Err EToBeImplemented
  end.
(** 206-253: from a quaternion. *)
Definition e64_of_quaternion (fatan2 : spec_float -> spec_float -> spec_float) (fasin : spec_float -> spec_float) (r : order) (eps : spec_float) (q : option f4) (seq : axis_sequence) : result euler64 :=
  let! q' := need3 q in
  let! u := q64_isUnitary q (Some eps) in
  if negb u then Err ERuntime
  else
    let x := q64x q' in let y := q64y q' in let z := q64z q' in let s := q64s q' in
    match seq with
    | ZYX =>
      Ok (e64_adjust
        (fatan2 (b64_mul two_64 (sf_add (b64_mul x y) (b64_mul s z))) (sf_add (sf_sub (sf_sub (b64_mul s s) (b64_mul z z)) (b64_mul y y)) (b64_mul x x)))
        (fasin (b64_mul (b64_of_Z (-2)) (sf_sub (b64_mul x z) (b64_mul y s))))
        (fatan2 (b64_mul two_64 (sf_add (b64_mul y z) (b64_mul x s))) (sf_sub (sf_sub (sf_add (b64_mul s s) (b64_mul z z)) (b64_mul y y)) (b64_mul x x))))
    | _ => let! m := rm64_of_quaternion r eps q in e64_of_matrix fatan2 fasin (Some m) seq
    end.
(** 255-260: from a rotation vector. *)
Definition e64_of_rotvec (fcos fsin fasin : spec_float -> spec_float) (fatan2 : spec_float -> spec_float -> spec_float) (r : order) (eps : spec_float) (v : rv64) (seq : axis_sequence) : result euler64 :=
  let! q := q64_of_rotvec fcos fsin eps v in e64_of_quaternion fatan2 fasin r eps (Some q) seq.
