(** Comparison of rotation vectors and of Euler angles in double precision. The angles are in
    radians, as in [Att64Model]; [fuel] bounds the loops of the comparison of angles. *)

From Coq Require Import Bool ZArith Floats.SpecFloat.
From Verif Require Import Result AngleModel FloatModel Geo64Model Rot64Model RotModel Att64Model.

Definition rad64 (t : spec_float) : angle64 := mkA64 (Some t) Radian.
(** *** RotationVector.cpp *)
(** 44-58: operator==; Angle.cpp 253-261: isZero. *)
Definition rv64_eq (fuel : nat) (v w : rv64) : result bool :=
  match rv64_get v, rv64_get w with
  | Ok (a, t), Ok (b, u) =>
    if SFeqb t zero64 && SFeqb u zero64 then Ok true
    else
      let! same := if feq3 a b then angle_eq64 fuel (rad64 t) (rad64 u) else Ok false in
      if same then Ok true
      else if feq3 a (fopp3 b) then angle_eq64 fuel (rad64 t) (rad64 (SFopp u)) else Ok false
  | _, _ => Ok false
  end.
(** 60-63: operator!=. *)
Definition rv64_ne (fuel : nat) (v w : rv64) : result bool := let! b := rv64_eq fuel v w in Ok (negb b).
(** *** EulerAngle.cpp *)
(** 47-72: operator==. *)
Definition e64_eq (fuel : nat) (d e : euler64) : result bool :=
  match e64_get d, e64_get e with
  | Ok (x, y, z), Ok (x', y', z') =>
    if negb (seq_eqb (e64_seq d) (e64_seq e)) then Ok false
    else
      let! same := and3 (angle_eq64 fuel (rad64 x) (rad64 x')) (angle_eq64 fuel (rad64 y) (rad64 y')) (angle_eq64 fuel (rad64 z) (rad64 z')) in
      if same then Ok true
      else
        and3 (let! p := angle_add64 (rad64 x) (rad64 pi64) in angle_eq64 fuel p (rad64 x'))
             (let! t := angle_sub64 (rad64 pi64) (rad64 y) in angle_eq64 fuel t (rad64 y'))
             (let! p := angle_add64 (rad64 z) (rad64 pi64) in angle_eq64 fuel p (rad64 z'))
  | _, _ => Ok false
  end.
(** 74-77: operator!=. *)
Definition e64_ne (fuel : nat) (d e : euler64) : result bool := let! b := e64_eq fuel d e in Ok (negb b).
(** 105-108: isUnitary; isZero of an undefined angle throws. *)
Definition zero_angle64 (t : option spec_float) : result bool := let! t := need64 t in Ok (SFeqb t zero64).
Definition e64_isUnitary (e : euler64) : result bool := and3 (zero_angle64 (e64_phi e)) (zero_angle64 (e64_theta e)) (zero_angle64 (e64_psi e)).
