(** Nearness of Euler angles, and rotation vectors of Euler angles, in double precision. *)

From Coq Require Import ZArith Floats.SpecFloat.
From Verif Require Import Result AngleModel FloatModel Geo64Model Rot64Model RotModel Att64Model Dif64Model.

(** *** EulerAngle.cpp *)
(** 110-113: isNear. *)
Definition e64_isNear (fcos fsin facos : spec_float -> spec_float) (fuel : nat) (r : order) (eps : spec_float) (d e : euler64) (tol : angle64) : result bool :=
  let! p := q64_of_euler fcos fsin eps d in
  let! q := q64_of_euler fcos fsin eps e in
  q64_isNear facos fuel r eps (Some p) (Some q) tol.
(** *** RotationVector.cpp *)
(** 225-228: from Euler angles. *)
Definition rv64_of_euler (fcos fsin facos : spec_float -> spec_float) (r : order) (eps : spec_float) (e : euler64) : result rv64 :=
  let! q := q64_of_euler fcos fsin eps e in
  rv64_of_quaternion facos r eps (Some q).
