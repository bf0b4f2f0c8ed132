(** Rotation vectors read from matrices, and rectified, in double precision.

    As in [Att64Model]: std::acos is a parameter. *)

From Coq Require Import Bool ZArith Floats.SpecFloat.
From Verif Require Import Result AngleModel FloatModel Geo64Model Rot64Model RotModel Att64Model Eul64Model.

(** *** RotationVector.cpp *)
(** Eigen's trace of a 3 by 3 matrix. *)
Definition ftrace (r : order) (m : f33) : spec_float := sum64 r (fx (c64_0 m)) (fy (c64_1 m)) (fz (c64_2 m)).
(** 201-223: from a matrix. Angle.cpp: inRadians of an undefined angle throws. [eps] is Real::Epsilon(). *)
Definition rv64_of_matrix (facos : spec_float -> spec_float) (r : order) (eps : spec_float) (m : option f33) : result rv64 :=
  let! m := need3 m in
  match radians64 (facos (b64_div (sf_sub (ftrace r m) one_64) two_64)) with
  | None => Err EUndefined
  | Some t =>
    if SFltb (SFabs t) eps then RotationVector64 r eps (Some (axis64 1 0 0)) (Some t)
    else
      let m10 := fy (c64_0 m) in let m20 := fz (c64_0 m) in
      let m01 := fx (c64_1 m) in let m21 := fz (c64_1 m) in
      let m02 := fx (c64_2 m) in let m12 := fy (c64_2 m) in
      RotationVector64 r eps (Some (fnormalized3 r (F3 (sf_sub m12 m21) (sf_sub m20 m02) (sf_sub m01 m10)))) (Some t)
  end.
(** 104-124: rectify. The angle is in radians, as that of every rotation vector of this model. *)
Definition rv64_rectify (v : rv64) : result rv64 :=
  let! (a, t) := rv64_get v in
  let b := if SFltb t zero64 then fopp3 a else a in
  let u := if SFltb t zero64 then SFopp t else t in
  if SFltb pi64 u then Ok (mkRV64 (Some (fopp3 b)) (radians64 (sf_sub two_pi64 u))) else Ok (mkRV64 (Some b) (Some u)).
