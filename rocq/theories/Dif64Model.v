(** Angular differences and nearness of quaternions in double precision.

    As in [Rot64Model] and [Att64Model]: std::acos is the parameter [facos]. *)

From Coq Require Import List Bool ZArith Floats.SpecFloat.
From Verif Require Import Result AngleModel FloatModel Geo64Model Rot64Model.
Import ListNotations.

(** *** Quaternion.cpp *)
(** 481-491: angularDifferenceWith; the second quaternion is not looked at when the first is not
    unitary.  Angle.cpp 459-462 (Radians): a NaN makes the angle undefined. *)
Definition q64_angularDifferenceWith (facos : spec_float -> spec_float) (r : order) (eps : spec_float) (p q : option f4) : result angle64 :=
  let! u := q64_isUnitary p (Some eps) in
  if negb u then Err ERuntime
  else
    let! v := q64_isUnitary q (Some eps) in
    if negb v then Err ERuntime
    else
      let! d := q64_div r eps p q in
      let! d := q64_normalize eps (Some d) in
      let a := b64_mul two_64 (facos (SFabs (q64s d))) in
      Ok (mkA64 (match a with S754_nan => None | _ => Some a end) Radian).
(** 184-193: isNear. *)
Definition q64_isNear (facos : spec_float -> spec_float) (fuel : nat) (r : order) (eps : spec_float) (p q : option f4) (tol : angle64) : result bool :=
  if negb (isDefined64 tol) then Err EUndefined
  else
    let! a := q64_angularDifferenceWith facos r eps p q in
    let! x := in_range64 fuel Radian a (Some zero64) (Some two_pi64) in
    let! y := in_range64 fuel Radian tol (Some zero64) (Some two_pi64) in
    Ok (SFleb x y).
