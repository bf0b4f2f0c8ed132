(** What is asked of std::atan2 and std::asin. *)

From Coq Require Import ZArith Reals Floats.SpecFloat.
From Verif Require Import Vec FloatSpec RotModel RotSpec Dif64Spec.
Local Open Scope R_scope.

(** For two numbers between -2 and 2, not both 0: the result is finite and not above 4, and its
    cosine and sine are within [e] of those of the direction given (which end of the cut is
    returned does not matter). *)
Definition atan2_within (f : spec_float -> spec_float -> spec_float) (e : R) : Prop :=
  forall y x, finite64 y -> finite64 x -> Rabs (rval y) <= 2 -> Rabs (rval x) <= 2 -> 0 < rval x * rval x + rval y * rval y ->
    finite64 (f y x) /\ Rabs (rval (f y x)) <= 4 /\
    Rabs (cos (rval (f y x)) - rval x / sqrt (rval x * rval x + rval y * rval y)) <= e /\
    Rabs (sin (rval (f y x)) - rval y / sqrt (rval x * rval x + rval y * rval y)) <= e.
(** For numbers from -1 to 1 the result is finite and within [e] of the arc sine. *)
Definition asin_within (f : spec_float -> spec_float) (e : R) : Prop :=
  forall x, finite64 x -> -1 <= rval x <= 1 -> finite64 (f x) /\ Rabs (rval (f x) - asin (rval x)) <= e.
(** Outside of them it is not a number. *)
Definition asin_outside (f : spec_float -> spec_float) : Prop :=
  forall x, finite64 x -> 1 < Rabs (rval x) -> f x = S754_nan.
(** The cosine of the middle angle: zero in gimbal lock. *)
Definition middle_cosine (s : axis_sequence) (f : v3 -> v3) : R := sqrt (1 - middle_sine s f * middle_sine s f).
