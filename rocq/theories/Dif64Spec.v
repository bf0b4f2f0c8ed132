(** What is asked of std::acos. *)

From Coq Require Import ZArith Reals Floats.SpecFloat.
From Verif Require Import FloatSpec FloatModel Rot64Model.
Local Open Scope R_scope.

(** For numbers from -1 to 1 the result is finite, not negative, and within [e] of the arc cosine. *)
Definition acos_within (f : spec_float -> spec_float) (e : R) : Prop :=
  forall x, finite64 x -> -1 <= rval x <= 1 -> finite64 (f x) /\ 0 <= rval (f x) /\ Rabs (rval (f x) - acos (rval x)) <= e.
(** Two quaternions whose lengths are computed as exactly 1. *)
Definition dif_p : f4 := F4 zero64 zero64 (S754_finite false 5775767355545940 (-53)) (S754_finite false 6911595320128092 (-53)).
Definition dif_q : f4 := F4 zero64 (S754_finite false 8124204023152284 (-79)) (S754_finite false 5775767355545940 (-53)) (S754_finite false 6911595320128092 (-53)).
