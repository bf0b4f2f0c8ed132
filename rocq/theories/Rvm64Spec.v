(** What is asked of std::acos outside of its range. *)

From Coq Require Import ZArith Reals Floats.SpecFloat.
From Verif Require Import FloatSpec.
Local Open Scope R_scope.

(** Outside of -1 to 1 it is not a number. *)
Definition acos_outside (f : spec_float -> spec_float) : Prop :=
  forall x, finite64 x -> 1 < Rabs (rval x) -> f x = S754_nan.
