(** What the functions of the C library should return. *)

From Coq Require Import ZArith Reals Floats.SpecFloat.
From Verif Require Import Vec FloatSpec RotModel RotSpec Rot64Model Rot64Spec Att64Spec Pow64Model.
Local Open Scope R_scope.

(** Every value within [e] of the true one, on the ranges that unit quaternions need. *)
Definition libm_within (L : libm) (e : R) : Prop :=
  (forall x, finite64 x -> Rabs (rval x) <= 4 -> returns (m_sin L x) (sin (rval x)) e /\ returns (m_cos L x) (cos (rval x)) e) /\
  (forall y x, finite64 y -> finite64 x -> 0 < rval y <= 3 -> Rabs (rval x) <= 3 -> returns (m_atan2 L y x) (atan2 (rval y) (rval x)) e) /\
  (forall x, finite64 x -> Rabs (rval x) <= 1 -> returns (m_exp L x) (exp (rval x)) e) /\
  (forall x, finite64 x -> / 3 <= rval x <= 3 -> returns (m_log L x) (ln (rval x)) e).
(** The unit quaternion in the direction of [q]. *)
Definition versor (q : quat) : quat := times4 (/ len4 q) q.
