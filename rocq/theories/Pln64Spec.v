(** Vectors of the plane in double precision: bounds. *)

From Coq Require Import Reals Floats.SpecFloat.
From Verif Require Import Result Vec FloatSpec Geo64Model Geo64Spec.
Local Open Scope R_scope.

(** Both coordinates are at most [B]. *)
Definition within2 (B : R) (a : f2) : Prop := Rabs (rval (fx2 a)) <= B /\ Rabs (rval (fy2 a)) <= B.
