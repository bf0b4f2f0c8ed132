(** Coordinates of a point along an axis, and their errors in double precision. *)

From Coq Require Import Reals.
From Verif Require Import Vec Geo3Spec.
Local Open Scope R_scope.

(** The distance from the plane through [o] across [u], times the length of [u]. *)
Definition coordinate (p o u : v3) : R := Rabs (dot3 (sub3 p o) u).
(** A bound for its error. *)
Definition coordinate_error (p o u : v3) : R := powerRZ 2 (-50) * (dist3 p o * norm3 u) + powerRZ 2 (-500).
