(** Boxes as sets of points, independently of the way the library computes. *)

From Coq Require Import List Bool Reals.
From Verif Require Import Result Vec Geo3Types Geo3Spec GteSpec.
Local Open Scope R_scope.

(** A defined cuboid with orthonormal axes [u] and positive extents [k] (measured from the center). *)
Definition good_cuboid (b : cuboid) (c : v3) (u : v3 * v3 * v3) (k : R * R * R) : Prop :=
  let '(u0, u1, u2) := u in
  let '(k0, k1, k2) := k in
  b = mkCuboid (Some c) (Some u0, Some u1, Some u2) (Some k0, Some k1, Some k2) /\ orthonormal u /\ positive k.
(** Its surface: the points of the solid on one of the six faces. *)
Definition on_box (c : v3) (u : v3 * v3 * v3) (k : R * R * R) (p : v3) : Prop :=
  solid_box c u k p
  /\ (let '(u0, u1, u2) := u in
      let '(k0, k1, k2) := k in
      Rabs (dot3 u0 (sub3 p c)) = k0 \/ Rabs (dot3 u1 (sub3 p c)) = k1 \/ Rabs (dot3 u2 (sub3 p c)) = k2).
(** The corners: on three faces. *)
Definition corner (c : v3) (u : v3 * v3 * v3) (k : R * R * R) (p : v3) : Prop :=
  let '(u0, u1, u2) := u in
  let '(k0, k1, k2) := k in
  Rabs (dot3 u0 (sub3 p c)) = k0 /\ Rabs (dot3 u1 (sub3 p c)) = k1 /\ Rabs (dot3 u2 (sub3 p c)) = k2.
Definition half (k : R * R * R) : R * R * R := let '(a, b, c) := k in (a / 2, b / 2, c / 2).
