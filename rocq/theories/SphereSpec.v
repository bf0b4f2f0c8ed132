(** Spheres as sets of points, and what intersections of a line, a ray or a segment with a closed
    surface should be. *)

From Coq Require Import List Bool Reals.
From Verif Require Import Vec Geo3Types Geo3Spec.
Local Open Scope R_scope.

Definition on_sphere (c : v3) (r : R) (p : v3) : Prop := dist3 p c = r.
Definition good_sphere (s : sphere) (c : v3) (r : R) : Prop := s = mkSphere (Some c) (Some r) /\ 0 <= r.
(** Within the tolerance of the surface. *)
Definition near_sphere (eps : R) (c : v3) (r : R) (p : v3) : Prop := Rabs (dist3 p c * dist3 p c - r * r) < eps.

(** The points [T] are those of the object [S] on the surface; the end points [E] of the object may be
    returned as well when [near] accepts them. *)
Definition hits (S surface near E : v3 -> Prop) (T : v3 -> Prop) : Prop :=
  (forall x, S x -> surface x -> T x) /\ (forall x, T x -> S x /\ (surface x \/ (E x /\ near x))).
(** [p] is the point of [T] closest to [o]. *)
Definition closest_of (T : v3 -> Prop) (o p : v3) : Prop := T p /\ forall x, T x -> dist3 o p <= dist3 o x.
