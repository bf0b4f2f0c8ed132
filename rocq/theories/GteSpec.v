(** What the theorems assume about the queries of the Geometric Tools library: a test query decides
    whether a common point exists, a find query returns the end points of the common part, which is
    a point or a segment because the solids are convex. *)

From Coq Require Import List Bool Reals.
From Verif Require Import Vec Geo3Spec GteModel.
Import ListNotations.
Local Open Scope R_scope.

(** The solids. *)
Definition ball (c : v3) (r : R) (p : v3) : Prop := dist3 p c <= r.
(** The ellipsoid of center [c], axes [u] and semi-axes [k]: the squares of the coordinates along
    the axes, divided by the squared semi-axes, add up to [ellipsoid_form]. *)
Definition ellipsoid_form (u : v3 * v3 * v3) (k : R * R * R) (v : v3) : R :=
  let '(u1, u2, u3) := u in
  let '(a, b, c) := k in
  (dot3 u1 v / a) ^ 2 + (dot3 u2 v / b) ^ 2 + (dot3 u3 v / c) ^ 2.
Definition solid_ellipsoid (c : v3) (u : v3 * v3 * v3) (k : R * R * R) (p : v3) : Prop :=
  ellipsoid_form u k (sub3 p c) <= 1.
(** The box of center [c], axes [u] and half extents [k]. *)
Definition solid_box (c : v3) (u : v3 * v3 * v3) (k : R * R * R) (p : v3) : Prop :=
  let '(u1, u2, u3) := u in
  let '(a, b, d) := k in
  Rabs (dot3 u1 (sub3 p c)) <= a /\ Rabs (dot3 u2 (sub3 p c)) <= b /\ Rabs (dot3 u3 (sub3 p c)) <= d.

(** A test query, a find query. *)
Definition decides (b : bool) (S : v3 -> Prop) : Prop := b = true <-> exists p, S p.
Definition chord (f : option (list v3)) (S : v3 -> Prop) : Prop :=
  match f with
  | None => forall x, ~ S x
  | Some [p] => forall x, S x <-> x = p
  | Some [p; q] => p <> q /\ forall x, S x <-> on_segment p q x
  | _ => False
  end.
Definition both (S T : v3 -> Prop) (p : v3) : Prop := S p /\ T p.

(** Orthonormal axes. *)
Definition orthonormal (u : v3 * v3 * v3) : Prop :=
  let '(u1, u2, u3) := u in
  sqnorm3 u1 = 1 /\ sqnorm3 u2 = 1 /\ sqnorm3 u3 = 1 /\ dot3 u1 u2 = 0 /\ dot3 u2 u3 = 0 /\ dot3 u3 u1 = 0.
Definition positive (k : R * R * R) : Prop := let '(a, b, c) := k in 0 < a /\ 0 < b /\ 0 < c.

(** Queries with a sphere.  The test query with a segment is left free when the whole segment is
    in the ball: some releases of GTE test the surface there.  Segments with equal end points, for which GTE
    normalizes a null vector, are left free too. *)
Record sphere_queries (g : gte) : Prop := {
  sq_ti_line : forall o d c r, sqnorm3 d = 1 -> 0 <= r -> decides (ti_line_sphere g o d c r) (both (on_line o d) (ball c r));
  sq_ti_ray : forall o d c r, sqnorm3 d = 1 -> 0 <= r -> decides (ti_ray_sphere g o d c r) (both (on_ray o d) (ball c r));
  sq_ti_segment : forall a b c r, a <> b -> 0 <= r -> (exists x, on_segment a b x /\ ~ ball c r x) ->
    decides (ti_segment_sphere g a b c r) (both (on_segment a b) (ball c r));
  sq_ti_plane : forall n q c r, sqnorm3 n = 1 -> 0 <= r -> decides (ti_plane_sphere g n q c r) (both (on_plane q n) (ball c r));
  sq_fi_line : forall o d c r, sqnorm3 d = 1 -> 0 <= r -> chord (fi_line_sphere g o d c r) (both (on_line o d) (ball c r));
  sq_fi_ray : forall o d c r, sqnorm3 d = 1 -> 0 <= r -> chord (fi_ray_sphere g o d c r) (both (on_ray o d) (ball c r));
  sq_fi_segment : forall a b c r, a <> b -> 0 <= r -> chord (fi_segment_sphere g a b c r) (both (on_segment a b) (ball c r))
}.

(** Queries with an ellipsoid. *)
Record ellipsoid_queries (g : gte) : Prop := {
  eq_ti_line : forall o d c u k, sqnorm3 d = 1 -> orthonormal u -> positive k ->
    decides (ti_line_ellipsoid g o d c u k) (both (on_line o d) (solid_ellipsoid c u k));
  eq_ti_ray : forall o d c u k, sqnorm3 d = 1 -> orthonormal u -> positive k ->
    decides (ti_ray_ellipsoid g o d c u k) (both (on_ray o d) (solid_ellipsoid c u k));
  eq_ti_plane : forall n q c u k, sqnorm3 n = 1 -> orthonormal u -> positive k ->
    decides (ti_plane_ellipsoid g n q c u k) (both (on_plane q n) (solid_ellipsoid c u k));
  eq_fi_line : forall o d c u k, sqnorm3 d = 1 -> orthonormal u -> positive k ->
    chord (fi_line_ellipsoid g o d c u k) (both (on_line o d) (solid_ellipsoid c u k));
  eq_fi_ray : forall o d c u k, sqnorm3 d = 1 -> orthonormal u -> positive k ->
    chord (fi_ray_ellipsoid g o d c u k) (both (on_ray o d) (solid_ellipsoid c u k));
  eq_fi_segment : forall a b c u k, a <> b -> orthonormal u -> positive k ->
    chord (fi_segment_ellipsoid g a b c u k) (both (on_segment a b) (solid_ellipsoid c u k))
}.

(** Queries with boxes. *)
Record box_queries (g : gte) : Prop := {
  bq_ti_line : forall o d c u k, sqnorm3 d = 1 -> orthonormal u -> positive k ->
    decides (ti_line_box g o d c u k) (both (on_line o d) (solid_box c u k));
  bq_ti_box : forall c u k c' u' k', orthonormal u -> orthonormal u' -> positive k -> positive k' ->
    decides (ti_box_box g c u k c' u' k') (both (solid_box c u k) (solid_box c' u' k'))
}.
