(** Ellipsoids as sets of points, independently of the way the library computes. *)

From Coq Require Import List Bool Reals.
From Verif Require Import Result Vec Mat3 RotModel RotSpec Geo3Types Geo3Spec GteSpec EllModel.
Local Open Scope R_scope.

(** A defined ellipsoid with center [c], positive semi-axes [k], and the axes [u] its orientation
    turns onto the coordinate axes. *)
Definition good_ellipsoid (eps : R) (e : ellipsoid) (c : v3) (u : v3 * v3 * v3) (k : R * R * R) : Prop :=
  let '(u1, u2, u3) := u in
  let '(k1, k2, k3) := k in
  exists q, e = mkEll (Some c) (Some k1) (Some k2) (Some k3) (Some q) /\ unit_q q /\ positive k
    /\ q_rotate eps (Some q) (Some u1) = Ok (V3 1 0 0)
    /\ q_rotate eps (Some q) (Some u2) = Ok (V3 0 1 0)
    /\ q_rotate eps (Some q) (Some u3) = Ok (V3 0 0 1).
Definition on_ellipsoid (c : v3) (u : v3 * v3 * v3) (k : R * R * R) (p : v3) : Prop :=
  ellipsoid_form u k (sub3 p c) = 1.
(** Within the tolerance of the surface. *)
Definition near_ellipsoid (eps : R) (c : v3) (u : v3 * v3 * v3) (k : R * R * R) (p : v3) : Prop :=
  Rabs (ellipsoid_form u k (sub3 p c) - 1) < eps.

(** Shapes whose orientation can be inverted without changing the surface: spheres, half turns (or no turn),
    and spheroids turned about their axis of symmetry. *)
Definition reversible (eps : R) (e : ellipsoid) : Prop :=
  (exists r, e_a e = Some r /\ e_b e = Some r /\ e_c e = Some r)
  \/ (forall q v w, e_q e = Some q -> q_rotate eps (Some q) (Some v) = Ok w -> q_rotate eps (Some q) (Some w) = Ok v)
  \/ (e_a e = e_b e /\ forall q, e_q e = Some q -> q_rotate eps (Some q) (Some (V3 0 0 1)) = Ok (V3 0 0 1)).

(** As [hits] (SphereSpec.v), but the end points [near] rejects are missing. *)
Definition hits_except (S surface near E : v3 -> Prop) (T : v3 -> Prop) : Prop :=
  (forall x, S x -> surface x -> (E x -> near x) -> T x) /\ (forall x, T x -> S x /\ (surface x \/ (E x /\ near x))).
(** Two points closer than [eps] may be returned as one. *)
Definition merged (eps : R) (T T' : v3 -> Prop) : Prop :=
  (forall x, T' x -> T x) /\ (forall x, T x -> exists y, T' y /\ (y = x \/ dist3 y x < eps)).

(** What Eigen's SelfAdjointEigenSolver is assumed to do. *)
Definition eigen_solver (eig : m3 -> option eigensystem) : Prop :=
  forall m, transpose3 m = m ->
  match eig m with
  | None => True
  | Some ((l0, l1, l2), (v0, v1, v2)) =>
    orthonormal (v0, v1, v2)
    /\ mulv3 m v0 = scale3 l0 v0 /\ mulv3 m v1 = scale3 l1 v1 /\ mulv3 m v2 = scale3 l2 v2
  end.
