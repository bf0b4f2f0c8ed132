(** Model of the accessors, named constructors and negated comparisons which the other model files leave out.
    An accessor raises Undefined on an undefined object and returns the member otherwise; members of a defined object
    are defined, so the accessors return them without their option. *)

From Coq Require Import List Bool Reals.
From Verif Require IntervalModel.
From Verif Require Import Result DOrder Vec AngleModel RotModel TransfModel Geo3Types Geo3Model GteModel
  SphereModel EllModel CuboidModel InterModel ConeModel Geo2Model Poly2Model PyrModel SolverModel LogEuclidModel.
Import ListNotations.
Local Open Scope R_scope.

(** "return !((*this) == anOther);" where == may throw. *)
Definition differ (r : result bool) : result bool := let! b := r in Ok (negb b).

(** *** Angle.cpp *)
(** 15-19: constructor; 464-482: Degrees, Arcminutes, Arcseconds, Revolutions. *)
Definition Angle (x : option R) (u : unit) : angle := mkA x u.
Definition Degrees (x : option R) : angle := Angle x Degree.
Definition Arcminutes (x : option R) : angle := Angle x Arcminute.
Definition Arcseconds (x : option R) : angle := Angle x Arcsecond.
Definition Revolutions (x : option R) : angle := Angle x Revolution.
(** 78-81: operator!=; 216-224: unary plus; 294-302: getUnit. *)
Definition angle_ne (fuel : nat) (a b : angle) : result bool := differ (angle_eq fuel a b).
Definition angle_pos (a : angle) : result angle :=
  if angle_isDefined a then Ok (mkA (aval a) (aunit a)) else Err EUndefined.
Definition angle_getUnit (a : angle) : result unit := if angle_isDefined a then Ok (aunit a) else Err EUndefined.
(** 319-322, 344-347, 369-372, 394-397, 419-422: inRadians, inDegrees, inArcminutes, inArcseconds, inRevolutions
    without a range. *)
Definition as_radians (a : angle) : result R := in_unit a Radian.
Definition as_degrees (a : angle) : result R := in_unit a Degree.
Definition as_arcminutes (a : angle) : result R := in_unit a Arcminute.
Definition as_arcseconds (a : angle) : result R := in_unit a Arcsecond.
Definition as_revolutions (a : angle) : result R := in_unit a Revolution.

(** *** Interval.tpp 51-54: operator!=; 188-218: getType, getLowerBound, getUpperBound. *)
Definition interval_ne {D : DOrder} (a b : IntervalModel.interval D) : bool := negb (IntervalModel.interval_eq (D := D) a b).
Definition getType {D : DOrder} (i : IntervalModel.interval D) : result IntervalModel.itype :=
  let! (t, _, _) := IntervalModel.open_interval (D := D) i in Ok t.
Definition getLowerBound {D : DOrder} (i : IntervalModel.interval D) : result (car D) :=
  let! (_, l, _) := IntervalModel.open_interval (D := D) i in Ok l.
Definition getUpperBound {D : DOrder} (i : IntervalModel.interval D) : result (car D) :=
  let! (_, _, u) := IntervalModel.open_interval (D := D) i in Ok u.

(** *** Sphere.cpp *)
(** 51-56: constructor; 600-603: Undefined. *)
Definition Sphere (c : point) (r : option R) : sphere := mkSphere c r.
Definition sp_Undefined : sphere := Sphere None None.
(** 73-81: operator!=, which is not written with ==. *)
Definition sp_ne (s t : sphere) : bool :=
  match sp_data s, sp_data t with
  | Ok (c, r), Ok (c', r') => negb (v3_eqb c c') || negb (Reqb r r')
  | _, _ => true
  end.
(** 297-315: getCenter, getRadius. *)
Definition sp_getCenter (s : sphere) : result v3 := let! (c, _) := sp_data s in Ok c.
Definition sp_getRadius (s : sphere) : result R := let! (_, r) := sp_data s in Ok r.
(** 253-261, 558-566: intersects and intersectionWith a pyramid or a cone ([n] is the default level of detail). *)
Definition sp_intersects_pyramid (g : gte) (eps : R) (s : sphere) (p : pyramid) (n : nat) : result bool := py_intersects_sphere g eps p s n.
Definition sp_intersects_cone (s : sphere) (c : cone) : result bool := co_intersects_sphere c s.
Definition sp_inter_pyramid g eps order (s : sphere) (p : pyramid) (b : bool) (n : nat) : result inter := py_inter_sphere g eps order p s b n.
Definition sp_inter_cone g eps order (s : sphere) (c : cone) (b : bool) (n : nat) : result inter := co_inter_sphere g eps order c s b n.

(** *** Ellipsoid.cpp *)
(** 968-971: Undefined; 121-124: operator!=. *)
Definition e_Undefined : result ellipsoid := Ellipsoid None None None None None.
Definition e_ne (eps : R) (e f : ellipsoid) : result bool := differ (EllModel.e_eq eps e f).
(** 509-547: getCenter and the principal semi-axes; 579-587: getOrientation. *)
Definition e_getCenter (e : ellipsoid) : result v3 := let! (p, _, _) := e_data e in Ok p.
Definition e_getFirstPrincipalSemiAxis (e : ellipsoid) : result R := let! (_, (a, _, _), _) := e_data e in Ok a.
Definition e_getSecondPrincipalSemiAxis (e : ellipsoid) : result R := let! (_, (_, b, _), _) := e_data e in Ok b.
Definition e_getThirdPrincipalSemiAxis (e : ellipsoid) : result R := let! (_, (_, _, c), _) := e_data e in Ok c.
Definition e_getOrientation (e : ellipsoid) : result quat := let! (_, _, q) := e_data e in Ok q.
(** 448-456, 890-898: intersects and intersectionWith a pyramid or a cone. *)
Definition e_intersects_pyramid (g : gte) (eps : R) (e : ellipsoid) (p : pyramid) (n : nat) : result bool := py_intersects_ellipsoid g eps p e n.
Definition e_intersects_cone (g : gte) (eps : R) (e : ellipsoid) (c : cone) (n : nat) : result bool := co_intersects_ellipsoid g eps c e n.
Definition e_inter_pyramid g eps order (e : ellipsoid) (p : pyramid) (b : bool) (n : nat) : result inter := py_inter_ellipsoid g eps order p e b n.
Definition e_inter_cone g eps order (e : ellipsoid) (c : cone) (b : bool) (n : nat) : result inter := co_inter_ellipsoid g eps order c e b n.

(** *** Cuboid.cpp 496-503: Undefined; 146-149: operator!=; 341-409: getCenter, the axes and the extents. *)
Definition cu_Undefined : cuboid := Cuboid None (None, None, None) (None, None, None).
Definition cu_ne (c d : cuboid) : bool := negb (cu_eq c d).
Definition cu_getCenter (c : cuboid) : result v3 := let! (p, _, _) := cu_data c in Ok p.
Definition cu_getFirstAxis (c : cuboid) : result v3 := let! (_, (u, _, _), _) := cu_data c in Ok u.
Definition cu_getSecondAxis (c : cuboid) : result v3 := let! (_, (_, u, _), _) := cu_data c in Ok u.
Definition cu_getThirdAxis (c : cuboid) : result v3 := let! (_, (_, _, u), _) := cu_data c in Ok u.
Definition cu_getFirstExtent (c : cuboid) : result R := let! (_, _, (x, _, _)) := cu_data c in Ok x.
Definition cu_getSecondExtent (c : cuboid) : result R := let! (_, _, (_, x, _)) := cu_data c in Ok x.
Definition cu_getThirdExtent (c : cuboid) : result R := let! (_, _, (_, _, x)) := cu_data c in Ok x.

(** *** Cone.cpp 29-35: constructor; 499-502: Undefined; 53-56: operator!=; 218-246: getApex, getAxis, getAngle. *)
Definition Cone (a : point) (u : option v3) (t : angle) : cone := mkCone a u t.
Definition co_Undefined : cone := Cone None None angle_Undefined.
Definition co_ne (fuel : nat) (c d : cone) : result bool := differ (co_eq fuel c d).
Definition co_getApex (c : cone) : result v3 := let! (a, _, _) := co_data c in Ok a.
Definition co_getAxis (c : cone) : result v3 := let! (_, u, _) := co_data c in Ok u.
Definition co_getAngle (c : cone) : result angle := let! (_, _, t) := co_data c in Ok t.

(** *** The remaining negated comparisons: Polygon.cpp (3D) 54-57, Pyramid.cpp 53-56, NumericalSolver.cpp 114-117. *)
Definition pg_ne (B : boost) (p q : polygon) : bool := negb (pg_eq B p q).
Definition py_ne (B : boost) (p q : pyramid) : bool := negb (py_eq B p q).
Definition so_ne {X} (s t : solver X) : bool := negb (so_eq s t).

(** *** Empty and undefined objects: LineString.cpp (2D) 264-267, Segment.cpp (2D) 291-294, Segment.cpp (3D) 342-345. *)
Definition ls2_Empty : linestring2 := [].
Definition s2_Undefined : segment2 := mkSeg2 None None.
Definition s_Undefined : segment := mkSeg None None.

(** *** LogEuclideanRiemannian.cpp 97-100: getMatrices. *)
Definition le_getMatrices (l : lei) : list LogEuclidModel.matrix := lmats l.
