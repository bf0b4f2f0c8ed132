(** Data of the 3D objects (/repo/include/OpenSpaceToolkit/Mathematics/Geometry/3D/Object/*.hpp):
    the member variables of each class, with [None] for an undefined point, vector or real. *)

From Coq Require Import List Bool Reals.
From Verif Require Import Result Vec AngleModel RotModel.
Import ListNotations.
Local Open Scope R_scope.

(** Point.hpp: x_, y_, z_.  isDefined needs the three of them, and nothing reads the
    coordinates of an undefined point, so an undefined point is just [None]. *)
Definition point := option v3.
(** PointSet.hpp 49-66: an unordered_set of points; hashing an undefined point throws, so the
    elements are defined.  The list is the iteration order, which the library leaves to the hash
    function: theorems quantify over it. *)
Definition pointset := list v3.
(** Line.hpp, Ray.hpp: origin_, direction_. *)
Record line := mkLine { l_origin : point; l_direction : option v3 }.
Record ray := mkRay { r_origin : point; r_direction : option v3 }.
(** Segment.hpp: firstPoint_, secondPoint_. *)
Record segment := mkSeg { s_first : point; s_second : point }.
(** Plane.hpp: point_, normal_. *)
Record plane := mkPlane { pl_point : point; pl_normal : option v3 }.
(** LineString.hpp: points_. *)
Definition linestring := list point.
(** 2D Polygon: the outer ring and the inner rings. *)
Record poly2 := mkPoly2 { p_outer : list v2; p_inner : list (list v2) }.
(** Polygon.hpp: polygon_, origin_, xAxis_, yAxis_. *)
Record polygon := mkPolygon { pg_polygon : poly2; pg_origin : point; pg_x : option v3; pg_y : option v3 }.
(** Sphere.hpp: center_, radius_. *)
Record sphere := mkSphere { sp_center : point; sp_radius : option R }.
(** Ellipsoid.hpp: center_, a_, b_, c_, q_. *)
Record ellipsoid := mkEll { e_center : point; e_a : option R; e_b : option R; e_c : option R; e_q : option quat }.
(** Cuboid.hpp: center_, axes_, extent_. *)
Record cuboid := mkCuboid {
  cu_center : point;
  cu_axes : option v3 * option v3 * option v3;
  cu_extent : option R * option R * option R
}.
(** Pyramid.hpp: base_, apex_. *)
Record pyramid := mkPyramid { py_base : polygon; py_apex : point }.
(** Cone.hpp: apex_, axis_, angle_. *)
Record cone := mkCone { co_apex : point; co_axis : option v3; co_angle : angle }.

(** The classes derived from Object. *)
Inductive obj :=
| OPoint (p : point)
| OPointSet (s : pointset)
| OLine (l : line)
| ORay (r : ray)
| OSegment (s : segment)
| OLineString (l : linestring)
| OPolygon (p : polygon)
| OPlane (p : plane)
| OSphere (s : sphere)
| OEllipsoid (e : ellipsoid)
| OCuboid (c : cuboid)
| OPyramid (p : pyramid)
| OCone (c : cone)
| OComposite (defined : bool) (objects : list obj).

(** Intersection.hpp, enum class Type. *)
Inductive itype :=
| IUndefined | IEmpty | IPoint | IPointSet | ILine | IRay | ISegment | ILineString
| IPolygon | IPlane | ICuboid | ISphere | IEllipsoid | IPyramid | IComplex.
(** Intersection.hpp: type_, composite_ (its objects). *)
Record inter := mkInter { i_type : itype; i_defined : bool; i_objects : list obj }.

(** std::all_of, std::any_of: they stop at the first false (true) answer, and exceptions escape. *)
Fixpoint allM {A} (f : A -> result bool) (l : list A) : result bool :=
  match l with
  | [] => Ok true
  | x :: r => let! b := f x in if b then allM f r else Ok false
  end.
Fixpoint anyM {A} (f : A -> result bool) (l : list A) : result bool :=
  match l with
  | [] => Ok false
  | x :: r => let! b := f x in if b then Ok true else anyM f r
  end.
