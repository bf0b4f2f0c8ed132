(** What the properties of 3D composites, intersections and object dispatch are stated with. *)

From Coq Require Import List Bool Reals.
From Verif Require Import Result Vec Geo3Types Geo3Spec SphereSpec.
Import ListNotations.
Local Open Scope R_scope.

(** The kinds of object an intersection knows. *)
Definition kind_of (o : obj) : option itype :=
  match o with
  | OPoint _ => Some IPoint
  | OPointSet _ => Some IPointSet
  | OLine _ => Some ILine
  | ORay _ => Some IRay
  | OSegment _ => Some ISegment
  | OLineString _ => Some ILineString
  | OPolygon _ => Some IPolygon
  | OPlane _ => Some IPlane
  | OCuboid _ => Some ICuboid
  | OSphere _ => Some ISphere
  | OEllipsoid _ => Some IEllipsoid
  | OPyramid _ => Some IPyramid
  | OCone _ | OComposite _ _ => None
  end.
(** The points of an object, for the kinds whose equality is that of their points. *)
Definition points_of (o : obj) (p : v3) : Prop :=
  match o with
  | OPoint (Some q) => p = q
  | OPointSet s => In p s
  | OLine (mkLine (Some o) (Some d)) => on_line o d p
  | ORay (mkRay (Some o) (Some d)) => on_ray o d p
  | OSegment (mkSeg (Some a) (Some b)) => on_segment a b p
  | OPlane (mkPlane (Some q) (Some n)) => on_plane q n p
  | OSphere (mkSphere (Some c) (Some r)) => on_sphere c r p
  | _ => False
  end.
(** Two lists agree place by place. *)
Fixpoint same_all (f : list (obj -> Prop)) (l : list obj) : Prop :=
  match f, l with
  | [], [] => True
  | P :: f, o :: l => P o /\ same_all f l
  | _, _ => False
  end.
(** Two objects are the same: of one class, with the same points; line strings with the same vertices in the same order; composites place by place. *)
Fixpoint same_obj (a b : obj) : Prop :=
  match a, b with
  | OPoint _, OPoint _ | OPointSet _, OPointSet _ | OLine _, OLine _ | ORay _, ORay _ | OSegment _, OSegment _
  | OPlane _, OPlane _ | OSphere _, OSphere _ => same_points (points_of a) (points_of b)
  | OLineString l, OLineString m => l = m
  | OComposite _ l, OComposite _ k => same_all (map same_obj l) k
  | _, _ => False
  end.
(** Defined objects of those kinds, as their constructors make them. *)
Fixpoint plain (o : obj) : Prop :=
  match o with
  | OPoint p => exists q, p = Some q
  | OPointSet s => s <> [] /\ NoDup s
  | OLine l => exists o d, good_line l o d
  | ORay r => exists o d, good_ray r o d
  | OSegment s => exists a b, s = mkSeg (Some a) (Some b)
  | OPlane p => exists q n, good_plane p q n
  | OSphere s => exists c r, good_sphere s c r
  | OLineString l => exists m, m <> [] /\ l = map Some m
  | OComposite d l => d = true /\ fold_right and True (map plain l)
  | _ => False
  end.
(** An object that is not a composite. *)
Definition leaf (o : obj) : Prop := match o with OComposite _ _ => False | _ => True end.

(** The points of an object for intersects: a sphere is a ball, a composite is the union of its objects. *)
Fixpoint body_of (o : obj) (p : v3) : Prop :=
  match o with
  | OSphere (mkSphere (Some c) (Some r)) => dist3 p c <= r
  | OComposite _ l => fold_right or False (map (fun x => body_of x p) l)
  | _ => points_of o p
  end.
(** The pairs of kinds for which Object::intersects is decided exactly. *)
Fixpoint decided (a b : obj) : Prop :=
  match a, b with
  | OLine _, OPlane _ | OLine _, OSphere _ | ORay _, OPlane _ | ORay _, OSphere _ | OSegment _, OPlane _
  | OPlane _, OPoint _ | OPlane _, OPointSet _ | OPlane _, OLine _ | OPlane _, ORay _ | OPlane _, OSegment _
  | OSphere _, OLine _ | OSphere _, ORay _ => True
  | OComposite _ l, _ => fold_right and True (map (fun x => decided x b) l)
  | _, _ => False
  end.
(** What Object::contains can be asked of a plane. *)
Definition flat (o : obj) : Prop := match o with OPoint _ | OPointSet _ | OLine _ | ORay _ | OSegment _ => True | _ => False end.
(** Planes, and composites made of planes. *)
Fixpoint planes (o : obj) : Prop :=
  match o with OPlane _ => True | OComposite _ l => fold_right and True (map planes l) | _ => False end.
(** The points in all the objects. *)
Fixpoint common_of (o : obj) (p : v3) : Prop :=
  match o with OComposite _ l => fold_right and True (map (fun x => common_of x p) l) | _ => points_of o p end.
