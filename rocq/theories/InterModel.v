(** Model of /repo/src/OpenSpaceToolkit/Mathematics/Geometry/3D/Intersection.cpp and of isDefined of the
    classes derived from Object. *)

From Coq Require Import List Bool Reals.
From Verif Require Poly2Model.
From Verif Require Import Result Vec AngleModel RotModel Geo3Types Geo3Model SphereModel EllModel CuboidModel.
Import ListNotations.
Local Open Scope R_scope.

Definition is_ok {A} (r : result A) : bool := match r with Ok _ => true | _ => false end.
(** Polygon.cpp 59-62 and Pyramid.cpp 58-61: isDefined. *)
Definition pg_isDefined (p : polygon) : bool := Poly2Model.pg2_isDefined (pg_polygon p) && isSome (pg_origin p) && isSome (pg_x p) && isSome (pg_y p).
Definition py_isDefined (p : pyramid) : bool := pg_isDefined (py_base p) && isSome (py_apex p).
(** Cone.cpp 58-61: isDefined. *)
Definition co_isDefined (c : cone) : bool := isSome (co_apex c) && isSome (co_axis c) && angle_isDefined (co_angle c).
(** Virtual isDefined; Composite.cpp 195-205 for composites. *)
Fixpoint obj_isDefined (o : obj) : bool :=
  match o with
  | OPoint p => isSome p
  | OPointSet s => ps_isDefined s
  | OLine l => is_ok (l_data l)
  | ORay r => is_ok (r_data r)
  | OSegment s => is_ok (s_data s)
  | OLineString l => ls_isDefined l
  | OPolygon p => pg_isDefined p
  | OPlane p => pl_isDefined p
  | OSphere s => is_ok (sp_data s)
  | OEllipsoid e => is_ok (e_data e)
  | OCuboid c => is_ok (cu_data c)
  | OPyramid p => py_isDefined p
  | OCone c => co_isDefined c
  | OComposite d l => d && forallb obj_isDefined l
  end.

Definition itype_eqb (a b : itype) : bool :=
  match a, b with
  | IUndefined, IUndefined | IEmpty, IEmpty | IPoint, IPoint | IPointSet, IPointSet | ILine, ILine | IRay, IRay
  | ISegment, ISegment | ILineString, ILineString | IPolygon, IPolygon | IPlane, IPlane | ICuboid, ICuboid
  | ISphere, ISphere | IEllipsoid, IEllipsoid | IPyramid, IPyramid | IComplex, IComplex => true
  | _, _ => false
  end.
(** 303-366: TypeFromObjects, one object (the casts are tried in this order; the classes are unrelated). *)
Definition type_of_object (o : obj) : itype :=
  match o with
  | OPoint _ => IPoint
  | OPointSet _ => IPointSet
  | OLine _ => ILine
  | ORay _ => IRay
  | OSegment _ => ISegment
  | OLineString _ => ILineString
  | OPolygon _ => IPolygon
  | OPlane _ => IPlane
  | OCuboid _ => ICuboid
  | OSphere _ => ISphere
  | OEllipsoid _ => IEllipsoid
  | OPyramid _ => IPyramid
  | OCone _ | OComposite _ _ => IUndefined
  end.
(** 277-301: TypeFromObjects, an array. *)
Fixpoint type_loop (t : itype) (l : list obj) : itype :=
  match l with
  | [] => t
  | o :: r =>
    if itype_eqb t IUndefined then type_loop (type_of_object o) r
    else if negb (itype_eqb t (type_of_object o)) then IComplex
    else type_loop t r
  end.
Definition type_of_objects (l : list obj) : itype := match l with [] => IEmpty | _ => type_loop IUndefined l end.

(** 102-105: isDefined. *)
Definition inter_isDefined (i : inter) : bool := negb (itype_eqb (i_type i) IUndefined).
(** 107-115: isEmpty, isComplex. *)
Definition inter_isEmpty (i : inter) : bool := itype_eqb (i_type i) IEmpty.
Definition inter_isComplex (i : inter) : bool := itype_eqb (i_type i) IComplex.
(** 137-144 and 271-275: Undefined, the default constructor. *)
Definition inter_undefined : inter := mkInter IUndefined false [].
(** The composite of an intersection; Composite.cpp 195-205: isDefined. *)
Definition inter_composite (i : inter) : obj := OComposite (i_defined i) (i_objects i).
(** 117-135: accessComposite, getType. *)
Definition inter_accessComposite (i : inter) : result obj := if inter_isDefined i then Ok (inter_composite i) else Err EUndefined.
Definition inter_getType (i : inter) : result itype := if inter_isDefined i then Ok (i_type i) else Err EUndefined.
(** 57-71 (operator+), 73-85 (operator+=), with Composite.cpp 130-166 and 168-193. *)
Definition inter_add (i j : inter) : result inter :=
  if negb (inter_isDefined j) then Err EUndefined
  else if negb (obj_isDefined (inter_composite j)) || negb (obj_isDefined (inter_composite i)) then Err EUndefined
  else
    let objects := i_objects i ++ i_objects j in
    Ok (mkInter (type_of_objects objects) true objects).
(** 17-21: from an array of objects. *)
Definition Intersection (l : list obj) : inter := mkInter (type_of_objects l) true l.
(** 217-269: StringFromType accepts every type but Cuboid. *)
Definition type_has_name (t : itype) : bool := match t with ICuboid => false | _ => true end.
