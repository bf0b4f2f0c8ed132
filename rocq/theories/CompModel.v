(** Model of /repo/src/OpenSpaceToolkit/Mathematics/Geometry/3D/Object.cpp (the operations chosen by the classes of two
    objects), of 3D/Object/Composite.cpp, and of equality and conversions of 3D/Intersection.cpp.
    The printing of the objects before ToBeImplemented is thrown is not modelled. *)

From Coq Require Import List Bool Reals.
From Verif Require Import Result DOrder Vec Mat3 AngleModel RotModel TransfModel Geo3Types Geo3Model GteModel SphereModel EllModel CuboidModel InterModel
  Poly2Model ConeModel PyrModel.
Import ListNotations.
Local Open Scope R_scope.

(** What the operations of the classes depend on: the queries of the Geometric Tools library and of boost::geometry,
    Real::Epsilon(), the tolerance of Ellipsoid::intersects(Segment), the iteration order of point sets, the eigenvalue
    solver, and the number of turns the reduction of angles may take. *)
Record env3 := mkEnv3 {
  e3_gte : gte; e3_boost : boost; e3_eps : R; e3_tol : R; e3_order : pointset -> pointset;
  e3_eigen : m3 -> option eigensystem; e3_fuel : nat }.
(** Pyramid.hpp 36, Cone.hpp 36: DEFAULT_DISCRETIZATION_LEVEL; the default of onlyInSight is false. *)
Definition default_level : nat := 40.

(** *** Object.cpp *)
(** Composite.cpp 114-120: the loop of operator==, over pairs of objects. *)
Fixpoint zip_eq (fs : list (obj -> result bool)) (l : list obj) : result bool :=
  match fs, l with
  | f :: fs, o :: l =>
    let! e := f o in
    if negb e then Ok false else zip_eq fs l
  | _, _ => Ok true
  end.
(** 34-207: operator==, with Composite.cpp 102-123 for composites.  typeid is the constructor. *)
Fixpoint obj_eq (v : env3) (a b : obj) : result bool :=
  if negb (obj_isDefined a) || negb (obj_isDefined b) then Ok false
  else
    match a, b with
    | OPoint p, OPoint q => Ok (pt_eq p q)
    | OPointSet s, OPointSet t => Ok (ps_eq s t)
    | OLine l, OLine m => l_eq l m
    | ORay r, ORay s => Ok (r_eq r s)
    | OSegment s, OSegment t => Ok (s_eq s t)
    | OLineString l, OLineString m => Ok (ls_eq l m)
    | OPolygon p, OPolygon q => Ok (pg_eq (e3_boost v) p q)
    | OPlane p, OPlane q => pl_eq p q
    | OSphere s, OSphere t => Ok (sp_eq s t)
    | OEllipsoid e, OEllipsoid f => EllModel.e_eq (e3_eps v) e f
    | OCuboid c, OCuboid d => Ok (cu_eq c d)
    | OPyramid p, OPyramid q => Ok (py_eq (e3_boost v) p q)
    | OCone c, OCone d => co_eq (e3_fuel v) c d
    | OComposite _ l, OComposite _ k =>
      if negb (Nat.eqb (length l) (length k)) then Ok false else zip_eq (map (obj_eq v) l) k
    | _, _ => Ok false
    end.
(** 221-492: intersects, overridden by Composite.cpp 217-237. *)
Fixpoint obj_intersects (v : env3) (a b : obj) : result bool :=
  if negb (obj_isDefined b) then Err EUndefined
  else
    let g := e3_gte v in
    let eps := e3_eps v in
    match a, b with
    | OLine l, OPlane p => l_intersects_plane l p
    | OLine l, OSphere s => sp_intersects_line g s l
    | OLine l, OEllipsoid e => e_intersects_line g eps e l
    | ORay r, OPlane p => r_intersects_plane r p
    | ORay r, OSphere s => sp_intersects_ray g s r
    | ORay r, OEllipsoid e => e_intersects_ray g eps e r
    | OSegment s, OPlane p => s_intersects_plane s p
    | OSegment s, OSphere t => sp_intersects_segment g t s
    | OSegment s, OEllipsoid e => e_intersects_segment eps (e3_tol v) e s
    | OPlane p, OPoint x => pl_contains p x
    | OPlane p, OPointSet s => pl_intersects_ps p s
    | OPlane p, OLine l => l_intersects_plane l p
    | OPlane p, ORay r => r_intersects_plane r p
    | OPlane p, OSegment s => s_intersects_plane s p
    | OSphere s, OLine l => sp_intersects_line g s l
    | OSphere s, OSegment t => sp_intersects_segment g s t
    | OSphere s, ORay r => sp_intersects_ray g s r
    | OSphere s, OPyramid p => py_intersects_sphere g eps p s default_level
    | OSphere s, OCone c => co_intersects_sphere c s
    | OEllipsoid e, OLine l => e_intersects_line g eps e l
    | OEllipsoid e, OSegment s => e_intersects_segment eps (e3_tol v) e s
    | OEllipsoid e, ORay r => e_intersects_ray g eps e r
    | OEllipsoid e, OPyramid p => py_intersects_ellipsoid g eps p e default_level
    | OEllipsoid e, OCone c => co_intersects_ellipsoid g eps c e default_level
    | OPyramid p, OSphere s => py_intersects_sphere g eps p s default_level
    | OPyramid p, OEllipsoid e => py_intersects_ellipsoid g eps p e default_level
    | OCone c, OSphere s => co_intersects_sphere c s
    | OCone c, OEllipsoid e => co_intersects_ellipsoid g eps c e default_level
    | OComposite _ l, _ =>
      if negb (obj_isDefined a) then Err EUndefined else anyM (fun r => r) (map (fun x => obj_intersects v x b) l)
    | _, _ => Err EToBeImplemented
    end.
(** 494-679: contains, overridden by Composite.cpp 261-281. *)
Fixpoint obj_contains (v : env3) (a b : obj) : result bool :=
  if negb (obj_isDefined b) then Err EUndefined
  else
    let eps := e3_eps v in
    match a, b with
    | OPlane p, OPoint x => pl_contains p x
    | OPlane p, OPointSet s => pl_contains_ps p s
    | OPlane p, OLine l => pl_contains_line p l
    | OPlane p, ORay r => pl_contains_ray p r
    | OPlane p, OSegment s => pl_contains_segment p s
    | OEllipsoid e, OSegment s => e_contains_segment eps e s
    | OPyramid p, OPoint x => py_contains (e3_boost v) eps p x
    | OPyramid p, OPointSet s => py_contains_ps (e3_boost v) eps p s
    | OPyramid p, OSegment s => py_contains_segment (e3_boost v) eps p s
    | OPyramid p, OEllipsoid e => py_contains_ellipsoid p e
    | OCone c, OPoint x => co_contains (e3_fuel v) eps c x
    | OCone c, OPointSet s => co_contains_ps (e3_fuel v) eps c s
    | OCone c, OSegment s => co_contains_segment (e3_fuel v) eps c s
    | OCone c, ORay r => co_contains_ray (e3_fuel v) eps c r
    | OCone c, OSphere s => co_contains_sphere (e3_fuel v) eps c s
    | OCone c, OEllipsoid e => co_contains_ellipsoid c e
    | OComposite _ l, _ =>
      if negb (obj_isDefined a) then Err EUndefined else allM (fun r => r) (map (fun x => obj_contains v x b) l)
    | _, _ => Err EToBeImplemented
    end.
(** 836-845: the intersection of two polygons.  Polygon has no intersectionWith of its own, so that this is
    Object::intersectionWith again, with the same arguments; [calls] bounds the number of calls. *)
Fixpoint polygons_inter (calls : nat) (p q : polygon) : result inter :=
  match calls with
  | O => Err OutOfFuel
  | S k => if negb (pg_isDefined q) then Err EUndefined else polygons_inter k p q
  end.
(** Composite.cpp 352-364: the loop of intersectionWith. *)
Fixpoint add_inters (i : inter) (l : list (result inter)) : result inter :=
  match l with
  | [] => Ok i
  | r :: l =>
    let! j := r in
    let! i := if inter_isDefined j && negb (inter_isEmpty j) then inter_add i j else Ok i in
    add_inters i l
  end.
(** 681-853: intersectionWith, overridden by Composite.cpp 340-365. *)
Fixpoint obj_inter (calls : nat) (v : env3) (a b : obj) : result inter :=
  if negb (obj_isDefined b) then Err EUndefined
  else
    let g := e3_gte v in
    let eps := e3_eps v in
    let order := e3_order v in
    match a, b with
    | OLine l, OPlane p => l_inter_plane l p
    | ORay r, OPlane p => r_inter_plane r p
    | ORay r, OEllipsoid e => e_inter_ray g eps e r false
    | OSegment s, OPlane p => s_inter_plane s p
    | OSphere s, ORay r => sp_inter_ray g eps s r false
    | OSphere s, OPyramid p => py_inter_sphere g eps order p s false default_level
    | OSphere s, OCone c => co_inter_sphere g eps order c s false default_level
    | OEllipsoid e, ORay r => e_inter_ray g eps e r false
    | OEllipsoid e, OPyramid p => py_inter_ellipsoid g eps order p e false default_level
    | OEllipsoid e, OCone c => co_inter_ellipsoid g eps order c e false default_level
    | OPyramid p, OSphere s => py_inter_sphere g eps order p s false default_level
    | OPyramid p, OEllipsoid e => py_inter_ellipsoid g eps order p e false default_level
    | OCone c, OSphere s => co_inter_sphere g eps order c s false default_level
    | OCone c, OEllipsoid e => co_inter_ellipsoid g eps order c e false default_level
    | OPolygon p, OPolygon q => polygons_inter calls p q
    | OComposite _ l, _ =>
      if negb (obj_isDefined a) then Err EUndefined else add_inters inter_empty (map (fun x => obj_inter calls v x b) l)
    | _, _ => Err EToBeImplemented
    end.
(** Virtual applyTransformation; Composite.cpp 435-458 for composites. *)
Fixpoint obj_apply (v : env3) (t : t3_transf) (o : obj) : result obj :=
  match o with
  | OPoint p => rmap OPoint (pt_apply t p)
  | OPointSet s => rmap OPointSet (ps_apply t s)
  | OLine l => rmap OLine (l_apply t l)
  | ORay r => rmap ORay (r_apply t r)
  | OSegment s => rmap OSegment (s_apply t s)
  | OLineString l => rmap OLineString (ls_apply t l)
  | OPolygon p => rmap OPolygon (pg_apply t p)
  | OPlane p => rmap OPlane (pl_apply t p)
  | OSphere s => rmap OSphere (sp_apply t s)
  | OEllipsoid e => rmap OEllipsoid (e_apply (e3_eigen v) (e3_eps v) t e)
  | OCuboid c => rmap OCuboid (cu_apply t c)
  | OPyramid p => rmap OPyramid (py_apply t p)
  | OCone c => rmap OCone (co_apply t c)
  | OComposite d l =>
    if negb (t3_isDefined t) then Err EUndefined
    else if negb (obj_isDefined o) then Err EUndefined
    else
      let! i := t3_isIdentity t in
      if i then Ok o else rmap (OComposite d) (mapM (fun r => r) (map (obj_apply v t) l))
  end.

(** *** Composite.cpp *)
(** Composite.hpp: defined_, objects_. *)
Definition composite := (bool * list obj)%type.
Definition obj_of_composite (c : composite) : obj := OComposite (fst c) (snd c).
(** 195-205: isDefined. *)
Definition cs_isDefined (c : composite) : bool := obj_isDefined (obj_of_composite c).
Definition cs_data (c : composite) : result composite := if cs_isDefined c then Ok c else Err EUndefined.
(** 21-53: constructors. *)
Definition Composite_object (o : obj) : composite := (true, [o]).
Definition Composite (l : list obj) : composite := (true, l).
(** 460-472: Undefined, Empty. *)
Definition cs_Undefined : composite := (false, []).
Definition cs_Empty : composite := (true, []).
(** 102-123: operator==. *)
Definition cs_eq (v : env3) (c d : composite) : result bool :=
  if negb (cs_isDefined c) || negb (cs_isDefined d) then Ok false
  else if negb (Nat.eqb (length (snd c)) (length (snd d))) then Ok false
  else zip_eq (map (obj_eq v) (snd c)) (snd d).
(** 130-166: operator+; 168-193: operator+=. *)
Definition cs_add (c d : composite) : result composite :=
  let! d := cs_data d in
  let! c := cs_data c in
  Ok (true, snd c ++ snd d).
Definition cs_add_assign (c d : composite) : result composite :=
  let! d := cs_data d in
  let! c := cs_data c in
  Ok (fst c, snd c ++ snd d).
(** 207-215: isEmpty. *)
Definition cs_isEmpty (c : composite) : result bool :=
  let! c := cs_data c in Ok (match snd c with [] => true | _ => false end).
(** 217-237, 261-281, 340-365: with an object. *)
Definition cs_intersects (v : env3) (c : composite) (o : obj) : result bool := obj_intersects v (obj_of_composite c) o.
Definition cs_contains (v : env3) (c : composite) (o : obj) : result bool := obj_contains v (obj_of_composite c) o.
Definition cs_inter (calls : nat) (v : env3) (c : composite) (o : obj) : result inter := obj_inter calls v (obj_of_composite c) o.
(** 239-259: intersects(Composite). *)
Definition cs_intersects_cs (v : env3) (c d : composite) : result bool :=
  let! d := cs_data d in
  let! c := cs_data c in
  anyM (cs_intersects v c) (snd d).
(** 283-303: contains(Composite). *)
Definition cs_contains_cs (v : env3) (c d : composite) : result bool :=
  let! d := cs_data d in
  let! c := cs_data c in
  allM (cs_contains v c) (snd d).
(** 367-392: intersectionWith(Composite). *)
Definition cs_inter_cs (calls : nat) (v : env3) (c d : composite) : result inter :=
  let! d := cs_data d in
  let! c := cs_data c in
  add_inters inter_empty (map (cs_inter calls v c) (snd d)).
(** 305-338: accessObjectAt, accessObjects, getObjectCount. *)
Definition cs_accessObjectAt (c : composite) (i : nat) : result obj :=
  let! c := cs_data c in
  match nth_error (snd c) i with Some o => Ok o | None => Err ERuntime end.
Definition cs_accessObjects (c : composite) : result (list obj) := let! c := cs_data c in Ok (snd c).
Definition cs_getObjectCount (c : composite) : result nat := let! c := cs_data c in Ok (length (snd c)).
(** Composite.hpp: is<T>, as<T>; [cast]: dynamic_cast to T. *)
Definition cs_is {T} (cast : obj -> option T) (c : composite) : result bool :=
  let! c := cs_data c in
  Ok (match snd c with [o] => match cast o with Some _ => true | None => false end | _ => false end).
Definition cs_as {T} (cast : obj -> option T) (c : composite) : result T :=
  let! c := cs_data c in
  match snd c with
  | [o] => match cast o with Some x => Ok x | None => Err ERuntime end
  | _ => Err ERuntime
  end.
(** 435-458: applyTransformation. *)
Definition cs_apply (v : env3) (t : t3_transf) (c : composite) : result composite :=
  if negb (t3_isDefined t) then Err EUndefined
  else
    let! c := cs_data c in
    let! i := t3_isIdentity t in
    if i then Ok c
    else
      let! l := mapM (obj_apply v t) (snd c) in
      Ok (fst c, l).

(** *** Intersection.cpp *)
Definition i_composite (i : inter) : composite := (i_defined i, i_objects i).
(** 42-50: operator==. *)
Definition inter_eq (v : env3) (i j : inter) : result bool :=
  if negb (inter_isDefined i) || negb (inter_isDefined j) then Ok false
  else if itype_eqb (i_type i) (i_type j) then cs_eq v (i_composite i) (i_composite j) else Ok false.
(** 73-85: operator+=. *)
Definition inter_add_assign (i j : inter) : result inter :=
  if negb (inter_isDefined j) then Err EUndefined
  else
    let! c := cs_add_assign (i_composite i) (i_composite j) in
    let! l := cs_accessObjects c in
    Ok (mkInter (type_of_objects l) (fst c) (snd c)).
(** Intersection.hpp: is<T>, as<T>. *)
Definition inter_is {T} (cast : obj -> option T) (i : inter) : result bool :=
  if inter_isDefined i then cs_is cast (i_composite i) else Err EUndefined.
Definition inter_as {T} (cast : obj -> option T) (i : inter) : result T :=
  if inter_isDefined i then cs_as cast (i_composite i) else Err EUndefined.
