(** Model of the 3D polygons and of the pyramids
    (/repo/src/OpenSpaceToolkit/Mathematics/Geometry/3D/Object/{Polygon,Pyramid}.cpp), with exact real arithmetic.
    [B] are the queries of boost::geometry, [m] its tolerance, [g] the queries of the Geometric Tools library, [eps]
    Real::Epsilon(), [order] is the iteration order of a hash set of points. *)

From Coq Require Import List Bool Reals.
From Verif Require IntervalModel.
From Verif Require Import Result DOrder Vec AngleModel RotModel TransfModel IntervalGridModel Geo3Types Geo3Model GteModel SphereModel EllModel InterModel
  Geo2Model Poly2Model ConeModel.
Import ListNotations.
Local Open Scope R_scope.

(** *** Polygon.cpp *)
(** 20-34: constructor. *)
Definition Polygon3 (eps : R) (P : poly2) (o : point) (x y : option v3) : result polygon :=
  let x := option_map normalized3 x in
  let y := option_map normalized3 y in
  match x, y with
  | Some a, Some b => if Rltb eps (Rabs (dot3 a b)) then Err ERuntime else Ok (mkPolygon P o x y)
  | _, _ => Ok (mkPolygon P o x y)
  end.
(** 286-289: Undefined. *)
Definition pg_Undefined : polygon := mkPolygon pg2_Undefined None None None.
(** 59-62: isDefined, with the members when it holds. *)
Definition pg_data (p : polygon) : result (poly2 * v3 * v3 * v3) :=
  match pg_origin p, pg_x p, pg_y p with
  | Some o, Some x, Some y => if pg2_isDefined (pg_polygon p) then Ok (pg_polygon p, o, x, y) else Err EUndefined
  | _, _, _ => Err EUndefined
  end.
(** 41-52: operator==. *)
Definition pg_eq (B : boost) (p q : polygon) : bool :=
  match pg_data p, pg_data q with
  | Ok (P, o, x, y), Ok (Q, o', x', y') => pg2_eq B P Q && v3_eqb o o' && v3_eqb x x' && v3_eqb y y'
  | _, _ => false
  end.
(** 101-149: getPolygon2d, getOrigin, getXAxis, getYAxis, getNormalVector. *)
Definition pg_getPolygon2d (p : polygon) : result poly2 := let! (P, _, _, _) := pg_data p in Ok P.
Definition pg_getOrigin (p : polygon) : result v3 := let! (_, o, _, _) := pg_data p in Ok o.
Definition pg_getXAxis (p : polygon) : result v3 := let! (_, _, x, _) := pg_data p in Ok x.
Definition pg_getYAxis (p : polygon) : result v3 := let! (_, _, _, y) := pg_data p in Ok y.
Definition pg_getNormalVector (p : polygon) : result v3 := let! (_, _, x, y) := pg_data p in Ok (normalized3 (cross3 x y)).
(** 151-169: getEdgeCount, getVertexCount. *)
Definition pg_getEdgeCount (p : polygon) : result nat := let! (P, _, _, _) := pg_data p in pg2_getEdgeCount P.
Definition pg_getVertexCount (p : polygon) : result nat := let! (P, _, _, _) := pg_data p in pg2_getVertexCount P.
(** "origin_ + ((vertex.x() * xAxis_) + (vertex.y() * yAxis_))" (186-187, 203, 219-220, 236). *)
Definition pg_vertex (p : polygon) (v : v2) : result v3 :=
  pt_add (pg_origin p)
    (match pg_x p, pg_y p with Some x, Some y => Some (add3 (scale3 (x2 v) x) (scale3 (y2 v) y)) | _, _ => None end).
Definition pg_edge (p : polygon) (e : segment2) : result segment :=
  let! (a, b) := s2_data e in
  let! a := pg_vertex p a in
  let! b := pg_vertex p b in
  Ok (mkSeg (Some a) (Some b)).
(** 171-190: getEdgeAt. *)
Definition pg_getEdgeAt (p : polygon) (i : nat) : result segment :=
  let! (P, _, _, _) := pg_data p in
  let! e := pg2_getEdgeAt P i in
  pg_edge p e.
(** 192-204: getVertexAt. *)
Definition pg_getVertexAt (p : polygon) (i : nat) : result v3 :=
  let! (P, _, _, _) := pg_data p in
  let! v := pg2_getVertexAt P i in
  pg_vertex p v.
(** 206-240: getEdges, getVertices.  There is no isDefined test here, but the counts and the vertices throw Undefined. *)
Definition pg_getEdges (p : polygon) : result (list segment) :=
  let! _ := pg2_getEdgeCount (pg_polygon p) in
  let! l := pg2_getEdges (pg_polygon p) in
  mapM (pg_edge p) l.
Definition pg_getVertices (p : polygon) : result (list v3) :=
  let! _ := pg2_getVertexCount (pg_polygon p) in
  let! l := pg2_getVertices (pg_polygon p) in
  mapM (pg_vertex p) l.
(** 64-99: isNear. *)
Fixpoint vertices_near (l k : list v3) (tol : option R) : result bool :=
  match l, k with
  | a :: l, b :: k =>
    let! c := pt_isNear (Some a) (Some b) tol in
    if c then vertices_near l k tol else Ok false
  | _, _ => Ok true
  end.
Definition pg_isNear (p q : polygon) (tol : option R) : result bool :=
  let! _ := pg_data q in
  let! _ := needd tol in
  let! _ := pg_data p in
  let! n := pg_getVertexCount p in
  let! k := pg_getVertexCount q in
  if negb (Nat.eqb n k) then Ok false
  else
    let! a := pg_getVertices p in
    let! b := pg_getVertices q in
    vertices_near a b tol.
(** 266-284: applyTransformation. *)
Definition pg_apply (t : t3_transf) (p : polygon) : result polygon :=
  if negb (t3_isDefined t) then Err EUndefined
  else
    let! (P, o, x, y) := pg_data p in
    let! o' := t3_applyTo_point t (Some o) in
    Ok (mkPolygon P o' (t3_applyTo_vector t (Some x)) (t3_applyTo_vector t (Some y))).

(** *** Pyramid.cpp *)
(** 526-529: Undefined. *)
Definition py_Undefined : pyramid := mkPyramid pg_Undefined None.
(** 58-61: isDefined, with the members when it holds. *)
Definition py_data (p : pyramid) : result (polygon * v3) :=
  match pg_data (py_base p), py_apex p with
  | Ok _, Some a => Ok (py_base p, a)
  | _, _ => Err EUndefined
  end.
(** 43-51: operator==. *)
Definition py_eq (B : boost) (p q : pyramid) : bool :=
  match py_data p, py_data q with
  | Ok (b, a), Ok (b', a') => pg_eq B b b' && v3_eqb a a'
  | _, _ => false
  end.
(** 212-230: getBase, getApex. *)
Definition py_getBase (p : pyramid) : result polygon := let! (b, _) := py_data p in Ok b.
Definition py_getApex (p : pyramid) : result v3 := let! (_, a) := py_data p in Ok a.
(** 111-171: contains(Point). *)
Definition py_contains (B : boost) (eps : R) (p : pyramid) (x : point) : result bool :=
  let! x := needd x in
  let! (b, a) := py_data p in
  if v3_eqb x a then Ok true
  else
    let! r := Ray (Some a) (Some (sub3 x a)) in
    let! o := pg_getOrigin b in
    let! n := pg_getNormalVector b in
    let! i := r_inter_plane r (Plane (Some o) (Some n)) in
    if inter_isEmpty i then Ok false
    else match i_objects i with
         | [OPoint (Some q)] =>
           let! translation := t3_Translation (Some (opp3 o)) in
           let! xa := pg_getXAxis b in
           let! ya := pg_getYAxis b in
           let! mat := Columns eps (Some xa) (Some ya) (Some n) in
           let! rotation := t3_Rotation_rm (Some mat) in
           let! t := t3_mul rotation translation in
           let! q := t3_applyTo_point t (Some q) in
           let! q := needd q in
           let! P := pg_getPolygon2d b in
           pg2_contains B P (Some (V2 (vx q) (vy q)))
         | _ => Err ERuntime
         end.
(** 173-188: contains(PointSet). *)
Definition py_contains_ps (B : boost) (eps : R) (p : pyramid) (s : pointset) : result bool :=
  let! _ := py_data p in
  allM (fun x => py_contains B eps p (Some x)) s.
(** 190-193: contains(Segment). *)
Definition py_contains_segment (B : boost) (eps : R) (p : pyramid) (s : segment) : result bool :=
  let! (a, b) := s_data s in
  let! c := py_contains B eps p (Some a) in
  if c then py_contains B eps p (Some b) else Ok false.
(** 195-210: contains(Ellipsoid). *)
Definition py_contains_ellipsoid (p : pyramid) (e : ellipsoid) : result bool :=
  let! _ := e_data e in
  let! _ := py_data p in
  Err EToBeImplemented.
(** 232-240: getLateralFaceCount. *)
Definition py_getLateralFaceCount (p : pyramid) : result nat := let! (b, _) := py_data p in pg_getEdgeCount b.
(** 242-270: getLateralFaceAt. *)
Definition py_getLateralFaceAt (eps m : R) (p : pyramid) (i : nat) : result polygon :=
  let! (b, a) := py_data p in
  let! e := pg_getEdgeAt b i in
  let! (v, w) := s_data e in
  let first := normalized3 (sub3 v a) in
  let second := normalized3 (cross3 (cross3 first (normalized3 (sub3 w a))) first) in
  let edge := sub3 w v in
  let p2 := V2 (norm3 (sub3 v a)) 0 in
  let p3 := add2 p2 (V2 (dot3 edge first) (dot3 edge second)) in
  let! P := Polygon2 m [Some (V2 0 0); Some p2; Some p3] [] in
  Polygon3 eps P (Some a) (Some first) (Some second).
(** 272-317: getRaysOfLateralFaceAt.  There is no isDefined test: getEdgeAt throws for an undefined base and the
    subtraction for an undefined apex. *)
Definition py_face_rays (eps : R) (p : pyramid) (i n : nat) : result (list ray) :=
  let! e := pg_getEdgeAt (py_base p) i in
  let! (v, w) := s_data e in
  let! a := needd (py_apex p) in
  let first := normalized3 (sub3 v a) in
  let second := normalized3 (sub3 w a) in
  if v3_eqb first second then let! r := Ray (Some a) (Some first) in Ok [r]
  else
    let axis := normalized3 (cross3 first second) in
    let! between := Between3 eps (Some first) (Some second) in
    let! angles :=
      if Nat.ltb 1 n then
        let! t := in_unit between Radian in
        let! c := @IntervalModel.Closed R_order 0 t in generateArrayWithSize c n
      else Ok [0] in
    mapM (fun x =>
      let! d := turned eps axis (Radians x) first in
      Ray (Some a) (Some d)) angles.
(** 319-342: getRaysOfLateralFaces. *)
Definition py_rays (eps : R) (p : pyramid) (n : nat) : result (list ray) :=
  let! k := py_getLateralFaceCount p in
  if Nat.ltb n k then Err ERuntime
  else
    let! l := mapM (fun i => py_face_rays eps p i (Nat.div n k)) (seq 0 k) in
    Ok (concat l).
(** 63-109: intersects(Sphere), intersects(Ellipsoid). *)
Definition py_intersects_sphere (g : gte) (eps : R) (p : pyramid) (s : sphere) (n : nat) : result bool :=
  let! _ := sp_data s in
  let! _ := py_data p in
  let! rays := py_rays eps p n in
  anyM (fun r => sp_intersects_ray g s r) rays.
Definition py_intersects_ellipsoid (g : gte) (eps : R) (p : pyramid) (e : ellipsoid) (n : nat) : result bool :=
  let! _ := e_data e in
  let! _ := py_data p in
  let! rays := py_rays eps p n in
  anyM (fun r => e_intersects_ray g eps e r) rays.
(** 344-408: intersectionWith(Sphere). *)
Definition py_inter_sphere (g : gte) (eps : R) (order : pointset -> pointset) (p : pyramid) (s : sphere) (onlyInSight : bool) (n : nat) : result inter :=
  let! _ := sp_data s in
  let! _ := py_data p in
  let! rays := py_rays eps p n in
  let! l := mapM (fun r => sp_inter_ray g eps s r onlyInSight) rays in
  let! (a, b) := gather (pick_sphere order) l in
  strings a b onlyInSight.
(** 410-495: intersectionWith(Ellipsoid). *)
Definition py_inter_ellipsoid (g : gte) (eps : R) (order : pointset -> pointset) (p : pyramid) (e : ellipsoid) (onlyInSight : bool) (n : nat) : result inter :=
  let! _ := e_data e in
  let! _ := py_data p in
  let! rays := py_rays eps p n in
  let! l := mapM (fun r => e_inter_ray g eps e r onlyInSight) rays in
  let! (a, b) := gather (pick_ellipsoid order (py_apex p)) l in
  strings a b onlyInSight.
(** 510-524: applyTransformation. *)
Definition py_apply (t : t3_transf) (p : pyramid) : result pyramid :=
  if negb (t3_isDefined t) then Err EUndefined
  else
    let! (b, a) := py_data p in
    let! b' := pg_apply t b in
    let! a' := pt_apply t (Some a) in
    Ok (mkPyramid b' a').
