(** Model of the 2D polygons, multi-polygons, composites and intersections and of the dispatch of 2D objects
    (/repo/src/OpenSpaceToolkit/Mathematics/Geometry/2D/Object/{Polygon,MultiPolygon,Composite}.cpp, Object.cpp,
    Intersection.cpp), with exact real arithmetic. *)

From Coq Require Import List Bool Reals Arith.
From Verif Require Import Result DOrder Vec Mat3 AngleModel RotModel TransfModel Geo3Types Geo3Model Geo2Model.
Import ListNotations.
Local Open Scope R_scope.

(** *** boost::geometry *)
(** The queries of boost::geometry the code makes, as quantified functions.  [None]: the query throws. *)
Record boost := mkBoost {
  bg_covered : v2 -> poly2 -> option bool;                        (** covered_by(point, polygon) *)
  bg_covered_line : list v2 -> poly2 -> option bool;              (** covered_by(linestring, polygon) *)
  bg_equals : poly2 -> poly2 -> bool;                             (** equals(polygon, polygon) *)
  bg_intersects : poly2 -> poly2 -> option bool;                  (** intersects(polygon, polygon) *)
  bg_valid : poly2 -> bool;                                       (** is_valid(polygon) *)
  bg_line_valid : list v2 -> bool;                                (** is_valid(linestring) *)
  bg_inter_polygons : poly2 -> poly2 -> option (list poly2);      (** intersection, polygons wanted *)
  bg_inter_lines : poly2 -> poly2 -> option (list (list v2));     (** intersection, linestrings wanted *)
  bg_inter_points : poly2 -> poly2 -> option (list v2);           (** intersection, points wanted *)
  bg_difference : poly2 -> poly2 -> option (list poly2);          (** difference *)
  bg_hull : poly2 -> option poly2;                                (** convex_hull(polygon) *)
  bg_mcovered : v2 -> list poly2 -> option bool;                  (** covered_by(point, multi_polygon) *)
  bg_mequals : list poly2 -> list poly2 -> bool;                  (** equals(multi_polygon, multi_polygon) *)
  bg_mhull : list poly2 -> option poly2;                          (** convex_hull(multi_polygon) *)
  bg_union : list poly2 -> list poly2 -> option (list poly2)      (** union_ *)
}.
(** A query made inside a try block: its exceptions become RuntimeError. *)
Definition attempt {A} (x : option A) : result A := match x with Some a => Ok a | None => Err ERuntime end.

(** boost::geometry::correct (boost 1.82, algorithms/correct.hpp and correct_closure.hpp): close the ring, then
    reverse it when its orientation is wrong.  Two coordinates are the same within [m] (math::equals). *)
Definition bg_same (m a b : R) : bool := Rleb (Rabs (a - b)) (m * Rmax 1 (Rmax (Rabs a) (Rabs b))).
Definition bg_same_point (m : R) (a b : v2) : bool := bg_same m (x2 a) (x2 b) && bg_same m (y2 a) (y2 b).
Definition bg_close (m : R) (r : list v2) : list v2 :=
  match r with
  | f :: _ :: _ :: _ => if bg_same_point m f (last r f) then r else r ++ [f]
  | _ => r
  end.
(** strategy::area::cartesian: positive for a clockwise ring, 0 for less than four points. *)
Fixpoint bg_area_sum (r : list v2) : R :=
  match r with
  | a :: (b :: _) as t => (x2 a + x2 b) * (y2 a - y2 b) + bg_area_sum t
  | _ => 0
  end.
Definition bg_area (r : list v2) : R := if Nat.ltb (length r) 4 then 0 else bg_area_sum r / 2.
Definition bg_correct_outer (m : R) (r : list v2) : list v2 :=
  let r := bg_close m r in if Rltb (bg_area r) 0 then rev r else r.
Definition bg_correct_inner (m : R) (r : list v2) : list v2 :=
  let r := bg_close m r in if Rltb 0 (bg_area r) then rev r else r.
Definition bg_correct (m : R) (p : poly2) : poly2 :=
  mkPoly2 (bg_correct_outer m (p_outer p)) (map (bg_correct_inner m) (p_inner p)).

(** *** Polygon.cpp *)
(** 644-661: BoostPolygonFromPoints. *)
Definition pg2_from_points (m : R) (l : list point2) : result poly2 :=
  if negb (ls2_isEmpty l) && Nat.ltb (length l) 3 then Err ERuntime
  else
    let! r := mapM needd l in
    Ok (bg_correct m (mkPoly2 r [])).
(** 114-131: the loop of the constructor over the inner rings. *)
Fixpoint pg2_add_inner (m : R) (p : poly2) (rings : list (list point2)) : result poly2 :=
  match rings with
  | [] => Ok p
  | r :: rest =>
    if Nat.ltb (length r) 3 then Err ERuntime
    else
      let! r := mapM needd r in
      pg2_add_inner m (bg_correct m (mkPoly2 (p_outer p) (p_inner p ++ [r]))) rest
  end.
(** 111-132, 713-717: constructor. *)
Definition Polygon2 (m : R) (outer : list point2) (inner : list (list point2)) : result poly2 :=
  let! p := pg2_from_points m outer in
  pg2_add_inner m p inner.
(** 1056-1059: Undefined. *)
Definition pg2_Undefined : poly2 := mkPoly2 [] [].
(** 139-142, 759-762: isDefined. *)
Definition pg2_isDefined (p : poly2) : bool := Nat.leb 3 (length (p_outer p)).
Definition pg2_defined (p : poly2) : result poly2 := if pg2_isDefined p then Ok p else Err EUndefined.
(** 744-752: operator==. *)
Definition pg2_eq (B : boost) (p q : poly2) : bool := pg2_isDefined p && pg2_isDefined q && bg_equals B p q.
(** 801-814, 144-158: intersects. *)
Definition pg2_intersects (B : boost) (p q : poly2) : result bool :=
  let! q := pg2_defined q in
  let! p := pg2_defined p in
  attempt (bg_intersects B p q).
(** 816-829, 160-174: contains(Point). *)
Definition pg2_contains (B : boost) (p : poly2) (x : point2) : result bool :=
  let! x := needd x in
  let! p := pg2_defined p in
  attempt (bg_covered B x p).
(** 831-844, 176-187: contains(PointSet). *)
Definition pg2_contains_ps (B : boost) (p : poly2) (s : pointset2) : result bool :=
  if ps2_isEmpty s then Err EUndefined
  else
    let! p := pg2_defined p in
    allM (fun x => pg2_contains B p (Some x)) s.
(** 846-859, 189-205, 663-680: contains(LineString).  The conversion of the points is inside the try block: whatever it
    throws becomes a RuntimeError. *)
Definition pg2_contains_ls (B : boost) (p : poly2) (l : linestring2) : result bool :=
  if negb (ls2_isDefined l) then Err EUndefined
  else
    let! p := pg2_defined p in
    if Nat.ltb (length l) 2 then Err ERuntime
    else
      match mapM needd l with
      | Ok r => attempt (bg_covered_line B r p)
      | _ => Err ERuntime
      end.
(** 861-869: getInnerRingCount. *)
Definition pg2_getInnerRingCount (p : poly2) : result nat := let! p := pg2_defined p in Ok (length (p_inner p)).
(** 212-230, 245-256: the stored points but the last one. *)
Definition ring_vertices (r : list v2) : list v2 := removelast r.
(** 232-257: getInnerRingVerticesAt. *)
Definition pg2_inner_at (p : poly2) (i : nat) : result (list v2) :=
  match nth_error (p_inner p) i with Some r => Ok (ring_vertices r) | None => Err ERuntime end.
(** 281-303: the vertices, then the first one again. *)
Definition closed_string (l : list v2) : linestring2 :=
  map Some (match l with [] => [] | f :: _ => l ++ [f] end).
(** 891-899, 281-291: getOuterRing. *)
Definition pg2_getOuterRing (p : poly2) : result linestring2 :=
  let! p := pg2_defined p in Ok (closed_string (ring_vertices (p_outer p))).
(** 901-909, 293-303: getInnerRingAt. *)
Definition pg2_getInnerRingAt (p : poly2) (i : nat) : result linestring2 :=
  let! p := pg2_defined p in
  let! l := pg2_inner_at p i in
  Ok (closed_string l).
(** 259-274: getEdgeCount, getOuterRingEdgeCount (the stored rings are never empty, so [-1] does not wrap around). *)
Definition ring_edges (r : list v2) : nat := (length r - 1)%nat.
Definition pg2_edge_count (p : poly2) : nat := fold_left (fun n r => n + ring_edges r)%nat (p_inner p) (ring_edges (p_outer p)).
(** 871-879: getEdgeCount. *)
Definition pg2_getEdgeCount (p : poly2) : result nat := let! p := pg2_defined p in Ok (pg2_edge_count p).
(** boost::geometry::num_points of the polygon: all the stored points. *)
Definition bg_num_points (p : poly2) : nat := fold_left (fun n r => n + length r)%nat (p_inner p) (length (p_outer p)).
(** 881-889, 276-279: getVertexCount. *)
Definition pg2_getVertexCount (p : poly2) : result nat :=
  let! p := pg2_defined p in Ok (bg_num_points p - (1 + length (p_inner p)))%nat.
(** 324-340: getVertexAt. *)
Definition pg2_vertex_at (p : poly2) (i : nat) : result v2 :=
  if Nat.leb (bg_num_points p - 1) i then Err EWrong
  else if Nat.leb (length (p_outer p) - 1) i then Err EToBeImplemented
  else match nth_error (p_outer p) i with Some v => Ok v | None => UB end.
(** 305-322: getEdgeAt. *)
Definition pg2_edge_at (p : poly2) (i : nat) : result segment2 :=
  if Nat.leb (pg2_edge_count p) i then Err EWrong
  else if Nat.leb (ring_edges (p_outer p)) i then Err EToBeImplemented
  else
    let! a := pg2_vertex_at p i in
    let! b := if negb (Nat.eqb i (ring_edges (p_outer p) - 1)) then pg2_vertex_at p (i + 1) else pg2_vertex_at p 0 in
    Ok (mkSeg2 (Some a) (Some b)).
(** 911-929: getEdgeAt, getVertexAt. *)
Definition pg2_getEdgeAt (p : poly2) (i : nat) : result segment2 := let! p := pg2_defined p in pg2_edge_at p i.
Definition pg2_getVertexAt (p : poly2) (i : nat) : result v2 := let! p := pg2_defined p in pg2_vertex_at p i.
(** 931-939, 342-354: getEdges. *)
Definition pg2_getEdges (p : poly2) : result (list segment2) :=
  let! p := pg2_defined p in mapM (pg2_edge_at p) (seq 0 (pg2_edge_count p)).
(** 941-949, 356-374: getVertices. *)
Definition pg2_getVertices (p : poly2) : result (list v2) :=
  let! p := pg2_defined p in
  let! inner := mapM (pg2_inner_at p) (seq 0 (length (p_inner p))) in
  Ok (ring_vertices (p_outer p) ++ concat inner).
(** 764-799: isNear. *)
Fixpoint pg2_all_near (l r : list v2) (tol : option R) : result bool :=
  match l, r with
  | a :: l, b :: r => let! n := p2_isNear (Some a) (Some b) tol in if n then pg2_all_near l r tol else Ok false
  | _, _ => Ok true
  end.
Definition pg2_isNear (p q : poly2) (tol : option R) : result bool :=
  let! q := pg2_defined q in
  let! tol := need tol in
  let! p := pg2_defined p in
  let! n := pg2_getVertexCount p in
  let! n' := pg2_getVertexCount q in
  if negb (Nat.eqb n n') then Ok false
  else
    let! l := pg2_getVertices p in
    let! r := pg2_getVertices q in
    pg2_all_near l r (Some tol).
(** 682-711: PolygonFromBoostPolygon.  A ring without points would make the index [size - 1] wrap around and
    std::vector::at throw std::out_of_range, which is not an error of the library: [UB]. *)
Definition bg_open (r : list v2) : result (list point2) :=
  match r with [] => UB | _ => Ok (map Some (removelast r)) end.
Definition pg2_from_boost (m : R) (p : poly2) : result poly2 :=
  let! outer := bg_open (p_outer p) in
  let! inner := mapM bg_open (p_inner p) in
  Polygon2 m outer inner.
(** 951-959, 376-390: getConvexHull. *)
Definition pg2_getConvexHull (B : boost) (m : R) (p : poly2) : result poly2 :=
  let! p := pg2_defined p in
  let! h := attempt (bg_hull B p) in
  pg2_from_boost m h.
(** 1041-1054, 619-642: applyTransformation; matrix_transformer<double, 2, 2> applied to each stored point. *)
Definition bg_transform (a : m3) (p : v2) : v2 :=
  let r0 := row3 a 0 in
  let r1 := row3 a 1 in
  V2 (vx r0 * x2 p + vy r0 * y2 p + vz r0) (vx r1 * x2 p + vy r1 * y2 p + vz r1).
Definition bg_transform_polygon (a : m3) (p : poly2) : poly2 :=
  mkPoly2 (map (bg_transform a) (p_outer p)) (map (map (bg_transform a)) (p_inner p)).
Definition pg2_apply (t : t2_transf) (p : poly2) : result poly2 :=
  if negb (t2_isDefined t) then Err EUndefined
  else
    let! p := pg2_defined p in
    let! a := t2_getMatrix t in
    Ok (bg_transform_polygon a p).

(** *** MultiPolygon.cpp *)
(** MultiPolygon.cpp: the boost multi_polygon. *)
Definition multi2 := list poly2.
(** 257-296: BoostMultiPolygonFromPolygons; an inner ring is corrected on its own first. *)
Definition points_of_string (l : linestring2) : result (list v2) := mapM needd l.
Definition mp2_polygon (m : R) (p : poly2) : result poly2 :=
  let! o := pg2_getOuterRing p in
  let! outer := points_of_string o in
  let! n := pg2_getInnerRingCount p in
  let! inner :=
    mapM (fun i => let! r := pg2_getInnerRingAt p i in let! r := points_of_string r in Ok (bg_correct_outer m r)) (seq 0 n) in
  Ok (mkPoly2 outer inner).
(** 87-91, 329-333: constructor. *)
Definition MultiPolygon2 (m : R) (l : list poly2) : result multi2 :=
  let! l := mapM (mp2_polygon m) l in Ok (map (bg_correct m) l).
(** 98-101, 377-380: isDefined. *)
Definition mp2_isDefined (l : multi2) : bool := match l with [] => false | _ => true end.
Definition mp2_defined (l : multi2) : result multi2 := if mp2_isDefined l then Ok l else Err EUndefined.
(** 362-370: operator==. *)
Definition mp2_eq (B : boost) (a b : multi2) : bool := mp2_isDefined a && mp2_isDefined b && bg_mequals B a b.
(** 382-395, 103-117: contains(Point). *)
Definition mp2_contains (B : boost) (a : multi2) (x : point2) : result bool :=
  let! x := needd x in
  let! a := mp2_defined a in
  attempt (bg_mcovered B x a).
(** 397-410, 119-126: contains(PointSet). *)
Definition mp2_contains_ps (a : multi2) (s : pointset2) : result bool :=
  if ps2_isEmpty s then Err EUndefined
  else
    let! _ := mp2_defined a in
    Err EToBeImplemented.
(** 412-420, 128-131: getPolygonCount. *)
Definition mp2_getPolygonCount (a : multi2) : result nat := let! a := mp2_defined a in Ok (length a).
(** 422-430, 133-169: getPolygons. *)
Definition mp2_getPolygons (m : R) (a : multi2) : result (list poly2) :=
  let! a := mp2_defined a in mapM (pg2_from_boost m) a.
(** 432-440, 171-185: getConvexHull. *)
Definition mp2_getConvexHull (B : boost) (m : R) (a : multi2) : result poly2 :=
  let! a := mp2_defined a in
  let! h := attempt (bg_mhull B a) in
  pg2_from_boost m h.
(** 442-461, 187-201: unionWith. *)
Definition mp2_unionWith (B : boost) (a b : multi2) : result multi2 :=
  let! b := mp2_defined b in
  let! a := mp2_defined a in
  attempt (bg_union B a b).
(** 502-515, 232-255: applyTransformation. *)
Definition mp2_apply (t : t2_transf) (a : multi2) : result multi2 :=
  if negb (t2_isDefined t) then Err EUndefined
  else
    let! a := mp2_defined a in
    let! x := t2_getMatrix t in
    Ok (map (bg_transform_polygon x) a).
(** 517-525: Undefined, Polygon. *)
Definition mp2_Undefined : multi2 := [].
Definition mp2_Polygon (m : R) (p : poly2) : result multi2 := MultiPolygon2 m [p].
(** Polygon.cpp 1021-1029: unionWith. *)
Definition pg2_unionWith (B : boost) (m : R) (p q : poly2) : result multi2 :=
  if negb (pg2_isDefined p) || negb (pg2_isDefined q) then Err EUndefined
  else
    let! a := mp2_Polygon m p in
    let! b := mp2_Polygon m q in
    mp2_unionWith B a b.

(** *** Object.cpp, Composite.cpp *)
(** The classes derived from Object (MultiLineString has no source file). *)
Inductive obj2 :=
| O2Point (p : point2)
| O2PointSet (s : pointset2)
| O2Line (l : line2)
| O2Segment (s : segment2)
| O2LineString (l : linestring2)
| O2Polygon (p : poly2)
| O2MultiPolygon (a : multi2)
| O2Composite (defined : bool) (objects : list obj2).
(** Composite.hpp: defined_, objects_. *)
Definition composite2 := (bool * list obj2)%type.
Definition obj_of_composite2 (c : composite2) : obj2 := O2Composite (fst c) (snd c).
(** Virtual isDefined; Composite.cpp 195-205 for composites. *)
Fixpoint obj2_isDefined (o : obj2) : bool :=
  match o with
  | O2Point p => match p with Some _ => true | None => false end
  | O2PointSet s => ps2_isDefined s
  | O2Line l => match l2_data l with Ok _ => true | _ => false end
  | O2Segment s => match s2_data s with Ok _ => true | _ => false end
  | O2LineString l => ls2_isDefined l
  | O2Polygon p => pg2_isDefined p
  | O2MultiPolygon a => mp2_isDefined a
  | O2Composite d l => d && forallb obj2_isDefined l
  end.
(** Object.cpp 24-65: operator==. *)
Definition obj2_eq (B : boost) (a b : obj2) : bool :=
  obj2_isDefined a && obj2_isDefined b &&
  match a, b with
  | O2Point p, O2Point q => p2_eq p q
  | O2Polygon p, O2Polygon q => pg2_eq B p q
  | O2MultiPolygon p, O2MultiPolygon q => mp2_eq B p q
  | _, _ => false
  end.
(** Object.cpp 79-92, overridden by Composite.cpp 217-237: intersects. *)
Fixpoint obj2_intersects (a b : obj2) : result bool :=
  if negb (obj2_isDefined b) then Err EUndefined
  else
    match a with
    | O2Composite _ l =>
      if negb (obj2_isDefined a) then Err EUndefined else anyM (fun r => r) (map (fun x => obj2_intersects x b) l)
    | _ => Err EToBeImplemented
    end.
(** Object.cpp 94-167, overridden by Composite.cpp 261-286: contains. *)
Fixpoint obj2_contains (B : boost) (a b : obj2) : result bool :=
  if negb (obj2_isDefined b) then Err EUndefined
  else
    match a, b with
    | O2LineString l, O2Point p => ls2_contains l p
    | O2Polygon g, O2Point p => pg2_contains B g p
    | O2Polygon g, O2PointSet s => pg2_contains_ps B g s
    | O2Polygon g, O2LineString l => pg2_contains_ls B g l
    | O2MultiPolygon g, O2Point p => mp2_contains B g p
    | O2MultiPolygon g, O2PointSet s => mp2_contains_ps g s
    | O2Composite _ l, _ =>
      if negb (obj2_isDefined a) then Err EUndefined
      else match l with
           | [] => Ok false
           | _ => allM (fun r => r) (map (fun x => obj2_contains B x b) l)
           end
    | _, _ => Err EToBeImplemented
    end.
(** Virtual applyTransformation; Composite.cpp 524-545 for composites. *)
Fixpoint obj2_apply (t : t2_transf) (o : obj2) : result obj2 :=
  match o with
  | O2Point p => rmap O2Point (p2_apply t p)
  | O2PointSet s => rmap O2PointSet (ps2_apply t s)
  | O2Line l => rmap O2Line (l2_apply t l)
  | O2Segment s => rmap O2Segment (s2_apply t s)
  | O2LineString l => rmap O2LineString (ls2_apply t l)
  | O2Polygon p => rmap O2Polygon (pg2_apply t p)
  | O2MultiPolygon a => rmap O2MultiPolygon (mp2_apply t a)
  | O2Composite d l =>
    if negb (t2_isDefined t) then Err EUndefined
    else if negb (obj2_isDefined o) then Err EUndefined
    else if t2_isIdentity t then Ok o
    else rmap (O2Composite d) (mapM (fun r => r) (map (obj2_apply t) l))
  end.

Definition cs2_isDefined (c : composite2) : bool := obj2_isDefined (obj_of_composite2 c).
Definition cs2_defined (c : composite2) : result composite2 := if cs2_isDefined c then Ok c else Err EUndefined.
(** Composite.cpp 21-53: constructors. *)
Definition Composite2_object (o : obj2) : composite2 := (true, [o]).
Definition Composite2 (l : list obj2) : composite2 := (true, l).
(** Composite.cpp 547-559: Undefined, Empty. *)
Definition cs2_Undefined : composite2 := (false, []).
Definition cs2_Empty : composite2 := (true, []).
(** Composite.cpp 102-123: operator==. *)
Fixpoint objs2_eq (B : boost) (l r : list obj2) : bool :=
  match l, r with
  | a :: l, b :: r => if negb (obj2_eq B a b) then false else objs2_eq B l r
  | _, _ => true
  end.
Definition cs2_eq (B : boost) (c d : composite2) : bool :=
  if negb (cs2_isDefined c) || negb (cs2_isDefined d) then false
  else if negb (Nat.eqb (length (snd c)) (length (snd d))) then false
  else objs2_eq B (snd c) (snd d).
(** Composite.cpp 130-193: operator+ and operator+=. *)
Definition cs2_add (c d : composite2) : result composite2 :=
  let! d := cs2_defined d in
  let! c := cs2_defined c in
  Ok (true, snd c ++ snd d).
Definition cs2_add_assign (c d : composite2) : result composite2 :=
  let! d := cs2_defined d in
  let! c := cs2_defined c in
  Ok (fst c, snd c ++ snd d).
(** Composite.cpp 207-215: isEmpty. *)
Definition cs2_isEmpty (c : composite2) : result bool :=
  let! c := cs2_defined c in Ok (match snd c with [] => true | _ => false end).
(** Composite.cpp 217-237, 261-286: intersects(Object), contains(Object). *)
Definition cs2_intersects (c : composite2) (o : obj2) : result bool := obj2_intersects (obj_of_composite2 c) o.
Definition cs2_contains (B : boost) (c : composite2) (o : obj2) : result bool := obj2_contains B (obj_of_composite2 c) o.
(** Composite.cpp 239-259: intersects(Composite). *)
Definition cs2_intersects_cs (c d : composite2) : result bool :=
  let! d := cs2_defined d in
  let! c := cs2_defined c in
  anyM (cs2_intersects c) (snd d).
(** Composite.cpp 288-313: contains(Composite). *)
Definition cs2_contains_cs (B : boost) (c d : composite2) : result bool :=
  let! d := cs2_defined d in
  let! c := cs2_defined c in
  let! e := cs2_isEmpty c in
  if e then Ok false else allM (cs2_contains B c) (snd d).
(** Composite.cpp 315-340: anyContains(Object). *)
Definition cs2_anyContains (B : boost) (c : composite2) (o : obj2) : result bool :=
  if negb (obj2_isDefined o) then Err EUndefined
  else
    let! c := cs2_defined c in
    let! e := cs2_isEmpty c in
    if e then Ok false else anyM (fun x => obj2_contains B x o) (snd c).
(** Composite.cpp 342-367: anyContains(Composite). *)
Definition cs2_anyContains_cs (B : boost) (c d : composite2) : result bool :=
  let! d := cs2_defined d in
  let! c := cs2_defined c in
  let! e := cs2_isEmpty c in
  if e then Ok false else anyM (cs2_contains B c) (snd d).
(** Composite.cpp 369-402: accessObjectAt, accessObjects, getObjectCount. *)
Definition cs2_accessObjectAt (c : composite2) (i : nat) : result obj2 :=
  let! c := cs2_defined c in
  match nth_error (snd c) i with Some o => Ok o | None => Err ERuntime end.
Definition cs2_accessObjects (c : composite2) : result (list obj2) := let! c := cs2_defined c in Ok (snd c).
Definition cs2_getObjectCount (c : composite2) : result nat := let! c := cs2_defined c in Ok (length (snd c)).
(** Composite.hpp 171-212: is<T>, as<T>; [cast]: dynamic_cast to T. *)
Definition cs2_is {T} (cast : obj2 -> option T) (c : composite2) : result bool :=
  let! c := cs2_defined c in
  Ok (match snd c with [o] => match cast o with Some _ => true | None => false end | _ => false end).
Definition cs2_as {T} (cast : obj2 -> option T) (c : composite2) : result T :=
  let! c := cs2_defined c in
  match snd c with
  | [o] => match cast o with Some x => Ok x | None => Err ERuntime end
  | _ => Err ERuntime
  end.
(** Composite.cpp 524-545: applyTransformation. *)
Definition cs2_apply (t : t2_transf) (c : composite2) : result composite2 :=
  if negb (t2_isDefined t) then Err EUndefined
  else
    let! c := cs2_defined c in
    if t2_isIdentity t then Ok c
    else
      let! l := mapM (obj2_apply t) (snd c) in
      Ok (fst c, l).

(** *** Intersection.cpp *)
(** Intersection.hpp 45-58: Type. *)
Inductive itype2 := I2Undefined | I2Empty | I2Point | I2PointSet | I2Line | I2Segment | I2LineString | I2Polygon | I2Complex.
Definition itype2_eqb (a b : itype2) : bool :=
  match a, b with
  | I2Undefined, I2Undefined | I2Empty, I2Empty | I2Point, I2Point | I2PointSet, I2PointSet | I2Line, I2Line
  | I2Segment, I2Segment | I2LineString, I2LineString | I2Polygon, I2Polygon | I2Complex, I2Complex => true
  | _, _ => false
  end.
(** Intersection.hpp: type_, composite_. *)
Record inter2 := mkI2 { i2_type : itype2; i2_composite : composite2 }.
(** 288-321: TypeFromObjects, one object. *)
Definition type_of_object2 (o : obj2) : itype2 :=
  match o with
  | O2Point _ => I2Point
  | O2PointSet _ => I2PointSet
  | O2Line _ => I2Line
  | O2Segment _ => I2Segment
  | O2LineString _ => I2LineString
  | O2Polygon _ => I2Polygon
  | O2MultiPolygon _ | O2Composite _ _ => I2Undefined
  end.
(** 262-286: TypeFromObjects, an array. *)
Fixpoint type_loop2 (t : itype2) (l : list obj2) : itype2 :=
  match l with
  | [] => t
  | o :: r =>
    if itype2_eqb t I2Undefined then type_loop2 (type_of_object2 o) r
    else if negb (itype2_eqb t (type_of_object2 o)) then I2Complex
    else type_loop2 t r
  end.
Definition type_of_objects2 (l : list obj2) : itype2 := match l with [] => I2Empty | _ => type_loop2 I2Undefined l end.
(** 17-21: constructor. *)
Definition Intersection2 (l : list obj2) : inter2 := mkI2 (type_of_objects2 l) (Composite2 l).
(** 102-115: isDefined, isEmpty, isComplex. *)
Definition i2_isDefined (i : inter2) : bool := negb (itype2_eqb (i2_type i) I2Undefined).
Definition i2_isEmpty (i : inter2) : bool := itype2_eqb (i2_type i) I2Empty.
Definition i2_isComplex (i : inter2) : bool := itype2_eqb (i2_type i) I2Complex.
Definition i2_defined (i : inter2) : result inter2 := if i2_isDefined i then Ok i else Err EUndefined.
(** 117-135: accessComposite, getType. *)
Definition i2_accessComposite (i : inter2) : result composite2 := let! i := i2_defined i in Ok (i2_composite i).
Definition i2_getType (i : inter2) : result itype2 := let! i := i2_defined i in Ok (i2_type i).
(** 42-50: operator==. *)
Definition i2_eq (B : boost) (i j : inter2) : bool :=
  i2_isDefined i && i2_isDefined j && (itype2_eqb (i2_type i) (i2_type j) && cs2_eq B (i2_composite i) (i2_composite j)).
(** 57-71: operator+. *)
Definition i2_add (i j : inter2) : result inter2 :=
  let! j := i2_defined j in
  let! c := cs2_add (i2_composite i) (i2_composite j) in
  let! l := cs2_accessObjects c in
  Ok (mkI2 (type_of_objects2 l) c).
(** 73-85: operator+=. *)
Definition i2_add_assign (i j : inter2) : result inter2 :=
  let! j := i2_defined j in
  let! c := cs2_add_assign (i2_composite i) (i2_composite j) in
  let! l := cs2_accessObjects c in
  Ok (mkI2 (type_of_objects2 l) c).
(** 137-149, 256-260: Undefined, Empty. *)
Definition i2_Undefined : inter2 := mkI2 I2Undefined cs2_Undefined.
Definition i2_Empty : inter2 := Intersection2 [].
(** 151-215: Point, PointSet, LineString, Line, Segment, Polygon. *)
Definition i2_Point (p : point2) : inter2 := mkI2 I2Point (Composite2_object (O2Point p)).
Definition i2_PointSet (s : pointset2) : inter2 := mkI2 I2PointSet (Composite2_object (O2PointSet s)).
Definition i2_LineString (l : linestring2) : inter2 := mkI2 I2LineString (Composite2_object (O2LineString l)).
Definition i2_Line (l : line2) : inter2 := mkI2 I2Line (Composite2_object (O2Line l)).
Definition i2_Segment (s : segment2) : inter2 := mkI2 I2Segment (Composite2_object (O2Segment s)).
Definition i2_Polygon (p : poly2) : inter2 := mkI2 I2Polygon (Composite2_object (O2Polygon p)).
(** Intersection.hpp 191-225: is<T>, as<T>. *)
Definition i2_is {T} (cast : obj2 -> option T) (i : inter2) : result bool := let! i := i2_defined i in cs2_is cast (i2_composite i).
Definition i2_as {T} (cast : obj2 -> option T) (i : inter2) : result T := let! i := i2_defined i in cs2_as cast (i2_composite i).

(** *** Polygon.cpp again *)
(** 459-466: the polygons of an intersection. *)
Fixpoint add_polygons (m : R) (i : inter2) (l : list poly2) : result inter2 :=
  match l with
  | [] => Ok i
  | p :: r =>
    let! p := pg2_from_boost m p in
    let! i := i2_add_assign i (i2_Polygon p) in
    add_polygons m i r
  end.
(** 468-499: its line strings, when valid and in no object found so far. *)
Fixpoint add_lines (B : boost) (i : inter2) (l : list (list v2)) : result inter2 :=
  match l with
  | [] => Ok i
  | s :: r =>
    if bg_line_valid B s then
      let! c := i2_accessComposite i in
      let! b := cs2_anyContains B c (O2LineString (map Some s)) in
      let! i := if negb b then i2_add_assign i (i2_LineString (map Some s)) else Ok i in
      add_lines B i r
    else add_lines B i r
  end.
(** 501-515: its points, when in no object found so far. *)
Fixpoint add_points (B : boost) (i : inter2) (l : list v2) : result inter2 :=
  match l with
  | [] => Ok i
  | p :: r =>
    let! c := i2_accessComposite i in
    let! b := cs2_anyContains B c (O2Point (Some p)) in
    let! i := if negb b then i2_add_assign i (i2_Point (Some p)) else Ok i in
    add_points B i r
  end.
(** 1001-1009, 392-527: intersectionWith. *)
Definition pg2_intersectionWith (B : boost) (m : R) (p q : poly2) : result inter2 :=
  if negb (pg2_isDefined p) || negb (pg2_isDefined q) then Err EUndefined
  else if negb (bg_valid B p) then Err ERuntime
  else if negb (bg_valid B q) then Err ERuntime
  else
    let! polygons := attempt (bg_inter_polygons B p q) in
    let! lines := attempt (bg_inter_lines B p q) in
    let! points := attempt (bg_inter_points B p q) in
    let! i := add_polygons m i2_Empty polygons in
    let! i := add_lines B i lines in
    add_points B i points.
(** 1011-1019, 529-588: differenceWith. *)
Definition pg2_differenceWith (B : boost) (m : R) (p q : poly2) : result inter2 :=
  if negb (pg2_isDefined p) || negb (pg2_isDefined q) then Err EUndefined
  else if negb (bg_valid B p) then Err ERuntime
  else if negb (bg_valid B q) then Err ERuntime
  else
    let! polygons := attempt (bg_difference B p q) in
    add_polygons m i2_Empty polygons.
