(** Model of the 3D points, point sets, lines, rays, segments, planes and line strings
    (/repo/src/OpenSpaceToolkit/Mathematics/Geometry/3D/Object/{Point,PointSet,Line,Ray,Segment,
    Plane,LineString}.cpp), with exact real arithmetic. *)

From Coq Require Import List Bool Reals.
From Verif Require Import Result DOrder Vec AngleModel RotModel TransfModel Geo3Types.
Import ListNotations.
Local Open Scope R_scope.

(** *** Point.cpp *)
Definition isSome {A} (x : option A) : bool := match x with Some _ => true | None => false end.
Definition v3_eqb (a b : v3) : bool := if v3_eq_dec a b then true else false.
(** Point.cpp 33-41: operator==. *)
Definition pt_eq (p q : point) : bool := match p, q with Some p, Some q => v3_eqb p q | _, _ => false end.
(** Point.cpp 48-76: operator+ and operator- with a vector. *)
Definition pt_add (p : point) (v : option v3) : result v3 := let! p := needd p in let! v := needd v in Ok (add3 p v).
Definition pt_subv (p : point) (v : option v3) : result v3 := let! p := needd p in let! v := needd v in Ok (sub3 p v).
(** Point.cpp 78-91: operator- with a point. *)
Definition pt_sub (p q : point) : result v3 := let! q := needd q in let! p := needd p in Ok (sub3 p q).
(** Point.cpp 148-161: distanceTo. *)
Definition pt_distanceTo (p q : point) : result R :=
  let! q := needd q in
  let! p := needd p in
  Ok (norm3 (sub3 p q)).
(** Point.cpp 98-106: isNear. *)
Definition pt_isNear (p q : point) (tol : option R) : result bool :=
  let! tol := need tol in
  let! d := pt_distanceTo p q in
  Ok (Rleb d tol).
(** Point.cpp 184-197: applyTransformation. *)
Definition pt_apply (t : t3_transf) (p : point) : result point :=
  if negb (t3_isDefined t) then Err EUndefined
  else let! p := needd p in t3_applyTo_point t (Some p).

(** *** PointSet.cpp *)
(** Insertion in the set: ignored when an equal point is there. *)
Definition ps_mem (p : v3) (s : pointset) : bool := existsb (v3_eqb p) s.
Definition ps_insert (s : pointset) (p : v3) : pointset := if ps_mem p s then s else s ++ [p].
(** PointSet.cpp 21-25: constructor (hashing an undefined point throws). *)
Definition PointSet (l : list point) : result pointset :=
  let! l := mapM needd l in Ok (fold_left ps_insert l []).
(** PointSet.cpp 32-35: operator== of two unordered_set. *)
Definition ps_eq (s t : pointset) : bool :=
  Nat.eqb (length s) (length t) && forallb (fun p => ps_mem p t) s.
(** PointSet.cpp 42-50: isDefined, isEmpty. *)
Definition ps_isEmpty (s : pointset) : bool := match s with [] => true | _ => false end.
Definition ps_isDefined (s : pointset) : bool := negb (ps_isEmpty s).
(** PointSet.cpp 73-87: the inner loop of isNear removes the first near point. *)
Fixpoint ps_take_near (p : v3) (tol : option R) (t : pointset) : result (option pointset) :=
  match t with
  | [] => Ok None
  | q :: r =>
    let! b := pt_isNear (Some p) (Some q) tol in
    if b then Ok (Some r)
    else
      let! o := ps_take_near p tol r in
      Ok (match o with Some r' => Some (q :: r') | None => None end)
  end.
Fixpoint ps_match_near (s : pointset) (tol : option R) (t : pointset) : result bool :=
  match s with
  | [] => Ok true
  | p :: r =>
    let! o := ps_take_near p tol t in
    match o with Some t' => ps_match_near r tol t' | None => Ok false end
  end.
(** PointSet.cpp 52-100: isNear. *)
Definition ps_isNear (s t : pointset) (tol : option R) : result bool :=
  if ps_isEmpty s || ps_isEmpty t then Ok false
  else if negb (Nat.eqb (length s) (length t)) then Ok false
  else ps_match_near s tol t.
(** std::min_element: the first of the least elements. *)
Fixpoint min_from (m : R) (l : list R) : R :=
  match l with
  | [] => m
  | x :: r => min_from (if Rltb x m then x else m) r
  end.
(** PointSet.cpp 107-130: distanceTo. *)
Definition ps_distanceTo (s : pointset) (p : point) : result R :=
  let! p := needd p in
  match s with
  | [] => Err EUndefined
  | q :: r =>
    let! d := pt_distanceTo (Some p) (Some q) in
    let! ds := mapM (fun q => pt_distanceTo (Some p) (Some q)) r in
    Ok (min_from d ds)
  end.
(** PointSet.cpp 144-157, LineString.cpp 102-115: the loop of getPointClosestTo. *)
Fixpoint closest_from (p best : v3) (dmin : R) (l : list v3) : v3 :=
  match l with
  | [] => best
  | q :: r =>
    let d := sqnorm3 (sub3 q p) in
    if Rltb d dmin then closest_from p q d r else closest_from p best dmin r
  end.
(** PointSet.cpp 132-160: getPointClosestTo. *)
Definition ps_getPointClosestTo (s : pointset) (p : point) : result v3 :=
  let! p := needd p in
  match s with
  | [] => Err EUndefined
  | q :: r => Ok (closest_from p q (sqnorm3 (sub3 q p)) r)
  end.
(** PointSet.cpp 184-204: applyTransformation. *)
Definition ps_apply (t : t3_transf) (s : pointset) : result pointset :=
  if negb (t3_isDefined t) then Err EUndefined
  else if negb (ps_isDefined s) then Err EUndefined
  else
    let! l := mapM (fun p => t3_applyTo_point t (Some p)) s in
    PointSet l.

(** *** Intersection.cpp 137-215: the results made by the linear objects. *)
Definition inter_empty : inter := mkInter IEmpty true [].
Definition inter_point (p : v3) : inter := mkInter IPoint true [OPoint (Some p)].
Definition inter_pointset (s : pointset) : inter := mkInter IPointSet true [OPointSet s].
Definition inter_line (l : line) : inter := mkInter ILine true [OLine l].
Definition inter_ray (r : ray) : inter := mkInter IRay true [ORay r].
Definition inter_segment (s : segment) : inter := mkInter ISegment true [OSegment s].
Definition inter_linestring (l : linestring) : inter := mkInter ILineString true [OLineString l].

(** *** Plane.cpp *)
(** Plane.cpp 21-26: constructor. *)
Definition Plane (p : point) (n : option v3) : plane := mkPlane p (option_map normalized3 n).
(** Plane.cpp 53-56: isDefined, with the members when it holds. *)
Definition pl_isDefined (pl : plane) : bool := isSome (pl_point pl) && isSome (pl_normal pl).
Definition pl_data (pl : plane) : result (v3 * v3) :=
  match pl_point pl, pl_normal pl with Some q, Some n => Ok (q, n) | _, _ => Err EUndefined end.
(** Plane.cpp 100-113: contains(Point). *)
Definition pl_contains (pl : plane) (p : point) : result bool :=
  let! p := needd p in
  let! (q, n) := pl_data pl in
  Ok (Reqb (dot3 (sub3 p q) n) 0).
(** Plane.cpp 33-46: operator==. *)
Definition pl_eq (a b : plane) : result bool :=
  match pl_data a, pl_data b with
  | Ok (q, n), Ok (q', n') =>
    if v3_eqb n n' || v3_eqb n (opp3 n') then
      if v3_eqb q q' then Ok true else pl_contains a (Some q')
    else Ok false
  | _, _ => Ok false
  end.
(** Plane.cpp 115-135: contains(PointSet). *)
Definition pl_contains_ps (pl : plane) (s : pointset) : result bool :=
  if negb (ps_isDefined s) then Err EUndefined
  else
    let! _ := pl_data pl in
    allM (fun p => pl_contains pl (Some p)) s.
(** Plane.cpp 63-83: intersects(PointSet). *)
Definition pl_intersects_ps (pl : plane) (s : pointset) : result bool :=
  if negb (ps_isDefined s) then Err EUndefined
  else
    let! _ := pl_data pl in
    anyM (fun p => pl_contains pl (Some p)) s.
(** Plane.cpp 202-205: intersectionWith(Point). *)
Definition pl_inter_point (pl : plane) (p : point) : result inter :=
  let! b := pl_contains pl p in
  let! p := needd p in
  Ok (if b then inter_point p else inter_empty).
(** Plane.cpp 214-222: the points of the set in the plane, in order. *)
Fixpoint pl_filter (pl : plane) (s : pointset) : result (list v3) :=
  match s with
  | [] => Ok []
  | p :: r => let! b := pl_contains pl (Some p) in let! l := pl_filter pl r in Ok (if b then p :: l else l)
  end.
(** Plane.cpp 207-227: intersectionWith(PointSet). *)
Definition pl_inter_ps (pl : plane) (s : pointset) : result inter :=
  let! _ := pl_data pl in
  let! l := pl_filter pl s in
  match l with
  | [] => Ok inter_empty
  | [p] => Ok (inter_point p)
  | _ => let! t := PointSet (map Some l) in Ok (inter_pointset t)
  end.
(** Plane.cpp 256-270: applyTransformation. *)
Definition pl_apply (t : t3_transf) (pl : plane) : result plane :=
  if negb (t3_isDefined t) then Err EUndefined
  else
    let! (q, n) := pl_data pl in
    let! q' := pt_apply t (Some q) in
    Ok (mkPlane q' (t3_applyTo_vector t (Some n))).

(** *** Line.cpp, Ray.cpp *)
(** Line.cpp 24-38, Ray.cpp 24-38: what the constructors do to the direction. *)
Definition unit_direction (d : option v3) : result (option v3) :=
  match d with
  | None => Ok None
  | Some d =>
    if Reqb (sqnorm3 d) 1 then Ok (Some d)
    else if Reqb (sqnorm3 d) 0 then Err EWrong
    else Ok (Some (normalized3 d))
  end.
Definition Line (o : point) (d : option v3) : result line := let! d := unit_direction d in Ok (mkLine o d).
Definition Ray (o : point) (d : option v3) : result ray := let! d := unit_direction d in Ok (mkRay o d).
(** Line.cpp 65-68, Ray.cpp 60-63: isDefined, with the members when it holds. *)
Definition l_data (l : line) : result (v3 * v3) :=
  match l_origin l, l_direction l with Some o, Some d => Ok (o, d) | _, _ => Err EUndefined end.
Definition r_data (r : ray) : result (v3 * v3) :=
  match r_origin r, r_direction r with Some o, Some d => Ok (o, d) | _, _ => Err EUndefined end.
(** Line.cpp 118-131: contains(Point). *)
Definition l_contains (l : line) (p : point) : result bool :=
  let! p := needd p in
  let! (o, d) := l_data l in
  Ok (Reqb (sqnorm3 (cross3 d (sub3 p o))) 0).
(** Line.cpp 45-58: operator==. *)
Definition l_eq (a b : line) : result bool :=
  match l_data a, l_data b with
  | Ok (_, d), Ok (o', d') => if v3_eqb d d' || v3_eqb d (opp3 d') then l_contains a (Some o') else Ok false
  | _, _ => Ok false
  end.
(** Line.cpp 133-154: contains(PointSet). *)
Definition l_contains_ps (l : line) (s : pointset) : result bool :=
  let! _ := l_data l in
  if ps_isEmpty s then Err EUndefined else allM (fun p => l_contains l (Some p)) s.
(** Line.cpp 176-184: distanceTo(Point). *)
Definition l_distanceTo (l : line) (p : point) : result R :=
  let! (o, d) := l_data l in
  let! v := pt_sub p (Some o) in
  Ok (norm3 (cross3 d v)).
(** Line.cpp 80-106: intersects(Plane). *)
Definition l_intersects_plane (l : line) (pl : plane) : result bool :=
  let! (P0, v) := l_data l in
  let! (Q0, n) := pl_data pl in
  let nDotV := dot3 n v in
  if Reqb nDotV 0 then Ok (Reqb (dot3 n (sub3 Q0 P0)) 0) else Ok true.
(** Line.cpp 186-219: intersectionWith(Plane). *)
Definition l_inter_plane (l : line) (pl : plane) : result inter :=
  let! (P0, v) := l_data l in
  let! (Q0, n) := pl_data pl in
  let nDotV := dot3 n v in
  if Reqb nDotV 0 then
    if Reqb (dot3 n (sub3 Q0 P0)) 0 then Ok (inter_line l) else Ok inter_empty
  else
    let t := dot3 n (sub3 Q0 P0) / nDotV in
    Ok (inter_point (add3 P0 (scale3 t v))).
(** Line.cpp 233-247: applyTransformation. *)
Definition l_apply (t : t3_transf) (l : line) : result line :=
  if negb (t3_isDefined t) then Err EUndefined
  else
    let! (o, d) := l_data l in
    let! o' := pt_apply t (Some o) in
    Ok (mkLine o' (t3_applyTo_vector t (Some d))).
(** Line.cpp 254-272: Points. *)
Definition Line_Points (p q : point) : result line :=
  let! p' := needd p in
  let! q' := needd q in
  if pt_eq p q then Err ERuntime else Line p (Some (normalized3 (sub3 q' p'))).
(** Plane.cpp 137-150: contains(Line). *)
Definition pl_contains_line (pl : plane) (l : line) : result bool :=
  let! (o, d) := l_data l in
  let! (_, n) := pl_data pl in
  let! b := pl_contains pl (Some o) in
  Ok (b && Reqb (dot3 n d) 0).

(** Ray.cpp 45-53: operator==. *)
Definition r_eq (a b : ray) : bool :=
  match r_data a, r_data b with
  | Ok (o, d), Ok (o', d') => v3_eqb o o' && v3_eqb d d'
  | _, _ => false
  end.
(** Ray.cpp 116-131: contains(Point). *)
Definition r_contains (r : ray) (p : point) : result bool :=
  let! p := needd p in
  let! (o, d) := r_data r in
  let AC := sub3 p o in
  Ok (Reqb (sqnorm3 (cross3 d AC)) 0 && Rleb 0 (dot3 d AC)).
(** Ray.cpp 133-153: contains(PointSet). *)
Definition r_contains_ps (r : ray) (s : pointset) : result bool :=
  if negb (ps_isDefined s) then Err EUndefined
  else
    let! _ := r_data r in
    allM (fun p => r_contains r (Some p)) s.
(** Ray.cpp 175-200: distanceTo(Point). *)
Definition r_distanceTo (r : ray) (p : point) : result R :=
  let! p := needd p in
  let! (o, d) := r_data r in
  if v3_eqb p o then Ok 0
  else
    let v := sub3 p o in
    if Rltb (dot3 v d) 0 then Ok (norm3 v) else Ok (norm3 (cross3 d v)).
(** Ray.cpp 76-104: intersects(Plane). *)
Definition r_intersects_plane (r : ray) (pl : plane) : result bool :=
  let! (P0, v) := r_data r in
  let! (Q0, n) := pl_data pl in
  let nDotV := dot3 n v in
  if Reqb nDotV 0 then Ok (Reqb (dot3 n (sub3 Q0 P0)) 0)
  else Ok (Rleb 0 (dot3 n (sub3 Q0 P0) / nDotV)).
(** Ray.cpp 202-240: intersectionWith(Plane). *)
Definition r_inter_plane (r : ray) (pl : plane) : result inter :=
  let! (P0, v) := r_data r in
  let! (Q0, n) := pl_data pl in
  let nDotV := dot3 n v in
  if Reqb nDotV 0 then
    if Reqb (dot3 n (sub3 Q0 P0)) 0 then Ok (inter_ray r) else Ok inter_empty
  else
    let t := dot3 n (sub3 Q0 P0) / nDotV in
    if Rltb t 0 then Ok inter_empty else Ok (inter_point (add3 P0 (scale3 t v))).
(** Ray.cpp 264-278: applyTransformation. *)
Definition r_apply (t : t3_transf) (r : ray) : result ray :=
  if negb (t3_isDefined t) then Err EUndefined
  else
    let! (o, d) := r_data r in
    let! o' := pt_apply t (Some o) in
    Ok (mkRay o' (t3_applyTo_vector t (Some d))).
(** Plane.cpp 152-165: contains(Ray). *)
Definition pl_contains_ray (pl : plane) (r : ray) : result bool :=
  let! (o, d) := r_data r in
  let! (_, n) := pl_data pl in
  let! b := pl_contains pl (Some o) in
  Ok (b && Reqb (dot3 n d) 0).

(** *** Segment.cpp *)
(** Segment.cpp 54-57: isDefined, with the members when it holds. *)
Definition s_data (s : segment) : result (v3 * v3) :=
  match s_first s, s_second s with Some a, Some b => Ok (a, b) | _, _ => Err EUndefined end.
(** Segment.cpp 38-47: operator==. *)
Definition s_eq (s t : segment) : bool :=
  match s_data s, s_data t with
  | Ok (a, b), Ok (a', b') => (v3_eqb a a' && v3_eqb b b') || (v3_eqb a b' && v3_eqb b a')
  | _, _ => false
  end.
(** Segment.cpp 59-67: isDegenerate. *)
Definition s_isDegenerate (s : segment) : result bool := let! (a, b) := s_data s in Ok (v3_eqb a b).
(** Segment.cpp 116-145: contains(Point). *)
Definition s_contains (s : segment) (p : point) : result bool :=
  let! p := needd p in
  let! (a, b) := s_data s in
  let! g := s_isDegenerate s in
  if g then Ok (v3_eqb a p)
  else
    let AB := sub3 b a in
    let AC := sub3 p a in
    if Reqb (sqnorm3 (cross3 AB AC)) 0 then
      let K_AC := dot3 AB AC in
      let K_AB := dot3 AB AB in
      Ok (Rleb 0 K_AC && Rleb K_AC K_AB)
    else Ok false.
(** Segment.cpp 172-205: getCenter, getDirection, getLength. *)
Definition s_getCenter (s : segment) : result v3 := let! (a, b) := s_data s in Ok (add3 a (scale3 (1 / 2) (sub3 b a))).
Definition s_getDirection (s : segment) : result v3 :=
  let! (a, b) := s_data s in
  let! g := s_isDegenerate s in
  if g then Err ERuntime else Ok (normalized3 (sub3 b a)).
Definition s_getLength (s : segment) : result R := let! (a, b) := s_data s in Ok (norm3 (sub3 b a)).
(** Segment.cpp 207-240: distanceTo(Point). *)
Definition s_distanceTo (s : segment) (p : point) : result R :=
  let! p := needd p in
  let! (v, w) := s_data s in
  let! g := s_isDegenerate s in
  if g then pt_distanceTo (Some v) (Some p)
  else
    let l2 := sqnorm3 (sub3 w v) in
    let t := Rmax 0 (Rmin 1 (dot3 (sub3 p v) (sub3 w v) / l2)) in
    let projection := add3 v (scale3 t (sub3 w v)) in
    pt_distanceTo (Some projection) (Some p).
(** Segment.cpp 242-265: distanceTo(PointSet). *)
Definition s_distanceTo_ps (s : segment) (ps : pointset) : result R :=
  match ps with
  | [] => Err EUndefined
  | p :: r =>
    let! _ := s_data s in
    let! d := s_distanceTo s (Some p) in
    let! ds := mapM (fun q => s_distanceTo s (Some q)) r in
    Ok (min_from d ds)
  end.
(** Segment.cpp 74-104: intersects(Plane). *)
Definition s_intersects_plane (s : segment) (pl : plane) : result bool :=
  let! (P0, P1) := s_data s in
  let! (Q0, n) := pl_data pl in
  let v := sub3 P1 P0 in
  let nDotV := dot3 n v in
  if Reqb nDotV 0 then Ok (Reqb (dot3 n (sub3 Q0 P0)) 0)
  else
    let t := dot3 n (sub3 Q0 P0) / nDotV in
    Ok (Rleb 0 t && Rleb t 1).
(** Segment.cpp 267-307: intersectionWith(Plane). *)
Definition s_inter_plane (s : segment) (pl : plane) : result inter :=
  let! (P0, P1) := s_data s in
  let! (Q0, n) := pl_data pl in
  let v := sub3 P1 P0 in
  let nDotV := dot3 n v in
  if Reqb nDotV 0 then
    if Reqb (dot3 n (sub3 Q0 P0)) 0 then Ok (inter_segment s) else Ok inter_empty
  else
    let t := dot3 n (sub3 Q0 P0) / nDotV in
    if Rltb t 0 || Rltb 1 t then Ok inter_empty else Ok (inter_point (add3 P0 (scale3 t v))).
(** Segment.cpp 309-312: toLine. *)
Definition s_toLine (s : segment) : result line := Line_Points (s_first s) (s_second s).
(** Segment.cpp 326-340: applyTransformation. *)
Definition s_apply (t : t3_transf) (s : segment) : result segment :=
  if negb (t3_isDefined t) then Err EUndefined
  else
    let! (a, b) := s_data s in
    let! a' := pt_apply t (Some a) in
    let! b' := pt_apply t (Some b) in
    Ok (mkSeg a' b').
(** Plane.cpp 167-180: contains(Segment). *)
Definition pl_contains_segment (pl : plane) (s : segment) : result bool :=
  let! (a, b) := s_data s in
  let! _ := pl_data pl in
  let! x := pl_contains pl (Some a) in
  if x then pl_contains pl (Some b) else Ok false.

(** *** LineString.cpp *)
(** LineString.cpp 32-35: operator== of two arrays of points. *)
Fixpoint pts_eq (l m : list point) : bool :=
  match l, m with
  | [], [] => true
  | p :: l, q :: m => pt_eq p q && pts_eq l m
  | _, _ => false
  end.
Definition ls_eq (l m : linestring) : bool := pts_eq l m.
(** LineString.cpp 42-50: isDefined, isEmpty. *)
Definition ls_isEmpty (l : linestring) : bool := match l with [] => true | _ => false end.
Definition ls_isDefined (l : linestring) : bool := negb (ls_isEmpty l).
(** LineString.cpp 64-72: the loop of isNear. *)
Fixpoint ls_all_near (l m : list point) (tol : option R) : result bool :=
  match l, m with
  | p :: l, q :: m => let! b := pt_isNear p q tol in if b then ls_all_near l m tol else Ok false
  | _, _ => Ok true
  end.
(** LineString.cpp 52-73: isNear. *)
Definition ls_isNear (l m : linestring) (tol : option R) : result bool :=
  if ls_isEmpty l || ls_isEmpty m then Ok false
  else if negb (Nat.eqb (length l) (length m)) then Ok false
  else ls_all_near l m tol.
(** LineString.cpp 75-83: accessPointAt. *)
Definition ls_accessPointAt (l : linestring) (i : nat) : result point :=
  match nth_error l i with Some p => Ok p | None => Err ERuntime end.
(** LineString.cpp 105-115: the loop of getPointClosestTo (operator- throws on an undefined point). *)
Fixpoint ls_closest (p best : v3) (dmin : R) (l : list point) : result v3 :=
  match l with
  | [] => Ok best
  | q :: r =>
    let! q := needd q in
    let d := sqnorm3 (sub3 q p) in
    if Rltb d dmin then ls_closest p q d r else ls_closest p best dmin r
  end.
(** LineString.cpp 90-118: getPointClosestTo. *)
Definition ls_getPointClosestTo (l : linestring) (p : point) : result v3 :=
  let! p := needd p in
  match l with
  | [] => Err EUndefined
  | q :: r => let! q := needd q in ls_closest p q (sqnorm3 (sub3 q p)) r
  end.
(** LineString.cpp 142-158: applyTransformation. *)
Definition ls_apply (t : t3_transf) (l : linestring) : result linestring :=
  if negb (t3_isDefined t) then Err EUndefined
  else if negb (ls_isDefined l) then Err EUndefined
  else mapM (pt_apply t) l.
(** LineString.cpp 165-173: Segment. *)
Definition ls_Segment (s : segment) : result linestring := let! (a, b) := s_data s in Ok [Some a; Some b].
