(** Model of the 2D points, point sets, lines, segments and line strings
    (/repo/src/OpenSpaceToolkit/Mathematics/Geometry/2D/Object/{Point,PointSet,Line,Segment,LineString}.cpp),
    with exact real arithmetic. *)

From Coq Require Import List Bool Reals.
From Verif Require Import Result DOrder Vec AngleModel RotModel TransfModel Geo3Types Geo3Model.
Import ListNotations.
Local Open Scope R_scope.

(** *** Point.cpp *)
(** Point.hpp: x_, y_; nothing reads the coordinates of an undefined point. *)
Definition point2 := option v2.
Definition v2_eqb (a b : v2) : bool := if v2_eq_dec a b then true else false.
(** Point.cpp 32-40: operator==. *)
Definition p2_eq (p q : point2) : bool := match p, q with Some p, Some q => v2_eqb p q | _, _ => false end.
(** Point.cpp 47-75: operator+ and operator- with a vector. *)
Definition p2_add (p : point2) (v : option v2) : result v2 := let! p := needd p in let! v := needd v in Ok (add2 p v).
Definition p2_subv (p : point2) (v : option v2) : result v2 := let! p := needd p in let! v := needd v in Ok (sub2 p v).
(** Point.cpp 77-90: operator- with a point. *)
Definition p2_sub (p q : point2) : result v2 := let! p := needd p in let! q := needd q in Ok (sub2 p q).
(** Point.cpp 137-150: distanceTo. *)
Definition p2_distanceTo (p q : point2) : result R :=
  let! q := needd q in
  let! p := needd p in
  Ok (norm2 (sub2 p q)).
(** Point.cpp 97-105: isNear. *)
Definition p2_isNear (p q : point2) (tol : option R) : result bool :=
  let! tol := need tol in
  let! d := p2_distanceTo p q in
  Ok (Rleb d tol).
(** Point.cpp 185-198: applyTransformation. *)
Definition p2_apply (t : t2_transf) (p : point2) : result point2 :=
  if negb (t2_isDefined t) then Err EUndefined
  else let! p := needd p in t2_applyTo_point t (Some p).

(** *** PointSet.cpp *)
(** PointSet.hpp 44-68: an unordered_set of points; hashing an undefined point throws.  The list is the iteration
    order, which the library leaves to the hash function. *)
Definition pointset2 := list v2.
Definition ps2_mem (p : v2) (s : pointset2) : bool := existsb (v2_eqb p) s.
Definition ps2_insert (s : pointset2) (p : v2) : pointset2 := if ps2_mem p s then s else s ++ [p].
(** PointSet.cpp 20-24: from an array. *)
Definition PointSet2 (l : list point2) : result pointset2 :=
  let! l := mapM needd l in
  Ok (fold_left ps2_insert l []).
(** PointSet.cpp 31-34: operator== of unordered sets. *)
Definition ps2_eq (s t : pointset2) : bool :=
  Nat.eqb (length s) (length t) && forallb (fun p => ps2_mem p t) s.
(** PointSet.cpp 41-49: isDefined, isEmpty. *)
Definition ps2_isEmpty (s : pointset2) : bool := match s with [] => true | _ => false end.
Definition ps2_isDefined (s : pointset2) : bool := negb (ps2_isEmpty s).
(** PointSet.cpp 51-99: isNear, the two loops. *)
Fixpoint ps2_take_near (p : v2) (tol : option R) (t : pointset2) : result (option pointset2) :=
  match t with
  | [] => Ok None
  | q :: r =>
    let! b := p2_isNear (Some p) (Some q) tol in
    if b then Ok (Some r)
    else let! o := ps2_take_near p tol r in Ok (option_map (cons q) o)
  end.
Fixpoint ps2_match_near (s : pointset2) (tol : option R) (t : pointset2) : result bool :=
  match s with
  | [] => Ok true
  | p :: r =>
    let! o := ps2_take_near p tol t in
    match o with Some t' => ps2_match_near r tol t' | None => Ok false end
  end.
Definition ps2_isNear (s t : pointset2) (tol : option R) : result bool :=
  if ps2_isEmpty s || ps2_isEmpty t then Ok false
  else if negb (Nat.eqb (length s) (length t)) then Ok false
  else ps2_match_near s tol t.
(** PointSet.cpp 106-129: distanceTo. *)
Definition ps2_distanceTo (s : pointset2) (p : point2) : result R :=
  let! p := needd p in
  match s with
  | [] => Err EUndefined
  | q :: r =>
    let! d := p2_distanceTo (Some p) (Some q) in
    let! ds := mapM (fun q => p2_distanceTo (Some p) (Some q)) r in
    Ok (min_from d ds)
  end.
(** PointSet.cpp 143-156, LineString.cpp 145-158: the loop of getPointClosestTo. *)
Fixpoint closest2_from (p best : v2) (dmin : R) (l : list v2) : v2 :=
  match l with
  | [] => best
  | q :: r =>
    let d := sqnorm2 (sub2 q p) in
    if Rltb d dmin then closest2_from p q d r else closest2_from p best dmin r
  end.
(** PointSet.cpp 131-159: getPointClosestTo. *)
Definition ps2_getPointClosestTo (s : pointset2) (p : point2) : result v2 :=
  let! p := needd p in
  match s with
  | [] => Err EUndefined
  | q :: r => Ok (closest2_from p q (sqnorm2 (sub2 q p)) r)
  end.
(** PointSet.cpp 222-242: applyTransformation. *)
Definition ps2_apply (t : t2_transf) (s : pointset2) : result pointset2 :=
  if negb (t2_isDefined t) then Err EUndefined
  else if negb (ps2_isDefined s) then Err EUndefined
  else
    let! l := mapM (fun p => t2_applyTo_point t (Some p)) s in
    PointSet2 l.

(** *** Line.cpp *)
(** Line.hpp: origin_, direction_. *)
Record line2 := mkLine2 { l2_origin : point2; l2_direction : option v2 }.
(** Line.cpp 21-35: constructor. *)
Definition Line2 (o : point2) (d : option v2) : result line2 :=
  match d with
  | None => Ok (mkLine2 o None)
  | Some d =>
    if Reqb (sqnorm2 d) 1 then Ok (mkLine2 o (Some d))
    else if Reqb (sqnorm2 d) 0 then Err EWrong
    else Ok (mkLine2 o (Some (normalized2 d)))
  end.
(** Line.cpp 62-65: isDefined, with the members when it holds. *)
Definition l2_data (l : line2) : result (v2 * v2) :=
  match l2_origin l, l2_direction l with Some o, Some d => Ok (o, d) | _, _ => Err EUndefined end.
(** Line.cpp 72-100: contains(Point). *)
Definition l2_contains (l : line2) (p : point2) : result bool :=
  let! p := needd p in
  let! (o, d) := l2_data l in
  if v2_eqb p o then Ok true
  else
    let q := add2 o d in
    if Reqb (x2 q) (x2 o) then Ok (Reqb (x2 p) (x2 o))
    else
      let m := (y2 q - y2 o) / (x2 q - x2 o) in
      Ok (Reqb (y2 p) (m * (x2 p - x2 o) + y2 o)).
(** Line.cpp 67-70: intersects(Point). *)
Definition l2_intersects (l : line2) (p : point2) : result bool := l2_contains l p.
(** Line.cpp 42-55: operator==. *)
Definition l2_eq (a b : line2) : result bool :=
  match l2_data a, l2_data b with
  | Ok (_, d), Ok (o', d') => if v2_eqb d d' || v2_eqb d (opp2 d') then l2_contains a (Some o') else Ok false
  | _, _ => Ok false
  end.
(** Line.cpp 102-123: contains(PointSet). *)
Definition l2_contains_ps (l : line2) (s : pointset2) : result bool :=
  let! _ := l2_data l in
  if ps2_isEmpty s then Err EUndefined else allM (fun p => l2_contains l (Some p)) s.
(** Line.cpp 145-159: distanceTo. *)
Definition l2_distanceTo (l : line2) (p : point2) : result R :=
  let! (a, n) := l2_data l in
  let! v := p2_sub p (Some a) in
  Ok (norm2 (sub2 v (scale2 (dot2 v n) n))).
(** Line.cpp 192-206: applyTransformation. *)
Definition l2_apply (t : t2_transf) (l : line2) : result line2 :=
  if negb (t2_isDefined t) then Err EUndefined
  else
    let! (o, d) := l2_data l in
    let! o' := p2_apply t (Some o) in
    Ok (mkLine2 o' (t2_applyTo_vector t (Some d))).
(** Line.cpp 213-231: Points. *)
Definition Line2_Points (p q : point2) : result line2 :=
  let! a := needd p in
  let! b := needd q in
  if v2_eqb a b then Err ERuntime else Line2 (Some a) (Some (normalized2 (sub2 b a))).

(** *** Segment.cpp *)
(** Segment.hpp: firstPoint_, secondPoint_. *)
Record segment2 := mkSeg2 { s2_first : point2; s2_second : point2 }.
(** Segment.cpp 51-54: isDefined, with the members when it holds. *)
Definition s2_data (s : segment2) : result (v2 * v2) :=
  match s2_first s, s2_second s with Some a, Some b => Ok (a, b) | _, _ => Err EUndefined end.
(** Segment.cpp 35-44: operator==. *)
Definition s2_eq (s t : segment2) : bool :=
  match s2_data s, s2_data t with
  | Ok (a, b), Ok (c, d) => (v2_eqb a c && v2_eqb b d) || (v2_eqb a d && v2_eqb b c)
  | _, _ => false
  end.
(** Segment.cpp 56-64: isDegenerate. *)
Definition s2_isDegenerate (s : segment2) : result bool := let! (a, b) := s2_data s in Ok (v2_eqb a b).
(** Segment.cpp 71-105: contains(Point). *)
Definition in_plane (v : v2) : v3 := V3 (x2 v) (y2 v) 0.
Definition s2_contains (s : segment2) (p : point2) : result bool :=
  let! p := needd p in
  let! (a, b) := s2_data s in
  let! g := s2_isDegenerate s in
  if g then Ok (v2_eqb a p)
  else
    let AB := in_plane (sub2 b a) in
    let AC := in_plane (sub2 p a) in
    if Reqb (sqnorm3 (cross3 AB AC)) 0 then
      let K_AC := dot3 AB AC in
      let K_AB := dot3 AB AB in
      Ok (Rleb 0 K_AC && Rleb K_AC K_AB)
    else Ok false.
(** Segment.cpp 107-117: contains(PointSet). *)
Definition s2_contains_ps (s : segment2) (ps : pointset2) : result bool :=
  if ps2_isEmpty ps then Ok false else allM (fun p => s2_contains s (Some p)) ps.
(** Segment.cpp 139-172: getCenter, getDirection, getLength. *)
Definition s2_getCenter (s : segment2) : result v2 := let! (a, b) := s2_data s in Ok (add2 a (scale2 (1 / 2) (sub2 b a))).
Definition s2_getDirection (s : segment2) : result v2 :=
  let! (a, b) := s2_data s in
  let! g := s2_isDegenerate s in
  if g then Err ERuntime else Ok (normalized2 (sub2 b a)).
Definition s2_getLength (s : segment2) : result R := let! (a, b) := s2_data s in Ok (norm2 (sub2 b a)).
(** Segment.cpp 174-207: distanceTo(Point). *)
Definition s2_distanceTo (s : segment2) (p : point2) : result R :=
  let! p := needd p in
  let! (v, w) := s2_data s in
  let! g := s2_isDegenerate s in
  if g then p2_distanceTo (Some v) (Some p)
  else
    let l2 := sqnorm2 (sub2 w v) in
    let t := Rmax 0 (Rmin 1 (dot2 (sub2 p v) (sub2 w v) / l2)) in
    let projection := add2 v (scale2 t (sub2 w v)) in
    p2_distanceTo (Some projection) (Some p).
(** Segment.cpp 209-232: distanceTo(PointSet). *)
Definition s2_distanceTo_ps (s : segment2) (ps : pointset2) : result R :=
  match ps with
  | [] => Err EUndefined
  | p :: r =>
    let! _ := s2_data s in
    let! d := s2_distanceTo s (Some p) in
    let! ds := mapM (fun q => s2_distanceTo s (Some q)) r in
    Ok (min_from d ds)
  end.
(** Segment.cpp 234-237: toLine. *)
Definition s2_toLine (s : segment2) : result line2 := Line2_Points (s2_first s) (s2_second s).
(** Segment.cpp 275-289: applyTransformation. *)
Definition s2_apply (t : t2_transf) (s : segment2) : result segment2 :=
  if negb (t2_isDefined t) then Err EUndefined
  else
    let! (a, b) := s2_data s in
    let! a' := p2_apply t (Some a) in
    let! b' := p2_apply t (Some b) in
    Ok (mkSeg2 a' b').

(** *** LineString.cpp *)
(** LineString.hpp: points_. *)
Definition linestring2 := list point2.
(** LineString.cpp 32-35: operator== of two arrays of points. *)
Fixpoint ls2_eq (l m : linestring2) : bool :=
  match l, m with
  | [], [] => true
  | p :: l, q :: m => p2_eq p q && ls2_eq l m
  | _, _ => false
  end.
(** LineString.cpp 42-50: isDefined, isEmpty. *)
Definition ls2_isEmpty (l : linestring2) : bool := match l with [] => true | _ => false end.
Definition ls2_isDefined (l : linestring2) : bool := negb (ls2_isEmpty l).
(** LineString.cpp 73-84: the loop of contains(Point). *)
Fixpoint ls2_any_segment (l : linestring2) (p : v2) : result bool :=
  match l with
  | a :: (b :: _) as r =>
    let! c := s2_contains (mkSeg2 a b) (Some p) in
    if c then Ok true else ls2_any_segment r p
  | _ => Ok false
  end.
(** LineString.cpp 52-88: contains(Point). *)
Definition ls2_contains (l : linestring2) (p : point2) : result bool :=
  let! p := needd p in
  match l with
  | [] => Err EUndefined
  | [a] => Ok (p2_eq a (Some p))
  | _ => ls2_any_segment l p
  end.
(** LineString.cpp 102-108: the loop of isNear. *)
Fixpoint ls2_all_near (l m : linestring2) (tol : option R) : result bool :=
  match l, m with
  | p :: l, q :: m => let! b := p2_isNear p q tol in if b then ls2_all_near l m tol else Ok false
  | _, _ => Ok true
  end.
(** LineString.cpp 90-111: isNear. *)
Definition ls2_isNear (l m : linestring2) (tol : option R) : result bool :=
  if ls2_isEmpty l || ls2_isEmpty m then Ok false
  else if negb (Nat.eqb (length l) (length m)) then Ok false
  else ls2_all_near l m tol.
(** LineString.cpp 118-126: accessPointAt. *)
Definition ls2_accessPointAt (l : linestring2) (i : nat) : result point2 :=
  match nth_error l i with Some p => Ok p | None => Err ERuntime end.
(** LineString.cpp 148-158: the loop of getPointClosestTo (operator- throws on an undefined point). *)
Fixpoint ls2_closest (p best : v2) (dmin : R) (l : linestring2) : result v2 :=
  match l with
  | [] => Ok best
  | q :: r =>
    let! q := needd q in
    let d := sqnorm2 (sub2 q p) in
    if Rltb d dmin then ls2_closest p q d r else ls2_closest p best dmin r
  end.
(** LineString.cpp 133-161: getPointClosestTo. *)
Definition ls2_getPointClosestTo (l : linestring2) (p : point2) : result v2 :=
  let! p := needd p in
  match l with
  | [] => Err EUndefined
  | q :: r => let! q := needd q in ls2_closest p q (sqnorm2 (sub2 q p)) r
  end.
(** LineString.cpp 246-262: applyTransformation. *)
Definition ls2_apply (t : t2_transf) (l : linestring2) : result linestring2 :=
  if negb (t2_isDefined t) then Err EUndefined
  else if negb (ls2_isDefined l) then Err EUndefined
  else mapM (t2_applyTo_point t) l.
(** LineString.cpp 269-277: Segment. *)
Definition ls2_Segment (s : segment2) : result linestring2 := let! (a, b) := s2_data s in Ok [Some a; Some b].
