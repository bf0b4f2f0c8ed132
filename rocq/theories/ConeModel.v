(** Model of /repo/src/OpenSpaceToolkit/Mathematics/Geometry/3D/Object/Cone.cpp.
    [eps] is Real::Epsilon(); [fuel] bounds the loops of Angle's range reduction; the queries of the Geometric
    Tools library are those of [g]; [order] is the iteration order of a hash set of points. *)

From Coq Require Import List Bool Reals.
From Verif Require IntervalModel.
From Verif Require Import Result DOrder Vec AngleModel RotModel TransfModel IntervalGridModel Geo3Types Geo3Model GteModel SphereModel EllModel InterModel.
Import ListNotations.
Local Open Scope R_scope.

(** 58-61: isDefined, with the members when it holds. *)
Definition co_data (c : cone) : result (v3 * v3 * angle) :=
  match co_apex c, co_axis c with
  | Some a, Some u => if angle_isDefined (co_angle c) then Ok (a, u, co_angle c) else Err EUndefined
  | _, _ => Err EUndefined
  end.
(** 42-51: operator==. *)
Definition co_eq (fuel : nat) (c d : cone) : result bool :=
  match co_data c, co_data d with
  | Ok (a, u, t), Ok (a', u', t') =>
    if negb (v3_eqb a a') then Ok false
    else
      let! same := if v3_eqb u u' then angle_eq fuel t t' else Ok false in
      if same then Ok true
      else if v3_eqb u (opp3 u') then
        let! complement := angle_sub (mkA (Some 180) Degree) t' in
        angle_eq fuel t complement
      else Ok false
  | _, _ => Ok false
  end.
(** 63-91: intersects(Sphere). *)
Definition co_intersects_sphere (c : cone) (s : sphere) : result bool :=
  let! (q, r) := sp_data s in
  let! (a, u, t) := co_data c in
  let v := sub3 q a in
  let d := norm3 v in
  if Rleb d r then Ok true
  else
    let! theta := acos_ (dot3 (normalized3 u) (normalized3 v)) in
    let! x := div_ r d in
    let! alpha := asin_ x in
    let! t := in_unit t Radian in
    Ok (Rleb theta (t + alpha)).
(** "Angle::Between(v, axis_).inDegrees(0.0, 360.0) <= angle_.inDegrees(0.0, 360.0)" (141, 183). *)
Definition co_within (fuel : nat) (eps : R) (v u : v3) (t : angle) : result bool :=
  let! b := Between3 eps (Some v) (Some u) in
  let! x := inDegrees fuel b (Some 0) (Some 360) in
  let! y := inDegrees fuel t (Some 0) (Some 360) in
  Ok (Rleb x y).
(** 117-142: contains(Point). *)
Definition co_contains (fuel : nat) (eps : R) (c : cone) (p : point) : result bool :=
  let! p := needd p in
  let! (a, u, t) := co_data c in
  if v3_eqb p a then Ok true
  else
    let v := sub3 p a in
    if Rltb (dot3 v u) 0 then Ok false else co_within fuel eps v u t.
(** 144-159: contains(PointSet). *)
Definition co_contains_ps (fuel : nat) (eps : R) (c : cone) (s : pointset) : result bool :=
  let! _ := co_data c in
  allM (fun p => co_contains fuel eps c (Some p)) s.
(** 161-164: contains(Segment). *)
Definition co_contains_segment (fuel : nat) (eps : R) (c : cone) (s : segment) : result bool :=
  let! (a, b) := s_data s in
  let! x := co_contains fuel eps c (Some a) in
  if x then co_contains fuel eps c (Some b) else Ok false.
(** 166-184: contains(Ray). *)
Definition co_contains_ray (fuel : nat) (eps : R) (c : cone) (r : ray) : result bool :=
  let! (o, d) := r_data r in
  let! (a, u, t) := co_data c in
  let! x := co_contains fuel eps c (Some o) in
  if negb x then Ok false else co_within fuel eps d u t.
(** std::tan, which has no value at odd multiples of a right angle. *)
Definition tan_ (x : R) : result R := if Reqb (cos x) 0 then UB else Ok (tan x).
(** 289-336: distanceTo(Point). *)
Definition co_distanceTo (eps : R) (c : cone) (p : point) : result R :=
  let! p := needd p in
  let! (a, u, t) := co_data c in
  if v3_eqb p a then Ok 0
  else
    let v := sub3 p a in
    if Rltb (dot3 v u) 0 then Ok (norm3 v)
    else
      let across (w : v3) : v3 := cross3 (cross3 u w) u in
      let n :=
        if Rltb eps (norm3 (cross3 u v)) then normalized3 (across v)
        else if Rltb eps (norm3 (cross3 u (V3 1 0 0))) then normalized3 (across (V3 1 0 0))
        else normalized3 (across (V3 0 1 0)) in
      let! x := in_unit t Radian in
      let! k := tan_ x in
      let d := normalized3 (add3 (normalized3 u) (scale3 k n)) in
      let! r := Ray (Some a) (Some d) in
      r_distanceTo r (Some p).
(** 186-199: contains(Sphere). *)
Definition co_contains_sphere (fuel : nat) (eps : R) (c : cone) (s : sphere) : result bool :=
  let! (q, r) := sp_data s in
  let! _ := co_data c in
  let! x := co_contains fuel eps c (Some q) in
  if negb x then Ok false
  else
    let! d := co_distanceTo eps c (Some q) in
    Ok (Rleb r d).
(** 201-216: contains(Ellipsoid). *)
Definition co_contains_ellipsoid (c : cone) (e : ellipsoid) : result bool :=
  let! _ := e_data e in
  let! _ := co_data c in
  Err EToBeImplemented.
(** "Quaternion::RotationVector(RotationVector(axis, angle)).toConjugate() * v" (264, 280). *)
Definition turned (eps : R) (axis : v3) (t : angle) (v : v3) : result v3 :=
  let! r := RotationVector eps (Some axis) t in
  let! q := q_of_rotvec eps r in
  let! q := conjugate (Some q) in
  q_rotate eps (Some q) (Some v).
(** 248-287: getRaysOfLateralSurface.  There is no isDefined test; an undefined axis or angle is rejected by the
    conversion to a quaternion, an undefined apex by getDirection of the reference ray. *)
Definition co_rays (eps : R) (c : cone) (n : nat) : result (list ray) :=
  if Nat.eqb n 0 then Err EWrong
  else
    let! u := needd (co_axis c) in
    let reference :=
      if Rltb (Rabs (dot3 u (V3 1 0 0))) (1 / 2) then normalized3 (cross3 u (V3 1 0 0))
      else normalized3 (cross3 u (V3 0 1 0)) in
    let! d := turned eps reference (co_angle c) u in
    let! r := Ray (co_apex c) (Some d) in
    let! angles :=
      if Nat.ltb 1 n then
        let! i := @IntervalModel.HalfOpenRight R_order 0 360 in generateArrayWithSize i n
      else Ok [0] in
    mapM (fun x =>
      let! (_, d) := r_data r in
      let! d := turned eps u (mkA (Some x) Degree) d in
      Ray (co_apex c) (Some d)) angles.
(** 93-115: intersects(Ellipsoid); ray.intersects(ellipsoid) is ellipsoid.intersects(ray) (Ray.cpp 111-114). *)
Definition co_intersects_ellipsoid (g : gte) (eps : R) (c : cone) (e : ellipsoid) (n : nat) : result bool :=
  let! _ := e_data e in
  let! _ := co_data c in
  let! rays := co_rays eps c n in
  anyM (fun r => e_intersects_ray g eps e r) rays.

(** The two arrays of points filled from the intersections of the rays (355-386, 423-451); [pick] tells what is
    added to the first and to the second array for a set of points. *)
Fixpoint gather (pick : pointset -> result (list v3 * list v3)) (l : list inter) : result (list v3 * list v3) :=
  match l with
  | [] => Ok ([], [])
  | i :: r =>
    let! (a, b) :=
      if inter_isEmpty i then Ok ([], [])
      else match i_objects i with
           | [OPoint (Some p)] => Ok ([p], [])
           | [OPointSet s] => pick s
           | _ => Ok ([], [])
           end in
    let! (a', b') := gather pick r in
    Ok (a ++ a', b ++ b')
  end.
(** 388-401, 453-466: the line strings made of the arrays. *)
Definition strings (a b : list v3) (onlyInSight : bool) : result inter :=
  match a, b with
  | [], [] => Ok inter_empty
  | _ :: _, _ :: _ =>
    if onlyInSight then Ok (inter_linestring (map Some a))
    else inter_add (inter_linestring (map Some a)) (inter_linestring (map Some b))
  | _ :: _, [] => Ok (inter_linestring (map Some a))
  | [], _ :: _ => Ok (inter_linestring (map Some b))
  end.
(** 362-384: the first point iterated goes to the second array, the others to the first. *)
Definition pick_sphere (order : pointset -> pointset) (s : pointset) : result (list v3 * list v3) :=
  match order s with
  | [] => Ok ([], [])
  | p :: r => Ok (r, [p])
  end.
(** 430-449: the point closest to the apex goes to the first array, the first of the others to the second. *)
Definition pick_ellipsoid (order : pointset -> pointset) (a : point) (s : pointset) : result (list v3 * list v3) :=
  let! p := ps_getPointClosestTo (order s) a in
  Ok ([p], match find (fun q => negb (v3_eqb q p)) (order s) with Some q => [q] | None => [] end).
(** 338-402: intersectionWith(Sphere). *)
Definition co_inter_sphere (g : gte) (eps : R) (order : pointset -> pointset) (c : cone) (s : sphere) (onlyInSight : bool) (n : nat) : result inter :=
  let! _ := sp_data s in
  let! _ := co_data c in
  let! rays := co_rays eps c n in
  let! l := mapM (fun r => sp_inter_ray g eps s r onlyInSight) rays in
  let! (a, b) := gather (pick_sphere order) l in
  strings a b onlyInSight.
(** 404-467: intersectionWith(Ellipsoid). *)
Definition co_inter_ellipsoid (g : gte) (eps : R) (order : pointset -> pointset) (c : cone) (e : ellipsoid) (onlyInSight : bool) (n : nat) : result inter :=
  let! _ := e_data e in
  let! _ := co_data c in
  let! rays := co_rays eps c n in
  let! l := mapM (fun r => e_inter_ray g eps e r onlyInSight) rays in
  let! (a, b) := gather (pick_ellipsoid order (co_apex c)) l in
  strings a b onlyInSight.
(** 481-497: applyTransformation.  normalize() leaves a vector of norm 0 as it is. *)
Definition co_apply (t : t3_transf) (c : cone) : result cone :=
  if negb (t3_isDefined t) then Err EUndefined
  else
    let! (a, u, k) := co_data c in
    let! a' := pt_apply t (Some a) in
    Ok (mkCone a' (option_map normalized3 (t3_applyTo_vector t (Some u))) k).
