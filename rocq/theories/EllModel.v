(** Model of /repo/src/OpenSpaceToolkit/Mathematics/Geometry/3D/Object/Ellipsoid.cpp, with exact
    real arithmetic.  [eps] is Real::Epsilon(), [tol] the tolerance 1e-25 of intersects(Segment);
    the queries of the Geometric Tools library are those of [g], and [eig] is Eigen's
    SelfAdjointEigenSolver ([None] when info() is not Success).  A division by zero, or the
    square root of a negative number, is [UB]. *)

From Coq Require Import List Bool Reals.
From Verif Require IntervalModel.
From Verif Require Import Result DOrder Vec Mat3 Mat4 AngleModel RotModel TransfModel Geo3Types Geo3Model GteModel.
Import ListNotations.
Local Open Scope R_scope.

(** 66-94: constructor. *)
Definition Ellipsoid (p : point) (a b c : option R) (q : option quat) : result ellipsoid :=
  let negative (x : option R) := match x with Some x => Rltb x 0 | None => false end in
  if negative a then Err ERuntime
  else if negative b then Err ERuntime
  else if negative c then Err ERuntime
  else Ok (mkEll p a b c q).
(** 125-128: isDefined, with the members when it holds. *)
Definition e_data (e : ellipsoid) : result (v3 * (R * R * R) * quat) :=
  match e_center e, e_a e, e_b e, e_c e, e_q e with
  | Some p, Some a, Some b, Some c, Some q => Ok (p, (a, b, c), q)
  | _, _, _, _, _ => Err EUndefined
  end.
Definition div_ (x y : R) : result R := if Reqb y 0 then UB else Ok (x / y).
(** 549-577: getFirstAxis, getSecondAxis, getThirdAxis. *)
Definition e_axis (eps : R) (e : ellipsoid) (v : v3) : result v3 :=
  let! (_, _, q) := e_data e in
  let! q' := conjugate (Some q) in
  q_rotate eps (Some q') (Some v).
Definition e_getFirstAxis (eps : R) (e : ellipsoid) : result v3 := e_axis eps e (V3 1 0 0).
Definition e_getSecondAxis (eps : R) (e : ellipsoid) : result v3 := e_axis eps e (V3 0 1 0).
Definition e_getThirdAxis (eps : R) (e : ellipsoid) : result v3 := e_axis eps e (V3 0 0 1).
Definition e_axes (eps : R) (e : ellipsoid) : result (v3 * v3 * v3) :=
  let! x := e_getFirstAxis eps e in
  let! y := e_getSecondAxis eps e in
  let! z := e_getThirdAxis eps e in
  Ok (x, y, z).
(** 600-610: tensorProduct. *)
Definition tensor (u v : v3) : m3 :=
  M3 (vx u * vx v) (vx u * vy v) (vx u * vz v)
     (vy u * vx v) (vy u * vy v) (vy u * vz v)
     (vz u * vx v) (vz u * vy v) (vz u * vz v).
Definition add_m3 (m n : m3) : m3 :=
  M3 (m00 m + m00 n) (m01 m + m01 n) (m02 m + m02 n)
     (m10 m + m10 n) (m11 m + m11 n) (m12 m + m12 n)
     (m20 m + m20 n) (m21 m + m21 n) (m22 m + m22 n).
Definition vdiv_ (v : v3) (k : R) : result v3 := if Reqb k 0 then UB else Ok (scale3 (/ k) v).
(** 589-614: getMatrix. *)
Definition e_getMatrix (eps : R) (e : ellipsoid) : result m3 :=
  let! (_, (a, b, c), _) := e_data e in
  let! x := e_getFirstAxis eps e in
  let! x := vdiv_ x a in
  let! y := e_getSecondAxis eps e in
  let! y := vdiv_ y b in
  let! z := e_getThirdAxis eps e in
  let! z := vdiv_ z c in
  Ok (add_m3 (add_m3 (tensor x x) (tensor y y)) (tensor z z)).
(** Eigen.hpp 82-95: isNear of two matrices (Frobenius norm of the difference). *)
Definition frobenius (m : m3) : R :=
  sqrt (sqnorm3 (row3 m 0) + sqnorm3 (row3 m 1) + sqnorm3 (row3 m 2)).
Definition sub_m3 (m n : m3) : m3 :=
  M3 (m00 m - m00 n) (m01 m - m01 n) (m02 m - m02 n)
     (m10 m - m10 n) (m11 m - m11 n) (m12 m - m12 n)
     (m20 m - m20 n) (m21 m - m21 n) (m22 m - m22 n).
Definition m3_isNear (m n : m3) (tol : R) : bool := Rleb (frobenius (sub_m3 m n)) tol.
(** 101-119: operator==. *)
Definition e_eq (eps : R) (e f : ellipsoid) : result bool :=
  match e_data e, e_data f with
  | Ok (p, (a, b, c), q), Ok (p', (a', b', c'), q') =>
    if v3_eqb p p' then
      if Reqb a a' && Reqb b b' && Reqb c c' && q_eq (Some q) (Some q') then Ok true
      else
        let! m := e_getMatrix eps e in
        let! m' := e_getMatrix eps f in
        Ok (m3_isNear m m' eps)
    else Ok false
  | _, _ => Ok false
  end.
(** 458-485: contains(Point); 130-133: intersects(Point). *)
Definition e_contains (eps : R) (e : ellipsoid) (p : point) : result bool :=
  let! p := needd p in
  let! (o, (a, b, c), q) := e_data e in
  let! r0 := q_rotate eps (Some q) (Some (V3 1 0 0)) in
  let! r1 := q_rotate eps (Some q) (Some (V3 0 1 0)) in
  let! r2 := q_rotate eps (Some q) (Some (V3 0 0 1)) in
  let dcm := of_rows r0 r1 r2 in
  let point := mulv3 dcm (sub3 p o) in
  let x := vx point in let y := vy point in let z := vz point in
  let! s := div_ (x * x) (a * a) in
  let! t := div_ (y * y) (b * b) in
  let! u := div_ (z * z) (c * c) in
  Ok (Rltb (Rabs (s + t + u - 1)) eps).
(** 135-150: intersects(PointSet); 487-502: contains(PointSet). *)
Definition e_intersects_ps (eps : R) (e : ellipsoid) (s : pointset) : result bool :=
  let! _ := e_data e in
  if ps_isEmpty s then Ok false else anyM (fun p => e_contains eps e (Some p)) s.
Definition e_contains_ps (eps : R) (e : ellipsoid) (s : pointset) : result bool :=
  let! _ := e_data e in
  if ps_isEmpty s then Ok false else allM (fun p => e_contains eps e (Some p)) s.
(** 504-507: contains(Segment). *)
Definition e_contains_segment (eps : R) (e : ellipsoid) (s : segment) : result bool :=
  let! (a, b) := s_data s in
  let! x := e_contains eps e (Some a) in
  if x then e_contains eps e (Some b) else Ok false.
(** 152-189, 191-229, 343-382: intersects(Line), (Ray), (Plane). *)
Definition e_intersects_line (g : gte) (eps : R) (e : ellipsoid) (l : line) : result bool :=
  let! (p, k, _) := e_data e in
  let! (o, d) := l_data l in
  let! u := e_axes eps e in
  Ok (ti_line_ellipsoid g o d p u k).
Definition e_intersects_ray (g : gte) (eps : R) (e : ellipsoid) (r : ray) : result bool :=
  let! (p, k, _) := e_data e in
  let! (o, d) := r_data r in
  let! u := e_axes eps e in
  Ok (ti_ray_ellipsoid g o d p u k).
Definition e_intersects_plane (g : gte) (eps : R) (e : ellipsoid) (pl : plane) : result bool :=
  let! (q, n) := pl_data pl in
  let! (p, k, _) := e_data e in
  let! u := e_axes eps e in
  Ok (ti_plane_ellipsoid g n q p u k).
(** 231-341: intersects(Segment). *)
Definition e_intersects_segment (eps tol : R) (e : ellipsoid) (s : segment) : result bool :=
  let! (p, _, _) := e_data e in
  let! (v, _) := s_data s in
  let! g := s_isDegenerate s in
  if g then e_contains eps e (Some v)
  else
    let! dir := s_getDirection s in
    let! center := s_getCenter s in
    let! len := s_getLength s in
    let half := len / 2 in
    let! M := e_getMatrix eps e in
    let diff := sub3 center p in
    let matDir := mulv3 M dir in
    let matDiff := mulv3 M diff in
    let a2 := dot3 dir matDir in
    let a1 := dot3 dir matDiff in
    let a0 := dot3 diff matDiff - 1 in
    let discriminant := a1 * a1 - a0 * a2 in
    if Rltb discriminant (- tol) then Ok false
    else if Rltb tol discriminant then
      let discriminantRoot := sqrt discriminant in
      let! a2_inverse := div_ 1 a2 in
      let t0 := (- a1 - discriminantRoot) * a2_inverse in
      let t1 := (- a1 + discriminantRoot) * a2_inverse in
      let! resultInterval := @IntervalModel.Closed R_order t0 t1 in
      let! segmentInterval := @IntervalModel.Closed R_order (- half) half in
      let! c := @IntervalModel.contains_interval R_order resultInterval segmentInterval in
      if negb c then @IntervalModel.intersects R_order resultInterval segmentInterval else Ok false
    else
      let! t0 := div_ (- a1) a2 in
      Ok (Rleb (Rabs t0) half).
(** 616-674: intersectionWith(Line). *)
Definition e_inter_line (g : gte) (eps : R) (e : ellipsoid) (l : line) : result inter :=
  let! (o, d) := l_data l in
  let! (c, k, _) := e_data e in
  let! u := e_axes eps e in
  match fi_line_ellipsoid g o d c u k with
  | None => Ok inter_empty
  | Some [p] => Ok (inter_point p)
  | Some [p; q] => let! ps := PointSet [Some p; Some q] in Ok (inter_pointset ps)
  | Some _ => Err ERuntime
  end.
(** 676-764: intersectionWith(Ray, onlyInSight).  (contains is evaluated on the points found even
    when they are not the origin: it does not throw there.) *)
Definition e_inter_ray (g : gte) (eps : R) (e : ellipsoid) (ry : ray) (onlyInSight : bool) : result inter :=
  let! (o, d) := r_data ry in
  let! (c, k, _) := e_data e in
  let! u := e_axes eps e in
  match fi_ray_ellipsoid g o d c u k with
  | None => Ok inter_empty
  | Some [p] =>
    let! kp := e_contains eps e (Some p) in
    if v3_eqb p o && negb kp then Ok inter_empty else Ok (inter_point p)
  | Some [p; q] =>
    let! kp := e_contains eps e (Some p) in
    let! kq := e_contains eps e (Some q) in
    if v3_eqb p o && negb kp then Ok (inter_point q)
    else if v3_eqb q o && negb kq then Ok (inter_point p)
    else if Rltb (norm3 (sub3 p q)) eps then Ok (inter_point p)
    else
      let! ps := PointSet [Some p; Some q] in
      if onlyInSight then let! x := ps_getPointClosestTo ps (Some o) in Ok (inter_point x)
      else Ok (inter_pointset ps)
  | Some _ => Err ERuntime
  end.
(** 766-884: intersectionWith(Segment).  The points found are defined: the isnan test (832-835) is
    not modelled. *)
Definition e_inter_segment (g : gte) (eps : R) (e : ellipsoid) (sg : segment) : result inter :=
  let! (a, b) := s_data sg in
  let! (c, k, _) := e_data e in
  let! dg := s_isDegenerate sg in
  let! ka := e_contains eps e (Some a) in
  if dg && ka then Ok (inter_point a)
  else
    let! u := e_axes eps e in
    match fi_segment_ellipsoid g a b c u k with
    | None => Ok inter_empty
    | Some [p] =>
      let! kp := e_contains eps e (Some p) in
      if (v3_eqb p a || v3_eqb p b) && negb kp then Ok inter_empty else Ok (inter_point p)
    | Some [p; q] =>
      let! kp := e_contains eps e (Some p) in
      let! kq := e_contains eps e (Some q) in
      if v3_eqb p a && negb kp then
        if v3_eqb q b && negb kq then Ok inter_empty else Ok (inter_point q)
      else if v3_eqb p b && negb kp then
        if v3_eqb q a && negb kq then Ok inter_empty else Ok (inter_point q)
      else if v3_eqb q a && negb kq then
        if v3_eqb p b && negb kp then Ok inter_empty else Ok (inter_point p)
      else if v3_eqb q b && negb kq then
        if v3_eqb p a && negb kp then Ok inter_empty else Ok (inter_point p)
      else let! ps := PointSet [Some p; Some q] in Ok (inter_pointset ps)
    | Some _ => Err ERuntime
    end.
(** 926-966: applyTransformation. *)
Definition eigensystem := ((R * R * R) * (v3 * v3 * v3))%type.
Definition semi_axis (l : R) : result R := let! x := div_ 1 l in sqrt_ x.
Definition e_apply (eig : m3 -> option eigensystem) (eps : R) (t : t3_transf) (e : ellipsoid) : result ellipsoid :=
  if negb (t3_isDefined t) then Err EUndefined
  else
    let! (c, _, _) := e_data e in
    let! i := t3_isIdentity t in
    if i then Ok e
    else
      let! c' := pt_apply t (Some c) in
      let! m := t3_getMatrix t in
      match inverse3 (lin4 m) with
      | None => UB
      | Some rotationMatrix =>
        let! M := e_getMatrix eps e in
        let transformedMatrix := mul3 (mul3 (transpose3 rotationMatrix) M) rotationMatrix in
        match eig transformedMatrix with
        | None => Err ERuntime
        | Some ((l0, l1, l2), (firstAxis, secondAxis, _)) =>
          let! a := semi_axis l0 in
          let! b := semi_axis l1 in
          let! d := semi_axis l2 in
          let thirdAxis := cross3 firstAxis secondAxis in
          let! m := Columns eps (Some firstAxis) (Some secondAxis) (Some thirdAxis) in
          let! q := q_of_matrix eps (Some m) in
          let! q' := conjugate (Some q) in
          Ok (mkEll c' (Some a) (Some b) (Some d) (Some q'))
        end
      end.
