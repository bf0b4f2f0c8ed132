(** Model of /repo/src/OpenSpaceToolkit/Mathematics/Geometry/3D/Object/Sphere.cpp.
    [eps] is Real::Epsilon(); the queries of the Geometric Tools library are those of [g]. *)

From Coq Require Import List Bool Reals.
From Verif Require Import Result DOrder Vec AngleModel RotModel TransfModel Geo3Types Geo3Model GteModel.
Import ListNotations.
Local Open Scope R_scope.

(** 83-86: isDefined, with the members when it holds. *)
Definition sp_data (s : sphere) : result (v3 * R) :=
  match sp_center s, sp_radius s with Some c, Some r => Ok (c, r) | _, _ => Err EUndefined end.
(** 63-71: operator==. *)
Definition sp_eq (s t : sphere) : bool :=
  match sp_data s, sp_data t with
  | Ok (c, r), Ok (c', r') => v3_eqb c c' && Reqb r r'
  | _, _ => false
  end.
(** 88-96: isUnitary. *)
Definition sp_isUnitary (s : sphere) : result bool := let! (_, r) := sp_data s in Ok (Reqb r 1).
(** 263-278: contains(Point); 98-101: intersects(Point). *)
Definition sp_contains (eps : R) (s : sphere) (p : point) : result bool :=
  let! p := needd p in
  let! (c, r) := sp_data s in
  Ok (Rltb (Rabs (sqnorm3 (sub3 p c) - r * r)) eps).
(** 103-118: intersects(PointSet); 280-295: contains(PointSet). *)
Definition sp_intersects_ps (eps : R) (s : sphere) (ps : pointset) : result bool :=
  let! _ := sp_data s in
  if ps_isEmpty ps then Ok false else anyM (fun p => sp_contains eps s (Some p)) ps.
Definition sp_contains_ps (eps : R) (s : sphere) (ps : pointset) : result bool :=
  let! _ := sp_data s in
  if ps_isEmpty ps then Ok false else allM (fun p => sp_contains eps s (Some p)) ps.
(** 120-151, 153-184, 186-217, 219-251: intersects(Line), (Ray), (Segment), (Plane). *)
Definition sp_intersects_line (g : gte) (s : sphere) (l : line) : result bool :=
  let! (c, r) := sp_data s in
  let! (o, d) := l_data l in
  Ok (ti_line_sphere g o d c r).
Definition sp_intersects_ray (g : gte) (s : sphere) (ry : ray) : result bool :=
  let! (c, r) := sp_data s in
  let! (o, d) := r_data ry in
  Ok (ti_ray_sphere g o d c r).
Definition sp_intersects_segment (g : gte) (s : sphere) (sg : segment) : result bool :=
  let! (c, r) := sp_data s in
  let! (a, b) := s_data sg in
  Ok (ti_segment_sphere g a b c r).
Definition sp_intersects_plane (g : gte) (s : sphere) (pl : plane) : result bool :=
  let! (q, n) := pl_data pl in
  let! (c, r) := sp_data s in
  Ok (ti_plane_sphere g n q c r).
(** 317-369: intersectionWith(Line). *)
Definition sp_inter_line (g : gte) (s : sphere) (l : line) : result inter :=
  let! (o, d) := l_data l in
  let! (c, r) := sp_data s in
  match fi_line_sphere g o d c r with
  | None => Ok inter_empty
  | Some [p] => Ok (inter_point p)
  | Some [p; q] => let! ps := PointSet [Some p; Some q] in Ok (inter_pointset ps)
  | Some _ => Err ERuntime
  end.
(** 371-448: intersectionWith(Ray, onlyInSight). *)
Definition sp_inter_ray (g : gte) (eps : R) (s : sphere) (ry : ray) (onlyInSight : bool) : result inter :=
  let! (o, d) := r_data ry in
  let! (c, r) := sp_data s in
  match fi_ray_sphere g o d c r with
  | None => Ok inter_empty
  | Some [p] =>
    let! k := sp_contains eps s (Some p) in
    if v3_eqb p o && negb k then Ok inter_empty else Ok (inter_point p)
  | Some [p; q] =>
    let! ps := PointSet [Some p; Some q] in
    let! kp := sp_contains eps s (Some p) in
    let! kq := sp_contains eps s (Some q) in
    if v3_eqb p o && negb kp then Ok (inter_point q)
    else if v3_eqb q o && negb kq then Ok (inter_point p)
    else if onlyInSight then let! x := ps_getPointClosestTo ps (Some o) in Ok (inter_point x)
    else Ok (inter_pointset ps)
  | Some _ => Err ERuntime
  end.
(** 450-556: intersectionWith(Segment). *)
Definition sp_inter_segment (g : gte) (eps : R) (s : sphere) (sg : segment) : result inter :=
  let! (a, b) := s_data sg in
  let! (c, r) := sp_data s in
  match fi_segment_sphere g a b c r with
  | None => Ok inter_empty
  | Some [p] =>
    let! k := sp_contains eps s (Some p) in
    if (v3_eqb p a || v3_eqb p b) && negb k then Ok inter_empty else Ok (inter_point p)
  | Some [p; q] =>
    let! kp := sp_contains eps s (Some p) in
    let! kq := sp_contains eps s (Some q) in
    if v3_eqb p a && negb kp then
      if v3_eqb q b && negb kq then Ok inter_empty else Ok (inter_point q)
    else if v3_eqb p b && negb kp then
      if v3_eqb q a && negb kq then Ok inter_empty else Ok (inter_point q)
    else if v3_eqb q a && negb kq then
      if v3_eqb p b && negb kp then Ok inter_empty else Ok (inter_point p)
    else if v3_eqb q b && negb kq then
      if v3_eqb p a && negb kp then Ok inter_empty else Ok (inter_point p)
    else let! ps := PointSet [Some p; Some q] in Ok (inter_pointset ps)
  | Some _ => Err ERuntime
  end.
(** 580-598: applyTransformation. *)
Definition sp_apply (t : t3_transf) (s : sphere) : result sphere :=
  if negb (t3_isDefined t) then Err EUndefined
  else
    let! (c, r) := sp_data s in
    let! g := t3_isRigid t in
    if negb g then Err ERuntime
    else
      let! c' := pt_apply t (Some c) in
      Ok (mkSphere c' (Some r)).
(** 605-608: Unit. *)
Definition sp_Unit (c : point) : sphere := mkSphere c (Some 1).
