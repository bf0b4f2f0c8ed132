(** Model of /repo/src/OpenSpaceToolkit/Mathematics/Geometry/3D/Object/Cuboid.cpp, with exact real
    arithmetic.  [eps] is Real::Epsilon(); the queries of the Geometric Tools library are those of
    [g].  [order] is the iteration order of the hash set behind a PointSet. *)

From Coq Require Import List Bool Reals.
From Verif Require Import Result DOrder Vec Mat3 Mat4 AngleModel RotModel TransfModel Geo3Types Geo3Model GteModel.
Import ListNotations.
Local Open Scope R_scope.

(** 54-60: constructor. *)
Definition Cuboid (c : point) (u : option v3 * option v3 * option v3) (k : option R * option R * option R) : cuboid :=
  mkCuboid c u k.
(** 151-155: isDefined, with the members when it holds. *)
Definition cu_data (c : cuboid) : result (v3 * (v3 * v3 * v3) * (R * R * R)) :=
  match cu_center c, cu_axes c, cu_extent c with
  | Some p, (Some u0, Some u1, Some u2), (Some e0, Some e1, Some e2) => Ok (p, (u0, u1, u2), (e0, e1, e2))
  | _, _, _ => Err EUndefined
  end.
(** 505-518: Cube. *)
Definition Cube (c : point) (e : option R) : result cuboid :=
  let! p := needd c in
  let! x := needd e in
  Ok (Cuboid (Some p) (Some (V3 1 0 0), Some (V3 0 1 0), Some (V3 0 0 1)) (Some x, Some x, Some x)).
(** 67-144: operator==. *)
Definition cu_match (u : v3) (e : R) (u' : v3) (e' : R) : bool := (v3_eqb u u' || v3_eqb u (opp3 u')) && Reqb e e'.
Definition cu_eq (c d : cuboid) : bool :=
  match cu_data c, cu_data d with
  | Ok (p, (u0, u1, u2), (e0, e1, e2)), Ok (p', (v0, v1, v2), (f0, f1, f2)) =>
    if v3_eqb p p' then
      if cu_match u0 e0 v0 f0 then
        if cu_match u1 e1 v1 f1 then (if cu_match u2 e2 v2 f2 then true else false)
        else if cu_match u1 e1 v2 f2 then (if cu_match u2 e2 v1 f1 then true else false)
        else false
      else if cu_match u0 e0 v1 f1 then
        if cu_match u1 e1 v0 f0 then (if cu_match u2 e2 v2 f2 then true else false)
        else if cu_match u1 e1 v2 f2 then (if cu_match u2 e2 v0 f0 then true else false)
        else false
      else if cu_match u0 e0 v2 f2 then
        if cu_match u1 e1 v0 f0 then (if cu_match u2 e2 v1 f1 then true else false)
        else if cu_match u1 e1 v1 f1 then (if cu_match u2 e2 v0 f0 then true else false)
        else false
      else false
    else false
  | _, _ => false
  end.
(** 411-436: getVertices. *)
Definition cu_getVertices (c : cuboid) : result (list point) :=
  let! (p, (u0, u1, u2), (e0, e1, e2)) := cu_data c in
  let x := scale3 (e0 / 2) u0 in
  let y := scale3 (e1 / 2) u1 in
  let z := scale3 (e2 / 2) u2 in
  Ok (map Some
    [ add3 (add3 (add3 p x) y) z
    ; sub3 (add3 (add3 p x) y) z
    ; sub3 (sub3 (add3 p x) y) z
    ; add3 (sub3 (add3 p x) y) z
    ; add3 (add3 (sub3 p x) y) z
    ; sub3 (add3 (sub3 p x) y) z
    ; sub3 (sub3 (sub3 p x) y) z
    ; add3 (sub3 (sub3 p x) y) z ]).
(** 157-175: isNear. *)
Definition cu_isNear (order : pointset -> pointset) (c d : cuboid) (tol : option R) : result bool :=
  let! _ := cu_data d in
  let! _ := needd tol in
  let! _ := cu_data c in
  let! v := cu_getVertices c in
  let! s := PointSet v in
  let! w := cu_getVertices d in
  let! t := PointSet w in
  ps_isNear (order s) (order t) tol.
(** 283-317: contains(Point); 177-180: intersects(Point). *)
Definition cu_contains (eps : R) (c : cuboid) (p : point) : result bool :=
  let! p := needd p in
  let! (o, (u0, u1, u2), (e0, e1, e2)) := cu_data c in
  let dx := sub3 p o in
  let a := Rabs (dot3 dx u0) in
  let b := Rabs (dot3 dx u1) in
  let c := Rabs (dot3 dx u2) in
  if Rltb (Rabs (a - e0)) eps then Ok (Rleb b e1 && Rleb c e2)
  else if Rltb (Rabs (b - e1)) eps then Ok (Rleb a e0 && Rleb c e2)
  else if Rltb (Rabs (c - e2)) eps then Ok (Rleb a e0 && Rleb b e1)
  else Ok false.
(** 182-197: intersects(PointSet); 319-334: contains(PointSet). *)
Definition cu_intersects_ps (eps : R) (c : cuboid) (s : pointset) : result bool :=
  let! _ := cu_data c in
  if ps_isEmpty s then Ok false else anyM (fun p => cu_contains eps c (Some p)) s.
Definition cu_contains_ps (eps : R) (c : cuboid) (s : pointset) : result bool :=
  let! _ := cu_data c in
  if ps_isEmpty s then Ok false else allM (fun p => cu_contains eps c (Some p)) s.
(** 336-339: contains(Segment). *)
Definition cu_contains_segment (eps : R) (c : cuboid) (s : segment) : result bool :=
  let! (a, b) := s_data s in
  let! x := cu_contains eps c (Some a) in
  if x then cu_contains eps c (Some b) else Ok false.
(** 199-236: intersects(Line). *)
Definition cu_intersects_line (g : gte) (c : cuboid) (l : line) : result bool :=
  let! (p, u, k) := cu_data c in
  let! (o, d) := l_data l in
  Ok (ti_line_box g o d p u k).
(** 238-281: intersects(Cuboid). *)
Definition cu_intersects_cuboid (g : gte) (c d : cuboid) : result bool :=
  let! (p, u, k) := cu_data c in
  let! (p', u', k') := cu_data d in
  Ok (ti_box_box g p u k p' u' k').
(** 462-494: applyTransformation. *)
Definition cu_apply (t : t3_transf) (c : cuboid) : result cuboid :=
  if negb (t3_isDefined t) then Err EUndefined
  else
    let! (p, (u0, u1, u2), (e0, e1, e2)) := cu_data c in
    let! i := t3_isIdentity t in
    if i then Ok c
    else
      let! p' := pt_apply t (Some p) in
      let v0 := t3_applyTo_vector t (Some u0) in
      let v1 := t3_applyTo_vector t (Some u1) in
      let v2 := t3_applyTo_vector t (Some u2) in
      let scale e v := match v with Some v => Some (e * norm3 v) | None => None end in
      Ok (mkCuboid p' (option_map normalized3 v0, option_map normalized3 v1, option_map normalized3 v2)
        (scale e0 v0, scale e1 v1, scale e2 v2)).
