(** Distances from points to lines, rays and segments in double precision. *)

From Coq Require Import List Bool ZArith Floats.SpecFloat.
From Verif Require Import Result AngleModel FloatModel Geo64Model Rot64Model.
Import ListNotations.

(** 3D/Object/Line.cpp 176-184: distanceTo(Point).  The difference of points is [pt64_sub],
    which raises an error for an undefined point. *)
Definition l64_distanceTo (r : order) (l : line64) (p : option f3) : result spec_float :=
  let! (o, d) := l64_data l in
  let! v := pt64_sub p (Some o) in
  Ok (fnorm3 r (fcross3 d v)).

(** 3D/Object/Ray.cpp 175-200: distanceTo(Point), for a ray with the members of a line. *)
Definition r64_distanceTo (r : order) (l : line64) (p : option f3) : result spec_float :=
  let! p := need3 p in
  let! (o, d) := l64_data l in
  if feq3 p o then Ok zero64
  else
    let v := fsub3 p o in
    if SFltb (fdot3 r v d) zero64 then Ok (fnorm3 r v) else Ok (fnorm3 r (fcross3 d v)).

(** std::min(a, b) is "(b < a) ? b : a", std::max(a, b) is "(a < b) ? b : a". *)
Definition std_min64 (a b : spec_float) : spec_float := if SFltb b a then b else a.
Definition std_max64 (a b : spec_float) : spec_float := if SFltb a b then b else a.
(** 3D/Object/Segment.cpp 207-240: distanceTo(Point). *)
Definition s64_distanceTo (r : order) (s : seg64) (p : option f3) : result spec_float :=
  let! p := need3 p in
  let! (v, w) := s64_data s in
  if feq3 v w then pt64_distanceTo r (Some v) (Some p)
  else
    let l2 := fsqnorm3 r (fsub3 w v) in
    let t := std_max64 zero64 (std_min64 (b64_of_Z 1) (b64_div (fdot3 r (fsub3 p v) (fsub3 w v)) l2)) in
    let projection := fadd3 v (fscale3 t (fsub3 w v)) in
    pt64_distanceTo r (Some projection) (Some p).

(** std::min_element: the first of the least numbers. *)
Fixpoint min_element64 (m : spec_float) (l : list spec_float) : spec_float :=
  match l with [] => m | x :: l => min_element64 (if SFltb x m then x else m) l end.
(** 3D/Object/Segment.cpp 242-265: distanceTo(PointSet), for the points of the set in the order of its iterators. *)
Definition s64_distanceTo_ps (r : order) (s : seg64) (ps : list f3) : result spec_float :=
  match ps with
  | [] => Err EUndefined
  | p :: l =>
    let! _ := s64_data s in
    let! d := s64_distanceTo r s (Some p) in
    let! ds := mapM (fun q => s64_distanceTo r s (Some q)) l in
    Ok (min_element64 d ds)
  end.
