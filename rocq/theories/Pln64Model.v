(** Points, lines and segments of the plane, and their distances, in double precision. *)

From Coq Require Import List Bool ZArith Floats.SpecFloat.
From Verif Require Import Result AngleModel FloatModel Geo64Model Dst64Model.
Import ListNotations.

(** *** Eigen: vectors with two components; sums have one order only. *)
Definition fsub2 (a b : f2) : f2 := F2 (sf_sub (fx2 a) (fx2 b)) (sf_sub (fy2 a) (fy2 b)).
Definition fscale2 (k : spec_float) (a : f2) : f2 := F2 (b64_mul k (fx2 a)) (b64_mul k (fy2 a)).
Definition fdiv2 (a : f2) (k : spec_float) : f2 := F2 (b64_div (fx2 a) k) (b64_div (fy2 a) k).
Definition fdot2 (a b : f2) : spec_float := sf_add (b64_mul (fx2 a) (fx2 b)) (b64_mul (fy2 a) (fy2 b)).
Definition fsqnorm2 (a : f2) : spec_float := fdot2 a a.
Definition fnorm2 (a : f2) : spec_float := b64_sqrt (fsqnorm2 a).
(** Eigen's normalized(): "z = squaredNorm(); if (z > 0) return n / sqrt(z); else return n". *)
Definition fnormalized2 (a : f2) : f2 :=
  let z := fsqnorm2 a in
  if SFltb zero64 z then fdiv2 a (b64_sqrt z) else a.

(** *** 2D/Object/Point.cpp *)
(** 2D/Object/Point.cpp 77-90: operator- with a point. *)
Definition pt64_sub2 (p q : option f2) : result f2 :=
  let! q := need3 q in let! p := need3 p in Ok (fsub2 p q).
(** 2D/Object/Point.cpp 137-150: distanceTo. *)
Definition pt64_distanceTo2 (p q : option f2) : result spec_float :=
  let! d := pt64_sub2 p q in Ok (fnorm2 d).
(** 2D/Object/Point.cpp 97-105: isNear. *)
Definition pt64_isNear2 (p q : option f2) (tol : option spec_float) : result bool :=
  let! tol := need3 tol in
  let! d := pt64_distanceTo2 p q in
  Ok (SFleb d tol).

(** *** 2D/Object/Line.cpp *)
Record pline64 := mkPL64 { pl64_origin : option f2; pl64_direction : option f2 }.
(** 2D/Object/Line.cpp 62-65: isDefined, with the members when it holds. *)
Definition pl64_data (l : pline64) : result (f2 * f2) :=
  match pl64_origin l, pl64_direction l with Some o, Some d => Ok (o, d) | _, _ => Err EUndefined end.
(** 2D/Object/Line.cpp 21-35: the constructor. *)
Definition PLine64 (o d : option f2) : result pline64 :=
  match d with
  | None => Ok (mkPL64 o None)
  | Some v =>
    if negb (SFeqb (fsqnorm2 v) (b64_of_Z 1)) then
      if SFeqb (fsqnorm2 v) zero64 then Err EWrong else Ok (mkPL64 o (Some (fnormalized2 v)))
    else Ok (mkPL64 o (Some v))
  end.
(** 2D/Object/Line.cpp 145-159: distanceTo. *)
Definition pl64_distanceTo (l : pline64) (p : option f2) : result spec_float :=
  let! (a, n) := pl64_data l in
  let! v := pt64_sub2 p (Some a) in
  Ok (fnorm2 (fsub2 v (fscale2 (fdot2 v n) n))).

(** *** 2D/Object/Segment.cpp *)
Record pseg64 := mkPS64 { ps64_first : option f2; ps64_second : option f2 }.
(** 2D/Object/Segment.cpp 51-54: isDefined, with the members when it holds. *)
Definition ps64_data (s : pseg64) : result (f2 * f2) :=
  match ps64_first s, ps64_second s with Some a, Some b => Ok (a, b) | _, _ => Err EUndefined end.
(** 2D/Object/Segment.cpp 164-172: getLength. *)
Definition ps64_getLength (s : pseg64) : result spec_float := let! (a, b) := ps64_data s in Ok (fnorm2 (fsub2 b a)).
(** 2D/Object/Segment.cpp 174-207: distanceTo(Point). *)
Definition ps64_distanceTo (s : pseg64) (p : option f2) : result spec_float :=
  let! p := need3 p in
  let! (v, w) := ps64_data s in
  if feq2 v w then pt64_distanceTo2 (Some v) (Some p)
  else
    let l2 := fsqnorm2 (fsub2 w v) in
    let t := std_max64 zero64 (std_min64 (b64_of_Z 1) (b64_div (fdot2 (fsub2 p v) (fsub2 w v)) l2)) in
    let projection := fadd2 v (fscale2 t (fsub2 w v)) in
    pt64_distanceTo2 (Some projection) (Some p).
(** 2D/Object/Segment.cpp 209-232: distanceTo(PointSet), for the points of the set in the order of its iterators. *)
Definition ps64_distanceTo_ps (s : pseg64) (ps : list f2) : result spec_float :=
  match ps with
  | [] => Err EUndefined
  | p :: l =>
    let! _ := ps64_data s in
    let! d := ps64_distanceTo s (Some p) in
    let! ds := mapM (fun q => ps64_distanceTo s (Some q)) l in
    Ok (min_element64 d ds)
  end.
