(** Points, lines, rays, segments, planes and spheres in double precision.

    As in [FloatModel], [Real] and [double] are binary64 numbers.  Vectors are those of Eigen,
    whose reductions (dot, squaredNorm, norm) add three products in an order that depends on
    the version and the instruction set: the order is a parameter, and the theorems hold for
    both.  Fused multiply-add instructions are not modelled. *)

From Coq Require Import List Bool ZArith Floats.SpecFloat.
From Verif Require Import Result AngleModel FloatModel.
Import ListNotations.

Record f3 := F3 { fx : spec_float; fy : spec_float; fz : spec_float }.
Record f2 := F2 { fx2 : spec_float; fy2 : spec_float }.
Definition b64_sqrt := SFsqrt 53 1024.
Definition need3 {A} (x : option A) : result A := match x with Some r => Ok r | None => Err EUndefined end.

(** *** Eigen *)
(** The order in which three terms are added. *)
Inductive order := FirstTwo | LastTwo.
Definition sum64 (o : order) (a b c : spec_float) : spec_float :=
  match o with FirstTwo => sf_add (sf_add a b) c | LastTwo => sf_add a (sf_add b c) end.
Definition fadd3 (a b : f3) : f3 := F3 (sf_add (fx a) (fx b)) (sf_add (fy a) (fy b)) (sf_add (fz a) (fz b)).
Definition fsub3 (a b : f3) : f3 := F3 (sf_sub (fx a) (fx b)) (sf_sub (fy a) (fy b)) (sf_sub (fz a) (fz b)).
Definition fdiv3 (a : f3) (k : spec_float) : f3 := F3 (b64_div (fx a) k) (b64_div (fy a) k) (b64_div (fz a) k).
Definition fcross3 (a b : f3) : f3 :=
  F3 (sf_sub (b64_mul (fy a) (fz b)) (b64_mul (fz a) (fy b)))
     (sf_sub (b64_mul (fz a) (fx b)) (b64_mul (fx a) (fz b)))
     (sf_sub (b64_mul (fx a) (fy b)) (b64_mul (fy a) (fx b))).
Definition fdot3 (o : order) (a b : f3) : spec_float :=
  sum64 o (b64_mul (fx a) (fx b)) (b64_mul (fy a) (fy b)) (b64_mul (fz a) (fz b)).
Definition fsqnorm3 (o : order) (a : f3) : spec_float := fdot3 o a a.
Definition fnorm3 (o : order) (a : f3) : spec_float := b64_sqrt (fsqnorm3 o a).
(** Eigen's normalized(): "z = squaredNorm(); if (z > 0) return n / sqrt(z); else return n". *)
Definition fnormalized3 (o : order) (a : f3) : f3 :=
  let z := fsqnorm3 o a in
  if SFltb zero64 z then fdiv3 a (b64_sqrt z) else a.
Definition feq3 (a b : f3) : bool := SFeqb (fx a) (fx b) && SFeqb (fy a) (fy b) && SFeqb (fz a) (fz b).

(** *** 3D/Object/Point.cpp *)
(** Point.cpp 78-91: operator- with a point. *)
Definition pt64_sub (p q : option f3) : result f3 :=
  let! q := need3 q in let! p := need3 p in Ok (fsub3 p q).
(** Point.cpp 148-161: distanceTo. *)
Definition pt64_distanceTo (o : order) (p q : option f3) : result spec_float :=
  let! d := pt64_sub p q in Ok (fnorm3 o d).
(** Point.cpp 98-106: isNear. *)
Definition pt64_isNear (o : order) (p q : option f3) (tol : option spec_float) : result bool :=
  let! tol := need3 tol in
  let! d := pt64_distanceTo o p q in
  Ok (SFleb d tol).

(** *** 3D/Object/Line.cpp *)
Record line64 := mkL64 { l64_origin : option f3; l64_direction : option f3 }.
Definition l64_data (l : line64) : result (f3 * f3) :=
  match l64_origin l, l64_direction l with Some o, Some d => Ok (o, d) | _, _ => Err EUndefined end.
(** Line.cpp 24-38 and Ray.cpp 24-38: the constructor. *)
Definition Line64 (r : order) (o d : option f3) : result line64 :=
  match d with
  | None => Ok (mkL64 o None)
  | Some v =>
    if negb (SFeqb (fsqnorm3 r v) (b64_of_Z 1)) then
      if SFeqb (fsqnorm3 r v) zero64 then Err EWrong else Ok (mkL64 o (Some (fnormalized3 r v)))
    else Ok (mkL64 o (Some v))
  end.
(** Line.cpp 118-131: contains(Point). *)
Definition l64_contains (r : order) (l : line64) (p : option f3) : result bool :=
  let! p := need3 p in
  let! (o, d) := l64_data l in
  Ok (SFeqb (fsqnorm3 r (fcross3 d (fsub3 p o))) zero64).
Definition fopp3 (a : f3) : f3 := F3 (SFopp (fx a)) (SFopp (fy a)) (SFopp (fz a)).
(** Line.cpp 45-58: operator==. *)
Definition l64_eq (r : order) (l m : line64) : result bool :=
  match l64_data l, l64_data m with
  | Ok (_, d), Ok (o', d') =>
    if feq3 d d' || feq3 d (fopp3 d') then l64_contains r l (Some o') else Ok false
  | _, _ => Ok false
  end.
(** Line.cpp 254-272: Through; the constructor is called with the normalized difference. *)
Definition l64_Through (r : order) (p q : option f3) : result line64 :=
  let! p := need3 p in
  let! q := need3 q in
  if feq3 p q then Err ERuntime else Line64 r (Some p) (Some (fnormalized3 r (fsub3 q p))).

(** *** 3D/Object/Ray.cpp *)
(** Ray.cpp 116-131: contains(Point), for a ray with the members of a line. *)
Definition r64_contains (r : order) (l : line64) (p : option f3) : result bool :=
  let! p := need3 p in
  let! (o, d) := l64_data l in
  let AC := fsub3 p o in
  Ok (SFeqb (fsqnorm3 r (fcross3 d AC)) zero64 && SFleb zero64 (fdot3 r d AC)).

(** *** 3D/Object/Segment.cpp *)
Record seg64 := mkS64 { s64_first : option f3; s64_second : option f3 }.
Definition s64_data (s : seg64) : result (f3 * f3) :=
  match s64_first s, s64_second s with Some a, Some b => Ok (a, b) | _, _ => Err EUndefined end.
(** Segment.cpp 116-146: contains(Point). *)
Definition s64_contains (r : order) (s : seg64) (p : option f3) : result bool :=
  let! p := need3 p in
  let! (a, b) := s64_data s in
  if feq3 a b then Ok (feq3 a p)
  else
    let AB := fsub3 b a in
    let AC := fsub3 p a in
    if SFeqb (fsqnorm3 r (fcross3 AB AC)) zero64 then
      let K_AC := fdot3 r AB AC in
      let K_AB := fdot3 r AB AB in
      Ok (SFleb zero64 K_AC && SFleb K_AC K_AB)
    else Ok false.
(** Segment.cpp 172-180: getCenter. *)
Definition s64_getCenter (s : seg64) : result f3 :=
  let! (a, b) := s64_data s in
  Ok (fadd3 a (fdiv3 (fsub3 b a) (b64_of_Z 2))).
(** Segment.cpp 182-195: getDirection, and 59-67: isDegenerate. *)
Definition s64_getDirection (r : order) (s : seg64) : result f3 :=
  let! (a, b) := s64_data s in
  if feq3 a b then Err ERuntime else Ok (fnormalized3 r (fsub3 b a)).
(** Segment.cpp 197-205: getLength. *)
Definition s64_getLength (r : order) (s : seg64) : result spec_float :=
  let! (a, b) := s64_data s in Ok (fnorm3 r (fsub3 b a)).

(** *** 3D/Object/Plane.cpp *)
Record plane64 := mkP64 { p64_point : option f3; p64_normal : option f3 }.
(** Plane.cpp 21-26: the constructor. *)
Definition Plane64 (r : order) (p n : option f3) : plane64 :=
  mkP64 p (match n with Some v => Some (fnormalized3 r v) | None => None end).
(** Plane.cpp 100-113: contains(Point). *)
Definition p64_contains (r : order) (pl : plane64) (p : option f3) : result bool :=
  let! p := need3 p in
  match p64_point pl, p64_normal pl with
  | Some q, Some n => Ok (SFeqb (fdot3 r (fsub3 p q) n) zero64)
  | _, _ => Err EUndefined
  end.

(** *** 3D/Object/Sphere.cpp *)
Record sphere64 := mkSp64 { sp64_center : option f3; sp64_radius : option spec_float }.
(** Sphere.cpp 263-278: contains(Point); [eps] is Real::Epsilon(). *)
Definition sp64_contains (r : order) (eps : spec_float) (s : sphere64) (p : option f3) : result bool :=
  let! p := need3 p in
  match sp64_center s, sp64_radius s with
  | Some c, Some R => Ok (SFltb (SFabs (sf_sub (fsqnorm3 r (fsub3 p c)) (b64_mul R R))) eps)
  | _, _ => Err EUndefined
  end.

(** *** 2D/Object/Line.cpp *)
Definition fadd2 (a b : f2) : f2 := F2 (sf_add (fx2 a) (fx2 b)) (sf_add (fy2 a) (fy2 b)).
Definition feq2 (a b : f2) : bool := SFeqb (fx2 a) (fx2 b) && SFeqb (fy2 a) (fy2 b).
(** 2D/Object/Line.cpp 72-100: contains(Point), for a line with origin [o] and direction [d]. *)
Definition l64_contains2 (o d p : option f2) : result bool :=
  let! p := need3 p in
  match o, d with
  | Some o, Some d =>
    if feq2 p o then Ok true
    else
      let p2 := fadd2 o d in
      if SFeqb (fx2 p2) (fx2 o) then Ok (SFeqb (fx2 p) (fx2 o))
      else
        let m := b64_div (sf_sub (fy2 p2) (fy2 o)) (sf_sub (fx2 p2) (fx2 o)) in
        Ok (SFeqb (fy2 p) (sf_add (b64_mul m (sf_sub (fx2 p) (fx2 o))) (fy2 o)))
  | _, _ => Err EUndefined
  end.
