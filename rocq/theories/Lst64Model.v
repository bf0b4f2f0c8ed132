(** Sets of points and line strings, in space and in the plane, in double precision. *)

From Coq Require Import List Bool Arith ZArith Floats.SpecFloat.
From Verif Require Import Result AngleModel FloatModel Geo64Model Dst64Model Pln64Model.
Import ListNotations.

(** 3D/Object/PointSet.cpp 147-157, LineString.cpp 105-115, 2D/Object/PointSet.cpp 146-156, LineString.cpp 148-158: the loop of
    getPointClosestTo once the first point is taken; [sq] is the squared norm of the difference, an error for an undefined point
    (operator- of points). *)
Fixpoint closest64 {A : Type} (sq : option A -> result spec_float) (best : A) (dmin : spec_float) (l : list (option A)) : result A :=
  match l with
  | [] => Ok best
  | q :: r =>
    let! d := sq q in
    let! q := need3 q in
    if SFltb d dmin then closest64 sq q d r else closest64 sq best dmin r
  end.
(** The same functions: an empty container is an error, the first point is always taken (the least distance is not defined yet). *)
Definition getClosest64 {A : Type} (sq : option A -> result spec_float) (l : list (option A)) : result A :=
  match l with
  | [] => Err EUndefined
  | q :: r => let! d := sq q in let! q := need3 q in closest64 sq q d r
  end.
(** 3D/Object/LineString.cpp 64-72, 2D/Object/LineString.cpp 102-110: the loop of isNear. *)
Fixpoint all_near64 {A : Type} (near : option A -> option A -> result bool) (l m : list (option A)) : result bool :=
  match l, m with
  | p :: l, q :: m => let! b := near p q in if b then all_near64 near l m else Ok false
  | _, _ => Ok true
  end.

(** *** Space *)
(** 3D/Object/PointSet.cpp 149, LineString.cpp 107: (point - aPoint).squaredNorm(). *)
Definition sq64 (r : order) (p : f3) (q : option f3) : result spec_float := let! d := pt64_sub q (Some p) in Ok (fsqnorm3 r d).
(** 3D/Object/PointSet.cpp 107-130: distanceTo. *)
Definition pset64_distanceTo (r : order) (s : list f3) (p : option f3) : result spec_float :=
  let! p := need3 p in
  match s with
  | [] => Err EUndefined
  | q :: l =>
    let! d := pt64_distanceTo r (Some p) (Some q) in
    let! ds := mapM (fun q => pt64_distanceTo r (Some p) (Some q)) l in
    Ok (min_element64 d ds)
  end.
(** 3D/Object/PointSet.cpp 132-160: getPointClosestTo; a set has defined points only. *)
Definition pset64_getPointClosestTo (r : order) (s : list f3) (p : option f3) : result f3 :=
  let! p := need3 p in getClosest64 (sq64 r p) (map Some s).
(** 3D/Object/LineString.cpp 90-118: getPointClosestTo. *)
Definition ls64_getPointClosestTo (r : order) (l : list (option f3)) (p : option f3) : result f3 :=
  let! p := need3 p in getClosest64 (sq64 r p) l.
(** 3D/Object/LineString.cpp 52-73: isNear. *)
Definition ls64_isNear (r : order) (l m : list (option f3)) (tol : option spec_float) : result bool :=
  match l, m with
  | [], _ => Ok false
  | _, [] => Ok false
  | _, _ =>
    if negb (Nat.eqb (length l) (length m)) then Ok false
    else all_near64 (fun p q => pt64_isNear r p q tol) l m
  end.

(** *** The plane *)
(** 2D/Object/PointSet.cpp 148, LineString.cpp 150: (point - aPoint).squaredNorm(). *)
Definition sq64_2 (p : f2) (q : option f2) : result spec_float := let! d := pt64_sub2 q (Some p) in Ok (fsqnorm2 d).
(** 2D/Object/PointSet.cpp 106-129: distanceTo. *)
Definition pset64_distanceTo2 (s : list f2) (p : option f2) : result spec_float :=
  let! p := need3 p in
  match s with
  | [] => Err EUndefined
  | q :: l =>
    let! d := pt64_distanceTo2 (Some p) (Some q) in
    let! ds := mapM (fun q => pt64_distanceTo2 (Some p) (Some q)) l in
    Ok (min_element64 d ds)
  end.
(** 2D/Object/PointSet.cpp 131-159: getPointClosestTo; a set has defined points only. *)
Definition pset64_getPointClosestTo2 (s : list f2) (p : option f2) : result f2 :=
  let! p := need3 p in getClosest64 (sq64_2 p) (map Some s).
(** 2D/Object/LineString.cpp 133-161: getPointClosestTo. *)
Definition ls64_getPointClosestTo2 (l : list (option f2)) (p : option f2) : result f2 :=
  let! p := need3 p in getClosest64 (sq64_2 p) l.
(** 2D/Object/LineString.cpp 90-111: isNear. *)
Definition ls64_isNear2 (l m : list (option f2)) (tol : option spec_float) : result bool :=
  match l, m with
  | [], _ => Ok false
  | _, [] => Ok false
  | _, _ =>
    if negb (Nat.eqb (length l) (length m)) then Ok false
    else all_near64 (fun p q => pt64_isNear2 p q tol) l m
  end.

(** *** Nearness of sets of points *)
(** 3D/Object/PointSet.cpp 71-87, 2D/Object/PointSet.cpp 70-86: the inner loop of isNear takes the first point near [p] out of the buffer. *)
Fixpoint take_near64 {A : Type} (near : option A -> option A -> result bool) (p : A) (l : list A) : result (option (list A)) :=
  match l with
  | [] => Ok None
  | q :: r =>
    let! b := near (Some p) (Some q) in
    if b then Ok (Some r)
    else let! o := take_near64 near p r in Ok (match o with Some r' => Some (q :: r') | None => None end)
  end.
(** 3D/Object/PointSet.cpp 65-97, 2D/Object/PointSet.cpp 64-96: the outer loop. *)
Fixpoint match_near64 {A : Type} (near : option A -> option A -> result bool) (s t : list A) : result bool :=
  match s with
  | [] => Ok true
  | p :: r => let! o := take_near64 near p t in match o with Some t' => match_near64 near r t' | None => Ok false end
  end.
(** 3D/Object/PointSet.cpp 52-100: isNear, for the points of the sets in the order of their iterators. *)
Definition pset64_isNear (r : order) (s t : list f3) (tol : option spec_float) : result bool :=
  match s, t with
  | [], _ => Ok false
  | _, [] => Ok false
  | _, _ => if negb (Nat.eqb (length s) (length t)) then Ok false else match_near64 (fun p q => pt64_isNear r p q tol) s t
  end.
(** 2D/Object/PointSet.cpp 51-99: isNear. *)
Definition pset64_isNear2 (s t : list f2) (tol : option spec_float) : result bool :=
  match s, t with
  | [], _ => Ok false
  | _, [] => Ok false
  | _, _ => if negb (Nat.eqb (length s) (length t)) then Ok false else match_near64 (fun p q => pt64_isNear2 p q tol) s t
  end.
