(** Model of the interpolators
    (/repo/src/OpenSpaceToolkit/Mathematics/CurveFitting/Interpolator/*.cpp and
     MatrixInterpolator/LogEuclideanRiemannian.cpp).

    Doubles are real numbers, a VectorXd is a list.  Reading a vector outside its size is
    undefined behaviour ([UB]). *)

From Coq Require Import List Bool Arith Reals.
From Verif Require Import Result DOrder.
Import ListNotations.
Local Open Scope R_scope.

(** x_(i): unchecked element access. *)
Definition at_ {A} (l : list A) (i : nat) : result A :=
  match nth_error l i with Some a => Ok a | None => UB end.

(** std::lower_bound / std::upper_bound over [x]: libstdc++'s halving loop on
    (first, len).  [goRight a] is the test on the middle element: a < q for lower_bound,
    not (q < a) for upper_bound.  [fuel] bounds the number of halvings. *)
Fixpoint bound_loop (goRight : R -> bool) (x : list R) (fuel first len : nat) : result nat :=
  match len with
  | O => Ok first
  | _ =>
    match fuel with
    | O => Err OutOfFuel
    | S f =>
      let half := Nat.div2 len in
      let mid := (first + half)%nat in
      let! a := at_ x mid in
      if goRight a then bound_loop goRight x f (mid + 1) (len - half - 1)
      else bound_loop goRight x f first half
    end
  end.
Definition lower_bound (x : list R) (q : R) : result nat :=
  bound_loop (fun a => Rltb a q) x (length x) 0 (length x).
Definition upper_bound (x : list R) (q : R) : result nat :=
  bound_loop (fun a => negb (Rltb q a)) x (length x) 0 (length x).

(** *** Linear *)
Record table := mkT { tx : list R; ty : list R }.

(** Linear.cpp 18-32: constructor. *)
Definition Linear (x y : list R) : result table :=
  if Nat.ltb (length y) 2 then Err EWrong
  else if negb (Nat.eqb (length x) (length y)) then Err EWrong
  else Ok (mkT x y).

(** Linear.cpp 97-112: findIndexRange. *)
Definition findIndexRange (x : list R) (q : R) : result (nat * nat) :=
  let! index := lower_bound x q in
  if Nat.eqb index 0 then Ok (0, 0)%nat
  else if Nat.eqb index (length x) then Ok (index - 1, index - 1)%nat
  else Ok (index - 1, index)%nat.

(** Linear.cpp 48-68: evaluate. *)
Definition linear_evaluate (t : table) (q : R) : result R :=
  let! (p, n) := findIndexRange (tx t) q in
  if Nat.eqb p n then at_ (ty t) p
  else
    let! previousY := at_ (ty t) p in
    let! nextY := at_ (ty t) n in
    let! xp := at_ (tx t) p in
    let! xn := at_ (tx t) n in
    let ratio := (q - xp) / (xn - xp) in
    Ok (previousY + ratio * (nextY - previousY)).

(** Linear.cpp 70-83: computeDerivative. *)
Definition linear_derivative (t : table) (q : R) : result R :=
  let! (p, n) := findIndexRange (tx t) q in
  if Nat.eqb p n then Ok 0
  else
    let! previousY := at_ (ty t) p in
    let! nextY := at_ (ty t) n in
    let! xp := at_ (tx t) p in
    let! xn := at_ (tx t) n in
    Ok ((nextY - previousY) / (xn - xp)).

(** Linear.cpp 36-46, 85-95: evaluate and computeDerivative on a vector. *)
Definition linear_evaluate_all (t : table) (qs : list R) : result (list R) := mapM (linear_evaluate t) qs.
Definition linear_derivative_all (t : table) (qs : list R) : result (list R) := mapM (linear_derivative t) qs.

(** *** ZeroOrder *)
(** ZeroOrder.cpp 16-30: constructor. *)
Definition ZeroOrder (x y : list R) : result table :=
  if Nat.ltb (length y) 1 then Err EWrong
  else if negb (Nat.eqb (length x) (length y)) then Err EWrong
  else Ok (mkT x y).

(** ZeroOrder.cpp 63-76: findPreviousIndex. *)
Definition findPreviousIndex (x : list R) (q : R) : result nat :=
  let! index := upper_bound x q in
  if Nat.eqb index 0 then Ok 0%nat else Ok (index - 1)%nat.

(** ZeroOrder.cpp 46-50: evaluate; 52-56: computeDerivative. *)
Definition zero_evaluate (t : table) (q : R) : result R :=
  let! p := findPreviousIndex (tx t) q in at_ (ty t) p.
Definition zero_derivative (t : table) (q : R) : result R := Ok 0.

(** *** CubicSpline *)
(** Consecutive differences (CubicSpline.cpp 31). *)
Fixpoint diffs (x : list R) : list R :=
  match x with
  | a :: ((b :: _) as r) => (b - a) :: diffs r
  | _ => []
  end.
(** Eigen's isConstant(h, prec): every coefficient c satisfies
    |c - h| <= min(|c|, |h|) * prec. *)
Definition is_approx (c h prec : R) : bool := negb (Rltb (Rmin (Rabs c) (Rabs h) * prec) (Rabs (c - h))).

(** CubicSpline.cpp 16-40: constructor, up to the construction of Boost's spline
    (not modelled); it returns x0 and h, which are handed to Boost. *)
Definition CubicSpline (x y : list R) : result (R * R * list R) :=
  if Nat.ltb (length y) 5 then Err EWrong
  else if negb (Nat.eqb (length x) (length y)) then Err EWrong
  else
    let! x1 := at_ x 1 in
    let! x0 := at_ x 0 in
    let h := x1 - x0 in
    if forallb (fun c => is_approx c h (/ 1000000)) (diffs x) then Ok (x0, h, y) else Err EWrong.

(** CubicSpline.cpp 42-52: constructor from uniform samples. *)
Definition CubicSplineUniform (y : list R) (x0 h : R) : result (R * R * list R) :=
  if Nat.ltb (length y) 5 then Err EWrong else Ok (x0, h, y).

(** *** BarycentricRational *)
(** Boost's barycentric_rational constructor (default order 3) on (x.begin(), x.end(),
    y.begin()): std::domain_error when 3 >= the number of abscissae, then copies one
    ordinate per abscissa. *)
Definition boost_barycentric (x y : list R) : result (list (R * R)) :=
  if Nat.leb (length x) 3 then Err ERuntime
  else mapM (fun i => let! a := at_ x i in let! b := at_ y i in Ok (a, b)) (seq 0 (length x)).

(** BarycentricRational.cpp 16-24: constructor; the member initialiser runs first. *)
Definition BarycentricRational (x y : list R) : result (list (R * R)) :=
  let! d := boost_barycentric x y in
  if negb (Nat.eqb (length x) (length y)) then Err EWrong else Ok d.

(** *** Interpolator::GenerateInterpolator (Interpolator.cpp 35-52) *)
Inductive itp_type := TBarycentric | TCubicSpline | TLinear | TZeroOrder | TInvalid.
Inductive interpolator :=
| IBarycentric (d : list (R * R))
| ICubicSpline (d : R * R * list R)
| ILinear (t : table)
| IZeroOrder (t : table).
Definition GenerateInterpolator (t : itp_type) (x y : list R) : result interpolator :=
  match t with
  | TBarycentric => rmap IBarycentric (BarycentricRational x y)
  | TCubicSpline => rmap ICubicSpline (CubicSpline x y)
  | TLinear => rmap ILinear (Linear x y)
  | TZeroOrder => rmap IZeroOrder (ZeroOrder x y)
  | TInvalid => Err EWrong
  end.
(** Interpolator.cpp 30-33: getInterpolationType (type_ is set by each constructor). *)
Definition getInterpolationType (i : interpolator) : itp_type :=
  match i with
  | IBarycentric _ => TBarycentric | ICubicSpline _ => TCubicSpline
  | ILinear _ => TLinear | IZeroOrder _ => TZeroOrder
  end.
