(** Model of the log-Euclidean matrix interpolator
    (/repo/src/OpenSpaceToolkit/Mathematics/CurveFitting/MatrixInterpolator/LogEuclideanRiemannian.cpp).

    A MatrixXd is its dimensions and entries.  Eigen's SelfAdjointEigenSolver is a function
    [eig] (dimension, matrix) |-> eigenvalues and matrix of eigenvectors, or [None] when
    solver.info() is not Success; its contract is in InterpSpec.v. *)

From Coq Require Import List Bool Arith Reals.
From Verif Require Import Result DOrder InterpModel MatN.
Import ListNotations.
Local Open Scope R_scope.

Record matrix := mkM { rows : nat; cols : nat; entry : mat }.

Section Model.
Variable eig : nat -> mat -> option ((nat -> R) * mat).

(** 113-119: "for each eigenvalue, if it is <= 0 throw". *)
Definition all_positive (n : nat) (d : nat -> R) : bool :=
  forallb (fun i => Rltb 0 (d i)) (seq 0 n).

(** 102-125: MatrixLogSPD. *)
Definition MatrixLogSPD (M : matrix) : result matrix :=
  let n := rows M in
  match eig n (entry M) with
  | None => Err ERuntime
  | Some (d, Q) =>
    if all_positive n d then Ok (mkM n n (conj_diag n Q (fun k => ln (d k)))) else Err ERuntime
  end.

(** 127-140: MatrixExpSymmetric. *)
Definition MatrixExpSymmetric (M : matrix) : result matrix :=
  let n := rows M in
  match eig n (entry M) with
  | None => Err ERuntime
  | Some (d, Q) => Ok (mkM n n (conj_diag n Q (fun k => exp (d k))))
  end.

(** 49-56: x strictly increasing. *)
Fixpoint strictly_increasing (x : list R) : bool :=
  match x with
  | a :: ((b :: _) as r) => Rltb a b && strictly_increasing r
  | _ => true
  end.

Record lei := mkL { lx : list R; lmats : list matrix; llogs : list matrix }.

(** 18-64: constructor. *)
Definition LogEuclideanRiemannian (x : list R) (ms : list matrix) : result lei :=
  if Nat.ltb (length x) 2 then Err EWrong
  else if negb (Nat.eqb (length x) (length ms)) then Err EWrong
  else
    let! m0 := at_ ms 0 in
    if negb (Nat.eqb (rows m0) (cols m0)) then Err EWrong
    else if negb (forallb (fun m => Nat.eqb (rows m) (rows m0) && Nat.eqb (cols m) (cols m0)) (tl ms)) then Err EWrong
    else if negb (strictly_increasing x) then Err EWrong
    else
      let! logs := mapM MatrixLogSPD ms in
      Ok (mkL x ms logs).

(** 68-82: evaluate; findIndexRange (142-157) is the same code as Linear's. *)
Definition lei_evaluate (t : lei) (q : R) : result matrix :=
  let! (p, n) := findIndexRange (lx t) q in
  if Nat.eqb p n then at_ (lmats t) p
  else
    let! xp := at_ (lx t) p in
    let! xn := at_ (lx t) n in
    let ratio := (q - xp) / (xn - xp) in
    let! lp := at_ (llogs t) p in
    let! ln := at_ (llogs t) n in
    MatrixExpSymmetric
      (mkM (rows lp) (cols lp) (madd (mscale (1 - ratio) (entry lp)) (mscale ratio (entry ln)))).

(** 84-95: evaluate on a vector. *)
Definition lei_evaluate_all (t : lei) (qs : list R) : result (list matrix) := mapM (lei_evaluate t) qs.
End Model.
