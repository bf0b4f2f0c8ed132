(** What transformations in double precision stand for. *)

From Coq Require Import List Arith ZArith Reals Floats.SpecFloat.
From Verif Require Import FloatSpec Geo64Spec Mat64Model Mat64Spec Trf64Model.
Import ListNotations.
Local Open Scope R_scope.

(** f 0 + ... + f (n - 1). *)
Fixpoint total (n : nat) (f : nat -> R) : R := match n with 0%nat => 0 | S n => total n f + f n end.
(** The order of each coefficient of [n] rows adds [n] products, each once. *)
Definition sums (n : nat) (o : orders) : Prop := forall i j, (i < n)%nat -> (j < n)%nat -> adds_all (o i j) n.
(** Coordinates as real numbers. *)
Definition coord (p : list spec_float) (i : nat) : R := rval (nth i p (S754_zero false)).
Definition cell (m : m64) (i j : nat) : R := rval (nth j (nth i m []) (S754_zero false)).
(** [d] finite coordinates, at most [B] in magnitude. *)
Definition point_within (d : nat) (B : R) (p : list spec_float) : Prop :=
  length p = d /\ forall x, In x p -> finite64 x /\ Rabs (rval x) <= B.
(** A matrix of [n] rows and columns of finite numbers, at most [B] in magnitude. *)
Definition matrix_within (n : nat) (B : R) (m : m64) : Prop :=
  length m = n /\ forall r, In r m -> point_within n B r.
(** The matrix of a map of dimension [d]: the last row is 0 ... 0 1. *)
Definition affine (d : nat) (m : m64) : Prop := forall j, (j <= d)%nat -> cell m d j = if Nat.eqb j d then 1 else 0.
(** The image of a point under the affine map of a matrix, exactly; its linear part; and how large the terms are. *)
Definition image (d : nat) (m : m64) (p : nat -> R) (i : nat) : R := total d (fun k => cell m i k * p k) + cell m i d.
Definition linear (d : nat) (m : m64) (v : nat -> R) (i : nat) : R := total d (fun k => cell m i k * v k).
Definition terms (d : nat) (m : m64) (p : nat -> R) (i : nat) : R := total d (fun k => Rabs (cell m i k) * Rabs (p k)) + Rabs (cell m i d).
Definition linear_terms (d : nat) (m : m64) (v : nat -> R) (i : nat) : R := total d (fun k => Rabs (cell m i k) * Rabs (v k)).
(** All entries are whole numbers, at most [N] in magnitude. *)
Definition whole_list (N : Z) (p : list spec_float) : Prop := forall x, In x p -> whole64 N x.
Definition whole_matrix (N : Z) (m : m64) : Prop := forall r, In r m -> whole_list N r.
(** The affine maps of the plane: the determinant of the linear part, the coefficients of the inverse (of which the last
    row is 0 0 1), how large their terms are, and how large the terms of the determinant are. *)
Definition det2 (m : m64) : R := cell m 0 0 * cell m 1 1 - cell m 0 1 * cell m 1 0.
Definition det2_terms (m : m64) : R := Rabs (cell m 0 0 * cell m 1 1) + Rabs (cell m 0 1 * cell m 1 0).
Definition inverse2 (m : m64) (i j : nat) : R :=
  match i, j with
  | 0%nat, 0%nat => cell m 1 1 / det2 m
  | 0%nat, 1%nat => - cell m 0 1 / det2 m
  | 0%nat, 2%nat => (cell m 0 1 * cell m 1 2 - cell m 0 2 * cell m 1 1) / det2 m
  | 1%nat, 0%nat => - cell m 1 0 / det2 m
  | 1%nat, 1%nat => cell m 0 0 / det2 m
  | 1%nat, 2%nat => (cell m 0 2 * cell m 1 0 - cell m 0 0 * cell m 1 2) / det2 m
  | 2%nat, 2%nat => 1
  | _, _ => 0
  end.
Definition inverse2_terms (m : m64) (i j : nat) : R :=
  match i, j with
  | 0%nat, 2%nat => (Rabs (cell m 0 1 * cell m 1 2) + Rabs (cell m 0 2 * cell m 1 1)) / Rabs (det2 m)
  | 1%nat, 2%nat => (Rabs (cell m 0 2 * cell m 1 0) + Rabs (cell m 0 0 * cell m 1 2)) / Rabs (det2 m)
  | _, _ => Rabs (inverse2 m i j)
  end.
