(** When a square matrix is taken for the identity. *)

From Coq Require Import Reals Arith.
From Verif Require Import Vec Mat3 Mat4.
Local Open Scope R_scope.

(** The element in a row and a column. *)
Definition entry3 (m : m3) (i j : nat) : R :=
  match i, j with
  | 0, 0 => m00 m | 0, 1 => m01 m | 0, 2 => m02 m
  | 1, 0 => m10 m | 1, 1 => m11 m | 1, 2 => m12 m
  | 2, 0 => m20 m | 2, 1 => m21 m | 2, 2 => m22 m
  | _, _ => R0
  end%nat.
Definition entry4 (m : m4) (i j : nat) : R :=
  match i, j with
  | 0, 0 => a00 m | 0, 1 => a01 m | 0, 2 => a02 m | 0, 3 => a03 m
  | 1, 0 => a10 m | 1, 1 => a11 m | 1, 2 => a12 m | 1, 3 => a13 m
  | 2, 0 => a20 m | 2, 1 => a21 m | 2, 2 => a22 m | 2, 3 => a23 m
  | 3, 0 => a30 m | 3, 1 => a31 m | 3, 2 => a32 m | 3, 3 => a33 m
  | _, _ => R0
  end%nat.
(** Ones on the diagonal, up to a relative tolerance, and zeros elsewhere, up to an absolute one. *)
Definition like_identity (tol : R) (n : nat) (f : nat -> nat -> R) : Prop :=
  forall i j, (i < n)%nat -> (j < n)%nat ->
  if Nat.eqb i j then Rabs (f i j - 1) <= tol * Rmin (Rabs (f i j)) 1 else Rabs (f i j) <= tol.
(** The first three columns, without the last row. *)
Definition column3 (m : m4) (j : nat) : v3 := V3 (entry4 m 0 j) (entry4 m 1 j) (entry4 m 2 j).
