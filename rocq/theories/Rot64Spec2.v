(** How far a matrix is from a rotation matrix, and two matrices from each other. *)

From Coq Require Import Arith Reals.
From Verif Require Import Vec Mat3 RotModel Rot64Spec.
Local Open Scope R_scope.

(** The columns are orthonormal, up to [e]. *)
Definition orthonormal_up_to (e : R) (m : m3) : Prop :=
  forall i j, (i < 3)%nat -> (j < 3)%nat -> Rabs (dot3 (col3 m i) (col3 m j) - (if Nat.eqb i j then 1 else 0)) <= e.
(** No entry differs by more than [e]. *)
Definition entries_within (e : R) (m n : m3) : Prop :=
  forall i, (i < 3)%nat -> Rabs (vx (row3 m i) - vx (row3 n i)) <= e /\ Rabs (vy (row3 m i) - vy (row3 n i)) <= e /\ Rabs (vz (row3 m i) - vz (row3 n i)) <= e.
(** The matrix whose columns are the axes turned by a quaternion. *)
Definition turning4 (q : quat) : m3 := of_cols (turned4 q (V3 1 0 0)) (turned4 q (V3 0 1 0)) (turned4 q (V3 0 0 1)).
