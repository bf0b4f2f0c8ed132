(** What quaternions and matrices of binary64 numbers stand for, and how far apart two are. *)

From Coq Require Import ZArith Reals Floats.SpecFloat.
From Verif Require Import Vec Mat3 FloatSpec Geo64Model Geo64Spec RotModel RotSpec Rot64Model.
Local Open Scope R_scope.

Definition val4 (q : f4) : quat := Q4 (rval (q64x q)) (rval (q64y q)) (rval (q64z q)) (rval (q64s q)).
Definition finite4 (q : f4) : Prop := finite64 (q64x q) /\ finite64 (q64y q) /\ finite64 (q64z q) /\ finite64 (q64s q).
Definition within4 (B : R) (q : f4) : Prop :=
  Rabs (rval (q64x q)) <= B /\ Rabs (rval (q64y q)) <= B /\ Rabs (rval (q64z q)) <= B /\ Rabs (rval (q64s q)) <= B.
Definition whole4 (N : Z) (q : f4) : Prop :=
  whole64 N (q64x q) /\ whole64 N (q64y q) /\ whole64 N (q64z q) /\ whole64 N (q64s q).
(** Length, distance, multiples. *)
Definition len4 (q : quat) : R := sqrt (sq q).
Definition gap4 (p q : quat) : R := len4 (Q4 (qx p - qx q) (qy p - qy q) (qz p - qz q) (qs p - qs q)).
Definition times4 (k : R) (q : quat) : quat := Q4 (k * qx q) (k * qy q) (k * qz q) (k * qs q).
Definition one4 : quat := Q4 0 0 0 1.
Definition bar4 (q : quat) : quat := Q4 (- qx q) (- qy q) (- qz q) (qs q).
(** The vector turned by a quaternion, q v q* (products written right to left, as in the code). *)
Definition turned4 (q : quat) (v : v3) : v3 :=
  let w := hamilton (bar4 q) (hamilton (Q4 (vx v) (vy v) (vz v) 0) q) in V3 (qx w) (qy w) (qz w).
(** Matrices, by columns. *)
Definition val33 (m : f33) : m3 := of_cols (val3 (c64_0 m)) (val3 (c64_1 m)) (val3 (c64_2 m)).
Definition finite33 (m : f33) : Prop := finite3 (c64_0 m) /\ finite3 (c64_1 m) /\ finite3 (c64_2 m).
Definition within33 (B : R) (m : f33) : Prop := within3 B (c64_0 m) /\ within3 B (c64_1 m) /\ within3 B (c64_2 m).
Definition whole33 (N : Z) (m : f33) : Prop := whole3 N (c64_0 m) /\ whole3 N (c64_1 m) /\ whole3 N (c64_2 m).
