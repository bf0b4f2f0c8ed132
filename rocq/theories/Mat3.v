(** 3 x 3 real matrices: the part of Eigen's Matrix3d the library uses. *)

From Coq Require Import Reals.
From Verif Require Import Vec.
Local Open Scope R_scope.

(** Row by row, as in Eigen's comma initialiser. *)
Record m3 := M3 { m00 : R; m01 : R; m02 : R; m10 : R; m11 : R; m12 : R; m20 : R; m21 : R; m22 : R }.

Definition row3 (m : m3) (i : nat) : v3 :=
  match i with
  | 0 => V3 (m00 m) (m01 m) (m02 m)
  | 1 => V3 (m10 m) (m11 m) (m12 m)
  | _ => V3 (m20 m) (m21 m) (m22 m)
  end%nat.
Definition col3 (m : m3) (j : nat) : v3 :=
  match j with
  | 0 => V3 (m00 m) (m10 m) (m20 m)
  | 1 => V3 (m01 m) (m11 m) (m21 m)
  | _ => V3 (m02 m) (m12 m) (m22 m)
  end%nat.
Definition of_rows (a b c : v3) : m3 := M3 (vx a) (vy a) (vz a) (vx b) (vy b) (vz b) (vx c) (vy c) (vz c).
Definition of_cols (a b c : v3) : m3 := M3 (vx a) (vx b) (vx c) (vy a) (vy b) (vy c) (vz a) (vz b) (vz c).
Definition id3 : m3 := M3 1 0 0 0 1 0 0 0 1.
Definition transpose3 (m : m3) : m3 := of_cols (row3 m 0) (row3 m 1) (row3 m 2).
Definition mulv3 (m : m3) (v : v3) : v3 := V3 (dot3 (row3 m 0) v) (dot3 (row3 m 1) v) (dot3 (row3 m 2) v).
Definition mul3 (a b : m3) : m3 := of_cols (mulv3 a (col3 b 0)) (mulv3 a (col3 b 1)) (mulv3 a (col3 b 2)).
Definition trace3 (m : m3) : R := m00 m + m11 m + m22 m.
Definition det3 (m : m3) : R := dot3 (row3 m 0) (cross3 (row3 m 1) (row3 m 2)).

Lemma m3_eq_dec (a b : m3) : {a = b} + {a <> b}.
Proof.
  destruct a as [a0 a1 a2 a3 a4 a5 a6 a7 a8], b as [b0 b1 b2 b3 b4 b5 b6 b7 b8].
  destruct (Req_EM_T a0 b0); [| right; congruence].
  destruct (Req_EM_T a1 b1); [| right; congruence].
  destruct (Req_EM_T a2 b2); [| right; congruence].
  destruct (Req_EM_T a3 b3); [| right; congruence].
  destruct (Req_EM_T a4 b4); [| right; congruence].
  destruct (Req_EM_T a5 b5); [| right; congruence].
  destruct (Req_EM_T a6 b6); [| right; congruence].
  destruct (Req_EM_T a7 b7); [| right; congruence].
  destruct (Req_EM_T a8 b8); [left; congruence | right; congruence].
Qed.
