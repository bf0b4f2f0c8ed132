(** Vectors of R^2 and R^3: the part of Eigen's Vector2d / Vector3d the library uses,
    with exact real arithmetic
    (/repo/include/OpenSpaceToolkit/Mathematics/Object/Vector.hpp, VectorBase.hpp). *)

From Coq Require Import Reals Lra Psatz.
Local Open Scope R_scope.

Record v2 := V2 { x2 : R; y2 : R }.
Record v3 := V3 { vx : R; vy : R; vz : R }.

(** *** Dimension 2 *)
Definition add2 (a b : v2) := V2 (x2 a + x2 b) (y2 a + y2 b).
Definition sub2 (a b : v2) := V2 (x2 a - x2 b) (y2 a - y2 b).
Definition opp2 (a : v2) := V2 (- x2 a) (- y2 a).
Definition scale2 (k : R) (a : v2) := V2 (k * x2 a) (k * y2 a).
Definition dot2 (a b : v2) : R := x2 a * x2 b + y2 a * y2 b.
Definition zero2 := V2 0 0.
Definition sqnorm2 (a : v2) : R := dot2 a a.
Definition norm2 (a : v2) : R := sqrt (sqnorm2 a).
(** Eigen's normalized(): the vector itself when its squared norm is not positive. *)
Definition normalized2 (a : v2) : v2 :=
  if Rlt_dec 0 (sqnorm2 a) then scale2 (/ norm2 a) a else a.

Lemma v2_eq_dec (a b : v2) : {a = b} + {a <> b}.
Proof.
  destruct a as [a1 a2], b as [b1 b2].
  destruct (Req_EM_T a1 b1); [| right; congruence].
  destruct (Req_EM_T a2 b2); [left; congruence | right; congruence].
Qed.

(** *** Dimension 3 *)
Definition add3 (a b : v3) := V3 (vx a + vx b) (vy a + vy b) (vz a + vz b).
Definition sub3 (a b : v3) := V3 (vx a - vx b) (vy a - vy b) (vz a - vz b).
Definition opp3 (a : v3) := V3 (- vx a) (- vy a) (- vz a).
Definition scale3 (k : R) (a : v3) := V3 (k * vx a) (k * vy a) (k * vz a).
Definition dot3 (a b : v3) : R := vx a * vx b + vy a * vy b + vz a * vz b.
Definition cross3 (a b : v3) : v3 :=
  V3 (vy a * vz b - vz a * vy b) (vz a * vx b - vx a * vz b) (vx a * vy b - vy a * vx b).
Definition zero3 := V3 0 0 0.
Definition sqnorm3 (a : v3) : R := dot3 a a.
Definition norm3 (a : v3) : R := sqrt (sqnorm3 a).
Definition normalized3 (a : v3) : v3 :=
  if Rlt_dec 0 (sqnorm3 a) then scale3 (/ norm3 a) a else a.

Lemma v3_eq_dec (a b : v3) : {a = b} + {a <> b}.
Proof.
  destruct a as [a1 a2 a3], b as [b1 b2 b3].
  destruct (Req_EM_T a1 b1); [| right; congruence].
  destruct (Req_EM_T a2 b2); [| right; congruence].
  destruct (Req_EM_T a3 b3); [left; congruence | right; congruence].
Qed.
