(** The properties of powers and of spherical interpolation of quaternions in double precision: C149 and C150. *)

From Coq Require Import List Bool Arith ZArith Reals Lra Lia Psatz Floats.SpecFloat.
From Verif Require Import Result Vec Mat3 AngleModel FloatModel FloatSpec FloatProofs FloatProofs2 Geo3Spec Geo64Model Geo64Spec RotModel RotSpec Rot64Model Rot64Spec Rot64Spec2 FloatProofs4 Rot64Proofs7 Rot64Proofs17
  Att64Spec Att64Proofs6 Pow64Model Pow64Spec Pow64Proofs3 Pow64Proofs5 Pow64Proofs6 Pow64Proofs7.
Import ListNotations.
Local Open Scope R_scope.

(** *** C149: exponentials, logarithms and powers of quaternions in double precision *)
(** The exponential of a quaternion with a vector part longer than the tolerance is the exact one, within 6 times the error of the functions of the C library and 2^-47. *)
Theorem C149_exp :
  forall L r eps q e, libm_within L e -> e <= / 1000 -> finite4 q -> Rabs (rval (q64s q)) <= 1 -> norm3 (vec (val4 q)) <= 3.9 -> finite64 eps -> powerRZ 2 (-400) <= rval eps -> (1 + powerRZ 2 (-51)) * rval eps < norm3 (vec (val4 q)) ->
  exists u, q64_exp L r eps (Some q) = Ok u /\ finite4 u /\ gap4 (val4 u) (polar (exp (rval (q64s q))) (direction (vec (val4 q))) (norm3 (vec (val4 q)))) <= 6 * e + powerRZ 2 (-47).
Proof. exact c149_exp. Qed.
Print Assumptions C149_exp.

(** With a vector part shorter than the tolerance it is exactly 1, whatever the scalar part. *)
Theorem C149_exp_short :
  forall L r eps q e, libm_within L e -> e <= / 1000 -> finite4 q -> Rabs (rval (q64s q)) <= 1 -> norm3 (vec (val4 q)) <= 3.9 -> finite64 eps -> powerRZ 2 (-400) <= rval eps -> (1 + powerRZ 2 (-51)) * norm3 (vec (val4 q)) < rval eps -> q64_exp L r eps (Some q) = Ok q64_Unit.
Proof. exact c149_exp_short. Qed.
Print Assumptions C149_exp_short.

(** A vector part of exactly the tolerance counts as short. *)
Theorem C149_boundary :
  forall L r eps s, finite64 eps -> powerRZ 2 (-400) <= rval eps <= powerRZ 2 400 ->
  q64_exp L r eps (Some (F4 eps zero64 zero64 s)) = Ok q64_Unit /\
  exists l, q64_log L r eps (Some (F4 eps zero64 zero64 s)) = Ok (F4 zero64 zero64 zero64 l).
Proof. exact c149_boundary. Qed.
Print Assumptions C149_boundary.

(** The logarithm has the logarithm of the length as scalar part and the angle times the axis as vector part; the vector part is dropped below the tolerance. *)
Theorem C149_log :
  forall L r eps q e, libm_within L e -> e <= / 1000 -> finite4 q -> / 2 <= len4 (val4 q) <= 2 -> finite64 eps -> powerRZ 2 (-400) <= rval eps ->
  exists v s, q64_log L r eps (Some q) = Ok (parts64 v s) /\ finite3 v /\ returns s (ln (len4 (val4 q))) (e + powerRZ 2 (-51)) /\
    ((1 + powerRZ 2 (-51)) * rval eps < norm3 (vec (val4 q)) -> dist3 (val3 v) (scale3 (atan2 (norm3 (vec (val4 q))) (qs (val4 q))) (direction (vec (val4 q)))) <= e + powerRZ 2 (-48)) /\
    ((1 + powerRZ 2 (-51)) * norm3 (vec (val4 q)) < rval eps -> val3 v = zero3).
Proof. exact c149_log. Qed.
Print Assumptions C149_log.

(** The exponential of the logarithm is the quaternion given, when the vector part is clearly longer than the tolerance. *)
Theorem C149_round_trip :
  forall L r eps q e, libm_within L e -> e <= / 1000 -> finite4 q -> / 2 <= len4 (val4 q) <= 2 -> finite64 eps -> powerRZ 2 (-400) <= rval eps <= / 32 -> 2 * rval eps + 2 * e + powerRZ 2 (-47) <= norm3 (vec (val4 q)) ->
  exists l u, q64_log L r eps (Some q) = Ok l /\ q64_exp L r eps (Some l) = Ok u /\ finite4 u /\ gap4 (val4 u) (val4 q) <= 9 * e + powerRZ 2 (-46).
Proof. exact c149_round_trip. Qed.
Print Assumptions C149_round_trip.

(** A power with exponent between -1 and 1: the length is raised to the power and the angle is multiplied, when the vector parts are clearly longer than the tolerance. *)
Theorem C149_pow :
  forall L r eps q k e h d th, libm_within L e -> e <= / 1000 -> finite4 q -> / 2 <= h <= 2 -> norm3 d = 1 -> 0 <= th <= PI -> val4 q = polar h d th -> finite64 k -> Rabs (rval k) <= 1 -> finite64 eps -> powerRZ 2 (-400) <= rval eps <= / 32 ->
  2 * rval eps <= h * sin th -> rval eps + e + powerRZ 2 (-48) <= Rabs (rval k) * th ->
  exists u, q64_pow L r eps (Some q) k = Ok u /\ finite4 u /\ gap4 (val4 u) (polar (exp (rval k * ln h)) d (rval k * th)) <= 9 * e + powerRZ 2 (-46).
Proof. exact c149_pow. Qed.
Print Assumptions C149_pow.

(** For unit quaternions short vector parts cost 3 times the tolerance. *)
Theorem C149_pow_unit :
  forall L r eps q k e h d th, libm_within L e -> e <= / 1000 -> finite4 q -> Rabs (h - 1) <= powerRZ 2 (-50) -> norm3 d = 1 -> 0 <= th <= PI -> val4 q = polar h d th -> finite64 k -> Rabs (rval k) <= 1 -> finite64 eps -> powerRZ 2 (-400) <= rval eps <= / 32 ->
  0 <= cos th \/ 2 * rval eps <= h * sin th ->
  exists u, q64_pow L r eps (Some q) k = Ok u /\ finite4 u /\ gap4 (val4 u) (polar 1 d (rval k * th)) <= 5 * e + powerRZ 2 (-47) + 3 * rval eps.
Proof. exact c149_pow_unit. Qed.
Print Assumptions C149_pow_unit.

(** But the first power of 2 is 1. *)
Theorem C149_pow_refuted :
  exists q, finite4 q /\ val4 q = Q4 0 0 0 2 /\ forall L r eps, finite64 eps -> 0 <= rval eps -> q64_pow L r eps (Some q) one_64 = Ok q64_Unit.
Proof. exact c149_pow_refuted. Qed.
Print Assumptions C149_pow_refuted.

(** The exponential of 1 is 1, at least 1 away from the exact one. *)
Theorem C149_exp_refuted :
  exists q, finite4 q /\ val4 q = Q4 0 0 0 1 /\ (forall L r eps, finite64 eps -> 0 <= rval eps -> q64_exp L r eps (Some q) = Ok q64_Unit) /\ forall d, 1 <= gap4 (val4 q64_Unit) (polar (exp 1) d 0).
Proof. exact c149_exp_refuted. Qed.
Print Assumptions C149_exp_refuted.

(** Half of almost a whole turn is no turn at all, at least 1 away from the exact power. *)
Theorem C149_turn_refuted :
  exists q k, finite4 q /\ finite64 k /\ rval k = / 2 /\ Rabs (len4 (val4 q) - 1) <= powerRZ 2 (-50) /\ forall L r eps, finite64 eps -> powerRZ 2 (-50) <= rval eps ->
  q64_pow L r eps (Some q) k = Ok q64_Unit /\ forall h d th, 0 <= h -> norm3 d = 1 -> 0 <= th <= PI -> val4 q = polar h d th -> 1 <= gap4 (val4 q64_Unit) (polar 1 d (rval k * th)).
Proof. exact c149_turn_refuted. Qed.
Print Assumptions C149_turn_refuted.

(** Undefined quaternions are errors. *)
Theorem C149_errors :
  forall L r eps k, q64_exp L r eps None = Err EUndefined /\ q64_log L r eps None = Err EUndefined /\ q64_pow L r eps None k = Err EUndefined.
Proof. exact c149_errors. Qed.
Print Assumptions C149_errors.

(** Functions with error 10^-5 exist, and with them half the power of the half turn around the third axis is the quarter turn. *)
Example C149_example : let eps := S754_finite false 4503599627370496 (-102) in
  libm_within lib_above (/ 100000) /\ finite4 half_turn /\ val4 half_turn = polar 1 (V3 0 0 1) (PI / 2) /\ norm3 (V3 0 0 1) = 1 /\ len4 (val4 half_turn) = 1 /\ norm3 (vec (val4 half_turn)) = 1 /\ finite64 half64 /\ rval half64 = / 2 /\ finite64 eps /\ rval eps = powerRZ 2 (-50) /\
  exists u, q64_pow lib_above FirstTwo eps (Some half_turn) half64 = Ok u /\ finite4 u /\ gap4 (val4 u) (polar 1 (V3 0 0 1) (PI / 4)) <= / 10000.
Proof.
  intros eps.
  destruct half_turn_val as (F & V & Lq & Nz & Nv). destruct half64_val as [FH VH]. destruct eps50 as [FE VE]. fold eps in FE, VE. pose proof lib_above_within as HL. pose proof PI_RGT_0 as PP.
  assert (EB : powerRZ 2 (-400) <= rval eps <= / 1000000000000000) by (rewrite VE; split; [apply P2_mono; lia | rewrite P2_m by lia; change (2 ^ (- -50))%Z with 1125899906842624%Z; apply Rinv_le_contravar; [lra | apply IZR_le; lia]]).
  split; [exact HL |]. split; [exact F |]. split; [exact V |]. split; [exact Nz |]. split; [exact Lq |]. split; [exact Nv |]. split; [exact FH |]. split; [exact VH |]. split; [exact FE |]. split; [exact VE |].
  destruct (C149_pow_unit lib_above FirstTwo eps half_turn half64 (/ 100000) 1 (V3 0 0 1) (PI / 2) HL ltac:(lra) F) as (u & HU & Fu & G); try assumption; try lra.
  - rewrite Rminus_diag_eq, Rabs_R0 by reflexivity. left. apply P2_pos.
  - rewrite VH, Rabs_pos_eq; lra.
  - rewrite cos_PI2. lra.
  - exists u. split; [exact HU |]. split; [exact Fu |]. rewrite VH in G. replace (/ 2 * (PI / 2)) with (PI / 4) in G by field. assert (P : powerRZ 2 (-47) <= / 1000000) by (rewrite P2_m by lia; apply Rinv_le_contravar; [lra | apply IZR_le; lia]). lra.
Qed.

(** *** C150: spherical interpolation in double precision *)
(** The interpolated quaternion is the first one, normalized, turned by a fraction of the angle to the second or to its opposite, whichever is nearer up to rounding; it is accepted as unitary. *)
Theorem C150_accurate :
  forall L r eps p q k e, libm_within L e -> e <= / 1000 -> finite4 p -> finite4 q -> Rabs (len4 (val4 p) - 1) <= / 1000 -> Rabs (len4 (val4 q) - 1) <= / 1000 -> finite64 k -> 0 <= rval k <= 1 -> finite64 eps -> powerRZ 2 (-400) <= rval eps <= / 32 ->
  exists sg d th w, (sg = 1 \/ sg = -1) /\ norm3 d = 1 /\ 0 <= th <= PI /\ - powerRZ 2 (-50) <= cos th /\ times4 sg (versor (val4 q)) = hamilton (polar 1 d th) (versor (val4 p)) /\
    q64_SLERP L r eps (Some p) (Some q) (Some k) = Ok w /\ finite4 w /\ gap4 (val4 w) (hamilton (polar 1 d (rval k * th)) (versor (val4 p))) <= 8 * e + powerRZ 2 (-45) + 5 * rval eps /\
    forall t, finite64 t -> powerRZ 2 (-50) <= rval t -> q64_isUnitary (Some w) (Some t) = Ok true.
Proof. exact c150_accurate. Qed.
Print Assumptions C150_accurate.

(** It satisfies the formula of spherical interpolation, with the sines of the fractions of the angle. *)
Theorem C150_formula :
  forall L r eps p q k e, libm_within L e -> e <= / 1000 -> finite4 p -> finite4 q -> Rabs (len4 (val4 p) - 1) <= / 1000 -> Rabs (len4 (val4 q) - 1) <= / 1000 -> finite64 k -> 0 <= rval k <= 1 -> finite64 eps -> powerRZ 2 (-400) <= rval eps <= / 32 ->
  exists sg th w, (sg = 1 \/ sg = -1) /\ 0 <= th <= PI /\ - powerRZ 2 (-50) <= cos th /\ cos th = sg * dot4 (versor (val4 p)) (versor (val4 q)) /\ q64_SLERP L r eps (Some p) (Some q) (Some k) = Ok w /\ finite4 w /\
    let P := versor (val4 p) in let Q := versor (val4 q) in let a := sin ((1 - rval k) * th) in let b := sg * sin (rval k * th) in
    gap4 (times4 (sin th) (val4 w)) (Q4 (a * qx P + b * qx Q) (a * qy P + b * qy Q) (a * qz P + b * qz Q) (a * qs P + b * qs Q)) <= (8 * e + powerRZ 2 (-45) + 5 * rval eps) * sin th.
Proof. exact c150_formula. Qed.
Print Assumptions C150_formula.

(** At the ends it is the first quaternion, and the second one or its opposite. *)
Theorem C150_ends :
  forall L r eps p q k e, libm_within L e -> e <= / 1000 -> finite4 p -> finite4 q -> Rabs (len4 (val4 p) - 1) <= / 1000 -> Rabs (len4 (val4 q) - 1) <= / 1000 -> finite64 k -> finite64 eps -> powerRZ 2 (-400) <= rval eps <= / 32 ->
  (rval k = 0 -> exists w, q64_SLERP L r eps (Some p) (Some q) (Some k) = Ok w /\ finite4 w /\ gap4 (val4 w) (versor (val4 p)) <= 8 * e + powerRZ 2 (-45) + 5 * rval eps) /\
  (rval k = 1 -> exists w, q64_SLERP L r eps (Some p) (Some q) (Some k) = Ok w /\ finite4 w /\ (gap4 (val4 w) (versor (val4 q)) <= 8 * e + powerRZ 2 (-45) + 5 * rval eps \/ gap4 (val4 w) (times4 (-1) (versor (val4 q))) <= 8 * e + powerRZ 2 (-45) + 5 * rval eps)).
Proof. exact c150_ends. Qed.
Print Assumptions C150_ends.

(** It turns vectors like the exact one. *)
Theorem C150_turn :
  forall L r eps p q k e tol v, libm_within L e -> e <= / 1000 -> finite4 p -> finite4 q -> Rabs (len4 (val4 p) - 1) <= / 1000 -> Rabs (len4 (val4 q) - 1) <= / 1000 -> finite64 k -> 0 <= rval k <= 1 -> finite64 eps -> powerRZ 2 (-400) <= rval eps <= / 1000 -> finite64 tol -> powerRZ 2 (-50) <= rval tol -> finite3 v -> norm3 (val3 v) <= powerRZ 2 440 ->
  exists sg d th w u, (sg = 1 \/ sg = -1) /\ norm3 d = 1 /\ 0 <= th <= PI /\ - powerRZ 2 (-50) <= cos th /\ times4 sg (versor (val4 q)) = hamilton (polar 1 d th) (versor (val4 p)) /\
    q64_SLERP L r eps (Some p) (Some q) (Some k) = Ok w /\ q64_rotateVector r (Some w) (Some v) (Some tol) = Ok u /\ finite3 u /\
    dist3 (val3 u) (turned4 (hamilton (polar 1 d (rval k * th)) (versor (val4 p))) (val3 v)) <= (15 * e + powerRZ 2 (-44) + 9 * rval eps) * norm3 (val3 v) + powerRZ 2 (-1069).
Proof. exact c150_turn. Qed.
Print Assumptions C150_turn.

(** A first quaternion whose squared length is below the tolerance is refused. *)
Theorem C150_refused :
  forall L r eps p q k, finite4 p -> finite4 q -> within4 (powerRZ 2 450) p -> powerRZ 2 (-450) <= len4 (val4 p) -> finite64 k -> 0 <= rval k <= 1 -> finite64 eps -> (1 + powerRZ 2 (-50)) * sq (val4 p) < rval eps -> q64_SLERP L r eps (Some p) (Some q) (Some k) = Err ERuntime.
Proof. exact c150_refused. Qed.
Print Assumptions C150_refused.

(** Undefined arguments, and ratios outside of 0 to 1. *)
Theorem C150_errors :
  forall L r eps p q k, q64_SLERP L r eps p q None = Err EUndefined /\
  (finite64 k -> rval k < 0 \/ 1 < rval k -> q64_SLERP L r eps p q (Some k) = Err ERuntime) /\
  (finite64 k -> 0 <= rval k <= 1 -> q64_SLERP L r eps None q (Some k) = Err EUndefined /\ q64_SLERP L r eps p None (Some k) = Err EUndefined).
Proof. exact c150_errors. Qed.
Print Assumptions C150_errors.

(** Half way from no turn to the half turn around the third axis is the quarter turn around it or the opposite one. *)
Example C150_example : let eps := S754_finite false 4503599627370496 (-102) in
  libm_within lib_above (/ 100000) /\ finite4 q64_Unit /\ len4 (val4 q64_Unit) = 1 /\ finite4 half_turn /\ len4 (val4 half_turn) = 1 /\ finite64 half64 /\ rval half64 = / 2 /\ finite64 eps /\ rval eps = powerRZ 2 (-50) /\
  exists sg w, (sg = 1 \/ sg = -1) /\ q64_SLERP lib_above FirstTwo eps (Some q64_Unit) (Some half_turn) (Some half64) = Ok w /\ finite4 w /\ gap4 (val4 w) (Q4 0 0 (sg * sin (PI / 4)) (sin (PI / 4))) <= / 10000.
Proof.
  intros eps.
  destruct half_turn_val as (F & V & Lq & Nz & Nv). destruct half64_val as [FH VH]. destruct eps50 as [FE VE]. fold eps in FE, VE. pose proof lib_above_within as HL. pose proof PI_RGT_0 as PP.
  assert (EB : powerRZ 2 (-400) <= rval eps <= / 1000000000000000) by (rewrite VE; split; [apply P2_mono; lia | rewrite P2_m by lia; change (2 ^ (- -50))%Z with 1125899906842624%Z; apply Rinv_le_contravar; [lra | apply IZR_le; lia]]).
  assert (FU : finite4 q64_Unit) by (repeat split; exact (proj1 one_val)). assert (LU : len4 (val4 q64_Unit) = 1) by (rewrite unit_val; unfold len4, sq, one4; cbn [qx qy qz qs]; replace (0 * 0 + 0 * 0 + 0 * 0 + 1 * 1) with 1 by ring; apply sqrt_1).
  split; [exact HL |]. split; [exact FU |]. split; [exact LU |]. split; [exact F |]. split; [exact Lq |]. split; [exact FH |]. split; [exact VH |]. split; [exact FE |]. split; [exact VE |].
  destruct (C150_formula lib_above FirstTwo eps q64_Unit half_turn half64 (/ 100000) HL ltac:(lra) FU F) as (sg & th & w & HS & TH & _ & C & HW & Fw & G); try assumption; try (rewrite ?LU, ?Lq, Rminus_diag_eq, Rabs_R0 by reflexivity); try lra.
  exists sg, w. split; [exact HS |]. split; [exact HW |]. split; [exact Fw |]. unfold versor in C, G. rewrite LU, Lq, Rinv_1, unit_val, V in C, G. unfold polar, one4, times4, dot4 in C, G. cbn [qx qy qz qs vx vy vz] in C, G. rewrite sin_PI2, cos_PI2 in C, G.
  assert (T : th = PI / 2). { rewrite <- (acos_cos th) by lra. replace (cos th) with 0 by lra. apply acos_0. } subst th. rewrite sin_PI2, VH in G. replace ((1 - / 2) * (PI / 2)) with (PI / 4) in G by field. replace (/ 2 * (PI / 2)) with (PI / 4) in G by field.
  assert (P : powerRZ 2 (-45) <= / 1000000) by (rewrite P2_m by lia; apply Rinv_le_contravar; [lra | apply IZR_le; lia]). eapply Rle_trans; [| apply Rle_trans with (1 := G); lra]. right. unfold gap4. cbn [qx qy qz qs]. f_equal. f_equal; ring.
Qed.
