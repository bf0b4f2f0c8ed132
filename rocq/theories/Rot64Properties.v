(** The properties of quaternions and rotation matrices in double precision: C131 to C135. *)

From Coq Require Import List Bool Arith ZArith Reals Lra Lia Floats.SpecFloat.
From Verif Require Import Result Vec Mat3 AngleModel FloatSpec FloatProofs FloatProofs2 FloatModel FloatProofs3 FloatProofs4 VecProofs Geo3Types Geo3Spec
  Geo64Model Geo64Spec RotModel RotSpec Rot64Model Rot64Spec Rot64Spec2 Rot64Proofs Rot64Proofs2 Rot64Proofs3 Rot64Proofs4 Rot64Proofs5 Rot64Proofs6 Rot64Proofs7 Rot64Proofs8 Rot64Proofs9 Rot64Proofs10 Rot64Proofs11 Rot64Proofs12 Rot64Proofs13 Rot64Proofs14 Rot64Proofs15 Rot64Proofs16 Rot64Proofs17.
Import ListNotations.
Local Open Scope R_scope.

(** *** C131: quaternion arithmetic in double precision *)
(** The computed product is within 2^-50 of the exact one, relative to the product of the lengths, and a bit for underflow. *)
Theorem C131_accurate :
  forall r p q, finite4 p -> finite4 q -> within4 (powerRZ 2 450) p -> within4 (powerRZ 2 450) q ->
  exists w, q64_mul r (Some p) (Some q) = Ok w /\ finite4 w /\
    gap4 (val4 w) (hamilton (val4 q) (val4 p)) <= powerRZ 2 (-50) * (len4 (val4 p) * len4 (val4 q)) + powerRZ 2 (-1071).
Proof. exact c131_accurate. Qed.
Print Assumptions C131_accurate.

(** Products of quaternions with whole components are exact. *)
Theorem C131_whole :
  forall r p q, finite4 p -> finite4 q -> whole4 (2 ^ 24) p -> whole4 (2 ^ 24) q ->
  exists w, q64_mul r (Some p) (Some q) = Ok w /\ finite4 w /\ val4 w = hamilton (val4 q) (val4 p).
Proof. exact c131_whole. Qed.
Print Assumptions C131_whole.

(** The unit quaternion is neutral, exactly. *)
Theorem C131_unit :
  forall r q, finite4 q -> within4 (powerRZ 2 450) q ->
  exists w w', q64_mul r (Some q64_Unit) (Some q) = Ok w /\ q64_mul r (Some q) (Some q64_Unit) = Ok w' /\ val4 q64_Unit = one4 /\ val4 w = val4 q /\ val4 w' = val4 q.
Proof. exact c131_unit. Qed.
Print Assumptions C131_unit.

(** The conjugate of a product is the product of the conjugates the other way round, exactly. *)
Theorem C131_conjugate :
  forall r p q, finite4 p -> finite4 q -> within4 (powerRZ 2 450) p -> within4 (powerRZ 2 450) q ->
  exists p' q' w w', q64_conjugate (Some p) = Ok p' /\ q64_conjugate (Some q) = Ok q' /\ q64_mul r (Some p) (Some q) = Ok w /\ q64_mul r (Some q') (Some p') = Ok w' /\
    val4 p' = bar4 (val4 p) /\ val4 w' = bar4 (val4 w).
Proof. exact c131_conjugate. Qed.
Print Assumptions C131_conjugate.

(** Changing the sign of a factor changes the sign of the product, exactly. *)
Theorem C131_sign :
  forall r p p' q, finite4 p -> finite4 p' -> finite4 q -> within4 (powerRZ 2 450) p -> within4 (powerRZ 2 450) q -> val4 p' = negq (val4 p) ->
  exists w w', q64_mul r (Some p) (Some q) = Ok w /\ q64_mul r (Some p') (Some q) = Ok w' /\ val4 w' = negq (val4 w).
Proof. exact c131_sign. Qed.
Print Assumptions C131_sign.

(** Quaternions are equal if their components are, up to a common sign. *)
Theorem C131_equal :
  forall p q, finite4 p -> finite4 q -> (q64_eq (Some p) (Some q) = true <-> same_up_to_sign (val4 p) (val4 q)).
Proof. exact c131_equal. Qed.
Print Assumptions C131_equal.

(** Products of three quaternions computed in the two ways differ by at most 2^-47, relative to the product of the lengths. *)
Theorem C131_order :
  forall r p q w, finite4 p -> finite4 q -> finite4 w -> within4 (powerRZ 2 220) p -> within4 (powerRZ 2 220) q -> within4 (powerRZ 2 220) w ->
  exists pq qw x y, q64_mul r (Some p) (Some q) = Ok pq /\ q64_mul r (Some q) (Some w) = Ok qw /\ q64_mul r (Some pq) (Some w) = Ok x /\ q64_mul r (Some p) (Some qw) = Ok y /\
    finite4 x /\ finite4 y /\ gap4 (val4 x) (val4 y) <= powerRZ 2 (-47) * (len4 (val4 p) * len4 (val4 q) * len4 (val4 w)) + powerRZ 2 (-1069) * (1 + len4 (val4 p) + len4 (val4 w)).
Proof. exact c131_order. Qed.
Print Assumptions C131_order.

(** But they may differ. *)
Theorem C131_associative_refuted :
  exists p q w, finite4 p /\ finite4 q /\ finite4 w /\ forall r, exists x y,
  (let! pq := q64_mul r (Some p) (Some q) in q64_mul r (Some pq) (Some w)) = Ok x /\ (let! qw := q64_mul r (Some q) (Some w) in q64_mul r (Some p) (Some qw)) = Ok y /\ q64_eq (Some x) (Some y) = false.
Proof. exact c131_associative_refuted. Qed.
Print Assumptions C131_associative_refuted.

(** The computed norm is within 2^-51 of the length. *)
Theorem C131_norm :
  forall q, finite4 q -> within4 (powerRZ 2 450) q -> powerRZ 2 (-450) <= len4 (val4 q) ->
  exists n, q64_norm (Some q) = Ok n /\ finite64 n /\ Rabs (rval n - len4 (val4 q)) <= powerRZ 2 (-51) * len4 (val4 q).
Proof. exact c131_norm. Qed.
Print Assumptions C131_norm.

(** The dot product is within 2^-50 of the exact one. *)
Theorem C131_dot :
  forall p q, finite4 p -> finite4 q -> within4 (powerRZ 2 450) p -> within4 (powerRZ 2 450) q ->
  exists d, q64_dotProduct (Some p) (Some q) = Ok d /\ finite64 d /\ Rabs (rval d - dot4 (val4 p) (val4 q)) <= powerRZ 2 (-50) * (len4 (val4 p) * len4 (val4 q)) + powerRZ 2 (-1071).
Proof. exact c131_dot. Qed.
Print Assumptions C131_dot.

(** The computed inverse is within 2^-50 of the exact one, relative to its length; it is refused if the square of the norm is smaller than the tolerance, up to rounding. *)
Theorem C131_inverse :
  forall eps q, finite64 eps -> finite4 q -> within4 (powerRZ 2 450) q -> powerRZ 2 (-450) <= len4 (val4 q) ->
  (rval eps <= (1 - powerRZ 2 (-50)) * sq (val4 q) -> exists w, q64_inverse eps (Some q) = Ok w /\ finite4 w /\
     gap4 (val4 w) (times4 (/ sq (val4 q)) (bar4 (val4 q))) <= powerRZ 2 (-50) * / len4 (val4 q)) /\
  ((1 + powerRZ 2 (-50)) * sq (val4 q) < rval eps -> q64_inverse eps (Some q) = Err ERuntime).
Proof. exact c131_inverse. Qed.
Print Assumptions C131_inverse.

(** A quaternion times its computed inverse need not be the unit quaternion. *)
Theorem C131_inverse_refuted :
  exists q, finite4 q /\ forall r eps, finite64 eps -> rval eps <= 1 -> exists i x, q64_inverse eps (Some q) = Ok i /\ q64_mul r (Some q) (Some i) = Ok x /\ q64_eq (Some x) (Some q64_Unit) = false.
Proof. exact c131_inverse_refuted. Qed.
Print Assumptions C131_inverse_refuted.

(** Quotients are within 2^-49 of the exact ones. *)
Theorem C131_quotient :
  forall r eps p q, finite64 eps -> finite4 p -> within4 (powerRZ 2 450) p -> finite4 q -> within4 (powerRZ 2 440) q -> powerRZ 2 (-440) <= len4 (val4 q) ->
  rval eps <= (1 - powerRZ 2 (-50)) * sq (val4 q) -> rval eps <= (1 - powerRZ 2 (-50)) * len4 (val4 q) ->
  exists w, q64_div r eps (Some p) (Some q) = Ok w /\ finite4 w /\
    gap4 (val4 w) (hamilton (times4 (/ sq (val4 q)) (bar4 (val4 q))) (val4 p)) <= powerRZ 2 (-49) * (len4 (val4 p) / len4 (val4 q)) + powerRZ 2 (-1071).
Proof. exact c131_quotient. Qed.
Print Assumptions C131_quotient.

(** The zero quaternion cannot be normalized, inverted or divided by. *)
Theorem C131_zero :
  forall r eps p q, finite4 q -> val4 q = Q4 0 0 0 0 -> finite64 eps -> 0 < rval eps ->
  q64_normalize eps (Some q) = Err ERuntime /\ q64_inverse eps (Some q) = Err ERuntime /\ q64_div r eps p (Some q) = Err ERuntime.
Proof. exact c131_zero. Qed.
Print Assumptions C131_zero.

(** Undefined quaternions. *)
Theorem C131_errors :
  forall r eps (p : option f4) k, q64_mul r None p = Err EUndefined /\ q64_mul r p None = Err EUndefined /\ q64_add None p = Err EUndefined /\ q64_add p None = Err EUndefined /\
  q64_scale None k = Err EUndefined /\ q64_dotProduct None p = Err EUndefined /\ q64_dotProduct p None = Err EUndefined /\ q64_norm None = Err EUndefined /\
  q64_conjugate None = Err EUndefined /\ q64_rectify None = Err EUndefined /\ q64_normalize eps None = Err EUndefined /\ q64_inverse eps None = Err EUndefined /\
  q64_div r eps p None = Err EUndefined /\ q64_eq None p = false /\ q64_eq p None = false.
Proof. exact c131_errors. Qed.
Print Assumptions C131_errors.

(** The product of (1, 2, 3, 4) and (2, 0, 1, 5); components x, y, z, s. *)
Definition C131_at (i j k l : Z) : f4 := F4 (b64_of_Z i) (b64_of_Z j) (b64_of_Z k) (b64_of_Z l).
Example C131_example : let p := C131_at 1 2 3 4 in let q := C131_at 2 0 1 5 in
  (forall r, q64_mul r (Some p) (Some q) = Ok (C131_at 11 5 23 15)) /\ finite4 p /\ finite4 q /\ within4 (powerRZ 2 220) p /\ within4 (powerRZ 2 220) q /\ whole4 (2 ^ 24) p /\ whole4 (2 ^ 24) q.
Proof.
  intros p q. split; [intros []; vm_compute; reflexivity |]. change (powerRZ 2) with P2.
  assert (W : forall n, (0 <= n <= 5)%Z -> finite64 (b64_of_Z n) /\ Rabs (rval (b64_of_Z n)) <= P2 220 /\ whole64 (2 ^ 24) (b64_of_Z n)).
  { intros n H. destruct (of_Z_val n ltac:(lia)) as [F V]. split; [exact F |]. split; [| exists n; split; [exact V | lia]]. rewrite V, Rabs_pos_eq by (apply IZR_le; lia).
    apply Rle_trans with (P2 3); [rewrite <- P2_Z by lia; apply IZR_le; lia | apply P2_mono; lia]. }
  unfold finite4, within4, whole4, p, q, C131_at; cbn [q64x q64y q64z q64s]. repeat split; apply W; lia.
Qed.

(** *** C132: unit quaternions in double precision *)
(** A normalized quaternion is within 2^-50 of the exact unit quaternion, and passes the test of unit length for every tolerance of at least 2^-50. *)
Theorem C132_normalize :
  forall eps q, finite64 eps -> finite4 q -> within4 (powerRZ 2 450) q -> powerRZ 2 (-450) <= len4 (val4 q) ->
  (rval eps <= (1 - powerRZ 2 (-51)) * len4 (val4 q) ->
     exists u, q64_normalize eps (Some q) = Ok u /\ finite4 u /\ gap4 (val4 u) (times4 (/ len4 (val4 q)) (val4 q)) <= powerRZ 2 (-50) /\
       forall t, finite64 t -> powerRZ 2 (-50) <= rval t -> q64_isUnitary (Some u) (Some t) = Ok true) /\
  ((1 + powerRZ 2 (-51)) * len4 (val4 q) < rval eps -> q64_normalize eps (Some q) = Err ERuntime).
Proof. exact c132_normalize. Qed.
Print Assumptions C132_normalize.

(** The test of unit length agrees with the exact length, up to 2^-50. *)
Theorem C132_near :
  forall q t, finite4 q -> within4 (powerRZ 2 450) q -> finite64 t -> 0 < rval t <= / 4 ->
  exists b, q64_isUnitary (Some q) (Some t) = Ok b /\ (Rabs (len4 (val4 q) - 1) + powerRZ 2 (-50) <= rval t -> b = true) /\ (b = true -> Rabs (len4 (val4 q) - 1) <= rval t + powerRZ 2 (-50)).
Proof. exact c132_near. Qed.
Print Assumptions C132_near.

(** Products of two accepted quaternions are accepted for twice the tolerance and 2^-48. *)
Theorem C132_product :
  forall r p q t t', finite4 p -> finite4 q -> within4 (powerRZ 2 450) p -> within4 (powerRZ 2 450) q -> finite64 t -> finite64 t' -> 0 < rval t <= powerRZ 2 (-26) ->
  q64_isUnitary (Some p) (Some t) = Ok true -> q64_isUnitary (Some q) (Some t) = Ok true -> 2 * rval t + powerRZ 2 (-48) <= rval t' <= / 4 ->
  exists w, q64_mul r (Some p) (Some q) = Ok w /\ finite4 w /\ q64_isUnitary (Some w) (Some t') = Ok true.
Proof. exact c132_product. Qed.
Print Assumptions C132_product.

(** For tolerances smaller than 10 times 2^-53, and Real::Epsilon() is about 9.007 times 2^-53, the fifth power of a normalized quaternion is refused by rotateVector. *)
Theorem C132_power_refuted :
  exists p, finite4 p /\ forall r eps v, finite64 eps -> powerRZ 2 (-50) <= rval eps < 10 * powerRZ 2 (-53) ->
  exists q q2 q3 q4 q5, q64_normalize eps (Some p) = Ok q /\ q64_isUnitary (Some q) (Some eps) = Ok true /\
    q64_mul r (Some q) (Some q) = Ok q2 /\ q64_mul r (Some q2) (Some q) = Ok q3 /\ q64_mul r (Some q3) (Some q) = Ok q4 /\ q64_mul r (Some q4) (Some q) = Ok q5 /\
    q64_isUnitary (Some q5) (Some eps) = Ok false /\ q64_rotateVector r (Some q5) (Some v) (Some eps) = Err ERuntime.
Proof. exact c132_power_refuted. Qed.
Print Assumptions C132_power_refuted.

(** A vector turned by an accepted quaternion is within 2^-48 of q v q*, and keeps its length up to twice the tolerance and 2^-48. *)
Theorem C132_rotate :
  forall r q v t, finite4 q -> within4 (powerRZ 2 450) q -> finite3 v -> norm3 (val3 v) <= powerRZ 2 440 -> finite64 t -> 0 < rval t <= powerRZ 2 (-26) ->
  q64_isUnitary (Some q) (Some t) = Ok true ->
  exists w, q64_rotateVector r (Some q) (Some v) (Some t) = Ok w /\ finite3 w /\
    dist3 (val3 w) (turned4 (val4 q) (val3 v)) <= powerRZ 2 (-48) * norm3 (val3 v) + powerRZ 2 (-1069) /\
    Rabs (norm3 (val3 w) - norm3 (val3 v)) <= (2 * rval t + powerRZ 2 (-48)) * norm3 (val3 v) + powerRZ 2 (-1069).
Proof. exact c132_rotate. Qed.
Print Assumptions C132_rotate.

(** Turning back by the conjugate gives the vector again, up to four times the tolerance and 2^-47. *)
Theorem C132_back :
  forall r q v t, finite4 q -> within4 (powerRZ 2 450) q -> finite3 v -> norm3 (val3 v) <= powerRZ 2 430 -> finite64 t -> 0 < rval t <= powerRZ 2 (-26) ->
  q64_isUnitary (Some q) (Some t) = Ok true ->
  exists c w u, q64_conjugate (Some q) = Ok c /\ q64_rotateVector r (Some q) (Some v) (Some t) = Ok w /\ q64_rotateVector r (Some c) (Some w) (Some t) = Ok u /\ finite3 u /\
    dist3 (val3 u) (val3 v) <= (4 * rval t + powerRZ 2 (-47)) * norm3 (val3 v) + powerRZ 2 (-1068).
Proof. exact c132_back. Qed.
Print Assumptions C132_back.

(** Rectification is exact. *)
Theorem C132_rectify :
  forall q, finite4 q -> exists w, q64_rectify (Some q) = Ok w /\ finite4 w /\ 0 <= rval (q64s w) /\ val4 w = (if Rlt_dec (rval (q64s q)) 0 then negq (val4 q) else val4 q).
Proof. exact c132_rectify. Qed.
Print Assumptions C132_rectify.

(** Undefined operands, tolerances that are not positive, and quaternions that are not of unit length. *)
Theorem C132_errors :
  forall r q v t, q64_isUnitary None t = Err EUndefined /\ q64_isUnitary (Some q) None = Err EUndefined /\ (forall t', finite64 t' -> rval t' <= 0 -> q64_isUnitary (Some q) (Some t') = Err EUndefined) /\
  q64_rotateVector r (Some q) None t = Err EUndefined /\ q64_rotateVector r None (Some v) t = Err EUndefined /\
  (q64_isUnitary (Some q) t = Ok false -> q64_rotateVector r (Some q) (Some v) t = Err ERuntime).
Proof. exact c132_errors. Qed.
Print Assumptions C132_errors.

(** (0, 0, 3, 4) is normalized and turns the x axis into (0.28, -0.96, 0), up to rounding. *)
Example C132_example : let eps := S754_finite false (2 ^ 52) (-102) in let p := C131_at 0 0 3 4 in
  finite64 eps /\ rval eps = powerRZ 2 (-50) /\ finite4 p /\ exists q, q64_normalize eps (Some p) = Ok q /\ q64_isUnitary (Some q) (Some eps) = Ok true /\ finite4 q /\ within4 (powerRZ 2 450) q /\
  forall r, q64_rotateVector r (Some q) (Some (F3 (b64_of_Z 1) zero64 zero64)) (Some eps) = Ok (F3 (S754_finite false 5044031582654958 (-54)) (S754_finite true 8646911284551352 (-53)) zero64).
Proof.
  intros eps p. split; [vm_compute; repeat split; reflexivity || discriminate |]. change (powerRZ 2) with P2. split.
  { unfold eps. rewrite rval_sg. cbn [sg]. replace (Zpos (2 ^ 52)) with (2 ^ 52)%Z by reflexivity. rewrite P2_Z, <- P2_add by lia. change (52 + -102)%Z with (-50)%Z. ring. }
  split; [vm_compute; repeat split; reflexivity || discriminate |]. exists (fnormal4 p). split; [vm_compute; reflexivity |]. split; [vm_compute; reflexivity |]. split; [vm_compute; repeat split; reflexivity || discriminate |]. split.
  - replace (fnormal4 p) with (F4 zero64 zero64 (S754_finite false 5404319552844595 (-53)) (S754_finite false 7205759403792794 (-53))) by (vm_compute; reflexivity).
    unfold within4; cbn [q64x q64y q64z q64s]. rewrite !rval_sg. change (rval zero64) with 0. rewrite Rabs_R0. cbn [sg]. pose proof (P2_mono 0 450 ltac:(lia)) as M. rewrite P2_0 in M. rewrite (P2_m (-53)) by lia. change (2 ^ (- -53))%Z with 9007199254740992%Z.
    repeat split; try lra; rewrite Rabs_pos_eq; lra.
  - intros []; vm_compute; reflexivity.
Qed.

(** *** C133: linear interpolation of quaternions in double precision *)
(** At the ratios zero and one the ends are met exactly. *)
Theorem C133_ends :
  forall p q k, finite4 p -> finite4 q -> within4 (powerRZ 2 450) p -> within4 (powerRZ 2 450) q -> finite64 k ->
  (rval k = 0 -> exists w, q64_LERP (Some p) (Some q) (Some k) = Ok w /\ val4 w = val4 p) /\ (rval k = 1 -> exists w, q64_LERP (Some p) (Some q) (Some k) = Ok w /\ val4 w = val4 q).
Proof. exact c133_ends. Qed.
Print Assumptions C133_ends.

(** The interpolated quaternion is within 2^-51 of the exact one, relative to the sum of the lengths. *)
Theorem C133_accurate :
  forall p q k, finite4 p -> finite4 q -> within4 (powerRZ 2 450) p -> within4 (powerRZ 2 450) q -> finite64 k -> 0 <= rval k <= 1 ->
  exists w, q64_LERP (Some p) (Some q) (Some k) = Ok w /\ finite4 w /\
    gap4 (val4 w) (Q4 ((1 - rval k) * qx (val4 p) + rval k * qx (val4 q)) ((1 - rval k) * qy (val4 p) + rval k * qy (val4 q)) ((1 - rval k) * qz (val4 p) + rval k * qz (val4 q)) ((1 - rval k) * qs (val4 p) + rval k * qs (val4 q)))
      <= powerRZ 2 (-51) * (len4 (val4 p) + len4 (val4 q)) + powerRZ 2 (-1072).
Proof. exact c133_accurate. Qed.
Print Assumptions C133_accurate.

(** Interpolating between a quaternion and itself may give another one. *)
Theorem C133_same_refuted :
  exists q k w, finite4 q /\ finite64 k /\ 0 < rval k < 1 /\ q64_LERP (Some q) (Some q) (Some k) = Ok w /\ q64_eq (Some w) (Some q) = false.
Proof. exact c133_same_refuted. Qed.
Print Assumptions C133_same_refuted.

(** Undefined operands and ratios outside of the interval from 0 to 1. *)
Theorem C133_errors :
  forall p q k, q64_LERP p q None = Err EUndefined /\
  (finite64 k -> rval k < 0 \/ 1 < rval k -> q64_LERP p q (Some k) = Err ERuntime) /\
  (finite64 k -> 0 <= rval k <= 1 -> q64_LERP None q (Some k) = Err EUndefined /\ q64_LERP p None (Some k) = Err EUndefined).
Proof. exact c133_errors. Qed.
Print Assumptions C133_errors.

(** Half way between (0, 0, 0, 1) and (0, 0, 2, 3). *)
Example C133_example : let p := C131_at 0 0 0 1 in let q := C131_at 0 0 2 3 in let k := S754_finite false (2 ^ 52) (-53) in
  q64_LERP (Some p) (Some q) (Some k) = Ok (C131_at 0 0 1 2) /\ finite4 p /\ finite4 q /\ finite64 k /\ 0 <= rval k <= 1.
Proof.
  intros p q k. split; [vm_compute; reflexivity |]. do 3 (split; [vm_compute; repeat split; reflexivity || discriminate |]). unfold k. rewrite rval_sg. cbn [sg]. rewrite P2_m by lia. change (2 ^ (- -53))%Z with 9007199254740992%Z. change (Zpos (2 ^ 52)) with 4503599627370496%Z. lra.
Qed.

(** *** C134: rotation matrices in double precision *)
(** The checks of the constructor agree with the exact ones, up to 2^-50. *)
Theorem C134_near :
  forall r eps m, finite33 m -> within33 (powerRZ 2 450) m -> finite64 eps -> 0 <= rval eps <= / 4 ->
  (columns_tolerated (rval eps - powerRZ 2 (-50)) (val33 m) -> RotationMatrix64 r eps m = Ok m) /\
  (columns_tolerated (rval eps + powerRZ 2 (-50)) (val33 m) \/ RotationMatrix64 r eps m = Err ERuntime).
Proof. exact c134_near. Qed.
Print Assumptions C134_near.

(** An accepted matrix times a vector is within 2^-50 of the exact product, and at most slightly longer than the vector. *)
Theorem C134_turn :
  forall r eps m v, finite33 m -> within33 (powerRZ 2 450) m -> finite3 v -> norm3 (val3 v) <= powerRZ 2 440 -> finite64 eps -> 0 <= rval eps <= powerRZ 2 (-26) -> RotationMatrix64 r eps m = Ok m ->
  exists w, rm64_mulv r (Some m) (Some v) = Ok w /\ finite3 w /\ dist3 (val3 w) (mulv3 (val33 m) (val3 v)) <= powerRZ 2 (-50) * norm3 (val3 v) + powerRZ 2 (-1071) /\
    norm3 (val3 w) <= (1 + 3 * rval eps + powerRZ 2 (-48)) * norm3 (val3 v) + powerRZ 2 (-1071).
Proof. exact c134_turn. Qed.
Print Assumptions C134_turn.

(** If the columns are orthonormal up to e, the length is kept up to 3.01 e and rounding. *)
Theorem C134_length :
  forall r m v e, finite33 m -> finite3 v -> norm3 (val3 v) <= powerRZ 2 440 -> 0 <= e <= powerRZ 2 (-26) -> orthonormal_up_to e (val33 m) ->
  exists w, rm64_mulv r (Some m) (Some v) = Ok w /\ finite3 w /\ Rabs (norm3 (val3 w) - norm3 (val3 v)) <= (3.01 * e + powerRZ 2 (-50)) * norm3 (val3 v) + powerRZ 2 (-1071).
Proof. exact c134_length. Qed.
Print Assumptions C134_length.

(** And the transpose turns back. *)
Theorem C134_back :
  forall r m v e, finite33 m -> finite3 v -> norm3 (val3 v) <= powerRZ 2 430 -> 0 <= e <= powerRZ 2 (-28) -> orthonormal_up_to e (val33 m) ->
  exists t w u, rm64_transpose (Some m) = Ok t /\ rm64_mulv r (Some m) (Some v) = Ok w /\ rm64_mulv r (Some t) (Some w) = Ok u /\ finite3 u /\
    dist3 (val3 u) (val3 v) <= (3.01 * e + powerRZ 2 (-49)) * norm3 (val3 v) + powerRZ 2 (-1070).
Proof. exact c134_back. Qed.
Print Assumptions C134_back.

(** Then the transpose is accepted for the tolerance 3 e and 2^-50. *)
Theorem C134_transposed :
  forall r eps m e, finite33 m -> 0 <= e <= powerRZ 2 (-28) -> orthonormal_up_to e (val33 m) -> finite64 eps -> 3 * e + powerRZ 2 (-50) <= rval eps <= / 4 ->
  exists t, rm64_toTransposed r eps (Some m) = Ok t /\ rm64_transpose (Some m) = Ok t /\ finite33 t /\ val33 t = transpose3 (val33 m) /\ orthonormal_up_to (3 * e) (val33 t).
Proof. exact c134_transposed. Qed.
Print Assumptions C134_transposed.

(** Products are accepted for the tolerance 5 e and 2^-49, with columns within 2^-50 of the exact ones. *)
Theorem C134_product :
  forall r eps m n e, finite33 m -> finite33 n -> 0 <= e <= powerRZ 2 (-29) -> orthonormal_up_to e (val33 m) -> orthonormal_up_to e (val33 n) -> finite64 eps -> 5 * e + powerRZ 2 (-49) <= rval eps <= / 4 ->
  exists w, rm64_mul r eps (Some m) (Some n) = Ok w /\ finite33 w /\ orthonormal_up_to (5 * e + powerRZ 2 (-49)) (val33 w) /\ forall j, (j < 3)%nat -> dist3 (col3 (val33 w) j) (col3 (mul3 (val33 m) (val33 n)) j) <= powerRZ 2 (-50).
Proof. exact c134_product. Qed.
Print Assumptions C134_product.

(** Products with whole vectors are exact. *)
Theorem C134_whole :
  forall r m v, finite33 m -> finite3 v -> whole33 (2 ^ 24) m -> whole3 (2 ^ 24) v ->
  exists w, rm64_mulv r (Some m) (Some v) = Ok w /\ finite3 w /\ val3 w = mulv3 (val33 m) (val3 v).
Proof. exact c134_whole. Qed.
Print Assumptions C134_whole.

(** Matrices of quarter turns are accepted for every tolerance, and their products and transposes are exact. *)
Theorem C134_right :
  forall r eps m n N, finite33 m -> finite33 n -> whole33 N m -> whole33 N n -> mul3 (transpose3 (val33 m)) (val33 m) = id3 -> mul3 (transpose3 (val33 n)) (val33 n) = id3 -> finite64 eps -> 0 <= rval eps ->
  RotationMatrix64 r eps m = Ok m /\ (exists w, rm64_mul r eps (Some m) (Some n) = Ok w /\ val33 w = mul3 (val33 m) (val33 n)) /\
  exists t, rm64_toTransposed r eps (Some m) = Ok t /\ val33 t = transpose3 (val33 m) /\ (exists i, rm64_mul r eps (Some t) (Some m) = Ok i /\ val33 i = id3) /\ exists i, rm64_mul r eps (Some m) (Some t) = Ok i /\ val33 i = id3.
Proof. exact c134_right. Qed.
Print Assumptions C134_right.

(** For tolerances smaller than 10 times 2^-53 the fourth power of an accepted matrix is refused. *)
Theorem C134_power_refuted :
  exists m, finite33 m /\ forall r eps, finite64 eps -> powerRZ 2 (-50) <= rval eps < 10 * powerRZ 2 (-53) ->
  exists m2 m3, RotationMatrix64 r eps m = Ok m /\ rm64_mul r eps (Some m) (Some m) = Ok m2 /\ rm64_mul r eps (Some m2) (Some m) = Ok m3 /\ rm64_mul r eps (Some m3) (Some m) = Err ERuntime.
Proof. exact c134_power_refuted. Qed.
Print Assumptions C134_power_refuted.

(** The unit matrix is accepted for every tolerance and keeps every vector. *)
Theorem C134_unit :
  forall r eps v, finite64 eps -> 0 <= rval eps -> finite3 v -> within3 (powerRZ 2 450) v ->
  exists m w, rm64_Unit r eps = Ok m /\ val33 m = id3 /\ rm64_mulv r (Some m) (Some v) = Ok w /\ val3 w = val3 v.
Proof. exact c134_unit. Qed.
Print Assumptions C134_unit.

(** Equality compares the values. *)
Theorem C134_equal :
  forall m n, finite33 m -> finite33 n -> (rm64_eq (Some m) (Some n) = true <-> val33 m = val33 n).
Proof. exact c134_equal. Qed.
Print Assumptions C134_equal.

(** Transposition is exact; toTransposed differs from transpose by the checks only. *)
Theorem C134_transpose :
  forall r eps m, exists t, rm64_transpose (Some m) = Ok t /\ val33 t = transpose3 (val33 m) /\ rm64_transpose (Some t) = Ok m /\ (forall t', rm64_toTransposed r eps (Some m) = Ok t' -> t' = t) /\ RotationMatrix64 r eps t = rm64_toTransposed r eps (Some m).
Proof. exact c134_transpose. Qed.
Print Assumptions C134_transpose.

(** An accepted matrix whose transpose is refused, for every tolerance smaller than 3/16: the checks do not bound the length of a column from below. *)
Theorem C134_transposed_refuted :
  exists m, finite33 m /\ forall r eps, finite64 eps -> 0 <= rval eps < 3 / 16 -> RotationMatrix64 r eps m = Ok m /\ rm64_toTransposed r eps (Some m) = Err ERuntime.
Proof. exact c134_transposed_refuted. Qed.
Print Assumptions C134_transposed_refuted.

(** A matrix accepted for every tolerance that takes every vector to zero. *)
Theorem C134_length_refuted :
  exists m, finite33 m /\ forall r eps, finite64 eps -> 0 <= rval eps -> RotationMatrix64 r eps m = Ok m /\ forall v, finite3 v -> exists w, rm64_mulv r (Some m) (Some v) = Ok w /\ val3 w = V3 0 0 0.
Proof. exact c134_length_refuted. Qed.
Print Assumptions C134_length_refuted.

(** Undefined operands. *)
Theorem C134_errors :
  forall r eps (m : option f33) (v : option f3), rm64_mul r eps None m = Err EUndefined /\ rm64_mul r eps m None = Err EUndefined /\ rm64_mulv r None v = Err EUndefined /\ rm64_mulv r m None = Err EUndefined /\
  rm64_toTransposed r eps None = Err EUndefined /\ rm64_transpose None = Err EUndefined /\ rm64_eq None m = false /\ rm64_eq m None = false.
Proof. exact c134_errors. Qed.
Print Assumptions C134_errors.

(** A quarter turn about the z axis. *)
Definition C134_axis (i j k : Z) : f3 := F3 (b64_of_Z i) (b64_of_Z j) (b64_of_Z k).
Definition C134_quarter : f33 := F33 (C134_axis 0 1 0) (C134_axis (-1) 0 0) (C134_axis 0 0 1).
Example C134_example : finite33 C134_quarter /\ within33 (powerRZ 2 450) C134_quarter /\ whole33 (2 ^ 24) C134_quarter /\ mul3 (transpose3 (val33 C134_quarter)) (val33 C134_quarter) = id3 /\ orthonormal_up_to 0 (val33 C134_quarter) /\
  forall r, RotationMatrix64 r (S754_finite false (2 ^ 52) (-102)) C134_quarter = Ok C134_quarter /\ rm64_mulv r (Some C134_quarter) (Some (C134_axis 1 2 3)) = Ok (C134_axis (-2) 1 3).
Proof.
  change (powerRZ 2) with P2.
  assert (W : forall n, (-1 <= n <= 1)%Z -> finite64 (b64_of_Z n) /\ Rabs (rval (b64_of_Z n)) <= P2 450 /\ whole64 (2 ^ 24) (b64_of_Z n) /\ rval (b64_of_Z n) = IZR n).
  { intros n H. destruct (of_Z_val n ltac:(lia)) as [F V]. split; [exact F |]. split; [| split; [exists n; split; [exact V | lia] | exact V]]. rewrite V.
    apply Rle_trans with (P2 0); [rewrite P2_0, <- abs_IZR; apply IZR_le; lia | apply P2_mono; lia]. }
  assert (E : mul3 (transpose3 (val33 C134_quarter)) (val33 C134_quarter) = id3).
  { unfold val33, val3, C134_quarter, C134_axis; cbn [c64_0 c64_1 c64_2 fx fy fz]. rewrite (proj2 (proj2 (proj2 (W 0%Z ltac:(lia))))), (proj2 (proj2 (proj2 (W 1%Z ltac:(lia))))), (proj2 (proj2 (proj2 (W (-1)%Z ltac:(lia))))). unfold mul3, transpose3, of_cols, id3, mulv3, row3, col3, dot3; cbn [vx vy vz m00 m01 m02 m10 m11 m12 m20 m21 m22]. f_equal; ring. }
  unfold finite33, within33, whole33, finite3, within3, whole3. split; [| split; [| split]]; try (unfold C134_quarter, C134_axis; cbn [c64_0 c64_1 c64_2 fx fy fz]; repeat split; apply W; lia).
  split; [exact E |]. split; [apply ortho_zero; exact E |]. intros []; split; vm_compute; reflexivity.
Qed.

(** *** C135: quaternions and rotation matrices in double precision *)
(** If the length of a quaternion is 1 up to d, its matrix is accepted for the tolerance 2 d and 2^-48; its entries are within 2^-50 of the exact ones and its columns orthonormal up to 5 d and 2^-48. *)
Theorem C135_accepted :
  forall r eps q d, finite4 q -> finite64 eps -> 0 <= d <= powerRZ 2 (-26) -> Rabs (len4 (val4 q) - 1) <= d -> 2 * d + powerRZ 2 (-48) <= rval eps <= / 4 ->
  exists m, rm64_of_quaternion r eps (Some q) = Ok m /\ finite33 m /\ entries_within (powerRZ 2 (-50)) (val33 m) (turning4 (val4 q)) /\ orthonormal_up_to (5 * d + powerRZ 2 (-48)) (val33 m).
Proof. exact c135_accepted. Qed.
Print Assumptions C135_accepted.

(** Whenever a matrix is returned, the quaternion is of unit length up to the tolerance, and the entries are within 2^-50 of the exact ones. *)
Theorem C135_entries :
  forall r eps q m, finite4 q -> within4 (powerRZ 2 450) q -> finite64 eps -> 0 < rval eps <= powerRZ 2 (-26) -> rm64_of_quaternion r eps (Some q) = Ok m ->
  q64_isUnitary (Some q) (Some eps) = Ok true /\ finite33 m /\ RotationMatrix64 r eps m = Ok m /\ entries_within (powerRZ 2 (-50)) (val33 m) (turning4 (val4 q)).
Proof. exact c135_entries. Qed.
Print Assumptions C135_entries.

(** The matrix and the quaternion turn every vector alike, up to 2^-47. *)
Theorem C135_agree :
  forall r eps q v m, finite4 q -> within4 (powerRZ 2 450) q -> finite3 v -> norm3 (val3 v) <= powerRZ 2 440 -> finite64 eps -> 0 < rval eps <= powerRZ 2 (-26) -> rm64_of_quaternion r eps (Some q) = Ok m ->
  exists w w', rm64_mulv r (Some m) (Some v) = Ok w /\ q64_rotateVector r (Some q) (Some v) (Some eps) = Ok w' /\ finite3 w /\ finite3 w' /\ dist3 (val3 w) (val3 w') <= powerRZ 2 (-47) * norm3 (val3 v) + powerRZ 2 (-1068).
Proof. exact c135_agree. Qed.
Print Assumptions C135_agree.

(** From every matrix with entries within e of a rotation, for e up to 1/100, a quaternion is found that turns vectors like the rotation, up to 14 e and 2^-46. *)
Theorem C135_quaternion :
  forall r eps m R e, finite33 m -> finite64 eps -> rval eps <= 1 -> is_rotation R -> e <= / 100 -> entries_within e (val33 m) R ->
  exists q, q64_of_matrix r eps (Some m) = Ok q /\ finite4 q /\ (forall t, finite64 t -> powerRZ 2 (-50) <= rval t -> q64_isUnitary (Some q) (Some t) = Ok true) /\
    forall v, dist3 (turned4 (val4 q) v) (mulv3 R v) <= (14 * e + powerRZ 2 (-46)) * norm3 v.
Proof. exact c135_quaternion. Qed.
Print Assumptions C135_quaternion.

(** From the matrix of a quaternion the quaternion is found again, up to sign, 15 times the tolerance and 2^-45. *)
Theorem C135_back :
  forall r eps q m, finite4 q -> within4 (powerRZ 2 450) q -> finite64 eps -> 0 < rval eps <= powerRZ 2 (-26) -> rm64_of_quaternion r eps (Some q) = Ok m ->
  exists q', q64_of_matrix r eps (Some m) = Ok q' /\ finite4 q' /\
    (gap4 (val4 q') (val4 q) <= 15 * rval eps + powerRZ 2 (-45) \/ gap4 (val4 q') (negq (val4 q)) <= 15 * rval eps + powerRZ 2 (-45)).
Proof. exact c135_back. Qed.
Print Assumptions C135_back.

(** A quaternion that is accepted and turns vectors, but whose matrix is refused for the same tolerance, from 2^-50 to 2^-49. *)
Theorem C135_refuted :
  exists q, finite4 q /\ forall r eps v, finite64 eps -> powerRZ 2 (-50) <= rval eps < powerRZ 2 (-49) ->
  q64_isUnitary (Some q) (Some eps) = Ok true /\ rm64_of_quaternion r eps (Some q) = Err ERuntime /\ exists w, q64_rotateVector r (Some q) (Some v) (Some eps) = Ok w.
Proof. exact c135_refuted. Qed.
Print Assumptions C135_refuted.

(** Undefined operands and quaternions that are not of unit length. *)
Theorem C135_errors :
  forall r eps q, rm64_of_quaternion r eps None = Err EUndefined /\ q64_of_matrix r eps None = Err EUndefined /\ (q64_isUnitary (Some q) (Some eps) = Ok false -> rm64_of_quaternion r eps (Some q) = Err ERuntime).
Proof. exact c135_errors. Qed.
Print Assumptions C135_errors.

(** The matrix of the normalized quaternion of (0, 0, 3, 4), and back: one unit in the last place is lost. *)
Example C135_example : let eps := S754_finite false (2 ^ 52) (-102) in exists q, q64_normalize eps (Some (C131_at 0 0 3 4)) = Ok q /\ finite4 q /\ within4 (powerRZ 2 450) q /\
  forall r, exists m, rm64_of_quaternion r eps (Some q) = Ok m /\ q64_of_matrix r eps (Some m) = Ok (F4 zero64 zero64 (S754_finite false 5404319552844595 (-53)) (S754_finite false 7205759403792795 (-53))).
Proof.
  intros eps. exists (F4 zero64 zero64 (S754_finite false 5404319552844595 (-53)) (S754_finite false 7205759403792794 (-53))). split; [vm_compute; reflexivity |]. split; [vm_compute; repeat split; reflexivity || discriminate |]. split.
  - change (powerRZ 2) with P2. unfold within4; cbn [q64x q64y q64z q64s]. rewrite !rval_sg. change (rval zero64) with 0. rewrite Rabs_R0. cbn [sg]. pose proof (P2_mono 0 450 ltac:(lia)) as M. rewrite P2_0 in M. rewrite (P2_m (-53)) by lia. change (2 ^ (- -53))%Z with 9007199254740992%Z.
    repeat split; try lra; rewrite Rabs_pos_eq; lra.
  - intros r. exists (fmatrix (F4 zero64 zero64 (S754_finite false 5404319552844595 (-53)) (S754_finite false 7205759403792794 (-53)))). destruct r; split; vm_compute; reflexivity.
Qed.
