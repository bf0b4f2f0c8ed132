(** The properties of angular differences and of nearness of quaternions in double precision: C151 and C152. *)

From Coq Require Import List Bool Arith ZArith Reals Lra Lia Psatz Floats.SpecFloat.
From Verif Require Import Result Vec Mat3 AngleModel FloatModel FloatSpec FloatProofs FloatProofs2 FloatProofs3 Geo3Spec Geo64Model Geo64Spec RotModel RotSpec Rot64Model Rot64Spec Rot64Spec2 FloatProofs4 FloatProofs5 Rot64Proofs7 Rot64Proofs17
  Att64Spec Att64Proofs6 Pow64Spec Pow64Proofs3 Pow64Proofs5 Pow64Proofs6 Dif64Model Dif64Spec Dif64Proofs3 Dif64Proofs4 Dif64Proofs5.
Import ListNotations.
Local Open Scope R_scope.

(** *** C151: angular differences in double precision *)
(** The angle between two rotations is twice the angle th of the quaternion that takes the first to the second or to its opposite: its half cosine is exact within the error of std::acos and 2^-47, the angle within twice that error and 2^-20, and away from small angles within 2^-44 divided by the sine of th. *)
Theorem C151_accurate :
  forall facos r eps p q e, acos_within facos e -> e <= / 1000 -> finite4 p -> finite4 q -> Rabs (len4 (val4 p) - 1) <= / 1000 -> Rabs (len4 (val4 q) - 1) <= / 1000 -> finite64 eps -> rval eps <= / 32 -> q64_isUnitary (Some p) (Some eps) = Ok true -> q64_isUnitary (Some q) (Some eps) = Ok true ->
  exists sg d th t, (sg = 1 \/ sg = -1) /\ norm3 d = 1 /\ 0 <= th <= PI / 2 /\ times4 sg (versor (val4 q)) = hamilton (polar 1 d th) (versor (val4 p)) /\
    q64_angularDifferenceWith facos r eps (Some p) (Some q) = Ok (mkA64 (Some t) Radian) /\ finite64 t /\ 0 <= rval t /\
    Rabs (cos (rval t / 2) - cos th) <= e + powerRZ 2 (-47) /\ Rabs (rval t - 2 * th) <= 2 * e + powerRZ 2 (-20) /\ Rabs (rval t - 2 * th) * sin th <= 2 * e + powerRZ 2 (-44).
Proof. exact c151_accurate. Qed.
Print Assumptions C151_accurate.

(** The two orders agree within 4 times the error of std::acos and 2^-19. *)
Theorem C151_orders :
  forall facos r eps p q e, acos_within facos e -> e <= / 1000 -> finite4 p -> finite4 q -> Rabs (len4 (val4 p) - 1) <= / 1000 -> Rabs (len4 (val4 q) - 1) <= / 1000 -> finite64 eps -> rval eps <= / 32 -> q64_isUnitary (Some p) (Some eps) = Ok true -> q64_isUnitary (Some q) (Some eps) = Ok true ->
  exists s t, q64_angularDifferenceWith facos r eps (Some p) (Some q) = Ok (mkA64 (Some s) Radian) /\ q64_angularDifferenceWith facos r eps (Some q) (Some p) = Ok (mkA64 (Some t) Radian) /\ finite64 s /\ finite64 t /\ Rabs (rval s - rval t) <= 4 * e + powerRZ 2 (-19).
Proof. exact c151_orders. Qed.
Print Assumptions C151_orders.

(** The angle between a rotation and itself, given by the same quaternion or by its opposite, is exactly 0. *)
Theorem C151_same :
  forall facos r eps p q, finite64 (facos one_64) -> rval (facos one_64) = 0 -> finite4 p -> finite4 q -> Rabs (len4 (val4 p) - 1) <= / 1000 -> val4 q = val4 p \/ val4 q = times4 (-1) (val4 p) -> finite64 eps -> rval eps <= / 32 -> q64_isUnitary (Some p) (Some eps) = Ok true -> q64_isUnitary (Some q) (Some eps) = Ok true ->
  exists t, q64_angularDifferenceWith facos r eps (Some p) (Some q) = Ok (mkA64 (Some t) Radian) /\ finite64 t /\ rval t = 0.
Proof. exact c151_same. Qed.
Print Assumptions C151_same.

(** For two given quaternions the angle is 0 in one order and at least 2^-26 in the other. *)
Theorem C151_order :
  forall facos r eps e, acos_within facos e -> e <= powerRZ 2 (-28) -> rval (facos one_64) = 0 -> finite64 eps -> 0 < rval eps <= / 32 ->
  q64_isUnitary (Some dif_p) (Some eps) = Ok true /\ q64_isUnitary (Some dif_q) (Some eps) = Ok true /\
  exists s t, q64_angularDifferenceWith facos r eps (Some dif_q) (Some dif_p) = Ok (mkA64 (Some s) Radian) /\ finite64 s /\ rval s = 0 /\ q64_angularDifferenceWith facos r eps (Some dif_p) (Some dif_q) = Ok (mkA64 (Some t) Radian) /\ finite64 t /\ powerRZ 2 (-26) <= rval t <= 3.2.
Proof. exact c151_order. Qed.
Print Assumptions C151_order.

(** The two orders can differ: two different rotations whose angle is 0 in one order and at least 2^-26 in the other. *)
Theorem C151_symmetric_refuted :
  exists p q, val4 p <> val4 q /\ val4 p <> times4 (-1) (val4 q) /\ forall facos r eps e, acos_within facos e -> e <= powerRZ 2 (-28) -> rval (facos one_64) = 0 -> finite64 eps -> 0 < rval eps <= / 32 ->
  q64_isUnitary (Some p) (Some eps) = Ok true /\ q64_isUnitary (Some q) (Some eps) = Ok true /\
  exists s t, q64_angularDifferenceWith facos r eps (Some q) (Some p) = Ok (mkA64 (Some s) Radian) /\ finite64 s /\ rval s = 0 /\ q64_angularDifferenceWith facos r eps (Some p) (Some q) = Ok (mkA64 (Some t) Radian) /\ finite64 t /\ powerRZ 2 (-26) <= rval t <= 3.2.
Proof. exact c151_symmetric_refuted. Qed.
Print Assumptions C151_symmetric_refuted.

(** Quaternions that are not unitary are refused, undefined ones are errors; the second is not looked at when the first is not unitary. *)
Theorem C151_refused :
  forall facos r eps p q, finite64 eps -> 0 < rval eps ->
  (q64_isUnitary (Some p) (Some eps) = Ok false -> forall q, q64_angularDifferenceWith facos r eps (Some p) q = Err ERuntime) /\
  (q64_isUnitary (Some q) (Some eps) = Ok false -> q64_angularDifferenceWith facos r eps (Some p) (Some q) = Err ERuntime) /\
  q64_angularDifferenceWith facos r eps None (Some q) = Err EUndefined /\ q64_angularDifferenceWith facos r eps None None = Err EUndefined /\
  (q64_isUnitary (Some p) (Some eps) = Ok true -> q64_angularDifferenceWith facos r eps (Some p) None = Err EUndefined).
Proof. exact c151_refused. Qed.
Print Assumptions C151_refused.

(** An arc cosine with error 2^-29 exists, and with it the angle between no turn and half a turn is PI. *)
Example C151_example : let eps := S754_finite false 4503599627370496 (-102) in
  acos_within acos_below (powerRZ 2 (-29)) /\ rval (acos_below one_64) = 0 /\ powerRZ 2 (-29) <= / 1000 /\ finite4 q64_Unit /\ finite4 half_turn /\ len4 (val4 q64_Unit) = 1 /\ len4 (val4 half_turn) = 1 /\ finite64 eps /\ 0 < rval eps <= / 32 /\ q64_isUnitary (Some q64_Unit) (Some eps) = Ok true /\ q64_isUnitary (Some half_turn) (Some eps) = Ok true /\
  exists t, q64_angularDifferenceWith acos_below FirstTwo eps (Some q64_Unit) (Some half_turn) = Ok (mkA64 (Some t) Radian) /\ Rabs (rval t - PI) <= / 100000.
Proof.
  intros eps. destruct half_turn_val as (F & V & Lq & Nz & Nv). destruct eps50 as [FE VE]. fold eps in FE, VE. destruct acos_below_within as [HA HZ]. pose proof PI_RGT_0 as PP.
  assert (FU : finite4 q64_Unit) by (repeat split; exact (proj1 one_val)). assert (LU : len4 (val4 q64_Unit) = 1) by (rewrite unit_val; unfold len4, sq, one4; cbn [qx qy qz qs]; replace (0 * 0 + 0 * 0 + 0 * 0 + 1 * 1) with 1 by ring; apply sqrt_1).
  assert (EB : 0 < rval eps <= / 32) by (rewrite VE; split; [apply P2_pos | rewrite P2_m by lia; apply Rinv_le_contravar; [lra | apply IZR_le; lia]]). assert (P29 : powerRZ 2 (-29) <= / 100000000) by (rewrite P2_m by lia; apply Rinv_le_contravar; [lra | apply IZR_le; lia]). assert (P20 : powerRZ 2 (-20) <= / 1000000) by (rewrite P2_m by lia; apply Rinv_le_contravar; [lra | apply IZR_le; lia]).
  assert (U1 : q64_isUnitary (Some q64_Unit) (Some eps) = Ok true) by (apply exact_unitary; [vm_compute; reflexivity | exact FE | lra]). assert (U2 : q64_isUnitary (Some half_turn) (Some eps) = Ok true) by (apply exact_unitary; [vm_compute; reflexivity | exact FE | lra]).
  split; [exact HA |]. split; [exact HZ |]. split; [lra |]. split; [exact FU |]. split; [exact F |]. split; [exact LU |]. split; [exact Lq |]. split; [exact FE |]. split; [exact EB |]. split; [exact U1 |]. split; [exact U2 |].
  destruct (C151_accurate acos_below FirstTwo eps q64_Unit half_turn (powerRZ 2 (-29)) HA ltac:(lra) FU F) as (sg & d & th & t & HS & D & TH & Z & HT & Ft & Bt & _ & A & _); try assumption; try (rewrite ?LU, ?Lq, Rminus_diag_eq, Rabs_R0 by reflexivity); try lra.
  exists t. split; [exact HT |]. apply (f_equal qs) in Z. unfold versor in Z. rewrite LU, Lq, unit_val, V in Z. unfold times4, hamilton, polar, one4 in Z. cbn [qx qy qz qs vx vy vz] in Z. rewrite cos_PI2, !Rinv_1 in Z.
  assert (C : cos th = 0) by lra. assert (T : th = PI / 2). { rewrite <- (acos_cos th) by lra. rewrite C. apply acos_0. } subst th. replace (2 * (PI / 2)) with PI in A by field. lra.
Qed.

(** *** C152: nearness of quaternions in double precision *)
(** Rotations closer than the tolerance are near and those further apart are not, except within twice the error of std::acos and 2^-20 of the tolerance. *)
Theorem C152_near :
  forall facos fuel r eps p q e v, acos_within facos e -> e <= / 1000 -> finite4 p -> finite4 q -> Rabs (len4 (val4 p) - 1) <= / 1000 -> Rabs (len4 (val4 q) - 1) <= / 1000 -> finite64 eps -> rval eps <= / 32 -> q64_isUnitary (Some p) (Some eps) = Ok true -> q64_isUnitary (Some q) (Some eps) = Ok true ->
  finite64 v -> 0 <= rval v <= 6.28 ->
  exists sg d th b, (sg = 1 \/ sg = -1) /\ norm3 d = 1 /\ 0 <= th <= PI / 2 /\ times4 sg (versor (val4 q)) = hamilton (polar 1 d th) (versor (val4 p)) /\
    q64_isNear facos fuel r eps (Some p) (Some q) (mkA64 (Some v) Radian) = Ok b /\
    (2 * th + 2 * e + powerRZ 2 (-20) <= rval v -> b = true) /\ (b = true -> 2 * th <= rval v + 2 * e + powerRZ 2 (-20)).
Proof. exact c152_near. Qed.
Print Assumptions C152_near.

(** The answer is whether the computed angle is at most the tolerance. *)
Theorem C152_threshold :
  forall facos fuel r eps p q t v, q64_angularDifferenceWith facos r eps p q = Ok (mkA64 (Some t) Radian) -> finite64 t -> 0 <= rval t <= 6.28 -> finite64 v -> 0 <= rval v <= 6.28 ->
  exists b, q64_isNear facos fuel r eps p q (mkA64 (Some v) Radian) = Ok b /\ (b = true <-> rval t <= rval v).
Proof. exact c152_threshold. Qed.
Print Assumptions C152_threshold.

(** Every rotation is near itself, also with tolerance 0 and also when it is given by the opposite quaternion. *)
Theorem C152_same :
  forall facos fuel r eps p q v, finite64 (facos one_64) -> rval (facos one_64) = 0 -> finite4 p -> finite4 q -> Rabs (len4 (val4 p) - 1) <= / 1000 -> val4 q = val4 p \/ val4 q = times4 (-1) (val4 p) -> finite64 eps -> rval eps <= / 32 -> q64_isUnitary (Some p) (Some eps) = Ok true -> q64_isUnitary (Some q) (Some eps) = Ok true ->
  finite64 v -> 0 <= rval v <= 6.28 -> q64_isNear facos fuel r eps (Some p) (Some q) (mkA64 (Some v) Radian) = Ok true.
Proof. exact c152_same. Qed.
Print Assumptions C152_same.

(** The same two are near with tolerance 2^-27 in one order only. *)
Theorem C152_order :
  forall facos fuel r eps e, acos_within facos e -> e <= powerRZ 2 (-28) -> rval (facos one_64) = 0 -> finite64 eps -> 0 < rval eps <= / 32 ->
  q64_isNear facos fuel r eps (Some dif_q) (Some dif_p) (mkA64 (Some (S754_finite false 4503599627370496 (-79))) Radian) = Ok true /\ q64_isNear facos fuel r eps (Some dif_p) (Some dif_q) (mkA64 (Some (S754_finite false 4503599627370496 (-79))) Radian) = Ok false.
Proof. exact c152_order. Qed.
Print Assumptions C152_order.

(** The answer can depend on the order. *)
Theorem C152_symmetric_refuted :
  exists p q v, finite64 v /\ 0 < rval v /\ forall facos fuel r eps e, acos_within facos e -> e <= powerRZ 2 (-28) -> rval (facos one_64) = 0 -> finite64 eps -> 0 < rval eps <= / 32 ->
  q64_isUnitary (Some p) (Some eps) = Ok true /\ q64_isUnitary (Some q) (Some eps) = Ok true /\
  q64_isNear facos fuel r eps (Some q) (Some p) (mkA64 (Some v) Radian) = Ok true /\ q64_isNear facos fuel r eps (Some p) (Some q) (mkA64 (Some v) Radian) = Ok false.
Proof. exact c152_symmetric_refuted. Qed.
Print Assumptions C152_symmetric_refuted.

(** A larger tolerance can be stricter: with a tolerance of one whole turn rotations are refused that are near with a tolerance of 4. *)
Theorem C152_monotone_refuted :
  exists p q v w, finite64 v /\ finite64 w /\ 0 < rval v < rval w /\ forall facos fuel r eps e, acos_within facos e -> e <= powerRZ 2 (-28) -> rval (facos one_64) = 0 -> finite64 eps -> 0 < rval eps <= / 32 ->
  q64_isNear facos (S (S fuel)) r eps (Some p) (Some q) (mkA64 (Some v) Radian) = Ok true /\ q64_isNear facos (S (S fuel)) r eps (Some p) (Some q) (mkA64 (Some w) Radian) = Ok false.
Proof. exact c152_monotone_refuted. Qed.
Print Assumptions C152_monotone_refuted.

(** With a tolerance of -1 all rotations are near. *)
Theorem C152_negative :
  forall facos fuel r eps p q e, acos_within facos e -> e <= / 1000 -> finite4 p -> finite4 q -> Rabs (len4 (val4 p) - 1) <= / 1000 -> Rabs (len4 (val4 q) - 1) <= / 1000 -> finite64 eps -> rval eps <= / 32 -> q64_isUnitary (Some p) (Some eps) = Ok true -> q64_isUnitary (Some q) (Some eps) = Ok true ->
  q64_isNear facos (S (S fuel)) r eps (Some p) (Some q) (mkA64 (Some (b64_of_Z (-1))) Radian) = Ok true.
Proof. exact c152_negative. Qed.
Print Assumptions C152_negative.

(** An undefined tolerance is an error, whatever the quaternions; otherwise the errors are those of the angle. *)
Theorem C152_errors :
  forall facos fuel r eps p q, (forall x, q64_isNear facos fuel r eps p q (mkA64 None x) = Err EUndefined) /\ (forall v, q64_isNear facos fuel r eps p q (mkA64 v UUndefined) = Err EUndefined) /\
  (forall tol x, isDefined64 tol = true -> q64_angularDifferenceWith facos r eps p q = Err x -> q64_isNear facos fuel r eps p q tol = Err x).
Proof. exact c152_errors. Qed.
Print Assumptions C152_errors.

(** With it no turn and half a turn are near with tolerance 4, not with tolerance 2. *)
Example C152_example : let eps := S754_finite false 4503599627370496 (-102) in
  acos_within acos_below (powerRZ 2 (-29)) /\ rval (acos_below one_64) = 0 /\ powerRZ 2 (-29) <= / 1000 /\ finite4 q64_Unit /\ finite4 half_turn /\ len4 (val4 q64_Unit) = 1 /\ len4 (val4 half_turn) = 1 /\ finite64 eps /\ 0 < rval eps <= / 32 /\ q64_isUnitary (Some q64_Unit) (Some eps) = Ok true /\ q64_isUnitary (Some half_turn) (Some eps) = Ok true /\
  q64_isNear acos_below 2 FirstTwo eps (Some q64_Unit) (Some half_turn) (mkA64 (Some (b64_of_Z 4)) Radian) = Ok true /\ q64_isNear acos_below 2 FirstTwo eps (Some q64_Unit) (Some half_turn) (mkA64 (Some (b64_of_Z 2)) Radian) = Ok false.
Proof.
  intros eps. destruct half_turn_val as (F & V & Lq & Nz & Nv). destruct eps50 as [FE VE]. fold eps in FE, VE. destruct acos_below_within as [HA HZ]. pose proof PI_RGT_0 as PP.
  assert (FU : finite4 q64_Unit) by (repeat split; exact (proj1 one_val)). assert (LU : len4 (val4 q64_Unit) = 1) by (rewrite unit_val; unfold len4, sq, one4; cbn [qx qy qz qs]; replace (0 * 0 + 0 * 0 + 0 * 0 + 1 * 1) with 1 by ring; apply sqrt_1).
  assert (EB : 0 < rval eps <= / 32) by (rewrite VE; split; [apply P2_pos | rewrite P2_m by lia; apply Rinv_le_contravar; [lra | apply IZR_le; lia]]). assert (P29 : powerRZ 2 (-29) <= / 100000000) by (rewrite P2_m by lia; apply Rinv_le_contravar; [lra | apply IZR_le; lia]). assert (P20 : powerRZ 2 (-20) <= / 1000000) by (rewrite P2_m by lia; apply Rinv_le_contravar; [lra | apply IZR_le; lia]).
  assert (U1 : q64_isUnitary (Some q64_Unit) (Some eps) = Ok true) by (apply exact_unitary; [vm_compute; reflexivity | exact FE | lra]). assert (U2 : q64_isUnitary (Some half_turn) (Some eps) = Ok true) by (apply exact_unitary; [vm_compute; reflexivity | exact FE | lra]).
  split; [exact HA |]. split; [exact HZ |]. split; [lra |]. split; [exact FU |]. split; [exact F |]. split; [exact LU |]. split; [exact Lq |]. split; [exact FE |]. split; [exact EB |]. split; [exact U1 |]. split; [exact U2 |].
  destruct (of_Z_val 4 ltac:(lia)) as [F4 V4]. destruct (of_Z_val 2 ltac:(lia)) as [F2 V2]. pose proof pi_digits as PD.
  destruct (C151_example) as (_ & _ & _ & _ & _ & _ & _ & _ & _ & _ & _ & t & HT & A). fold eps in HT. apply abs_le in A.
  destruct (C151_accurate acos_below FirstTwo eps q64_Unit half_turn (powerRZ 2 (-29)) HA ltac:(lra) FU F) as (sg & d & th & t' & _ & _ & _ & _ & HT' & Ft & _); try assumption; try (rewrite ?LU, ?Lq, Rminus_diag_eq, Rabs_R0 by reflexivity); try lra. rewrite HT in HT'. injection HT' as <-.
  destruct (C152_threshold acos_below 2 FirstTwo eps _ _ t (b64_of_Z 4) HT Ft ltac:(lra) F4 ltac:(lra)) as (b & HB & IB). destruct (C152_threshold acos_below 2 FirstTwo eps _ _ t (b64_of_Z 2) HT Ft ltac:(lra) F2 ltac:(lra)) as (b' & HB' & IB'). rewrite HB, HB'.
  split; f_equal; [apply IB; lra | apply not_true_is_false; intros C; apply IB' in C; lra].
Qed.
