(** Functions with the accuracy that C149 and C150 assume exist. *)

From Coq Require Import List Bool ZArith Reals Lra Lia Psatz Floats.SpecFloat.
From Verif Require Import Result Vec Mat3 VecProofs AngleModel FloatModel FloatSpec FloatProofs FloatProofs2 FloatProofs3 FloatProofs4 FloatProofs5 FloatProofs7 FloatProofs8 FloatProofs10
  Geo3Spec Geo3Proofs Geo3Proofs2 Geo64Model Geo64Spec Geo64Proofs Geo64Proofs2 Geo64Proofs3 Geo64Proofs4 Geo64Proofs5 Geo64Proofs6 Geo64Proofs7 Geo64Proofs8 RotModel RotSpec RotProofs RotProofs2 RotProofs3 RotProofs4 RotProofs5 RotProofs7 RotProofs9 Rot64Model Rot64Spec Rot64Spec2 Rot64Proofs Rot64Proofs2 Rot64Proofs3 Rot64Proofs4 Rot64Proofs5 Rot64Proofs6 Rot64Proofs7 Rot64Proofs8 Rot64Proofs9 Rot64Proofs10 Rot64Proofs11 Rot64Proofs12 Rot64Proofs13 Rot64Proofs14 Rot64Proofs15 Rot64Proofs16 Rot64Proofs17 Att64Model Att64Spec Att64Proofs Att64Proofs2 Att64Proofs3 Att64Proofs4 Att64Proofs5 Att64Proofs7 Att64Proofs8 Att64Proofs9 Att64Proofs10 Pow64Model Pow64Spec Pow64Proofs Pow64Proofs2 Pow64Proofs3 Pow64Proofs4 Pow64Proofs5.
Import ListNotations.
Local Open Scope R_scope.

(** The multiple of 2^-20 above a number. *)
Definition above (x : R) : spec_float := b64_mul (b64_of_Z (up (x * 1048576))) (S754_finite false 4503599627370496 (-72)).
Lemma above_near x : Rabs x <= 4 -> returns (above x) x (/ 100000).
Proof.
  intros X. apply abs_le in X. destruct (archimed (x * 1048576)) as [A B]. set (z := up (x * 1048576)) in *. assert (Z1 : (-5000000 < z)%Z) by (apply lt_IZR; lra). assert (Z2 : (z < 5000000)%Z) by (apply lt_IZR; lra).
  destruct (of_Z_val z ltac:(lia)) as [Fz Vz]. set (c := S754_finite false 4503599627370496 (-72)). assert (Fc : finite64 c) by (vm_compute; reflexivity). assert (Vc : rval c = / 1048576) by (unfold c; rewrite rval_sg; cbn [sg]; rewrite Rmult_1_l; replace (IZR 4503599627370496) with (P2 52) by (rewrite <- P2_Z by lia; reflexivity); rewrite <- P2_add; change (52 + -72)%Z with (-20)%Z; rewrite P2_m by lia; reflexivity).
  assert (P9 : 64 <= P2 1023) by (apply Rle_trans with (P2 6); [rewrite <- P2_Z by lia; apply IZR_le; lia | apply P2_mono; lia]). pose proof e53_pos as PE. assert (E9 : e53 <= / 1000000000) by (unfold e53; lra). pose proof tiny_e4 as T4.
  assert (ZB : Rabs (rval (b64_of_Z z) * rval c) <= 5) by (rewrite Vz, Vc; apply abs_of; lra). destruct (mul_any (b64_of_Z z) c Fz Fc ltac:(lra)) as [F E]. split; [exact F |]. unfold above. fold z c. pose proof (abs_le _ _ ZB) as ZB'.
  assert (e53 * Rabs (rval (b64_of_Z z) * rval c) <= e53 * 5) by (apply Rmult_le_compat_l; lra). apply abs_le in E. rewrite Vz, Vc in *. apply abs_of. lra.
Qed.
Definition lib_above : libm := Libm (fun x => above (exp (rval x))) (fun x => above (ln (rval x))) (fun x => above (sin (rval x))) (fun x => above (cos (rval x))) (fun y x => above (atan2 (rval y) (rval x))).
Lemma lib_above_within : libm_within lib_above (/ 100000).
Proof.
  pose proof pi_digits as PD. unfold libm_within, lib_above. cbn [m_exp m_log m_sin m_cos m_atan2]. split; [| split; [| split]].
  - intros x F H. pose proof (SIN_bound (rval x)). pose proof (COS_bound (rval x)). split; apply above_near, abs_of; lra.
  - intros y x Fy Fx Y X. pose proof (atan2_pos (rval x) (rval y) ltac:(lra)). apply above_near, abs_of; lra.
  - intros x F H. pose proof (exp_le3 _ H). apply above_near, abs_of; lra.
  - intros x F H. apply above_near, abs_of. assert (U : forall y, 0 < y -> ln y <= y - 1). { intros y Y. pose proof (exp_ineq1_le (ln y)) as E. rewrite exp_ln in E by exact Y. lra. } pose proof (U (rval x) ltac:(lra)). assert (I : 0 < / rval x) by (apply Rinv_0_lt_compat; lra). pose proof (U _ I) as V. rewrite ln_Rinv in V by lra. assert (/ rval x <= 3) by (rewrite <- (Rinv_inv 3); apply Rinv_le_contravar; lra). lra.
Qed.
(** Half a turn around the third axis. *)
Definition half_turn : f4 := F4 zero64 zero64 (b64_of_Z 1) zero64.
Definition half64 : spec_float := S754_finite false 4503599627370496 (-53).
Lemma half64_val : finite64 half64 /\ rval half64 = / 2.
Proof. split; [vm_compute; reflexivity |]. unfold half64. rewrite rval_sg; cbn [sg]; rewrite Rmult_1_l; replace (IZR 4503599627370496) with (P2 52) by (rewrite <- P2_Z by lia; reflexivity); rewrite <- P2_add; change (52 + -53)%Z with (-1)%Z; rewrite P2_m by lia; reflexivity. Qed.
Lemma half_turn_val : finite4 half_turn /\ val4 half_turn = polar 1 (V3 0 0 1) (PI / 2) /\ len4 (val4 half_turn) = 1 /\ norm3 (V3 0 0 1) = 1 /\ norm3 (vec (val4 half_turn)) = 1.
Proof.
  destruct one_val as [FO VO]. change one_64 with (b64_of_Z 1) in FO, VO. assert (N : norm3 (V3 0 0 1) = 1) by (unfold norm3, sqnorm3, dot3; cbn [vx vy vz]; replace (0 * 0 + 0 * 0 + 1 * 1) with 1 by ring; apply sqrt_1).
  assert (V : val4 half_turn = polar 1 (V3 0 0 1) (PI / 2)) by (unfold val4, half_turn, polar; cbn [q64x q64y q64z q64s vx vy vz]; rewrite VO, sin_PI2, cos_PI2; change (rval zero64) with 0; f_equal; ring).
  split; [repeat split; exact FO |]. split; [exact V |]. split; [rewrite V; apply polar_len; [exact N | lra] |]. split; [exact N |]. rewrite V, polar_vec, norm3_scale, N, sin_PI2, Rabs_pos_eq; lra.
Qed.
