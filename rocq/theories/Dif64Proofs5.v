(** Arc cosines with the accuracy that C151 and C152 assume exist. *)

From Coq Require Import List Bool ZArith Reals Lra Lia Psatz Floats.SpecFloat.
From Verif Require Import Result Vec Mat3 VecProofs AngleModel FloatModel FloatSpec FloatProofs FloatProofs2 FloatProofs3 FloatProofs4 FloatProofs5 FloatProofs7 FloatProofs8 FloatProofs10
  Geo3Spec Geo3Proofs Geo3Proofs2 Geo64Model Geo64Spec Geo64Proofs Geo64Proofs2 Geo64Proofs3 Geo64Proofs4 Geo64Proofs5 Geo64Proofs6 Geo64Proofs7 Geo64Proofs8 RotModel RotSpec RotProofs RotProofs2 RotProofs3 RotProofs4 RotProofs5 RotProofs7 RotProofs9 Rot64Model Rot64Spec Rot64Spec2 Rot64Proofs Rot64Proofs2 Rot64Proofs3 Rot64Proofs4 Rot64Proofs5 Rot64Proofs6 Rot64Proofs7 Rot64Proofs8 Rot64Proofs9 Rot64Proofs10 Rot64Proofs11 Rot64Proofs12 Rot64Proofs13 Rot64Proofs14 Rot64Proofs15 Rot64Proofs16 Rot64Proofs17 Att64Model Att64Spec Att64Proofs Att64Proofs2 Att64Proofs3 Att64Proofs4 Att64Proofs5 Att64Proofs7 Att64Proofs8 Att64Proofs9 Att64Proofs10 Pow64Model Pow64Spec Pow64Proofs Pow64Proofs2 Pow64Proofs3 Pow64Proofs4 Dif64Model Dif64Spec Dif64Proofs RotProofs6 Dif64Proofs2 Dif64Proofs3 Dif64Proofs4 Att64Proofs6.
Import ListNotations.
Local Open Scope R_scope.

(** The multiple of 2^-30 below the arc cosine. *)
Definition acos_below (x : spec_float) : spec_float := b64_mul (b64_of_Z (up (acos (rval x) * 1073741824) - 1)) (S754_finite false 4503599627370496 (-82)).
Lemma acos_below_within : acos_within acos_below (P2 (-29)) /\ rval (acos_below one_64) = 0.
Proof.
  set (c := S754_finite false 4503599627370496 (-82)). assert (Fc : finite64 c) by (vm_compute; reflexivity). assert (Vc : rval c = / 1073741824) by (unfold c; rewrite rval_sg; cbn [sg]; rewrite Rmult_1_l; replace (IZR 4503599627370496) with (P2 52) by (rewrite <- P2_Z by lia; reflexivity); rewrite <- P2_add; change (52 + -82)%Z with (-30)%Z; rewrite P2_m by lia; reflexivity).
  pose proof pi_digits as PD. pose proof P2_big as PB. pose proof e53_pos as PE. assert (E9 : e53 <= / 1000000000000) by (unfold e53; lra). pose proof tiny_e4 as T4. assert (P29 : P2 (-29) = 2 * / 1073741824) by (rewrite P2_m by lia; change (2 ^ (- -29))%Z with 536870912%Z; lra). split.
  - intros x Fx Bx. unfold acos_below. fold c. pose proof (acos_bound (rval x)) as AB. set (a := acos (rval x)) in *. destruct (archimed (a * 1073741824)) as [A B]. set (z := up (a * 1073741824)) in *. assert (Z1 : (0 < z)%Z) by (apply lt_IZR; lra). assert (Z2 : (z < 4000000000)%Z) by (apply lt_IZR; lra).
    destruct (of_Z_val (z - 1) ltac:(lia)) as [Fz Vz]. rewrite minus_IZR in Vz. assert (Z0 : 1 <= IZR z) by (apply IZR_le; lia).
    assert (ZB : Rabs (rval (b64_of_Z (z - 1)) * rval c) <= 4) by (rewrite Vz, Vc; apply abs_of; lra). destruct (mul_any (b64_of_Z (z - 1)) c Fz Fc ltac:(lra)) as [F E]. split; [exact F |]. pose proof (abs_le _ _ ZB) as ZB'. split.
    + destruct (SFmul_rounded (b64_of_Z (z - 1)) c Fz Fc ltac:(lra)) as [N _]. change 0 with (rval zero64). apply (nearest_below _ _ zero64 N I). change (rval zero64) with 0. rewrite Vz, Vc. apply Rmult_le_pos; lra.
    + assert (e53 * Rabs (rval (b64_of_Z (z - 1)) * rval c) <= e53 * 4) by (apply Rmult_le_compat_l; lra). apply abs_le in E. rewrite Vz, Vc in *. apply abs_of. lra.
  - destruct one_val as [_ V1]. unfold acos_below. rewrite V1, acos_1, Rmult_0_l. assert (U : up 0 = 1%Z) by (symmetry; apply tech_up; lra). rewrite U. vm_compute. reflexivity.
Qed.
