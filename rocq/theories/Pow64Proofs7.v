(** The tolerance of exponentials and logarithms is included (C149). *)

From Coq Require Import List Bool ZArith Reals Lra Lia Psatz Floats.SpecFloat.
From Verif Require Import Result Vec Mat3 VecProofs AngleModel FloatModel FloatSpec FloatProofs FloatProofs2 FloatProofs3 FloatProofs4 FloatProofs5 FloatProofs7 FloatProofs8 FloatProofs10
  Geo3Spec Geo3Proofs Geo3Proofs2 Geo64Model Geo64Spec Geo64Proofs Geo64Proofs2 Geo64Proofs3 Geo64Proofs4 Geo64Proofs5 Geo64Proofs6 Geo64Proofs7 Geo64Proofs8 RotModel RotSpec RotProofs RotProofs2 RotProofs3 RotProofs4 RotProofs5 RotProofs7 RotProofs9 Rot64Model Rot64Spec Rot64Spec2 Rot64Proofs Rot64Proofs2 Rot64Proofs3 Rot64Proofs4 Rot64Proofs5 Rot64Proofs6 Rot64Proofs7 Rot64Proofs8 Rot64Proofs9 Rot64Proofs10 Rot64Proofs11 Rot64Proofs12 Rot64Proofs13 Rot64Proofs14 Rot64Proofs15 Rot64Proofs16 Rot64Proofs17 Att64Model Att64Spec Att64Proofs Att64Proofs2 Att64Proofs3 Att64Proofs4 Att64Proofs5 Att64Proofs7 Att64Proofs8 Att64Proofs9 Att64Proofs10 Pow64Model Pow64Spec Pow64Proofs Pow64Proofs2 Pow64Proofs3 Pow64Proofs4 Dif64Model Dif64Spec Dif64Proofs.
Import ListNotations.
Local Open Scope R_scope.

Lemma norm_axis r x : finite64 x -> P2 (-400) <= rval x <= P2 400 -> finite64 (fnorm3 r (F3 x zero64 zero64)) /\ rval (fnorm3 r (F3 x zero64 zero64)) = rval x.
Proof.
  intros F B. pose proof (P2_pos (-400)) as P. assert (A : Rabs (rval x) = rval x) by (apply Rabs_pos_eq; lra). unfold fnorm3, fsqnorm3, fdot3, sum64. cbn [fx fy fz]. replace (b64_mul zero64 zero64) with zero64 by (vm_compute; reflexivity).
  assert (FM : finite64 (b64_mul x x)). { pose proof (P2_mono 800 1023 ltac:(lia)) as Q. apply (mul_any x x F F). rewrite Rabs_mult, A. apply Rle_trans with (P2 400 * P2 400); [apply Rmult_le_compat; lra | rewrite <- P2_add; exact Q]. }
  assert (E : forall m, finite64 m -> finite64 (sf_add m zero64) /\ rval (sf_add m zero64) = rval m). { intros m Fm. destruct m as [b | b | | b m e]; try contradiction; [destruct b; split; (exact I || reflexivity) | split; [exact Fm | reflexivity]]. }
  assert (G : finite64 (match r with FirstTwo => sf_add (sf_add (b64_mul x x) zero64) zero64 | LastTwo => sf_add (b64_mul x x) (sf_add zero64 zero64) end) /\ rval (match r with FirstTwo => sf_add (sf_add (b64_mul x x) zero64) zero64 | LastTwo => sf_add (b64_mul x x) (sf_add zero64 zero64) end) = rval (b64_mul x x)).
  { destruct r; [destruct (E _ FM) as [F1 V1]; destruct (E _ F1) as [F2 V2]; split; [exact F2 | rewrite V2; exact V1] | change (sf_add zero64 zero64) with zero64; apply (E _ FM)]. }
  destruct G as [GF GV]. rewrite <- A. apply fsqrt_square; [exact F | rewrite A; exact B | exact GF | exact GV].
Qed.
Lemma c149_boundary L r eps s : finite64 eps -> P2 (-400) <= rval eps <= P2 400 ->
  q64_exp L r eps (Some (F4 eps zero64 zero64 s)) = Ok q64_Unit /\
  exists l, q64_log L r eps (Some (F4 eps zero64 zero64 s)) = Ok (F4 zero64 zero64 zero64 l).
Proof.
  intros F B. destruct (norm_axis r eps F B) as [FN VN]. assert (C : SFleb (fnorm3 r (F3 eps zero64 zero64)) eps = true) by (apply SFleb_val; [exact FN | exact F | lra]).
  unfold q64_exp, q64_log, vec64. cbn [need3 bind q64x q64y q64z q64s]. rewrite C. split; [reflexivity |]. exists (m_log L (fnorm4 (F4 eps zero64 zero64 s))). reflexivity.
Qed.
