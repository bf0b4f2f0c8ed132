From Coq Require Import List Bool ZArith Reals Lra Lia Psatz Floats.SpecFloat.
From Verif Require Import Result Vec Mat3 VecProofs AngleModel FloatModel FloatSpec FloatProofs FloatProofs2 FloatProofs3 FloatProofs4 FloatProofs5 FloatProofs7 FloatProofs8 FloatProofs10
  Geo3Spec Geo3Proofs Geo3Proofs2 Geo64Model Geo64Spec Geo64Proofs Geo64Proofs2 Geo64Proofs3 Geo64Proofs4 Geo64Proofs5 Geo64Proofs6 Geo64Proofs8 RotModel RotSpec RotProofs RotProofs2 Rot64Model Rot64Spec Rot64Spec2 Rot64Proofs Rot64Proofs2 Rot64Proofs3 Rot64Proofs4 Rot64Proofs5 Rot64Proofs6 Rot64Proofs7 Rot64Proofs8 Rot64Proofs9 Rot64Proofs10.
Import ListNotations.
Local Open Scope R_scope.

(** *** A matrix times a vector *)
Definition rows64 (m : f33) : Prop := finite3 (row64_0 m) /\ finite3 (row64_1 m) /\ finite3 (row64_2 m).
Lemma rows_finite m : finite33 m -> rows64 m.
Proof. intros ((A & B & C) & (D & E & F) & (G & H & I)). repeat split; assumption. Qed.
Lemma row_val m : row3 (val33 m) 0 = val3 (row64_0 m) /\ row3 (val33 m) 1 = val3 (row64_1 m) /\ row3 (val33 m) 2 = val3 (row64_2 m).
Proof. repeat split. Qed.
Lemma rows_cols m : sqnorm3 (row3 m 0) + sqnorm3 (row3 m 1) + sqnorm3 (row3 m 2) = sqnorm3 (col3 m 0) + sqnorm3 (col3 m 1) + sqnorm3 (col3 m 2).
Proof. destruct m as [a0 a1 a2 a3 a4 a5 a6 a7 a8]. unfold sqnorm3, dot3, row3, col3; cbn [vx vy vz m00 m01 m02 m10 m11 m12 m20 m21 m22]. ring. Qed.
Lemma fmulv3_err r m v B : finite33 m -> finite3 v -> within3 (P2 450) v -> 0 <= B <= 1.3 -> (forall j, (j < 3)%nat -> norm3 (col3 (val33 m) j) <= B) ->
  finite3 (fmulv3 r m v) /\ dist3 (val3 (fmulv3 r m v)) (mulv3 (val33 m) (val3 v)) <= 5.2483 * B * e53 * norm3 (val3 v) + 8 * tiny.
Proof.
  intros F Fv Wv PB C. destruct (rows_finite m F) as (R0 & R1 & R2). destruct (row_val m) as (V0 & V1 & V2). pose proof (rows_cols (val33 m)) as RC.
  pose proof (C 0%nat ltac:(lia)) as C0. pose proof (C 1%nat ltac:(lia)) as C1. pose proof (C 2%nat ltac:(lia)) as C2. rewrite <- !norm3_sq in RC. rewrite V0, V1, V2 in RC.
  set (n0 := norm3 (val3 (row64_0 m))) in *. set (n1 := norm3 (val3 (row64_1 m))) in *. set (n2 := norm3 (val3 (row64_2 m))) in *.
  assert (G : forall x, 0 <= norm3 x <= B -> norm3 x * norm3 x <= B * B) by (intros x H; apply Rmult_le_compat; lra).
  pose proof (G _ (conj (norm3_nonneg _) C0)). pose proof (G _ (conj (norm3_nonneg _) C1)). pose proof (G _ (conj (norm3_nonneg _) C2)). clear G.
  assert (S : n0 * n0 + n1 * n1 + n2 * n2 <= 3 * (B * B)) by lra.
  pose proof (norm3_nonneg (val3 (row64_0 m))) as P0. pose proof (norm3_nonneg (val3 (row64_1 m))) as P1. pose proof (norm3_nonneg (val3 (row64_2 m))) as P2'. fold n0 in P0. fold n1 in P1. fold n2 in P2'.
  assert (BB : B * B <= 1.69) by nra. assert (S3 : n0 <= 3 /\ n1 <= 3 /\ n2 <= 3) by (repeat split; nra). pose proof P2_450_2 as Q2. assert (Q3 : 3 <= P2 450) by (pose proof (P2_mono 2 450 ltac:(lia)) as M; replace (P2 2) with 4 in M by (rewrite <- P2_Z by lia; reflexivity); lra).
  assert (W0 : within3 (P2 450) (row64_0 m)) by (apply within_norm; fold n0; lra). assert (W1 : within3 (P2 450) (row64_1 m)) by (apply within_norm; fold n1; lra). assert (W2 : within3 (P2 450) (row64_2 m)) by (apply within_norm; fold n2; lra).
  destruct (fdot3_near r _ _ R0 Fv W0 Wv) as [D0 E0]. destruct (fdot3_near r _ _ R1 Fv W1 Wv) as [D1 E1]. destruct (fdot3_near r _ _ R2 Fv W2 Wv) as [D2 E2]. fold n0 in E0. fold n1 in E1. fold n2 in E2.
  split; [repeat split; assumption |]. set (N := norm3 (val3 v)) in *. pose proof (norm3_nonneg (val3 v)) as PN. fold N in PN. pose proof tiny_pos as PT. pose proof e53_pos as PE.
  apply Rle_trans with (norm3 (add3 (scale3 (3.03 * e53 * N) (V3 n0 n1 n2)) (V3 (4 * tiny) (4 * tiny) (4 * tiny)))).
  - apply norm3_coords; unfold sub3, add3, scale3, mulv3; cbn [vx vy vz]; rewrite ?V0, ?V1, ?V2; [eapply Rle_trans; [exact E0 |] | eapply Rle_trans; [exact E1 |] | eapply Rle_trans; [exact E2 |]]; right; ring.
  - eapply Rle_trans; [apply norm3_triangle |]. pose proof (norm3_diag (4 * tiny) ltac:(lra)) as KD. rewrite norm3_scale, Rabs_pos_eq by (apply Rmult_le_pos; [lra | exact PN]).
    assert (K : norm3 (V3 n0 n1 n2) <= 1.7321 * B). { apply Rsqr_incr_0_var; [| lra]. unfold Rsqr. rewrite norm3_sq. unfold sqnorm3, dot3; cbn [vx vy vz]. nra. }
    assert (0 <= e53 * N) by (apply Rmult_le_pos; lra). assert (K' : e53 * N * norm3 (V3 n0 n1 n2) <= e53 * N * (1.7321 * B)) by (apply Rmult_le_compat_l; assumption).
    assert (0 <= e53 * N * B) by (apply Rmult_le_pos; lra). replace (3.03 * e53 * N * norm3 (V3 n0 n1 n2)) with (3.03 * (e53 * N * norm3 (V3 n0 n1 n2))) by ring. replace (5.2483 * B * e53 * N) with (5.2483 * (e53 * N * B)) by ring. lra.
Qed.
Lemma tolerated_gram x m v : 0 <= x -> columns_tolerated x m -> norm3 (mulv3 m v) <= (1 + 2.001 * x) * norm3 v + x * x * norm3 v.
Proof.
  intros P [N D]. pose proof (norm3_nonneg v) as NV. assert (P' : 0 <= (1 + 2.001 * x) * norm3 v + x * x * norm3 v) by nra. apply Rsqr_incr_0_var; [| exact P']. unfold Rsqr. rewrite norm3_sq.
  pose proof (N 0%nat ltac:(lia)) as N0. pose proof (N 1%nat ltac:(lia)) as N1. pose proof (N 2%nat ltac:(lia)) as N2. pose proof (D 0%nat 1%nat ltac:(lia) ltac:(lia) ltac:(lia)) as D0. pose proof (D 1%nat 2%nat ltac:(lia) ltac:(lia) ltac:(lia)) as D1. pose proof (D 0%nat 2%nat ltac:(lia) ltac:(lia) ltac:(lia)) as D2.
  assert (G : forall a, norm3 a <= 1 + x -> sqnorm3 a <= (1 + x) * (1 + x)) by (intros a H; rewrite <- norm3_sq; pose proof (norm3_nonneg a); apply Rmult_le_compat; lra).
  apply G in N0, N1, N2. clear G. replace (((1 + 2.001 * x) * norm3 v + x * x * norm3 v) * ((1 + 2.001 * x) * norm3 v + x * x * norm3 v)) with ((1 + 2.001 * x + x * x) * (1 + 2.001 * x + x * x) * (norm3 v * norm3 v)) by ring. rewrite norm3_sq.
  replace (sqnorm3 (mulv3 m v)) with (sqnorm3 (col3 m 0) * (vx v * vx v) + sqnorm3 (col3 m 1) * (vy v * vy v) + sqnorm3 (col3 m 2) * (vz v * vz v)
    + 2 * (dot3 (col3 m 0) (col3 m 1) * (vx v * vy v)) + 2 * (dot3 (col3 m 1) (col3 m 2) * (vy v * vz v)) + 2 * (dot3 (col3 m 0) (col3 m 2) * (vx v * vz v)))
    by (destruct m as [a0 a1 a2 a3 a4 a5 a6 a7 a8], v as [b0 b1 b2]; unfold sqnorm3, dot3, mulv3, row3, col3, dot3; cbn [vx vy vz m00 m01 m02 m10 m11 m12 m20 m21 m22]; ring).
  set (a := vx v). set (b := vy v). set (c := vz v). assert (SV : sqnorm3 v = a * a + b * b + c * c) by reflexivity. rewrite SV.
  assert (Z : forall d p q, Rabs d <= x -> 2 * (d * (p * q)) <= x * (p * p + q * q)).
  { intros d p q H. apply abs_le in H. pose proof (VecProofs.sq_nonneg (p - q)). pose proof (VecProofs.sq_nonneg (p + q)). destruct (Rle_lt_dec 0 (p * q)); nra. }
  pose proof (Z _ a b D0). pose proof (Z _ b c D1). pose proof (Z _ a c D2). pose proof (VecProofs.sq_nonneg a) as Sa. pose proof (VecProofs.sq_nonneg b) as Sb. pose proof (VecProofs.sq_nonneg c) as Sc.
  pose proof (Rmult_le_compat_r _ _ _ Sa N0). pose proof (Rmult_le_compat_r _ _ _ Sb N1). pose proof (Rmult_le_compat_r _ _ _ Sc N2).
  apply Rle_trans with (((1 + x) * (1 + x) + 2 * x) * (a * a + b * b + c * c)); [nra |]. apply Rmult_le_compat_r; [lra |]. assert (0 <= x * x) by nra. assert (0 <= x * (x * x)) by nra. nra.
Qed.
Lemma c134_turn r eps m v : finite33 m -> within33 (P2 450) m -> finite3 v -> norm3 (val3 v) <= P2 440 -> finite64 eps -> 0 <= rval eps <= P2 (-26) -> RotationMatrix64 r eps m = Ok m ->
  exists w, rm64_mulv r (Some m) (Some v) = Ok w /\ finite3 w /\ dist3 (val3 w) (mulv3 (val33 m) (val3 v)) <= P2 (-50) * norm3 (val3 v) + P2 (-1071) /\
    norm3 (val3 w) <= (1 + 3 * rval eps + P2 (-48)) * norm3 (val3 v) + P2 (-1071).
Proof.
  intros F W Fv Nv Fe He K. pose proof P2_26_small as S26. destruct (ok_near r eps m F W Fe ltac:(lra)) as [_ T]. unfold RotationMatrix64 in K. destruct (rm64_ok r eps m); [| discriminate]. specialize (T eq_refl).
  pose proof P2_440 as Q. pose proof (P2_pos 440). assert (Wv : within3 (P2 450) v) by (apply within_norm; lra). assert (SX : rval eps + 5 * e53 <= / 1000) by (unfold e53; lra). pose proof e53_pos as PE.
  destruct (fmulv3_err r m v 1.001 F Fv Wv ltac:(lra)) as [Fw E]. { intros j J. destruct T as [T _]. specialize (T j J). lra. }
  exists (fmulv3 r m v). split; [reflexivity |]. split; [exact Fw |]. rewrite <- e50, <- tiny16, <- e48. pose proof (norm3_nonneg (val3 v)) as PN. pose proof tiny_pos. assert (0 <= e53 * norm3 (val3 v)) by (apply Rmult_le_pos; lra).
  split; [lra |]. pose proof (tolerated_gram (rval eps + 5 * e53) _ (val3 v) ltac:(lra) T) as G. pose proof (dist_norm (val3 (fmulv3 r m v)) (mulv3 (val33 m) (val3 v))) as DN. apply abs_le in DN.
  set (x := rval eps + 5 * e53) in *. assert (PX : 0 <= x) by (unfold x; lra). assert (X2 : x * x <= / 1000 * x) by (apply Rmult_le_compat_r; lra). apply Rmult_le_compat_r with (r := norm3 (val3 v)) in X2; [| exact PN]. assert (0 <= rval eps * norm3 (val3 v)) by (apply Rmult_le_pos; lra). unfold x in *. clear PX. lra.
Qed.
