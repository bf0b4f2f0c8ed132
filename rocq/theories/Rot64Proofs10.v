From Coq Require Import List Bool ZArith Reals Lra Lia Psatz Floats.SpecFloat.
From Verif Require Import Result Vec Mat3 VecProofs AngleModel FloatModel FloatSpec FloatProofs FloatProofs2 FloatProofs3 FloatProofs4 FloatProofs5 FloatProofs7 FloatProofs8 FloatProofs10
  Geo3Spec Geo3Proofs Geo3Proofs2 Geo64Model Geo64Spec Geo64Proofs Geo64Proofs2 Geo64Proofs3 Geo64Proofs4 Geo64Proofs5 Geo64Proofs6 Geo64Proofs8 RotModel RotSpec RotProofs RotProofs2 Rot64Model Rot64Spec Rot64Spec2 Rot64Proofs Rot64Proofs2 Rot64Proofs3 Rot64Proofs4 Rot64Proofs5 Rot64Proofs6 Rot64Proofs7 Rot64Proofs8 Rot64Proofs9.
Import ListNotations.
Local Open Scope R_scope.

(** *** Matrices that are nearly orthonormal, exactly *)
Lemma norm3_coords a b : Rabs (vx a) <= vx b -> Rabs (vy a) <= vy b -> Rabs (vz a) <= vz b -> norm3 a <= norm3 b.
Proof.
  intros A B C. apply norm3_le. unfold sqnorm3, dot3.
  assert (G : forall x y, Rabs x <= y -> x * x <= y * y). { intros x y H. apply Rsqr_le_abs_1. rewrite (Rabs_pos_eq y) by (pose proof (Rabs_pos x); lra). exact H. }
  pose proof (G _ _ A). pose proof (G _ _ B). pose proof (G _ _ C). lra.
Qed.
Lemma norm3_diag k : 0 <= k -> norm3 (V3 k k k) <= 1.7321 * k.
Proof. intros K. apply Rsqr_incr_0_var; [| lra]. unfold Rsqr. rewrite norm3_sq. unfold sqnorm3, dot3; cbn [vx vy vz]. nra. Qed.
Lemma abs_sum3 v : Rabs (vx v) + Rabs (vy v) + Rabs (vz v) <= 1.7321 * norm3 v.
Proof.
  pose proof (norm3_nonneg v). apply Rsqr_incr_0_var; [| lra]. unfold Rsqr. replace (1.7321 * norm3 v * (1.7321 * norm3 v)) with (1.7321 * 1.7321 * (norm3 v * norm3 v)) by ring. rewrite norm3_sq. unfold sqnorm3, dot3.
  assert (G : forall x, x * x = Rabs x * Rabs x) by (intros x; rewrite <- Rabs_mult, Rabs_pos_eq; nra). rewrite (G (vx v)), (G (vy v)), (G (vz v)).
  set (a := Rabs (vx v)). set (b := Rabs (vy v)). set (c := Rabs (vz v)). pose proof (VecProofs.sq_nonneg (a - b)). pose proof (VecProofs.sq_nonneg (b - c)). pose proof (VecProofs.sq_nonneg (a - c)). pose proof (VecProofs.sq_nonneg a). pose proof (VecProofs.sq_nonneg b). pose proof (VecProofs.sq_nonneg c). nra.
Qed.
Lemma bilinear e k00 k01 k02 k10 k11 k12 k20 k21 k22 v w : Rabs k00 <= e -> Rabs k01 <= e -> Rabs k02 <= e -> Rabs k10 <= e -> Rabs k11 <= e -> Rabs k12 <= e -> Rabs k20 <= e -> Rabs k21 <= e -> Rabs k22 <= e ->
  Rabs (vx v * (k00 * vx w + k01 * vy w + k02 * vz w) + vy v * (k10 * vx w + k11 * vy w + k12 * vz w) + vz v * (k20 * vx w + k21 * vy w + k22 * vz w)) <= 3.0002 * e * (norm3 v * norm3 w).
Proof.
  intros. assert (0 <= e) by (pose proof (Rabs_pos k00); lra). pose proof (abs_sum3 v) as SV. pose proof (abs_sum3 w) as SW. pose proof (norm3_nonneg v). pose proof (norm3_nonneg w).
  assert (L : forall a b c, Rabs a <= e -> Rabs b <= e -> Rabs c <= e -> Rabs (a * vx w + b * vy w + c * vz w) <= e * (1.7321 * norm3 w)).
  { intros a b c A B C. apply Rle_trans with (e * (Rabs (vx w) + Rabs (vy w) + Rabs (vz w))); [| apply Rmult_le_compat_l; assumption]. eapply Rle_trans; [apply Rabs_triang |]. eapply Rle_trans; [apply Rplus_le_compat_r, Rabs_triang |]. rewrite !Rabs_mult.
    pose proof (Rabs_pos (vx w)). pose proof (Rabs_pos (vy w)). pose proof (Rabs_pos (vz w)). nra. }
  set (E := e * (1.7321 * norm3 w)) in *. assert (0 <= E) by (unfold E; apply Rmult_le_pos; lra).
  apply Rle_trans with (E * (Rabs (vx v) + Rabs (vy v) + Rabs (vz v))).
  - eapply Rle_trans; [apply Rabs_triang |]. eapply Rle_trans; [apply Rplus_le_compat_r, Rabs_triang |]. rewrite !Rabs_mult, !Rmult_plus_distr_l, !(Rmult_comm E).
    repeat apply Rplus_le_compat; (apply Rmult_le_compat_l; [apply Rabs_pos | apply L; assumption]).
  - apply Rle_trans with (E * (1.7321 * norm3 v)); [apply Rmult_le_compat_l; assumption |]. unfold E. assert (0 <= e * (norm3 v * norm3 w)) by (repeat apply Rmult_le_pos; assumption). nra.
Qed.
Lemma gram_dot e m v w : orthonormal_up_to e m -> Rabs (dot3 (mulv3 m v) (mulv3 m w) - dot3 v w) <= 3.0002 * e * (norm3 v * norm3 w).
Proof.
  intros O. pose proof (O 0 0 ltac:(lia) ltac:(lia))%nat as E00. pose proof (O 0 1 ltac:(lia) ltac:(lia))%nat as E01. pose proof (O 0 2 ltac:(lia) ltac:(lia))%nat as E02.
  pose proof (O 1 0 ltac:(lia) ltac:(lia))%nat as E10. pose proof (O 1 1 ltac:(lia) ltac:(lia))%nat as E11. pose proof (O 1 2 ltac:(lia) ltac:(lia))%nat as E12.
  pose proof (O 2 0 ltac:(lia) ltac:(lia))%nat as E20. pose proof (O 2 1 ltac:(lia) ltac:(lia))%nat as E21. pose proof (O 2 2 ltac:(lia) ltac:(lia))%nat as E22. cbn [Nat.eqb] in *.
  refine (eq_ind _ (fun x => Rabs x <= _) (bilinear e _ _ _ _ _ _ _ _ _ v w E00 E01 E02 E10 E11 E12 E20 E21 E22) _ _). destruct m as [a0 a1 a2 a3 a4 a5 a6 a7 a8], v as [b0 b1 b2], w as [d0 d1 d2]; unfold dot3, mulv3, row3, col3, dot3; cbn [vx vy vz m00 m01 m02 m10 m11 m12 m20 m21 m22]. ring.
Qed.
Lemma sq_diff_abs a b k : 0 <= a -> 0 <= b -> 0 <= k -> Rabs (a * a - b * b) <= k * (b * b) -> Rabs (a - b) <= k * b.
Proof.
  intros A B K H. destruct (Rle_lt_or_eq_dec 0 b B) as [P | <-].
  - apply Rmult_le_reg_r with b; [exact P |]. apply Rle_trans with (Rabs (a - b) * (a + b)); [apply Rmult_le_compat_l; [apply Rabs_pos | lra] |]. rewrite <- (Rabs_pos_eq (a + b)) by lra. rewrite <- Rabs_mult. replace ((a - b) * (a + b)) with (a * a - b * b) by ring. lra.
  - rewrite Rmult_0_l, Rmult_0_r, !Rminus_0_r in *. rewrite Rabs_pos_eq in * by nra. nra.
Qed.
Lemma gram_len e m v : 0 <= e -> orthonormal_up_to e m -> Rabs (norm3 (mulv3 m v) - norm3 v) <= 3.0002 * e * norm3 v.
Proof. intros P O. apply sq_diff_abs; try apply norm3_nonneg; [lra |]. pose proof (gram_dot e m v v O) as G. rewrite !norm3_sq. unfold sqnorm3. rewrite norm3_sq in G. exact G. Qed.
Lemma gram_back e m v : 0 <= e -> orthonormal_up_to e m -> dist3 (mulv3 (transpose3 m) (mulv3 m v)) v <= 3.0002 * e * norm3 v.
Proof.
  intros P O. unfold dist3. set (x := sub3 (mulv3 (transpose3 m) (mulv3 m v)) v). pose proof (gram_dot e m x v O) as G. replace (dot3 (mulv3 m x) (mulv3 m v) - dot3 x v) with (norm3 x * norm3 x) in G.
  - rewrite Rabs_pos_eq in G by (apply VecProofs.sq_nonneg). pose proof (norm3_nonneg x). destruct (Rle_lt_or_eq_dec 0 (norm3 x) (norm3_nonneg x)) as [Q | Q].
    + apply Rmult_le_reg_r with (norm3 x); [exact Q |]. lra.
    + rewrite <- Q. pose proof (norm3_nonneg v). assert (0 <= e * norm3 v) by (apply Rmult_le_pos; assumption). lra.
  - rewrite norm3_sq, dot3_mulv. unfold sqnorm3. unfold x. set (y := mulv3 (transpose3 m) (mulv3 m v)). unfold dot3, sub3; cbn [vx vy vz]. ring.
Qed.
Lemma col_len e m j : 0 <= e -> orthonormal_up_to e m -> (j < 3)%nat -> Rabs (norm3 (col3 m j) - 1) <= e.
Proof.
  intros P O J. pose proof (O j j J J) as H. rewrite Nat.eqb_refl in H. rewrite <- (Rmult_1_r e). apply sq_diff_abs; [apply norm3_nonneg | lra | exact P |]. rewrite norm3_sq, !Rmult_1_r. exact H.
Qed.
(** The rows of a matrix are as orthonormal as its columns: the two Gram matrices are equally far from the identity. *)
Lemma gram_rows e m : 0 <= e -> orthonormal_up_to e m -> orthonormal_up_to (3 * e) (transpose3 m).
Proof.
  intros P O. pose proof (O 0 0 ltac:(lia) ltac:(lia))%nat as E00. pose proof (O 0 1 ltac:(lia) ltac:(lia))%nat as E01. pose proof (O 0 2 ltac:(lia) ltac:(lia))%nat as E02.
  pose proof (O 1 0 ltac:(lia) ltac:(lia))%nat as E10. pose proof (O 1 1 ltac:(lia) ltac:(lia))%nat as E11. pose proof (O 1 2 ltac:(lia) ltac:(lia))%nat as E12.
  pose proof (O 2 0 ltac:(lia) ltac:(lia))%nat as E20. pose proof (O 2 1 ltac:(lia) ltac:(lia))%nat as E21. pose proof (O 2 2 ltac:(lia) ltac:(lia))%nat as E22. cbn [Nat.eqb] in *.
  assert (G : forall x, Rabs x <= e -> x * x <= e * e). { intros x H. apply Rsqr_le_abs_1. rewrite (Rabs_pos_eq e); assumption. }
  apply G in E00, E01, E02, E10, E11, E12, E20, E21, E22.
  pose (f := fun i j : nat => dot3 (col3 (transpose3 m) i) (col3 (transpose3 m) j) - (if Nat.eqb i j then 1 else 0)).
  assert (S : f 0%nat 0%nat * f 0%nat 0%nat + f 0%nat 1%nat * f 0%nat 1%nat + f 0%nat 2%nat * f 0%nat 2%nat + f 1%nat 0%nat * f 1%nat 0%nat + f 1%nat 1%nat * f 1%nat 1%nat + f 1%nat 2%nat * f 1%nat 2%nat
    + f 2%nat 0%nat * f 2%nat 0%nat + f 2%nat 1%nat * f 2%nat 1%nat + f 2%nat 2%nat * f 2%nat 2%nat <= 9 * (e * e)).
  { pose proof (Rplus_le_compat _ _ _ _ (Rplus_le_compat _ _ _ _ (Rplus_le_compat _ _ _ _ (Rplus_le_compat _ _ _ _ (Rplus_le_compat _ _ _ _ (Rplus_le_compat _ _ _ _ (Rplus_le_compat _ _ _ _ (Rplus_le_compat _ _ _ _ E00 E01) E02) E10) E11) E12) E20) E21) E22) as K. eapply Rle_trans; [| eapply Rle_trans; [exact K | lra]]. right.
    unfold f. cbn [Nat.eqb]. destruct m as [a0 a1 a2 a3 a4 a5 a6 a7 a8]; unfold dot3, transpose3, of_cols, row3, col3; cbn [vx vy vz m00 m01 m02 m10 m11 m12 m20 m21 m22]. ring. }
  clear E00 E01 E02 E10 E11 E12 E20 E21 E22. assert (N : forall i j, 0 <= f i j * f i j) by (intros; apply VecProofs.sq_nonneg).
  intros i j Hi Hj. change (Rabs (f i j) <= 3 * e). rewrite <- (Rabs_pos_eq (3 * e)) by lra. apply Rsqr_le_abs_0. unfold Rsqr. replace (3 * e * (3 * e)) with (9 * (e * e)) by ring. eapply Rle_trans; [| exact S].
  pose proof (N 0 0)%nat. pose proof (N 0 1)%nat. pose proof (N 0 2)%nat. pose proof (N 1 0)%nat. pose proof (N 1 1)%nat. pose proof (N 1 2)%nat. pose proof (N 2 0)%nat. pose proof (N 2 1)%nat. pose proof (N 2 2)%nat.
  destruct i as [| [| [| i]]]; try lia; destruct j as [| [| [| j]]]; try lia; lra.
Qed.
