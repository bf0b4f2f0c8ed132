From Coq Require Import List Bool ZArith Reals Lra Lia Psatz Floats.SpecFloat.
From Verif Require Import Result Vec Mat3 VecProofs AngleModel FloatModel FloatSpec FloatProofs FloatProofs2 FloatProofs3 FloatProofs4 FloatProofs5 FloatProofs7 FloatProofs8 FloatProofs10
  Geo3Spec Geo3Proofs Geo3Proofs2 Geo64Model Geo64Spec Geo64Proofs Geo64Proofs2 Geo64Proofs3 Geo64Proofs4 Geo64Proofs5 Geo64Proofs6 Geo64Proofs8 RotModel RotSpec RotProofs RotProofs2 Rot64Model Rot64Spec Rot64Spec2 Rot64Proofs Rot64Proofs2 Rot64Proofs3 Rot64Proofs4 Rot64Proofs5 Rot64Proofs6 Rot64Proofs7 Rot64Proofs8 Rot64Proofs9 Rot64Proofs10 Rot64Proofs11 Rot64Proofs12 Rot64Proofs13 Rot64Proofs14 Rot64Proofs15.
Import ListNotations.
Local Open Scope R_scope.

(** *** Entries and columns *)
Lemma entries_cols e m n j : 0 <= e -> entries_within e m n -> (j < 3)%nat -> dist3 (col3 m j) (col3 n j) <= 1.7321 * e.
Proof.
  intros P H J. destruct (H 0%nat ltac:(lia)) as (A0 & A1 & A2). destruct (H 1%nat ltac:(lia)) as (B0 & B1 & B2). destruct (H 2%nat ltac:(lia)) as (C0 & C1 & C2). eapply Rle_trans; [| apply norm3_diag; exact P].
  destruct m as [a0 a1 a2 a3 a4 a5 a6 a7 a8], n as [b0 b1 b2 b3 b4 b5 b6 b7 b8]. unfold row3 in *; cbn [vx vy vz m00 m01 m02 m10 m11 m12 m20 m21 m22] in *. apply norm3_coords; unfold sub3; cbn [vx vy vz]; destruct j as [| [| [| j]]]; try lia; assumption.
Qed.
Lemma entries_mulv e m n v : 0 <= e -> entries_within e m n -> dist3 (mulv3 m v) (mulv3 n v) <= 3.0002 * e * norm3 v.
Proof.
  intros P H. pose proof (norm3_nonneg v) as PN.
  assert (R : forall i, (i < 3)%nat -> Rabs (dot3 (row3 m i) v - dot3 (row3 n i) v) <= 1.7321 * e * norm3 v).
  { intros i Hi. destruct (H i Hi) as (A & B & C). replace (dot3 (row3 m i) v - dot3 (row3 n i) v) with (dot3 (sub3 (row3 m i) (row3 n i)) v) by (unfold dot3, sub3; cbn [vx vy vz]; ring).
    eapply Rle_trans; [apply cauchy3_norm |]. apply Rmult_le_compat_r; [exact PN |]. eapply Rle_trans; [| apply norm3_diag; exact P]. apply norm3_coords; unfold sub3; cbn [vx vy vz]; assumption. }
  assert (0 <= e * norm3 v) by (apply Rmult_le_pos; assumption). apply Rle_trans with (1.7321 * (1.7321 * e * norm3 v)); [| lra].
  unfold dist3. eapply Rle_trans; [| apply norm3_diag; lra]. apply norm3_coords; unfold sub3, mulv3; cbn [vx vy vz]; apply R; lia.
Qed.
Lemma q_matrix_cols q i j : (i < 3)%nat -> (j < 3)%nat -> dot3 (col3 (q_matrix q) i) (col3 (q_matrix q) j) = if Nat.eqb i j then sq q * sq q else 0.
Proof.
  intros Hi Hj. destruct q as [x y z s]. destruct i as [| [| [| i]]]; try lia; destruct j as [| [| [| j]]]; try lia; unfold dot3, col3, q_matrix, sq; cbn [Nat.eqb vx vy vz qx qy qz qs m00 m01 m02 m10 m11 m12 m20 m21 m22]; ring.
Qed.
Lemma q_matrix_col_len q j : (j < 3)%nat -> norm3 (col3 (q_matrix q) j) = sq q.
Proof.
  intros J. pose proof (q_matrix_cols q j j J J) as E. rewrite Nat.eqb_refl in E. unfold norm3, sqnorm3. rewrite E. apply sqrt_square. unfold sq. pose proof (VecProofs.sq_nonneg (qx q)). pose proof (VecProofs.sq_nonneg (qy q)). pose proof (VecProofs.sq_nonneg (qz q)). pose proof (VecProofs.sq_nonneg (qs q)). lra.
Qed.
Lemma sq_near q d : 0 <= d <= P2 (-26) -> Rabs (len4 q - 1) <= d -> Rabs (sq q - 1) <= 2 * d + 2 * e53 /\ sq q <= 1.0001.
Proof.
  intros D L. pose proof P2_26 as Q. pose proof P2_26_small. assert (DD : d * d <= 2 * e53) by (rewrite <- Q; apply Rmult_le_compat; lra). rewrite <- len4_sq. apply abs_le in L. set (n := len4 q) in *. replace (n * n) with (1 + 2 * (n - 1) + (n - 1) * (n - 1)) by ring.
  assert (N2 : 0 <= (n - 1) * (n - 1) <= d * d) by (split; [apply VecProofs.sq_nonneg | apply Rsqr_le_abs_1; rewrite (Rabs_pos_eq d) by lra; apply abs_of; lra]). split; [apply abs_of; lra | unfold e53 in *; lra].
Qed.
Lemma fmatrix_ortho q d : finite4 q -> 0 <= d <= P2 (-26) -> Rabs (len4 (val4 q) - 1) <= d ->
  finite33 (fmatrix q) /\ entries_within (4.03 * e53) (val33 (fmatrix q)) (q_matrix (val4 q)) /\ orthonormal_up_to (4.001 * d + 18.3 * e53) (val33 (fmatrix q)) /\
  (forall j, (j < 3)%nat -> norm3 (col3 (val33 (fmatrix q)) j) <= 1 + 2 * d + 9 * e53) /\ (forall i j, (i < 3)%nat -> (j < 3)%nat -> i <> j -> Rabs (dot3 (col3 (val33 (fmatrix q)) i) (col3 (val33 (fmatrix q)) j)) <= 14.2 * e53).
Proof.
  intros F D L. destruct (sq_near _ _ D L) as [S S1]. pose proof P2_26_small as S26. pose proof P2_450_2. pose proof e53_pos as PE. pose proof tiny_e as TE.
  assert (B : within4 (P2 450) q) by (apply within_len; [exact F |]; apply abs_le in L; lra). destruct (fmatrix_near q F B) as [Fm E].
  assert (E' : entries_within (4.03 * e53) (val33 (fmatrix q)) (q_matrix (val4 q))).
  { assert (K : 4.02 * e53 * sq (val4 q) + 6 * tiny <= 4.03 * e53) by (unfold e53 in *; lra). intros i Hi. destruct (E i Hi) as (A1 & A2 & A3). repeat split; lra. }
  pose proof (fun j J => entries_cols (4.03 * e53) _ _ j ltac:(lra) E' J) as C.
  assert (CL : forall j, (j < 3)%nat -> norm3 (col3 (q_matrix (val4 q)) j) <= 1.01) by (intros j J; rewrite q_matrix_col_len by exact J; lra).
  assert (DP : forall i j, (i < 3)%nat -> (j < 3)%nat -> Rabs (dot3 (col3 (val33 (fmatrix q)) i) (col3 (val33 (fmatrix q)) j) - (if Nat.eqb i j then sq (val4 q) * sq (val4 q) else 0)) <= 14.2 * e53).
  { intros i j Hi Hj. rewrite <- q_matrix_cols by assumption. eapply Rle_trans; [apply (dot_perturbed _ _ _ _ (7 * e53)) |]; [apply CL; exact Hi | apply CL; exact Hj | specialize (C i Hi); lra | specialize (C j Hj); lra | unfold e53; lra | lra]. }
  split; [exact Fm |]. split; [exact E' |]. split; [| split].
  - intros i j Hi Hj. pose proof (DP i j Hi Hj) as K. destruct (Nat.eqb i j); [| lra]. apply abs_le in K. apply abs_le in S. set (k := sq (val4 q)) in *. apply abs_of.
    assert (DD : d * d <= / 67000000 * d) by (apply Rmult_le_compat_r; lra). assert (K2 : Rabs (k * k - 1) <= 4.001 * d + 4.1 * e53); [| apply abs_le in K2; lra].
    replace (k * k - 1) with ((k - 1) * (k + 1)) by ring. rewrite Rabs_mult, (Rabs_pos_eq (k + 1)) by (unfold e53 in *; lra). apply Rle_trans with ((2 * d + 2 * e53) * 2.0001); [apply Rmult_le_compat; try apply Rabs_pos; [unfold e53 in *; lra | apply abs_of; lra | lra] |]. lra.
  - intros j J. specialize (C j J). pose proof (dist_norm (col3 (val33 (fmatrix q)) j) (col3 (q_matrix (val4 q)) j)) as DN. rewrite q_matrix_col_len in DN by exact J. apply abs_le in DN. apply abs_le in S. lra.
  - intros i j Hi Hj N. pose proof (DP i j Hi Hj) as K. replace (Nat.eqb i j) with false in K by (symmetry; apply Nat.eqb_neq; exact N). rewrite Rminus_0_r in K. exact K.
Qed.
(** *** Acceptance *)
Lemma unit_cases q : finite4 q -> q64_eq (Some q) (Some q64_Unit) = true -> q_matrix (val4 q) = id3.
Proof.
  intros F E. assert (FU : finite4 q64_Unit) by (destruct one_val; repeat split; assumption || exact I). apply (c131_equal q q64_Unit F FU) in E. destruct one_val as [O1 O2].
  assert (VU : val4 q64_Unit = one4) by (unfold val4, q64_Unit, one4; cbn [q64x q64y q64z q64s]; rewrite O2; reflexivity). rewrite VU in E.
  assert (QU : q_matrix one4 = id3) by exact q_matrix_unit. destruct E as [-> | ->]; [exact QU | rewrite ?q_matrix_neg; exact QU].
Qed.
Lemma entries_same e m : 0 <= e -> entries_within e m m.
Proof. intros P i Hi. rewrite !Rminus_diag_eq by reflexivity. rewrite Rabs_R0. repeat split; exact P. Qed.
Lemma ortho_id : orthonormal_up_to 0 (val33 id64).
Proof. destruct id_finite as (_ & _ & ->). apply ortho_zero. unfold mul3, transpose3, of_cols, id3, mulv3, row3, col3, dot3; cbn [vx vy vz m00 m01 m02 m10 m11 m12 m20 m21 m22]. f_equal; ring. Qed.
Lemma of_quaternion_accepted r eps q d : finite4 q -> finite64 eps -> 0 <= d <= P2 (-26) -> Rabs (len4 (val4 q) - 1) <= d -> 2 * d + P2 (-48) <= rval eps <= / 4 ->
  exists m, rm64_of_quaternion r eps (Some q) = Ok m /\ finite33 m /\ entries_within (P2 (-50)) (val33 m) (q_matrix (val4 q)) /\ orthonormal_up_to (5 * d + P2 (-48)) (val33 m).
Proof.
  intros F Fe D L He. rewrite <- e48 in He. rewrite <- e48, <- e50. pose proof e53_pos as PE. pose proof P2_26_small. pose proof P2_450_2. assert (B : within4 (P2 450) q) by (apply within_len; [exact F |]; apply abs_le in L; lra).
  destruct (unitary_near q eps F B Fe ltac:(lra)) as (b & E & Hb & _). rewrite Hb in E by lra. unfold rm64_of_quaternion. cbn [need3 bind]. rewrite E. cbn [bind negb].
  destruct (q64_eq (Some q) (Some q64_Unit)) eqn:Q.
  - exists id64. destruct id_finite as (FI & WI & VI). split; [unfold rm64_Unit, RotationMatrix64; rewrite (right_ok r eps id64 1 FI WI ortho_id Fe ltac:(lra)); reflexivity |]. split; [exact FI |]. split.
    + rewrite (unit_cases q F Q), VI. apply entries_same. lra.
    + intros i j Hi Hj. pose proof (ortho_id i j Hi Hj). lra.
  - destruct (fmatrix_ortho q d F D L) as (Fm & Em & Om & Cm & Dm). exists (fmatrix q). assert (W : within33 (P2 450) (fmatrix q)).
    { destruct (col_val (fmatrix q)) as (C0 & C1 & C2). pose proof (Cm 0%nat ltac:(lia)) as N0. pose proof (Cm 1%nat ltac:(lia)) as N1. pose proof (Cm 2%nat ltac:(lia)) as N2. rewrite ?C0, ?C1, ?C2 in *. assert (9 * e53 <= / 10) by (unfold e53; lra). repeat split; apply within_norm; lra. }
    split; [| split; [exact Fm | split]].
    + unfold RotationMatrix64. rewrite (proj1 (ok_near r eps (fmatrix q) Fm W Fe ltac:(lra))); [reflexivity |]. split.
      * intros j J. specialize (Cm j J). lra.
      * intros i j Hi Hj N. specialize (Dm i j Hi Hj N). lra.
    + intros i Hi. destruct (Em i Hi) as (A1 & A2 & A3). repeat split; lra.
    + intros i j Hi Hj. specialize (Om i j Hi Hj). lra.
Qed.
(** *** Agreement with rotateVector *)
Lemma of_quaternion_inv r eps q m : finite4 q -> within4 (P2 450) q -> finite64 eps -> 0 < rval eps <= P2 (-26) -> rm64_of_quaternion r eps (Some q) = Ok m ->
  q64_isUnitary (Some q) (Some eps) = Ok true /\ finite33 m /\ entries_within (4.03 * e53) (val33 m) (q_matrix (val4 q)) /\ rm64_ok r eps m = true.
Proof.
  intros F B Fe He. unfold rm64_of_quaternion. cbn [need3 bind]. destruct (q64_isUnitary (Some q) (Some eps)) as [b | |] eqn:U; try discriminate. cbn [bind]. destruct b; [| discriminate]. cbn [negb].
  pose proof (accepted_len q eps F B Fe He U) as L. intros E. split; [reflexivity |]. destruct (q64_eq (Some q) (Some q64_Unit)) eqn:Q.
  - unfold rm64_Unit, RotationMatrix64 in E. destruct (rm64_ok r eps id64) eqn:K; [| discriminate]. injection E as <-. destruct id_finite as (FI & _ & VI). split; [exact FI |]. split; [| exact K]. rewrite (unit_cases q F Q), VI. apply entries_same. pose proof e53_pos. lra.
  - unfold RotationMatrix64 in E. destruct (rm64_ok r eps (fmatrix q)) eqn:K; [| discriminate]. injection E as <-. destruct (fmatrix_near q F B) as [Fm Em]. split; [exact Fm |]. split; [| exact K].
    destruct (accepted_bounds q eps F B Fe He U) as [_ A]. rewrite len4_sq in A. apply abs_le in A. pose proof P2_26_small. pose proof tiny_e. pose proof e53_pos. assert (KK : 4.02 * e53 * sq (val4 q) + 6 * tiny <= 4.03 * e53) by (unfold e53 in *; lra). intros i Hi. destruct (Em i Hi) as (A1 & A2 & A3). repeat split; lra.
Qed.
Lemma of_quaternion_entries r eps q m : finite4 q -> within4 (P2 450) q -> finite64 eps -> 0 < rval eps <= P2 (-26) -> rm64_of_quaternion r eps (Some q) = Ok m ->
  q64_isUnitary (Some q) (Some eps) = Ok true /\ finite33 m /\ RotationMatrix64 r eps m = Ok m /\ entries_within (P2 (-50)) (val33 m) (q_matrix (val4 q)).
Proof.
  intros F B Fe He E. destruct (of_quaternion_inv r eps q m F B Fe He E) as (U & Fm & Em & K). split; [exact U |]. split; [exact Fm |]. split; [unfold RotationMatrix64; rewrite K; reflexivity |]. rewrite <- e50. pose proof e53_pos. intros i Hi. destruct (Em i Hi) as (A1 & A2 & A3). repeat split; lra.
Qed.
Lemma c135_agree r eps q v m : finite4 q -> within4 (P2 450) q -> finite3 v -> norm3 (val3 v) <= P2 440 -> finite64 eps -> 0 < rval eps <= P2 (-26) -> rm64_of_quaternion r eps (Some q) = Ok m ->
  exists w w', rm64_mulv r (Some m) (Some v) = Ok w /\ q64_rotateVector r (Some q) (Some v) (Some eps) = Ok w' /\ finite3 w /\ finite3 w' /\ dist3 (val3 w) (val3 w') <= P2 (-47) * norm3 (val3 v) + P2 (-1068).
Proof.
  intros F B Fv Nv Fe He E. destruct (of_quaternion_inv r eps q m F B Fe He E) as (U & Fm & Em & K). pose proof P2_26_small as S26. pose proof e53_pos as PE. pose proof tiny_pos as PT.
  destruct (accepted_bounds q eps F B Fe He U) as [LQ A]. rewrite len4_sq in A. apply abs_le in A. destruct (frotate_err r q v F Fv LQ Nv) as [Fw' E'].
  assert (SQ : sq (val4 q) <= 1.0001) by (unfold e53 in *; lra). pose proof (fun j J => entries_cols (4.03 * e53) _ _ j ltac:(lra) Em J) as C.
  destruct (fmulv3_err r m v 1.001 Fm Fv (within_440 v Nv) ltac:(lra)) as [Fw Ew].
  { intros j J. specialize (C j J). pose proof (dist_norm (col3 (val33 m) j) (col3 (q_matrix (val4 q)) j)) as DN. rewrite q_matrix_col_len in DN by exact J. apply abs_le in DN. unfold e53 in *. lra. }
  exists (fmulv3 r m v), (frotate r q v). split; [reflexivity |]. split; [apply rotate_ok; exact U |]. split; [exact Fw |]. split; [exact Fw' |].
  pose proof (entries_mulv (4.03 * e53) _ _ (val3 v) ltac:(lra) Em) as EM. rewrite rot_matrix in EM. set (w := val3 (fmulv3 r m v)) in *. set (w' := val3 (frotate r q v)) in *.
  pose proof (dist3_triangle w (mulv3 (val33 m) (val3 v)) w') as T1. pose proof (dist3_triangle (mulv3 (val33 m) (val3 v)) (rot (val4 q) (val3 v)) w') as T2. rewrite (dist3_sym (rot (val4 q) (val3 v)) w') in T2.
  replace (P2 (-47)) with (64 * e53) by (rewrite <- e53_P2; replace 64 with (P2 6) by (rewrite <- P2_Z by lia; reflexivity); rewrite <- P2_add; reflexivity).
  replace (P2 (-1068)) with (128 * tiny) by (unfold tiny; replace 128 with (P2 7) by (rewrite <- P2_Z by lia; reflexivity); rewrite <- P2_add; reflexivity).
  pose proof (norm3_nonneg (val3 v)). assert (0 <= e53 * norm3 (val3 v)) by (apply Rmult_le_pos; lra). lra.
Qed.
