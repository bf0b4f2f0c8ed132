(** Rotations of Euler angles (C144). *)

From Coq Require Import List Bool ZArith Reals Lra Lia Psatz Floats.SpecFloat.
From Verif Require Import Result Vec Mat3 VecProofs AngleModel FloatModel FloatSpec FloatProofs FloatProofs2 FloatProofs3 FloatProofs4 FloatProofs5 FloatProofs7 FloatProofs8 FloatProofs10
  Geo3Spec Geo3Proofs Geo3Proofs2 Geo64Model Geo64Spec Geo64Proofs Geo64Proofs2 Geo64Proofs3 Geo64Proofs4 Geo64Proofs5 Geo64Proofs6 Geo64Proofs7 Geo64Proofs8 RotModel RotSpec RotProofs RotProofs2 RotProofs3 RotProofs4 Rot64Model Rot64Spec Rot64Spec2 Rot64Proofs Rot64Proofs2 Rot64Proofs3 Rot64Proofs4 Rot64Proofs5 Rot64Proofs6 Rot64Proofs7 Rot64Proofs8 Rot64Proofs9 Rot64Proofs10 Rot64Proofs11 Rot64Proofs12 Rot64Proofs13 Rot64Proofs14 Rot64Proofs15 Rot64Proofs16 Rot64Proofs17 Att64Model Att64Spec Att64Proofs Att64Proofs2 Att64Proofs3 Att64Proofs4.
Import ListNotations.
Local Open Scope R_scope.

(** *** Quaternions *)
Lemma gap_coords p q d : 0 <= d -> Rabs (qx p - qx q) <= d -> Rabs (qy p - qy q) <= d -> Rabs (qz p - qz q) <= d -> Rabs (qs p - qs q) <= d -> gap4 p q <= 2 * d.
Proof.
  intros P A B C D. apply len4_le; [lra |]. unfold sq; cbn [qx qy qz qs]. assert (K : forall x, Rabs x <= d -> x * x <= d * d) by (intros x H; apply Rsqr_le_abs_1; rewrite (Rabs_pos_eq d) by exact P; exact H). pose proof (K _ A). pose proof (K _ B). pose proof (K _ C). pose proof (K _ D). lra.
Qed.
Lemma mul3_near x y z a b c e : near64 x a e -> near64 y b e -> near64 z c e -> Rabs a <= 1 -> Rabs b <= 1 -> Rabs c <= 1 -> e <= / 10000 -> near64 (mul64_3 x y z) (a * b * c) (3.001 * e + 2.1 * e53) /\ Rabs (a * b * c) <= 1.
Proof.
  intros X Y Z A B C He. assert (E0 : 0 <= e) by (eapply Rle_trans; [apply Rabs_pos | exact (proj2 X)]). pose proof e53_pos as PE. assert (PS : e53 <= / 100000000000) by (unfold e53; lra). pose proof tiny_e4 as TE. pose proof tiny_pos as TP. pose proof P2_ge1023 as HB.
  assert (EQ : 0 <= e * e <= / 10000 * e) by (split; [apply Rmult_le_pos; lra | apply Rmult_le_compat_r; lra]). assert (EE : 0 <= e * e53 <= / 10000 * e53) by (split; [apply Rmult_le_pos; lra | apply Rmult_le_compat_r; lra]). assert (E2 : 0 <= e53 * e53 <= / 100000000000 * e53) by (split; [apply Rmult_le_pos; lra | apply Rmult_le_compat_r; lra]).
  assert (T1 : 0 <= e * e * e53 <= / 10000 * e53) by (split; [apply Rmult_le_pos; lra | apply Rmult_le_compat_r; lra]). assert (T2 : 0 <= e * e53 * e53 <= / 10000 * e53) by (split; [apply Rmult_le_pos; lra | apply Rmult_le_compat_r; lra]).
  assert (AB : Rabs (a * b) <= 1) by (rewrite Rabs_mult; pose proof (Rabs_pos a); pose proof (Rabs_pos b); apply Rle_trans with (1 * 1); [apply Rmult_le_compat; assumption | lra]). split.
  - assert (P : near64 (b64_mul x y) (a * b) (2.0001 * e + 1.001 * e53)) by (eapply near_le; [apply (near_mul _ _ _ _ e e 1 1 X Y A B); lra |]; lra).
    eapply near_le; [apply (near_mul _ _ _ _ _ e 1 1 P Z AB C); lra |]. lra.
  - rewrite Rabs_mult. pose proof (Rabs_pos (a * b)); pose proof (Rabs_pos c); apply Rle_trans with (1 * 1); [apply Rmult_le_compat; assumption | lra].
Qed.
Lemma pair_near e x y a b : 0 <= e <= / 10000 -> near64 x a (3.001 * e + 2.1 * e53) /\ Rabs a <= 1 -> near64 y b (3.001 * e + 2.1 * e53) /\ Rabs b <= 1 -> near64 (sf_add x y) (a + b) (6.01 * e + 6.3 * e53) /\ near64 (sf_sub x y) (a - b) (6.01 * e + 6.3 * e53).
Proof.
  intros He [X A] [Y B]. pose proof e53_pos as PE. assert (PS : e53 <= / 100000000000) by (unfold e53; lra). pose proof P2_ge1023 as HB. assert (EE : 0 <= e * e53 <= / 10000 * e53) by (split; [apply Rmult_le_pos; lra | apply Rmult_le_compat_r; lra]). assert (E2 : 0 <= e53 * e53 <= / 100000000000 * e53) by (split; [apply Rmult_le_pos; lra | apply Rmult_le_compat_r; lra]).
  split; (eapply near_le; [(apply (near_add _ _ _ _ _ _ 1 1 X Y A B) || apply (near_sub _ _ _ _ _ _ 1 1 X Y A B)); lra |]; lra).
Qed.
Lemma halves_near seq cf ct cp sf st sp a b c e : seq <> SeqUndefined -> returns cf (cos (a / 2)) e -> returns ct (cos (b / 2)) e -> returns cp (cos (c / 2)) e -> returns sf (sin (a / 2)) e -> returns st (sin (b / 2)) e -> returns sp (sin (c / 2)) e -> e <= / 10000 ->
  exists q p, q64_of_halves seq cf ct cp sf st sp = Some q /\ q_of_angles seq a b c = Some p /\ finite4 q /\ gap4 (val4 q) p <= 12.02 * e + 12.6 * e53.
Proof.
  intros NS H1 H2 H3 H4 H5 H6 He. pose proof (returns_pos _ _ _ H1) as E0. assert (HE : 0 <= e <= / 10000) by lra. pose proof e53_pos as PE.
  pose proof (cos_abs (a / 2)) as A1. pose proof (cos_abs (b / 2)) as A2. pose proof (cos_abs (c / 2)) as A3. pose proof (sin_abs (a / 2)) as B1. pose proof (sin_abs (b / 2)) as B2. pose proof (sin_abs (c / 2)) as B3.
  pose proof (mul3_near sf ct cp _ _ _ e H4 H2 H3 B1 A2 A3 He) as K1. pose proof (mul3_near cf st sp _ _ _ e H1 H5 H6 A1 B2 B3 He) as K2. pose proof (mul3_near cf st cp _ _ _ e H1 H5 H3 A1 B2 A3 He) as K3. pose proof (mul3_near sf ct sp _ _ _ e H4 H2 H6 B1 A2 B3 He) as K4.
  pose proof (mul3_near cf ct sp _ _ _ e H1 H2 H6 A1 A2 B3 He) as K5. pose proof (mul3_near sf st cp _ _ _ e H4 H5 H3 B1 B2 A3 He) as K6. pose proof (mul3_near cf ct cp _ _ _ e H1 H2 H3 A1 A2 A3 He) as K7. pose proof (mul3_near sf st sp _ _ _ e H4 H5 H6 B1 B2 B3 He) as K8.
  pose proof (pair_near e _ _ _ _ HE K1 K2) as [P1 Q1]. pose proof (pair_near e _ _ _ _ HE K2 K1) as [P2' Q2]. pose proof (pair_near e _ _ _ _ HE K3 K4) as [P3 Q3]. pose proof (pair_near e _ _ _ _ HE K5 K6) as [P5 Q5]. pose proof (pair_near e _ _ _ _ HE K7 K8) as [P7 Q7].
  destruct seq; [congruence | | |]; (eexists; eexists; split; [reflexivity |]; split; [reflexivity |]; split; [repeat split; first [apply P1 | apply Q1 | apply P2' | apply P3 | apply Q3 | apply P5 | apply Q5 | apply P7 | apply Q7] |]);
    (apply Rle_trans with (2 * (6.01 * e + 6.3 * e53)); [apply gap_coords; [lra | ..]; unfold val4; cbn [qx qy qz qs q64x q64y q64z q64s]; first [exact (proj2 P1) | exact (proj2 Q1) | exact (proj2 P2') | exact (proj2 P3) | exact (proj2 Q3) | exact (proj2 P5) | exact (proj2 Q5) | exact (proj2 P7) | exact (proj2 Q7)] | lra]).
Qed.
Lemma of_euler_near fcos fsin eps x y z seq a b c e : seq <> SeqUndefined -> trig_at fcos fsin (b64_div x two_64) (a / 2) e -> trig_at fcos fsin (b64_div y two_64) (b / 2) e -> trig_at fcos fsin (b64_div z two_64) (c / 2) e -> e <= / 10000 -> finite64 eps -> rval eps <= / 2 ->
  exists q p, q64_of_euler fcos fsin eps (mkE64 (Some x) (Some y) (Some z) seq) = Ok q /\ finite4 q /\ len4 p = 1 /\ (forall v, rot p v = named_sequence seq a b c v) /\ gap4 (val4 q) p <= 24.04 * e + 29.3 * e53 /\ Rabs (len4 (val4 q) - 1) <= 4.07 * e53 /\
    forall t, finite64 t -> P2 (-50) <= rval t -> q64_isUnitary (Some q) (Some t) = Ok true.
Proof.
  intros NS [C1 S1] [C2 S2] [C3 S3] He Fe Hp. destruct (halves_near seq _ _ _ _ _ _ a b c e NS C1 C2 C3 S1 S2 S3 He) as (q0 & p & E0 & Ep & F0 & G0). destruct (q_of_angles_spec _ _ _ _ _ Ep) as [UP RP]. pose proof (returns_pos _ _ _ C1) as EP. pose proof e53_pos as PE. assert (PS : e53 <= / 100000000000) by (unfold e53; lra).
  assert (K : times4 1 p = p) by (unfold times4; destruct p as [p1 p2 p3 p4]; cbn [qx qy qz qs]; f_equal; ring). assert (P4 : P2 (-440) <= 1) by (rewrite <- P2_0; apply P2_mono; lia).
  destruct (normal_target eps q0 p 1 (12.02 * e + 12.6 * e53)) as (q & Eq & Fq & Gq & Lq & Uq); try assumption; try lra; [apply unit_len, UP | rewrite K; exact G0 |].
  exists q, p. split; [unfold q64_of_euler, e64_get; cbn [e64_phi e64_theta e64_psi e64_seq]; destruct seq; [congruence | | |]; cbn [bind fst snd]; rewrite E0; exact Eq |]. split; [exact Fq |]. split; [apply unit_len, UP |]. split; [exact RP |]. split; [unfold Rdiv in Gq; rewrite Rinv_1 in Gq; lra |]. split; assumption.
Qed.
Lemma c144_quaternion fcos fsin eps x y z seq a b c e : seq <> SeqUndefined -> trig_at fcos fsin (b64_div x two_64) (a / 2) e -> trig_at fcos fsin (b64_div y two_64) (b / 2) e -> trig_at fcos fsin (b64_div z two_64) (c / 2) e -> e <= / 10000 -> finite64 eps -> rval eps <= / 2 ->
  exists q p, q64_of_euler fcos fsin eps (mkE64 (Some x) (Some y) (Some z) seq) = Ok q /\ finite4 q /\ len4 p = 1 /\ (forall v, turned4 p v = named_sequence seq a b c v) /\ gap4 (val4 q) p <= 25 * e + P2 (-48) /\
    forall tol, finite64 tol -> P2 (-50) <= rval tol -> q64_isUnitary (Some q) (Some tol) = Ok true.
Proof.
  intros NS T1 T2 T3 He Fe Hp. destruct (of_euler_near fcos fsin eps x y z seq a b c e NS T1 T2 T3 He Fe Hp) as (q & p & Eq & Fq & Lp & Rp & Gq & _ & Uq). exists q, p. split; [exact Eq |]. split; [exact Fq |]. split; [exact Lp |]. split; [intros v; rewrite turned_rot; apply Rp |]. split; [| exact Uq].
  rewrite <- e48. pose proof (returns_pos _ _ _ (proj1 T1)). pose proof e53_pos. lra.
Qed.
Lemma c144_turn fcos fsin r eps x y z seq a b c e tol v : seq <> SeqUndefined -> trig_at fcos fsin (b64_div x two_64) (a / 2) e -> trig_at fcos fsin (b64_div y two_64) (b / 2) e -> trig_at fcos fsin (b64_div z two_64) (c / 2) e -> e <= / 10000 -> finite64 eps -> rval eps <= / 2 ->
  finite64 tol -> P2 (-50) <= rval tol -> finite3 v -> norm3 (val3 v) <= P2 440 ->
  exists q w, q64_of_euler fcos fsin eps (mkE64 (Some x) (Some y) (Some z) seq) = Ok q /\ q64_rotateVector r (Some q) (Some v) (Some tol) = Ok w /\ finite3 w /\ dist3 (val3 w) (named_sequence seq a b c (val3 v)) <= (51 * e + P2 (-46)) * norm3 (val3 v) + P2 (-1069).
Proof.
  intros NS T1 T2 T3 He Fe Hp Ft Ht Fv Bv. destruct (of_euler_near fcos fsin eps x y z seq a b c e NS T1 T2 T3 He Fe Hp) as (q & p & Eq & Fq & Lp & Rp & Gq & Lq & Uq). pose proof (returns_pos _ _ _ (proj1 T1)). pose proof e53_pos. assert (e53 <= / 100000000000) by (unfold e53; lra).
  destruct (turns_like r q p (24.04 * e + 29.3 * e53) tol v Fq Lq Lp Gq ltac:(lra) Ft Ht Fv Bv) as (w & Ew & Fw & Dw). exists q, w. split; [exact Eq |]. split; [exact Ew |]. split; [exact Fw |]. rewrite Rp in Dw. eapply Rle_trans; [exact Dw |]. rewrite <- e46. apply Rplus_le_compat; [apply Rmult_le_compat_r; [apply norm3_nonneg | lra] | exact tiny40].
Qed.
(** *** Matrices *)
Lemma iso_mulv M v : orthonormal_up_to 0 M -> norm3 (mulv3 M v) = norm3 v.
Proof.
  intros O. assert (K : forall i j, (i < 3)%nat -> (j < 3)%nat -> dot3 (col3 M i) (col3 M j) = if Nat.eqb i j then 1 else 0) by (intros i j Hi Hj; specialize (O i j Hi Hj); apply abs_le in O; lra). unfold norm3. f_equal.
  pose proof (K 0%nat 0%nat ltac:(lia) ltac:(lia)) as K00. pose proof (K 1%nat 1%nat ltac:(lia) ltac:(lia)) as K11. pose proof (K 2%nat 2%nat ltac:(lia) ltac:(lia)) as K22. pose proof (K 0%nat 1%nat ltac:(lia) ltac:(lia)) as K01. pose proof (K 1%nat 2%nat ltac:(lia) ltac:(lia)) as K12. pose proof (K 0%nat 2%nat ltac:(lia) ltac:(lia)) as K02. cbn [Nat.eqb] in *.
  destruct M as [a0 a1 a2 a3 a4 a5 a6 a7 a8], v as [x y z]. unfold sqnorm3, mulv3, row3, col3, dot3 in *; cbn [vx vy vz m00 m01 m02 m10 m11 m12 m20 m21 m22] in *.
  replace ((a0 * x + a1 * y + a2 * z) * (a0 * x + a1 * y + a2 * z) + (a3 * x + a4 * y + a5 * z) * (a3 * x + a4 * y + a5 * z) + (a6 * x + a7 * y + a8 * z) * (a6 * x + a7 * y + a8 * z)) with (x * x * (a0 * a0 + a3 * a3 + a6 * a6) + y * y * (a1 * a1 + a4 * a4 + a7 * a7) + z * z * (a2 * a2 + a5 * a5 + a8 * a8) + 2 * x * y * (a0 * a1 + a3 * a4 + a6 * a7) + 2 * y * z * (a1 * a2 + a4 * a5 + a7 * a8) + 2 * x * z * (a0 * a2 + a3 * a5 + a6 * a8)) by ring. rewrite K00, K11, K22, K01, K12, K02. ring.
Qed.
Lemma mulv_sub M u v : sub3 (mulv3 M u) (mulv3 M v) = mulv3 M (sub3 u v).
Proof. destruct M as [a0 a1 a2 a3 a4 a5 a6 a7 a8], u as [x y z], v as [x' y' z']. unfold sub3, mulv3, row3, dot3; cbn [vx vy vz m00 m01 m02 m10 m11 m12 m20 m21 m22]. f_equal; ring. Qed.
Lemma col_entries e m n : (forall j, (j < 3)%nat -> dist3 (col3 m j) (col3 n j) <= e) -> entries_within e m n.
Proof.
  intros H. pose proof (H 0%nat ltac:(lia)) as H0. pose proof (H 1%nat ltac:(lia)) as H1. pose proof (H 2%nat ltac:(lia)) as H2. unfold dist3 in *.
  destruct (coordinate_le (sub3 (col3 m 0) (col3 n 0))) as (A0 & A1 & A2). destruct (coordinate_le (sub3 (col3 m 1) (col3 n 1))) as (B0 & B1 & B2). destruct (coordinate_le (sub3 (col3 m 2) (col3 n 2))) as (C0 & C1 & C2).
  destruct m as [a0 a1 a2 a3 a4 a5 a6 a7 a8], n as [b0 b1 b2 b3 b4 b5 b6 b7 b8]. unfold sub3, col3 in A0, A1, A2, B0, B1, B2, C0, C1, C2, H0, H1, H2; cbn [vx vy vz m00 m01 m02 m10 m11 m12 m20 m21 m22] in *.
  intros i Hi. destruct i as [| [| [| i]]]; try lia; unfold row3; cbn [vx vy vz m00 m01 m02 m10 m11 m12 m20 m21 m22]; repeat split; lra.
Qed.
(** Products of matrices whose columns are close to those of orthonormal ones. *)
Lemma cols_mulv e m n v : 0 <= e -> (forall j, (j < 3)%nat -> dist3 (col3 m j) (col3 n j) <= e) -> dist3 (mulv3 m v) (mulv3 n v) <= 1.7321 * e * norm3 v.
Proof.
  intros P H. pose proof (H 0%nat ltac:(lia)) as H0. pose proof (H 1%nat ltac:(lia)) as H1. pose proof (H 2%nat ltac:(lia)) as H2. unfold dist3 in *.
  assert (E : sub3 (mulv3 m v) (mulv3 n v) = add3 (add3 (scale3 (vx v) (sub3 (col3 m 0) (col3 n 0))) (scale3 (vy v) (sub3 (col3 m 1) (col3 n 1)))) (scale3 (vz v) (sub3 (col3 m 2) (col3 n 2)))).
  { destruct m as [a0 a1 a2 a3 a4 a5 a6 a7 a8], n as [b0 b1 b2 b3 b4 b5 b6 b7 b8], v as [x y z]. unfold sub3, add3, scale3, mulv3, row3, col3, dot3; cbn [vx vy vz m00 m01 m02 m10 m11 m12 m20 m21 m22]. f_equal; ring. }
  rewrite E. eapply Rle_trans; [apply norm3_triangle |]. eapply Rle_trans; [apply Rplus_le_compat_r, norm3_triangle |]. rewrite !norm3_scale.
  assert (K : Rabs (vx v) + Rabs (vy v) + Rabs (vz v) <= 1.7321 * norm3 v).
  { apply Rle_trans with (Rabs (Rabs (vx v) + Rabs (vy v) + Rabs (vz v))); [apply Rle_abs |]. rewrite <- (Rabs_pos_eq (1.7321 * norm3 v)) by (pose proof (norm3_nonneg v); lra). apply Rsqr_le_abs_0. unfold Rsqr. replace (1.7321 * norm3 v * (1.7321 * norm3 v)) with (1.7321 * 1.7321 * (norm3 v * norm3 v)) by ring. rewrite norm3_sq. unfold sqnorm3, dot3.
    pose proof (Rsqr_abs (vx v)) as X. pose proof (Rsqr_abs (vy v)) as Y. pose proof (Rsqr_abs (vz v)) as Z. unfold Rsqr in X, Y, Z. set (x := Rabs (vx v)) in *. set (y := Rabs (vy v)) in *. set (z := Rabs (vz v)) in *. rewrite X, Y, Z. pose proof (VecProofs.sq_nonneg (x - y)). pose proof (VecProofs.sq_nonneg (y - z)). pose proof (VecProofs.sq_nonneg (x - z)). pose proof (VecProofs.sq_nonneg x). pose proof (VecProofs.sq_nonneg y). pose proof (VecProofs.sq_nonneg z). lra. }
  pose proof (Rabs_pos (vx v)). pose proof (Rabs_pos (vy v)). pose proof (Rabs_pos (vz v)).
  apply Rle_trans with (Rabs (vx v) * e + Rabs (vy v) * e + Rabs (vz v) * e); [repeat apply Rplus_le_compat; apply Rmult_le_compat_l; assumption |]. replace (Rabs (vx v) * e + Rabs (vy v) * e + Rabs (vz v) * e) with ((Rabs (vx v) + Rabs (vy v) + Rabs (vz v)) * e) by ring.
  replace (1.7321 * e * norm3 v) with (1.7321 * norm3 v * e) by ring. apply Rmult_le_compat_r; assumption.
Qed.
