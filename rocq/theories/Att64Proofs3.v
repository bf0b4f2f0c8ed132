(** Matrices of rotation vectors (C142). *)

From Coq Require Import List Bool ZArith Reals Lra Lia Psatz Floats.SpecFloat.
From Verif Require Import Result Vec Mat3 VecProofs AngleModel FloatModel FloatSpec FloatProofs FloatProofs2 FloatProofs3 FloatProofs4 FloatProofs5 FloatProofs7 FloatProofs8 FloatProofs10
  Geo3Spec Geo3Proofs Geo3Proofs2 Geo64Model Geo64Spec Geo64Proofs Geo64Proofs2 Geo64Proofs3 Geo64Proofs4 Geo64Proofs5 Geo64Proofs6 Geo64Proofs7 Geo64Proofs8 RotModel RotSpec RotProofs RotProofs2 RotProofs3 Rot64Model Rot64Spec Rot64Spec2 Rot64Proofs Rot64Proofs2 Rot64Proofs3 Rot64Proofs4 Rot64Proofs5 Rot64Proofs6 Rot64Proofs7 Rot64Proofs8 Rot64Proofs9 Rot64Proofs10 Rot64Proofs11 Rot64Proofs12 Rot64Proofs13 Rot64Proofs14 Rot64Proofs15 Rot64Proofs16 Rot64Proofs17 Att64Model Att64Spec Att64Proofs Att64Proofs2.
Import ListNotations.
Local Open Scope R_scope.

(** *** Matrices close to an orthonormal one *)
Lemma near_ortho m M E : finite33 m -> orthonormal_up_to 0 M -> 0 <= E <= / 2000 -> entries_within E (val33 m) M ->
  orthonormal_up_to (3.51 * E) (val33 m) /\ (forall j, (j < 3)%nat -> norm3 (col3 (val33 m) j) <= 1 + 1.7321 * E) /\ (forall j, (j < 3)%nat -> dist3 (col3 (val33 m) j) (col3 M j) <= 1.7321 * E) /\ within33 (P2 450) m.
Proof.
  intros F O HE EW. pose proof (fun j J => entries_cols E _ _ j (proj1 HE) EW J) as C.
  assert (U : forall j, (j < 3)%nat -> norm3 (col3 M j) = 1). { intros j J. pose proof (O j j J J) as K. rewrite Nat.eqb_refl in K. unfold norm3, sqnorm3. replace (dot3 (col3 M j) (col3 M j)) with 1 by (apply abs_le in K; lra). apply sqrt_1. }
  assert (L : forall j, (j < 3)%nat -> norm3 (col3 (val33 m) j) <= 1 + 1.7321 * E) by (intros j J; pose proof (dist_norm (col3 (val33 m) j) (col3 M j)) as D; rewrite (U j J) in D; apply abs_le in D; specialize (C j J); lra).
  split; [| split; [exact L |]].
  - intros i j Hi Hj. pose proof (O i j Hi Hj) as K. pose proof (dot_perturbed (col3 M i) (col3 M j) _ _ (1.7321 * E) ltac:(rewrite (U i Hi); lra) ltac:(rewrite (U j Hj); lra) (C i Hi) (C j Hj) ltac:(lra)) as D.
    apply abs_le in K. apply abs_le in D. apply abs_of. lra.
  - split; [exact C |]. pose proof P2_450_2. destruct F as (F0 & F1 & F2). destruct (col_val m) as (C0 & C1 & C2). pose proof (L 0%nat ltac:(lia)) as N0. pose proof (L 1%nat ltac:(lia)) as N1. pose proof (L 2%nat ltac:(lia)) as N2. rewrite ?C0, ?C1, ?C2 in *. repeat split; apply within_norm; lra.
Qed.
Lemma near_accepted r eps m M E : finite33 m -> orthonormal_up_to 0 M -> 0 <= E <= / 2000 -> entries_within E (val33 m) M -> finite64 eps -> 3.51 * E + 5 * e53 <= rval eps <= / 4 -> RotationMatrix64 r eps m = Ok m.
Proof.
  intros F O HE EW Fe He. destruct (near_ortho m M E F O HE EW) as (ON & L & _ & W). pose proof e53_pos. unfold RotationMatrix64. rewrite (proj1 (ok_near r eps m F W Fe ltac:(lra))); [reflexivity |]. split.
  - intros j J. specialize (L j J). lra.
  - intros i j Hi Hj N. pose proof (ON i j Hi Hj) as K. replace (Nat.eqb i j) with false in K by (symmetry; apply Nat.eqb_neq; exact N). rewrite Rminus_0_r in K. lra.
Qed.
Lemma near_turn r m M E v : finite33 m -> orthonormal_up_to 0 M -> 0 <= E <= / 2000 -> entries_within E (val33 m) M -> finite3 v -> norm3 (val3 v) <= P2 440 ->
  exists w, rm64_mulv r (Some m) (Some v) = Ok w /\ finite3 w /\ dist3 (val3 w) (mulv3 M (val3 v)) <= (3.0002 * E + 5.26 * e53) * norm3 (val3 v) + 8 * tiny.
Proof.
  intros F O HE EW Fv Bv. destruct (near_ortho m M E F O HE EW) as (_ & L & _ & _). destruct (fmulv3_err r m v 1.001 F Fv (within_440 v Bv) ltac:(lra)) as [Fw D]; [intros j J; specialize (L j J); lra |].
  exists (fmulv3 r m v). split; [reflexivity |]. split; [exact Fw |]. eapply Rle_trans; [apply (dist3_triangle _ (mulv3 (val33 m) (val3 v))) |]. pose proof (entries_mulv E _ _ (val3 v) (proj1 HE) EW). pose proof (norm3_nonneg (val3 v)). pose proof e53_pos. assert (0 <= e53 * norm3 (val3 v)) by (apply Rmult_le_pos; lra). lra.
Qed.
Lemma map_matrix M f : (forall v, mulv3 M v = f v) -> matrix_of f = M.
Proof.
  intros H. unfold matrix_of. rewrite <- !H. destruct M as [a0 a1 a2 a3 a4 a5 a6 a7 a8]. unfold of_cols, mulv3, row3, dot3; cbn [vx vy vz m00 m01 m02 m10 m11 m12 m20 m21 m22]. f_equal; ring.
Qed.
Lemma axis_angle_ortho a t : sqnorm3 a = 1 -> orthonormal_up_to 0 (axis_angle_matrix a t).
Proof.
  intros H i j Hi Hj. rewrite <- (q_matrix_half a t H), q_matrix_cols by assumption. pose proof (half_q_unit a t H) as U. unfold unit_q in U. destruct (Nat.eqb i j); [fold (sq (half_q a t)) in U; rewrite U; replace (1 * 1 - 1) with 0 by ring | rewrite Rminus_0_r]; rewrite Rabs_R0; lra.
Qed.
Lemma axis_angle_map a t : matrix_of (frame_rotation a t) = axis_angle_matrix a t.
Proof. apply map_matrix. intros v. apply axis_angle_frame. Qed.

(** *** C142 *)
Lemma axis_coords a : finite3 a -> Rabs (norm3 (val3 a) - 1) <= P2 (-50) -> let u := direction (val3 a) in
  near64 (fx a) (vx u) (8 * e53) /\ near64 (fy a) (vy u) (8 * e53) /\ near64 (fz a) (vz u) (8 * e53) /\ Rabs (vx u) <= 1 /\ Rabs (vy u) <= 1 /\ Rabs (vz u) <= 1 /\ sqnorm3 u = 1.
Proof.
  intros (F1 & F2 & F3) N. rewrite <- e50 in N. pose proof e53_pos as PE. assert (e53 <= / 1000000000) by (unfold e53; lra). intros u. pose proof N as N'. apply abs_le in N'. assert (UN : norm3 u = 1) by (apply direction_norm; lra).
  destruct (coordinate_le u) as (C1 & C2 & C3). rewrite UN in C1, C2, C3. assert (VA : val3 a = scale3 (norm3 (val3 a)) u) by (unfold u, direction; rewrite scale3_scale, Rinv_r by lra; destruct (val3 a) as [x0 y0 z0]; unfold scale3; cbn [vx vy vz]; f_equal; ring).
  set (n := norm3 (val3 a)) in *. clearbody u. injection VA as V1 V2 V3.
  assert (K : forall x w, finite64 x -> rval x = n * w -> Rabs w <= 1 -> near64 x w (8 * e53)). { intros x w Fx V W. split; [exact Fx |]. rewrite V. replace (n * w - w) with ((n - 1) * w) by ring. rewrite Rabs_mult. pose proof (Rabs_pos w). apply Rle_trans with (8 * e53 * 1); [apply Rmult_le_compat; try apply Rabs_pos; assumption | lra]. }
  repeat split; try assumption; try (apply K; assumption). apply norm_sqnorm, UN.
Qed.
Lemma terms_near c s t e : returns c (cos t) e -> returns s (sin t) e -> e <= / 100 ->
  (forall x y u v, near64 x u (8 * e53) -> near64 y v (8 * e53) -> Rabs u <= 1 -> Rabs v <= 1 -> near64 (b64_mul (b64_mul (sf_sub one_64 c) x) y) ((1 - cos t) * u * v) (1.001 * e + 38.5 * e53) /\ Rabs ((1 - cos t) * u * v) <= 2) /\
  (forall z w, near64 z w (8 * e53) -> Rabs w <= 1 -> near64 (b64_mul s z) (sin t * w) (1.0001 * e + 9.1 * e53) /\ Rabs (sin t * w) <= 1).
Proof.
  intros Hc Hs He. assert (E0 : 0 <= e) by (eapply Rle_trans; [apply Rabs_pos | exact (proj2 Hc)]). pose proof e53_pos as PE. assert (PS : e53 <= / 100000000000) by (unfold e53; lra). pose proof tiny_e4 as TE. pose proof tiny_pos as TP. pose proof P2_ge1023 as HB.
  assert (EE : 0 <= e * e53 <= / 100 * e53) by (split; [apply Rmult_le_pos; lra | apply Rmult_le_compat_r; lra]). assert (E2 : 0 <= e53 * e53 <= / 100000000000 * e53) by (split; [apply Rmult_le_pos; lra | apply Rmult_le_compat_r; lra]). assert (E3 : e * e53 <= / 100000000000 * e) by (rewrite Rmult_comm; apply Rmult_le_compat_r; lra).
  assert (T1 : 0 <= e * e53 * e53 <= / 1000000000 * e53) by (split; [apply Rmult_le_pos; lra | apply Rmult_le_compat_r; lra]). assert (T2 : 0 <= e53 * e53 * e53 <= / 100000000000 * e53) by (split; [apply Rmult_le_pos; lra | apply Rmult_le_compat_r; lra]).
  assert (O : near64 one_64 1 0) by (destruct one_val as [A B]; split; [exact A | rewrite B, Rminus_diag_eq, Rabs_R0 by reflexivity; lra]).
  pose proof (cos_abs t) as CB. pose proof (sin_abs t) as SB. pose proof (COS_bound t) as CC. split.
  - intros x y u v X Y U V. assert (A : near64 (sf_sub one_64 c) (1 - cos t) (1.0001 * e + 2 * e53)). { eapply near_le; [apply (near_sub _ _ _ _ 0 e 1 1 O Hc); [rewrite Rabs_R1; lra | exact CB | lra] |]. lra. }
    assert (A2 : Rabs (1 - cos t) <= 2) by (apply abs_of; lra).
    assert (B : near64 (b64_mul (sf_sub one_64 c) x) ((1 - cos t) * u) (1.00015 * e + 20.2 * e53)). { eapply near_le; [apply (near_mul _ _ _ _ (1.0001 * e + 2 * e53) (8 * e53) 2 1 A X A2 U) |]; lra. }
    assert (B2 : Rabs ((1 - cos t) * u) <= 2) by (rewrite Rabs_mult; pose proof (Rabs_pos u); pose proof (Rabs_pos (1 - cos t)); apply Rle_trans with (2 * 1); [apply Rmult_le_compat; assumption | lra]).
    split; [| rewrite Rabs_mult; pose proof (Rabs_pos v); pose proof (Rabs_pos ((1 - cos t) * u)); apply Rle_trans with (2 * 1); [apply Rmult_le_compat; assumption | lra]].
    eapply near_le; [apply (near_mul _ _ _ _ (1.00015 * e + 20.2 * e53) (8 * e53) 2 1 B Y B2 V) |]; lra.
  - intros z w Z W. split; [| rewrite Rabs_mult; pose proof (Rabs_pos w); pose proof (Rabs_pos (sin t)); apply Rle_trans with (1 * 1); [apply Rmult_le_compat; assumption | lra]]. eapply near_le; [apply (near_mul _ _ _ _ e (8 * e53) 1 1 Hs Z SB W) |]; lra.
Qed.
Lemma axis_angle_near a c s t e : finite3 a -> Rabs (norm3 (val3 a) - 1) <= P2 (-50) -> returns c (cos t) e -> returns s (sin t) e -> e <= / 10000 ->
  finite33 (m64_axis_angle a c s) /\ entries_within (2.01 * e + 51 * e53) (val33 (m64_axis_angle a c s)) (axis_angle_matrix (direction (val3 a)) t).
Proof.
  intros F N Hc Hs He. destruct (axis_coords a F N) as (X & Y & Z & UX & UY & UZ & _). set (u := direction (val3 a)) in *. destruct (terms_near c s t e Hc Hs ltac:(lra)) as [K S].
  assert (E0 : 0 <= e) by (eapply Rle_trans; [apply Rabs_pos | exact (proj2 Hc)]). pose proof e53_pos as PE. assert (PS : e53 <= / 100000000000) by (unfold e53; lra). pose proof P2_ge1023 as HB.
  assert (EE : 0 <= e * e53 <= / 100 * e53) by (split; [apply Rmult_le_pos; lra | apply Rmult_le_compat_r; lra]). assert (E2 : 0 <= e53 * e53 <= / 100000000000 * e53) by (split; [apply Rmult_le_pos; lra | apply Rmult_le_compat_r; lra]).
  assert (D : forall x w, near64 x w (8 * e53) -> Rabs w <= 1 -> near64 (sf_add c (b64_mul (b64_mul (sf_sub one_64 c) x) x)) (cos t + (1 - cos t) * w * w) (2.01 * e + 51 * e53)).
  { intros x w Hx Hw. destruct (K x x w w Hx Hx Hw Hw) as [K1 K2]. eapply near_le; [apply (near_add _ _ _ _ _ _ 1 2 Hc K1 (cos_abs t) K2); lra |]. lra. }
  assert (P : forall x y z w w' w'', near64 x w (8 * e53) -> near64 y w' (8 * e53) -> near64 z w'' (8 * e53) -> Rabs w <= 1 -> Rabs w' <= 1 -> Rabs w'' <= 1 ->
    near64 (sf_add (b64_mul (b64_mul (sf_sub one_64 c) x) y) (b64_mul s z)) ((1 - cos t) * w * w' + sin t * w'') (2.01 * e + 51 * e53) /\ near64 (sf_sub (b64_mul (b64_mul (sf_sub one_64 c) x) y) (b64_mul s z)) ((1 - cos t) * w * w' - sin t * w'') (2.01 * e + 51 * e53)).
  { intros x y z w w' w'' Hx Hy Hz Hw Hw' Hw''. destruct (K x y w w' Hx Hy Hw Hw') as [K1 K2]. destruct (S z w'' Hz Hw'') as [S1 S2]. split; (eapply near_le; [(apply (near_add _ _ _ _ _ _ 2 1 K1 S1 K2 S2) || apply (near_sub _ _ _ _ _ _ 2 1 K1 S1 K2 S2)); lra |]; lra). }
  pose proof (D _ _ X UX) as D0. pose proof (D _ _ Y UY) as D1. pose proof (D _ _ Z UZ) as D2.
  pose proof (proj2 (P _ _ _ _ _ _ Y X Z UY UX UZ)) as P10. pose proof (proj1 (P _ _ _ _ _ _ Z X Y UZ UX UY)) as P20. pose proof (proj1 (P _ _ _ _ _ _ X Y Z UX UY UZ)) as P01.
  pose proof (proj2 (P _ _ _ _ _ _ Z Y X UZ UY UX)) as P21. pose proof (proj2 (P _ _ _ _ _ _ X Z Y UX UZ UY)) as P02. pose proof (proj1 (P _ _ _ _ _ _ Y Z X UY UZ UX)) as P12.
  split; [repeat split; [exact (proj1 D0) | exact (proj1 P10) | exact (proj1 P20) | exact (proj1 P01) | exact (proj1 D1) | exact (proj1 P21) | exact (proj1 P02) | exact (proj1 P12) | exact (proj1 D2)] |].
  intros i Hi. destruct i as [| [| [| i]]]; try lia; (split; [| split]);
    [exact (proj2 D0) | exact (proj2 P01) | exact (proj2 P02) | exact (proj2 P10) | exact (proj2 D1) | exact (proj2 P12) | exact (proj2 P20) | exact (proj2 P21) | exact (proj2 D2)].
Qed.
Lemma e47 : 64 * e53 = P2 (-47).
Proof. rewrite <- e53_P2, (P2_times 6 (-53) 64) by (lia || (rewrite <- P2_Z by lia; reflexivity)). reflexivity. Qed.
Lemma e46 : 128 * e53 = P2 (-46).
Proof. rewrite <- e53_P2, (P2_times 7 (-53) 128) by (lia || (rewrite <- P2_Z by lia; reflexivity)). reflexivity. Qed.
Lemma e45 : 256 * e53 = P2 (-45).
Proof. rewrite <- e53_P2, (P2_times 8 (-53) 256) by (lia || (rewrite <- P2_Z by lia; reflexivity)). reflexivity. Qed.
Lemma entries_le E E' m n : entries_within E m n -> E <= E' -> entries_within E' m n.
Proof. intros H L i Hi. destruct (H i Hi) as (A & B & C). repeat split; lra. Qed.
Lemma ortho_le E E' m : orthonormal_up_to E m -> E <= E' -> orthonormal_up_to E' m.
Proof. intros H L i j Hi Hj. specialize (H i j Hi Hj). lra. Qed.
Lemma returns_pos x t e : returns x t e -> 0 <= e.
Proof. intros [_ H]. eapply Rle_trans; [apply Rabs_pos | exact H]. Qed.
Lemma c142_accepted fcos fsin r eps a t th e : finite3 a -> Rabs (norm3 (val3 a) - 1) <= P2 (-50) -> returns (fcos t) (cos th) e -> returns (fsin t) (sin th) e -> e <= / 10000 -> finite64 eps -> 8 * e + P2 (-45) <= rval eps <= / 4 ->
  exists m, rm64_of_rotvec fcos fsin r eps (mkRV64 (Some a) (Some t)) = Ok m /\ finite33 m /\ entries_within (3 * e + P2 (-47)) (val33 m) (matrix_of (frame_rotation (direction (val3 a)) th)) /\ orthonormal_up_to (8 * e + P2 (-45)) (val33 m).
Proof.
  intros F N Hc Hs He Fe Hp. destruct (axis_angle_near a _ _ th e F N Hc Hs He) as [Fm Em]. destruct (axis_coords a F N) as (_ & _ & _ & _ & _ & _ & UN). pose proof (axis_angle_ortho _ th UN) as O. pose proof (returns_pos _ _ _ Hc) as E0.
  rewrite <- e45 in *. rewrite <- e47. rewrite axis_angle_map. pose proof e53_pos as PE. assert (PS : e53 <= / 100000000000) by (unfold e53; lra). assert (HE : 0 <= 2.01 * e + 51 * e53 <= / 2000) by lra.
  exists (m64_axis_angle a (fcos t) (fsin t)). split; [unfold rm64_of_rotvec; cbn [rv64_get rv64_axis rv64_angle bind fst snd]; apply (near_accepted r eps _ _ _ Fm O HE Em Fe); lra |]. split; [exact Fm |]. split; [apply (entries_le _ _ _ _ Em); lra |].
  destruct (near_ortho _ _ _ Fm O HE Em) as [ON _]. apply (ortho_le _ _ _ ON). lra.
Qed.
Lemma of_rotvec_inv fcos fsin r eps a t m : rm64_of_rotvec fcos fsin r eps (mkRV64 (Some a) (Some t)) = Ok m -> m = m64_axis_angle a (fcos t) (fsin t).
Proof. unfold rm64_of_rotvec, RotationMatrix64. cbn [rv64_get rv64_axis rv64_angle bind fst snd]. destruct (rm64_ok _ _ _); [| discriminate]. intros E. injection E as E. congruence. Qed.
Lemma c142_entries fcos fsin r eps a t th e m : finite3 a -> Rabs (norm3 (val3 a) - 1) <= P2 (-50) -> returns (fcos t) (cos th) e -> returns (fsin t) (sin th) e -> e <= / 10000 -> rm64_of_rotvec fcos fsin r eps (mkRV64 (Some a) (Some t)) = Ok m ->
  finite33 m /\ entries_within (3 * e + P2 (-47)) (val33 m) (matrix_of (frame_rotation (direction (val3 a)) th)).
Proof.
  intros F N Hc Hs He Em. apply of_rotvec_inv in Em. subst m. destruct (axis_angle_near a _ _ th e F N Hc Hs He) as [Fm Em]. pose proof (returns_pos _ _ _ Hc) as E0. rewrite <- e47, axis_angle_map. pose proof e53_pos. split; [exact Fm | apply (entries_le _ _ _ _ Em); lra].
Qed.
Lemma tiny8 : 8 * tiny <= P2 (-1071).
Proof. rewrite <- tiny16. pose proof tiny_pos. lra. Qed.
Lemma rotvec_turn fcos fsin r eps a t th e m v : finite3 a -> Rabs (norm3 (val3 a) - 1) <= P2 (-50) -> returns (fcos t) (cos th) e -> returns (fsin t) (sin th) e -> e <= / 10000 -> rm64_of_rotvec fcos fsin r eps (mkRV64 (Some a) (Some t)) = Ok m -> finite3 v -> norm3 (val3 v) <= P2 440 ->
  exists w, rm64_mulv r (Some m) (Some v) = Ok w /\ finite3 w /\ dist3 (val3 w) (frame_rotation (direction (val3 a)) th (val3 v)) <= (6.1 * e + 160 * e53) * norm3 (val3 v) + 8 * tiny.
Proof.
  intros F N Hc Hs He Em Fv Bv. apply of_rotvec_inv in Em. subst m. destruct (axis_angle_near a _ _ th e F N Hc Hs He) as [Fm Em]. destruct (axis_coords a F N) as (_ & _ & _ & _ & _ & _ & UN). pose proof (axis_angle_ortho _ th UN) as O. pose proof (returns_pos _ _ _ Hc) as E0.
  pose proof e53_pos as PE. assert (PS : e53 <= / 100000000000) by (unfold e53; lra). destruct (near_turn r _ _ (2.01 * e + 51 * e53) v Fm O ltac:(lra) Em Fv Bv) as (w & Ew & Fw & Dw). exists w. split; [exact Ew |]. split; [exact Fw |]. rewrite axis_angle_frame in Dw. eapply Rle_trans; [exact Dw |].
  apply Rplus_le_compat_r, Rmult_le_compat_r; [apply norm3_nonneg | lra].
Qed.
Lemma c142_turn fcos fsin r eps a t th e m v : finite3 a -> Rabs (norm3 (val3 a) - 1) <= P2 (-50) -> returns (fcos t) (cos th) e -> returns (fsin t) (sin th) e -> e <= / 10000 -> rm64_of_rotvec fcos fsin r eps (mkRV64 (Some a) (Some t)) = Ok m -> finite3 v -> norm3 (val3 v) <= P2 440 ->
  exists w, rm64_mulv r (Some m) (Some v) = Ok w /\ finite3 w /\ dist3 (val3 w) (frame_rotation (direction (val3 a)) th (val3 v)) <= (7 * e + P2 (-45)) * norm3 (val3 v) + P2 (-1071).
Proof.
  intros F N Hc Hs He Em Fv Bv. destruct (rotvec_turn _ _ _ _ _ _ _ _ _ _ F N Hc Hs He Em Fv Bv) as (w & Ew & Fw & Dw). exists w. split; [exact Ew |]. split; [exact Fw |]. eapply Rle_trans; [exact Dw |]. rewrite <- e45. pose proof (returns_pos _ _ _ Hc) as E0. pose proof e53_pos.
  apply Rplus_le_compat; [apply Rmult_le_compat_r; [apply norm3_nonneg | lra] | exact tiny8].
Qed.
Lemma c142_agree fcos fsin r eps a t th e m v tol : finite3 a -> Rabs (norm3 (val3 a) - 1) <= P2 (-50) -> returns (fcos t) (cos th) e -> returns (fsin t) (sin th) e -> returns (fcos (b64_div t two_64)) (cos (th / 2)) e -> returns (fsin (b64_div t two_64)) (sin (th / 2)) e -> e <= / 10000 ->
  finite64 eps -> rval eps <= / 2 -> rm64_of_rotvec fcos fsin r eps (mkRV64 (Some a) (Some t)) = Ok m -> finite64 tol -> P2 (-50) <= rval tol -> finite3 v -> norm3 (val3 v) <= P2 440 ->
  exists q w w', q64_of_rotvec fcos fsin eps (mkRV64 (Some a) (Some t)) = Ok q /\ rm64_mulv r (Some m) (Some v) = Ok w /\ q64_rotateVector r (Some q) (Some v) (Some tol) = Ok w' /\ finite3 w /\ finite3 w' /\ dist3 (val3 w) (val3 w') <= (13 * e + P2 (-44)) * norm3 (val3 v) + P2 (-1068).
Proof.
  intros F N Hc Hs Hc2 Hs2 He Fe Hp Em Ft Ht Fv Bv. destruct (rotvec_turn _ _ _ _ _ _ _ _ _ _ F N Hc Hs He Em Fv Bv) as (w & Ew & Fw & Dw).
  destruct (c141_turn fcos fsin r eps a t th e tol v F N Fe Hp Hc2 Hs2 ltac:(lra) Ft Ht Fv Bv) as (q & w' & Eq & Ew' & Fw' & Dw'). exists q, w, w'. split; [exact Eq |]. split; [exact Ew |]. split; [exact Ew' |]. split; [exact Fw |]. split; [exact Fw' |].
  eapply Rle_trans; [apply (dist3_triangle _ (frame_rotation (direction (val3 a)) th (val3 v))) |]. rewrite (dist3_sym (frame_rotation _ _ _) (val3 w')). rewrite <- e46 in Dw'. assert (Q : P2 (-44) = 512 * e53) by (rewrite <- e53_P2, (P2_times 9 (-53) 512) by (lia || (rewrite <- P2_Z by lia; reflexivity)); reflexivity). rewrite Q.
  pose proof tiny64 as T64. assert (T68 : P2 (-1068) = 2 * P2 (-1069)) by (rewrite <- P2_succ; reflexivity). rewrite T68. pose proof tiny_pos. pose proof (norm3_nonneg (val3 v)). pose proof (returns_pos _ _ _ Hc) as E0. pose proof e53_pos. assert (0 <= e53 * norm3 (val3 v)) by (apply Rmult_le_pos; lra). assert (0 <= e * norm3 (val3 v)) by (apply Rmult_le_pos; lra). lra.
Qed.
(** The angle 0. *)
Lemma axis_angle_zero a c s : finite3 a -> returns c 1 0 -> returns s 0 0 -> finite33 (m64_axis_angle a c s) /\ val33 (m64_axis_angle a c s) = id3.
Proof.
  intros (F1 & F2 & F3) [Fc Ec] [Fs Es]. assert (Vc : rval c = 1) by (apply abs_le in Ec; lra). assert (Vs : rval s = 0) by (apply abs_le in Es; lra). destruct one_val as [FO VO].
  destruct (sub_same one_64 c FO Fc ltac:(lra)) as [Fd Vd].
  assert (K : forall x y, finite64 x -> finite64 y -> finite64 (b64_mul (b64_mul (sf_sub one_64 c) x) y) /\ rval (b64_mul (b64_mul (sf_sub one_64 c) x) y) = 0) by (intros x y Fx Fy; destruct (zero_mul _ x Fd Fx Vd) as [G W]; apply (zero_mul _ y G Fy W)).
  assert (D : forall x, finite64 x -> finite64 (sf_add c (b64_mul (b64_mul (sf_sub one_64 c) x) x)) /\ rval (sf_add c (b64_mul (b64_mul (sf_sub one_64 c) x) x)) = 1) by (intros x Fx; destruct (K x x Fx Fx) as [G W]; destruct (add_z_r c _ Fc G W) as [G' W']; split; [exact G' | lra]).
  assert (P : forall x y z, finite64 x -> finite64 y -> finite64 z -> finite64 (sf_add (b64_mul (b64_mul (sf_sub one_64 c) x) y) (b64_mul s z)) /\ rval (sf_add (b64_mul (b64_mul (sf_sub one_64 c) x) y) (b64_mul s z)) = 0) by (intros x y z Fx Fy Fz; destruct (K x y Fx Fy) as [G W]; destruct (zero_mul s z Fs Fz Vs) as [G' W']; destruct (add_z_r _ _ G G' W') as [G'' W'']; split; [exact G'' | lra]).
  assert (Q : forall x y z, finite64 x -> finite64 y -> finite64 z -> finite64 (sf_sub (b64_mul (b64_mul (sf_sub one_64 c) x) y) (b64_mul s z)) /\ rval (sf_sub (b64_mul (b64_mul (sf_sub one_64 c) x) y) (b64_mul s z)) = 0) by (intros x y z Fx Fy Fz; destruct (K x y Fx Fy) as [G W]; destruct (zero_mul s z Fs Fz Vs) as [G' W']; destruct (sub_z_r _ _ G G' W') as [G'' W'']; split; [exact G'' | lra]).
  destruct (D _ F1) as [D1 E1]. destruct (D _ F2) as [D2 E2]. destruct (D _ F3) as [D3 E3]. destruct (Q _ _ _ F2 F1 F3) as [Q1 G1]. destruct (P _ _ _ F3 F1 F2) as [Q2 G2]. destruct (P _ _ _ F1 F2 F3) as [Q3 G3]. destruct (Q _ _ _ F3 F2 F1) as [Q4 G4]. destruct (Q _ _ _ F1 F3 F2) as [Q5 G5]. destruct (P _ _ _ F2 F3 F1) as [Q6 G6].
  split; [repeat split; assumption |]. unfold val33, m64_axis_angle, of_cols, val3, id3. cbn [c64_0 c64_1 c64_2 fx fy fz vx vy vz]. rewrite E1, E2, E3, G1, G2, G3, G4, G5, G6. reflexivity.
Qed.
Lemma id_whole m : finite33 m -> val33 m = id3 -> whole33 1 m /\ orthonormal_up_to 0 (val33 m).
Proof.
  intros F V. pose proof V as V'. injection V as V1 V2 V3 V4 V5 V6 V7 V8 V9. split; [repeat split; ((exists 0%Z; split; [assumption | lia]) || (exists 1%Z; split; [assumption | lia])) |].
  rewrite V'. apply ortho_zero. unfold mul3, transpose3, of_cols, id3, mulv3, row3, col3, dot3; cbn [vx vy vz m00 m01 m02 m10 m11 m12 m20 m21 m22]. f_equal; ring.
Qed.
Lemma id_accepted r eps m : finite33 m -> val33 m = id3 -> finite64 eps -> 0 <= rval eps -> RotationMatrix64 r eps m = Ok m.
Proof. intros F V Fe He. destruct (id_whole m F V) as [W O]. unfold RotationMatrix64. rewrite (right_ok r eps m 1 F W O Fe He). reflexivity. Qed.
Lemma c142_zero fcos fsin r eps a t : finite3 a -> returns (fcos t) 1 0 -> returns (fsin t) 0 0 -> finite64 eps -> 0 <= rval eps -> exists m, rm64_of_rotvec fcos fsin r eps (mkRV64 (Some a) (Some t)) = Ok m /\ finite33 m /\ val33 m = id3.
Proof.
  intros F Hc Hs Fe He. destruct (axis_angle_zero a _ _ F Hc Hs) as [Fm Vm]. eexists. split; [unfold rm64_of_rotvec; cbn [rv64_get rv64_axis rv64_angle bind fst snd]; apply (id_accepted r eps _ Fm Vm Fe He) |]. split; assumption.
Qed.
Lemma c142_errors fcos fsin r eps a t : rm64_of_rotvec fcos fsin r eps (mkRV64 None t) = Err EUndefined /\ rm64_of_rotvec fcos fsin r eps (mkRV64 a None) = Err EUndefined.
Proof. split; [reflexivity |]. destruct a; reflexivity. Qed.
(** A rotation vector whose matrix is refused. *)
Definition witness_axis : f3 := F3 (S754_finite false 7127200409571785 (-59)) (S754_finite false 7719603890500321 (-53)) (S754_finite false 4639499173461229 (-53)).
Definition witness_cos : spec_float := S754_finite true 8768396109522463 (-53).
Definition witness_sin : spec_float := S754_finite true 8241231054756815 (-55).
Definition refused_by : spec_float := S754_finite false 5295247999369216 (-102).
Lemma refused_val : finite64 refused_by /\ rval refused_by = 9.40625 * e53.
Proof.
  split; [vm_compute; repeat split; reflexivity || discriminate |]. unfold refused_by. rewrite rval_sg. cbn [sg]. replace (P2 (-102)) with (P2 (-49) * e53) by (rewrite <- e53_P2, <- P2_add; reflexivity). rewrite P2_m by lia. change (2 ^ (- -49))%Z with 562949953421312%Z. lra.
Qed.
Lemma below_sqrt x y e : 0 <= x -> 0 <= e <= x -> (x - e) * (x - e) <= y <= (x + e) * (x + e) -> Rabs (x - sqrt y) <= e.
Proof.
  intros X E [A B]. apply abs_of. assert (C : x - e <= sqrt y). { rewrite <- (sqrt_square (x - e)) by lra. apply sqrt_le_1_alt. exact A. } assert (D : sqrt y <= x + e). { rewrite <- (sqrt_square (x + e)) by lra. apply sqrt_le_1_alt. exact B. } lra.
Qed.
Lemma witness_values : rval witness_cos = - (8768396109522463 / 9007199254740992) /\ rval witness_sin = - (8241231054756815 / 36028797018963968).
Proof.
  unfold witness_cos, witness_sin. rewrite !rval_sg. cbn [sg]. rewrite (P2_m (-53)), (P2_m (-55)) by lia. change (2 ^ (- -53))%Z with 9007199254740992%Z. change (2 ^ (- -55))%Z with 36028797018963968%Z. lra.
Qed.
Lemma c142_refuted : exists a c s th, finite3 a /\ returns c (cos th) (P2 (-53)) /\ returns s (sin th) (P2 (-53)) /\ forall fcos fsin r eps t, fcos t = c -> fsin t = s -> finite64 eps -> P2 (-50) <= rval eps < 9.4 * P2 (-53) ->
  RotationVector64 r eps (Some a) (Some t) = Ok (mkRV64 (Some a) (Some t)) /\ rm64_of_rotvec fcos fsin r eps (mkRV64 (Some a) (Some t)) = Err ERuntime.
Proof.
  destruct witness_values as [VC VS]. exists witness_axis, witness_cos, witness_sin, (PI - asin (rval witness_sin)). rewrite e53_P2.
  split; [repeat split; vm_compute; reflexivity || discriminate |]. split; [| split].
  - split; [repeat split; vm_compute; reflexivity || discriminate |]. rewrite Rtrigo_facts.cos_pi_minus, cos_asin by (rewrite VS; lra). replace (rval witness_cos - - sqrt (1 - (rval witness_sin)²)) with (- (- rval witness_cos - sqrt (1 - (rval witness_sin)²))) by ring. rewrite Rabs_Ropp. unfold Rsqr. rewrite VC, VS, Ropp_involutive. unfold e53. apply below_sqrt; lra.
  - split; [repeat split; vm_compute; reflexivity || discriminate |]. rewrite Rtrigo_facts.sin_pi_minus, sin_asin by (rewrite VS; lra). rewrite Rminus_diag_eq, Rabs_R0 by reflexivity. pose proof e53_pos; lra.
  - intros fcos fsin r eps t Hc Hs Fe He. rewrite <- e50 in He. pose proof e53_pos as PE. destruct refused_val as [F9 V9]. split.
    + unfold RotationVector64. replace (fnormalized3 r witness_axis) with witness_axis by (destruct r; vm_compute; reflexivity). replace (SFabs (sf_sub (fnorm3 r witness_axis) one_64)) with zero64 by (destruct r; vm_compute; reflexivity). rewrite ltb_f; [reflexivity | exact Fe | exact I |]. change (rval zero64) with 0. lra.
    + unfold rm64_of_rotvec, RotationMatrix64. cbn [rv64_get rv64_axis rv64_angle bind fst snd]. rewrite Hc, Hs. set (m := m64_axis_angle witness_axis witness_cos witness_sin).
      assert (K : exists x, In x (checks64 r m) /\ finite64 x /\ SFltb x refused_by = false).
      { exists (nth 4 (checks64 r m) zero64). split; [apply nth_In; cbn [checks64 length]; lia |]. destruct r; vm_compute; repeat split; reflexivity || discriminate. }
      destruct K as (x & Ix & Fx & Lx). rewrite (checks_some r eps m x Fe Fx Ix); [reflexivity |]. destruct (Rle_lt_dec (rval refused_by) (rval x)) as [L | L]; [lra |]. rewrite (ltb_t _ _ Fx F9 L) in Lx. discriminate.
Qed.
