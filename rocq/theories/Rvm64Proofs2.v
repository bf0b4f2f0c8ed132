(** Rectified rotation vectors, and matrices without rotation vector (C154). *)

From Coq Require Import List Bool ZArith Reals Lra Lia Psatz Floats.SpecFloat.
From Verif Require Import Result Vec Mat3 VecProofs AngleModel FloatModel FloatSpec FloatProofs FloatProofs2 FloatProofs3 FloatProofs4 FloatProofs5 FloatProofs7 FloatProofs8 FloatProofs10
  Geo3Spec Geo3Proofs Geo3Proofs2 Geo64Model Geo64Spec Geo64Proofs Geo64Proofs2 Geo64Proofs3 Geo64Proofs4 Geo64Proofs5 Geo64Proofs6 Geo64Proofs7 Geo64Proofs8 RotModel RotSpec RotProofs RotProofs2 RotProofs3 RotProofs4 RotProofs5 RotProofs7 RotProofs9 Rot64Model Rot64Spec Rot64Spec2 Rot64Proofs Rot64Proofs2 Rot64Proofs3 Rot64Proofs4 Rot64Proofs5 Rot64Proofs6 Rot64Proofs7 Rot64Proofs8 Rot64Proofs9 Rot64Proofs10 Rot64Proofs11 Rot64Proofs12 Rot64Proofs13 Rot64Proofs14 Rot64Proofs15 Rot64Proofs16 Rot64Proofs17 Att64Model Att64Spec Att64Proofs Att64Proofs2 Att64Proofs3 Att64Proofs4 Att64Proofs5 Att64Proofs7 Att64Proofs8 Att64Proofs9 Att64Proofs10 Pow64Model Pow64Spec Pow64Proofs Pow64Proofs2 Pow64Proofs3 Pow64Proofs4 Dif64Model Dif64Spec Dif64Proofs RotProofs6 Dif64Proofs2 Dif64Proofs3 Dif64Proofs4 Att64Proofs6 Dif64Proofs5 Eul64Model Eul64Spec Eul64Proofs Eul64Proofs2 Eul64Proofs3 Eul64Proofs4 Rvm64Model Rvm64Spec Rvm64Proofs.
Import ListNotations.
Local Open Scope R_scope.

(** *** Rectify *)
Lemma self3 a : sub3 a a = V3 0 0 0.
Proof. v3ring. Qed.
Lemma opp_twice a : opp3 (opp3 a) = a.
Proof. v3ring. Qed.
Lemma opp_val3 a : val3 (Geo64Model.fopp3 a) = opp3 (val3 a).
Proof. unfold val3, Geo64Model.fopp3, opp3. cbn [fx fy fz vx vy vz]. rewrite !SFopp_val. reflexivity. Qed.
Lemma opp_opp a : Geo64Model.fopp3 (Geo64Model.fopp3 a) = a.
Proof. assert (O : forall x, SFopp (SFopp x) = x) by (intros []; cbn; rewrite ?Bool.negb_involutive; reflexivity). destruct a as [x y z]. unfold Geo64Model.fopp3. cbn [fx fy fz]. rewrite !O. reflexivity. Qed.
Lemma opp_finite3 a : finite3 a -> finite3 (Geo64Model.fopp3 a).
Proof. intros (A & B & C). repeat split; cbn [fx fy fz Geo64Model.fopp3]; apply SFopp_finite; assumption. Qed.
Lemma c154_kept a t : finite64 t -> 0 <= rval t <= rval pi64 -> rv64_rectify (mkRV64 (Some a) (Some t)) = Ok (mkRV64 (Some a) (Some t)).
Proof.
  intros F B. destruct pi64_val as [FP _]. unfold rv64_rectify, rv64_get. cbn [rv64_axis rv64_angle bind]. rewrite (ltb_f t zero64 F I) by (change (rval zero64) with 0; lra). rewrite (ltb_f pi64 t FP F) by lra. reflexivity.
Qed.
Lemma angle_close a u x y : norm3 a <= 1.001 -> dist3 (frame_rotation a x u) (frame_rotation a y u) <= 3.1 * Rabs (x - y) * norm3 u.
Proof.
  intros N. pose proof (cos_close x y) as C. pose proof (sin_close x y) as S. pose proof (norm3_nonneg a) as NA. pose proof (norm3_nonneg u) as NU. pose proof (Rabs_pos (x - y)) as R0. unfold dist3.
  replace (sub3 (frame_rotation a x u) (frame_rotation a y u)) with (add3 (add3 (scale3 (cos x - cos y) u) (scale3 ((cos y - cos x) * dot3 a u) a)) (scale3 (sin y - sin x) (cross3 a u))) by (unfold frame_rotation; v3ring).
  eapply Rle_trans; [apply norm3_triangle |]. rewrite (norm3_scale (sin y - sin x)). pose proof (norm3_triangle (scale3 (cos x - cos y) u) (scale3 ((cos y - cos x) * dot3 a u) a)) as T. rewrite !norm3_scale, Rabs_mult in T. rewrite (Rabs_minus_sym (cos y)) in T. rewrite (Rabs_minus_sym (sin y)).
  pose proof (cauchy3_norm a u) as K. pose proof (norm_cross a u) as X. set (d := Rabs (x - y)) in *. set (n := norm3 u) in *. assert (AN : norm3 a * n <= 1.001 * n) by (apply Rmult_le_compat_r; lra).
  assert (T1 : Rabs (cos x - cos y) * n <= d * n) by (apply Rmult_le_compat_r; lra). assert (T2 : Rabs (cos x - cos y) * Rabs (dot3 a u) <= d * (1.001 * n)) by (apply Rmult_le_compat; [apply Rabs_pos | apply Rabs_pos | lra | lra]). assert (DN : 0 <= d * n) by (apply Rmult_le_pos; lra).
  assert (T3 : Rabs (cos x - cos y) * Rabs (dot3 a u) * norm3 a <= d * (1.001 * n) * 1.001) by (apply Rmult_le_compat; [apply Rmult_le_pos; apply Rabs_pos | lra | lra | lra]). assert (T4 : Rabs (sin x - sin y) * norm3 (cross3 a u) <= d * (1.001 * n)) by (apply Rmult_le_compat; [apply Rabs_pos | apply norm3_nonneg | lra | lra]).
  lra.
Qed.
Lemma c154_rectify a t : finite3 a -> norm3 (val3 a) <= 1.001 -> finite64 t -> Rabs (rval t) <= rval two_pi64 ->
  exists b u, rv64_rectify (mkRV64 (Some a) (Some t)) = Ok (mkRV64 (Some b) (Some u)) /\ rv64_rectify (mkRV64 (Some b) (Some u)) = Ok (mkRV64 (Some b) (Some u)) /\
    finite3 b /\ (val3 b = val3 a \/ val3 b = opp3 (val3 a)) /\ finite64 u /\ 0 <= rval u <= rval pi64 /\
    forall v, dist3 (frame_rotation (val3 b) (rval u) v) (frame_rotation (val3 a) (rval t) v) <= P2 (-48) * norm3 v.
Proof.
  intros Fa Na Ft Bt. destruct pi64_close as (FP & DP & BP). destruct two_pi64_val as [F2 V2]. pose proof (proj2 pi64_val) as VP. assert (V22 : rval two_pi64 = 2 * rval pi64) by (rewrite V2, VP; field). clear V2 VP. pose proof e53_pos as PE. pose proof P2_big as PB. apply abs_le in DP. apply abs_le in Bt.
  assert (E48 : P2 (-48) = 32 * e53) by (rewrite <- e53_P2; change (-48)%Z with (5 + -53)%Z; rewrite P2_add, <- P2_Z by lia; reflexivity).
  assert (G : exists b u, let b1 := if SFltb t zero64 then Geo64Model.fopp3 a else a in let u1 := if SFltb t zero64 then SFopp t else t in b = b1 /\ u = u1 /\ finite3 b /\ finite64 u /\ 0 <= rval u <= rval two_pi64 /\ (val3 b = val3 a \/ val3 b = opp3 (val3 a)) /\ forall v, frame_rotation (val3 b) (rval u) v = frame_rotation (val3 a) (rval t) v).
  { destruct (Rlt_or_le (rval t) 0) as [L | L].
    - exists (Geo64Model.fopp3 a), (SFopp t). cbv zeta. rewrite (ltb_t t zero64 Ft I) by exact L. split; [reflexivity |]. split; [reflexivity |]. split; [apply opp_finite3, Fa |]. split; [apply SFopp_finite, Ft |]. rewrite SFopp_val, opp_val3. split; [lra |]. split; [right; reflexivity |]. intros v. apply frame_rotation_opp.
    - exists a, t. cbv zeta. rewrite (ltb_f t zero64 Ft I) by exact L. split; [reflexivity |]. split; [reflexivity |]. split; [exact Fa |]. split; [exact Ft |]. split; [lra |]. split; [left; reflexivity |]. reflexivity. }
  destruct G as (b & u & Eb & Eu & Fb & Fu & Bu & Vb & R). cbv zeta in Eb, Eu.
  assert (NB : norm3 (val3 b) = norm3 (val3 a)) by (destruct Vb as [-> | ->]; [reflexivity | apply norm3_opp]).
  unfold rv64_rectify at 1, rv64_get. cbn [rv64_axis rv64_angle bind]. rewrite <- Eb, <- Eu. destruct (Rle_or_lt (rval u) (rval pi64)) as [L | L].
  - exists b, u. rewrite (ltb_f pi64 u FP Fu) by exact L. split; [reflexivity |]. split; [apply c154_kept; [exact Fu | lra] |]. split; [exact Fb |]. split; [exact Vb |]. split; [exact Fu |]. split; [lra |]. intros v. rewrite R. unfold dist3. rewrite self3.
    assert (Z : norm3 (V3 0 0 0) = 0) by (unfold norm3, sqnorm3, dot3; cbn [vx vy vz]; replace (0 * 0 + 0 * 0 + 0 * 0) with 0 by ring; apply sqrt_0). rewrite Z. apply Rmult_le_pos; [left; apply P2_pos | apply norm3_nonneg].
  - rewrite (ltb_t pi64 u FP Fu) by exact L. assert (B2 : Rabs (rval two_pi64 - rval u) <= 4) by (apply abs_of; lra). destruct (sub_any two_pi64 u F2 Fu ltac:(lra)) as [Fw Ew]. pose proof (SFsub_rounded two_pi64 u F2 Fu ltac:(lra)) as [NR _]. set (w := sf_sub two_pi64 u) in *. rewrite (radians_finite w Fw).
    assert (W0 : 0 <= rval w) by (change 0 with (rval zero64); apply (nearest_below _ _ zero64 NR I); change (rval zero64) with 0; lra). assert (W1 : rval w <= rval pi64) by (apply (nearest_above _ _ pi64 NR FP); lra).
    exists (Geo64Model.fopp3 b), w. split; [reflexivity |]. split; [apply c154_kept; [exact Fw | lra] |]. split; [apply opp_finite3, Fb |]. split; [rewrite opp_val3; destruct Vb as [-> | ->]; [right; reflexivity | left; apply opp_twice] |]. split; [exact Fw |]. split; [lra |]. intros v. rewrite <- R, opp_val3.
    replace (frame_rotation (val3 b) (rval u) v) with (frame_rotation (opp3 (val3 b)) (2 * PI - rval u) v) by (rewrite <- (frame_rotation_turn (val3 b)), <- (frame_rotation_opp (val3 b)); f_equal; ring).
    eapply Rle_trans; [apply angle_close; rewrite norm3_opp, NB; exact Na |]. apply Rmult_le_compat_r; [apply norm3_nonneg |]. assert (Rabs (rval w - (2 * PI - rval u)) <= 8 * e53); [| lra]. assert (e53 * Rabs (rval two_pi64 - rval u) <= e53 * 4) by (apply Rmult_le_compat_l; lra). apply abs_le in Ew. apply abs_of. lra.
Qed.
Lemma c154_rectify_refuted : exists a t u, finite3 a /\ norm3 (val3 a) = 1 /\ finite64 t /\ 6 <= rval t <= 7 /\ rv64_rectify (mkRV64 (Some a) (Some t)) = Ok (mkRV64 (Some (Geo64Model.fopp3 a)) (Some u)) /\ finite64 u /\ rval u < 0.
Proof.
  exists (axis64 0 0 1), (b64_of_Z 7), (sf_sub two_pi64 (b64_of_Z 7)). destruct one_val as [FO VO]. change one_64 with (b64_of_Z 1) in FO, VO. destruct (of_Z_val 7 ltac:(lia)) as [F7 V7].
  split; [repeat split; vm_compute; reflexivity || discriminate |]. split; [unfold val3, axis64; cbn [fx fy fz]; change (b64_of_Z 0) with zero64; change (rval zero64) with 0; rewrite VO; unfold norm3, sqnorm3, dot3; cbn [vx vy vz]; replace (0 * 0 + 0 * 0 + 1 * 1) with 1 by ring; apply sqrt_1 |]. split; [exact F7 |]. split; [rewrite V7; lra |]. split; [vm_compute; reflexivity |].
  split; [vm_compute; reflexivity |]. replace (sf_sub two_pi64 (b64_of_Z 7)) with (S754_finite true 6456492766959424 (-53)) by (vm_compute; reflexivity). rewrite rval_sg. cbn [sg]. pose proof (P2_pos (-53)). lra.
Qed.

(** *** Half turns *)
Definition half64_matrix : f33 := F33 (axis64 (-1) 0 0) (axis64 0 (-1) 0) (axis64 0 0 1).
Lemma c154_half_refuted : exists m, finite33 m /\ val33 m = matrix_of (frame_rotation (V3 0 0 1) PI) /\ forall facos r eps e, acos_within facos e -> e <= 1 -> finite64 eps -> 0 <= rval eps <= / 2 -> RotationMatrix64 r eps m = Ok m /\ rv64_of_matrix facos r eps (Some m) = Err ERuntime.
Proof.
  exists half64_matrix. destruct one_val as [FO VO]. change one_64 with (b64_of_Z 1) in FO, VO. destruct (of_Z_val (-1) ltac:(lia)) as [FN VN]. assert (F : finite33 half64_matrix) by (repeat split; vm_compute; reflexivity || discriminate). split; [exact F |]. split.
  - unfold val33, half64_matrix, val3, axis64, matrix_of, frame_rotation, sub3, add3, scale3, cross3, dot3. cbn [c64_0 c64_1 c64_2 fx fy fz vx vy vz]. change (b64_of_Z 0) with zero64. change (rval zero64) with 0. rewrite VO, VN, cos_PI, sin_PI. unfold of_cols. cbn [vx vy vz]. f_equal; ring.
  - intros facos r eps e HC E Fe He. split.
    + unfold RotationMatrix64. replace (rm64_ok r eps half64_matrix) with true; [reflexivity |]. symmetry.
      assert (L0 : SFltb eps zero64 = false) by (apply ltb_f; [exact Fe | exact I | change (rval zero64) with 0; lra]). unfold rm64_ok. cbn zeta. destruct r.
      * replace (sf_sub (fnorm3 FirstTwo (c64_0 half64_matrix)) one_64) with zero64 by (vm_compute; reflexivity). replace (sf_sub (fnorm3 FirstTwo (c64_1 half64_matrix)) one_64) with zero64 by (vm_compute; reflexivity). replace (sf_sub (fnorm3 FirstTwo (c64_2 half64_matrix)) one_64) with zero64 by (vm_compute; reflexivity).
        replace (SFabs (fdot3 FirstTwo (c64_0 half64_matrix) (c64_1 half64_matrix))) with zero64 by (vm_compute; reflexivity). replace (SFabs (fdot3 FirstTwo (c64_1 half64_matrix) (c64_2 half64_matrix))) with zero64 by (vm_compute; reflexivity). replace (SFabs (fdot3 FirstTwo (c64_2 half64_matrix) (c64_0 half64_matrix))) with zero64 by (vm_compute; reflexivity). rewrite L0. reflexivity.
      * replace (sf_sub (fnorm3 LastTwo (c64_0 half64_matrix)) one_64) with zero64 by (vm_compute; reflexivity). replace (sf_sub (fnorm3 LastTwo (c64_1 half64_matrix)) one_64) with zero64 by (vm_compute; reflexivity). replace (sf_sub (fnorm3 LastTwo (c64_2 half64_matrix)) one_64) with zero64 by (vm_compute; reflexivity).
        replace (SFabs (fdot3 LastTwo (c64_0 half64_matrix) (c64_1 half64_matrix))) with zero64 by (vm_compute; reflexivity). replace (SFabs (fdot3 LastTwo (c64_1 half64_matrix) (c64_2 half64_matrix))) with zero64 by (vm_compute; reflexivity). replace (SFabs (fdot3 LastTwo (c64_2 half64_matrix) (c64_0 half64_matrix))) with zero64 by (vm_compute; reflexivity). rewrite L0. reflexivity.
    + assert (Z : b64_div (sf_sub (ftrace r half64_matrix) one_64) two_64 = b64_of_Z (-1)) by (destruct r; vm_compute; reflexivity). unfold rv64_of_matrix. cbn [need3 bind]. rewrite Z. destruct (HC (b64_of_Z (-1)) FN ltac:(rewrite VN; lra)) as (Ft & T0 & Et). rewrite VN in Et. replace (acos (-1)) with PI in Et by (rewrite <- cos_PI, acos_cos; [reflexivity | pose proof PI_RGT_0; lra]). set (t := facos (b64_of_Z (-1))) in *.
      pose proof pi_digits as PD. apply abs_le in Et. rewrite (radians_finite t Ft). destruct (abs_val t Ft) as [Fa Va]. rewrite (ltb_f (SFabs t) eps Fa Fe) by (rewrite Va, Rabs_pos_eq; lra). cbn zeta. unfold RotationVector64.
      match goal with |- context [SFltb eps ?x] => replace x with one_64 by (destruct r; vm_compute; reflexivity) end. rewrite (ltb_t eps one_64 Fe FO) by (change one_64 with (b64_of_Z 1); rewrite VO; lra). reflexivity.
Qed.

(** *** A trace above 3 *)
Definition above64 : spec_float := S754_finite false 4503599627370497 (-52).
Definition above64_matrix : f33 := F33 (F3 above64 zero64 zero64) (F3 zero64 above64 zero64) (F3 zero64 zero64 above64).
Lemma c154_above_refuted : exists eps m, finite64 eps /\ rval eps = P2 (-50) /\ finite33 m /\ forall facos r, acos_outside facos -> RotationMatrix64 r eps m = Ok m /\ rv64_of_matrix facos r eps (Some m) = Err EUndefined.
Proof.
  destruct eps50 as [FE VE]. exists (S754_finite false 4503599627370496 (-102)), above64_matrix. split; [exact FE |]. split; [exact VE |]. split; [repeat split; vm_compute; reflexivity || discriminate |]. intros facos r HO. split; [destruct r; vm_compute; reflexivity |].
  assert (Z : b64_div (sf_sub (ftrace r above64_matrix) one_64) two_64 = S754_finite false 4503599627370498 (-52)) by (destruct r; vm_compute; reflexivity). unfold rv64_of_matrix. cbn [need3 bind]. rewrite Z, HO; [reflexivity | vm_compute; reflexivity |].
  rewrite rval_sg. cbn [sg]. rewrite Rmult_1_l, P2_m by lia. change (2 ^ (- -52))%Z with 4503599627370496%Z. rewrite Rabs_pos_eq; lra.
Qed.

(** *** Small rotations *)
Definition small64 : spec_float := S754_finite false 4503599627370496 (-79).
Definition small64_matrix : f33 := F33 (F3 one_64 (SFopp small64) zero64) (F3 small64 one_64 zero64) (axis64 0 0 1).
Lemma c154_lost_refuted : exists th m, P2 (-27) <= th /\ finite33 m /\ entries_within (P2 (-54)) (val33 m) (matrix_of (frame_rotation (V3 0 0 1) th)) /\
  forall facos r eps e, acos_within facos e -> rval (facos one_64) = 0 -> finite64 eps -> P2 (-50) <= rval eps <= / 4 -> exists t, rv64_of_matrix facos r eps (Some m) = Ok (mkRV64 (Some (axis64 1 0 0)) (Some t)) /\ rval t = 0.
Proof.
  set (x := P2 (-27)). assert (X : 0 < x <= / 100) by (split; [apply P2_pos |]; unfold x; rewrite P2_m by lia; change (2 ^ (- -27))%Z with 134217728%Z; lra). pose proof e53_pos as PE. assert (E54 : P2 (-54) = e53 / 2) by (rewrite <- e53_P2; change (-54)%Z with (-53 + -1)%Z; rewrite P2_add, (P2_m (-1)) by lia; reflexivity). assert (XX : x * x = e53 / 2) by (unfold x; rewrite <- P2_add, <- E54; reflexivity).
  assert (VX : rval small64 = x) by (unfold small64; rewrite rval_sg; cbn [sg]; rewrite Rmult_1_l; replace 4503599627370496 with (P2 52) by (rewrite <- P2_Z by lia; reflexivity); unfold x; rewrite <- P2_add; reflexivity). destruct one_val as [FO VO].
  assert (SA : sin (asin x) = x) by (apply sin_asin; lra). exists (asin x), small64_matrix. split.
  { pose proof (asin_bound x) as AB. assert (PA : 0 < asin x). { destruct (Rle_or_lt (asin x) 0) as [N | N]; [| exact N]. assert (0 <= sin (- asin x)) by (apply sin_ge_0; lra). rewrite sin_neg, SA in *. lra. } pose proof (sin_lt_x (asin x) PA) as Y. rewrite SA in Y. lra. }
  split; [repeat split; vm_compute; reflexivity || discriminate |]. split.
  - assert (S : 1 - e53 / 2 <= sqrt (1 - e53 / 2) <= 1). { assert (e53 <= / 1000) by (unfold e53; lra). split; [rewrite <- (sqrt_square (1 - e53 / 2)) at 1 by lra; apply sqrt_le_1_alt; assert (0 <= e53 / 2 * (1 - e53 / 2)) by (apply Rmult_le_pos; lra); lra | rewrite <- sqrt_1 at 2; apply sqrt_le_1_alt; lra]. }
    assert (C : cos (asin x) = sqrt (1 - e53 / 2)) by (rewrite cos_asin by lra; unfold Rsqr; rewrite XX; reflexivity). set (k := sqrt (1 - e53 / 2)) in *. rewrite E54. unfold val33, small64_matrix, val3, axis64, matrix_of, frame_rotation, sub3, add3, scale3, cross3, dot3. cbn [c64_0 c64_1 c64_2 fx fy fz vx vy vz]. change (b64_of_Z 0) with zero64. change (b64_of_Z 1) with one_64. change (rval zero64) with 0. rewrite SFopp_val, VO, VX, C, SA. unfold of_cols. cbn [vx vy vz].
    intros i Hi. assert (HI : i = 0%nat \/ i = 1%nat \/ i = 2%nat) by lia. destruct HI as [-> | [-> | ->]]; unfold row3; cbn [vx vy vz m00 m01 m02 m10 m11 m12 m20 m21 m22]; repeat split; apply abs_of; lra.
  - intros facos r eps e HC H0 Fe He. assert (Z : b64_div (sf_sub (ftrace r small64_matrix) one_64) two_64 = one_64) by (destruct r; vm_compute; reflexivity). destruct (HC one_64 FO ltac:(rewrite VO; lra)) as (Ft & _ & _). exists (facos one_64). split; [| exact H0].
    unfold rv64_of_matrix. cbn [need3 bind]. rewrite Z. set (t := facos one_64) in *. rewrite (radians_finite t Ft). destruct (abs_val t Ft) as [Fa Va]. pose proof (P2_pos (-50)). rewrite (ltb_t (SFabs t) eps Fa Fe) by (rewrite Va, H0, Rabs_R0; lra). unfold RotationVector64.
    match goal with |- context [SFltb eps ?x] => replace x with zero64 by (destruct r; vm_compute; reflexivity) end. rewrite (ltb_f eps zero64 Fe I) by (change (rval zero64) with 0; lra). replace (fnormalized3 r (axis64 1 0 0)) with (axis64 1 0 0) by (destruct r; vm_compute; reflexivity). reflexivity.
Qed.
Lemma c154_errors facos r eps a t : rv64_of_matrix facos r eps None = Err EUndefined /\ rv64_rectify (mkRV64 None t) = Err EUndefined /\ rv64_rectify (mkRV64 a None) = Err EUndefined.
Proof. split; [reflexivity |]. split; [reflexivity |]. destruct a; reflexivity. Qed.

(** *** An arc cosine *)
Definition acos_grid (x : spec_float) : spec_float := if Rle_dec (Rabs (rval x)) 1 then acos_below x else S754_nan.
Lemma acos_grid_within : acos_within acos_grid (P2 (-29)) /\ acos_outside acos_grid /\ rval (acos_grid one_64) = 0.
Proof.
  destruct acos_below_within as [W Z]. split; [| split].
  - intros x F B. unfold acos_grid. destruct (Rle_dec (Rabs (rval x)) 1) as [L | L]; [apply W; assumption | exfalso; apply L, abs_of; lra].
  - intros x _ B. unfold acos_grid. destruct (Rle_dec (Rabs (rval x)) 1) as [L | L]; [lra | reflexivity].
  - unfold acos_grid. destruct (Rle_dec (Rabs (rval one_64)) 1) as [L | L]; [exact Z | exfalso; apply L; rewrite (proj2 one_val), Rabs_R1; lra].
Qed.
Definition quarter64_matrix : f33 := F33 (axis64 0 (-1) 0) (axis64 1 0 0) (axis64 0 0 1).
Lemma quarter_matrix : finite33 quarter64_matrix /\ val33 quarter64_matrix = matrix_of (frame_rotation (V3 0 0 1) (PI / 2)).
Proof.
  destruct one_val as [FO VO]. change one_64 with (b64_of_Z 1) in FO, VO. destruct (of_Z_val (-1) ltac:(lia)) as [FN VN]. split; [repeat split; vm_compute; reflexivity || discriminate |].
  unfold val33, quarter64_matrix, val3, axis64, matrix_of, frame_rotation, sub3, add3, scale3, cross3, dot3. cbn [c64_0 c64_1 c64_2 fx fy fz vx vy vz]. change (b64_of_Z 0) with zero64. change (rval zero64) with 0. rewrite VO, VN, cos_PI2, sin_PI2. unfold of_cols. cbn [vx vy vz]. f_equal; ring.
Qed.
