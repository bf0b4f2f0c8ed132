(** Comparison of rotation vectors and of Euler angles in double precision (C155). *)

From Coq Require Import List Bool ZArith Reals Lra Lia Psatz Floats.SpecFloat.
From Verif Require Import Result Vec Mat3 VecProofs AngleModel FloatModel FloatSpec FloatProofs FloatProofs2 FloatProofs3 FloatProofs4 FloatProofs5 FloatProofs7 FloatProofs8 FloatProofs10
  Geo3Spec Geo3Proofs Geo3Proofs2 Geo64Model Geo64Spec Geo64Proofs Geo64Proofs2 Geo64Proofs3 Geo64Proofs4 Geo64Proofs5 Geo64Proofs6 Geo64Proofs7 Geo64Proofs8 RotModel RotSpec RotProofs RotProofs2 RotProofs3 RotProofs4 RotProofs5 RotProofs7 RotProofs9 Rot64Model Rot64Spec Rot64Spec2 Rot64Proofs Rot64Proofs2 Rot64Proofs3 Rot64Proofs4 Rot64Proofs5 Rot64Proofs6 Rot64Proofs7 Rot64Proofs8 Rot64Proofs9 Rot64Proofs10 Rot64Proofs11 Rot64Proofs12 Rot64Proofs13 Rot64Proofs14 Rot64Proofs15 Rot64Proofs16 Rot64Proofs17 Att64Model Att64Spec Att64Proofs Att64Proofs2 Att64Proofs3 Att64Proofs4 Att64Proofs5 Att64Proofs7 Att64Proofs8 Att64Proofs9 Att64Proofs10 Pow64Model Pow64Spec Pow64Proofs Pow64Proofs2 Pow64Proofs3 Pow64Proofs4 Dif64Model Dif64Spec Dif64Proofs RotProofs6 Dif64Proofs2 Dif64Proofs3 Dif64Proofs4 Att64Proofs6 Dif64Proofs5 Eul64Model Eul64Spec Eul64Proofs Eul64Proofs2 Eul64Proofs3 Eul64Proofs4 AngleSpec Rvm64Model Rvm64Spec Rvm64Proofs Rvm64Proofs2 Cmp64Model.
Import ListNotations.
Local Open Scope R_scope.

(** *** Angles *)
Lemma angle_sound fuel x y B : finite64 x -> finite64 y -> 1 <= B <= P2 21 -> Rabs (rval x) <= B -> Rabs (rval y) <= B -> angle_eq64 fuel (rad64 x) (rad64 y) = Ok true ->
  exists k : Z, Rabs (rval x - (rval y + IZR k * (2 * PI))) <= B * B * P2 (-43).
Proof.
  intros Fx Fy HB Bx By E. assert (P900 : P2 21 <= powerRZ 2 900) by (apply P2_mono; lia). destruct (c121_sound fuel Radian x y ltac:(discriminate) Fx Fy ltac:(lra) ltac:(lra) E) as [k K]. exists k. cbn [units_per_turn] in K. change (powerRZ 2 (-48)) with (P2 (-48)) in K.
  pose proof pi_digits as PD. set (n := IZR (Z.abs k)) in *. assert (N0 : 0 <= n) by (apply IZR_le; lia). assert (NK : Rabs (IZR k) = n) by (unfold n; rewrite abs_IZR; reflexivity). set (e := P2 (-48)) in *. assert (E0 : 0 < e) by apply P2_pos. assert (E1 : P2 (-43) = 32 * e) by (unfold e; change (-43)%Z with (5 + -48)%Z; rewrite P2_add, <- (P2_Z 5) by lia; reflexivity). rewrite E1.
  set (S := Rabs (rval x) + Rabs (rval y) + 2 * PI) in *. assert (S0 : 0 <= S <= 2 * B + 6.3) by (unfold S; pose proof (Rabs_pos (rval x)); pose proof (Rabs_pos (rval y)); lra).
  assert (BS : B <= 2097152) by (replace 2097152 with (P2 21) by (rewrite <- P2_Z by lia; reflexivity); lra). assert (EV : e <= / 100000000000000) by (unfold e; rewrite P2_m by lia; apply Rinv_le_contravar; [lra | apply IZR_le; lia]).
  assert (ES : 0 <= e * S <= / 10000000). { split; [apply Rmult_le_pos; lra |]. apply Rle_trans with (/ 100000000000000 * 4194311); [apply Rmult_le_compat; lra | lra]. }
  assert (KB : n <= B). { assert (T : n * (2 * PI) <= Rabs (rval x - (rval y + IZR k * (2 * PI))) + Rabs (rval x) + Rabs (rval y)). { rewrite <- NK, <- (Rabs_pos_eq (2 * PI)) at 1 by lra. rewrite <- Rabs_mult. set (p := IZR k * (2 * PI)). replace p with (- (rval x - (rval y + p)) + rval x + - rval y) at 1 by ring. eapply Rle_trans; [apply Rabs_triang |]. rewrite (Rabs_Ropp (rval y)). apply Rplus_le_compat_r. eapply Rle_trans; [apply Rabs_triang |]. rewrite Rabs_Ropp. lra. }
    assert ((n + 2) * (e * S) <= (n + 2) * / 10000000) by (apply Rmult_le_compat_l; lra). assert (n * 6.28 <= n * (2 * PI)) by (apply Rmult_le_compat_l; lra). lra. }
  eapply Rle_trans; [exact K |]. apply Rle_trans with ((B + 2) * (e * (2 * B + 6.3))); [apply Rmult_le_compat; [lra | lra | lra | apply Rmult_le_compat_l; lra] |].
  replace ((B + 2) * (e * (2 * B + 6.3))) with (e * ((B + 2) * (2 * B + 6.3))) by ring. replace (B * B * (32 * e)) with (e * (32 * (B * B))) by ring. apply Rmult_le_compat_l; [lra |]. assert (B <= B * B) by (assert (B * 1 <= B * B) by (apply Rmult_le_compat_l; lra); lra). lra.
Qed.
Lemma turn_off x y k : cos (y + IZR k * (2 * PI)) = cos y /\ sin (y + IZR k * (2 * PI)) = sin y /\ Rabs (cos x - cos y) <= Rabs (x - (y + IZR k * (2 * PI))) /\ Rabs (sin x - sin y) <= Rabs (x - (y + IZR k * (2 * PI))).
Proof.
  assert (P : forall n : nat, forall z, cos (z + INR n * (2 * PI)) = cos z /\ sin (z + INR n * (2 * PI)) = sin z). { intros n z. replace (z + INR n * (2 * PI)) with (z + 2 * INR n * PI) by ring. split; [apply cos_period | apply sin_period]. }
  assert (C : cos (y + IZR k * (2 * PI)) = cos y /\ sin (y + IZR k * (2 * PI)) = sin y).
  { destruct (Z_le_gt_dec 0 k) as [L | L].
    - replace (IZR k) with (INR (Z.to_nat k)) by (rewrite INR_IZR_INZ, Z2Nat.id by lia; reflexivity). apply P.
    - destruct (P (Z.to_nat (- k)) (y + IZR k * (2 * PI))) as [A B]. replace (y + IZR k * (2 * PI) + INR (Z.to_nat (- k)) * (2 * PI)) with y in A, B by (rewrite INR_IZR_INZ, Z2Nat.id, opp_IZR by lia; ring). split; [symmetry; exact A | symmetry; exact B]. }
  destruct C as [C S]. split; [exact C |]. split; [exact S |]. split; [rewrite <- C; apply cos_close | rewrite <- S; apply sin_close].
Qed.
Lemma turn_frame a y k v : frame_rotation a (y + IZR k * (2 * PI)) v = frame_rotation a y v.
Proof. unfold frame_rotation. destruct (turn_off y y k) as (-> & -> & _). reflexivity. Qed.

(** *** Rotation vectors *)
Lemma feq_self a : finite3 a -> feq3 a a = true.
Proof. intros F. apply feq3_val; [exact F | exact F | reflexivity]. Qed.
Lemma zero_test t : finite64 t -> SFeqb t zero64 = true <-> rval t = 0.
Proof. intros F. change 0 with (rval zero64). apply SFeqb_val; [exact F | exact I]. Qed.
Lemma c155_reflexive a t : finite3 a -> finite64 t -> Rabs (rval t) <= IZR (2 ^ 52) -> AngleSpec.returns (fun fuel => rv64_eq fuel (mkRV64 (Some a) (Some t)) (mkRV64 (Some a) (Some t))) true.
Proof.
  intros Fa Ft B. destruct (c121_reflexive Radian t ltac:(discriminate) Ft B) as [N HN]. exists N. intros fuel L. unfold rv64_eq, rv64_get. cbn [rv64_axis rv64_angle]. destruct (SFeqb t zero64 && SFeqb t zero64); [reflexivity |]. rewrite (feq_self a Fa). unfold rad64. rewrite (HN fuel L). reflexivity.
Qed.
Lemma c155_opposite a t : finite3 a -> 0 < norm3 (val3 a) -> finite64 t -> Rabs (rval t) <= IZR (2 ^ 52) -> AngleSpec.returns (fun fuel => rv64_eq fuel (mkRV64 (Some a) (Some t)) (mkRV64 (Some (Geo64Model.fopp3 a)) (Some (SFopp t)))) true.
Proof.
  intros Fa Na Ft B. destruct (c121_reflexive Radian t ltac:(discriminate) Ft B) as [N HN]. exists N. intros fuel L. unfold rv64_eq, rv64_get. cbn [rv64_axis rv64_angle]. destruct (SFeqb t zero64 && SFeqb (SFopp t) zero64); [reflexivity |].
  assert (D : feq3 a (Geo64Model.fopp3 a) = false). { apply Bool.not_true_iff_false. intros E. apply feq3_val in E; [| exact Fa | apply opp_finite3, Fa]. rewrite opp_val3 in E. assert (Z : norm3 (val3 a) = 0); [| lra]. assert (Q : forall w, w = opp3 w -> norm3 w = 0). { intros [x y z] K. injection K as X Y Z. cbn [vx vy vz] in X, Y, Z. assert (x = 0) by lra. assert (y = 0) by lra. assert (z = 0) by lra. subst. unfold norm3, sqnorm3, dot3. cbn [vx vy vz]. replace (0 * 0 + 0 * 0 + 0 * 0) with 0 by ring. apply sqrt_0. } apply Q, E. }
  rewrite D. cbn [bind]. rewrite opp_opp, (feq_self a Fa). replace (SFopp (SFopp t)) with t by (destruct t; cbn; rewrite ?Bool.negb_involutive; reflexivity). exact (HN fuel L).
Qed.
Lemma c155_zero fuel a b t u : rval t = 0 -> rval u = 0 -> finite64 t -> finite64 u -> rv64_eq fuel (mkRV64 (Some a) (Some t)) (mkRV64 (Some b) (Some u)) = Ok true.
Proof. intros T U Ft Fu. unfold rv64_eq, rv64_get. cbn [rv64_axis rv64_angle]. rewrite (proj2 (zero_test t Ft) T), (proj2 (zero_test u Fu) U). reflexivity. Qed.
Lemma c155_axes fuel a b t u : finite3 a -> finite3 b -> finite64 t -> finite64 u -> val3 a <> val3 b -> val3 a <> opp3 (val3 b) -> rval t <> 0 \/ rval u <> 0 -> rv64_eq fuel (mkRV64 (Some a) (Some t)) (mkRV64 (Some b) (Some u)) = Ok false.
Proof.
  intros Fa Fb Ft Fu N1 N2 NZ. unfold rv64_eq, rv64_get. cbn [rv64_axis rv64_angle].
  assert (Z : SFeqb t zero64 && SFeqb u zero64 = false) by (apply Bool.andb_false_iff; destruct NZ as [K | K]; [left | right]; apply Bool.not_true_iff_false; intros E; apply zero_test in E; [exact (K E) | assumption | exact (K E) | assumption]). rewrite Z.
  assert (D1 : feq3 a b = false) by (apply Bool.not_true_iff_false; intros E; apply feq3_val in E; [exact (N1 E) | assumption..]). assert (D2 : feq3 a (Geo64Model.fopp3 b) = false) by (apply Bool.not_true_iff_false; intros E; apply feq3_val in E; [rewrite opp_val3 in E; exact (N2 E) | assumption | apply opp_finite3; assumption]). rewrite D1, D2. reflexivity.
Qed.
Lemma c155_sound fuel a b t u B : finite3 a -> finite3 b -> norm3 (val3 a) <= 1.001 -> finite64 t -> finite64 u -> 1 <= B <= P2 20 -> Rabs (rval t) <= B -> Rabs (rval u) <= B -> rv64_eq fuel (mkRV64 (Some a) (Some t)) (mkRV64 (Some b) (Some u)) = Ok true ->
  forall v, dist3 (frame_rotation (val3 a) (rval t) v) (frame_rotation (val3 b) (rval u) v) <= B * B * P2 (-41) * norm3 v.
Proof.
  intros Fa Fb Na Ft Fu HB Bt Bu E v. assert (P21 : P2 20 <= P2 21) by (apply P2_mono; lia). pose proof (norm3_nonneg v) as NV. assert (E41 : P2 (-41) = 4 * P2 (-43)) by (change (-41)%Z with (2 + -43)%Z; rewrite P2_add, <- (P2_Z 2) by lia; reflexivity). pose proof (P2_pos (-43)) as P0. assert (BB : 0 <= B * B) by (apply Rmult_le_pos; lra).
  assert (G : forall c w, angle_eq64 fuel (rad64 t) (rad64 w) = Ok true -> finite64 w -> Rabs (rval w) <= B -> norm3 c <= 1.001 -> dist3 (frame_rotation c (rval t) v) (frame_rotation c (rval w) v) <= B * B * P2 (-41) * norm3 v).
  { intros c w EQ Fw Bw Nc. destruct (angle_sound fuel t w B Ft Fw ltac:(lra) Bt Bw EQ) as [k K]. rewrite <- (turn_frame c (rval w) k v). eapply Rle_trans; [apply angle_close, Nc |]. apply Rmult_le_compat_r; [exact NV |]. rewrite E41. assert (0 <= B * B * P2 (-43)) by (apply Rmult_le_pos; lra). lra. }
  unfold rv64_eq, rv64_get in E. cbn [rv64_axis rv64_angle] in E. destruct (SFeqb t zero64 && SFeqb u zero64) eqn:Z.
  - apply andb_prop in Z. destruct Z as [Z1 Z2]. apply zero_test in Z1; [| exact Ft]. apply zero_test in Z2; [| exact Fu]. rewrite Z1, Z2. assert (Q : forall c, frame_rotation c 0 v = v) by (intros c; unfold frame_rotation; rewrite cos_0, sin_0; v3ring). rewrite !Q. unfold dist3. rewrite self3.
    replace (norm3 (V3 0 0 0)) with 0 by (unfold norm3, sqnorm3, dot3; cbn [vx vy vz]; replace (0 * 0 + 0 * 0 + 0 * 0) with 0 by ring; rewrite sqrt_0; reflexivity). apply Rmult_le_pos; [apply Rmult_le_pos; [exact BB | left; apply P2_pos] | exact NV].
  - destruct (feq3 a b) eqn:F1.
    + apply feq3_val in F1; [| exact Fa | exact Fb]. destruct (angle_eq64 fuel (rad64 t) (rad64 u)) as [[|] | | ] eqn:A; cbn [bind] in E; try discriminate.
      * rewrite <- F1. apply G; assumption.
      * destruct (feq3 a (Geo64Model.fopp3 b)) eqn:F2; [| discriminate]. apply feq3_val in F2; [| exact Fa | apply opp_finite3, Fb]. rewrite opp_val3 in F2. rewrite <- (frame_rotation_opp (val3 b)), <- F2, <- SFopp_val. apply G; [exact E | apply SFopp_finite, Fu | rewrite SFopp_val, Rabs_Ropp; exact Bu | exact Na].
    + cbn [bind] in E. destruct (feq3 a (Geo64Model.fopp3 b)) eqn:F2; [| discriminate]. apply feq3_val in F2; [| exact Fa | apply opp_finite3, Fb]. rewrite opp_val3 in F2. rewrite <- (frame_rotation_opp (val3 b)), <- F2, <- SFopp_val. apply G; [exact E | apply SFopp_finite, Fu | rewrite SFopp_val, Rabs_Ropp; exact Bu | exact Na].
Qed.
(** 3.3 radians about z and its rectified form. *)
Lemma c155_rectified_refuted : exists a t w, finite3 a /\ norm3 (val3 a) = 1 /\ finite64 t /\ rval pi64 < rval t <= rval two_pi64 /\ rv64_rectify (mkRV64 (Some a) (Some t)) = Ok w /\
  AngleSpec.returns (fun fuel => rv64_eq fuel (mkRV64 (Some a) (Some t)) w) false /\ AngleSpec.returns (fun fuel => rv64_eq fuel w (mkRV64 (Some a) (Some t))) true.
Proof.
  exists (axis64 0 0 1), (S754_finite false 7430939385161318 (-51)), (mkRV64 (Some (Geo64Model.fopp3 (axis64 0 0 1))) (Some (sf_sub two_pi64 (S754_finite false 7430939385161318 (-51))))). destruct one_val as [FO VO]. change one_64 with (b64_of_Z 1) in FO, VO.
  split; [repeat split; vm_compute; reflexivity || discriminate |]. split; [unfold val3, axis64; cbn [fx fy fz]; change (b64_of_Z 0) with zero64; change (rval zero64) with 0; rewrite VO; unfold norm3, sqnorm3, dot3; cbn [vx vy vz]; replace (0 * 0 + 0 * 0 + 1 * 1) with 1 by ring; apply sqrt_1 |]. split; [vm_compute; reflexivity |].
  split; [rewrite (proj2 pi64_val), (proj2 two_pi64_val), rval_sg; cbn [sg]; rewrite P2_m by lia; change (2 ^ (- -51))%Z with 2251799813685248%Z; lra |]. split; [vm_compute; reflexivity |].
  split; exists 5%nat; intros fuel H; do 5 (destruct fuel as [| fuel]; [lia |]); vm_compute; reflexivity.
Qed.
Lemma c155_turn_refuted : exists a b t u, finite3 a /\ finite3 b /\ norm3 (val3 a) = 1 /\ norm3 (val3 b) = 1 /\ finite64 t /\ finite64 u /\ (forall v, dist3 (frame_rotation (val3 a) (rval t) v) (frame_rotation (val3 b) (rval u) v) <= P2 (-48) * norm3 v) /\ forall fuel, rv64_eq fuel (mkRV64 (Some a) (Some t)) (mkRV64 (Some b) (Some u)) = Ok false.
Proof.
  exists (axis64 1 0 0), (axis64 0 0 1), two_pi64, zero64. destruct one_val as [FO VO]. change one_64 with (b64_of_Z 1) in FO, VO. destruct two_pi64_val as [F2 V2]. assert (F : finite3 (axis64 1 0 0) /\ finite3 (axis64 0 0 1)) by (repeat split; vm_compute; reflexivity || discriminate). destruct F as [Fa Fb].
  assert (Va : val3 (axis64 1 0 0) = V3 1 0 0) by (unfold val3, axis64; cbn [fx fy fz]; rewrite VO; reflexivity). assert (Vb : val3 (axis64 0 0 1) = V3 0 0 1) by (unfold val3, axis64; cbn [fx fy fz]; rewrite VO; reflexivity).
  assert (Na : norm3 (V3 1 0 0) = 1) by (unfold norm3, sqnorm3, dot3; cbn [vx vy vz]; replace (1 * 1 + 0 * 0 + 0 * 0) with 1 by ring; apply sqrt_1). assert (Nb : norm3 (V3 0 0 1) = 1) by (unfold norm3, sqnorm3, dot3; cbn [vx vy vz]; replace (0 * 0 + 0 * 0 + 1 * 1) with 1 by ring; apply sqrt_1).
  split; [exact Fa |]. split; [exact Fb |]. split; [rewrite Va; exact Na |]. split; [rewrite Vb; exact Nb |]. split; [exact F2 |]. split; [exact I |]. split.
  - intros v. rewrite Va, Vb. change (rval zero64) with 0. assert (Q : forall c, frame_rotation c 0 v = v) by (intros c; unfold frame_rotation; rewrite cos_0, sin_0; v3ring). assert (T : frame_rotation (V3 0 0 1) 0 v = frame_rotation (V3 1 0 0) (2 * PI) v) by (rewrite Q; replace (2 * PI) with (0 + IZR 1 * (2 * PI)) by (cbn; ring); rewrite turn_frame, Q; reflexivity). rewrite T. eapply Rle_trans; [apply angle_close; rewrite Na; lra |]. apply Rmult_le_compat_r; [apply norm3_nonneg |].
    pose proof pi_digits as PD. assert (E48 : P2 (-48) = 32 * e53) by (rewrite <- e53_P2; change (-48)%Z with (5 + -53)%Z; rewrite P2_add, <- P2_Z by lia; reflexivity). assert (Rabs (rval two_pi64 - 2 * PI) <= 4 * e53) by (rewrite V2; apply abs_of; unfold e53; lra). pose proof e53_pos. lra.
  - intros fuel. apply c155_axes; [exact Fa | exact Fb | exact F2 | exact I | rewrite Va, Vb; intros K; injection K; lra | rewrite Va, Vb; unfold opp3; cbn [vx vy vz]; intros K; injection K; lra | left; rewrite V2; lra].
Qed.

(** *** Euler angles *)
Lemma seq_same s : seq_eqb s s = true.
Proof. destruct s; reflexivity. Qed.
Lemma seq_eqb_true s s' : seq_eqb s s' = true -> s = s'.
Proof. destruct s, s'; cbn; congruence. Qed.
Lemma get_defined x y z s : s <> SeqUndefined -> e64_get (mkE64 (Some x) (Some y) (Some z) s) = Ok (x, y, z).
Proof. destruct s; [congruence | reflexivity | reflexivity | reflexivity] || (destruct s; cbn; congruence). Qed.
Lemma c155_euler_reflexive x y z s : s <> SeqUndefined -> finite64 x -> finite64 y -> finite64 z -> Rabs (rval x) <= IZR (2 ^ 52) -> Rabs (rval y) <= IZR (2 ^ 52) -> Rabs (rval z) <= IZR (2 ^ 52) ->
  AngleSpec.returns (fun fuel => e64_eq fuel (mkE64 (Some x) (Some y) (Some z) s) (mkE64 (Some x) (Some y) (Some z) s)) true.
Proof.
  intros S Fx Fy Fz Bx By Bz. destruct (c121_reflexive Radian x ltac:(discriminate) Fx Bx) as [N1 H1]. destruct (c121_reflexive Radian y ltac:(discriminate) Fy By) as [N2 H2]. destruct (c121_reflexive Radian z ltac:(discriminate) Fz Bz) as [N3 H3].
  exists (N1 + N2 + N3)%nat. intros fuel L. unfold e64_eq. rewrite !get_defined by exact S. cbn [e64_seq]. rewrite seq_same. cbn [negb]. unfold rad64, and3. rewrite H1, H2, H3 by lia. reflexivity.
Qed.
(** The other triple of the same rotation, as computed by the adjustment of [e64_adjust]. *)
Lemma c155_euler_flipped x y z s : s <> SeqUndefined -> finite64 x -> finite64 y -> finite64 z -> Rabs (rval x) <= IZR (2 ^ 20) -> Rabs (rval y) <= IZR (2 ^ 20) -> Rabs (rval z) <= IZR (2 ^ 20) ->
  AngleSpec.returns (fun fuel => e64_eq fuel (mkE64 (Some x) (Some y) (Some z) s) (mkE64 (Some (sf_add x pi64)) (Some (sf_sub pi64 y)) (Some (sf_add z pi64)) s)) true.
Proof.
  intros S Fx Fy Fz Bx By Bz. change (IZR (2 ^ 20)) with 1048576 in *. destruct pi64_close as (FP & DP & BP). destruct two_pi64_val as [F2 V2]. pose proof e53_pos as PE. assert (E9 : e53 <= / 1000000000) by (unfold e53; lra).
  assert (P23 : 10000000 <= P2 1023) by (apply Rle_trans with (P2 30); [rewrite <- P2_Z by lia; change (2 ^ 30)%Z with 1073741824%Z; lra | apply P2_mono; lia]). assert (P52 : IZR (2 ^ 52) = 4503599627370496) by reflexivity. apply abs_le in Bx. apply abs_le in By. apply abs_le in Bz.
  assert (A : forall w, finite64 w -> - (1048576) <= rval w <= 1048576 -> finite64 (sf_add w pi64) /\ Rabs (rval (sf_add w pi64) - (rval w + rval pi64)) <= / 100 /\ Rabs (rval (sf_add w pi64)) <= IZR (2 ^ 52)).
  { intros w Fw Bw. assert (SB : Rabs (rval w + rval pi64) <= 1048580) by (apply abs_of; lra). destruct (add_any w pi64 Fw FP ltac:(lra)) as [F E]. split; [exact F |]. assert (e53 * Rabs (rval w + rval pi64) <= / 1000000000 * 1048580) by (apply Rmult_le_compat; [lra | apply Rabs_pos | lra | lra]). split; [lra |]. rewrite P52. apply abs_le in E. apply abs_le in SB. apply abs_of. lra. }
  destruct (A x Fx Bx) as (FX & EX & BX). destruct (A z Fz Bz) as (FZ & EZ & BZ).
  assert (Y : finite64 (sf_sub pi64 y) /\ Rabs (rval (sf_sub pi64 y)) <= IZR (2 ^ 52)). { assert (SB : Rabs (rval pi64 - rval y) <= 1048580) by (apply abs_of; lra). destruct (sub_any pi64 y FP Fy ltac:(lra)) as [F E]. split; [exact F |]. assert (e53 * Rabs (rval pi64 - rval y) <= / 1000000000 * 1048580) by (apply Rmult_le_compat; [lra | apply Rabs_pos | lra | lra]). rewrite P52. apply abs_le in E. apply abs_le in SB. apply abs_of. lra. }
  destruct Y as [FY BY]. destruct (c121_reflexive Radian _ ltac:(discriminate) FX BX) as [N1 H1]. destruct (c121_reflexive Radian _ ltac:(discriminate) FY BY) as [N2 H2]. destruct (c121_reflexive Radian _ ltac:(discriminate) FZ BZ) as [N3 H3].
  assert (D : forall fuel, angle_eq64 fuel (rad64 x) (rad64 (sf_add x pi64)) = Ok false).
  { intros fuel. unfold rad64. rewrite eq64_same by discriminate. cbn [turn64 bind]. assert (SB : Rabs (rval x + rval two_pi64) <= 1048583) by (apply abs_of; rewrite V2; lra). destruct (add_any x two_pi64 Fx F2 ltac:(lra)) as [F E]. assert (e53 * Rabs (rval x + rval two_pi64) <= / 1000000000 * 1048583) by (apply Rmult_le_compat; [lra | apply Rabs_pos | lra | lra]). apply abs_le in E. apply abs_le in EX. assert (T6 : 6.28 <= rval two_pi64 <= 6.29) by (rewrite V2; lra).
    unfold ReduceRange64. rewrite geb_t by (assumption || lra). rewrite ltb_t by (assumption || lra). cbn [andb bind]. f_equal. apply Bool.not_true_iff_false. intros K. apply SFeqb_val in K; [lra | assumption..]. }
  exists (N1 + N2 + N3)%nat. intros fuel L. unfold e64_eq. rewrite !get_defined by exact S. cbn [e64_seq]. rewrite seq_same. cbn [negb]. unfold and3 at 1. rewrite D. cbn [bind]. unfold and3, rad64, angle_add64, angle_sub64, converted64, need64. cbn [aunit64 aval64 unit_eqb orb bind]. rewrite H1, H2, H3 by lia. reflexivity.
Qed.
Lemma c155_euler_sound fuel x y z s x' y' z' s' B : finite64 x -> finite64 y -> finite64 z -> finite64 x' -> finite64 y' -> finite64 z' -> 1 <= B <= P2 18 -> Rabs (rval x) <= B -> Rabs (rval y) <= B -> Rabs (rval z) <= B -> Rabs (rval x') <= B -> Rabs (rval y') <= B -> Rabs (rval z') <= B ->
  e64_eq fuel (mkE64 (Some x) (Some y) (Some z) s) (mkE64 (Some x') (Some y') (Some z') s') = Ok true ->
  s = s' /\ entries_within (B * B * P2 (-35)) (matrix_of (named_sequence s (rval x) (rval y) (rval z))) (matrix_of (named_sequence s' (rval x') (rval y') (rval z'))).
Proof.
  intros Fx Fy Fz Fx' Fy' Fz' HB Bx By Bz Bx' By' Bz' E. unfold e64_eq in E. destruct (e64_get (mkE64 (Some x) (Some y) (Some z) s)) as [[[a b] c] | |] eqn:G1; [| discriminate..]. destruct (e64_get (mkE64 (Some x') (Some y') (Some z') s')) as [[[a' b'] c'] | |] eqn:G2; [| discriminate..].
  assert (S : s <> SeqUndefined) by (intros ->; discriminate). assert (S' : s' <> SeqUndefined) by (intros ->; discriminate). rewrite get_defined in G1, G2 by assumption. injection G1 as <- <- <-. injection G2 as <- <- <-. cbn [e64_seq] in E. destruct (seq_eqb s s') eqn:SS; [| discriminate]. apply seq_eqb_true in SS. subst s'. split; [reflexivity |]. cbn [negb] in E. rewrite !named_matrix.
  assert (P43 : P2 (-35) = 256 * P2 (-43)) by (change (-35)%Z with (8 + -43)%Z; rewrite P2_add, <- (P2_Z 8) by lia; reflexivity). pose proof (P2_pos (-43)) as P0. set (d := P2 (-43)) in *. assert (BB : 1 <= B * B) by nra. assert (P21 : 5 * P2 18 <= P2 21) by (change 21%Z with (3 + 18)%Z; rewrite P2_add, <- (P2_Z 3) by lia; change (IZR (2 ^ 3)) with 8; pose proof (P2_pos 18); lra). pose proof (P2_pos 18) as P18.
  destruct (and3 (angle_eq64 fuel (rad64 x) (rad64 x')) (angle_eq64 fuel (rad64 y) (rad64 y')) (angle_eq64 fuel (rad64 z) (rad64 z'))) as [[|] | |] eqn:A1; cbn [bind] in E; try discriminate.
  - unfold and3 in A1. destruct (angle_eq64 fuel (rad64 x) (rad64 x')) as [[|] | |] eqn:X; cbn [bind] in A1; try discriminate. destruct (angle_eq64 fuel (rad64 y) (rad64 y')) as [[|] | |] eqn:Y; cbn [bind] in A1; try discriminate.
    destruct (angle_sound fuel x x' B Fx Fx' ltac:(lra) Bx Bx' X) as [k1 K1]. destruct (angle_sound fuel y y' B Fy Fy' ltac:(lra) By By' Y) as [k2 K2]. destruct (angle_sound fuel z z' B Fz Fz' ltac:(lra) Bz Bz' A1) as [k3 K3]. fold d in K1, K2, K3.
    destruct (turn_off (rval x) (rval x') k1) as (_ & _ & C1 & S1). destruct (turn_off (rval y) (rval y') k2) as (_ & _ & C2 & S2). destruct (turn_off (rval z) (rval z') k3) as (_ & _ & C3 & S3).
    apply (entries_mono (5 * (B * B * d))); [rewrite P43; assert (0 <= B * B * d) by (apply Rmult_le_pos; lra); lra |]. apply seq_close; [exact S | lra..].
  - destruct pi64_close as (FP & DP & BP). pose proof e53_pos as PE. assert (E9 : e53 <= / 1000000000) by (unfold e53; lra). assert (P53 : e53 <= d) by (rewrite <- e53_P2; apply P2_mono; lia). assert (BU : 5 * P2 18 <= P2 1023) by (pose proof (P2_mono 21 1023 ltac:(lia)); lra). apply abs_le in DP.
    assert (T : forall w, finite64 w -> Rabs (rval w) <= B -> (finite64 (sf_add w pi64) /\ Rabs (rval (sf_add w pi64) - (rval w + PI)) <= 7 * (B * d)) /\ (finite64 (sf_sub pi64 w) /\ Rabs (rval (sf_sub pi64 w) - (PI - rval w)) <= 7 * (B * d))).
    { intros w Fw Bw. apply abs_le in Bw. assert (S1 : Rabs (rval w + rval pi64) <= 4.2 * B) by (apply abs_of; lra). assert (S2 : Rabs (rval pi64 - rval w) <= 4.2 * B) by (apply abs_of; lra). assert (Q1 : e53 * Rabs (rval w + rval pi64) <= d * (4.2 * B)) by (apply Rmult_le_compat; [lra | apply Rabs_pos | lra | lra]). assert (Q2 : e53 * Rabs (rval pi64 - rval w) <= d * (4.2 * B)) by (apply Rmult_le_compat; [lra | apply Rabs_pos | lra | lra]). assert (DB : d * 1 <= d * B) by (apply Rmult_le_compat_l; lra).
      destruct (add_any w pi64 Fw FP ltac:(lra)) as [F1 E1]. destruct (sub_any pi64 w FP Fw ltac:(lra)) as [F3 E3]. apply abs_le in E1. apply abs_le in E3. split; (split; [assumption | apply abs_of; lra]). }
    assert (D1 : d <= / 1000000000000) by (unfold d; rewrite P2_m by lia; apply Rinv_le_contravar; [lra | apply IZR_le; lia]). assert (BD : 0 <= B * d <= B * / 1000000000000) by (split; [apply Rmult_le_pos; lra | apply Rmult_le_compat_l; lra]). pose proof pi_digits as PD.
    destruct (T x Fx Bx) as [[FX EX] _]. destruct (T y Fy By) as [_ [FY EY]]. destruct (T z Fz Bz) as [[FZ EZ] _].
    assert (BX : Rabs (rval (sf_add x pi64)) <= 5 * B) by (apply abs_le in EX; apply abs_le in Bx; apply abs_of; lra). assert (BY : Rabs (rval (sf_sub pi64 y)) <= 5 * B) by (apply abs_le in EY; apply abs_le in By; apply abs_of; lra). assert (BZ : Rabs (rval (sf_add z pi64)) <= 5 * B) by (apply abs_le in EZ; apply abs_le in Bz; apply abs_of; lra).
    unfold and3, angle_add64, angle_sub64, converted64, need64 in E. unfold rad64 in E at 1 2 4 5 7 8. cbn [aunit64 aval64 unit_eqb orb bind rad64] in E. fold (rad64 (sf_add x pi64)) in E. fold (rad64 (sf_sub pi64 y)) in E. fold (rad64 (sf_add z pi64)) in E. fold (rad64 x') (rad64 y') (rad64 z') in E.
    destruct (angle_eq64 fuel (rad64 (sf_add x pi64)) (rad64 x')) as [[|] | |] eqn:X; cbn [bind] in E; try discriminate. destruct (angle_eq64 fuel (rad64 (sf_sub pi64 y)) (rad64 y')) as [[|] | |] eqn:Y; cbn [bind] in E; try discriminate.
    destruct (angle_sound fuel _ x' (5 * B) FX Fx' ltac:(lra) BX ltac:(lra) X) as [k1 K1]. destruct (angle_sound fuel _ y' (5 * B) FY Fy' ltac:(lra) BY ltac:(lra) Y) as [k2 K2]. destruct (angle_sound fuel _ z' (5 * B) FZ Fz' ltac:(lra) BZ ltac:(lra) E) as [k3 K3]. fold d in K1, K2, K3.
    replace (5 * B * (5 * B) * d) with (25 * (B * B * d)) in K1, K2, K3 by ring. assert (BBD : B * d <= B * B * d) by (apply Rmult_le_compat_r; [lra |]; nra).
    rewrite <- (seq_adjust s (rval x) (rval y) (rval z)). assert (V : forall p q c w k, Rabs (p - q) <= 7 * (B * d) -> Rabs (p - (w + IZR k * (2 * PI))) <= c -> Rabs (q - (w + IZR k * (2 * PI))) <= c + 7 * (B * d)) by (intros p q c w k K L; apply abs_le in K; apply abs_le in L; apply abs_of; lra).
    pose proof (V _ _ _ _ _ EX K1) as V1. pose proof (V _ _ _ _ _ EY K2) as V2. pose proof (V _ _ _ _ _ EZ K3) as V3'. destruct (turn_off (rval x + PI) (rval x') k1) as (_ & _ & C1 & S1). destruct (turn_off (PI - rval y) (rval y') k2) as (_ & _ & C2 & S2). destruct (turn_off (rval z + PI) (rval z') k3) as (_ & _ & C3 & S3).
    apply (entries_mono (5 * (32 * (B * B * d)))); [rewrite P43; lra |]. apply seq_close; [exact S | lra..].
Qed.
Lemma c155_euler_other fuel d e : e64_seq d <> e64_seq e -> e64_eq fuel d e = Ok false.
Proof. intros N. unfold e64_eq. destruct (e64_get d) as [[[a b] c] | |]; [| reflexivity..]. destruct (e64_get e) as [[[a' b'] c'] | |]; [| reflexivity..]. destruct (seq_eqb (e64_seq d) (e64_seq e)) eqn:K; [apply seq_eqb_true in K; contradiction | reflexivity]. Qed.
Lemma c155_unit x y z s : finite64 x -> finite64 y -> finite64 z -> exists b, e64_isUnitary (mkE64 (Some x) (Some y) (Some z) s) = Ok b /\ (b = true <-> rval x = 0 /\ rval y = 0 /\ rval z = 0).
Proof.
  intros Fx Fy Fz. pose proof (zero_test x Fx) as X. pose proof (zero_test y Fy) as Y. pose proof (zero_test z Fz) as Z. unfold e64_isUnitary, and3, zero_angle64, need64. cbn [e64_phi e64_theta e64_psi bind].
  destruct (SFeqb x zero64); [| eexists; split; [reflexivity |]; split; [discriminate | intros (K & _); apply X in K; discriminate]]. destruct (SFeqb y zero64); [| eexists; split; [reflexivity |]; split; [discriminate | intros (_ & K & _); apply Y in K; discriminate]].
  exists (SFeqb z zero64). split; [reflexivity |]. rewrite Z. tauto.
Qed.
Lemma c155_undefined fuel v w d e : (rv64_axis v = None \/ rv64_angle v = None -> rv64_eq fuel v w = Ok false /\ rv64_eq fuel w v = Ok false) /\ (e64_phi d = None \/ e64_theta d = None \/ e64_psi d = None \/ e64_seq d = SeqUndefined -> e64_eq fuel d e = Ok false /\ e64_eq fuel e d = Ok false) /\
  (e64_phi d = None -> e64_isUnitary d = Err EUndefined).
Proof.
  split; [| split].
  - intros H. assert (G : exists x, rv64_get v = Err x) by (exists EUndefined; unfold rv64_get; destruct v as [[a |] [t |]]; cbn [rv64_axis rv64_angle] in *; destruct H; congruence || reflexivity). destruct G as [x G]. unfold rv64_eq. rewrite G. split; [reflexivity |]. destruct (rv64_get w) as [[a t] | |]; reflexivity.
  - intros H. assert (G : exists x, e64_get d = Err x) by (exists EUndefined; unfold e64_get; destruct d as [[a |] [b |] [c |] s]; cbn [e64_phi e64_theta e64_psi e64_seq] in *; try reflexivity; destruct H as [H | [H | [H | H]]]; try congruence; subst s; reflexivity). destruct G as [x G]. unfold e64_eq. rewrite G. split; [reflexivity |]. destruct (e64_get e) as [[[a b] c] | |]; reflexivity.
  - intros H. unfold e64_isUnitary, and3, zero_angle64. rewrite H. reflexivity.
Qed.
Lemma c155_ne fuel v w d e b : (rv64_ne fuel v w = Ok b <-> rv64_eq fuel v w = Ok (negb b)) /\ (e64_ne fuel d e = Ok b <-> e64_eq fuel d e = Ok (negb b)).
Proof. unfold rv64_ne, e64_ne. split; [destruct (rv64_eq fuel v w) as [[|] | |] | destruct (e64_eq fuel d e) as [[|] | |]]; destruct b; cbn; split; congruence. Qed.
Lemma c155_unit_short x y z s : finite64 x -> rval x <> 0 -> e64_isUnitary (mkE64 (Some x) y z s) = Ok false.
Proof. intros Fx N. unfold e64_isUnitary, and3, zero_angle64, need64. cbn [e64_phi bind]. destruct (SFeqb x zero64) eqn:K; [apply zero_test in K; [contradiction | exact Fx] | reflexivity]. Qed.
Lemma zero_sequence s v : named_sequence s 0 0 0 v = v.
Proof. assert (Q : forall c w, frame_rotation c 0 w = w) by (intros c w; unfold frame_rotation; rewrite cos_0, sin_0; v3ring). destruct s; unfold named_sequence, frame_sequence; rewrite ?Q; reflexivity. Qed.
Lemma c155_unit_map x y z s : finite64 x -> finite64 y -> finite64 z -> e64_isUnitary (mkE64 (Some x) (Some y) (Some z) s) = Ok true -> forall v, named_sequence s (rval x) (rval y) (rval z) v = v.
Proof.
  intros Fx Fy Fz E v. destruct (c155_unit x y z s Fx Fy Fz) as (b & K & I). rewrite K in E. injection E as ->. destruct (proj1 I eq_refl) as (-> & -> & ->). apply zero_sequence.
Qed.
Lemma c155_unit_refuted : exists t, finite64 t /\ e64_isUnitary (mkE64 (Some t) (Some t) (Some t) ZYX) = Ok false /\ entries_within (P2 (-49)) (matrix_of (named_sequence ZYX (rval t) (rval t) (rval t))) (matrix_of (fun v => v)).
Proof.
  exists pi64. split; [vm_compute; reflexivity |]. split; [vm_compute; reflexivity |]. assert (I : matrix_of (fun v => v) = seq_matrix ZYX (0 + PI) (PI - 0) (0 + PI)). { rewrite seq_adjust. apply map_matrix. intros v. rewrite seq_matrix_named. apply zero_sequence. }
  rewrite I, named_matrix. destruct pi64_close as (_ & D & _). replace (0 + PI) with PI by ring. replace (PI - 0) with PI by ring. assert (E49 : P2 (-49) = 16 * e53) by (rewrite <- e53_P2; change (-49)%Z with (4 + -53)%Z; rewrite P2_add, <- P2_Z by lia; reflexivity). pose proof e53_pos as PE. pose proof (cos_close (rval pi64) PI). pose proof (sin_close (rval pi64) PI). apply (entries_mono (5 * (2 * e53))); [lra |]. apply seq_close; [discriminate | lra..].
Qed.
Lemma c155_euler_symmetric_refuted : exists x x', finite64 x /\ finite64 x' /\ let e := mkE64 (Some x) (Some zero64) (Some zero64) ZYX in let e' := mkE64 (Some x') (Some zero64) (Some zero64) ZYX in
  AngleSpec.returns (fun fuel => e64_eq fuel e e') false /\ AngleSpec.returns (fun fuel => e64_eq fuel e' e) true.
Proof.
  exists (S754_finite false 7205759403792794 (-56)), (sf_add (S754_finite false 7205759403792794 (-56)) two_pi64). split; [vm_compute; reflexivity |]. split; [vm_compute; reflexivity |]. cbv zeta. split; exists 5%nat; intros fuel H; do 5 (destruct fuel as [| fuel]; [lia |]); vm_compute; reflexivity.
Qed.
