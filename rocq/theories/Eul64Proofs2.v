(** The computed angles name the rotation, away from gimbal lock. *)

From Coq Require Import List Bool ZArith Reals Lra Lia Psatz Floats.SpecFloat.
From Verif Require Import Result Vec Mat3 VecProofs AngleModel FloatModel FloatSpec FloatProofs FloatProofs2 FloatProofs3 FloatProofs4 FloatProofs5 FloatProofs7 FloatProofs8 FloatProofs10
  Geo3Spec Geo3Proofs Geo3Proofs2 Geo64Model Geo64Spec Geo64Proofs Geo64Proofs2 Geo64Proofs3 Geo64Proofs4 Geo64Proofs5 Geo64Proofs6 Geo64Proofs7 Geo64Proofs8 RotModel RotSpec RotProofs RotProofs2 RotProofs3 RotProofs4 RotProofs5 RotProofs7 RotProofs9 Rot64Model Rot64Spec Rot64Spec2 Rot64Proofs Rot64Proofs2 Rot64Proofs3 Rot64Proofs4 Rot64Proofs5 Rot64Proofs6 Rot64Proofs7 Rot64Proofs8 Rot64Proofs9 Rot64Proofs10 Rot64Proofs11 Rot64Proofs12 Rot64Proofs13 Rot64Proofs14 Rot64Proofs15 Rot64Proofs16 Rot64Proofs17 Att64Model Att64Spec Att64Proofs Att64Proofs2 Att64Proofs3 Att64Proofs4 Att64Proofs5 Att64Proofs7 Att64Proofs8 Att64Proofs9 Att64Proofs10 Pow64Model Pow64Spec Pow64Proofs Pow64Proofs2 Pow64Proofs3 Pow64Proofs4 Dif64Model Dif64Spec Dif64Proofs RotProofs6 Dif64Proofs2 Dif64Proofs3 Dif64Proofs4 Att64Proofs6 Dif64Proofs5 Eul64Model Eul64Spec Eul64Proofs.
Import ListNotations.
Local Open Scope R_scope.

(** *** Directions *)
Lemma dot_below x y a : x * cos a + y * sin a <= sqrt (x * x + y * y).
Proof.
  destruct (Rle_or_lt (x * cos a + y * sin a) 0) as [N | N]; [eapply Rle_trans; [exact N | apply sqrt_pos] |]. rewrite <- (sqrt_square (x * cos a + y * sin a)) by lra. apply sqrt_le_1_alt. pose proof (sin2_cos2 a) as S. unfold Rsqr in S.
  assert (E : x * x + y * y - (x * cos a + y * sin a) * (x * cos a + y * sin a) = (x * sin a - y * cos a) * (x * sin a - y * cos a) + (x * x + y * y) * (1 - (sin a * sin a + cos a * cos a))) by ring. rewrite S in E. pose proof (Rle_0_sqr (x * sin a - y * cos a)) as Q. unfold Rsqr in Q. lra.
Qed.
Lemma direction_close x y a k d : 0 < k -> Rabs (x - k * cos a) <= d -> Rabs (y - k * sin a) <= d -> 2 * d < k ->
  let n := sqrt (x * x + y * y) in 0 < x * x + y * y /\ Rabs (x / n - cos a) <= 3 * d / k /\ Rabs (y / n - sin a) <= 3 * d / k.
Proof.
  intros K X Y L n. assert (D0 : 0 <= d) by (eapply Rle_trans; [apply Rabs_pos | exact X]). pose proof (COS_bound a) as CB. pose proof (SIN_bound a) as SB. pose proof (sin2_cos2 a) as SC. unfold Rsqr in SC.
  pose proof (dot_below x y a) as DB. fold n in DB. apply abs_le in X. apply abs_le in Y. assert (N1 : k - 2 * d <= n). { assert (E : x * cos a + y * sin a = k * (sin a * sin a + cos a * cos a) + (x - k * cos a) * cos a + (y - k * sin a) * sin a) by ring. rewrite SC in E. nra. }
  assert (NP : 0 < n) by lra. assert (SP : 0 < x * x + y * y). { apply Rnot_le_lt. intros C. assert (n = 0) by (apply sqrt_neg_0; exact C). lra. } split; [exact SP |]. assert (NN : n * n = x * x + y * y) by (apply sqrt_sqrt; lra). assert (XN : Rabs x <= n) by (apply abs_of; nra). assert (YN : Rabs y <= n) by (apply abs_of; nra). apply abs_le in XN. apply abs_le in YN.
  assert (N2 : n - 2 * d <= k). { assert (E : n * n - k * (x * cos a + y * sin a) = x * (x - k * cos a) + y * (y - k * sin a)) by (rewrite NN; ring). assert (n * n - k * n <= 2 * d * n) by nra. assert ((n - k - 2 * d) * n <= 0) by lra. nra. }
  assert (T : forall w v, - n <= w <= n -> - d <= w - k * v <= d -> Rabs (w / n - v) <= 3 * d / k).
  { intros w v W V. assert (Q : -1 <= w / n <= 1). { split; apply Rmult_le_reg_r with n; try exact NP; unfold Rdiv; rewrite Rmult_assoc, Rinv_l by lra; lra. } assert (E : w / n - v = ((w - k * v) + w / n * (k - n)) / k) by (field; lra). rewrite E. unfold Rdiv. rewrite Rabs_mult, (Rabs_pos_eq (/ k)) by (left; apply Rinv_0_lt_compat, K). apply Rmult_le_compat_r; [left; apply Rinv_0_lt_compat, K |]. apply abs_of. fold (w / n). nra. }
  split; apply T; lra.
Qed.
Lemma root_close z m h sg : 0 < h -> h * h = 1 - m * m -> Rabs (z - m) <= sg -> -1 <= z <= 1 -> -1 <= m <= 1 -> Rabs (sqrt (1 - z * z) - h) <= 2 * sg / h.
Proof.
  intros H E Z B M. set (g := sqrt (1 - z * z)). assert (G : g * g = 1 - z * z) by (apply sqrt_sqrt; nra). assert (G0 : 0 <= g) by apply sqrt_pos. apply abs_le in Z.
  assert (F : (g - h) * (g + h) = (m - z) * (m + z)) by lra. assert (K : Rabs (g - h) * h <= 2 * sg). { apply Rle_trans with (Rabs (g - h) * (g + h)); [apply Rmult_le_compat_l; [apply Rabs_pos | lra] |]. rewrite <- (Rabs_pos_eq (g + h)) by lra. rewrite <- Rabs_mult, F. apply abs_of. nra. }
  apply Rmult_le_reg_r with h; [exact H |]. replace (2 * sg / h * h) with (2 * sg) by (field; lra). exact K.
Qed.
Lemma asin_bound' x : Rabs (asin x) <= 1.6.
Proof. pose proof (asin_bound x). pose proof pi_digits. apply abs_of. lra. Qed.
(** *** The final adjustment *)
Lemma pi64_close : finite64 pi64 /\ Rabs (rval pi64 - PI) <= 2 * e53 /\ 3 <= rval pi64 <= 3.2.
Proof. destruct pi64_val as [F V]. pose proof pi_digits as PD. split; [exact F |]. rewrite V. split; [apply abs_of; unfold e53; lra | lra]. Qed.
Lemma radians_finite x : finite64 x -> radians64 x = Some x.
Proof. destruct x; reflexivity || contradiction. Qed.
Lemma shifted x : finite64 x -> Rabs (rval x) <= 4 -> (finite64 (sf_add x pi64) /\ Rabs (rval (sf_add x pi64) - (rval x + PI)) <= P2 (-49)) /\ (finite64 (sf_sub pi64 x) /\ Rabs (rval (sf_sub pi64 x) - (PI - rval x)) <= P2 (-49)).
Proof.
  intros F B. destruct pi64_close as (FP & VP & BP). apply abs_le in B. apply abs_le in VP. pose proof P2_big as PB. pose proof e53_pos as PE. rewrite <- e49. split.
  - assert (S : Rabs (rval x + rval pi64) <= 8) by (apply abs_of; lra). destruct (add_any x pi64 F FP ltac:(lra)) as [Fs Es]. split; [exact Fs |]. assert (e53 * Rabs (rval x + rval pi64) <= e53 * 8) by (apply Rmult_le_compat_l; lra). apply abs_le in Es. apply abs_of. lra.
  - assert (S : Rabs (rval pi64 - rval x) <= 8) by (apply abs_of; lra). destruct (sub_any pi64 x FP F ltac:(lra)) as [Fs Es]. split; [exact Fs |]. assert (e53 * Rabs (rval pi64 - rval x) <= e53 * 8) by (apply Rmult_le_compat_l; lra). apply abs_le in Es. apply abs_of. lra.
Qed.
Lemma cos_via x y t d : Rabs (x - y) <= d -> Rabs (cos x - t) <= Rabs (cos y - t) + d.
Proof. intros H. pose proof (cos_close x y) as C. replace (cos x - t) with ((cos y - t) + (cos x - cos y)) by ring. eapply Rle_trans; [apply Rabs_triang |]. lra. Qed.
Lemma sin_via x y t d : Rabs (x - y) <= d -> Rabs (sin x - t) <= Rabs (sin y - t) + d.
Proof. intros H. pose proof (sin_close x y) as C. replace (sin x - t) with ((sin y - t) + (sin x - sin y)) by ring. eapply Rle_trans; [apply Rabs_triang |]. lra. Qed.
Lemma adjusted s x y z a b c D : s <> SeqUndefined -> finite64 x -> finite64 y -> finite64 z -> Rabs (rval x) <= 4 -> Rabs (rval y) <= 4 -> Rabs (rval z) <= 4 ->
  Rabs (cos (rval x) - cos a) <= D -> Rabs (sin (rval x) - sin a) <= D -> Rabs (cos (rval y) - cos b) <= D -> Rabs (sin (rval y) - sin b) <= D -> Rabs (cos (rval z) - cos c) <= D -> Rabs (sin (rval z) - sin c) <= D ->
  exists f t p, e64_adjust x y z = mkE64 (Some f) (Some t) (Some p) ZYX /\ finite64 f /\ finite64 t /\ finite64 p /\ entries_within (5 * (D + P2 (-49))) (seq_matrix s (rval f) (rval t) (rval p)) (seq_matrix s a b c).
Proof.
  intros Hs Fx Fy Fz Bx By Bz A1 A2 B1 B2 C1 C2. destruct (shifted x Fx Bx) as [[FX SX] _]. destruct (shifted z Fz Bz) as [[FZ SZ] _]. destruct (shifted y Fy By) as [_ [FY SY]]. pose proof (P2_pos (-49)) as P9. unfold e64_adjust. destruct (SFltb x zero64).
  - rewrite !radians_finite by assumption. do 3 eexists. split; [reflexivity |]. split; [exact FX |]. split; [exact FY |]. split; [exact FZ |]. rewrite <- (seq_adjust s a b c). apply seq_close; [exact Hs |..].
    + eapply Rle_trans; [apply (cos_via _ _ _ _ SX) |]. rewrite !neg_cos. replace (- cos (rval x) - - cos a) with (- (cos (rval x) - cos a)) by ring. rewrite Rabs_Ropp. lra.
    + eapply Rle_trans; [apply (sin_via _ _ _ _ SX) |]. rewrite !neg_sin. replace (- sin (rval x) - - sin a) with (- (sin (rval x) - sin a)) by ring. rewrite Rabs_Ropp. lra.
    + eapply Rle_trans; [apply (cos_via _ _ _ _ SY) |]. rewrite !Rtrigo_facts.cos_pi_minus. replace (- cos (rval y) - - cos b) with (- (cos (rval y) - cos b)) by ring. rewrite Rabs_Ropp. lra.
    + eapply Rle_trans; [apply (sin_via _ _ _ _ SY) |]. rewrite !Rtrigo_facts.sin_pi_minus. lra.
    + eapply Rle_trans; [apply (cos_via _ _ _ _ SZ) |]. rewrite !neg_cos. replace (- cos (rval z) - - cos c) with (- (cos (rval z) - cos c)) by ring. rewrite Rabs_Ropp. lra.
    + eapply Rle_trans; [apply (sin_via _ _ _ _ SZ) |]. rewrite !neg_sin. replace (- sin (rval z) - - sin c) with (- (sin (rval z) - sin c)) by ring. rewrite Rabs_Ropp. lra.
  - rewrite !radians_finite by assumption. do 3 eexists. split; [reflexivity |]. split; [exact Fx |]. split; [exact Fy |]. split; [exact Fz |]. apply seq_close; [exact Hs |..]; lra.
Qed.
(** *** All three angles *)
Lemma euler_core fatan2 fasin e s M k h y1 x1 z y2 x2 d sg : s <> SeqUndefined -> is_rotation M -> 0 < h -> h * h = 1 - middle_entry s M * middle_entry s M -> atan2_within fatan2 e -> asin_within fasin e -> e <= / 1000 -> 0.9 <= k <= 1.1 ->
  finite64 y1 -> finite64 x1 -> finite64 z -> finite64 y2 -> finite64 x2 -> Rabs (rval y1 - k * first_sine s M) <= d -> Rabs (rval x1 - k * first_cosine s M) <= d -> Rabs (rval z - middle_entry s M) <= sg -> Rabs (rval y2 - k * last_sine s M) <= d -> Rabs (rval x2 - k * last_cosine s M) <= d ->
  4 * d <= h -> 2 * sg <= h * h ->
  exists f t p, e64_adjust (fatan2 y1 x1) (fasin z) (fatan2 y2 x2) = mkE64 (Some f) (Some t) (Some p) ZYX /\ finite64 f /\ finite64 t /\ finite64 p /\ entries_within (5 * (e + 4 * d / h + 2 * sg / h + P2 (-49))) (seq_matrix s (rval f) (rval t) (rval p)) M.
Proof.
  intros Hs HM HP HE HA HI E1 K Fy1 Fx1 Fz Fy2 Fx2 Y1 X1 Z Y2 X2 DH SH. destruct (exact_angles s M h HM Hs HP HE) as (a & b & c & HQ & SB & CB & CA & SA & CC & SC). rewrite <- CA in X1. rewrite <- SA in Y1. rewrite <- CC in X2. rewrite <- SC in Y2. rewrite <- Rmult_assoc in X1, Y1, X2, Y2.
  assert (D0 : 0 <= d) by (eapply Rle_trans; [apply Rabs_pos | exact X1]). assert (S0 : 0 <= sg) by (eapply Rle_trans; [apply Rabs_pos | exact Z]). set (m := middle_entry s M) in *. assert (H1 : h <= 1) by nra. assert (KH : 0.9 * h <= k * h <= 1.1 * h) by nra.
  assert (DK : 3 * d / (k * h) <= 4 * d / h). { unfold Rdiv. replace (3 * d * / (k * h)) with (3 * d * / k * / h) by (field; split; nra). apply Rmult_le_compat_r; [left; apply Rinv_0_lt_compat, HP |]. replace (4 * d) with (3 * d * (4 / 3)) by field. apply Rmult_le_compat_l; [lra |]. apply Rmult_le_reg_r with k; [lra |]. rewrite Rinv_l by lra. lra. }
  destruct (direction_close _ _ a (k * h) d ltac:(lra) X1 Y1 ltac:(lra)) as (P1 & U1 & V1). destruct (direction_close _ _ c (k * h) d ltac:(lra) X2 Y2 ltac:(lra)) as (P2' & U2 & V2).
  assert (BIG : forall w v t, Rabs (w - k * h * v) <= t -> t <= / 2 -> -1 <= v <= 1 -> Rabs w <= 2). { intros w v t W T V. apply abs_le in W. apply abs_of. nra. }
  pose proof (COS_bound a) as Ba. pose proof (SIN_bound a) as Ba'. pose proof (COS_bound c) as Bc. pose proof (SIN_bound c) as Bc'.
  destruct (HA y1 x1 Fy1 Fx1 (BIG _ _ _ Y1 ltac:(lra) Ba') (BIG _ _ _ X1 ltac:(lra) Ba) P1) as (Ff & Bf & Cf & Sf). destruct (HA y2 x2 Fy2 Fx2 (BIG _ _ _ Y2 ltac:(lra) Bc') (BIG _ _ _ X2 ltac:(lra) Bc) P2') as (Fp & Bp & Cp & Sp).
  assert (MB : -1 <= m <= 1) by nra. assert (ZB : -1 <= rval z <= 1). { pose proof (abs_le _ _ Z) as Z'. assert (m <= 1 - h * h / 2) by nra. assert (- (1 - h * h / 2) <= m) by nra. lra. }
  destruct (HI z Fz ZB) as [Ft Et]. pose proof (asin_bound' (rval z)) as AB. set (u := asin (rval z)) in *. assert (SU : sin u = rval z) by (apply sin_asin, ZB). assert (CU : cos u = sqrt (1 - rval z * rval z)) by (unfold u; rewrite cos_asin by exact ZB; reflexivity). pose proof (root_close (rval z) m h sg HP HE Z ZB MB) as RC. rewrite <- CU in RC.
  assert (SGH : sg <= 2 * sg / h). { apply Rmult_le_reg_r with h; [exact HP |]. replace (2 * sg / h * h) with (2 * sg) by (field; lra). nra. } assert (DH0 : 0 <= 4 * d / h) by (apply Rmult_le_pos; [lra | left; apply Rinv_0_lt_compat, HP]).
  rewrite <- HQ. replace (e + 4 * d / h + 2 * sg / h + P2 (-49)) with ((e + 4 * d / h + 2 * sg / h) + P2 (-49)) by ring.
  assert (TRI : forall x y w p q, Rabs (x - y) <= p -> Rabs (y - w) <= q -> Rabs (x - w) <= p + q). { intros x y w p q H2 H3. replace (x - w) with ((x - y) + (y - w)) by ring. eapply Rle_trans; [apply Rabs_triang |]. lra. }
  apply adjusted; try assumption.
  - apply abs_le in Et. apply abs_le in AB. apply abs_of. lra.
  - pose proof (TRI _ _ _ _ _ Cf U1). lra.
  - pose proof (TRI _ _ _ _ _ Sf V1). lra.
  - rewrite CB. pose proof (TRI _ _ _ _ _ (Rle_trans _ _ _ (cos_close (rval (fasin z)) u) Et) RC). lra.
  - rewrite SB. rewrite <- SU in Z. pose proof (TRI _ _ _ _ _ (Rle_trans _ _ _ (sin_close (rval (fasin z)) u) Et) Z). lra.
  - pose proof (TRI _ _ _ _ _ Cp U2). lra.
  - pose proof (TRI _ _ _ _ _ Sp V2). lra.
Qed.
