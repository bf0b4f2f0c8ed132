(** Normalization of vectors and quaternions close to a multiple of a known one; rotation vectors and their quaternions. *)

From Coq Require Import List Bool ZArith Reals Lra Lia Psatz Floats.SpecFloat.
From Verif Require Import Result Vec Mat3 VecProofs AngleModel FloatModel FloatSpec FloatProofs FloatProofs2 FloatProofs3 FloatProofs4 FloatProofs5 FloatProofs7 FloatProofs8 FloatProofs10
  Geo3Spec Geo3Proofs Geo3Proofs2 Geo64Model Geo64Spec Geo64Proofs Geo64Proofs2 Geo64Proofs3 Geo64Proofs4 Geo64Proofs5 Geo64Proofs6 Geo64Proofs7 Geo64Proofs8 RotModel RotSpec RotProofs RotProofs2 RotProofs3 Rot64Model Rot64Spec Rot64Spec2 Rot64Proofs Rot64Proofs2 Rot64Proofs3 Rot64Proofs4 Rot64Proofs5 Rot64Proofs6 Rot64Proofs7 Rot64Proofs8 Rot64Proofs9 Rot64Proofs10 Rot64Proofs11 Rot64Proofs12 Rot64Proofs13 Rot64Proofs14 Rot64Proofs15 Rot64Proofs16 Rot64Proofs17 Att64Model Att64Spec.
Import ListNotations.
Local Open Scope R_scope.

(** *** Normalization *)
Lemma fnorm3_tight r a : finite3 a -> within3 (P2 450) a -> P2 (-450) <= norm3 (val3 a) ->
  finite64 (fsqnorm3 r a) /\ 0 < rval (fsqnorm3 r a) /\ finite64 (fnorm3 r a) /\ Rabs (rval (fnorm3 r a) - norm3 (val3 a)) <= 2.6 * e53 * norm3 (val3 a).
Proof.
  intros F B L. destruct (fdot3_near r a a F F B B) as [Fs E]. pose proof (norm3_nonneg (val3 a)) as NP. set (N := norm3 (val3 a)) in *.
  assert (SN : dot3 (val3 a) (val3 a) = N * N) by (unfold N; rewrite norm3_sq; reflexivity). rewrite SN in E. apply abs_le in E.
  assert (PN : 0 < N) by (pose proof (P2_pos (-450)); lra). assert (S9 : P2 (-900) <= N * N) by (change (-900)%Z with (-450 + -450)%Z; rewrite P2_add; pose proof (P2_pos (-450)); apply Rmult_le_compat; lra).
  pose proof tiny_900 as T. pose proof (P2_pos (-900)) as P9.
  assert (Ps : 0 < rval (fdot3 r a a)) by (unfold e53 in *; lra). pose proof (sqrt_err _ Fs (Rlt_le _ _ Ps)) as K. rewrite e53_P2 in K.
  assert (Fn : finite64 (fnorm3 r a)) by (exact (proj1 (proj1 (SFsqrt_rounded _ Fs (Rlt_le _ _ Ps))))). split; [exact Fs |]. split; [exact Ps |]. split; [exact Fn |].
  unfold fnorm3, fsqnorm3, b64_sqrt in *. set (s := rval (fdot3 r a a)) in *. set (n := rval (SFsqrt 53 1024 (fdot3 r a a))) in *. pose proof (sqrt_pos s) as Q0. apply abs_le in K.
  pose proof (sqrt_rel s (N * N) (3.04 * e53) ltac:(nra) ltac:(unfold e53; lra)) as R. rewrite sqrt_square in R by exact NP.
  assert (R' : Rabs (sqrt s - N) <= 0.506 * (3.04 * e53) * N) by (apply R; apply abs_of; unfold e53 in *; lra). apply abs_le in R'. apply abs_of. unfold e53 in *. lra.
Qed.
Lemma tiny_e4 : tiny <= / 10000 * e53.
Proof. pose proof tiny_e. lra. Qed.
(** The length of a vector of three errors proportional to the coordinates. *)
Lemma norm_scaled d u c t : 0 <= c -> 0 <= t -> norm3 u = 1 -> Rabs (vx d) <= c * Rabs (vx u) + t -> Rabs (vy d) <= c * Rabs (vy u) + t -> Rabs (vz d) <= c * Rabs (vz u) + t -> norm3 d <= c + 1.7321 * t.
Proof.
  intros C T N X Y Z. eapply Rle_trans; [apply (norm3_coords d (add3 (V3 (c * Rabs (vx u)) (c * Rabs (vy u)) (c * Rabs (vz u))) (V3 t t t))); cbn [add3 vx vy vz]; assumption |].
  eapply Rle_trans; [apply norm3_triangle |]. apply Rplus_le_compat; [| apply norm3_diag; exact T].
  apply Rsqr_incr_0_var; [| exact C]. unfold Rsqr. rewrite norm3_sq. assert (S : sqnorm3 u = 1) by (rewrite <- norm3_sq, N; ring). unfold sqnorm3, dot3 in *. cbn [vx vy vz].
  assert (G : forall x, c * Rabs x * (c * Rabs x) = c * c * (x * x)) by (intros x; replace (c * Rabs x * (c * Rabs x)) with (c * c * (Rabs x * Rabs x)) by ring; rewrite <- Rabs_mult, (Rabs_pos_eq (x * x)) by apply VecProofs.sq_nonneg; reflexivity).
  rewrite !G. replace (c * c) with (c * c * 1) at 4 by ring. rewrite <- S. lra.
Qed.
Lemma normalized_tight r a : finite3 a -> within3 (P2 450) a -> P2 (-450) <= norm3 (val3 a) ->
  finite3 (fnormalized3 r a) /\ dist3 (val3 (fnormalized3 r a)) (direction (val3 a)) <= 3.62 * e53.
Proof.
  intros F B L. destruct (fnorm3_tight r a F B L) as (Fs & Ps & Fn & En). pose proof (P2_pos (-450)). set (N := norm3 (val3 a)) in *. assert (PN : 0 < N) by lra.
  unfold fnormalized3. rewrite (ltb_t zero64 _ I Fs) by exact Ps. fold (fnorm3 r a). destruct F as (F1 & F2 & F3). destruct (coordinate_le (val3 a)) as (C1 & C2 & C3). fold N in C1, C2, C3. unfold val3 in C1, C2, C3; cbn [vx vy vz] in C1, C2, C3.
  assert (LD : forall x, Rabs x <= N -> Rabs x / N <= P2 900).
  { intros x H0. apply Rle_trans with 1; [| apply P2_900]. apply Rmult_le_reg_r with N; [exact PN |]. unfold Rdiv. rewrite Rmult_assoc, Rinv_l by lra. lra. }
  destruct (div_len _ _ N 2.6 F1 Fn PN ltac:(lra) En (LD _ C1)) as [G1 E1]. destruct (div_len _ _ N 2.6 F2 Fn PN ltac:(lra) En (LD _ C2)) as [G2 E2]. destruct (div_len _ _ N 2.6 F3 Fn PN ltac:(lra) En (LD _ C3)) as [G3 E3].
  split; [repeat split; assumption |]. assert (Q : forall x, Rabs (/ N * x) = Rabs x / N) by (intros x; rewrite Rabs_mult, Rabs_pos_eq by (apply Rlt_le, Rinv_0_lt_compat; exact PN); unfold Rdiv; ring).
  assert (Q' : forall x, / N * x = x / N) by (intros; unfold Rdiv; ring).
  unfold dist3. pose proof tiny_e4. pose proof tiny_pos. eapply Rle_trans; [apply (norm_scaled _ (direction (val3 a)) ((2.6 + 1.01) * e53) tiny) |]; unfold fdiv3, direction, scale3, sub3, val3; cbn [vx vy vz fx fy fz]; try (fold (val3 a); fold N; rewrite ?Q, Q'; assumption).
  - unfold e53; lra.
  - lra.
  - fold (val3 a); fold N. change (norm3 (scale3 (/ N) (val3 a)) = 1). unfold N. apply unit_norm. exact PN.
  - unfold e53 in *; lra.
Qed.
Lemma direction_norm v : 0 < norm3 v -> norm3 (direction v) = 1.
Proof. exact (unit_norm v). Qed.
Lemma normalized_len r a : finite3 a -> within3 (P2 450) a -> P2 (-450) <= norm3 (val3 a) -> Rabs (norm3 (val3 (fnormalized3 r a)) - 1) <= 3.62 * e53.
Proof.
  intros F B L. destruct (normalized_tight r a F B L) as [_ D]. pose proof (norm_dist (val3 (fnormalized3 r a)) (direction (val3 a))) as N. rewrite direction_norm in N by (pose proof (P2_pos (-450)); lra). lra.
Qed.

(** A quaternion close to a positive multiple of a unit one. *)
Lemma len4_times k q : len4 (times4 k q) = Rabs k * len4 q.
Proof. unfold len4. replace (sq (times4 k q)) with (k * k * sq q) by (unfold sq, times4; cbn [qx qy qz qs]; ring). rewrite sqrt_mult by (try apply sq_nonneg; apply VecProofs.sq_nonneg). f_equal. apply sqrt_Rsqr_abs. Qed.
Lemma gap4_times k p q : 0 <= k -> gap4 (times4 k p) (times4 k q) = k * gap4 p q.
Proof. intros P. unfold gap4. replace (Q4 (qx (times4 k p) - qx (times4 k q)) _ _ _) with (times4 k (Q4 (qx p - qx q) (qy p - qy q) (qz p - qz q) (qs p - qs q))) by (unfold times4; cbn [qx qy qz qs]; f_equal; ring). apply len_times, P. Qed.
Lemma unit_gap v q k D : len4 q = 1 -> 0 < k -> gap4 v (times4 k q) <= D -> 0 < len4 v -> gap4 (times4 (/ len4 v) v) q <= 2 * (D / k).
Proof.
  intros L K G P. pose proof (len4_gap v (times4 k q)) as LG. rewrite len4_times, L, Rmult_1_r, (Rabs_pos_eq k) in LG by lra. set (N := len4 v) in *.
  eapply Rle_trans; [apply (gap4_triangle _ (times4 (/ k) v)) |].
  assert (E : q = times4 (/ k) (times4 k q)) by (destruct q as [q1 q2 q3 q4]; unfold times4; cbn [qx qy qz qs]; f_equal; field; lra). replace (gap4 (times4 (/ k) v) q) with (gap4 (times4 (/ k) v) (times4 (/ k) (times4 k q))) by (rewrite <- E; reflexivity). rewrite gap4_times by (apply Rlt_le, Rinv_0_lt_compat, K).
  assert (G1 : gap4 (times4 (/ N) v) (times4 (/ k) v) = Rabs (/ N - / k) * N).
  { unfold gap4. replace (Q4 _ _ _ _) with (times4 (/ N - / k) v) by (unfold times4; cbn [qx qy qz qs]; f_equal; ring). rewrite len4_times. reflexivity. }
  rewrite G1. replace (Rabs (/ N - / k) * N) with (Rabs (N - k) * / k).
  2:{ replace (/ N - / k) with (- (N - k) * (/ N * / k)) by (field; lra). rewrite Rabs_mult, Rabs_Ropp, (Rabs_pos_eq (/ N * / k)) by (apply Rmult_le_pos; apply Rlt_le, Rinv_0_lt_compat; lra). field. lra. }
  pose proof (Rinv_0_lt_compat k K) as IK. assert (A1 : Rabs (N - k) * / k <= D * / k) by (apply Rmult_le_compat_r; lra). assert (A2 : / k * gap4 v (times4 k q) <= / k * D) by (apply Rmult_le_compat_l; lra). unfold Rdiv. lra.
Qed.
Lemma inv_small : P2 (-450) <= / 1000.
Proof. apply Rle_trans with (P2 (-10)); [apply P2_mono; lia | rewrite P2_m by lia; apply Rinv_le_contravar; [lra | apply IZR_le; lia]]. Qed.
Lemma normal_target eps v q k D : finite4 v -> finite64 eps -> len4 q = 1 -> P2 (-440) <= k <= 100 -> gap4 (val4 v) (times4 k q) <= D -> D <= k / 4 -> rval eps <= k / 2 ->
  exists u, q64_normalize eps (Some v) = Ok u /\ finite4 u /\ gap4 (val4 u) q <= 2 * (D / k) + 4.07 * e53 /\ Rabs (len4 (val4 u) - 1) <= 4.07 * e53 /\
    forall t, finite64 t -> P2 (-50) <= rval t -> q64_isUnitary (Some u) (Some t) = Ok true.
Proof.
  intros F Fe L K G HD He. pose proof (P2_pos (-440)) as P440. pose proof (len4_gap (val4 v) (times4 k q)) as LG. rewrite len4_times, L, Rmult_1_r, (Rabs_pos_eq k) in LG by lra. apply abs_le in LG.
  assert (P8 : 128 <= P2 450) by (pose proof (P2_mono 7 450 ltac:(lia)) as M; rewrite <- (P2_Z 7) in M by lia; exact M).
  assert (P0 : P2 (-450) <= P2 (-440) / 1000) by (replace (-440)%Z with (10 + -450)%Z by reflexivity; rewrite P2_add, <- (P2_Z 10) by lia; pose proof (P2_pos (-450)); replace (IZR (2 ^ 10)) with 1024 by reflexivity; lra).
  assert (W : within4 (P2 450) v) by (apply within_len; [exact F | lra]). assert (LV : P2 (-450) <= len4 (val4 v)) by lra.
  destruct (c132_normalize eps v Fe F W LV) as [NA _]. destruct NA as (u & Eu & Fu & Gu & Uu).
  { rewrite <- e51. assert (e53 * len4 (val4 v) <= / 1000 * len4 (val4 v)) by (apply Rmult_le_compat_r; [lra | unfold e53; lra]). lra. }
  exists u. split; [exact Eu |]. split; [exact Fu |]. pose proof (normalize_eq _ _ _ Eu) as EN. split; [| split; [| exact Uu]].
  - subst u. eapply Rle_trans; [apply (gap4_triangle _ (times4 (/ len4 (val4 v)) (val4 v))) |]. pose proof (unit_gap (val4 v) q k D L ltac:(lra) G ltac:(lra)). pose proof (proj2 (fnormal4_err v F W LV)). lra.
  - subst u. exact (fnormal4_len v F W LV).
Qed.

(** *** Axes *)
Lemma rv64_new r eps a t : finite3 a -> within3 (P2 450) a -> finite64 eps -> 0 <= rval eps <= / 4 ->
  (Rabs (norm3 (val3 a) - 1) + 4.3 * e53 <= rval eps -> RotationVector64 r eps (Some a) t = Ok (mkRV64 (Some (fnormalized3 r a)) t)) /\
  (rval eps + 4.3 * e53 < Rabs (norm3 (val3 a) - 1) -> RotationVector64 r eps (Some a) t = Err ERuntime).
Proof.
  intros F B Fe He. destruct (fnorm3_any r a F B) as (Fn & Bn & E). destruct (minus_one _ Fn ltac:(rewrite Rabs_pos_eq by lra; lra)) as [Fm Em]. destruct (abs_val _ Fm) as [Fa Va]. pose proof (norm3_nonneg (val3 a)) as NP.
  pose proof e53_pos as PE. unfold RotationVector64. set (N := norm3 (val3 a)) in *. set (n := rval (fnorm3 r a)) in *. set (m := rval (sf_sub (fnorm3 r a) one_64)) in *. split; intros H.
  - assert (HN : Rabs (N - 1) <= / 4) by lra. apply abs_le in HN. destruct E as [E | [E _]]; [| lra]. rewrite (ltb_f eps _ Fe Fa); [reflexivity |]. rewrite Va. fold m.
    assert (E2 : Rabs (n - 1) <= Rabs (N - 1) + 2.6 * e53 * 1.25).
    { replace (n - 1) with (n - N + (N - 1)) by ring. eapply Rle_trans; [apply Rabs_triang |]. assert (2.6 * e53 * N <= 2.6 * e53 * 1.25) by (apply Rmult_le_compat_l; lra). lra. }
    assert (E3 : Rabs m <= Rabs (n - 1) + e53 * Rabs (n - 1)) by (replace m with (m - (n - 1) + (n - 1)) by ring; eapply Rle_trans; [apply Rabs_triang |]; lra). assert (Rabs (N - 1) <= / 4) by lra. unfold e53 in *. lra.
  - rewrite (ltb_t eps _ Fe Fa); [reflexivity |]. rewrite Va. fold m. pose proof (Rabs_pos (n - 1)) as PP.
    assert (E3 : Rabs (n - 1) <= Rabs m + e53 * Rabs (n - 1)) by (replace (n - 1) with (m - (m - (n - 1))) at 1 by ring; eapply Rle_trans; [apply Rabs_triang |]; rewrite Rabs_Ropp; lra).
    destruct E as [E | [E1 E2]]; [| assert (E4 : 0.7 <= Rabs (n - 1)) by (apply Rle_trans with (- (n - 1)); [lra | rewrite <- Rabs_Ropp; apply Rle_abs]); unfold e53 in *; lra].
    assert (E4 : Rabs (N - 1) <= Rabs (n - 1) + 2.6 * e53 * N) by (replace (N - 1) with (n - 1 - (n - N)) by ring; eapply Rle_trans; [apply Rabs_triang |]; rewrite Rabs_Ropp; lra).
    assert (E5 : N <= 1 + Rabs (N - 1)) by (pose proof (Rle_abs (N - 1)); lra). assert (E6 : 2.6 * e53 * N <= 2.6 * e53 * (1 + Rabs (N - 1))) by (apply Rmult_le_compat_l; lra).
    set (X := Rabs (N - 1)) in *. set (Y := Rabs (n - 1)) in *. destruct (Rle_lt_dec X 0.26) as [LX | LX]; unfold e53 in *; lra.
Qed.
