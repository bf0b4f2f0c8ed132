From Coq Require Import List Bool ZArith Reals Lra Lia Psatz Floats.SpecFloat.
From Verif Require Import Result Vec Mat3 VecProofs AngleModel FloatModel FloatSpec FloatProofs FloatProofs2 FloatProofs3 FloatProofs4 FloatProofs5 FloatProofs7 FloatProofs8 FloatProofs10
  Geo3Spec Geo3Proofs Geo3Proofs2 Geo64Model Geo64Spec Geo64Proofs Geo64Proofs2 Geo64Proofs3 Geo64Proofs4 Geo64Proofs5 Geo64Proofs6 Geo64Proofs8 RotModel RotSpec RotProofs RotProofs2 Rot64Model Rot64Spec Rot64Spec2 Rot64Proofs Rot64Proofs2 Rot64Proofs3 Rot64Proofs4 Rot64Proofs5 Rot64Proofs6 Rot64Proofs7 Rot64Proofs8 Rot64Proofs9 Rot64Proofs10 Rot64Proofs11 Rot64Proofs12 Rot64Proofs13 Rot64Proofs14 Rot64Proofs15 Rot64Proofs16.
Import ListNotations.
Local Open Scope R_scope.

Definition long133 : f4 := F4 zero64 zero64 zero64 (S754_finite false (2 ^ 52 + 4) (-52)).
Definition sixteen64 : spec_float := S754_finite false 4503599627370496 (-101).
Lemma sixteen_val : finite64 sixteen64 /\ rval sixteen64 = 16 * e53.
Proof.
  split; [vm_compute; repeat split; reflexivity || discriminate |]. unfold sixteen64. rewrite rval_sg. cbn [sg]. replace (P2 (-101)) with (P2 (-48) * e53) by (rewrite <- e53_P2, <- P2_add; reflexivity).
  rewrite P2_m by lia. change (2 ^ (- -48))%Z with 281474976710656%Z. lra.
Qed.
Lemma c135_refuted : exists q, finite4 q /\ forall r eps v, finite64 eps -> P2 (-50) <= rval eps < P2 (-49) ->
  q64_isUnitary (Some q) (Some eps) = Ok true /\ rm64_of_quaternion r eps (Some q) = Err ERuntime /\ exists w, q64_rotateVector r (Some q) (Some v) (Some eps) = Ok w.
Proof.
  exists long133. split; [vm_compute; repeat split; reflexivity || discriminate |]. intros r eps v Fe He. rewrite <- e50, <- e49 in He. pose proof e53_pos.
  assert (U : q64_isUnitary (Some long133) (Some eps) = Ok true).
  { unfold q64_isUnitary. cbn [need3 bind]. replace (SFleb eps zero64) with false by (symmetry; apply not_true_is_false; intros H'; apply SFleb_val in H'; [change (rval zero64) with 0 in H'; lra | exact Fe | exact I]).
    replace (SFabs (sf_sub (fnorm4 long133) one_64)) with eight64 by (vm_compute; reflexivity). destruct eight_val as [F8 V8]. f_equal. apply (SFleb_val _ _ F8 Fe). lra. }
  split; [exact U |]. split; [| exists (frotate r long133 v); apply rotate_ok; exact U].
  unfold rm64_of_quaternion. cbn [need3 bind]. rewrite U. cbn [bind negb]. replace (q64_eq (Some long133) (Some q64_Unit)) with false by (vm_compute; reflexivity). unfold RotationMatrix64.
  rewrite (checks_some r eps (fmatrix long133) sixteen64 Fe (proj1 sixteen_val)); [reflexivity | | rewrite (proj2 sixteen_val); lra].
  replace sixteen64 with (nth 0 (checks64 r (fmatrix long133)) zero64) by (destruct r; vm_compute; reflexivity). apply nth_In. cbn [checks64 length]. lia.
Qed.
Lemma c135_errors r eps q : rm64_of_quaternion r eps None = Err EUndefined /\ q64_of_matrix r eps None = Err EUndefined /\ (q64_isUnitary (Some q) (Some eps) = Ok false -> rm64_of_quaternion r eps (Some q) = Err ERuntime).
Proof. split; [reflexivity |]. split; [reflexivity |]. intros U. unfold rm64_of_quaternion. cbn [need3 bind]. rewrite U. reflexivity. Qed.

Lemma turning_matrix q : turning4 q = q_matrix q.
Proof. unfold turning4. rewrite !turned_rot, <- !rot_matrix. destruct q as [x y z s]. unfold of_cols, mulv3, row3, dot3, q_matrix; cbn [vx vy vz qx qy qz qs m00 m01 m02 m10 m11 m12 m20 m21 m22]. f_equal; ring. Qed.
Lemma c135_accepted r eps q d : finite4 q -> finite64 eps -> 0 <= d <= P2 (-26) -> Rabs (len4 (val4 q) - 1) <= d -> 2 * d + P2 (-48) <= rval eps <= / 4 ->
  exists m, rm64_of_quaternion r eps (Some q) = Ok m /\ finite33 m /\ entries_within (P2 (-50)) (val33 m) (turning4 (val4 q)) /\ orthonormal_up_to (5 * d + P2 (-48)) (val33 m).
Proof. rewrite turning_matrix. apply of_quaternion_accepted. Qed.
Lemma c135_entries r eps q m : finite4 q -> within4 (P2 450) q -> finite64 eps -> 0 < rval eps <= P2 (-26) -> rm64_of_quaternion r eps (Some q) = Ok m ->
  q64_isUnitary (Some q) (Some eps) = Ok true /\ finite33 m /\ RotationMatrix64 r eps m = Ok m /\ entries_within (P2 (-50)) (val33 m) (turning4 (val4 q)).
Proof. rewrite turning_matrix. apply of_quaternion_entries. Qed.

(** *** From a matrix back to a quaternion *)
(** Normalizing a perturbed multiple. *)
Lemma normal_gap v w q k D : len4 q = 1 -> w = times4 k q -> gap4 v w <= D -> 1.9 <= Rabs k -> 0 <= D <= / 10 ->
  1.8 <= len4 v /\ (gap4 (times4 (/ len4 v) v) q <= 1.06 * D \/ gap4 (times4 (/ len4 v) v) (negq q) <= 1.06 * D).
Proof.
  intros L W G K HD. assert (LW : len4 w = Rabs k).
  { rewrite W. unfold len4. replace (sq (times4 k q)) with (k * k * sq q) by (unfold sq, times4; cbn [qx qy qz qs]; ring). rewrite sqrt_mult by (try apply sq_nonneg; apply VecProofs.sq_nonneg). fold (len4 q). rewrite L, Rmult_1_r. replace (k * k) with (Rsqr k) by reflexivity. apply sqrt_Rsqr_abs. }
  pose proof (len4_gap v w) as LG. rewrite LW in LG. apply abs_le in LG. assert (LV : 1.8 <= len4 v) by lra. split; [exact LV |].
  set (N := len4 v) in *. set (A := Rabs k) in *.
  assert (T : gap4 (times4 (/ N) v) (times4 (/ A) w) <= 1.06 * D).
  { eapply Rle_trans; [apply (gap4_triangle _ (times4 (/ A) v)) |].
    assert (G1 : gap4 (times4 (/ N) v) (times4 (/ A) v) = Rabs (/ N - / A) * N).
    { unfold gap4. replace (Q4 _ _ _ _) with (times4 (/ N - / A) v) by (unfold times4; cbn [qx qy qz qs]; f_equal; ring). unfold len4. replace (sq (times4 (/ N - / A) v)) with ((/ N - / A) * (/ N - / A) * sq v) by (unfold sq, times4; cbn [qx qy qz qs]; ring).
      rewrite sqrt_mult by (try apply sq_nonneg; apply VecProofs.sq_nonneg). fold (len4 v). f_equal. apply sqrt_Rsqr_abs. }
    assert (G2 : gap4 (times4 (/ A) v) (times4 (/ A) w) = / A * gap4 v w).
    { unfold gap4. replace (Q4 (qx (times4 (/ A) v) - qx (times4 (/ A) w)) _ _ _) with (times4 (/ A) (Q4 (qx v - qx w) (qy v - qy w) (qz v - qz w) (qs v - qs w))) by (unfold times4; cbn [qx qy qz qs]; f_equal; ring). apply len_times. apply Rlt_le, Rinv_0_lt_compat. lra. }
    rewrite G1, G2. replace (Rabs (/ N - / A) * N) with (Rabs (A - N) * / A).
    2:{ replace (/ N - / A) with ((A - N) * (/ N * / A)) by (field; lra). rewrite Rabs_mult, (Rabs_pos_eq (/ N * / A)) by (apply Rmult_le_pos; apply Rlt_le, Rinv_0_lt_compat; lra). field. lra. }
    assert (GA : Rabs (A - N) <= D) by (apply abs_of; lra). apply Rmult_le_reg_r with A; [lra |]. rewrite Rmult_plus_distr_r. replace (Rabs (A - N) * / A * A) with (Rabs (A - N)) by (field; lra). replace (/ A * gap4 v w * A) with (gap4 v w) by (field; lra).
    assert (1.06 * D * 1.9 <= 1.06 * D * A) by (apply Rmult_le_compat_l; lra). lra. }
  assert (KZ : k <> 0) by (intros Z; unfold A in K; rewrite Z, Rabs_R0 in K; lra).
  assert (E : times4 (/ A) w = q \/ times4 (/ A) w = negq q).
  { rewrite W. unfold A. destruct (Rle_lt_dec 0 k) as [P | P]; [left; rewrite Rabs_pos_eq by exact P | right; rewrite Rabs_left by exact P]; destruct q as [x y z s]; unfold times4, negq; cbn [qx qy qz qs]; f_equal; field; exact KZ. }
  destruct E as [E | E]; rewrite E in T; [left | right]; exact T.
Qed.
(** One branch: the unnormalized quaternion is 4 k q, up to an error. *)
Lemma branch_ok eps v q k e1 e2 e3 e4 D : finite4 v -> finite64 eps -> rval eps <= 1 -> len4 q = 1 -> 1.9 <= Rabs k <= 5 -> 0 <= D <= / 10 ->
  Rabs (rval (q64x v) - k * qx q) <= e1 -> Rabs (rval (q64y v) - k * qy q) <= e2 -> Rabs (rval (q64z v) - k * qz q) <= e3 -> Rabs (rval (q64s v) - k * qs q) <= e4 ->
  e1 * e1 + e2 * e2 + e3 * e3 + e4 * e4 <= D * D ->
  exists q', q64_normalize eps (Some v) = Ok q' /\ finite4 q' /\ (gap4 (val4 q') q <= 1.06 * D + 8 * e53 \/ gap4 (val4 q') (negq q) <= 1.06 * D + 8 * e53) /\
    forall t, finite64 t -> P2 (-50) <= rval t -> q64_isUnitary (Some q') (Some t) = Ok true.
Proof.
  intros F Fe He L K HD E1 E2 E3 E4 S. assert (G : gap4 (val4 v) (times4 k q) <= D) by (apply (gap4_le _ _ e1 e2 e3 e4); unfold val4, times4; cbn [qx qy qz qs]; try assumption; lra).
  destruct (normal_gap _ _ q k D L eq_refl G ltac:(lra) HD) as [LV N]. pose proof (len4_gap (val4 v) (times4 k q)) as LG. assert (LK : len4 (times4 k q) = Rabs k).
  { unfold len4. replace (sq (times4 k q)) with (k * k * sq q) by (unfold sq, times4; cbn [qx qy qz qs]; ring). rewrite sqrt_mult by (try apply sq_nonneg; apply VecProofs.sq_nonneg). fold (len4 q). rewrite L, Rmult_1_r. apply sqrt_Rsqr_abs. }
  rewrite LK in LG. apply abs_le in LG. assert (P8 : 8 <= P2 450) by (pose proof (P2_mono 3 450 ltac:(lia)) as M; rewrite <- (P2_Z 3) in M by lia; exact M). assert (P0 : P2 (-450) <= 1) by (pose proof (P2_mono (-450) 0 ltac:(lia)) as M; rewrite P2_0 in M; exact M).
  destruct (c132_normalize eps v Fe F ltac:(apply within_len; [exact F | lra]) ltac:(lra)) as [NA _]. destruct NA as (u & Eu & Fu & Gu & Uu).
  { rewrite <- e51. assert (e53 * len4 (val4 v) <= / 1000 * len4 (val4 v)) by (apply Rmult_le_compat_r; [lra | unfold e53; lra]). lra. }
  exists u. split; [exact Eu |]. split; [exact Fu |]. split; [| exact Uu]. rewrite <- e50 in Gu.
  destruct N as [N | N]; [left | right]; (eapply Rle_trans; [apply (gap4_triangle _ (times4 (/ len4 (val4 v)) (val4 v))) |]; lra).
Qed.
Lemma near_3 (x y : spec_float) a b e : near64 x a e -> near64 y b e -> Rabs a <= 1 -> Rabs b <= 1 -> e <= / 100 ->
  near64 (sf_sub x y) (a - b) (2 * e + 2.1 * e53) /\ near64 (sf_add x y) (a + b) (2 * e + 2.1 * e53).
Proof.
  intros N1 N2 A B H. pose proof (near_nonneg _ _ _ N1). assert (PB : 4 <= P2 1023) by (pose proof (P2_mono 2 1023 ltac:(lia)) as M; rewrite <- (P2_Z 2) in M by lia; exact M). split.
  - refine (near_le _ _ _ _ (near_sub _ _ _ _ _ _ 1 1 N1 N2 A B _) _); unfold e53; lra.
  - refine (near_le _ _ _ _ (near_add _ _ _ _ _ _ 1 1 N1 N2 A B _) _); unfold e53; lra.
Qed.
Lemma near_trace r x y z a b c e : near64 x a e -> near64 y b e -> near64 z c e -> Rabs a <= 1 -> Rabs b <= 1 -> Rabs c <= 1 -> e <= / 100 ->
  near64 (sum64 r x y z) (a + b + c) (3 * e + 6.1 * e53).
Proof.
  intros N1 N2 N3 A B C H. pose proof (near_nonneg _ _ _ N1). assert (PB : 8 <= P2 1023) by (pose proof (P2_mono 3 1023 ltac:(lia)) as M; rewrite <- (P2_Z 3) in M by lia; exact M).
  refine (near_le _ _ _ _ (near_sum64 r _ _ _ _ _ _ _ _ _ 1 1 1 N1 N2 N3 A B C _) _); unfold e53; lra.
Qed.
Lemma near_peak x t a c e : near64 x a e -> near64 t c (3 * e + 6.1 * e53) -> Rabs a <= 1 -> Rabs c <= 3 -> e <= / 100 ->
  near64 (sf_sub (sf_add one_64 (b64_mul two_64 x)) t) (1 + 2 * a - c) (5 * e + 17.6 * e53) /\ near64 (sf_add one_64 t) (1 + c) (3 * e + 10.3 * e53).
Proof.
  intros N1 N2 A C H. pose proof (near_nonneg _ _ _ N1). assert (PB : 8 <= P2 1023) by (pose proof (P2_mono 3 1023 ltac:(lia)) as M; rewrite <- (P2_Z 3) in M by lia; exact M).
  destruct two_val as [F2 V2]. pose proof (near_exact two_64 F2) as NE. rewrite V2 in NE. pose proof (near_exact one_64 (proj1 one_val)) as N0. rewrite (proj2 one_val) in N0.
  assert (A1 : Rabs 1 <= 1) by (rewrite Rabs_pos_eq; lra). assert (A2 : Rabs 2 <= 2) by (rewrite Rabs_pos_eq; lra).
  assert (T : tiny <= / 1000 * e53) by (rewrite <- e53_P2; unfold tiny; apply Rle_trans with (P2 (-10) * P2 (-53)); [rewrite <- P2_add; apply P2_mono; lia | apply Rmult_le_compat_r; [apply Rlt_le, P2_pos | rewrite (P2_m (-10)) by lia; change (2 ^ (- -10))%Z with 1024%Z; lra]]).
  pose proof tiny_pos. assert (M : near64 (b64_mul two_64 x) (2 * a) (2 * e + 2.1 * e53)) by (refine (near_le _ _ _ _ (near_mul _ _ _ _ _ _ 2 1 NE N1 A2 A _) _); unfold e53 in *; lra).
  assert (AM : Rabs (2 * a) <= 2) by (rewrite Rabs_mult, (Rabs_pos_eq 2) by lra; lra).
  assert (S : near64 (sf_add one_64 (b64_mul two_64 x)) (1 + 2 * a) (2 * e + 5.3 * e53)) by (refine (near_le _ _ _ _ (near_add _ _ _ _ _ _ 1 2 N0 M A1 AM _) _); unfold e53 in *; lra).
  assert (AS : Rabs (1 + 2 * a) <= 3) by (eapply Rle_trans; [apply Rabs_triang | lra]). split.
  - refine (near_le _ _ _ _ (near_sub _ _ _ _ _ _ 3 3 S N2 AS C _) _); unfold e53 in *; lra.
  - refine (near_le _ _ _ _ (near_add _ _ _ _ _ _ 1 3 N0 N2 A1 C _) _); unfold e53 in *; lra.
Qed.
Lemma leb3 a b c d e f : finite64 a -> finite64 b -> finite64 c -> finite64 d -> finite64 e -> finite64 f ->
  (SFleb a b && SFleb c d && SFleb e f = true <-> rval a <= rval b /\ rval c <= rval d /\ rval e <= rval f).
Proof.
  intros Fa Fb Fc Fd Fe Ff. rewrite !andb_true_iff, !SFleb_val by assumption. tauto.
Qed.
Lemma max4 t a b c : (a <= t /\ b <= t /\ c <= t) \/ (t <= a /\ b <= a /\ c <= a) \/ (a <= b /\ t <= b /\ c <= b) \/ (a <= c /\ b <= c /\ t <= c).
Proof. destruct (Rle_dec a t), (Rle_dec b t), (Rle_dec c t), (Rle_dec a b), (Rle_dec a c), (Rle_dec b c); first [left; repeat split; lra | right; left; repeat split; lra | right; right; left; repeat split; lra | right; right; right; repeat split; lra]. Qed.
Lemma of_matrix_near r eps m q e : finite33 m -> finite64 eps -> rval eps <= 1 -> len4 q = 1 -> e <= / 100 -> entries_within e (val33 m) (q_matrix q) ->
  exists q', q64_of_matrix r eps (Some m) = Ok q' /\ finite4 q' /\ (gap4 (val4 q') q <= 6.5 * e + P2 (-48) \/ gap4 (val4 q') (negq q) <= 6.5 * e + P2 (-48)) /\
    forall t, finite64 t -> P2 (-50) <= rval t -> q64_isUnitary (Some q') (Some t) = Ok true.
Proof.
  intros F Fe He L HE H. pose proof e53_pos as PE. destruct F as ((A0 & A1 & A2) & (B0 & B1 & B2) & (C0 & C1 & C2)).
  assert (SQ : qx q * qx q + qy q * qy q + qz q * qz q + qs q * qs q = 1) by (fold (sq q); rewrite <- len4_sq, L; ring).
  destruct (H 0%nat ltac:(lia)) as (E00 & E01 & E02). destruct (H 1%nat ltac:(lia)) as (E10 & E11 & E12). destruct (H 2%nat ltac:(lia)) as (E20 & E21 & E22). clear H.
  unfold q64_of_matrix. cbn [need3 bind]. unfold row3, val33, of_cols, q_matrix, val3 in *. cbn [c64_0 c64_1 c64_2 fx fy fz vx vy vz m00 m01 m02 m10 m11 m12 m20 m21 m22] in *.
  set (x00 := fx (c64_0 m)) in *. set (x10 := fy (c64_0 m)) in *. set (x20 := fz (c64_0 m)) in *. set (x01 := fx (c64_1 m)) in *. set (x11 := fy (c64_1 m)) in *. set (x21 := fz (c64_1 m)) in *. set (x02 := fx (c64_2 m)) in *. set (x12 := fy (c64_2 m)) in *. set (x22 := fz (c64_2 m)) in *.
  destruct q as [x y z s]. cbn [qx qy qz qs] in *.
  set (t00 := x * x - y * y - z * z + s * s) in *. set (t11 := - x * x + y * y - z * z + s * s) in *. set (t22 := - x * x - y * y + z * z + s * s) in *.
  pose proof (VecProofs.sq_nonneg x) as Px. pose proof (VecProofs.sq_nonneg y) as Py. pose proof (VecProofs.sq_nonneg z) as Pz. pose proof (VecProofs.sq_nonneg s) as Ps.
  assert (K00 : Rabs t00 <= 1) by (apply abs_of; unfold t00; lra). assert (K11 : Rabs t11 <= 1) by (apply abs_of; unfold t11; lra). assert (K22 : Rabs t22 <= 1) by (apply abs_of; unfold t22; lra).
  assert (KO : forall a b c d, a * a + b * b + c * c + d * d = 1 -> Rabs (2 * (a * b + c * d)) <= 1 /\ Rabs (2 * (a * b - c * d)) <= 1).
  { intros a b c d E. pose proof (VecProofs.sq_nonneg (a - b)). pose proof (VecProofs.sq_nonneg (a + b)). pose proof (VecProofs.sq_nonneg (c - d)). pose proof (VecProofs.sq_nonneg (c + d)). split; apply abs_of; lra. }
  assert (N00 : near64 x00 t00 e) by (split; assumption). assert (N11 : near64 x11 t11 e) by (split; assumption). assert (N22 : near64 x22 t22 e) by (split; assumption).
  pose proof (near_nonneg _ _ _ N00) as PN.
  assert (NT := near_trace r _ _ _ _ _ _ e N00 N11 N22 K00 K11 K22 HE). set (T := sum64 r x00 x11 x22) in *. set (tr := t00 + t11 + t22) in *.
  assert (KT : Rabs tr <= 3) by (apply abs_of; unfold tr, t00, t11, t22; lra).
  destruct (near_3 x12 x21 _ _ e (conj C1 E12) (conj B2 E21) (proj1 (KO y z x s ltac:(lra))) (proj2 (KO z y x s ltac:(lra))) HE) as [[Fd0 Ed0] _].
  destruct (near_3 x20 x02 _ _ e (conj A2 E20) (conj C0 E02) (proj1 (KO z x y s ltac:(lra))) (proj2 (KO x z y s ltac:(lra))) HE) as [[Fd1 Ed1] [Fp1 Ep1]].
  destruct (near_3 x01 x10 _ _ e (conj B0 E01) (conj A1 E10) (proj1 (KO x y z s ltac:(lra))) (proj2 (KO y x z s ltac:(lra))) HE) as [[Fd2 Ed2] [Fp2 Ep2]].
  destruct (near_3 x02 x20 _ _ e (conj C0 E02) (conj A2 E20) (proj2 (KO x z y s ltac:(lra))) (proj1 (KO z x y s ltac:(lra))) HE) as [_ [Fq1 Eq1]].
  destruct (near_3 x10 x01 _ _ e (conj A1 E10) (conj B0 E01) (proj2 (KO y x z s ltac:(lra))) (proj1 (KO x y z s ltac:(lra))) HE) as [_ [Fq2 Eq2]].
  destruct (near_3 x12 x21 _ _ e (conj C1 E12) (conj B2 E21) (proj1 (KO y z x s ltac:(lra))) (proj2 (KO z y x s ltac:(lra))) HE) as [_ [Fp0 Ep0]].
  destruct (near_3 x21 x12 _ _ e (conj B2 E21) (conj C1 E12) (proj2 (KO z y x s ltac:(lra))) (proj1 (KO y z x s ltac:(lra))) HE) as [_ [Fq0 Eq0]].
  destruct (near_peak x00 T _ _ e N00 NT K00 KT HE) as [[Fk0 Ek0] [Fs Es]]. destruct (near_peak x11 T _ _ e N11 NT K11 KT HE) as [[Fk1 Ek1] _]. destruct (near_peak x22 T _ _ e N22 NT K22 KT HE) as [[Fk2 Ek2] _].
  assert (FT := proj1 NT). assert (ET := proj2 NT). apply abs_le in ET. assert (R00 := E00). apply abs_le in R00. assert (R11 := E11). apply abs_le in R11. assert (R22 := E22). apply abs_le in R22.
  assert (BIG : forall k, 0.23 <= k * k <= 1 -> 1.9 <= Rabs (4 * k) <= 5).
  { intros k [H1 H2]. pose proof (Rabs_pos k) as PK. assert (KK : Rabs k * Rabs k = k * k) by (rewrite <- Rabs_mult; apply Rabs_pos_eq, VecProofs.sq_nonneg). rewrite Rabs_mult, (Rabs_pos_eq 4) by lra. split.
    - apply Rnot_lt_le. intros C. assert (Rabs k * Rabs k <= 0.475 * 0.475) by (apply Rmult_le_compat; lra). lra.
    - apply Rnot_lt_le. intros C. assert (1.25 * 1.25 <= Rabs k * Rabs k) by (apply Rmult_le_compat; lra). lra. }
  set (D := 6.1 * e + 18 * e53). assert (HD : 0 <= D <= / 10) by (unfold D, e53 in *; lra).
  assert (SM : 2 * e + 2.1 * e53 <= 2.001 * e + 2.1 * e53 /\ 3 * ((2 * e + 2.1 * e53) * (2 * e + 2.1 * e53)) + (5 * e + 17.6 * e53) * (5 * e + 17.6 * e53) <= D * D).
  { split; [lra |]. unfold D. set (u := e53) in *. assert (0 <= e * e) by (apply Rmult_le_pos; lra). assert (0 <= e * u) by (apply Rmult_le_pos; lra). assert (0 <= u * u) by (apply Rmult_le_pos; lra). lra. }
  destruct SM as [_ SM].
  assert (FIN : forall v k k', finite4 v -> k' = 4 * k -> 0.23 <= k * k <= 1 -> forall e1 e2 e3 e4,
    Rabs (rval (q64x v) - k' * x) <= e1 -> Rabs (rval (q64y v) - k' * y) <= e2 -> Rabs (rval (q64z v) - k' * z) <= e3 -> Rabs (rval (q64s v) - k' * s) <= e4 -> e1 * e1 + e2 * e2 + e3 * e3 + e4 * e4 <= D * D ->
    exists q' : f4, q64_normalize eps (Some v) = Ok q' /\ finite4 q' /\ (gap4 (val4 q') (Q4 x y z s) <= 6.5 * e + P2 (-48) \/ gap4 (val4 q') (negq (Q4 x y z s)) <= 6.5 * e + P2 (-48)) /\ (forall t, finite64 t -> P2 (-50) <= rval t -> q64_isUnitary (Some q') (Some t) = Ok true)).
  { intros v k k' Fv -> HK e1 e2 e3 e4 G1 G2 G3 G4 G. destruct (branch_ok eps v (Q4 x y z s) (4 * k) e1 e2 e3 e4 D Fv Fe He L (BIG k HK) HD G1 G2 G3 G4 G) as (q' & Q1 & Q2 & Q3 & Q4'). exists q'. split; [exact Q1 |]. split; [exact Q2 |]. split; [| exact Q4'].
    replace (P2 (-48)) with (32 * e53) by (rewrite <- e53_P2; replace 32 with (P2 5) by (rewrite <- (P2_Z 5) by lia; reflexivity); rewrite <- P2_add; reflexivity). unfold D in Q3. destruct Q3; [left | right]; lra. }
  clear BIG. assert (P5 : 2 * e + 2.1 * e53 <= 5 * e + 17.6 * e53) by lra. assert (P3 : 3 * e + 10.3 * e53 <= 5 * e + 17.6 * e53) by lra.
  assert (U : e53 <= / 1000) by (unfold e53; lra).
  destruct (SFleb x00 T && SFleb x11 T && SFleb x22 T) eqn:B1'.
  { apply leb3 in B1'; try assumption. destruct B1' as (I1 & I2 & I3).
    apply (FIN _ s (4 * s)) with (e1 := 2 * e + 2.1 * e53) (e2 := 2 * e + 2.1 * e53) (e3 := 2 * e + 2.1 * e53) (e4 := 5 * e + 17.6 * e53); cbn [q64x q64y q64z q64s].
    - repeat split; assumption.
    - reflexivity.
    - unfold tr, t00, t11, t22 in *. lra.
    - replace (4 * s * x) with (2 * (y * z + x * s) - 2 * (z * y - x * s)) by ring. exact Ed0.
    - replace (4 * s * y) with (2 * (z * x + y * s) - 2 * (x * z - y * s)) by ring. exact Ed1.
    - replace (4 * s * z) with (2 * (x * y + z * s) - 2 * (y * x - z * s)) by ring. exact Ed2.
    - eapply Rle_trans; [| exact P3]. replace (4 * s * s) with (1 + tr) by (unfold tr, t00, t11, t22; lra). exact Es.
    - lra. }
  destruct (SFleb T x00 && SFleb x11 x00 && SFleb x22 x00) eqn:B2'.
  { apply leb3 in B2'; try assumption. destruct B2' as (I1 & I2 & I3).
    apply (FIN _ x (4 * x)) with (e1 := 5 * e + 17.6 * e53) (e2 := 2 * e + 2.1 * e53) (e3 := 2 * e + 2.1 * e53) (e4 := 2 * e + 2.1 * e53); cbn [q64x q64y q64z q64s].
    - repeat split; assumption.
    - reflexivity.
    - unfold tr, t00, t11, t22 in *. lra.
    - replace (4 * x * x) with (1 + 2 * t00 - tr) by (unfold tr, t00, t11, t22; lra). exact Ek0.
    - replace (4 * x * y) with (2 * (x * y + z * s) + 2 * (y * x - z * s)) by ring. exact Ep2.
    - replace (4 * x * z) with (2 * (x * z - y * s) + 2 * (z * x + y * s)) by ring. exact Eq1.
    - replace (4 * x * s) with (2 * (y * z + x * s) - 2 * (z * y - x * s)) by ring. exact Ed0.
    - lra. }
  destruct (SFleb x00 x11 && SFleb T x11 && SFleb x22 x11) eqn:B3'.
  { apply leb3 in B3'; try assumption. destruct B3' as (I1 & I2 & I3).
    apply (FIN _ y (4 * y)) with (e1 := 2 * e + 2.1 * e53) (e2 := 5 * e + 17.6 * e53) (e3 := 2 * e + 2.1 * e53) (e4 := 2 * e + 2.1 * e53); cbn [q64x q64y q64z q64s].
    - repeat split; assumption.
    - reflexivity.
    - unfold tr, t00, t11, t22 in *. lra.
    - replace (4 * y * x) with (2 * (y * x - z * s) + 2 * (x * y + z * s)) by ring. exact Eq2.
    - replace (4 * y * y) with (1 + 2 * t11 - tr) by (unfold tr, t00, t11, t22; lra). exact Ek1.
    - replace (4 * y * z) with (2 * (y * z + x * s) + 2 * (z * y - x * s)) by ring. exact Ep0.
    - replace (4 * y * s) with (2 * (z * x + y * s) - 2 * (x * z - y * s)) by ring. exact Ed1.
    - lra. }
  destruct (SFleb x00 x22 && SFleb x11 x22 && SFleb T x22) eqn:B4'.
  { apply leb3 in B4'; try assumption. destruct B4' as (I1 & I2 & I3).
    apply (FIN _ z (4 * z)) with (e1 := 2 * e + 2.1 * e53) (e2 := 2 * e + 2.1 * e53) (e3 := 5 * e + 17.6 * e53) (e4 := 2 * e + 2.1 * e53); cbn [q64x q64y q64z q64s].
    - repeat split; assumption.
    - reflexivity.
    - unfold tr, t00, t11, t22 in *. lra.
    - replace (4 * z * x) with (2 * (z * x + y * s) + 2 * (x * z - y * s)) by ring. exact Ep1.
    - replace (4 * z * y) with (2 * (z * y - x * s) + 2 * (y * z + x * s)) by ring. exact Eq0.
    - replace (4 * z * z) with (1 + 2 * t22 - tr) by (unfold tr, t00, t11, t22; lra). exact Ek2.
    - replace (4 * z * s) with (2 * (x * y + z * s) - 2 * (y * x - z * s)) by ring. exact Ed2.
    - lra. }
  exfalso. destruct (max4 (rval T) (rval x00) (rval x11) (rval x22)) as [M | [M | [M | M]]]; apply leb3 in M; try assumption; rewrite M in *; discriminate.
Qed.

(** *** Turning by nearby quaternions *)
Lemma parts_dist v w : gap4 (of_parts v 0) (of_parts w 0) = dist3 v w.
Proof. destruct v as [v0 v1 v2], w as [w0 w1 w2]. unfold gap4, len4, dist3, norm3, sqnorm3, dot3, sub3, sq, of_parts; cbn [vx vy vz qx qy qz qs]. f_equal. ring. Qed.
Lemma gap_conj p q : gap4 (qconj p) (qconj q) = gap4 p q.
Proof. unfold gap4, len4, sq, qconj; cbn [qx qy qz qs]. f_equal. ring. Qed.
Lemma rot_gap p q v : len4 q = 1 -> dist3 (rot p v) (rot q v) <= (2 + gap4 p q) * gap4 p q * norm3 v.
Proof.
  intros L. pose proof (len4_gap p q) as LG. rewrite L in LG. apply abs_le in LG. pose proof (norm3_nonneg v) as PV. assert (PG : 0 <= gap4 p q) by apply len4_pos.
  rewrite <- parts_dist, <- !rot_parts. eapply Rle_trans; [apply (gap4_triangle _ (qmul (qmul q (of_parts v 0)) (qconj p))) |].
  rewrite gap4_mul_r, gap4_mul_l, gap4_mul_r, gap_conj, len_conj, len4_mul, len_parts, L. assert (0 <= gap4 p q * norm3 v) by (apply Rmult_le_pos; assumption).
  assert (gap4 p q * norm3 v * len4 p <= gap4 p q * norm3 v * (1 + gap4 p q)) by (apply Rmult_le_compat_l; lra). lra.
Qed.
Lemma c135_quaternion r eps m R e : finite33 m -> finite64 eps -> rval eps <= 1 -> is_rotation R -> e <= / 100 -> entries_within e (val33 m) R ->
  exists q, q64_of_matrix r eps (Some m) = Ok q /\ finite4 q /\ (forall t, finite64 t -> P2 (-50) <= rval t -> q64_isUnitary (Some q) (Some t) = Ok true) /\
    forall v, dist3 (turned4 (val4 q) v) (mulv3 R v) <= (14 * e + P2 (-46)) * norm3 v.
Proof.
  intros F Fe He HR HE H. destruct (rotation_quaternion R HR) as (q & Uq & <-). unfold unit_q in Uq. assert (L : len4 q = 1) by (unfold len4; rewrite Uq; apply sqrt_1).
  destruct (of_matrix_near r eps m q e F Fe He L HE H) as (q' & E & F' & G & U). exists q'. split; [exact E |]. split; [exact F' |]. split; [exact U |]. intros v. rewrite turned_rot, rot_matrix. pose proof (norm3_nonneg v) as PV.
  assert (PN : 0 <= e) by (destruct (H 0%nat ltac:(lia)) as [K _]; eapply Rle_trans; [apply Rabs_pos | exact K]).
  assert (S : P2 (-46) = 4 * P2 (-48)) by (replace 4 with (P2 2) by (rewrite <- (P2_Z 2) by lia; reflexivity); rewrite <- P2_add; reflexivity). pose proof (P2_pos (-48)). assert (S4 : P2 (-48) <= / 1000) by (apply Rle_trans with (P2 (-10)); [apply P2_mono; lia | rewrite (P2_m (-10)) by lia; change (2 ^ (- -10))%Z with 1024%Z; lra]).
  assert (K : forall p, len4 p = 1 -> gap4 (val4 q') p <= 6.5 * e + P2 (-48) -> dist3 (rot (val4 q') v) (rot p v) <= (14 * e + P2 (-46)) * norm3 v).
  { intros p Lp Gp. eapply Rle_trans; [apply rot_gap; exact Lp |]. apply Rmult_le_compat_r; [exact PV |]. assert (PG : 0 <= gap4 (val4 q') p) by apply len4_pos. apply Rle_trans with (2.1 * (6.5 * e + P2 (-48))); [apply Rmult_le_compat; lra | lra]. }
  destruct G as [G | G]; [exact (K _ L G) |]. rewrite <- (rot_neg q). apply K; [| exact G]. rewrite <- L. unfold len4, sq, negq; cbn [qx qy qz qs]. f_equal. ring.
Qed.
Lemma c135_back r eps q m : finite4 q -> within4 (P2 450) q -> finite64 eps -> 0 < rval eps <= P2 (-26) -> rm64_of_quaternion r eps (Some q) = Ok m ->
  exists q', q64_of_matrix r eps (Some m) = Ok q' /\ finite4 q' /\
    (gap4 (val4 q') (val4 q) <= 15 * rval eps + P2 (-45) \/ gap4 (val4 q') (negq (val4 q)) <= 15 * rval eps + P2 (-45)).
Proof.
  intros F B Fe He E. destruct (of_quaternion_inv r eps q m F B Fe He E) as (U & Fm & Em & _). pose proof P2_26_small as S26. pose proof e53_pos as PE.
  pose proof (accepted_len q eps F B Fe He U) as AL. destruct (accepted_bounds q eps F B Fe He U) as [_ A]. rewrite len4_sq in A. apply abs_le in AL. apply abs_le in A. set (N := len4 (val4 q)) in *. assert (PN : 0.9 < N) by (unfold e53 in *; lra).
  set (p := times4 (/ N) (val4 q)). assert (Lp : len4 p = 1) by (unfold p; rewrite len_times by (apply Rlt_le, Rinv_0_lt_compat; lra); fold N; field; lra).
  assert (SN : sq (val4 q) = N * N) by (symmetry; apply len4_sq).
  assert (Q : q_matrix (val4 q) = q_matrix (times4 N p)) by (f_equal; unfold p; destruct (val4 q) as [x y z s]; unfold times4; cbn [qx qy qz qs]; f_equal; field; lra).
  assert (GP : gap4 p (val4 q) <= rval eps + 4.3 * e53 /\ gap4 (negq p) (negq (val4 q)) <= rval eps + 4.3 * e53).
  { assert (V : val4 q = times4 N p) by (unfold p; destruct (val4 q) as [x y z s]; unfold times4; cbn [qx qy qz qs]; f_equal; field; lra).
    assert (G0 : gap4 p (val4 q) = Rabs (1 - N)). { rewrite V. unfold gap4, len4. replace (sq _) with ((1 - N) * (1 - N) * sq p) by (unfold sq, times4; cbn [qx qy qz qs]; ring). rewrite <- (len4_sq p), Lp, !Rmult_1_r. apply sqrt_Rsqr_abs. }
    assert (G1 : gap4 (negq p) (negq (val4 q)) = gap4 p (val4 q)) by (unfold gap4, len4, sq, negq; cbn [qx qy qz qs]; f_equal; ring). rewrite G1, G0. assert (Rabs (1 - N) <= rval eps + 4.3 * e53) by (apply abs_of; lra). lra. }
  set (e := 4.03 * e53 + (2 * rval eps + 10.8 * e53)). assert (EW : entries_within e (val33 m) (q_matrix p)).
  { intros i Hi. destruct (Em i Hi) as (K0 & K1 & K2). rewrite Q in K0, K1, K2. rewrite SN in A.
    assert (ST : forall a b, Rabs (a - N * N * b) <= 4.03 * e53 -> Rabs b <= 1 -> Rabs (a - b) <= e).
    { intros a b G Hb. replace (a - b) with (a - N * N * b + (N * N - 1) * b) by ring. eapply Rle_trans; [apply Rabs_triang |]. unfold e. apply Rplus_le_compat; [exact G |]. rewrite Rabs_mult. rewrite <- (Rmult_1_r (2 * rval eps + 10.8 * e53)). apply Rmult_le_compat; try apply Rabs_pos; [apply abs_of; lra | exact Hb]. }
    assert (SQ : qx p * qx p + qy p * qy p + qz p * qz p + qs p * qs p = 1) by (fold (sq p); rewrite <- len4_sq, Lp; ring). clearbody p. destruct p as [x y z s]. cbn [qx qy qz qs] in *.
    pose proof (VecProofs.sq_nonneg x) as Px. pose proof (VecProofs.sq_nonneg y) as Py. pose proof (VecProofs.sq_nonneg z) as Pz. pose proof (VecProofs.sq_nonneg s) as Ps.
    assert (KO : forall a b c d, a * a + b * b + c * c + d * d = 1 -> Rabs (2 * (a * b + c * d)) <= 1 /\ Rabs (2 * (a * b - c * d)) <= 1).
    { intros a b c d EQ. pose proof (VecProofs.sq_nonneg (a - b)). pose proof (VecProofs.sq_nonneg (a + b)). pose proof (VecProofs.sq_nonneg (c - d)). pose proof (VecProofs.sq_nonneg (c + d)). split; apply abs_of; lra. }
    pose proof (KO x y z s SQ) as [O1 O1']. pose proof (KO x z y s ltac:(lra)) as [O2 O2']. pose proof (KO y z x s ltac:(lra)) as [O3 O3']. rewrite (Rmult_comm x y) in O1'. rewrite (Rmult_comm x z) in O2. rewrite (Rmult_comm y z) in O3'.
    destruct i as [| [| [| i]]]; try lia; unfold row3, q_matrix, times4 in *; cbn [vx vy vz qx qy qz qs m00 m01 m02 m10 m11 m12 m20 m21 m22] in *;
      (split; [| split]; apply ST; [eapply Rle_trans; [| exact K0]; right; f_equal; ring | first [assumption | apply abs_of; lra]
        | eapply Rle_trans; [| exact K1]; right; f_equal; ring | first [assumption | apply abs_of; lra] | eapply Rle_trans; [| exact K2]; right; f_equal; ring | first [assumption | apply abs_of; lra]]). }
  destruct (of_matrix_near r eps m p e Fm Fe ltac:(lra) Lp ltac:(unfold e, e53; lra) EW) as (q' & E' & F' & G & _). exists q'. split; [exact E' |]. split; [exact F' |]. destruct GP as [GP GN].
  replace (P2 (-45)) with (256 * e53) by (rewrite <- e53_P2; replace 256 with (P2 8) by (rewrite <- (P2_Z 8) by lia; reflexivity); rewrite <- P2_add; reflexivity).
  replace (P2 (-48)) with (32 * e53) in G by (rewrite <- e53_P2; replace 32 with (P2 5) by (rewrite <- (P2_Z 5) by lia; reflexivity); rewrite <- P2_add; reflexivity). unfold e in G.
  destruct G as [G | G]; [left | right]; [pose proof (gap4_triangle (val4 q') p (val4 q)) | pose proof (gap4_triangle (val4 q') (negq p) (negq (val4 q)))]; lra.
Qed.
