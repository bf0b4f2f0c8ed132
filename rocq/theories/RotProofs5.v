(** Euler angles, continued (C32, C33). *)

From Coq Require Import List Bool Reals Lra Lia Psatz Nsatz.
From Verif Require Import Result DOrder Vec VecProofs Mat3 AngleModel AngleSpec AngleProofs AngleProofs2 RotModel RotSpec
  RotProofs RotProofs2 RotProofs3 RotProofs4.
Local Open Scope R_scope.

Lemma c32_zyx_partial eps e a b c : 0 < eps -> eps <= 1 -> euler_radians e a b c -> e_seq e = ZYX ->
  exists q m f, q_of_euler eps e = Ok q /\ rm_of_euler eps e = Ok m /\ q_rotates eps q f /\ m_rotates m f.
Proof.
  intros He H1 H Hs. assert (Hn : e_seq e <> SeqUndefined) by congruence.
  destruct (c32_quaternion eps e a b c He H1 H Hn) as [q [Eq [_ Fq]]].
  destruct (c32_matrix eps e a b c He H Hn) as [m [Em [_ Fm]]].
  rewrite Hs in *. exists q, m. eexists. split; [exact Eq |]. split; [exact Em |]. split; [exact Fq | exact Fm].
Qed.

Lemma rad_euler a b c s : euler_radians (mkE (Radians a) (Radians b) (Radians c) s) a b c.
Proof. repeat split. Qed.

Ltac trig0 := rewrite ?cos_0, ?sin_0, ?cos_PI2, ?sin_PI2.

Lemma frame_x0 v : frame_rotation (axis_vector 1) 0 v = v.
Proof. unfold frame_rotation, axis_vector. trig0. qring. Qed.
Lemma frame_y0 v : frame_rotation (axis_vector 2) 0 v = v.
Proof. unfold frame_rotation, axis_vector. trig0. qring. Qed.
Lemma frame_z0 v : frame_rotation (axis_vector 3) 0 v = v.
Proof. unfold frame_rotation, axis_vector. trig0. qring. Qed.
Lemma frame_x90 v : frame_rotation (axis_vector 1) (PI / 2) v = V3 (vx v) (vz v) (- vy v).
Proof. unfold frame_rotation, axis_vector. trig0. qring. Qed.
Lemma frame_y90 v : frame_rotation (axis_vector 2) (PI / 2) v = V3 (- vz v) (vy v) (vx v).
Proof. unfold frame_rotation, axis_vector. trig0. qring. Qed.
Lemma frame_z90 v : frame_rotation (axis_vector 3) (PI / 2) v = V3 (vy v) (- vx v) (vz v).
Proof. unfold frame_rotation, axis_vector. trig0. qring. Qed.
Ltac frame90 := unfold frame_sequence; rewrite ?frame_x0, ?frame_y0, ?frame_z0, ?frame_x90, ?frame_y90, ?frame_z90.

(** XYZ (90, 90, 0) degrees and ZXY (90, 0, 0) degrees. *)
Lemma c32_refuted eps : 0 < eps -> eps <= 1 ->
  forall s, s = XYZ \/ s = ZXY ->
  exists e q m f g v, e_seq e = s /\ q_of_euler eps e = Ok q /\ rm_of_euler eps e = Ok m
    /\ q_rotates eps q f /\ m_rotates m g /\ f v <> g v.
Proof.
  intros He H1 s [-> | ->].
  - destruct (c32_quaternion eps _ _ _ _ He H1 (rad_euler (PI / 2) (PI / 2) 0 XYZ) ltac:(discriminate)) as [q [Eq [_ Fq]]].
    destruct (c32_matrix eps _ _ _ _ He (rad_euler (PI / 2) (PI / 2) 0 XYZ) ltac:(discriminate)) as [m [Em [_ Fm]]].
    eexists. exists q, m. eexists. eexists. exists (V3 1 0 0).
    split; [| split; [exact Eq | split; [exact Em | split; [exact Fq | split; [exact Fm |]]]]]; [reflexivity |].
    cbn [e_seq named_sequence]. frame90. intros F. apply (f_equal vy) in F. cbn in F. lra.
  - destruct (c32_quaternion eps _ _ _ _ He H1 (rad_euler (PI / 2) 0 0 ZXY) ltac:(discriminate)) as [q [Eq [_ Fq]]].
    destruct (c32_matrix eps _ _ _ _ He (rad_euler (PI / 2) 0 0 ZXY) ltac:(discriminate)) as [m [Em [_ Fm]]].
    eexists. exists q, m. eexists. eexists. exists (V3 1 0 0).
    split; [| split; [exact Eq | split; [exact Em | split; [exact Fq | split; [exact Fm |]]]]]; [reflexivity |].
    cbn [e_seq named_sequence]. frame90. intros F. apply (f_equal vy) in F. cbn in F. lra.
Qed.

(** *** C33 *)
Lemma sqrt_h x y : 0 < x * x + y * y -> 0 < sqrt (x * x + y * y) /\ sqrt (x * x + y * y) * sqrt (x * x + y * y) = x * x + y * y.
Proof. intros H. split; [apply sqrt_lt_R0; exact H | apply sqrt_sqrt; lra]. Qed.

Lemma atan_sc x y : x <> 0 ->
  sqrt (x * x + y * y) * cos (atan (y / x)) = Rabs x /\ sqrt (x * x + y * y) * sin (atan (y / x)) = Rabs x * (y / x).
Proof.
  intros Hx. rewrite cos_atan, sin_atan.
  assert (P : 0 < x * x + y * y) by nra.
  assert (E : sqrt (1 + (y / x)²) = sqrt (x * x + y * y) / Rabs x).
  { replace (1 + (y / x)²) with ((x * x + y * y) / (x * x)) by (unfold Rsqr; field; exact Hx).
    rewrite sqrt_div_alt by nra. f_equal. rewrite <- (sqrt_Rsqr_abs x). reflexivity. }
  rewrite E. destruct (sqrt_h x y P) as [Q _]. pose proof (Rabs_pos_lt x Hx).
  split; field; repeat split; lra.
Qed.

Lemma atan2_sc x y : 0 < x * x + y * y ->
  sqrt (x * x + y * y) * cos (atan2 y x) = x /\ sqrt (x * x + y * y) * sin (atan2 y x) = y.
Proof.
  intros P. unfold atan2. destruct (Rlt_dec 0 x) as [C | C].
  { destruct (atan_sc x y ltac:(lra)) as [A B]. rewrite Rabs_pos_eq in * by lra. split; [exact A |]. rewrite B. field. lra. }
  destruct (Rlt_dec x 0) as [C' | C'].
  { destruct (atan_sc x y ltac:(lra)) as [A B]. rewrite Rabs_left in * by lra.
    assert (B' : - x * (y / x) = - y) by (field; lra). rewrite B' in B.
    destruct (Rlt_dec y 0).
    - replace (atan (y / x) - PI) with (- (PI - atan (y / x))) by ring.
      rewrite cos_neg, sin_neg, Rtrigo_facts.cos_pi_minus, Rtrigo_facts.sin_pi_minus.
      split; lra.
    - rewrite neg_cos, neg_sin. split; lra. }
  assert (x = 0) by lra. subst x. replace (0 * 0 + y * y) with (y * y) by ring. fold (Rsqr y). rewrite sqrt_Rsqr_abs.
  destruct (Rlt_dec 0 y); [rewrite cos_PI2, sin_PI2, Rabs_pos_eq by lra; lra |].
  destruct (Rlt_dec y 0); [rewrite cos_neg, sin_neg, cos_PI2, sin_PI2, Rabs_left by lra; lra |].
  nra.
Qed.

(** A rotation is determined by one row and one column crossing it. *)
Lemma det_zyx m m' : is_rotation m -> is_rotation m' ->
  m00 m = m00 m' -> m01 m = m01 m' -> m02 m = m02 m' -> m12 m = m12 m' -> m22 m = m22 m' ->
  0 < m00 m * m00 m + m01 m * m01 m -> m = m'.
Proof.
  intros H H' E1 E2 E3 E4 E5 P. pose proof (rotation_entries m H) as [_ [R D]]. pose proof (rotation_entries m' H') as [_ [R' D']].
  clear H H'. destruct m as [a b c d e f g h i], m' as [a' b' c' d' e' f' g' h' i']. cbn in *. subst a' b' c' f' i'.
  destruct R as [_ [_ [_ [R4 [_ R6]]]]]. destruct R' as [_ [_ [_ [R4' [_ R6']]]]].
  destruct D as [_ [_ [_ [_ [_ [D6 [_ [_ D9]]]]]]]]. destruct D' as [_ [_ [_ [_ [_ [D6' [_ [_ D9']]]]]]]].
  assert (Q : a * a + b * b <> 0) by lra.
  assert ((a * a + b * b) * (d - d') = 0) by nsatz. assert ((a * a + b * b) * (e - e') = 0) by nsatz.
  assert ((a * a + b * b) * (g - g') = 0) by nsatz. assert ((a * a + b * b) * (h - h') = 0) by nsatz.
  apply M3_eq; try reflexivity;
    match goal with |- ?x = ?y => assert (x - y = 0); [| lra]; apply (Rmult_eq_reg_l (a * a + b * b)); [lra | exact Q] end.
Qed.
Lemma det_xyz m m' : is_rotation m -> is_rotation m' ->
  m20 m = m20 m' -> m21 m = m21 m' -> m22 m = m22 m' -> m10 m = m10 m' -> m00 m = m00 m' ->
  0 < m22 m * m22 m + m21 m * m21 m -> m = m'.
Proof.
  intros H H' E1 E2 E3 E4 E5 P. pose proof (rotation_entries m H) as [_ [R D]]. pose proof (rotation_entries m' H') as [_ [R' D']].
  clear H H'. destruct m as [a b c d e f g h i], m' as [a' b' c' d' e' f' g' h' i']. cbn in *. subst a' d' g' h' i'.
  destruct R as [_ [_ [_ [_ [R5 R6]]]]]. destruct R' as [_ [_ [_ [_ [R5' R6']]]]].
  destruct D as [D1 [_ [_ [D4 _]]]]. destruct D' as [D1' [_ [_ [D4' _]]]].
  assert (Q : i * i + h * h <> 0) by lra.
  assert ((i * i + h * h) * (b - b') = 0) by nsatz. assert ((i * i + h * h) * (c - c') = 0) by nsatz.
  assert ((i * i + h * h) * (e - e') = 0) by nsatz. assert ((i * i + h * h) * (f - f') = 0) by nsatz.
  apply M3_eq; try reflexivity;
    match goal with |- ?x = ?y => assert (x - y = 0); [| lra]; apply (Rmult_eq_reg_l (i * i + h * h)); [lra | exact Q] end.
Qed.
Lemma det_zxy m m' : is_rotation m -> is_rotation m' ->
  m10 m = m10 m' -> m11 m = m11 m' -> m12 m = m12 m' -> m02 m = m02 m' -> m22 m = m22 m' ->
  0 < m11 m * m11 m + m10 m * m10 m -> m = m'.
Proof.
  intros H H' E1 E2 E3 E4 E5 P. pose proof (rotation_entries m H) as [_ [R D]]. pose proof (rotation_entries m' H') as [_ [R' D']].
  clear H H'. destruct m as [a b c d e f g h i], m' as [a' b' c' d' e' f' g' h' i']. cbn in *. subst c' d' e' f' i'.
  destruct R as [_ [_ [_ [R4 [R5 _]]]]]. destruct R' as [_ [_ [_ [R4' [R5' _]]]]].
  destruct D as [_ [_ [D3 [_ [_ [_ [_ [_ D9]]]]]]]]. destruct D' as [_ [_ [D3' [_ [_ [_ [_ [_ D9']]]]]]]].
  assert (Q : e * e + d * d <> 0) by lra.
  assert ((e * e + d * d) * (a - a') = 0) by nsatz. assert ((e * e + d * d) * (b - b') = 0) by nsatz.
  assert ((e * e + d * d) * (g - g') = 0) by nsatz. assert ((e * e + d * d) * (h - h') = 0) by nsatz.
  apply M3_eq; try reflexivity;
    match goal with |- ?x = ?y => assert (x - y = 0); [| lra]; apply (Rmult_eq_reg_l (e * e + d * d)); [lra | exact Q] end.
Qed.

Lemma seq_adjust s a b c : seq_matrix s (a + PI) (PI - b) (c + PI) = seq_matrix s a b c.
Proof.
  destruct s; cbn [seq_matrix]; [reflexivity |..]; unfold mRX, mRY, mRZ;
    rewrite !neg_sin, !neg_cos, Rtrigo_facts.cos_pi_minus, Rtrigo_facts.sin_pi_minus;
    generalize (sin a), (cos a), (sin b), (cos b), (sin c), (cos c); intros; qunfold; apply M3_eq; ring.
Qed.
Lemma e_adjust_spec s a b c : exists a' b' c', e_adjust a b c = mkE (Radians a') (Radians b') (Radians c') ZYX
  /\ seq_matrix s a' b' c' = seq_matrix s a b c.
Proof.
  unfold e_adjust. destruct Rltb; do 3 eexists; (split; [reflexivity |]); [apply seq_adjust | reflexivity].
Qed.

Lemma asin_sc x : -1 < x < 1 -> sin (asin x) = x /\ 0 < cos (asin x) /\ cos (asin x) * cos (asin x) = 1 - x * x.
Proof.
  intros H. split; [apply sin_asin; lra |]. rewrite cos_asin by lra. unfold Rsqr. split; [apply sqrt_lt_R0; nra | apply sqrt_sqrt; nra].
Qed.
Lemma sqrt_of h x : 0 < h -> h * h = x -> sqrt x = h.
Proof. intros Hh <-. apply sqrt_square. lra. Qed.

(** The angles read from a rotation, away from gimbal lock. *)
Definition middle_entry (s : axis_sequence) (m : m3) : R :=
  match s with XYZ => m20 m | ZXY => m12 m | ZYX => - m02 m | SeqUndefined => 0 end.

Lemma extract m s : is_rotation m -> s <> SeqUndefined -> -1 < middle_entry s m < 1 ->
  exists a b c, e_of_matrix (Some m) s = Ok (e_adjust a b c) /\ seq_matrix s a b c = m.
Proof.
  intros H Hs B. pose proof (rotation_entries m H) as [[C1 [C2 [C3 _]]] [[R1 [R2 [R3 _]]] _]].
  destruct s; [congruence |..]; cbn [middle_entry] in B; unfold e_of_matrix; cbn [needd bind]; unfold asin_;
    (destruct Rle_dec as [_ | N]; [| exfalso; apply N; unfold Rabs; destruct Rcase_abs; lra]);
    cbn [bind]; do 3 eexists; (split; [reflexivity |]); destruct (asin_sc _ B) as [S [P Q]].
  - (* XYZ *)
    destruct (atan2_sc (m22 m) (- m21 m) ltac:(nra)) as [A1 A2].
    destruct (atan2_sc (m00 m) (- m10 m) ltac:(nra)) as [A3 A4].
    rewrite (sqrt_of (cos (asin (m20 m)))) in A1, A2, A3, A4 by (try exact P; rewrite Q; lra).
    apply det_xyz; [apply seq_matrix_rotation | exact H |..];
      cbn [seq_matrix]; unfold mRX, mRY, mRZ; qunfold; rewrite ?S; try nra.
  - (* ZXY *)
    destruct (atan2_sc (m11 m) (- m10 m) ltac:(nra)) as [A1 A2].
    destruct (atan2_sc (m22 m) (- m02 m) ltac:(nra)) as [A3 A4].
    rewrite (sqrt_of (cos (asin (m12 m)))) in A1, A2, A3, A4 by (try exact P; rewrite Q; lra).
    apply det_zxy; [apply seq_matrix_rotation | exact H |..];
      cbn [seq_matrix]; unfold mRX, mRY, mRZ; qunfold; rewrite ?S; try nra.
  - (* ZYX *)
    destruct (atan2_sc (m00 m) (m01 m) ltac:(nra)) as [A1 A2].
    destruct (atan2_sc (m22 m) (m12 m) ltac:(nra)) as [A3 A4].
    rewrite (sqrt_of (cos (asin (- m02 m)))) in A1, A2, A3, A4 by (try exact P; rewrite Q; lra).
    apply det_zyx; [apply seq_matrix_rotation | exact H |..];
      cbn [seq_matrix]; unfold mRX, mRY, mRZ; qunfold; rewrite ?S; try nra.
Qed.

Lemma e_of_quaternion_matrix eps q s : 0 < eps -> unit_q q ->
  e_of_quaternion eps (Some q) s = e_of_matrix (Some (q_matrix q)) s.
Proof.
  intros He H. unfold e_of_quaternion. rewrite isUnitary_unit by assumption. cbn [needd bind negb].
  destruct s; try (rewrite rm_of_quaternion_unit by assumption; reflexivity).
  unfold e_of_matrix. cbn [needd bind]. destruct q as [x y z w]. unfold q_matrix. cbn [qx qy qz qs m00 m01 m02 m12 m22].
  replace (-2 * (x * z - y * w)) with (- (2 * (x * z - y * w))) by ring.
  replace (w * w - z * z - y * y + x * x) with (x * x - y * y - z * z + w * w) by ring.
  replace (w * w + z * z - y * y - x * x) with (- x * x - y * y + z * z + w * w) by ring.
  replace (w * z) with (z * w) by ring. reflexivity.
Qed.

Lemma middle_entry_sine m s f : m_rotates m f -> middle_entry s m = middle_sine s f.
Proof.
  intros F. assert (E : forall v, f v = mulv3 m v) by (intros v; specialize (F v); unfold rm_mulv in F; cbn in F; congruence).
  destruct s; cbn [middle_entry middle_sine]; rewrite ?E; destruct m; qunfold; ring.
Qed.

Lemma c33_matrix_partial eps m f s : 0 < eps -> eps <= 1 -> is_rotation m -> m_rotates m f -> s <> SeqUndefined ->
  -1 < middle_sine s f < 1 ->
  exists e q, e_of_matrix (Some m) s = Ok e /\ q_of_euler eps (relabel e s) = Ok q /\ q_rotates eps q f.
Proof.
  intros He H1 H F Hs B. rewrite <- (middle_entry_sine m s f F) in B.
  destruct (extract m s H Hs B) as [a [b [c [E M]]]].
  destruct (e_adjust_spec s a b c) as [a' [b' [c' [Ea Ma]]]]. rewrite Ea in E.
  eexists. destruct (c32_quaternion eps _ _ _ _ He H1 (rad_euler a' b' c' s) Hs) as [q [Eq [_ Fq]]].
  exists q. split; [exact E |]. split; [exact Eq |]. intros v. rewrite Fq. cbn [e_seq].
  rewrite <- seq_matrix_named, Ma, M. specialize (F v). unfold rm_mulv in F. cbn in F. congruence.
Qed.
Lemma c33_quaternion_partial eps q f s : 0 < eps -> eps <= 1 -> unit_q q -> q_rotates eps q f -> s <> SeqUndefined ->
  -1 < middle_sine s f < 1 ->
  exists e p, e_of_quaternion eps (Some q) s = Ok e /\ q_of_euler eps (relabel e s) = Ok p /\ q_rotates eps p f.
Proof.
  intros He H1 H F Hs B. rewrite e_of_quaternion_matrix by assumption.
  apply c33_matrix_partial; try assumption; [apply q_matrix_rotation, H |].
  intros v. rewrite <- F. rewrite q_rotate_unit by assumption. rewrite <- rot_matrix. reflexivity.
Qed.
(** For ZYX the label is right and nothing has to be relabelled. *)
Lemma c33_zyx_partial eps q f : 0 < eps -> eps <= 1 -> unit_q q -> q_rotates eps q f ->
  -1 < middle_sine ZYX f < 1 ->
  exists e p m, e_of_quaternion eps (Some q) ZYX = Ok e /\ e_seq e = ZYX
    /\ q_of_euler eps e = Ok p /\ q_rotates eps p f /\ rm_of_euler eps e = Ok m /\ m_rotates m f.
Proof.
  intros He H1 H F B. rewrite e_of_quaternion_matrix by assumption.
  assert (Fm : m_rotates (q_matrix q) f).
  { intros v. rewrite <- F. rewrite q_rotate_unit by assumption. rewrite <- rot_matrix. reflexivity. }
  rewrite <- (middle_entry_sine _ ZYX f Fm) in B.
  destruct (extract (q_matrix q) ZYX (q_matrix_rotation q H) ltac:(discriminate) B) as [a [b [c [E M]]]].
  destruct (e_adjust_spec ZYX a b c) as [a' [b' [c' [Ea Ma]]]]. rewrite Ea in E.
  destruct (c32_quaternion eps _ _ _ _ He H1 (rad_euler a' b' c' ZYX) ltac:(discriminate)) as [p [Ep [_ Fp]]].
  destruct (c32_matrix eps _ _ _ _ He (rad_euler a' b' c' ZYX) ltac:(discriminate)) as [m [Em [_ Fm']]].
  exists (mkE (Radians a') (Radians b') (Radians c') ZYX), p, m.
  assert (K : forall v, named_sequence ZYX a' b' c' v = f v).
  { intros v. rewrite <- seq_matrix_named, Ma, M. specialize (Fm v). unfold rm_mulv in Fm. cbn in Fm. congruence. }
  split; [exact E |]. split; [reflexivity |]. split; [exact Ep |]. split; [intros v; rewrite Fp; cbn [e_seq]; rewrite K; reflexivity |].
  split; [exact Em |]. intros v. rewrite Fm'. cbn [e_seq]. rewrite <- K. reflexivity.
Qed.

(** XYZ requested for the rotation XYZ (90, 0, 90) degrees: labelled ZYX. *)
Lemma asin_1' : asin 1 = PI / 2.
Proof. rewrite <- sin_PI2. apply asin_sin. pose proof PI_RGT_0. lra. Qed.
Lemma c33_label_refuted eps : 0 < eps -> eps <= 1 ->
  exists q f e p g v, unit_q q /\ q_rotates eps q f /\ e_of_quaternion eps (Some q) XYZ = Ok e
    /\ q_of_euler eps e = Ok p /\ q_rotates eps p g /\ f v <> g v.
Proof.
  intros He H1. set (q := Q4 (1/2) (-1/2) (1/2) (1/2)).
  assert (U : unit_q q) by (unfold unit_q, sq, q; cbn; lra).
  assert (E : e_of_quaternion eps (Some q) XYZ = Ok (mkE (Radians (PI / 2)) (Radians 0) (Radians (PI / 2)) ZYX)).
  { rewrite e_of_quaternion_matrix by assumption. unfold q, q_matrix, e_of_matrix. cbn [needd bind qx qy qz qs m20 m21 m22 m10 m00].
    replace (2 * (1 / 2 * (1 / 2) + -1 / 2 * (1 / 2))) with 0 by field.
    replace (- (2 * (1 / 2 * (-1 / 2) - 1 / 2 * (1 / 2)))) with 1 by field.
    replace (- (1 / 2) * (1 / 2) - -1 / 2 * (-1 / 2) + 1 / 2 * (1 / 2) + 1 / 2 * (1 / 2)) with 0 by field.
    replace (- (2 * (-1 / 2 * (1 / 2) - 1 / 2 * (1 / 2)))) with 1 by field.
    replace (1 / 2 * (1 / 2) - -1 / 2 * (-1 / 2) - 1 / 2 * (1 / 2) + 1 / 2 * (1 / 2)) with 0 by field.
    unfold asin_. rewrite Rabs_R0. destruct Rle_dec as [_ | N]; [| lra]. cbn [bind]. rewrite asin_0.
    unfold atan2. destruct (Rlt_dec 0 0); [lra |]. destruct (Rlt_dec 0 1); [| lra].
    unfold e_adjust. rewrite Rltb_f by (pose proof PI_RGT_0; lra). reflexivity. }
  destruct (c32_quaternion eps _ _ _ _ He H1 (rad_euler (PI / 2) 0 (PI / 2) ZYX) ltac:(discriminate)) as [p [Ep [_ Fp]]].
  exists q, (rot q). eexists. exists p. eexists. exists (V3 1 0 0).
  split; [exact U |]. split; [intros v; apply q_rotate_unit; assumption |]. split; [exact E |]. split; [exact Ep |].
  split; [exact Fp |]. cbn [e_seq named_sequence]. frame90. rewrite <- rot_matrix. unfold q. intros F.
  apply (f_equal vy) in F. qunfold. lra.
Qed.
(** Gimbal lock: the rotation ZYX (90, 90, 0) degrees, asked for ZYX. *)
Lemma c33_gimbal_refuted eps : 0 < eps -> eps <= 1 ->
  exists q f e p g v, unit_q q /\ q_rotates eps q f /\ e_of_quaternion eps (Some q) ZYX = Ok e
    /\ q_of_euler eps e = Ok p /\ q_rotates eps p g /\ f v <> g v.
Proof.
  intros He H1. set (q := Q4 (-1/2) (1/2) (1/2) (1/2)).
  assert (U : unit_q q) by (unfold unit_q, sq, q; cbn; lra).
  assert (E : e_of_quaternion eps (Some q) ZYX = Ok (mkE (Radians 0) (Radians (PI / 2)) (Radians 0) ZYX)).
  { rewrite e_of_quaternion_matrix by assumption. unfold q, q_matrix, e_of_matrix. cbn [needd bind qx qy qz qs m02 m01 m22 m12 m00].
    replace (- (2 * (-1 / 2 * (1 / 2) - 1 / 2 * (1 / 2)))) with 1 by field.
    replace (2 * (-1 / 2 * (1 / 2) + 1 / 2 * (1 / 2))) with 0 by field.
    replace (-1 / 2 * (-1 / 2) - 1 / 2 * (1 / 2) - 1 / 2 * (1 / 2) + 1 / 2 * (1 / 2)) with 0 by field.
    replace (2 * (1 / 2 * (1 / 2) + -1 / 2 * (1 / 2))) with 0 by field.
    replace (- (-1 / 2) * (-1 / 2) - 1 / 2 * (1 / 2) + 1 / 2 * (1 / 2) + 1 / 2 * (1 / 2)) with 0 by field.
    unfold asin_. rewrite Rabs_R1. destruct Rle_dec as [_ | N]; [| lra]. cbn [bind]. rewrite asin_1'.
    unfold atan2. destruct (Rlt_dec 0 0); [lra |].
    unfold e_adjust. rewrite Rltb_f by lra. reflexivity. }
  destruct (c32_quaternion eps _ _ _ _ He H1 (rad_euler 0 (PI / 2) 0 ZYX) ltac:(discriminate)) as [p [Ep [_ Fp]]].
  exists q, (rot q). eexists. exists p. eexists. exists (V3 1 0 0).
  split; [exact U |]. split; [intros v; apply q_rotate_unit; assumption |]. split; [exact E |]. split; [exact Ep |].
  split; [exact Fp |]. cbn [e_seq named_sequence]. frame90. rewrite <- rot_matrix. unfold q. intros F.
  apply (f_equal vy) in F. qunfold. lra.
Qed.
