(** Rotation matrices (C29, C30, C31), and every proper rotation comes from a quaternion. *)

From Coq Require Import List Bool Reals Lra Lia Psatz.
From Verif Require Import Result DOrder Vec VecProofs Mat3 AngleModel AngleSpec AngleProofs AngleProofs2 RotModel RotSpec RotProofs.
Local Open Scope R_scope.

(** *** Matrix algebra *)
Lemma mul3_assoc a b c : mul3 (mul3 a b) c = mul3 a (mul3 b c).
Proof. qring. Qed.
Lemma mul3_id_l a : mul3 id3 a = a.
Proof. qring. Qed.
Lemma mul3_id_r a : mul3 a id3 = a.
Proof. qring. Qed.
Lemma mulv3_mul a b v : mulv3 (mul3 a b) v = mulv3 a (mulv3 b v).
Proof. qring. Qed.
Lemma mulv3_id v : mulv3 id3 v = v.
Proof. qring. Qed.
Lemma transpose3_mul a b : transpose3 (mul3 a b) = mul3 (transpose3 b) (transpose3 a).
Proof. qring. Qed.
Lemma transpose3_transpose a : transpose3 (transpose3 a) = a.
Proof. qring. Qed.
Lemma det3_mul a b : det3 (mul3 a b) = det3 a * det3 b.
Proof. qring. Qed.
Lemma det3_transpose a : det3 (transpose3 a) = det3 a.
Proof. qring. Qed.
Lemma det3_id : det3 id3 = 1.
Proof. qring. Qed.
Lemma dot3_mulv m v w : dot3 (mulv3 m v) w = dot3 v (mulv3 (transpose3 m) w).
Proof. qring. Qed.
(** Two matrices acting alike are equal. *)
Lemma mulv3_ext a b : (forall v, mulv3 a v = mulv3 b v) -> a = b.
Proof.
  intros H. pose proof (H (V3 1 0 0)) as H0. pose proof (H (V3 0 1 0)) as H1. pose proof (H (V3 0 0 1)) as H2.
  destruct a, b. unfold mulv3, row3, dot3 in *. cbn in *. injection H0 as ? ? ?. injection H1 as ? ? ?. injection H2 as ? ? ?.
  apply M3_eq; lra.
Qed.

Definition adj3 (m : m3) : m3 := of_cols (cross3 (row3 m 1) (row3 m 2)) (cross3 (row3 m 2) (row3 m 0)) (cross3 (row3 m 0) (row3 m 1)).
Definition mscale3 (k : R) (m : m3) : m3 :=
  M3 (k * m00 m) (k * m01 m) (k * m02 m) (k * m10 m) (k * m11 m) (k * m12 m) (k * m20 m) (k * m21 m) (k * m22 m).
Lemma mul3_adj m : mul3 m (adj3 m) = mscale3 (det3 m) id3.
Proof. unfold adj3, mscale3. qring. Qed.
Lemma mscale3_1 m : mscale3 1 m = m.
Proof. unfold mscale3. qring. Qed.

Lemma rotation_adj m : is_rotation m -> adj3 m = transpose3 m.
Proof.
  intros [H D]. rewrite <- (mul3_id_l (adj3 m)), <- H, mul3_assoc, mul3_adj, D, mscale3_1. apply mul3_id_r.
Qed.
Lemma rotation_right m : is_rotation m -> mul3 m (transpose3 m) = id3.
Proof. intros H. rewrite <- rotation_adj by assumption. rewrite mul3_adj. destruct H as [_ ->]. apply mscale3_1. Qed.
Lemma rotation_transpose m : is_rotation m -> is_rotation (transpose3 m).
Proof.
  intros H. split; [rewrite transpose3_transpose; apply rotation_right; assumption |].
  rewrite det3_transpose. apply H.
Qed.
Lemma rotation_mul a b : is_rotation a -> is_rotation b -> is_rotation (mul3 a b).
Proof.
  intros [Ha Da] [Hb Db]. split.
  - rewrite transpose3_mul, mul3_assoc, <- (mul3_assoc (transpose3 a) a b), Ha, mul3_id_l. exact Hb.
  - rewrite det3_mul, Da, Db. ring.
Qed.
Lemma rotation_id : is_rotation id3.
Proof. split; [qring | apply det3_id]. Qed.
Lemma rotation_dot m v w : is_rotation m -> dot3 (mulv3 m v) (mulv3 m w) = dot3 v w.
Proof. intros [H _]. rewrite dot3_mulv, <- mulv3_mul, H, mulv3_id. reflexivity. Qed.

(** The entries of a rotation: columns, rows and cofactors. *)
Lemma rotation_entries m : is_rotation m ->
  (m00 m * m00 m + m10 m * m10 m + m20 m * m20 m = 1
   /\ m01 m * m01 m + m11 m * m11 m + m21 m * m21 m = 1
   /\ m02 m * m02 m + m12 m * m12 m + m22 m * m22 m = 1
   /\ m00 m * m01 m + m10 m * m11 m + m20 m * m21 m = 0
   /\ m01 m * m02 m + m11 m * m12 m + m21 m * m22 m = 0
   /\ m02 m * m00 m + m12 m * m10 m + m22 m * m20 m = 0)
  /\ (m00 m * m00 m + m01 m * m01 m + m02 m * m02 m = 1
   /\ m10 m * m10 m + m11 m * m11 m + m12 m * m12 m = 1
   /\ m20 m * m20 m + m21 m * m21 m + m22 m * m22 m = 1
   /\ m00 m * m10 m + m01 m * m11 m + m02 m * m12 m = 0
   /\ m10 m * m20 m + m11 m * m21 m + m12 m * m22 m = 0
   /\ m20 m * m00 m + m21 m * m01 m + m22 m * m02 m = 0)
  /\ (m00 m = m11 m * m22 m - m12 m * m21 m /\ m01 m = m12 m * m20 m - m10 m * m22 m
   /\ m02 m = m10 m * m21 m - m11 m * m20 m
   /\ m10 m = m21 m * m02 m - m22 m * m01 m /\ m11 m = m22 m * m00 m - m20 m * m02 m
   /\ m12 m = m20 m * m01 m - m21 m * m00 m
   /\ m20 m = m01 m * m12 m - m02 m * m11 m /\ m21 m = m02 m * m10 m - m00 m * m12 m
   /\ m22 m = m00 m * m11 m - m01 m * m10 m).
Proof.
  intros H. pose proof (rotation_adj m H) as A. pose proof (rotation_right m H) as B. destruct H as [C _].
  destruct m as [a b c d e f g h i]. unfold adj3 in A. qunfold.
  injection A as A1 A2 A3 A4 A5 A6 A7 A8 A9. injection B as B1 B2 B3 B4 B5 B6 B7 B8 B9.
  injection C as C1 C2 C3 C4 C5 C6 C7 C8 C9.
  repeat split; lra.
Qed.

Lemma columns_ok_iff eps m : columns_ok eps m = true <-> columns_tolerated eps m.
Proof.
  unfold columns_ok, columns_tolerated. rewrite !andb_true_iff, !negb_true_iff, !Rltb_false. split.
  - intros [[[[[H0 H1] H2] H3] H4] H5]. split.
    + intros [| [| [| j]]] Hj; [lra .. | lia].
    + intros i j Hi Hj Hij.
      destruct i as [| [| [| i]]]; [.. | lia]; (destruct j as [| [| [| j]]]; [.. | lia]); try congruence;
        try assumption; rewrite dot3_sym; assumption.
  - intros [H1 H2]. pose proof (H1 0%nat ltac:(lia)). pose proof (H1 1%nat ltac:(lia)). pose proof (H1 2%nat ltac:(lia)).
    repeat split; try lra; apply H2; lia.
Qed.

Lemma norm3_1 v : sqnorm3 v = 1 -> norm3 v = 1.
Proof. intros H. unfold norm3. rewrite H. apply sqrt_1. Qed.

Lemma orthonormal_ok eps m : 0 < eps -> mul3 (transpose3 m) m = id3 -> RotationMatrix eps m = Ok m.
Proof.
  intros He H. unfold RotationMatrix. replace (columns_ok eps m) with true; [reflexivity |].
  symmetry. apply columns_ok_iff.
  assert (E : forall i j, (i < 3)%nat -> (j < 3)%nat -> dot3 (col3 m i) (col3 m j) = if Nat.eqb i j then 1 else 0).
  { destruct m as [a b c d e f g h i]. qunfold. injection H as C1 C2 C3 C4 C5 C6 C7 C8 C9.
    intros [| [| [| ii]]] [| [| [| jj]]] Hi Hj; try lia; simpl; lra. }
  split.
  - intros j Hj. rewrite norm3_1; [lra |]. unfold sqnorm3. rewrite E, PeanoNat.Nat.eqb_refl by assumption. reflexivity.
  - intros i j Hi Hj Hij. rewrite E by assumption. destruct (PeanoNat.Nat.eqb_spec i j); [contradiction |].
    rewrite Rabs_R0. lra.
Qed.
Lemma rotation_ok eps m : 0 < eps -> is_rotation m -> RotationMatrix eps m = Ok m.
Proof. intros He [H _]. apply orthonormal_ok; assumption. Qed.

(** *** C29 *)
Lemma q_matrix_orthogonal q : mul3 (transpose3 (q_matrix q)) (q_matrix q) = mscale3 (sq q * sq q) id3.
Proof. unfold mscale3. qring. Qed.
Lemma q_matrix_det q : det3 (q_matrix q) = sq q * sq q * sq q.
Proof. qring. Qed.
Lemma q_matrix_rotation q : unit_q q -> is_rotation (q_matrix q).
Proof.
  intros H. split; [rewrite q_matrix_orthogonal, H, Rmult_1_l; apply mscale3_1 | rewrite q_matrix_det, H; ring].
Qed.
Lemma q_matrix_neg q : q_matrix (negq q) = q_matrix q.
Proof. qring. Qed.
Lemma q_matrix_mul p q : q_matrix (qmul p q) = mul3 (q_matrix p) (q_matrix q).
Proof. apply mulv3_ext. intros v. rewrite mulv3_mul, !rot_matrix. apply rot_mul. Qed.
Lemma q_matrix_unit : q_matrix q_Unit = id3.
Proof. qring. Qed.

Lemma q_eq_iff p q : q_eq (Some p) (Some q) = true <-> p = q \/ p = negq q.
Proof.
  unfold q_eq. rewrite orb_true_iff, !andb_true_iff, !Reqb_iff. split.
  - intros [[[[H1 H2] H3] H4] | [[[H1 H2] H3] H4]]; [left | right]; apply q_ext; assumption.
  - intros [-> | ->]; [left | right]; repeat split.
Qed.

Lemma rm_of_quaternion_unit eps q : 0 < eps -> unit_q q -> rm_of_quaternion eps (Some q) = Ok (q_matrix q).
Proof.
  intros He H. unfold rm_of_quaternion. rewrite isUnitary_unit by assumption. cbn [needd bind negb].
  destruct (q_eq (Some q) (Some q_Unit)) eqn:E.
  - assert (M : q_matrix q = id3).
    { apply q_eq_iff in E. destruct E as [-> | ->]; [| rewrite q_matrix_neg]; apply q_matrix_unit. }
    rewrite M. apply rotation_ok; [exact He | apply rotation_id].
  - apply rotation_ok; [exact He | apply q_matrix_rotation; exact H].
Qed.

Lemma c29_matrix eps q : 0 < eps -> unit_q q ->
  exists m, rm_of_quaternion eps (Some q) = Ok m /\ is_rotation m
    /\ forall v, rm_mulv (Some m) (Some v) = q_rotate eps (Some q) (Some v).
Proof.
  intros He H. exists (q_matrix q). split; [apply rm_of_quaternion_unit; assumption |].
  split; [apply q_matrix_rotation; exact H |].
  intros v. rewrite q_rotate_unit by assumption. rewrite <- rot_matrix. reflexivity.
Qed.

Definition qscale (k : R) (q : quat) : quat := Q4 (k * qx q) (k * qy q) (k * qz q) (k * qs q).
Lemma sq_qscale k q : sq (qscale k q) = k * k * sq q.
Proof. unfold qscale. qring. Qed.
Lemma qnorm_qscale k q : qnorm (qscale k q) = Rabs k * qnorm q.
Proof.
  rewrite !qnorm_sqrt, sq_qscale, sqrt_mult by (try apply sq_nonneg; nra).
  f_equal. rewrite <- sqrt_Rsqr_abs. reflexivity.
Qed.
Lemma normalize_eq eps q : normalize eps (Some q) =
  if Rltb (qnorm q) eps then Err ERuntime else Ok (qscale (/ qnorm q) q).
Proof.
  unfold normalize. cbn [needd bind]. rewrite Rabs_pos_eq by apply qnorm_nonneg.
  destruct Rltb; [reflexivity |]. f_equal. unfold qscale. apply Q4_eq; unfold Rdiv; ring.
Qed.
Lemma normalize_scaled eps k q : 0 < eps -> unit_q q -> eps <= Rabs k ->
  normalize eps (Some (qscale k q)) = Ok (if Rltb k 0 then negq q else q).
Proof.
  intros He H Hk. rewrite normalize_eq, qnorm_qscale, qnorm_unit, Rmult_1_r, Rltb_f by assumption. f_equal.
  unfold qscale; cbn [qx qy qz qs]. destruct (Rlt_le_dec k 0) as [C | C].
  - rewrite Rltb_t by assumption. rewrite Rabs_left in * by assumption.
    unfold negq. apply Q4_eq; field; lra.
  - rewrite Rltb_f by assumption. rewrite Rabs_pos_eq in * by assumption. destruct q; apply Q4_eq; cbn; field; lra.
Qed.
Lemma normalize_unit eps q : 0 < eps -> eps <= 1 -> unit_q q -> normalize eps (Some q) = Ok q.
Proof.
  intros He H1 H. replace q with (qscale 1 q) at 1 by (unfold qscale; destruct q; cbn; apply Q4_eq; ring).
  rewrite normalize_scaled by (try assumption; rewrite Rabs_R1; lra). rewrite Rltb_f by lra. reflexivity.
Qed.
Lemma normalize_is_unit eps q r : 0 < eps -> normalize eps (Some q) = Ok r -> unit_q r.
Proof.
  intros He. rewrite normalize_eq. destruct (Rltb (qnorm q) eps) eqn:E; [discriminate |].
  intros [= <-]. apply Rltb_false in E. apply qnorm_1. rewrite qnorm_qscale, Rabs_pos_eq.
  - field. lra.
  - left. apply Rinv_0_lt_compat. lra.
Qed.

Lemma q_of_matrix_roundtrip eps q : 0 < eps -> eps <= 1 -> unit_q q ->
  exists p, q_of_matrix eps (Some (q_matrix q)) = Ok p /\ same_up_to_sign p q.
Proof.
  intros He H1 H.
  assert (Fin : forall k r, k * k >= 1 / 4 -> r = qscale (4 * k) q ->
    exists p, normalize eps (Some r) = Ok p /\ same_up_to_sign p q).
  { intros k r Hk ->. rewrite normalize_scaled; [| exact He | exact H |].
    - eexists. split; [reflexivity |]. unfold same_up_to_sign. destruct Rltb; tauto.
    - rewrite Rabs_mult, (Rabs_pos_eq 4) by lra. destruct (Rle_lt_dec 0 k).
      + rewrite Rabs_pos_eq by lra. nra.
      + rewrite Rabs_left by lra. nra. }
  unfold q_of_matrix. cbn [needd bind]. unfold unit_q in H.
  destruct (Rleb _ _ && Rleb _ _ && Rleb _ _) eqn:E0.
  { rewrite !andb_true_iff, !Rleb_iff in E0. apply (Fin (qs q)).
    - destruct q as [x y z s]. qunfold. lra.
    - unfold qscale. destruct q as [x y z s]. qunfold. apply Q4_eq; lra. }
  destruct (Rleb _ _ && Rleb _ _ && Rleb _ _) eqn:E1 in |- *.
  { rewrite !andb_true_iff, !Rleb_iff in E1. apply (Fin (qx q)).
    - destruct q as [x y z s]. qunfold. lra.
    - unfold qscale. destruct q as [x y z s]. qunfold. apply Q4_eq; lra. }
  destruct (Rleb _ _ && Rleb _ _ && Rleb _ _) eqn:E2 in |- *.
  { rewrite !andb_true_iff, !Rleb_iff in E2. apply (Fin (qy q)).
    - destruct q as [x y z s]. qunfold. lra.
    - unfold qscale. destruct q as [x y z s]. qunfold. apply Q4_eq; lra. }
  destruct (Rleb _ _ && Rleb _ _ && Rleb _ _) eqn:E3 in |- *.
  { rewrite !andb_true_iff, !Rleb_iff in E3. apply (Fin (qz q)).
    - destruct q as [x y z s]. qunfold. lra.
    - unfold qscale. destruct q as [x y z s]. qunfold. apply Q4_eq; lra. }
  exfalso. rewrite !andb_false_iff, !Rleb_false in *. destruct q as [x y z s]. qunfold. lra.
Qed.

Lemma q_matrix_qscale k q : q_matrix (qscale k q) = mscale3 (k * k) (q_matrix q).
Proof. unfold qscale, mscale3. qring. Qed.
Lemma rotation_from_scaled r m k : 0 < k -> sq r = 4 * k -> q_matrix r = mscale3 (4 * k) m ->
  exists q, unit_q q /\ q_matrix q = m.
Proof.
  intros Hk Hs Hm.
  assert (0 < sqrt (4 * k)) by (apply sqrt_lt_R0; lra).
  pose proof (sqrt_sqrt (4 * k) ltac:(lra)) as S.
  exists (qscale (/ sqrt (4 * k)) r). split.
  - unfold unit_q. rewrite sq_qscale, Hs. rewrite <- S at 3. field. lra.
  - rewrite q_matrix_qscale, Hm. rewrite <- S at 3. destruct m; unfold mscale3; cbn. apply M3_eq; field; lra.
Qed.

(** Every proper rotation comes from a unit quaternion. *)
Lemma rotation_quaternion m : is_rotation m -> exists q, unit_q q /\ q_matrix q = m.
Proof.
  intros H. pose proof (rotation_entries m H) as E. clear H.
  destruct m as [a b c d e f g h i]. cbn in E.
  destruct E as [[C1 [C2 [C3 [C4 [C5 C6]]]]] [[R1 [R2 [R3 [R4 [R5 R6]]]]] [D1 [D2 [D3 [D4 [D5 [D6 [D7 [D8 D9]]]]]]]]]].
  destruct (Rlt_le_dec 0 (1 + (a + e + i))) as [P | P].
  { apply (rotation_from_scaled (Q4 (f - h) (g - c) (b - d) (1 + (a + e + i))) _ (1 + (a + e + i)) P).
    - unfold sq; cbn. lra.
    - unfold q_matrix, mscale3; cbn. apply M3_eq; lra. }
  destruct (Rlt_le_dec 0 (1 + 2 * a - (a + e + i))) as [P0 | P0].
  { apply (rotation_from_scaled (Q4 (1 + 2 * a - (a + e + i)) (b + d) (c + g) (f - h)) _ (1 + 2 * a - (a + e + i)) P0).
    - unfold sq; cbn. lra.
    - unfold q_matrix, mscale3; cbn. apply M3_eq; lra. }
  destruct (Rlt_le_dec 0 (1 + 2 * e - (a + e + i))) as [P1 | P1].
  { apply (rotation_from_scaled (Q4 (d + b) (1 + 2 * e - (a + e + i)) (f + h) (g - c)) _ (1 + 2 * e - (a + e + i)) P1).
    - unfold sq; cbn. lra.
    - unfold q_matrix, mscale3; cbn. apply M3_eq; lra. }
  assert (P2 : 0 < 1 + 2 * i - (a + e + i)) by lra.
  apply (rotation_from_scaled (Q4 (g + c) (h + f) (1 + 2 * i - (a + e + i)) (b - d)) _ (1 + 2 * i - (a + e + i)) P2).
  - unfold sq; cbn. lra.
  - unfold q_matrix, mscale3; cbn. apply M3_eq; lra.
Qed.

Lemma c29_from_matrix eps m : 0 < eps -> eps <= 1 -> is_rotation m ->
  exists q, q_of_matrix eps (Some m) = Ok q /\ unit_q q /\ rm_of_quaternion eps (Some q) = Ok m
    /\ forall v, q_rotate eps (Some q) (Some v) = rm_mulv (Some m) (Some v).
Proof.
  intros He H1 H. destruct (rotation_quaternion m H) as [q [Hq <-]].
  destruct (q_of_matrix_roundtrip eps q He H1 Hq) as [p [E S]]. exists p. rewrite E.
  assert (Hp : unit_q p /\ q_matrix p = q_matrix q).
  { destruct S as [-> | ->]; [tauto |]. split; [apply unit_neg; exact Hq | apply q_matrix_neg]. }
  destruct Hp as [Hp M]. split; [reflexivity |]. split; [exact Hp |].
  rewrite rm_of_quaternion_unit by assumption. split; [congruence |].
  intros v. rewrite q_rotate_unit by assumption. rewrite <- rot_matrix, M. reflexivity.
Qed.

(** *** C30 *)
Lemma c30_accepted_iff eps m : 0 < eps ->
  (RotationMatrix eps m = Ok m <-> columns_tolerated eps m)
  /\ (RotationMatrix eps m = Err ERuntime <-> ~ columns_tolerated eps m).
Proof.
  intros He. unfold RotationMatrix. rewrite <- columns_ok_iff.
  destruct (columns_ok eps m); split; split; try congruence; tauto.
Qed.
Lemma c30_lengths_refuted eps : 0 < eps ->
  exists m v, RotationMatrix eps m = Ok m /\ rm_mulv (Some m) (Some v) = Ok zero3 /\ norm3 v = 1.
Proof.
  intros He. exists (M3 0 0 0 0 0 0 0 0 0), (V3 1 0 0). split; [| split].
  - apply c30_accepted_iff; [exact He |].
    assert (Z : forall j, col3 (M3 0 0 0 0 0 0 0 0 0) j = zero3) by (intros [| [| j]]; reflexivity).
    split; intros; rewrite !Z.
    + unfold norm3, sqnorm3, zero3, dot3. cbn. rewrite !Rmult_0_l, !Rplus_0_l, sqrt_0. lra.
    + unfold zero3, dot3. cbn. rewrite !Rmult_0_l, !Rplus_0_l, Rabs_R0. lra.
  - unfold rm_mulv. cbn [needd bind]. f_equal. unfold zero3. qring.
  - apply norm3_1. qring.
Qed.
Lemma c30_orientation_refuted eps : 0 < eps ->
  exists m, RotationMatrix eps m = Ok m /\ (forall v w, dot3 (mulv3 m v) (mulv3 m w) = dot3 v w) /\ det3 m = -1.
Proof.
  intros He. exists (M3 1 0 0 0 1 0 0 0 (-1)). split; [| split].
  - apply orthonormal_ok; [exact He | qring].
  - intros. qring.
  - qring.
Qed.

(** *** C31 *)
Lemma elementary_ok eps f a t : 0 < eps -> (forall x, is_rotation (f x)) -> turns a = Some t ->
  elementary eps f a = Ok (f (t * (2 * PI))).
Proof.
  intros He Hf Ha. unfold elementary. rewrite (turns_defined _ _ Ha).
  rewrite (in_unit_spec _ _ Radian Ha) by discriminate. cbn [bind units_per_turn]. apply rotation_ok; auto.
Qed.
Lemma sc1 t : cos t * cos t + sin t * sin t = 1.
Proof. pose proof (sin2_cos2 t). unfold Rsqr in *. lra. Qed.
Lemma mRX_rotation t : is_rotation (mRX t).
Proof. pose proof (sc1 t). split; unfold mRX; qunfold; [apply M3_eq |]; lra. Qed.
Lemma mRY_rotation t : is_rotation (mRY t).
Proof. pose proof (sc1 t). split; unfold mRY; qunfold; [apply M3_eq |]; lra. Qed.
Lemma mRZ_rotation t : is_rotation (mRZ t).
Proof. pose proof (sc1 t). split; unfold mRZ; qunfold; [apply M3_eq |]; lra. Qed.
Lemma mRX_add a b : mul3 (mRX a) (mRX b) = mRX (a + b).
Proof. unfold mRX. rewrite sin_plus, cos_plus. qring. Qed.
Lemma mRY_add a b : mul3 (mRY a) (mRY b) = mRY (a + b).
Proof. unfold mRY. rewrite sin_plus, cos_plus. qring. Qed.
Lemma mRZ_add a b : mul3 (mRZ a) (mRZ b) = mRZ (a + b).
Proof. unfold mRZ. rewrite sin_plus, cos_plus. qring. Qed.
Lemma mRX_opp a : mRX (- a) = transpose3 (mRX a).
Proof. unfold mRX. rewrite sin_neg, cos_neg. qring. Qed.
Lemma mRY_opp a : mRY (- a) = transpose3 (mRY a).
Proof. unfold mRY. rewrite sin_neg, cos_neg. qring. Qed.
Lemma mRZ_opp a : mRZ (- a) = transpose3 (mRZ a).
Proof. unfold mRZ. rewrite sin_neg, cos_neg. qring. Qed.
Lemma mRX_frame t v : mulv3 (mRX t) v = frame_rotation (axis_vector 1) t v.
Proof. unfold mRX, frame_rotation, axis_vector. qring. Qed.
Lemma mRY_frame t v : mulv3 (mRY t) v = frame_rotation (axis_vector 2) t v.
Proof. unfold mRY, frame_rotation, axis_vector. qring. Qed.
Lemma mRZ_frame t v : mulv3 (mRZ t) v = frame_rotation (axis_vector 3) t v.
Proof. unfold mRZ, frame_rotation, axis_vector. qring. Qed.

Lemma turns_opp a s : turns a = Some s -> exists o, angle_opp a = Ok o /\ turns o = Some (- s).
Proof.
  intros H. destruct (c19_mul a s (-1) H) as [[c _] _].
  pose proof (turns_defined _ _ H) as Ha. apply turns_Some in H. destruct H as [v [H1 [H2 H3]]].
  unfold angle_opp. rewrite Ha, H1. cbn [need bind]. eexists. split; [reflexivity |].
  rewrite turns_mk by assumption. f_equal. rewrite H3. pose proof (per_turn_pos _ H2). field. lra.
Qed.

Lemma axis_group_intro eps f i : 0 < eps -> (forall x, is_rotation (f x)) ->
  (forall a b, mul3 (f a) (f b) = f (a + b)) -> (forall a, f (- a) = transpose3 (f a)) ->
  (forall t v, mulv3 (f t) v = frame_rotation (axis_vector i) t v) ->
  (forall t, frame_rotation (axis_vector i) t (axis_vector i) = axis_vector i) ->
  axis_group eps (elementary eps f) i.
Proof.
  intros He Hf Ha Ho Hr Hx a s Hs. exists (f (s * (2 * PI))).
  split; [apply elementary_ok; assumption |]. split; [apply Hf |].
  split; [intros v; unfold rm_mulv; cbn [needd bind]; rewrite Hr; reflexivity |].
  split; [unfold rm_mulv; cbn [needd bind]; rewrite Hr, Hx; reflexivity |].
  split; [| split].
  - intros b t Hb. destruct (c19_add a b s t Hs Hb) as [[c [Hc [_ Ht]]] _].
    exists (f (t * (2 * PI))), c. split; [apply elementary_ok; assumption |]. split; [exact Hc |].
    rewrite (elementary_ok eps f c (s + t) He Hf Ht). unfold rm_mul. cbn [needd bind]. rewrite Ha.
    rewrite rotation_ok by auto. do 2 f_equal. ring.
  - destruct (turns_opp a s Hs) as [o [Eo To]]. exists o. split; [exact Eo |].
    rewrite (elementary_ok eps f o _ He Hf To). unfold toTransposed. cbn [needd bind].
    rewrite <- Ho. rewrite rotation_ok by auto. do 2 f_equal. ring.
  - reflexivity.
Qed.

Lemma c31 eps : 0 < eps -> axis_group eps (RX eps) 1 /\ axis_group eps (RY eps) 2 /\ axis_group eps (RZ eps) 3.
Proof.
  intros He. split; [| split].
  - apply axis_group_intro; [exact He | apply mRX_rotation | apply mRX_add | apply mRX_opp | apply mRX_frame |].
    intros; unfold frame_rotation, axis_vector; qring.
  - apply axis_group_intro; [exact He | apply mRY_rotation | apply mRY_add | apply mRY_opp | apply mRY_frame |].
    intros; unfold frame_rotation, axis_vector; qring.
  - apply axis_group_intro; [exact He | apply mRZ_rotation | apply mRZ_add | apply mRZ_opp | apply mRZ_frame |].
    intros; unfold frame_rotation, axis_vector; qring.
Qed.
