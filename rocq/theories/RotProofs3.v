(** Rotation vectors and Euler angles (C32 - C36). *)

From Coq Require Import List Bool Reals Lra Lia Psatz.
From Verif Require Import Result DOrder Vec VecProofs Mat3 AngleModel AngleSpec AngleProofs AngleProofs2 RotModel RotSpec RotProofs RotProofs2.
Local Open Scope R_scope.

(** *** Half angles *)
Definition half_q (a : v3) (t : R) : quat := of_parts (scale3 (sin (t / 2)) a) (cos (t / 2)).

Lemma cos_half t : cos t = cos (t / 2) * cos (t / 2) - sin (t / 2) * sin (t / 2).
Proof. rewrite <- cos_plus. f_equal. field. Qed.
Lemma sin_half t : sin t = 2 * sin (t / 2) * cos (t / 2).
Proof. replace t with (t / 2 + t / 2) at 1 by field. rewrite sin_plus. ring. Qed.

Lemma half_q_unit a t : sqnorm3 a = 1 -> unit_q (half_q a t).
Proof.
  intros H. pose proof (sc1 (t / 2)). unfold unit_q, half_q, sq, of_parts, sqnorm3, dot3 in *.
  destruct a as [x y z]. cbn in *.
  replace (sin (t / 2) * x * (sin (t / 2) * x) + sin (t / 2) * y * (sin (t / 2) * y) + sin (t / 2) * z * (sin (t / 2) * z)
    + cos (t / 2) * cos (t / 2))
    with (sin (t / 2) * sin (t / 2) * (x * x + y * y + z * z) + cos (t / 2) * cos (t / 2)) by ring.
  rewrite H. lra.
Qed.

Lemma rot_parts_formula k a c v :
  rot (of_parts (scale3 k a) c) v
  = sub3 (add3 (scale3 (c * c - k * k * sqnorm3 a) v) (scale3 (2 * (k * k) * dot3 a v) a)) (scale3 (2 * k * c) (cross3 a v)).
Proof. rewrite <- rot_matrix. qring. Qed.

Lemma half_q_rot a t v : sqnorm3 a = 1 -> rot (half_q a t) v = frame_rotation a t v.
Proof.
  intros H. unfold half_q. rewrite rot_parts_formula, H. unfold frame_rotation.
  pose proof (sc1 (t / 2)) as S. rewrite (cos_half t), (sin_half t).
  set (c := cos (t / 2)) in *. set (k := sin (t / 2)) in *.
  replace (1 - (c * c - k * k)) with (2 * (k * k)) by lra.
  replace (c * c - k * k * 1) with (c * c - k * k) by ring. reflexivity.
Qed.

Lemma axis_angle_frame a t v : mulv3 (axis_angle_matrix a t) v = frame_rotation a t v.
Proof. unfold axis_angle_matrix, frame_rotation. qring. Qed.

Lemma q_matrix_half a t : sqnorm3 a = 1 -> q_matrix (half_q a t) = axis_angle_matrix a t.
Proof.
  intros H. apply mulv3_ext. intros v. rewrite rot_matrix, half_q_rot, axis_angle_frame by assumption. reflexivity.
Qed.
Lemma axis_angle_rotation a t : sqnorm3 a = 1 -> is_rotation (axis_angle_matrix a t).
Proof. intros H. rewrite <- q_matrix_half by assumption. apply q_matrix_rotation, half_q_unit, H. Qed.

(** *** C34 *)
Lemma normalized3_unit v : 0 < norm3 v -> sqnorm3 (normalized3 v) = 1.
Proof.
  intros H. unfold normalized3. destruct (Rlt_dec 0 (sqnorm3 v)) as [C | C].
  - rewrite sqnorm3_scale. rewrite <- norm3_sq. field. lra.
  - exfalso. apply C. rewrite <- norm3_sq. nra.
Qed.

Lemma RotationVector_ok eps a t : 0 < eps -> eps < 1 ->
  (Rabs (norm3 a - 1) <= eps ->
     exists r, RotationVector eps (Some a) t = Ok r /\ rv_axis r = Some (normalized3 a) /\ rv_angle r = t
       /\ sqnorm3 (normalized3 a) = 1)
  /\ (eps < Rabs (norm3 a - 1) -> RotationVector eps (Some a) t = Err ERuntime).
Proof.
  intros He H1. unfold RotationVector. split; intros H.
  - rewrite Rltb_f by assumption. eexists. split; [reflexivity |]. split; [reflexivity |]. split; [reflexivity |].
    apply normalized3_unit. unfold Rabs in H. destruct Rcase_abs; lra.
  - rewrite Rltb_t by assumption. reflexivity.
Qed.

Lemma rv_rotates_intro r a s : rv_axis r = Some a -> turns (rv_angle r) = Some s -> sqnorm3 a = 1 ->
  rv_rotates r (frame_rotation a (s * (2 * PI))).
Proof.
  intros Ha Hs H. exists a, (s * (2 * PI)). split; [exact Ha |]. split; [rewrite Hs; f_equal; field; pose proof PI_RGT_0; lra |].
  split; [exact H | reflexivity].
Qed.

Lemma rv_access r a s : rv_axis r = Some a -> turns (rv_angle r) = Some s ->
  rv_isDefined r = true /\ getAxis r = Ok a /\ getAngle r = Ok (rv_angle r) /\ in_unit (rv_angle r) Radian = Ok (s * (2 * PI)).
Proof.
  intros Ha Hs. assert (D : rv_isDefined r = true) by (unfold rv_isDefined; rewrite Ha; apply (turns_defined _ _ Hs)).
  unfold getAxis, getAngle. rewrite D, Ha. repeat split. rewrite (in_unit_spec _ _ Radian Hs) by discriminate. reflexivity.
Qed.

Lemma rv_to_q eps r f : 0 < eps -> eps <= 1 -> rv_rotates r f ->
  exists q, q_of_rotvec eps r = Ok q /\ unit_q q /\ q_rotates eps q f.
Proof.
  intros He H1 [a [t [Ha [Ht [H Hf]]]]].
  destruct (rv_access r a _ Ha Ht) as [D [Ga [Gt In]]].
  exists (half_q a t). unfold q_of_rotvec. rewrite Gt, Ga. cbn [bind]. rewrite In. cbn [bind].
  replace (t / (2 * PI) * (2 * PI)) with t by (field; pose proof PI_RGT_0; lra).
  fold (half_q a t). pose proof (half_q_unit a t H) as U.
  split; [apply normalize_unit; assumption |]. split; [exact U |].
  intros v. rewrite q_rotate_unit, half_q_rot, Hf by assumption. reflexivity.
Qed.

Lemma rv_to_m eps r f : 0 < eps -> rv_rotates r f ->
  exists m, rm_of_rotvec eps r = Ok m /\ is_rotation m /\ m_rotates m f.
Proof.
  intros He [a [t [Ha [Ht [H Hf]]]]].
  destruct (rv_access r a _ Ha Ht) as [D [Ga [Gt In]]].
  exists (axis_angle_matrix a t). unfold rm_of_rotvec. rewrite D, Gt, Ga. cbn [bind negb]. rewrite In. cbn [bind].
  replace (t / (2 * PI) * (2 * PI)) with t by (field; pose proof PI_RGT_0; lra).
  pose proof (axis_angle_rotation a t H) as U.
  split; [apply rotation_ok; assumption |]. split; [exact U |].
  intros v. unfold rm_mulv. cbn [needd bind]. rewrite axis_angle_frame, Hf. reflexivity.
Qed.

Lemma c34_construct eps a t s : 0 < eps -> eps < 1 -> Rabs (norm3 a - 1) <= eps -> turns t = Some s ->
  exists r b, RotationVector eps (Some a) t = Ok r /\ rv_rotates r (frame_rotation b (s * (2 * PI)))
    /\ sqnorm3 b = 1 /\ same_direction3 a b.
Proof.
  intros He H1 Ha Hs. destruct (RotationVector_ok eps a t He H1) as [H _].
  destruct (H Ha) as [r [E [Ax [An U]]]]. exists r, (normalized3 a). split; [exact E |].
  split; [apply rv_rotates_intro; congruence |]. split; [exact U |].
  assert (P : 0 < norm3 a) by (unfold Rabs in Ha; destruct Rcase_abs; lra).
  exists (/ norm3 a). split; [apply Rinv_0_lt_compat; exact P |].
  unfold normalized3. destruct Rlt_dec as [C | C]; [reflexivity |].
  exfalso. apply C. rewrite <- norm3_sq. nra.
Qed.

Lemma c34_conversions eps r f : 0 < eps -> eps <= 1 -> rv_rotates r f ->
  (exists q, q_of_rotvec eps r = Ok q /\ unit_q q /\ q_rotates eps q f)
  /\ (exists m, rm_of_rotvec eps r = Ok m /\ is_rotation m /\ m_rotates m f).
Proof. intros He H1 H. split; [apply rv_to_q | apply rv_to_m]; assumption. Qed.

Lemma turns_Radians t : turns (Radians t) = Some (t / (2 * PI)).
Proof. reflexivity. Qed.
Lemma norm3_z : norm3 (V3 0 0 1) = 1.
Proof. apply norm3_1. unfold sqnorm3, dot3; cbn; ring. Qed.
Lemma RotationVector_unit eps a t : 0 < eps -> sqnorm3 a = 1 -> RotationVector eps (Some a) t = Ok (mkRV (Some a) t).
Proof.
  intros He H. unfold RotationVector. rewrite (norm3_1 a H). replace (1 - 1) with 0 by ring.
  rewrite Rabs_R0, Rltb_f by lra. do 3 f_equal. unfold normalized3. destruct Rlt_dec; [| reflexivity].
  rewrite (norm3_1 a H), Rinv_1. apply scale3_1.
Qed.

Lemma unit_q_bound q : unit_q q -> -1 <= qs q <= 1.
Proof. unfold unit_q, sq. destruct q; cbn. intros. nra. Qed.
Lemma unit_q_vec q : unit_q q -> sqnorm3 (vec q) = 1 - qs q * qs q.
Proof. unfold unit_q, sq, sqnorm3, dot3, vec. destruct q; cbn. lra. Qed.

(** The quaternion of a given scalar part, by its axis. *)
Lemma unit_q_half q : unit_q q -> Rabs (qs q) < 1 ->
  sqnorm3 (scale3 (/ sqrt (1 - qs q * qs q)) (vec q)) = 1
  /\ q = half_q (scale3 (/ sqrt (1 - qs q * qs q)) (vec q)) (2 * acos (qs q)).
Proof.
  intros H Hs. pose proof (unit_q_bound q H) as B. pose proof (unit_q_vec q H) as V.
  assert (P : 0 < 1 - qs q * qs q) by (unfold Rabs in Hs; destruct Rcase_abs in Hs; nra).
  assert (0 < sqrt (1 - qs q * qs q)) by (apply sqrt_lt_R0; exact P).
  pose proof (sqrt_sqrt (1 - qs q * qs q) ltac:(lra)) as S.
  split.
  - rewrite sqnorm3_scale, V. rewrite <- S at 3. field. lra.
  - unfold half_q. replace (2 * acos (qs q) / 2) with (acos (qs q)) by field.
    rewrite cos_acos, sin_acos by assumption. unfold Rsqr.
    destruct q as [x y z s]; unfold of_parts, vec; v3unfold; cbn in *; apply Q4_eq; field; lra.
Qed.

Lemma c34_from_quaternion eps q : 0 < eps -> unit_q q ->
  exists r f, rv_of_quaternion eps (Some q) = Ok r /\ rv_rotates r f /\ q_rotates eps q f.
Proof.
  intros He H. unfold rv_of_quaternion. rewrite isUnitary_unit by assumption. cbn [needd bind negb].
  pose proof (unit_q_bound q H) as B. pose proof (unit_q_vec q H) as V.
  destruct (q_eq (Some q) (Some q_Unit) || Reqb (Rabs (qs q)) 1) eqn:E.
  - unfold rv_Unit. rewrite RotationVector_unit by (try assumption; unfold sqnorm3, dot3; cbn; ring).
    eexists. exists (frame_rotation (V3 0 0 1) (0 * (2 * PI))). split; [reflexivity |].
    split; [apply rv_rotates_intro; [reflexivity | | unfold sqnorm3, dot3; cbn; ring] |].
    + cbn. f_equal. unfold Rdiv. ring.
    + assert (V0 : vec q = zero3).
      { apply sqnorm3_0. rewrite V. apply orb_true_iff in E. destruct E as [E | E].
        - apply q_eq_iff in E. destruct E as [-> | ->]; cbn; ring.
        - apply Reqb_iff in E. unfold Rabs in E; destruct Rcase_abs in E; nra. }
      intros v. rewrite q_rotate_unit by assumption. f_equal. rewrite <- rot_matrix.
      unfold vec, zero3 in V0. destruct q as [x y z s]. cbn in V0. injection V0 as -> -> ->.
      unfold unit_q, sq in H; cbn in H. unfold frame_rotation. rewrite Rmult_0_l, cos_0, sin_0.
      transitivity (scale3 (s * s) v); [qring |]. replace (s * s) with 1 by lra. qring.
  - apply orb_false_iff in E. destruct E as [_ E].
    assert (Hs : Rabs (qs q) < 1).
    { assert (Rabs (qs q) <= 1) by (unfold Rabs; destruct Rcase_abs; lra).
      assert (Rabs (qs q) <> 1) by (intros E'; apply Reqb_iff in E'; congruence). lra. }
    destruct (unit_q_half q H Hs) as [U Q].
    assert (P : 0 <= 1 - qs q * qs q) by nra.
    unfold sqrt_. destruct Rlt_dec as [C | _]; [lra |]. cbn [bind].
    set (a := scale3 (/ sqrt (1 - qs q * qs q)) (vec q)) in *.
    replace (normalized3 a) with a.
    2: { unfold normalized3. destruct Rlt_dec; [| reflexivity]. rewrite (norm3_1 a U), Rinv_1, scale3_1. reflexivity. }
    unfold acos_. destruct Rle_dec as [_ | C]; [| lra]. cbn [bind].
    rewrite RotationVector_unit by assumption.
    exists (mkRV (Some a) (Radians (2 * acos (qs q)))), (frame_rotation a (2 * acos (qs q))). split; [reflexivity |]. split.
    + exists a, (2 * acos (qs q)). split; [reflexivity |]. split; [reflexivity |]. split; [exact U | reflexivity].
    + intros v. rewrite q_rotate_unit by assumption. rewrite Q at 1. rewrite half_q_rot by assumption. reflexivity.
Qed.
