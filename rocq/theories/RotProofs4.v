(** Rotation vectors and Euler angles, continued (C32, C33, C35, C36). *)

From Coq Require Import List Bool Reals Lra Lia Psatz Nsatz.
From Verif Require Import Result DOrder Vec VecProofs Mat3 AngleModel AngleSpec AngleProofs AngleProofs2 RotModel RotSpec
  RotProofs RotProofs2 RotProofs3.
Local Open Scope R_scope.

(** *** C35 *)
Lemma acos_le_half s : 0 <= s <= 1 -> 0 <= acos s <= PI / 2.
Proof.
  intros H. pose proof (acos_bound s) as B. split; [lra |].
  destruct (Rle_lt_dec (acos s) (PI / 2)) as [C | C]; [exact C |].
  pose proof (cos_lt_0 (acos s) C ltac:(lra)). rewrite cos_acos in H0 by lra. lra.
Qed.
Lemma acos_double s : 0 <= s <= 1 -> acos (2 * (s * s) - 1) = 2 * acos s.
Proof.
  intros H. pose proof (acos_le_half s H) as B.
  replace (2 * (s * s) - 1) with (cos (2 * acos s)); [apply acos_cos; lra |].
  rewrite cos_2a, cos_acos, sin_acos by lra. unfold Rsqr. rewrite sqrt_sqrt by nra. ring.
Qed.
Lemma q_matrix_trace q : unit_q q -> trace3 (q_matrix q) = 4 * (qs q * qs q) - 1.
Proof. unfold unit_q. destruct q; qunfold. intros; lra. Qed.

(** A rotation comes from a unit quaternion of non-negative scalar part. *)
Lemma rotation_quaternion_pos m : is_rotation m -> exists q, unit_q q /\ 0 <= qs q /\ q_matrix q = m.
Proof.
  intros H. destruct (rotation_quaternion m H) as [q [U E]].
  destruct (Rle_lt_dec 0 (qs q)) as [C | C]; [exists q; tauto |].
  exists (negq q). split; [apply unit_neg; exact U |]. split; [cbn; lra | rewrite q_matrix_neg; exact E].
Qed.
Lemma rotation_trace m : is_rotation m -> -1 <= trace3 m <= 3.
Proof.
  intros H. destruct (rotation_quaternion m H) as [q [U <-]]. rewrite q_matrix_trace by assumption.
  pose proof (unit_q_bound q U). nra.
Qed.

Lemma rv_of_matrix_q eps q : 0 < eps -> unit_q q -> 0 <= qs q ->
  rv_of_matrix eps (Some (q_matrix q)) =
  (if Rltb (2 * acos (qs q)) eps then RotationVector eps (Some (V3 1 0 0)) (Radians (2 * acos (qs q)))
   else RotationVector eps (Some (normalized3 (scale3 (4 * qs q) (vec q)))) (Radians (2 * acos (qs q)))).
Proof.
  intros He U S. pose proof (unit_q_bound q U) as B. pose proof (acos_le_half (qs q) ltac:(lra)) as A.
  unfold rv_of_matrix. cbn [needd bind]. rewrite q_matrix_trace by assumption.
  replace ((4 * (qs q * qs q) - 1 - 1) / 2) with (2 * (qs q * qs q) - 1) by field.
  unfold acos_. destruct Rle_dec as [_ | C].
  2: { exfalso. apply C. unfold Rabs. destruct Rcase_abs; nra. }
  cbn [bind]. rewrite acos_double by lra. rewrite (Rabs_pos_eq (2 * acos (qs q))) by lra.
  destruct Rltb; [reflexivity |]. do 3 f_equal. destruct q; qunfold. apply V3_eq; ring.
Qed.

Lemma c35_partial eps m : 0 < eps -> is_rotation m -> -1 < trace3 m ->
  (eps <= acos ((trace3 m - 1) / 2) \/ trace3 m = 3) ->
  exists r f t, rv_of_matrix eps (Some m) = Ok r /\ rv_rotates r f /\ m_rotates m f
    /\ turns (rv_angle r) = Some (t / (2 * PI)) /\ 0 <= t < PI.
Proof.
  intros He H T A. destruct (rotation_quaternion_pos m H) as [q [U [S <-]]].
  pose proof (unit_q_bound q U) as B. pose proof (unit_q_vec q U) as V. pose proof PI_RGT_0.
  pose proof (acos_le_half (qs q) ltac:(lra)) as AB.
  rewrite q_matrix_trace in * by assumption.
  replace ((4 * (qs q * qs q) - 1 - 1) / 2) with (2 * (qs q * qs q) - 1) in A by field.
  rewrite acos_double in A by lra. rewrite rv_of_matrix_q by assumption.
  assert (Sp : 0 < qs q) by nra.
  assert (AL : acos (qs q) < PI / 2).
  { destruct (Rle_lt_or_eq_dec _ _ (proj2 AB)) as [C | C]; [exact C |].
    exfalso. pose proof (cos_acos (qs q) ltac:(lra)) as E. rewrite C, cos_PI2 in E. lra. }
  destruct (Req_dec (qs q) 1) as [E1 | E1].
  - (* the identity *)
    assert (V0 : vec q = zero3) by (apply sqnorm3_0; rewrite V, E1; ring).
    assert (A0 : acos (qs q) = 0) by (apply acos_0_iff; lra). rewrite A0 in *.
    rewrite Rltb_t by lra. rewrite RotationVector_unit by (try assumption; unfold sqnorm3, dot3; cbn; ring).
    eexists. exists (fun v => v), 0. split; [reflexivity |]. split; [| split; [| split; [| lra]]].
    + exists (V3 1 0 0), 0. split; [reflexivity |]. split; [cbn; do 2 f_equal; ring |].
      split; [unfold sqnorm3, dot3; cbn; ring |]. intros v. unfold frame_rotation. rewrite cos_0, sin_0. qring.
    + intros v. unfold rm_mulv. cbn [needd bind]. f_equal. destruct q as [x y z s].
      unfold vec, zero3 in V0. cbn in *. injection V0 as -> -> ->. subst s. qring.
    + cbn. do 2 f_equal. ring.
  - assert (Hs : Rabs (qs q) < 1) by (rewrite Rabs_pos_eq; lra).
    destruct A as [A | A]; [| exfalso; nra].
    rewrite Rltb_f by assumption. destruct (unit_q_half q U Hs) as [Ua Q].
    set (a := scale3 (/ sqrt (1 - qs q * qs q)) (vec q)) in *.
    assert (D : 0 < sqrt (1 - qs q * qs q)) by (apply sqrt_lt_R0; nra).
    assert (N : normalized3 (scale3 (4 * qs q) (vec q)) = a).
    { replace (scale3 (4 * qs q) (vec q)) with (scale3 (4 * qs q * sqrt (1 - qs q * qs q)) a)
        by (unfold a; rewrite scale3_scale; f_equal; field; lra).
      assert (K : 0 < 4 * qs q * sqrt (1 - qs q * qs q)) by (apply Rmult_lt_0_compat; lra).
      unfold normalized3. destruct Rlt_dec as [C | C].
      - rewrite norm3_scale, (norm3_1 a Ua), Rabs_pos_eq, scale3_scale by lra.
        replace (/ (4 * qs q * sqrt (1 - qs q * qs q) * 1) * (4 * qs q * sqrt (1 - qs q * qs q))) with 1 by (field; lra).
        apply scale3_1.
      - exfalso. apply C. rewrite sqnorm3_scale, Ua. nra. }
    rewrite N, RotationVector_unit by assumption.
    eexists. exists (frame_rotation a (2 * acos (qs q))), (2 * acos (qs q)).
    split; [reflexivity |]. split; [| split; [| split; [reflexivity | lra]]].
    + exists a, (2 * acos (qs q)). split; [reflexivity |]. split; [reflexivity |]. split; [exact Ua | reflexivity].
    + intros v. unfold rm_mulv. cbn [needd bind]. rewrite rot_matrix, Q at 1. rewrite half_q_rot by assumption. reflexivity.
Qed.

Lemma normalized3_zero : normalized3 zero3 = zero3.
Proof. unfold normalized3. destruct Rlt_dec; [| reflexivity]. unfold zero3. v3unfold. cbn. apply V3_eq; ring. Qed.

Lemma c35_half_turn eps m : 0 < eps -> eps < 1 -> is_rotation m -> trace3 m = -1 ->
  rv_of_matrix eps (Some m) = Err ERuntime.
Proof.
  intros He H1 H T. destruct (rotation_quaternion_pos m H) as [q [U [S <-]]].
  rewrite q_matrix_trace in T by assumption. assert (S0 : qs q = 0) by nra.
  rewrite rv_of_matrix_q by assumption. rewrite S0, acos_0, Rmult_0_r.
  pose proof PI2_1. rewrite Rltb_f by lra.
  replace (scale3 0 (vec q)) with zero3 by (unfold zero3; qring). rewrite normalized3_zero.
  unfold RotationVector. replace (norm3 zero3) with 0.
  2: { symmetry. apply norm3_0. reflexivity. }
  rewrite Rltb_t; [reflexivity |]. rewrite Rabs_left by lra. lra.
Qed.
Lemma c35_refuted eps : 0 < eps -> eps < 1 -> exists m, is_rotation m /\ rv_of_matrix eps (Some m) = Err ERuntime.
Proof.
  intros He H1. exists (M3 1 0 0 0 (-1) 0 0 0 (-1)).
  assert (R : is_rotation (M3 1 0 0 0 (-1) 0 0 0 (-1))) by (split; qring).
  split; [exact R |]. apply c35_half_turn; try assumption. unfold trace3; cbn. ring.
Qed.

Lemma c35_small_angle_refuted eps : 0 < eps -> eps < 1 ->
  exists m r f, is_rotation m /\ rv_of_matrix eps (Some m) = Ok r /\ rv_rotates r f /\ ~ m_rotates m f.
Proof.
  intros He H1. set (z := V3 0 0 1). assert (Z : sqnorm3 z = 1) by (unfold z, sqnorm3, dot3; cbn; ring).
  set (q := half_q z (eps / 2)).
  pose proof (half_q_unit z (eps / 2) Z) as U. fold q in U. pose proof PI2_1.
  assert (S : qs q = cos (eps / 4)) by (unfold q, half_q; cbn; f_equal; field).
  assert (S0 : 0 <= qs q) by (rewrite S; apply cos_ge_0; lra).
  exists (q_matrix q), (mkRV (Some (V3 1 0 0)) (Radians (2 * acos (qs q)))), (frame_rotation (V3 1 0 0) (eps / 2)).
  assert (A : 2 * acos (qs q) = eps / 2) by (rewrite S, acos_cos by lra; field).
  split; [apply q_matrix_rotation, U |]. split; [| split].
  - rewrite rv_of_matrix_q by assumption. rewrite A, Rltb_t by lra. 
    apply RotationVector_unit; [exact He | unfold sqnorm3, dot3; cbn; ring].
  - exists (V3 1 0 0), (eps / 2). cbn [rv_axis rv_angle]. rewrite A. repeat split.
    unfold sqnorm3, dot3; cbn; ring.
  - intros F. specialize (F (V3 1 0 0)). unfold rm_mulv in F. cbn [needd bind] in F.
    rewrite rot_matrix in F. unfold q in F. rewrite half_q_rot in F by assumption.
    assert (F' : frame_rotation z (eps / 2) (V3 1 0 0) = frame_rotation (V3 1 0 0) (eps / 2) (V3 1 0 0)) by congruence.
    apply (f_equal vy) in F'. unfold frame_rotation, z in F'. v3unfold. unfold dot3 in F'. cbn in F'.
    pose proof (sin_gt_0 (eps / 2) ltac:(lra) ltac:(lra)). lra.
Qed.

(** *** C36 *)
Lemma frame_rotation_opp a t v : frame_rotation (opp3 a) (- t) v = frame_rotation a t v.
Proof. unfold frame_rotation. rewrite cos_neg, sin_neg. qring. Qed.
Lemma frame_rotation_turn a t v : frame_rotation a (t - 2 * PI) v = frame_rotation a t v.
Proof.
  unfold frame_rotation. replace (sin t) with (sin (t - 2 * PI + 2 * PI)) by (f_equal; ring).
  replace (cos t) with (cos (t - 2 * PI + 2 * PI)) by (f_equal; ring).
  rewrite sin_plus, cos_plus, sin_2PI, cos_2PI. replace (sin (t - 2 * PI) * 1 + cos (t - 2 * PI) * 0) with (sin (t - 2 * PI)) by ring.
  replace (cos (t - 2 * PI) * 1 - sin (t - 2 * PI) * 0) with (cos (t - 2 * PI)) by ring. reflexivity.
Qed.
Lemma frame_rotation_flip a t v : frame_rotation (opp3 a) (2 * PI - t) v = frame_rotation a t v.
Proof. replace (2 * PI - t) with (- (t - 2 * PI)) by ring. rewrite frame_rotation_opp. apply frame_rotation_turn. Qed.
Lemma sqnorm3_opp a : sqnorm3 (opp3 a) = sqnorm3 a.
Proof. qring. Qed.

Lemma isNegative_spec a s : turns a = Some s -> angle_isNegative a = Ok (Rltb s 0).
Proof.
  intros H. unfold angle_isNegative. rewrite (turns_defined _ _ H). apply turns_Some in H.
  destruct H as [v [-> [Hu ->]]]. cbn [need bind]. f_equal. pose proof (per_turn_pos _ Hu).
  destruct (Rlt_le_dec s 0); [rewrite !Rltb_t by nra | rewrite !Rltb_f by nra]; reflexivity.
Qed.
Lemma isZero_spec a s : turns a = Some s -> angle_isZero a = Ok (Reqb s 0).
Proof.
  intros H. unfold angle_isZero. rewrite (turns_defined _ _ H). apply turns_Some in H.
  destruct H as [v [-> [Hu ->]]]. cbn [need bind]. f_equal. pose proof (per_turn_pos _ Hu). unfold Reqb.
  destruct (Req_EM_T s 0); destruct Req_EM_T; try reflexivity; exfalso; [subst; lra | nra].
Qed.

(** What rectify does to the angle, in turns. *)
Lemma rv_rectify_spec r a s : rv_axis r = Some a -> turns (rv_angle r) = Some s ->
  exists r', rv_rectify r = Ok r'
    /\ rv_axis r' = Some (if Rltb (1 / 2) (Rabs s) then (if Rltb s 0 then a else opp3 a)
                          else (if Rltb s 0 then opp3 a else a))
    /\ turns (rv_angle r') = Some (if Rltb (1 / 2) (Rabs s) then 1 - Rabs s else Rabs s).
Proof.
  intros Ha Hs. destruct (rv_access r a s Ha Hs) as [D _]. unfold rv_rectify. rewrite D, Ha. cbn [needd bind negb].
  rewrite (isNegative_spec _ _ Hs). cbn [bind].
  assert (T : exists t, (if Rltb s 0 then angle_opp (rv_angle r) else Ok (rv_angle r)) = Ok t /\ turns t = Some (Rabs s)).
  { destruct (Rlt_le_dec s 0) as [C | C].
    - rewrite Rltb_t by assumption. destruct (turns_opp _ _ Hs) as [o [E T]]. exists o. rewrite Rabs_left by lra. tauto.
    - rewrite Rltb_f by assumption. exists (rv_angle r). rewrite Rabs_pos_eq by lra. tauto. }
  destruct T as [t [-> T]]. cbn [bind]. rewrite (in_unit_spec _ _ Radian T) by discriminate.
  rewrite (in_unit_spec angle_Pi (1 / 2) Radian) by (try discriminate; cbn; f_equal; field; pose proof PI_RGT_0; lra).
  cbn [bind units_per_turn].
  replace (Rltb (1 / 2 * (2 * PI)) (Rabs s * (2 * PI))) with (Rltb (1 / 2) (Rabs s)).
  2: { pose proof PI_RGT_0. destruct (Rlt_le_dec (1 / 2) (Rabs s)); [rewrite !Rltb_t by nra | rewrite !Rltb_f by nra]; reflexivity. }
  assert (TP : turns angle_TwoPi = Some 1) by (cbn; f_equal; field; pose proof PI_RGT_0; lra).
  destruct (c19_add angle_TwoPi t 1 (Rabs s) TP T) as [_ [c [Ec [_ Tc]]]].
  destruct (Rltb (1 / 2) (Rabs s)).
  - rewrite Ec. cbn [bind]. eexists. split; [reflexivity |]. split; [| exact Tc]. cbn [rv_axis].
    destruct (Rltb s 0); [do 2 f_equal; qring | reflexivity].
  - eexists. split; [reflexivity |]. split; [reflexivity | exact T].
Qed.

Lemma c36_same r f : rv_rotates r f -> exists r', rv_rectify r = Ok r' /\ rv_rotates r' f.
Proof.
  intros [a [t [Ha [Ht [H Hf]]]]]. destruct (rv_rectify_spec r a _ Ha Ht) as [r' [E [Xa Xt]]].
  exists r'. split; [exact E |]. pose proof PI_RGT_0 as P.
  set (s := t / (2 * PI)) in *. assert (Ts : t = s * (2 * PI)) by (unfold s; field; lra).
  set (a' := if Rltb (1 / 2) (Rabs s) then (if Rltb s 0 then a else opp3 a) else (if Rltb s 0 then opp3 a else a)) in *.
  set (s' := if Rltb (1 / 2) (Rabs s) then 1 - Rabs s else Rabs s) in *.
  exists a', (s' * (2 * PI)). split; [exact Xa |]. split; [rewrite Xt; f_equal; field; lra |].
  assert (U : sqnorm3 a' = 1) by (unfold a'; destruct Rltb; destruct Rltb; rewrite ?sqnorm3_opp; exact H).
  split; [exact U |]. intros v. rewrite Hf, Ts. unfold a', s'.
  destruct (Rlt_le_dec s 0) as [C | C];
    [rewrite (Rltb_t s 0), (Rabs_left s) by assumption | rewrite (Rltb_f s 0), (Rabs_pos_eq s) by assumption];
    match goal with |- context [Rltb (1 / 2) ?x] => destruct (Rltb (1 / 2) x) end.
  - rewrite <- (frame_rotation_turn a ((1 - - s) * (2 * PI))). f_equal. ring.
  - replace (- s * (2 * PI)) with (- (s * (2 * PI))) by ring. rewrite frame_rotation_opp. reflexivity.
  - replace ((1 - s) * (2 * PI)) with (2 * PI - s * (2 * PI)) by ring. rewrite frame_rotation_flip. reflexivity.
  - reflexivity.
Qed.
Lemma c36_range_partial r a s : rv_axis r = Some a -> turns (rv_angle r) = Some s -> -1 <= s <= 1 ->
  exists r' s', rv_rectify r = Ok r' /\ turns (rv_angle r') = Some s' /\ 0 <= s' <= 1 / 2.
Proof.
  intros Ha Hs B. destruct (rv_rectify_spec r a s Ha Hs) as [r' [E [_ Xt]]]. exists r'. eexists.
  split; [exact E |]. split; [exact Xt |]. assert (0 <= Rabs s <= 1) by (unfold Rabs; destruct Rcase_abs; lra).
  destruct (Rlt_le_dec (1 / 2) (Rabs s)); [rewrite Rltb_t by assumption | rewrite Rltb_f by assumption]; lra.
Qed.
Lemma c36_range_refuted : exists r r' s', rv_rotates r (frame_rotation (V3 0 0 1) (5 * PI))
  /\ rv_rectify r = Ok r' /\ turns (rv_angle r') = Some s' /\ s' < 0.
Proof.
  pose proof PI_RGT_0.
  assert (T : turns (mkA (Some 900) Degree) = Some (5 / 2)) by (cbn; f_equal; field).
  destruct (rv_rectify_spec (mkRV (Some (V3 0 0 1)) (mkA (Some 900) Degree)) (V3 0 0 1) (5 / 2)) as [r' [E [_ Xt]]];
    [reflexivity | exact T |].
  exists (mkRV (Some (V3 0 0 1)) (mkA (Some 900) Degree)), r'. eexists. split; [| split; [exact E | split; [exact Xt |]]].
  - exists (V3 0 0 1), (5 * PI). split; [reflexivity |]. split; [cbn; f_equal; field; lra |].
    split; [unfold sqnorm3, dot3; cbn; ring | reflexivity].
  - rewrite Rabs_pos_eq by lra. rewrite Rltb_t by lra. lra.
Qed.
Lemma c36_quaternion eps q : 0 < eps -> unit_q q ->
  exists p, q_rectify (Some q) = Ok p /\ 0 <= qs p /\ unit_q p /\ same_rotation eps p q.
Proof.
  intros He H. unfold q_rectify. cbn [needd bind]. eexists. split; [reflexivity |].
  destruct (Rlt_le_dec (qs q) 0) as [C | C];
    [rewrite Rltb_t by assumption; fold (negq q) | rewrite Rltb_f by assumption].
  - split; [cbn; lra |]. split; [apply unit_neg; exact H |]. intros v. apply c28_negated; assumption.
  - split; [exact C |]. split; [exact H |]. intros v. reflexivity.
Qed.
Lemma c36_quaternion_any q : exists p, q_rectify (Some q) = Ok p /\ 0 <= qs p /\ same_up_to_sign p q.
Proof.
  unfold q_rectify. cbn [needd bind]. eexists. split; [reflexivity |]. unfold same_up_to_sign.
  destruct (Rlt_le_dec (qs q) 0) as [C | C];
    [rewrite Rltb_t by assumption; fold (negq q) | rewrite Rltb_f by assumption]; split; cbn; try lra; tauto.
Qed.

(** *** C32 *)
Definition seq_matrix (s : axis_sequence) (a b c : R) : m3 :=
  match s with
  | XYZ => mul3 (mul3 (mRZ c) (mRY b)) (mRX a)
  | ZXY => mul3 (mul3 (mRY c) (mRX b)) (mRZ a)
  | ZYX => mul3 (mul3 (mRX c) (mRY b)) (mRZ a)
  | SeqUndefined => id3
  end.
Lemma seq_matrix_named s a b c v : mulv3 (seq_matrix s a b c) v = named_sequence s a b c v.
Proof.
  destruct s; cbn [seq_matrix named_sequence]; [apply mulv3_id |..]; unfold frame_sequence;
    rewrite !mulv3_mul, ?mRX_frame, ?mRY_frame, ?mRZ_frame; reflexivity.
Qed.
Lemma seq_matrix_rotation s a b c : is_rotation (seq_matrix s a b c).
Proof.
  pose proof mRX_rotation as X. pose proof mRY_rotation as Y. pose proof mRZ_rotation as Z.
  destruct s; cbn [seq_matrix]; [apply rotation_id |..]; (apply rotation_mul; [apply rotation_mul |]); auto.
Qed.

Lemma axis_vector_unit i : sqnorm3 (axis_vector i) = 1.
Proof. destruct i as [| [| [| i]]]; unfold axis_vector, sqnorm3, dot3; cbn; ring. Qed.

Lemma q_of_angles_half s a b c q : q_of_angles s a b c = Some q ->
  q = match s with
      | XYZ => qmul (half_q (axis_vector 3) c) (qmul (half_q (axis_vector 2) b) (half_q (axis_vector 1) a))
      | ZXY => qmul (half_q (axis_vector 2) c) (qmul (half_q (axis_vector 1) b) (half_q (axis_vector 3) a))
      | ZYX => qmul (half_q (axis_vector 1) c) (qmul (half_q (axis_vector 2) b) (half_q (axis_vector 3) a))
      | SeqUndefined => q_Unit
      end.
Proof.
  assert (X : forall t, half_q (axis_vector 1) t = Q4 (sin (t / 2)) 0 0 (cos (t / 2)))
    by (intros; unfold half_q, axis_vector; qring).
  assert (Y : forall t, half_q (axis_vector 2) t = Q4 0 (sin (t / 2)) 0 (cos (t / 2)))
    by (intros; unfold half_q, axis_vector; qring).
  assert (Z : forall t, half_q (axis_vector 3) t = Q4 0 0 (sin (t / 2)) (cos (t / 2)))
    by (intros; unfold half_q, axis_vector; qring).
  rewrite !X, !Y, !Z. unfold q_of_angles. clear X Y Z.
  generalize (sin (a / 2)), (cos (a / 2)), (sin (b / 2)), (cos (b / 2)), (sin (c / 2)), (cos (c / 2)).
  clear a b c. intros sa ca sb cb sc cc. destruct s; intros [= <-]; qunfold; apply Q4_eq; ring.
Qed.
Lemma q_of_angles_spec s a b c q : q_of_angles s a b c = Some q ->
  unit_q q /\ forall v, rot q v = named_sequence s a b c v.
Proof.
  intros E. pose proof (q_of_angles_half s a b c q E) as ->. pose proof axis_vector_unit as A.
  destruct s; [discriminate |..]; (split; [repeat apply unit_mul; apply half_q_unit, A |]);
    intros v; rewrite !rot_mul, !half_q_rot by apply A; reflexivity.
Qed.

Lemma e_defined e a b c : euler_radians e a b c -> e_seq e <> SeqUndefined -> e_isDefined e = true.
Proof.
  intros [H1 [H2 H3]] Hs. unfold e_isDefined.
  rewrite (turns_defined _ _ H1), (turns_defined _ _ H2), (turns_defined _ _ H3). destruct (e_seq e); [congruence |..]; reflexivity.
Qed.
Lemma in_radian a t : turns a = Some (t / (2 * PI)) -> in_unit a Radian = Ok t.
Proof.
  intros H. rewrite (in_unit_spec _ _ Radian H) by discriminate. cbn. f_equal. field. pose proof PI_RGT_0; lra.
Qed.

Lemma c32_quaternion eps e a b c : 0 < eps -> eps <= 1 -> euler_radians e a b c -> e_seq e <> SeqUndefined ->
  exists q, q_of_euler eps e = Ok q /\ unit_q q /\ q_rotates eps q (named_sequence (e_seq e) a b c).
Proof.
  intros He H1 H Hs. unfold q_of_euler. rewrite (e_defined e a b c H Hs). cbn [negb].
  destruct H as [Ha [Hb Hc]]. rewrite (in_radian _ _ Ha), (in_radian _ _ Hb), (in_radian _ _ Hc). cbn [bind].
  destruct (q_of_angles (e_seq e) a b c) as [q |] eqn:E.
  - destruct (q_of_angles_spec _ _ _ _ _ E) as [U F]. exists q. split; [apply normalize_unit; assumption |].
    split; [exact U |]. intros v. rewrite q_rotate_unit, F by assumption. reflexivity.
  - destruct (e_seq e); [congruence | discriminate ..].
Qed.

Lemma product3_ok eps a b c : 0 < eps -> is_rotation a -> is_rotation b -> is_rotation c ->
  product3 eps (Ok a) (Ok b) (Ok c) = Ok (mul3 (mul3 a b) c).
Proof.
  intros He Ha Hb Hc. unfold product3, rm_mul. cbn [bind needd].
  rewrite rotation_ok by (try apply rotation_mul; assumption). cbn [bind].
  rewrite rotation_ok by (repeat apply rotation_mul; assumption). reflexivity.
Qed.
Lemma elementary_rad eps f a t : 0 < eps -> (forall x, is_rotation (f x)) -> turns a = Some (t / (2 * PI)) ->
  elementary eps f a = Ok (f t).
Proof.
  intros He Hf Ha. rewrite (elementary_ok eps f a _ He Hf Ha). do 2 f_equal. field. pose proof PI_RGT_0; lra.
Qed.

(** What RotationMatrix::EulerAngle computes: always a Z, Y, X sequence. *)
Lemma c32_matrix eps e a b c : 0 < eps -> euler_radians e a b c -> e_seq e <> SeqUndefined ->
  exists m, rm_of_euler eps e = Ok m /\ is_rotation m
    /\ m_rotates m (match e_seq e with
                    | XYZ => frame_sequence 3 2 1 c b a
                    | ZXY => frame_sequence 3 2 1 b a c
                    | _ => frame_sequence 3 2 1 a b c
                    end).
Proof.
  intros He H Hs. unfold rm_of_euler. rewrite (e_defined e a b c H Hs). cbn [negb].
  destruct H as [Ha [Hb Hc]]. pose proof mRX_rotation as X. pose proof mRY_rotation as Y. pose proof mRZ_rotation as Z.
  assert (EX : forall x t, turns x = Some (t / (2 * PI)) -> RX eps x = Ok (mRX t)) by (intros; apply elementary_rad; assumption).
  assert (EY : forall x t, turns x = Some (t / (2 * PI)) -> RY eps x = Ok (mRY t)) by (intros; apply elementary_rad; assumption).
  assert (EZ : forall x t, turns x = Some (t / (2 * PI)) -> RZ eps x = Ok (mRZ t)) by (intros; apply elementary_rad; assumption).
  destruct (e_seq e); [congruence |..].
  - rewrite (EX _ _ Ha), (EY _ _ Hb), (EZ _ _ Hc), product3_ok by auto. eexists. split; [reflexivity |].
    split; [apply rotation_mul; [apply rotation_mul |]; auto |]. intros v. unfold rm_mulv. cbn [needd bind].
    exact (f_equal Ok (seq_matrix_named ZYX c b a v)).
  - rewrite (EX _ _ Hc), (EY _ _ Ha), (EZ _ _ Hb), product3_ok by auto. eexists. split; [reflexivity |].
    split; [apply rotation_mul; [apply rotation_mul |]; auto |]. intros v. unfold rm_mulv. cbn [needd bind].
    exact (f_equal Ok (seq_matrix_named ZYX b a c v)).
  - rewrite (EX _ _ Hc), (EY _ _ Hb), (EZ _ _ Ha), product3_ok by auto. eexists. split; [reflexivity |].
    split; [apply rotation_mul; [apply rotation_mul |]; auto |]. intros v. unfold rm_mulv. cbn [needd bind].
    exact (f_equal Ok (seq_matrix_named ZYX a b c v)).
Qed.
