(** Remaining members of the rotation classes (C79 to C81). *)

From Coq Require Import List Bool Reals Lra Lia Psatz ZArith.
From Verif Require Import Result DOrder Vec VecProofs Mat3 AngleModel AngleSpec AngleProofs AngleProofs2 RotModel RotSpec
  RotProofs RotProofs2 RotProofs3 RotProofs4 RotProofs5 RotProofs6 RotProofs10.
Local Open Scope R_scope.

(** *** C79 *)
Lemma q_rotates_ext eps q f g : q_rotates eps q f -> q_rotates eps q g -> forall v, f v = g v.
Proof. intros F G v. specialize (F v). specialize (G v). congruence. Qed.
Lemma c79_of_euler eps e a b c : 0 < eps -> eps <= 1 -> euler_radians e a b c -> e_seq e <> SeqUndefined ->
  exists r f, rv_of_euler eps e = Ok r /\ rv_rotates r f /\ forall v, f v = named_sequence (e_seq e) a b c v.
Proof.
  intros He H1 Ha Hs. destruct (c32_quaternion eps e a b c He H1 Ha Hs) as (q & E & U & F).
  destruct (c34_from_quaternion eps q He U) as (r & f & R & Rf & Qf). exists r, f.
  split; [unfold rv_of_euler; rewrite E; exact R |]. split; [exact Rf |]. apply (q_rotates_ext eps q); assumption.
Qed.
Lemma c79_to_euler_partial eps r f s : 0 < eps -> eps <= 1 -> rv_rotates r f -> s <> SeqUndefined -> -1 < middle_sine s f < 1 ->
  exists e q, e_of_rotvec eps r s = Ok e /\ q_of_euler eps (relabel e s) = Ok q /\ q_rotates eps q f.
Proof.
  intros He H1 Hr Hs M. destruct (c34_conversions eps r f He H1 Hr) as [(q & E & U & F) _].
  destruct (c33_quaternion_partial eps q f s He H1 U F Hs M) as (e & p & Ee & Ep & Fp). exists e, p.
  split; [unfold e_of_rotvec; rewrite E; exact Ee |]. split; assumption.
Qed.
(** The rotation vector of a vector: axis along it, angle its length. *)
Lemma c79_of_vector v u : u <> UUndefined -> v <> zero3 ->
  exists a, rv_axis (RotationVector_of_vector (Some v) u) = Some a /\ sqnorm3 a = 1 /\ same_direction3 a v
    /\ turns (rv_angle (RotationVector_of_vector (Some v) u)) = Some (norm3 v / units_per_turn u).
Proof.
  intros Hu Hv. assert (P : 0 < norm3 v) by (apply norm3_pos, sqnorm3_pos, Hv).
  pose proof (normalized3_unit v P) as U. exists (normalized3 v). unfold RotationVector_of_vector. cbn [rv_axis rv_angle].
  split.
  - destruct v3_eq_dec as [E | E]; [| reflexivity]. rewrite E in U. replace (sqnorm3 zero3) with 0 in U by (symmetry; apply sqnorm3_0; reflexivity). lra.
  - split; [exact U |]. split; [| apply turns_mk; exact Hu].
    exists (norm3 v). split; [exact P |]. unfold normalized3. pose proof (proj1 (sqnorm3_pos v) Hv). destruct Rlt_dec; [| contradiction].
    rewrite scale3_scale, Rinv_r by lra. symmetry. apply scale3_1.
Qed.
Lemma c79_of_zero_vector u : u <> UUndefined -> rv_rotates (RotationVector_of_vector (Some zero3) u) (fun v => v).
Proof.
  intros Hu. assert (Z : sqnorm3 zero3 = 0) by (apply sqnorm3_0; reflexivity).
  assert (N : norm3 zero3 = 0) by (apply norm3_0; reflexivity).
  exists (V3 0 0 1), 0. unfold RotationVector_of_vector. cbn [rv_axis rv_angle]. split.
  - unfold normalized3. destruct Rlt_dec; [lra |]. destruct v3_eq_dec; [reflexivity | congruence].
  - rewrite N. split; [rewrite (turns_mk 0 u Hu); f_equal; unfold Rdiv; ring |]. split; [unfold sqnorm3, dot3; cbn; ring |].
    intros v. symmetry. apply frame_rotation_0.
Qed.
(** Rotation vectors along the coordinate axes, and the identity. *)
Lemma c79_axes eps t s : 0 < eps -> turns t = Some s ->
  (exists r, rv_X eps t = Ok r /\ rv_rotates r (frame_rotation (axis_vector 1) (s * (2 * PI))))
  /\ (exists r, rv_Y eps t = Ok r /\ rv_rotates r (frame_rotation (axis_vector 2) (s * (2 * PI))))
  /\ (exists r, rv_Z eps t = Ok r /\ rv_rotates r (frame_rotation (axis_vector 3) (s * (2 * PI))))
  /\ (exists r, rv_Unit eps = Ok r /\ rv_rotates r (fun v => v))
  /\ rv_X eps angle_Undefined = Err EUndefined /\ rv_Y eps angle_Undefined = Err EUndefined
  /\ rv_Z eps angle_Undefined = Err EUndefined.
Proof.
  intros He Ht. unfold rv_X, rv_Y, rv_Z, rv_Unit, rv_along. rewrite (turns_defined _ _ Ht). pose proof PI_RGT_0.
  assert (U : forall a, sqnorm3 a = 1 -> rv_rotates (mkRV (Some a) t) (frame_rotation a (s * (2 * PI)))).
  { intros a Ha. exists a, (s * (2 * PI)). split; [reflexivity |]. cbn [rv_angle]. rewrite Ht. split; [f_equal; field; lra |].
    split; [exact Ha | reflexivity]. }
  split; [| split; [| split; [| split]]].
  - eexists. split; [apply RotationVector_unit; [exact He | apply (axis_vector_unit 1)] |]. apply U, (axis_vector_unit 1).
  - eexists. split; [apply RotationVector_unit; [exact He | apply (axis_vector_unit 2)] |]. apply U, (axis_vector_unit 2).
  - eexists. split; [apply RotationVector_unit; [exact He | apply (axis_vector_unit 3)] |]. apply U, (axis_vector_unit 3).
  - eexists. split; [apply RotationVector_unit; [exact He | apply (axis_vector_unit 3)] |].
    exists (V3 0 0 1), 0. split; [reflexivity |]. split; [cbn; f_equal; unfold Rdiv; ring |]. split; [apply (axis_vector_unit 3) |].
    intros v. symmetry. apply frame_rotation_0.
  - repeat split.
Qed.

(** *** C80 *)
Lemma c80_product eps a b : 0 < eps -> is_rotation a -> is_rotation b ->
  exists m, rm_mul eps (Some a) (Some b) = Ok m /\ is_rotation m
    /\ forall v, rm_mulv (Some m) (Some v) = (let! w := rm_mulv (Some b) (Some v) in rm_mulv (Some a) (Some w)).
Proof.
  intros He Ha Hb. exists (mul3 a b). pose proof (rotation_mul a b Ha Hb) as R. unfold rm_mul, rm_mulv. cbn [needd bind].
  split; [apply rotation_ok; assumption |]. split; [exact R |]. intros v. rewrite mulv3_mul. reflexivity.
Qed.
Lemma c80_transpose eps m v : 0 < eps -> is_rotation m ->
  exists t w, rm_transpose (Some m) = Ok t /\ toTransposed eps (Some m) = Ok t /\ is_rotation t
    /\ rm_mulv (Some m) (Some v) = Ok w /\ rm_mulv (Some t) (Some w) = Ok v.
Proof.
  intros He H. exists (transpose3 m), (mulv3 m v). pose proof (rotation_transpose m H) as R. unfold rm_transpose, toTransposed, rm_mulv.
  cbn [needd bind]. split; [reflexivity |]. split; [apply rotation_ok; assumption |]. split; [exact R |]. split; [reflexivity |].
  rewrite <- mulv3_mul, (proj1 H), mulv3_id. reflexivity.
Qed.
Lemma c80_equal_iff a b : rm_eq (Some a) (Some b) = true <-> (forall v, rm_mulv (Some a) (Some v) = rm_mulv (Some b) (Some v)).
Proof.
  unfold rm_eq. destruct m3_eq_dec as [-> | E]; [split; reflexivity |]. split; [discriminate |].
  intros H. exfalso. apply E, mulv3_ext. intros v. specialize (H v). unfold rm_mulv in H. cbn [needd bind] in H.
    apply (f_equal (fun r => match r with Ok w => w | _ => zero3 end)) in H. exact H.
Qed.
Lemma c80_undefined eps a v : rm_mul eps None a = Err EUndefined /\ rm_mulv None (Some v) = Err EUndefined
  /\ rm_mulv a None = Err EUndefined /\ rm_transpose None = Err EUndefined /\ toTransposed eps None = Err EUndefined
  /\ (forall m, rm_mul eps (Some m) None = Err EUndefined)
  /\ rm_eq None a = false /\ rm_eq a None = false /\ rm_Unit eps = RotationMatrix eps id3.
Proof. repeat split. destruct a; reflexivity. Qed.

(** *** C81 *)
Lemma c81_components x y z s : 
  of_components x y z s XYZS = Q4 x y z s /\ of_components s x y z SXYZ = Q4 x y z s
  /\ toVector (Some (Q4 x y z s)) XYZS = Ok (x, y, z, s) /\ toVector (Some (Q4 x y z s)) SXYZ = Ok (s, x, y, z)
  /\ forall f, toVector None f = Err EUndefined.
Proof. repeat split. Qed.
Lemma c81_round_trip q f : exists a b c d, toVector (Some q) f = Ok (a, b, c, d) /\ of_components a b c d f = q.
Proof. destruct q, f; do 4 eexists; split; reflexivity. Qed.
Lemma c81_sum_and_scaling p q k :
  q_add (Some p) (Some q) = Ok (Q4 (qx p + qx q) (qy p + qy q) (qz p + qz q) (qs p + qs q))
  /\ q_scale (Some p) k = Ok (Q4 (k * qx p) (k * qy p) (k * qz p) (k * qs p))
  /\ q_add None (Some q) = Err EUndefined /\ q_add (Some p) None = Err EUndefined /\ q_scale None k = Err EUndefined.
Proof. unfold q_add, q_scale. cbn [needd bind]. repeat split; f_equal; qring. Qed.
(** The Euler angles the library calls unitary are the identity. *)
Lemma c81_unitary_euler e a b c : euler_radians e a b c ->
  exists u, e_isUnitary e = Ok u /\ (u = true <-> a = 0 /\ b = 0 /\ c = 0)
    /\ (u = true -> forall v, named_sequence (e_seq e) a b c v = v).
Proof.
  intros (Ha & Hb & Hc). pose proof PI_RGT_0.
  destruct (isZero_turns _ _ Ha) as (x & X & Ex). destruct (isZero_turns _ _ Hb) as (y & Y & Ey). destruct (isZero_turns _ _ Hc) as (z & Z & Ez).
  assert (T : forall t, t / (2 * PI) = 0 <-> t = 0).
  { intros t. split; intros E; [| rewrite E; field; lra]. apply (Rmult_eq_reg_r (/ (2 * PI))); [unfold Rdiv in E; lra | apply Rinv_neq_0_compat; lra]. }
  rewrite T in Ex, Ey, Ez. exists (x && y && z). unfold e_isUnitary. rewrite X, Y, Z. split; [destruct x, y, z; reflexivity |].
  assert (I : x && y && z = true <-> a = 0 /\ b = 0 /\ c = 0) by (rewrite !andb_true_iff, Ex, Ey, Ez; tauto).
  split; [exact I |]. rewrite I. intros (-> & -> & ->) v. destruct (e_seq e); cbn [named_sequence]; unfold frame_sequence;
    rewrite ?frame_rotation_0; reflexivity.
Qed.
