(** The rotation properties: C27 to C42, C73 to C81. *)

From Coq Require Import List Bool Reals Lra Lia Psatz.
From Verif Require Import Result DOrder Vec VecProofs Mat3 AngleModel AngleSpec AngleProofs AngleProofs2 RotModel RotSpec
  RotProofs RotProofs2 RotProofs3 RotProofs4 RotProofs5 RotProofs6 RotProofs7 RotProofs8 RotProofs9 RotProofs10 RotProofs11 RotProofs12.
Local Open Scope R_scope.

(** Concrete rotations used in the examples: about z, of half-angle sine 3/5 and cosine 4/5. *)
Definition q35 : quat := Q4 0 0 (3 / 5) (4 / 5).
Definition m35 : m3 := M3 (7 / 25) (24 / 25) 0 (- (24 / 25)) (7 / 25) 0 0 0 1.
Lemma q35_unit : unit_q q35.
Proof. unfold unit_q, sq, q35; cbn. field. Qed.
Lemma m35_rotation : is_rotation m35.
Proof. unfold m35. split; qunfold; [apply M3_eq |]; field. Qed.
Definition turn90 (a : v3) : rotvec := mkRV (Some a) (mkA (Some 90) Degree).
Lemma turn90_rotates a : sqnorm3 a = 1 -> rv_rotates (turn90 a) (frame_rotation a (PI / 2)).
Proof.
  intros H. exists a, (PI / 2). split; [reflexivity |]. split; [| split; [exact H | reflexivity]].
  cbn. f_equal. field. apply PI_neq0.
Qed.

(** *** C27: quaternion algebra *)
(** The code's product is Hamilton's with the operands swapped; dotMultiply is Hamilton's. *)
Theorem C27_product :
  forall p q, crossMultiply (Some p) (Some q) = Ok (hamilton q p)
  /\ dotMultiply (Some p) (Some q) = Ok (hamilton p q).
Proof. exact c27_product. Qed.
Print Assumptions C27_product.

Theorem C27_assoc :
  forall p q r, (let! pq := crossMultiply p q in crossMultiply (Some pq) r)
  = (let! qr := crossMultiply q r in crossMultiply p (Some qr)).
Proof. exact c27_assoc. Qed.
Print Assumptions C27_assoc.

Theorem C27_unit :
  forall q, crossMultiply (Some q_Unit) (Some q) = Ok q /\ crossMultiply (Some q) (Some q_Unit) = Ok q.
Proof. exact c27_unit. Qed.
Print Assumptions C27_unit.

Theorem C27_norm :
  forall p q, (let! pq := crossMultiply (Some p) (Some q) in norm (Some pq)) = Ok (qnorm p * qnorm q).
Proof. exact c27_norm. Qed.
Print Assumptions C27_norm.

Theorem C27_conj :
  forall p q, (let! pq := crossMultiply p q in conjugate (Some pq))
  = (let! q' := conjugate q in let! p' := conjugate p in crossMultiply (Some q') (Some p')).
Proof. exact c27_conj. Qed.
Print Assumptions C27_conj.

Theorem C27_inverse :
  forall eps q, 0 < eps ->
  (eps <= sq q -> exists i, inverse eps (Some q) = Ok i
     /\ crossMultiply (Some q) (Some i) = Ok q_Unit /\ crossMultiply (Some i) (Some q) = Ok q_Unit)
  /\ (sq q < eps -> inverse eps (Some q) = Err ERuntime)
  /\ (eps < 1 -> (is_ok (q_div eps (Some q) (Some q)) = true <-> eps <= sq q))
  /\ (eps <= sq q -> eps <= qnorm q -> q_div eps (Some q) (Some q) = Ok q_Unit).
Proof. exact c27_inverse. Qed.
Print Assumptions C27_inverse.

(** i j and j i differ: the product does not commute; 1 + 2i + 3j + 4k can be inverted. *)
Example C27_example :
  crossMultiply (Some (Q4 1 0 0 0)) (Some (Q4 0 1 0 0)) = Ok (Q4 0 0 (-1) 0)
  /\ crossMultiply (Some (Q4 0 1 0 0)) (Some (Q4 1 0 0 0)) = Ok (Q4 0 0 1 0)
  /\ 1 / 10 <= sq (Q4 2 3 4 1).
Proof.
  unfold crossMultiply; cbn [needd bind]. split; [f_equal; qring |]. split; [f_equal; qring |].
  unfold sq; cbn. lra.
Qed.

(** *** C28: rotation by a unit quaternion *)
Theorem C28_isometry :
  forall eps q, 0 < eps -> unit_q q ->
  exists f, q_rotates eps q f
    /\ (forall v w, dot3 (f v) (f w) = dot3 v w)
    /\ (forall v w, cross3 (f v) (f w) = f (cross3 v w))
    /\ (forall v, norm3 (f v) = norm3 v)
    /\ (forall a b v w, f (add3 (scale3 a v) (scale3 b w)) = add3 (scale3 a (f v)) (scale3 b (f w))).
Proof. exact c28_isometry. Qed.
Print Assumptions C28_isometry.

Theorem C28_homomorphism :
  forall eps p q v, 0 < eps -> unit_q p -> unit_q q ->
  (let! pq := crossMultiply (Some p) (Some q) in q_rotate eps (Some pq) (Some v))
  = (let! w := q_rotate eps (Some q) (Some v) in q_rotate eps (Some p) (Some w)).
Proof. exact c28_homomorphism. Qed.
Print Assumptions C28_homomorphism.

Theorem C28_inverse :
  forall eps q v, 0 < eps -> eps <= 1 -> unit_q q ->
  exists i w, inverse eps (Some q) = Ok i /\ q_rotate eps (Some q) (Some v) = Ok w
    /\ q_rotate eps (Some i) (Some w) = Ok v.
Proof. exact c28_inverse. Qed.
Print Assumptions C28_inverse.

Theorem C28_negated :
  forall eps q v, 0 < eps -> unit_q q ->
  q_rotate eps (Some (negq q)) (Some v) = q_rotate eps (Some q) (Some v).
Proof. exact c28_negated. Qed.
Print Assumptions C28_negated.

Theorem C28_errors :
  forall q v tol, (forall t, tol = Some t -> 0 < t -> t < Rabs (qnorm q - 1) -> rotateVector (Some q) (Some v) tol = Err ERuntime)
  /\ rotateVector None (Some v) tol = Err EUndefined /\ rotateVector (Some q) None tol = Err EUndefined
  /\ rotateVector (Some q) (Some v) None = Err EUndefined
  /\ (forall t, tol = Some t -> t <= 0 -> rotateVector (Some q) (Some v) tol = Err EUndefined).
Proof. exact c28_errors. Qed.
Print Assumptions C28_errors.

Theorem C28_tolerated :
  forall q v t, 0 < t -> Rabs (qnorm q - 1) <= t ->
  exists w, rotateVector (Some q) (Some v) (Some t) = Ok w /\ norm3 w = qnorm q * qnorm q * norm3 v.
Proof. exact c28_tolerated. Qed.
Print Assumptions C28_tolerated.

(** q35 is a unit quaternion and turns the x axis. *)
Example C28_example : unit_q q35 /\ q_rotate (1 / 10) (Some q35) (Some (V3 1 0 0)) = Ok (V3 (7 / 25) (- (24 / 25)) 0).
Proof.
  split; [exact q35_unit |]. rewrite q_rotate_unit by (try apply q35_unit; lra). rewrite <- rot_matrix. f_equal.
  unfold q35. qunfold. apply V3_eq; field.
Qed.

(** *** C29: quaternion and matrix *)
Theorem C29_matrix :
  forall eps q, 0 < eps -> unit_q q ->
  exists m, rm_of_quaternion eps (Some q) = Ok m /\ is_rotation m
    /\ forall v, rm_mulv (Some m) (Some v) = q_rotate eps (Some q) (Some v).
Proof. exact c29_matrix. Qed.
Print Assumptions C29_matrix.

Theorem C29_from_matrix :
  forall eps m, 0 < eps -> eps <= 1 -> is_rotation m ->
  exists q, q_of_matrix eps (Some m) = Ok q /\ unit_q q /\ rm_of_quaternion eps (Some q) = Ok m
    /\ forall v, q_rotate eps (Some q) (Some v) = rm_mulv (Some m) (Some v).
Proof. exact c29_from_matrix. Qed.
Print Assumptions C29_from_matrix.

(** m35 is a rotation, the matrix of q35. *)
Example C29_example : is_rotation m35 /\ unit_q q35 /\ rm_of_quaternion (1 / 10) (Some q35) = Ok m35.
Proof.
  split; [exact m35_rotation |]. split; [exact q35_unit |].
  rewrite rm_of_quaternion_unit by (try apply q35_unit; lra). f_equal. unfold q35, m35. qunfold. apply M3_eq; field.
Qed.

(** *** C30: validation of matrices *)
(** What the constructor accepts ... *)
Theorem C30_accepted_iff :
  forall eps m, 0 < eps ->
  (RotationMatrix eps m = Ok m <-> columns_tolerated eps m)
  /\ (RotationMatrix eps m = Err ERuntime <-> ~ columns_tolerated eps m).
Proof. exact c30_accepted_iff. Qed.
Print Assumptions C30_accepted_iff.

(** ... includes the zero matrix (lengths below 1 are not rejected) ... *)
Theorem C30_lengths_refuted :
  forall eps, 0 < eps ->
  exists m v, RotationMatrix eps m = Ok m /\ rm_mulv (Some m) (Some v) = Ok zero3 /\ norm3 v = 1.
Proof. exact c30_lengths_refuted. Qed.
Print Assumptions C30_lengths_refuted.

(** ... and reflections. *)
Theorem C30_orientation_refuted :
  forall eps, 0 < eps ->
  exists m, RotationMatrix eps m = Ok m /\ (forall v w, dot3 (mulv3 m v) (mulv3 m w) = dot3 v w) /\ det3 m = -1.
Proof. exact c30_orientation_refuted. Qed.
Print Assumptions C30_orientation_refuted.

(** m35 is tolerated; a matrix with a column of length 2 is not. *)
Example C30_example : columns_tolerated (1 / 10) m35 /\ ~ columns_tolerated (1 / 10) (M3 2 0 0 0 1 0 0 0 1).
Proof.
  split.
  - apply columns_ok_iff. pose proof (rotation_ok (1 / 10) m35 ltac:(lra) m35_rotation) as E. unfold RotationMatrix in E.
    destruct columns_ok; [reflexivity | discriminate].
  - intros [H _]. specialize (H 0%nat ltac:(lia)). cbn in H. unfold norm3, sqnorm3, dot3 in H; cbn in H.
    replace (2 * 2 + 0 * 0 + 0 * 0) with (2 * 2) in H by ring. rewrite sqrt_square in H; lra.
Qed.

(** *** C31: elementary rotations *)
Theorem C31_elementary_groups :
  forall eps, 0 < eps -> axis_group eps (RX eps) 1 /\ axis_group eps (RY eps) 2 /\ axis_group eps (RZ eps) 3.
Proof. exact c31. Qed.
Print Assumptions C31_elementary_groups.

(** 90 degrees and 1/8 of a revolution are angles. *)
Example C31_example : turns (mkA (Some 90) Degree) = Some (1 / 4) /\ turns (mkA (Some (1 / 8)) Revolution) = Some (1 / 8).
Proof. split; cbn; f_equal; field. Qed.

(** *** C32: Euler angles to quaternion and matrix *)
Theorem C32_quaternion :
  forall eps e a b c, 0 < eps -> eps <= 1 -> euler_radians e a b c -> e_seq e <> SeqUndefined ->
  exists q, q_of_euler eps e = Ok q /\ unit_q q /\ q_rotates eps q (named_sequence (e_seq e) a b c).
Proof. exact c32_quaternion. Qed.
Print Assumptions C32_quaternion.

(** The matrix of a XYZ or ZXY Euler angle is that of the angles taken in the sequence z, y, x. *)
Theorem C32_matrix :
  forall eps e a b c, 0 < eps -> euler_radians e a b c -> e_seq e <> SeqUndefined ->
  exists m, rm_of_euler eps e = Ok m /\ is_rotation m
    /\ m_rotates m (match e_seq e with
                    | XYZ => frame_sequence 3 2 1 c b a
                    | ZXY => frame_sequence 3 2 1 b a c
                    | _ => frame_sequence 3 2 1 a b c
                    end).
Proof. exact c32_matrix. Qed.
Print Assumptions C32_matrix.

(** Agreement of the quaternion and of the matrix, for ZYX only: the other two sequences are refuted below. *)
Theorem C32_zyx_partial :
  forall eps e a b c, 0 < eps -> eps <= 1 -> euler_radians e a b c -> e_seq e = ZYX ->
  exists q m f, q_of_euler eps e = Ok q /\ rm_of_euler eps e = Ok m /\ q_rotates eps q f /\ m_rotates m f.
Proof. exact c32_zyx_partial. Qed.
Print Assumptions C32_zyx_partial.

Theorem C32_refuted :
  forall eps, 0 < eps -> eps <= 1 ->
  forall s, s = XYZ \/ s = ZXY ->
  exists e q m f g v, e_seq e = s /\ q_of_euler eps e = Ok q /\ rm_of_euler eps e = Ok m
    /\ q_rotates eps q f /\ m_rotates m g /\ f v <> g v.
Proof. exact c32_refuted. Qed.
Print Assumptions C32_refuted.

(** Three right angles about x, y, z. *)
Example C32_example :
  let e := mkE (Radians (PI / 2)) (Radians (PI / 2)) (Radians (PI / 2)) XYZ in
  euler_radians e (PI / 2) (PI / 2) (PI / 2) /\ e_seq e <> SeqUndefined.
Proof. split; [repeat split | discriminate]. Qed.

(** *** C33: Euler angle extraction *)
(** Away from gimbal lock, and once the result is given back the requested sequence, extraction is right; missing: the label (always ZYX) and gimbal lock, both refuted below. *)
Theorem C33_matrix_partial :
  forall eps m f s, 0 < eps -> eps <= 1 -> is_rotation m -> m_rotates m f -> s <> SeqUndefined ->
  -1 < middle_sine s f < 1 ->
  exists e q, e_of_matrix (Some m) s = Ok e /\ q_of_euler eps (relabel e s) = Ok q /\ q_rotates eps q f.
Proof. exact c33_matrix_partial. Qed.
Print Assumptions C33_matrix_partial.

Theorem C33_quaternion_partial :
  forall eps q f s, 0 < eps -> eps <= 1 -> unit_q q -> q_rotates eps q f -> s <> SeqUndefined ->
  -1 < middle_sine s f < 1 ->
  exists e p, e_of_quaternion eps (Some q) s = Ok e /\ q_of_euler eps (relabel e s) = Ok p /\ q_rotates eps p f.
Proof. exact c33_quaternion_partial. Qed.
Print Assumptions C33_quaternion_partial.

Theorem C33_zyx_partial :
  forall eps q f, 0 < eps -> eps <= 1 -> unit_q q -> q_rotates eps q f ->
  -1 < middle_sine ZYX f < 1 ->
  exists e p m, e_of_quaternion eps (Some q) ZYX = Ok e /\ e_seq e = ZYX
    /\ q_of_euler eps e = Ok p /\ q_rotates eps p f /\ rm_of_euler eps e = Ok m /\ m_rotates m f.
Proof. exact c33_zyx_partial. Qed.
Print Assumptions C33_zyx_partial.

Theorem C33_label_refuted :
  forall eps, 0 < eps -> eps <= 1 ->
  exists q f e p g v, unit_q q /\ q_rotates eps q f /\ e_of_quaternion eps (Some q) XYZ = Ok e
    /\ q_of_euler eps e = Ok p /\ q_rotates eps p g /\ f v <> g v.
Proof. exact c33_label_refuted. Qed.
Print Assumptions C33_label_refuted.

Theorem C33_gimbal_refuted :
  forall eps, 0 < eps -> eps <= 1 ->
  exists q f e p g v, unit_q q /\ q_rotates eps q f /\ e_of_quaternion eps (Some q) ZYX = Ok e
    /\ q_of_euler eps e = Ok p /\ q_rotates eps p g /\ f v <> g v.
Proof. exact c33_gimbal_refuted. Qed.
Print Assumptions C33_gimbal_refuted.

(** q35 and m35 are away from gimbal lock. *)
Example C33_example : exists f, q_rotates (1 / 10) q35 f /\ m_rotates m35 f /\ -1 < middle_sine ZYX f < 1
  /\ -1 < middle_sine XYZ f < 1.
Proof.
  exists (mulv3 m35). split; [| split; [intros v; reflexivity | unfold middle_sine, m35; qunfold; lra]].
  intros v. rewrite q_rotate_unit by (try apply q35_unit; lra). rewrite <- rot_matrix. do 2 f_equal.
  unfold q35, m35. qunfold. apply M3_eq; field.
Qed.

(** *** C34: rotation vectors *)
Theorem C34_construct :
  forall eps a t s, 0 < eps -> eps < 1 -> Rabs (norm3 a - 1) <= eps -> turns t = Some s ->
  exists r b, RotationVector eps (Some a) t = Ok r /\ rv_rotates r (frame_rotation b (s * (2 * PI)))
    /\ sqnorm3 b = 1 /\ same_direction3 a b.
Proof. exact c34_construct. Qed.
Print Assumptions C34_construct.

Theorem C34_conversions :
  forall eps r f, 0 < eps -> eps <= 1 -> rv_rotates r f ->
  (exists q, q_of_rotvec eps r = Ok q /\ unit_q q /\ q_rotates eps q f)
  /\ (exists m, rm_of_rotvec eps r = Ok m /\ is_rotation m /\ m_rotates m f).
Proof. exact c34_conversions. Qed.
Print Assumptions C34_conversions.

Theorem C34_from_quaternion :
  forall eps q, 0 < eps -> unit_q q ->
  exists r f, rv_of_quaternion eps (Some q) = Ok r /\ rv_rotates r f /\ q_rotates eps q f.
Proof. exact c34_from_quaternion. Qed.
Print Assumptions C34_from_quaternion.

(** An axis of length 1.05 is tolerated; a quarter turn about z is a rotation vector. *)
Example C34_example : Rabs (norm3 (V3 0 0 (105 / 100)) - 1) <= 1 / 10
  /\ rv_rotates (turn90 (V3 0 0 1)) (frame_rotation (V3 0 0 1) (PI / 2)).
Proof.
  split.
  - unfold norm3, sqnorm3, dot3; cbn.
    match goal with |- Rabs (sqrt ?x - 1) <= _ => replace x with ((105 / 100) * (105 / 100)) by field end.
    rewrite sqrt_square by lra. rewrite Rabs_pos_eq; lra.
  - apply turn90_rotates. unfold sqnorm3, dot3; cbn. ring.
Qed.

(** *** C35: matrix to rotation vector *)
(** Missing: half turns and angles below the tolerance, refuted below. *)
Theorem C35_partial :
  forall eps m, 0 < eps -> is_rotation m -> -1 < trace3 m ->
  (eps <= acos ((trace3 m - 1) / 2) \/ trace3 m = 3) ->
  exists r f t, rv_of_matrix eps (Some m) = Ok r /\ rv_rotates r f /\ m_rotates m f
    /\ turns (rv_angle r) = Some (t / (2 * PI)) /\ 0 <= t < PI.
Proof. exact c35_partial. Qed.
Print Assumptions C35_partial.

Theorem C35_half_turn :
  forall eps m, 0 < eps -> eps < 1 -> is_rotation m -> trace3 m = -1 ->
  rv_of_matrix eps (Some m) = Err ERuntime.
Proof. exact c35_half_turn. Qed.
Print Assumptions C35_half_turn.

Theorem C35_refuted :
  forall eps, 0 < eps -> eps < 1 -> exists m, is_rotation m /\ rv_of_matrix eps (Some m) = Err ERuntime.
Proof. exact c35_refuted. Qed.
Print Assumptions C35_refuted.

Theorem C35_small_angle_refuted :
  forall eps, 0 < eps -> eps < 1 ->
  exists m r f, is_rotation m /\ rv_of_matrix eps (Some m) = Ok r /\ rv_rotates r f /\ ~ m_rotates m f.
Proof. exact c35_small_angle_refuted. Qed.
Print Assumptions C35_small_angle_refuted.

(** A quarter turn about z meets the conditions; the half turn about z is the case that fails. *)
Example C35_example :
  let m := M3 0 1 0 (-1) 0 0 0 0 1 in
  let h := M3 (-1) 0 0 0 (-1) 0 0 0 1 in
  is_rotation m /\ -1 < trace3 m /\ 1 / 10 <= acos ((trace3 m - 1) / 2) /\ is_rotation h /\ trace3 h = -1.
Proof.
  cbv zeta. split; [split; qunfold; [apply M3_eq |]; ring |]. unfold trace3; cbn. split; [lra |]. split.
  - replace ((0 + 0 + 1 - 1) / 2) with 0 by field. rewrite acos_0. pose proof PI2_1. lra.
  - split; [split; qunfold; [apply M3_eq |]; ring | ring].
Qed.

(** *** C36: rectification *)
Theorem C36_same :
  forall r f, rv_rotates r f -> exists r', rv_rectify r = Ok r' /\ rv_rotates r' f.
Proof. exact c36_same. Qed.
Print Assumptions C36_same.

(** Missing: angles beyond one turn, refuted below. *)
Theorem C36_range_partial :
  forall r a s, rv_axis r = Some a -> turns (rv_angle r) = Some s -> -1 <= s <= 1 ->
  exists r' s', rv_rectify r = Ok r' /\ turns (rv_angle r') = Some s' /\ 0 <= s' <= 1 / 2.
Proof. exact c36_range_partial. Qed.
Print Assumptions C36_range_partial.

Theorem C36_range_refuted :
  exists r r' s', rv_rotates r (frame_rotation (V3 0 0 1) (5 * PI))
  /\ rv_rectify r = Ok r' /\ turns (rv_angle r') = Some s' /\ s' < 0.
Proof. exact c36_range_refuted. Qed.
Print Assumptions C36_range_refuted.

Theorem C36_quaternion :
  forall eps q, 0 < eps -> unit_q q ->
  exists p, q_rectify (Some q) = Ok p /\ 0 <= qs p /\ unit_q p /\ same_rotation eps p q.
Proof. exact c36_quaternion. Qed.
Print Assumptions C36_quaternion.

Theorem C36_quaternion_any :
  forall q, exists p, q_rectify (Some q) = Ok p /\ 0 <= qs p /\ same_up_to_sign p q.
Proof. exact c36_quaternion_any. Qed.
Print Assumptions C36_quaternion_any.

(** 270 degrees about x: within one turn, rectified to 90 degrees about -x. *)
Example C36_example : let r := mkRV (Some (V3 1 0 0)) (mkA (Some 270) Degree) in
  rv_axis r = Some (V3 1 0 0) /\ turns (rv_angle r) = Some (3 / 4) /\ -1 <= 3 / 4 <= 1 /\ unit_q q35
  /\ exists f, rv_rotates r f.
Proof.
  cbv zeta. split; [reflexivity |]. split; [cbn; f_equal; field |]. split; [lra |]. split; [exact q35_unit |].
  eexists. exists (V3 1 0 0), (3 / 2 * PI). split; [reflexivity |]. split; [cbn; f_equal; field; apply PI_neq0 |].
  split; [unfold sqnorm3, dot3; cbn; ring | reflexivity].
Qed.

(** *** C37: equality of quaternions *)
Theorem C37_equal_iff :
  forall eps p q, 0 < eps -> unit_q p -> unit_q q ->
  (q_eq (Some p) (Some q) = true <-> same_rotation eps p q).
Proof. exact c37_equal_iff. Qed.
Print Assumptions C37_equal_iff.

Theorem C37_equivalence :
  forall p q r, q_eq (Some p) (Some p) = true
  /\ q_eq (Some p) (Some q) = q_eq (Some q) (Some p)
  /\ (q_eq (Some p) (Some q) = true -> q_eq (Some q) (Some r) = true -> q_eq (Some p) (Some r) = true)
  /\ q_eq None (Some p) = false /\ q_eq (Some p) None = false /\ q_eq None None = false.
Proof. exact c37_equivalence. Qed.
Print Assumptions C37_equivalence.

(** Opposite quaternions are equal rotations; q35 is not the identity. *)
Example C37_example : unit_q q35 /\ unit_q (negq q35) /\ q_eq (Some q35) (Some (negq q35)) = true
  /\ q_eq (Some q35) (Some q_Unit) = false.
Proof.
  split; [exact q35_unit |]. split; [apply unit_neg, q35_unit |]. split.
  - apply q_eq_iff. right. unfold q35. qring.
  - destruct (q_eq (Some q35) (Some q_Unit)) eqn:E; [| reflexivity].
    apply q_eq_iff in E. destruct E as [E | E]; apply (f_equal qz) in E; cbn in E; lra.
Qed.

(** *** C38: angular difference *)
Theorem C38_value :
  forall eps p q, 0 < eps -> eps <= 1 -> unit_q p -> unit_q q ->
  exists d, angularDifferenceWith eps (Some p) (Some q) = Ok (Radians d)
    /\ 0 <= d <= PI
    /\ angularDifferenceWith eps (Some q) (Some p) = Ok (Radians d)
    /\ (d = 0 <-> same_rotation eps p q)
    /\ (forall r p' q', unit_q r -> crossMultiply (Some p) (Some r) = Ok p' -> crossMultiply (Some q) (Some r) = Ok q' ->
          angularDifferenceWith eps (Some p') (Some q') = Ok (Radians d))
    /\ (forall r p' q', unit_q r -> crossMultiply (Some r) (Some p) = Ok p' -> crossMultiply (Some r) (Some q) = Ok q' ->
          angularDifferenceWith eps (Some p') (Some q') = Ok (Radians d)).
Proof. exact c38_value. Qed.
Print Assumptions C38_value.

Theorem C38_is_angle :
  forall eps p q d, 0 < eps -> eps <= 1 -> unit_q p -> unit_q q ->
  angularDifferenceWith eps (Some p) (Some q) = Ok (Radians d) ->
  exists a f g, sqnorm3 a = 1 /\ q_rotates eps p f /\ q_rotates eps q g /\ forall v, f v = frame_rotation a d (g v).
Proof. exact c38_is_angle. Qed.
Print Assumptions C38_is_angle.

Theorem C38_triangle :
  forall eps p q r x y z, 0 < eps -> eps <= 1 -> unit_q p -> unit_q q -> unit_q r ->
  angularDifferenceWith eps (Some p) (Some q) = Ok (Radians x) ->
  angularDifferenceWith eps (Some q) (Some r) = Ok (Radians y) ->
  angularDifferenceWith eps (Some p) (Some r) = Ok (Radians z) -> z <= x + y.
Proof. exact c38_triangle. Qed.
Print Assumptions C38_triangle.

Theorem C38_errors :
  forall eps p q, 0 < eps -> eps < Rabs (qnorm p - 1) \/ eps < Rabs (qnorm q - 1) ->
  angularDifferenceWith eps (Some p) (Some q) = Err ERuntime
  /\ angularDifferenceWith eps None (Some q) = Err EUndefined
  /\ angularDifferenceWith eps (Some p) None = Err (if Rle_dec (Rabs (qnorm p - 1)) eps then EUndefined else ERuntime).
Proof. exact c38_errors. Qed.
Print Assumptions C38_errors.

(** The identity and the half turn about x are pi apart. *)
Example C38_example : unit_q q_Unit /\ unit_q (Q4 1 0 0 0)
  /\ angularDifferenceWith (1 / 2) (Some q_Unit) (Some (Q4 1 0 0 0)) = Ok (Radians PI)
  /\ 1 / 2 < Rabs (qnorm (Q4 0 0 0 2) - 1).
Proof.
  assert (U1 : unit_q q_Unit) by (unfold unit_q, sq; cbn; ring).
  assert (U2 : unit_q (Q4 1 0 0 0)) by (unfold unit_q, sq; cbn; ring).
  split; [exact U1 |]. split; [exact U2 |]. split.
  - rewrite angdiff_eq by (try assumption; lra). do 2 f_equal. unfold dot4; cbn.
    match goal with |- context [Rabs ?x] => replace x with 0 by ring end. rewrite Rabs_R0, acos_0. field.
  - rewrite qnorm_sqrt. unfold sq; cbn. match goal with |- context [sqrt ?x] => replace x with (2 * 2) by ring end.
    rewrite sqrt_square by lra. rewrite Rabs_pos_eq; lra.
Qed.

(** *** C39: interpolation *)
Theorem C39_ratio :
  forall eps p q r, r < 0 \/ 1 < r ->
  LERP p q (Some r) = Err ERuntime /\ NLERP eps p q (Some r) = Err ERuntime /\ SLERP eps p q (Some r) = Err ERuntime
  /\ LERP p q None = Err EUndefined /\ NLERP eps p q None = Err EUndefined /\ SLERP eps p q None = Err EUndefined.
Proof. exact c39_ratio. Qed.
Print Assumptions C39_ratio.

Theorem C39_lerp :
  forall p q r, 0 <= r <= 1 ->
  LERP (Some p) (Some q) (Some 0) = Ok p /\ LERP (Some p) (Some q) (Some 1) = Ok q
  /\ LERP (Some p) (Some q) (Some r)
     = Ok (Q4 (qx p + r * (qx q - qx p)) (qy p + r * (qy q - qy p)) (qz p + r * (qz q - qz p)) (qs p + r * (qs q - qs p))).
Proof. exact c39_lerp. Qed.
Print Assumptions C39_lerp.

(** Missing: success when the dot product is negative, refuted below. *)
Theorem C39_nlerp_partial :
  forall eps p q r, 0 < eps -> eps <= 1 / 2 -> unit_q p -> unit_q q -> 0 <= r <= 1 ->
  NLERP eps (Some p) (Some q) (Some 0) = Ok p /\ NLERP eps (Some p) (Some q) (Some 1) = Ok q
  /\ (forall w, NLERP eps (Some p) (Some q) (Some r) = Ok w -> unit_q w)
  /\ (0 <= dot4 p q -> exists w, NLERP eps (Some p) (Some q) (Some r) = Ok w).
Proof. exact c39_nlerp_partial. Qed.
Print Assumptions C39_nlerp_partial.

Theorem C39_nlerp_refuted :
  forall eps, 0 < eps -> exists p q, unit_q p /\ unit_q q /\ NLERP eps (Some p) (Some q) (Some (1 / 2)) = Err ERuntime.
Proof. exact c39_nlerp_refuted. Qed.
Print Assumptions C39_nlerp_refuted.

Theorem C39_slerp_unit :
  forall eps p q r, 0 < eps -> eps <= 1 -> unit_q p -> unit_q q -> 0 <= r <= 1 ->
  exists w, SLERP eps (Some p) (Some q) (Some r) = Ok w /\ unit_q w.
Proof. exact c39_slerp_unit. Qed.
Print Assumptions C39_slerp_unit.

Theorem C39_slerp_start :
  forall eps p q, 0 < eps -> eps <= 1 -> unit_q p -> unit_q q ->
  SLERP eps (Some p) (Some q) (Some 0) = Ok p.
Proof. exact c39_slerp_start. Qed.
Print Assumptions C39_slerp_start.

(** Beyond the tolerance the rotation turns at a constant rate along the shortest path. *)
Theorem C39_rate :
  forall eps p q r d, 0 < eps -> eps <= 1 -> unit_q p -> unit_q q -> 0 <= r <= 1 ->
  angularDifferenceWith eps (Some p) (Some q) = Ok (Radians d) -> 2 * asin eps < d -> 2 * eps < r * d ->
  exists w, SLERP eps (Some p) (Some q) (Some r) = Ok w /\ unit_q w
    /\ angularDifferenceWith eps (Some p) (Some w) = Ok (Radians (r * d))
    /\ angularDifferenceWith eps (Some w) (Some q) = Ok (Radians ((1 - r) * d)).
Proof. exact c39_rate. Qed.
Print Assumptions C39_rate.

(** Missing: end points closer than the tolerance, refuted below. *)
Theorem C39_end_partial :
  forall eps p q d, 0 < eps -> eps < 1 -> unit_q p -> unit_q q ->
  angularDifferenceWith eps (Some p) (Some q) = Ok (Radians d) -> 2 * asin eps < d \/ d = 0 ->
  exists w, SLERP eps (Some p) (Some q) (Some 1) = Ok w /\ same_up_to_sign w q.
Proof. exact c39_end_partial. Qed.
Print Assumptions C39_end_partial.

Theorem C39_slerp_end_refuted :
  forall eps, 0 < eps -> eps < 1 -> exists p q w, unit_q p /\ unit_q q
  /\ SLERP eps (Some p) (Some q) (Some 1) = Ok w /\ ~ same_up_to_sign w q.
Proof. exact c39_slerp_end_refuted. Qed.
Print Assumptions C39_slerp_end_refuted.

(** Half way from the identity to the half turn about x, with a tolerance of 1/2. *)
Example C39_example : unit_q q_Unit /\ unit_q (Q4 1 0 0 0) /\ 0 <= 1 / 2 <= 1
  /\ angularDifferenceWith (1 / 2) (Some q_Unit) (Some (Q4 1 0 0 0)) = Ok (Radians PI)
  /\ 2 * asin (1 / 2) < PI /\ 2 * (1 / 2) < 1 / 2 * PI.
Proof.
  destruct C38_example as (U1 & U2 & D & _). split; [exact U1 |]. split; [exact U2 |]. split; [lra |]. split; [exact D |].
  pose proof PI2_1. pose proof PI_RGT_0. assert (asin (1 / 2) = PI / 6) as -> by (rewrite <- sin_PI6; apply asin_sin; lra). lra.
Qed.

(** *** C40: exp, log, pow *)
(** Every quaternion that is not real has a polar form, so the next theorems cover all quaternions but those within the tolerance of the real ones. *)
Theorem C40_polar_form :
  forall q, vec q <> zero3 -> exists h a t, 0 < h /\ sqnorm3 a = 1 /\ 0 < t < PI /\ q = polar h a t.
Proof. exact c40_polar_form. Qed.
Print Assumptions C40_polar_form.

(** Missing: quaternions whose vector part or angle is within the tolerance, refuted below. *)
Theorem C40_exp_log_partial :
  forall eps h a t, 0 < eps -> 0 < h -> sqnorm3 a = 1 -> eps < t < PI -> eps < h * sin t ->
  exists l, q_log eps (Some (polar h a t)) = Ok l /\ q_exp eps (Some l) = Ok (polar h a t).
Proof. exact c40_exp_log_partial. Qed.
Print Assumptions C40_exp_log_partial.

Theorem C40_pow_partial :
  forall eps h a t k, 0 < eps -> 0 < h -> sqnorm3 a = 1 -> 0 < t < PI -> eps < h * sin t ->
  eps < Rabs (k * t) -> q_pow eps (Some (polar h a t)) k = Ok (polar (Rpower h k) a (k * t)).
Proof. exact c40_pow_partial. Qed.
Print Assumptions C40_pow_partial.

Theorem C40_one_partial :
  forall eps h a t, 0 < eps -> 0 < h -> sqnorm3 a = 1 -> eps < t < PI -> eps < h * sin t ->
  q_pow eps (Some (polar h a t)) 1 = Ok (polar h a t).
Proof. exact c40_one_partial. Qed.
Print Assumptions C40_one_partial.

Theorem C40_add_partial :
  forall eps h a t k l, 0 < eps -> 0 < h -> sqnorm3 a = 1 -> 0 < t < PI -> eps < h * sin t ->
  eps < Rabs (k * t) -> eps < Rabs (l * t) -> eps < Rabs ((k + l) * t) ->
  exists u w, q_pow eps (Some (polar h a t)) k = Ok u /\ q_pow eps (Some (polar h a t)) l = Ok w
    /\ q_pow eps (Some (polar h a t)) (k + l) = crossMultiply (Some u) (Some w).
Proof. exact c40_add_partial. Qed.
Print Assumptions C40_add_partial.

Theorem C40_refuted :
  forall eps, 0 < eps -> exists q l, sq q <> 0 /\ q_log eps (Some q) = Ok l /\ q_exp eps (Some l) = Ok q_Unit
  /\ q_pow eps (Some q) 1 = Ok q_Unit /\ q_eq (Some q) (Some q_Unit) = false.
Proof. exact c40_refuted. Qed.
Print Assumptions C40_refuted.

Theorem C40_log_zero :
  forall eps, q_log eps (Some (Q4 0 0 0 0)) = UB.
Proof. exact c40_log_zero. Qed.
Print Assumptions C40_log_zero.

(** 2 k = polar form of modulus 2 and angle pi/2, with a tolerance of 1/2 and exponents 1 and 2. *)
Example C40_example : 0 < 2 /\ sqnorm3 (V3 0 0 1) = 1 /\ 1 / 2 < PI / 2 < PI /\ 1 / 2 < 2 * sin (PI / 2)
  /\ polar 2 (V3 0 0 1) (PI / 2) = Q4 0 0 2 0 /\ 1 / 2 < Rabs (1 * (PI / 2)) /\ 1 / 2 < Rabs (2 * (PI / 2))
  /\ 1 / 2 < Rabs ((1 + 2) * (PI / 2)).
Proof.
  pose proof PI2_1. rewrite sin_PI2. unfold polar. rewrite sin_PI2, cos_PI2. rewrite !Rabs_pos_eq by lra.
  split; [lra |]. split; [unfold sqnorm3, dot3; cbn; ring |]. split; [lra |]. split; [lra |].
  split; [cbn; apply Q4_eq; ring | lra].
Qed.

(** *** C41: shortest rotation *)
Theorem C41_rotates :
  forall eps u v, 0 < eps -> u <> zero3 -> v <> zero3 ->
  eps * eps <= 2 * (1 + dot3 u v / (norm3 u * norm3 v)) ->
  exists q, ShortestRotation eps (Some u) (Some v) = Ok q /\ unit_q q
    /\ q_rotate eps (Some q) (Some (scale3 (norm3 v) u)) = Ok (scale3 (norm3 u) v)
    /\ dot3 (vec q) u = 0 /\ dot3 (vec q) v = 0 /\ 0 < qs q
    /\ 2 * (qs q * qs q) - 1 = dot3 u v / (norm3 u * norm3 v)
    /\ (forall p, unit_q p -> q_rotate eps (Some p) (Some (scale3 (norm3 v) u)) = Ok (scale3 (norm3 u) v) ->
        Rabs (qs p) <= qs q).
Proof. exact c41_rotates. Qed.
Print Assumptions C41_rotates.

Theorem C41_error_iff :
  forall eps u v, 0 < eps -> u <> zero3 -> v <> zero3 ->
  (ShortestRotation eps (Some u) (Some v) = Err ERuntime <-> 2 * (1 + dot3 u v / (norm3 u * norm3 v)) < eps * eps).
Proof. exact c41_error_iff. Qed.
Print Assumptions C41_error_iff.

Theorem C41_zero :
  forall eps u, 0 < eps -> eps <= 1 ->
  ShortestRotation eps (Some zero3) (Some u) = Ok q_Unit /\ ShortestRotation eps (Some u) (Some zero3) = Ok q_Unit
  /\ ShortestRotation eps None (Some u) = Err EUndefined /\ ShortestRotation eps (Some u) None = Err EUndefined.
Proof. exact c41_zero. Qed.
Print Assumptions C41_zero.

(** From x to 2 y: the dot product is 0. *)
Example C41_example : V3 1 0 0 <> zero3 /\ V3 0 2 0 <> zero3
  /\ 1 / 10 * (1 / 10) <= 2 * (1 + dot3 (V3 1 0 0) (V3 0 2 0) / (norm3 (V3 1 0 0) * norm3 (V3 0 2 0))).
Proof.
  split; [intros E; apply (f_equal vx) in E; cbn in E; lra |]. split; [intros E; apply (f_equal vy) in E; cbn in E; lra |].
  replace (dot3 (V3 1 0 0) (V3 0 2 0)) with 0 by (unfold dot3; cbn; ring). unfold Rdiv. rewrite Rmult_0_l. lra.
Qed.

(** *** C42: vector bases *)
(** The result is a rotation aligning the two pairs, and the only one. *)
Theorem C42_rotation :
  forall eps u1 u2 v1 v2, 0 < eps ->
  eps <= norm3 u1 -> eps <= norm3 u2 -> eps <= norm3 v1 -> eps <= norm3 v2 ->
  Rabs (dot3 u1 u2) <= (1 - eps) * (norm3 u1 * norm3 u2) -> Rabs (dot3 v1 v2) <= (1 - eps) * (norm3 v1 * norm3 v2) ->
  exists m, VectorBasis eps (Some u1) (Some u2) (Some v1) (Some v2) = Ok m /\ is_rotation m
    /\ aligns m u1 u2 v1 v2 /\ (forall m', is_rotation m' -> aligns m' u1 u2 v1 v2 -> m' = m).
Proof. exact c42_rotation. Qed.
Print Assumptions C42_rotation.

Theorem C42_errors :
  forall eps u1 u2 v1 v2, 0 < eps ->
  norm3 u1 < eps \/ norm3 u2 < eps \/ norm3 v1 < eps \/ norm3 v2 < eps
    \/ (1 - eps) * (norm3 u1 * norm3 u2) < Rabs (dot3 u1 u2) \/ (1 - eps) * (norm3 v1 * norm3 v2) < Rabs (dot3 v1 v2) ->
  VectorBasis eps (Some u1) (Some u2) (Some v1) (Some v2) = Err ERuntime.
Proof. exact c42_errors. Qed.
Print Assumptions C42_errors.

Theorem C42_undefined :
  forall eps u v w, VectorBasis eps None u v w = Err EUndefined
  /\ (forall a, VectorBasis eps (Some a) None v w = Err EUndefined)
  /\ (forall a b, VectorBasis eps (Some a) (Some b) None w = Err EUndefined)
  /\ (forall a b c, VectorBasis eps (Some a) (Some b) (Some c) None = Err EUndefined).
Proof. exact c42_undefined. Qed.
Print Assumptions C42_undefined.

(** From the pair (x, y) to the pair (y, z). *)
Example C42_example : let x := V3 1 0 0 in let y := V3 0 1 0 in let z := V3 0 0 1 in
  norm3 x = 1 /\ norm3 y = 1 /\ norm3 z = 1 /\ Rabs (dot3 x y) <= (1 - 1 / 10) * (norm3 x * norm3 y)
  /\ Rabs (dot3 y z) <= (1 - 1 / 10) * (norm3 y * norm3 z).
Proof.
  cbv zeta. rewrite !norm3_1 by (unfold sqnorm3, dot3; cbn; ring).
  replace (dot3 (V3 1 0 0) (V3 0 1 0)) with 0 by (unfold dot3; cbn; ring).
  replace (dot3 (V3 0 1 0) (V3 0 0 1)) with 0 by (unfold dot3; cbn; ring). rewrite Rabs_R0. lra.
Qed.

(** *** C73: access to the coefficients *)
Theorem C73_access :
  forall m i j, (i < 3)%nat -> (j < 3)%nat ->
  exists r c x, getRowAt (Some m) i = Ok r /\ getColumnAt (Some m) j = Ok c /\ rm_at (Some m) i j = Ok x
    /\ x = dot3 r (axis_vector (S j)) /\ x = dot3 (axis_vector (S i)) c.
Proof. exact c73_access. Qed.
Print Assumptions C73_access.

Theorem C73_errors :
  forall m i j, (3 <= i)%nat ->
  getRowAt m i = Err ERuntime /\ getColumnAt m i = Err ERuntime
  /\ ((3 < i)%nat -> rm_at m i j = Err ERuntime /\ ((j <= 3)%nat -> rm_at m j i = Err ERuntime)).
Proof. exact c73_errors. Qed.
Print Assumptions C73_errors.

(** Index 3 passes the check of operator() although it is outside the matrix. *)
Theorem C73_refuted :
  exists m, is_rotation m /\ forall j, (j <= 3)%nat -> rm_at (Some m) 3 j = UB /\ rm_at (Some m) j 3 = UB.
Proof. exact c73_refuted. Qed.
Print Assumptions C73_refuted.

(** Row 1 and column 2 exist; 3 is out of range. *)
Example C73_example : (1 < 3)%nat /\ (2 < 3)%nat /\ rm_at (Some m35) 0 1 = Ok (24 / 25) /\ (3 <= 3)%nat.
Proof. repeat split; lia. Qed.

(** *** C74: near-unit quaternions *)
(** Missing: quaternions that are unitary only up to the tolerance, refuted below. *)
Theorem C74_partial :
  forall eps q, 0 < eps -> unit_q q -> exists r, rv_of_quaternion eps (Some q) = Ok r.
Proof. exact c74_partial. Qed.
Print Assumptions C74_partial.

(** A quaternion accepted as unitary whose rotation vector is not a number. *)
Theorem C74_refuted :
  forall eps, 0 < eps -> eps < 1 -> exists q, isUnitary (Some q) (Some eps) = Ok true
  /\ rv_of_quaternion eps (Some q) = UB.
Proof. exact c74_refuted. Qed.
Print Assumptions C74_refuted.

Example C74_example : unit_q q35.
Proof. exact q35_unit. Qed.

(** *** C75: nearness of rotations *)
Theorem C75_near :
  forall eps fuel p q tol d t, 0 < eps -> eps <= 1 -> unit_q p -> unit_q q ->
  angularDifferenceWith eps (Some p) (Some q) = Ok (Radians d) ->
  turns tol = Some (t / (2 * PI)) -> 0 <= t < 2 * PI ->
  exists b, q_isNear eps fuel (Some p) (Some q) tol = Ok b /\ (b = true <-> d <= t).
Proof. exact c75_near. Qed.
Print Assumptions C75_near.

Theorem C75_errors :
  forall eps fuel p q tol, 0 < eps -> turns tol = None \/ p = None \/ q = None /\ (forall p', p = Some p' -> Rabs (qnorm p' - 1) <= eps) ->
  q_isNear eps fuel p q tol = Err EUndefined.
Proof. exact c75_errors. Qed.
Print Assumptions C75_errors.

Theorem C75_refuted :
  forall eps, 0 < eps -> eps <= 1 -> exists p q, unit_q p /\ unit_q q
  /\ angularDifferenceWith eps (Some p) (Some q) = Ok (Radians PI)
  /\ returns (fun fuel => q_isNear eps fuel (Some p) (Some q) (Radians (2 * PI))) false
  /\ returns (fun fuel => q_isNear eps fuel (Some p) (Some q) (Radians (- (PI / 2)))) true.
Proof. exact c75_refuted. Qed.
Print Assumptions C75_refuted.

(** The identity and the half turn about x, with a tolerance of 90 degrees. *)
Example C75_example : unit_q q_Unit /\ unit_q (Q4 1 0 0 0)
  /\ angularDifferenceWith (1 / 2) (Some q_Unit) (Some (Q4 1 0 0 0)) = Ok (Radians PI)
  /\ turns (mkA (Some 90) Degree) = Some (PI / 2 / (2 * PI)) /\ 0 <= PI / 2 < 2 * PI.
Proof.
  destruct C38_example as (U1 & U2 & D & _). pose proof PI_RGT_0. repeat split; try assumption; try lra.
  cbn. f_equal. field. lra.
Qed.

(** *** C76: equality of rotation vectors *)
Theorem C76_sound :
  forall r s f g, rv_rotates r f -> rv_rotates s g -> returns (fun fuel => rv_eq fuel r s) true -> forall v, f v = g v.
Proof. exact c76_sound. Qed.
Print Assumptions C76_sound.

(** Missing: the identity, refuted below. *)
Theorem C76_complete_partial :
  forall r s f g, rv_rotates r f -> rv_rotates s g -> (forall v, f v = g v) -> (exists v, f v <> v) ->
  returns (fun fuel => rv_eq fuel r s) true.
Proof. exact c76_complete_partial. Qed.
Print Assumptions C76_complete_partial.

Theorem C76_refuted :
  exists r s, rv_rotates r (fun v => v) /\ rv_rotates s (fun v => v)
  /\ returns (fun fuel => rv_eq fuel r s) false.
Proof. exact c76_refuted. Qed.
Print Assumptions C76_refuted.

(** 90 degrees about x and -90 degrees about -x are two descriptions of one rotation, not the identity. *)
Example C76_example : exists r s f, rv_rotates r f /\ rv_rotates s f /\ r <> s /\ exists v, f v <> v.
Proof.
  exists (turn90 (V3 1 0 0)), (mkRV (Some (V3 (-1) 0 0)) (mkA (Some (-90)) Degree)), (frame_rotation (V3 1 0 0) (PI / 2)).
  split; [apply turn90_rotates; unfold sqnorm3, dot3; cbn; ring |]. split; [| split].
  - exists (V3 (-1) 0 0), (- (PI / 2)). split; [reflexivity |]. split; [cbn; f_equal; field; apply PI_neq0 |].
    split; [unfold sqnorm3, dot3; cbn; ring |]. intros v. rewrite <- frame_rotation_opp.
    replace (opp3 (V3 1 0 0)) with (V3 (-1) 0 0); [reflexivity |]. unfold opp3; cbn. apply V3_eq; ring.
  - intros E. apply (f_equal (fun r => match rv_axis r with Some a => vx a | None => 0 end)) in E. cbn in E. lra.
  - exists (V3 0 1 0). unfold frame_rotation. rewrite cos_PI2, sin_PI2. intros E. apply (f_equal vy) in E.
    v3unfold. cbn in E. lra.
Qed.

(** *** C77: equality of Euler angles *)
Theorem C77_sound :
  forall d e a b c a' b' c', euler_radians d a b c -> euler_radians e a' b' c' ->
  e_seq d <> SeqUndefined -> e_seq e <> SeqUndefined -> returns (fun fuel => e_eq fuel d e) true ->
  forall v, named_sequence (e_seq d) a b c v = named_sequence (e_seq e) a' b' c' v.
Proof. exact c77_sound. Qed.
Print Assumptions C77_sound.

(** Missing: gimbal lock, refuted below. *)
Theorem C77_complete_partial :
  forall d e a b c a' b' c', euler_radians d a b c -> euler_radians e a' b' c' ->
  e_seq d <> SeqUndefined -> e_seq e = e_seq d -> cos b <> 0 ->
  (forall v, named_sequence (e_seq d) a b c v = named_sequence (e_seq e) a' b' c' v) ->
  returns (fun fuel => e_eq fuel d e) true.
Proof. exact c77_complete_partial. Qed.
Print Assumptions C77_complete_partial.

Theorem C77_refuted :
  exists d e a b c a' b' c', euler_radians d a b c /\ euler_radians e a' b' c' /\ e_seq d = ZYX /\ e_seq e = ZYX
  /\ (forall v, named_sequence ZYX a b c v = named_sequence ZYX a' b' c' v)
  /\ returns (fun fuel => e_eq fuel d e) false.
Proof. exact c77_refuted. Qed.
Print Assumptions C77_refuted.

(** (1, 0, 2) in the sequence ZXY, away from gimbal lock. *)
Example C77_example : let e := mkE (Radians 1) (Radians 0) (Radians 2) ZXY in
  euler_radians e 1 0 2 /\ e_seq e <> SeqUndefined /\ cos 0 <> 0.
Proof. cbv zeta. split; [repeat split |]. split; [discriminate | rewrite cos_0; lra]. Qed.

(** *** C78: matrices from rows and columns *)
Theorem C78_columns :
  forall eps a b c, 0 < eps -> right_handed a b c ->
  exists m, Columns eps (Some a) (Some b) (Some c) = Ok m /\ is_rotation m
    /\ getColumnAt (Some m) 0 = Ok a /\ getColumnAt (Some m) 1 = Ok b /\ getColumnAt (Some m) 2 = Ok c.
Proof. exact c78_columns. Qed.
Print Assumptions C78_columns.

Theorem C78_rows :
  forall eps a b c, 0 < eps -> right_handed a b c ->
  exists m, Rows eps (Some a) (Some b) (Some c) = Ok m /\ is_rotation m
    /\ getRowAt (Some m) 0 = Ok a /\ getRowAt (Some m) 1 = Ok b /\ getRowAt (Some m) 2 = Ok c.
Proof. exact c78_rows. Qed.
Print Assumptions C78_rows.

Theorem C78_result :
  forall eps a b c m, (Columns eps (Some a) (Some b) (Some c) = Ok m -> m = of_cols a b c /\ columns_tolerated eps m)
  /\ (Rows eps (Some a) (Some b) (Some c) = Ok m -> m = of_rows a b c /\ columns_tolerated eps m).
Proof. exact c78_result. Qed.
Print Assumptions C78_result.

(** The triple y, z, x. *)
Example C78_example : right_handed (V3 0 1 0) (V3 0 0 1) (V3 1 0 0).
Proof. unfold right_handed, sqnorm3, dot3, cross3; cbn. repeat split; try ring. apply V3_eq; ring. Qed.

(** *** C79: conversions to and from rotation vectors *)
Theorem C79_of_euler :
  forall eps e a b c, 0 < eps -> eps <= 1 -> euler_radians e a b c -> e_seq e <> SeqUndefined ->
  exists r f, rv_of_euler eps e = Ok r /\ rv_rotates r f /\ forall v, f v = named_sequence (e_seq e) a b c v.
Proof. exact c79_of_euler. Qed.
Print Assumptions C79_of_euler.

(** Missing: gimbal lock and the label of the result, as in C33. *)
Theorem C79_to_euler_partial :
  forall eps r f s, 0 < eps -> eps <= 1 -> rv_rotates r f -> s <> SeqUndefined -> -1 < middle_sine s f < 1 ->
  exists e q, e_of_rotvec eps r s = Ok e /\ q_of_euler eps (relabel e s) = Ok q /\ q_rotates eps q f.
Proof. exact c79_to_euler_partial. Qed.
Print Assumptions C79_to_euler_partial.

Theorem C79_of_vector :
  forall v u, u <> UUndefined -> v <> zero3 ->
  exists a, rv_axis (RotationVector_of_vector (Some v) u) = Some a /\ sqnorm3 a = 1 /\ same_direction3 a v
    /\ turns (rv_angle (RotationVector_of_vector (Some v) u)) = Some (norm3 v / units_per_turn u).
Proof. exact c79_of_vector. Qed.
Print Assumptions C79_of_vector.

Theorem C79_of_zero_vector :
  forall u, u <> UUndefined -> rv_rotates (RotationVector_of_vector (Some zero3) u) (fun v => v).
Proof. exact c79_of_zero_vector. Qed.
Print Assumptions C79_of_zero_vector.

Theorem C79_axes :
  forall eps t s, 0 < eps -> turns t = Some s ->
  (exists r, rv_X eps t = Ok r /\ rv_rotates r (frame_rotation (axis_vector 1) (s * (2 * PI))))
  /\ (exists r, rv_Y eps t = Ok r /\ rv_rotates r (frame_rotation (axis_vector 2) (s * (2 * PI))))
  /\ (exists r, rv_Z eps t = Ok r /\ rv_rotates r (frame_rotation (axis_vector 3) (s * (2 * PI))))
  /\ (exists r, rv_Unit eps = Ok r /\ rv_rotates r (fun v => v))
  /\ rv_X eps angle_Undefined = Err EUndefined /\ rv_Y eps angle_Undefined = Err EUndefined
  /\ rv_Z eps angle_Undefined = Err EUndefined.
Proof. exact c79_axes. Qed.
Print Assumptions C79_axes.

(** A quarter turn about z, away from gimbal lock; the vector (0, 3, 4) in degrees. *)
Example C79_example : rv_rotates (turn90 (V3 0 0 1)) (frame_rotation (V3 0 0 1) (PI / 2))
  /\ -1 < middle_sine ZYX (frame_rotation (V3 0 0 1) (PI / 2)) < 1 /\ V3 0 3 4 <> zero3
  /\ turns (mkA (Some 90) Degree) = Some (1 / 4).
Proof.
  split; [apply turn90_rotates; unfold sqnorm3, dot3; cbn; ring |]. split.
  - unfold middle_sine, frame_rotation. rewrite cos_PI2, sin_PI2. v3unfold. cbn. lra.
  - split; [intros E; apply (f_equal vy) in E; cbn in E; lra | cbn; f_equal; field].
Qed.

(** *** C80: matrix product, transposition, equality *)
Theorem C80_product :
  forall eps a b, 0 < eps -> is_rotation a -> is_rotation b ->
  exists m, rm_mul eps (Some a) (Some b) = Ok m /\ is_rotation m
    /\ forall v, rm_mulv (Some m) (Some v) = (let! w := rm_mulv (Some b) (Some v) in rm_mulv (Some a) (Some w)).
Proof. exact c80_product. Qed.
Print Assumptions C80_product.

Theorem C80_transpose :
  forall eps m v, 0 < eps -> is_rotation m ->
  exists t w, rm_transpose (Some m) = Ok t /\ toTransposed eps (Some m) = Ok t /\ is_rotation t
    /\ rm_mulv (Some m) (Some v) = Ok w /\ rm_mulv (Some t) (Some w) = Ok v.
Proof. exact c80_transpose. Qed.
Print Assumptions C80_transpose.

Theorem C80_equal_iff :
  forall a b, rm_eq (Some a) (Some b) = true <-> (forall v, rm_mulv (Some a) (Some v) = rm_mulv (Some b) (Some v)).
Proof. exact c80_equal_iff. Qed.
Print Assumptions C80_equal_iff.

Theorem C80_undefined :
  forall eps a v, rm_mul eps None a = Err EUndefined /\ rm_mulv None (Some v) = Err EUndefined
  /\ rm_mulv a None = Err EUndefined /\ rm_transpose None = Err EUndefined /\ toTransposed eps None = Err EUndefined
  /\ (forall m, rm_mul eps (Some m) None = Err EUndefined)
  /\ rm_eq None a = false /\ rm_eq a None = false /\ rm_Unit eps = RotationMatrix eps id3.
Proof. exact c80_undefined. Qed.
Print Assumptions C80_undefined.

(** m35 and its square are rotations. *)
Example C80_example : is_rotation m35 /\ is_rotation (mul3 m35 m35) /\ m35 <> mul3 m35 m35.
Proof.
  split; [exact m35_rotation |]. split; [apply rotation_mul; exact m35_rotation |].
  intros E. apply (f_equal m00) in E. unfold m35 in E. qunfold. lra.
Qed.

(** *** C81: components *)
Theorem C81_components :
  forall x y z s, of_components x y z s XYZS = Q4 x y z s /\ of_components s x y z SXYZ = Q4 x y z s
  /\ toVector (Some (Q4 x y z s)) XYZS = Ok (x, y, z, s) /\ toVector (Some (Q4 x y z s)) SXYZ = Ok (s, x, y, z)
  /\ forall f, toVector None f = Err EUndefined.
Proof. exact c81_components. Qed.
Print Assumptions C81_components.

Theorem C81_round_trip :
  forall q f, exists a b c d, toVector (Some q) f = Ok (a, b, c, d) /\ of_components a b c d f = q.
Proof. exact c81_round_trip. Qed.
Print Assumptions C81_round_trip.

Theorem C81_sum_and_scaling :
  forall p q k, q_add (Some p) (Some q) = Ok (Q4 (qx p + qx q) (qy p + qy q) (qz p + qz q) (qs p + qs q))
  /\ q_scale (Some p) k = Ok (Q4 (k * qx p) (k * qy p) (k * qz p) (k * qs p))
  /\ q_add None (Some q) = Err EUndefined /\ q_add (Some p) None = Err EUndefined /\ q_scale None k = Err EUndefined.
Proof. exact c81_sum_and_scaling. Qed.
Print Assumptions C81_sum_and_scaling.

Theorem C81_unitary_euler :
  forall e a b c, euler_radians e a b c ->
  exists u, e_isUnitary e = Ok u /\ (u = true <-> a = 0 /\ b = 0 /\ c = 0)
    /\ (u = true -> forall v, named_sequence (e_seq e) a b c v = v).
Proof. exact c81_unitary_euler. Qed.
Print Assumptions C81_unitary_euler.

Example C81_example : euler_radians (mkE (Radians 0) (Radians 0) (Radians 0) XYZ) 0 0 0
  /\ of_components 1 2 3 4 XYZS <> of_components 1 2 3 4 SXYZ.
Proof. split; [repeat split |]. intros E. apply (f_equal qx) in E. cbn in E. lra. Qed.
