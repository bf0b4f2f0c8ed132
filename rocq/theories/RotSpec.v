(** What 3D rotations should be, independently of the way the library computes them. *)

From Coq Require Import Reals.
From Verif Require Import Result Vec Mat3 AngleModel AngleSpec RotModel.
Local Open Scope R_scope.

(** *** Quaternions *)
(** Hamilton's product (i j = k). *)
Definition hamilton (p q : quat) : quat :=
  Q4 (qs p * qx q + qx p * qs q + qy p * qz q - qz p * qy q)
     (qs p * qy q - qx p * qz q + qy p * qs q + qz p * qx q)
     (qs p * qz q + qx p * qy q - qy p * qx q + qz p * qs q)
     (qs p * qs q - qx p * qx q - qy p * qy q - qz p * qz q).
Definition sq (q : quat) : R := qx q * qx q + qy q * qy q + qz q * qz q + qs q * qs q.
Definition unit_q (q : quat) : Prop := sq q = 1.
Definition negq (q : quat) : quat := Q4 (- qx q) (- qy q) (- qz q) (- qs q).
Definition dot4 (p q : quat) : R := qx p * qx q + qy p * qy q + qz p * qz q + qs p * qs q.

(** *** Rotations *)
(** A proper rotation: orthonormal and of determinant 1. *)
Definition is_rotation (m : m3) : Prop := mul3 (transpose3 m) m = id3 /\ det3 m = 1.
(** Rotation of the frame by [t] about the unit axis [a]: the coordinates turn by [-t]
    (Rodrigues' formula); the convention of the library. *)
Definition frame_rotation (a : v3) (t : R) (v : v3) : v3 :=
  sub3 (add3 (scale3 (cos t) v) (scale3 ((1 - cos t) * dot3 a v) a)) (scale3 (sin t) (cross3 a v)).

(** The rotation a quaternion, a matrix, a rotation vector stands for, as a relation between
    vectors. *)
Definition q_rotates (eps : R) (q : quat) (f : v3 -> v3) : Prop :=
  forall v, q_rotate eps (Some q) (Some v) = Ok (f v).
Definition m_rotates (m : m3) (f : v3 -> v3) : Prop := forall v, rm_mulv (Some m) (Some v) = Ok (f v).
Definition rv_rotates (r : rotvec) (f : v3 -> v3) : Prop :=
  exists a t, rv_axis r = Some a /\ turns (rv_angle r) = Some (t / (2 * PI)) /\ sqnorm3 a = 1
    /\ forall v, f v = frame_rotation a t v.

(** Two unit quaternions rotate alike. *)
Definition same_rotation (eps : R) (p q : quat) : Prop :=
  forall v, q_rotate eps (Some p) (Some v) = q_rotate eps (Some q) (Some v).

(** Tolerated matrices: columns not longer than 1 + eps and orthogonal up to eps. *)
Definition columns_tolerated (eps : R) (m : m3) : Prop :=
  (forall j, (j < 3)%nat -> norm3 (col3 m j) <= 1 + eps)
  /\ (forall i j, (i < 3)%nat -> (j < 3)%nat -> i <> j -> Rabs (dot3 (col3 m i) (col3 m j)) <= eps).

(** The same rotation: equal up to sign. *)
Definition same_up_to_sign (p q : quat) : Prop := p = q \/ p = negq q.

(** *** Sequences of elementary rotations *)
(** Rotation of the frame by [t] about the coordinate axis number [i] (1, 2, 3). *)
Definition axis_vector (i : nat) : v3 :=
  match i with 1 => V3 1 0 0 | 2 => V3 0 1 0 | _ => V3 0 0 1 end%nat.
Definition frame_sequence (i j k : nat) (a b c : R) (v : v3) : v3 :=
  frame_rotation (axis_vector k) c (frame_rotation (axis_vector j) b (frame_rotation (axis_vector i) a v)).
(** The rotation the axis sequence of an Euler angle names: first angle about the first axis,
    then the second angle about the second (rotated) axis, and so on. *)
Definition named_sequence (s : axis_sequence) (a b c : R) : v3 -> v3 :=
  match s with
  | XYZ => frame_sequence 1 2 3 a b c
  | ZXY => frame_sequence 3 1 2 a b c
  | ZYX => frame_sequence 3 2 1 a b c
  | SeqUndefined => fun v => v
  end.

(** One-parameter group of matrices about the coordinate axis number [i]. *)
Definition axis_group (eps : R) (R_ : angle -> result m3) (i : nat) : Prop :=
  forall a s, turns a = Some s ->
    exists m, R_ a = Ok m /\ is_rotation m
      /\ (forall v, rm_mulv (Some m) (Some v) = Ok (frame_rotation (axis_vector i) (s * (2 * PI)) v))
      /\ rm_mulv (Some m) (Some (axis_vector i)) = Ok (axis_vector i)
      /\ (forall b t, turns b = Some t -> exists m' c, R_ b = Ok m' /\ angle_add a b = Ok c
             /\ rm_mul eps (Some m) (Some m') = R_ c)
      /\ (exists o, angle_opp a = Ok o /\ R_ o = toTransposed eps (Some m))
      /\ R_ angle_Undefined = Err EUndefined.

(** Sine of the middle angle of the sequence, read from the rotation. *)
Definition middle_sine (s : axis_sequence) (f : v3 -> v3) : R :=
  match s with
  | XYZ => vz (f (V3 1 0 0))
  | ZXY => vy (f (V3 0 0 1))
  | ZYX => - vx (f (V3 0 0 1))
  | SeqUndefined => 0
  end.
(** The same angles under another sequence. *)
Definition relabel (e : euler) (s : axis_sequence) : euler := mkE (e_phi e) (e_theta e) (e_psi e) s.
(** Angles of an Euler angle, in radians. *)
Definition euler_radians (e : euler) (a b c : R) : Prop :=
  turns (e_phi e) = Some (a / (2 * PI)) /\ turns (e_theta e) = Some (b / (2 * PI)) /\ turns (e_psi e) = Some (c / (2 * PI)).

(** The quaternion h (sin t a + cos t), for a unit vector a. *)
Definition polar (h : R) (a : v3) (t : R) : quat :=
  Q4 (h * sin t * vx a) (h * sin t * vy a) (h * sin t * vz a) (h * cos t).

(** [m] maps the direction of u1 to that of v1 and the half-plane of (u1, u2) to that of (v1, v2). *)
Definition aligns (m : m3) (u1 u2 v1 v2 : v3) : Prop :=
  (exists k, 0 < k /\ mulv3 m u1 = scale3 k v1)
  /\ (exists x y, 0 < y /\ mulv3 m u2 = add3 (scale3 x v1) (scale3 y v2)).

(** A right-handed orthonormal triple. *)
Definition right_handed (a b c : v3) : Prop :=
  sqnorm3 a = 1 /\ sqnorm3 b = 1 /\ c = cross3 a b /\ dot3 a b = 0.
