(** The properties of the constructions of rotations in double precision: C141 to C148. *)

From Coq Require Import List Bool Arith ZArith Reals Lra Lia Psatz Floats.SpecFloat.
From Verif Require Import Result Vec Mat3 AngleModel FloatModel FloatSpec FloatProofs FloatProofs2 Geo3Spec Geo64Model Geo64Spec RotModel RotSpec Rot64Model Rot64Spec Rot64Spec2 FloatProofs4 Rot64Proofs7 Rot64Proofs17
  Att64Model Att64Spec Att64Proofs Att64Proofs2 Att64Proofs3 Att64Proofs4 Att64Proofs5 Att64Proofs6 Att64Proofs7 Att64Proofs8 Att64Proofs9 Att64Proofs10.
Import ListNotations.
Local Open Scope R_scope.

(** *** C141: rotation vectors in double precision, and their quaternions *)
(** The quaternion of an axis and an angle is the one of the direction of the axis and the exact angle, within 3 times the error of the cosine and the sine and 2^-48, and is accepted as unitary. *)
Theorem C141_accurate :
  forall fcos fsin eps a t th e, finite3 a -> Rabs (norm3 (val3 a) - 1) <= powerRZ 2 (-50) -> finite64 eps -> rval eps <= / 2 ->
  returns (fcos (b64_div t two_64)) (cos (th / 2)) e -> returns (fsin (b64_div t two_64)) (sin (th / 2)) e -> e <= / 100 ->
  exists q, q64_of_rotvec fcos fsin eps (mkRV64 (Some a) (Some t)) = Ok q /\ finite4 q /\ gap4 (val4 q) (polar 1 (direction (val3 a)) (th / 2)) <= 3 * e + powerRZ 2 (-48) /\
    forall tol, finite64 tol -> powerRZ 2 (-50) <= rval tol -> q64_isUnitary (Some q) (Some tol) = Ok true.
Proof. exact c141_accurate. Qed.
Print Assumptions C141_accurate.

(** Turning a vector by it turns the vector around the axis by the angle, within 6 times the error and 2^-46. *)
Theorem C141_turn :
  forall fcos fsin r eps a t th e tol v, finite3 a -> Rabs (norm3 (val3 a) - 1) <= powerRZ 2 (-50) -> finite64 eps -> rval eps <= / 2 ->
  returns (fcos (b64_div t two_64)) (cos (th / 2)) e -> returns (fsin (b64_div t two_64)) (sin (th / 2)) e -> e <= / 100 -> finite64 tol -> powerRZ 2 (-50) <= rval tol -> finite3 v -> norm3 (val3 v) <= powerRZ 2 440 ->
  exists q w, q64_of_rotvec fcos fsin eps (mkRV64 (Some a) (Some t)) = Ok q /\ q64_rotateVector r (Some q) (Some v) (Some tol) = Ok w /\ finite3 w /\
    dist3 (val3 w) (frame_rotation (direction (val3 a)) th (val3 v)) <= (6 * e + powerRZ 2 (-46)) * norm3 (val3 v) + powerRZ 2 (-1069).
Proof. exact c141_turn. Qed.
Print Assumptions C141_turn.

(** At a cosine of 1 and a sine of 0 the quaternion is exactly that of no rotation. *)
Theorem C141_zero :
  forall fcos fsin eps a t, finite3 a -> finite64 eps -> rval eps <= 1 -> returns (fcos (b64_div t two_64)) 1 0 -> returns (fsin (b64_div t two_64)) 0 0 ->
  exists q, q64_of_rotvec fcos fsin eps (mkRV64 (Some a) (Some t)) = Ok q /\ finite4 q /\ val4 q = one4.
Proof. exact c141_zero. Qed.
Print Assumptions C141_zero.

(** An axis is accepted or refused by its length; when accepted, the axis kept is the direction of it within 2^-51. *)
Theorem C141_axis :
  forall r eps a t, finite3 a -> within3 (powerRZ 2 450) a -> finite64 eps -> 0 <= rval eps <= / 4 ->
  (Rabs (norm3 (val3 a) - 1) + powerRZ 2 (-50) <= rval eps -> exists b, RotationVector64 r eps (Some a) t = Ok (mkRV64 (Some b) t) /\ finite3 b /\ dist3 (val3 b) (direction (val3 a)) <= powerRZ 2 (-51)) /\
  (rval eps + powerRZ 2 (-50) <= Rabs (norm3 (val3 a) - 1) -> RotationVector64 r eps (Some a) t = Err ERuntime).
Proof. exact c141_axis. Qed.
Print Assumptions C141_axis.

(** The rotation vector of a vector has its direction as axis and its length as angle, within 2^-51. *)
Theorem C141_vector :
  forall r v, finite3 v -> within3 (powerRZ 2 450) v -> powerRZ 2 (-450) <= norm3 (val3 v) ->
  exists a n, rv64_of_vector r (Some v) = mkRV64 (Some a) (Some n) /\ finite3 a /\ finite64 n /\ dist3 (val3 a) (direction (val3 v)) <= powerRZ 2 (-51) /\ Rabs (rval n - norm3 (val3 v)) <= powerRZ 2 (-51) * norm3 (val3 v).
Proof. exact c141_vector. Qed.
Print Assumptions C141_vector.

(** The zero vector gets the third axis and the angle 0. *)
Theorem C141_zero_vector :
  forall r v, finite3 v -> val3 v = V3 0 0 0 -> exists n, rv64_of_vector r (Some v) = mkRV64 (Some (axis64 0 0 1)) (Some n) /\ finite64 n /\ rval n = 0.
Proof. exact c141_zero_vector. Qed.
Print Assumptions C141_zero_vector.

(** But a tiny vector other than zero gets an axis of length below 2^-600 instead of 1. *)
Theorem C141_tiny_refuted :
  exists v, finite3 v /\ val3 v <> V3 0 0 0 /\ forall r, exists a, rv64_of_vector r (Some v) = mkRV64 (Some a) (Some zero64) /\ norm3 (val3 a) <= powerRZ 2 (-600).
Proof. exact c141_tiny_refuted. Qed.
Print Assumptions C141_tiny_refuted.

(** Undefined axes and angles. *)
Theorem C141_errors :
  forall fcos fsin r eps a t, q64_of_rotvec fcos fsin eps (mkRV64 None t) = Err EUndefined /\ q64_of_rotvec fcos fsin eps (mkRV64 a None) = Err EUndefined /\ RotationVector64 r eps None t = Ok (mkRV64 None t) /\ rv64_of_vector r None = mkRV64 None None.
Proof. exact c141_errors. Qed.
Print Assumptions C141_errors.

(** Half a turn around the third axis: the half angle has cosine 0 and sine 1, and (1, 2, 3) goes to (-1, -2, 3). *)
Example C141_example : let eps := S754_finite false 4503599627370496 (-102) in let fcos (_ : spec_float) := zero64 in let fsin (_ : spec_float) := b64_of_Z 1 in
  finite3 (axis64 0 0 1) /\ Rabs (norm3 (val3 (axis64 0 0 1)) - 1) <= powerRZ 2 (-50) /\ finite64 eps /\ rval eps = powerRZ 2 (-50) /\ (forall t, returns (fcos t) (cos (PI / 2)) 0 /\ returns (fsin t) (sin (PI / 2)) 0) /\
  exists q, q64_of_rotvec fcos fsin eps (mkRV64 (Some (axis64 0 0 1)) (Some (b64_of_Z 3))) = Ok q /\ q64_rotateVector FirstTwo (Some q) (Some (axis64 1 2 3)) (Some eps) = Ok (axis64 (-1) (-2) 3).
Proof.
  intros eps fcos fsin.
  destruct one_val as [FO VO]. change one_64 with (b64_of_Z 1) in FO, VO.
  assert (C : returns zero64 (cos (PI / 2)) 0) by (split; [exact I | rewrite cos_PI2; change (rval zero64) with 0; rewrite Rminus_diag_eq, Rabs_R0 by reflexivity; lra]).
  assert (S : returns (b64_of_Z 1) (sin (PI / 2)) 0) by (split; [exact FO | rewrite sin_PI2, VO, Rminus_diag_eq, Rabs_R0 by reflexivity; lra]).
  assert (F : finite3 (axis64 0 0 1)) by (split; [exact I | split; [exact I | exact FO]]).
  assert (N : Rabs (norm3 (val3 (axis64 0 0 1)) - 1) <= powerRZ 2 (-50)) by (assert (V : val3 (axis64 0 0 1) = V3 0 0 1) by (unfold val3, axis64; cbn [fx fy fz]; rewrite VO; reflexivity); rewrite V; unfold norm3, sqnorm3, dot3; cbn [vx vy vz]; replace (0 * 0 + 0 * 0 + 1 * 1) with 1 by ring; rewrite sqrt_1, Rminus_diag_eq, Rabs_R0 by reflexivity; left; apply P2_pos).
  assert (FE : finite64 eps) by exact (proj1 eps50). assert (VE : rval eps = powerRZ 2 (-50)) by exact (proj2 eps50).
  split; [exact F |]. split; [exact N |]. split; [exact FE |]. split; [exact VE |]. split; [intros t; split; [exact C | exact S] |]. eexists. split; [vm_compute; reflexivity |]. vm_compute; reflexivity.
Qed.

(** *** C142: matrices of rotation vectors in double precision *)
(** The matrix of an axis and an angle is accepted by its own check when the tolerance is at least 2^-45 and 8 times the error of cosine and sine; it is that of the rotation around the direction of the axis. *)
Theorem C142_accepted :
  forall fcos fsin r eps a t th e, finite3 a -> Rabs (norm3 (val3 a) - 1) <= powerRZ 2 (-50) -> returns (fcos t) (cos th) e -> returns (fsin t) (sin th) e -> e <= / 10000 -> finite64 eps -> 8 * e + powerRZ 2 (-45) <= rval eps <= / 4 ->
  exists m, rm64_of_rotvec fcos fsin r eps (mkRV64 (Some a) (Some t)) = Ok m /\ finite33 m /\ entries_within (3 * e + powerRZ 2 (-47)) (val33 m) (matrix_of (frame_rotation (direction (val3 a)) th)) /\ orthonormal_up_to (8 * e + powerRZ 2 (-45)) (val33 m).
Proof. exact c142_accepted. Qed.
Print Assumptions C142_accepted.

(** Whatever the tolerance, a matrix returned has the right coefficients. *)
Theorem C142_entries :
  forall fcos fsin r eps a t th e m, finite3 a -> Rabs (norm3 (val3 a) - 1) <= powerRZ 2 (-50) -> returns (fcos t) (cos th) e -> returns (fsin t) (sin th) e -> e <= / 10000 -> rm64_of_rotvec fcos fsin r eps (mkRV64 (Some a) (Some t)) = Ok m ->
  finite33 m /\ entries_within (3 * e + powerRZ 2 (-47)) (val33 m) (matrix_of (frame_rotation (direction (val3 a)) th)).
Proof. exact c142_entries. Qed.
Print Assumptions C142_entries.

(** Applied to a vector it turns it around the axis by the angle. *)
Theorem C142_turn :
  forall fcos fsin r eps a t th e m v, finite3 a -> Rabs (norm3 (val3 a) - 1) <= powerRZ 2 (-50) -> returns (fcos t) (cos th) e -> returns (fsin t) (sin th) e -> e <= / 10000 -> rm64_of_rotvec fcos fsin r eps (mkRV64 (Some a) (Some t)) = Ok m -> finite3 v -> norm3 (val3 v) <= powerRZ 2 440 ->
  exists w, rm64_mulv r (Some m) (Some v) = Ok w /\ finite3 w /\ dist3 (val3 w) (frame_rotation (direction (val3 a)) th (val3 v)) <= (7 * e + powerRZ 2 (-45)) * norm3 (val3 v) + powerRZ 2 (-1071).
Proof. exact c142_turn. Qed.
Print Assumptions C142_turn.

(** The matrix and the quaternion of the same axis and angle turn a vector the same way. *)
Theorem C142_agree :
  forall fcos fsin r eps a t th e m v tol, finite3 a -> Rabs (norm3 (val3 a) - 1) <= powerRZ 2 (-50) -> returns (fcos t) (cos th) e -> returns (fsin t) (sin th) e -> returns (fcos (b64_div t two_64)) (cos (th / 2)) e -> returns (fsin (b64_div t two_64)) (sin (th / 2)) e -> e <= / 10000 ->
  finite64 eps -> rval eps <= / 2 -> rm64_of_rotvec fcos fsin r eps (mkRV64 (Some a) (Some t)) = Ok m -> finite64 tol -> powerRZ 2 (-50) <= rval tol -> finite3 v -> norm3 (val3 v) <= powerRZ 2 440 ->
  exists q w w', q64_of_rotvec fcos fsin eps (mkRV64 (Some a) (Some t)) = Ok q /\ rm64_mulv r (Some m) (Some v) = Ok w /\ q64_rotateVector r (Some q) (Some v) (Some tol) = Ok w' /\ finite3 w /\ finite3 w' /\ dist3 (val3 w) (val3 w') <= (13 * e + powerRZ 2 (-44)) * norm3 (val3 v) + powerRZ 2 (-1068).
Proof. exact c142_agree. Qed.
Print Assumptions C142_agree.

(** At a cosine of 1 and a sine of 0 the matrix is exactly the identity. *)
Theorem C142_zero :
  forall fcos fsin r eps a t, finite3 a -> returns (fcos t) 1 0 -> returns (fsin t) 0 0 -> finite64 eps -> 0 <= rval eps -> exists m, rm64_of_rotvec fcos fsin r eps (mkRV64 (Some a) (Some t)) = Ok m /\ finite33 m /\ val33 m = id3.
Proof. exact c142_zero. Qed.
Print Assumptions C142_zero.

(** At the tolerance that the library uses, the matrix of a legitimate axis and angle with correctly rounded cosine and sine may be refused. *)
Theorem C142_refuted :
  exists a c s th, finite3 a /\ returns c (cos th) (powerRZ 2 (-53)) /\ returns s (sin th) (powerRZ 2 (-53)) /\ forall fcos fsin r eps t, fcos t = c -> fsin t = s -> finite64 eps -> powerRZ 2 (-50) <= rval eps < 9.4 * powerRZ 2 (-53) ->
  RotationVector64 r eps (Some a) (Some t) = Ok (mkRV64 (Some a) (Some t)) /\ rm64_of_rotvec fcos fsin r eps (mkRV64 (Some a) (Some t)) = Err ERuntime.
Proof. exact c142_refuted. Qed.
Print Assumptions C142_refuted.

(** An undefined axis or angle is an error. *)
Theorem C142_errors :
  forall fcos fsin r eps a t, rm64_of_rotvec fcos fsin r eps (mkRV64 None t) = Err EUndefined /\ rm64_of_rotvec fcos fsin r eps (mkRV64 a None) = Err EUndefined.
Proof. exact c142_errors. Qed.
Print Assumptions C142_errors.

(** A quarter turn around the third axis: the columns are (0, -1, 0), (1, 0, 0), (0, 0, 1), and (1, 2, 3) goes to (2, -1, 3). *)
Example C142_example : let eps := S754_finite false 4503599627370496 (-102) in let fcos (_ : spec_float) := zero64 in let fsin (_ : spec_float) := b64_of_Z 1 in
  finite3 (axis64 0 0 1) /\ Rabs (norm3 (val3 (axis64 0 0 1)) - 1) <= powerRZ 2 (-50) /\ finite64 eps /\ rval eps = powerRZ 2 (-50) /\ (forall t, returns (fcos t) (cos (PI / 2)) 0 /\ returns (fsin t) (sin (PI / 2)) 0) /\
  exists m, rm64_of_rotvec fcos fsin FirstTwo eps (mkRV64 (Some (axis64 0 0 1)) (Some (b64_of_Z 1))) = Ok m /\ rm64_mulv FirstTwo (Some m) (Some (axis64 1 2 3)) = Ok (axis64 2 (-1) 3).
Proof.
  intros eps fcos fsin.
  destruct one_val as [FO VO]. change one_64 with (b64_of_Z 1) in FO, VO.
  assert (C : returns zero64 (cos (PI / 2)) 0) by (split; [exact I | rewrite cos_PI2; change (rval zero64) with 0; rewrite Rminus_diag_eq, Rabs_R0 by reflexivity; lra]).
  assert (S : returns (b64_of_Z 1) (sin (PI / 2)) 0) by (split; [exact FO | rewrite sin_PI2, VO, Rminus_diag_eq, Rabs_R0 by reflexivity; lra]).
  assert (F : finite3 (axis64 0 0 1)) by (split; [exact I | split; [exact I | exact FO]]).
  assert (N : Rabs (norm3 (val3 (axis64 0 0 1)) - 1) <= powerRZ 2 (-50)) by (assert (V : val3 (axis64 0 0 1) = V3 0 0 1) by (unfold val3, axis64; cbn [fx fy fz]; rewrite VO; reflexivity); rewrite V; unfold norm3, sqnorm3, dot3; cbn [vx vy vz]; replace (0 * 0 + 0 * 0 + 1 * 1) with 1 by ring; rewrite sqrt_1, Rminus_diag_eq, Rabs_R0 by reflexivity; left; apply P2_pos).
  assert (FE : finite64 eps) by exact (proj1 eps50). assert (VE : rval eps = powerRZ 2 (-50)) by exact (proj2 eps50).
  split; [exact F |]. split; [exact N |]. split; [exact FE |]. split; [exact VE |]. split; [intros t; split; [exact C | exact S] |]. eexists. split; [vm_compute; reflexivity |]. vm_compute; reflexivity.
Qed.

(** *** C143: elementary rotation matrices, and matrices of columns and rows, in double precision *)
(** RX, RY and RZ are accepted; the coefficients are cosine and sine as given, the columns are exactly orthogonal, and the axis is exactly kept. *)
Theorem C143_accepted :
  forall n f fcos fsin r eps t th e, In (n, f) [(1%nat, RX64); (2%nat, RY64); (3%nat, RZ64)] -> returns (fcos t) (cos th) e -> returns (fsin t) (sin th) e -> e <= / 10000 -> finite64 eps -> 1.5 * e + 4.5 * powerRZ 2 (-53) <= rval eps <= / 4 ->
  exists m, f fcos fsin r eps (Some t) = Ok m /\ finite33 m /\ entries_within e (val33 m) (matrix_of (frame_rotation (axis_vector n) th)) /\ orthonormal_up_to (3 * e) (val33 m) /\
    (forall i j, (i < 3)%nat -> (j < 3)%nat -> i <> j -> dot3 (col3 (val33 m) i) (col3 (val33 m) j) = 0) /\ col3 (val33 m) (n - 1) = axis_vector n.
Proof. exact c143_accepted. Qed.
Print Assumptions C143_accepted.

(** Applied to a vector they turn it around the axis. *)
Theorem C143_turn :
  forall n f fcos fsin r eps t th e m v, In (n, f) [(1%nat, RX64); (2%nat, RY64); (3%nat, RZ64)] -> returns (fcos t) (cos th) e -> returns (fsin t) (sin th) e -> e <= / 10000 -> f fcos fsin r eps (Some t) = Ok m -> finite3 v -> norm3 (val3 v) <= powerRZ 2 440 ->
  exists w, rm64_mulv r (Some m) (Some v) = Ok w /\ finite3 w /\ dist3 (val3 w) (frame_rotation (axis_vector n) th (val3 v)) <= (4 * e + powerRZ 2 (-50)) * norm3 (val3 v) + powerRZ 2 (-1071).
Proof. exact c143_turn. Qed.
Print Assumptions C143_turn.

(** The matrix of the opposite angle is the transposed matrix. *)
Theorem C143_opposite :
  forall n f fcos fsin r eps t t' th e m, In (n, f) [(1%nat, RX64); (2%nat, RY64); (3%nat, RZ64)] -> returns (fcos t) (cos th) e -> returns (fsin t) (sin th) e -> e <= / 10000 -> fcos t' = fcos t -> fsin t' = SFopp (fsin t) -> f fcos fsin r eps (Some t) = Ok m ->
  f fcos fsin r eps (Some t') = rm64_toTransposed r eps (Some m).
Proof. exact c143_opposite. Qed.
Print Assumptions C143_opposite.

(** At a cosine of 1 and a sine of 0 they are exactly the identity. *)
Theorem C143_zero :
  forall n f fcos fsin r eps t, In (n, f) [(1%nat, RX64); (2%nat, RY64); (3%nat, RZ64)] -> returns (fcos t) 1 0 -> returns (fsin t) 0 0 -> finite64 eps -> 0 <= rval eps -> exists m, f fcos fsin r eps (Some t) = Ok m /\ finite33 m /\ val33 m = id3.
Proof. exact c143_zero. Qed.
Print Assumptions C143_zero.

(** Matrices of columns and of rows hold exactly what is given, and are accepted when orthonormal within the tolerance. *)
Theorem C143_columns :
  forall r eps a b c e, finite3 a -> finite3 b -> finite3 c -> 0 <= e <= powerRZ 2 (-28) -> orthonormal_up_to e (of_cols (val3 a) (val3 b) (val3 c)) -> finite64 eps -> rval eps <= / 4 ->
  (e + powerRZ 2 (-50) <= rval eps -> exists m, Columns64 r eps (Some a) (Some b) (Some c) = Ok m /\ val33 m = of_cols (val3 a) (val3 b) (val3 c)) /\
  (3 * e + powerRZ 2 (-50) <= rval eps -> exists m, Rows64 r eps (Some a) (Some b) (Some c) = Ok m /\ val33 m = transpose3 (of_cols (val3 a) (val3 b) (val3 c))).
Proof. exact c143_columns. Qed.
Print Assumptions C143_columns.

(** What is returned has been checked, and the matrix of rows is the transposed matrix of columns. *)
Theorem C143_checked :
  forall r eps a b c m, (Columns64 r eps (Some a) (Some b) (Some c) = Ok m -> RotationMatrix64 r eps m = Ok m /\ val33 m = of_cols (val3 a) (val3 b) (val3 c)) /\
  (Rows64 r eps (Some a) (Some b) (Some c) = Ok m -> RotationMatrix64 r eps m = Ok m /\ rm64_toTransposed r eps (Some m) = Columns64 r eps (Some a) (Some b) (Some c) /\ val33 m = transpose3 (of_cols (val3 a) (val3 b) (val3 c))).
Proof. exact c143_checked. Qed.
Print Assumptions C143_checked.

(** The matrix of three columns may be accepted while that of the same rows is refused, for any tolerance below 3 / 16: the check only looks at columns. *)
Theorem C143_rows_refuted :
  exists a b c, finite3 a /\ finite3 b /\ finite3 c /\ forall r eps, finite64 eps -> 0 <= rval eps < 3 / 16 -> Columns64 r eps (Some a) (Some b) (Some c) = Ok (F33 a b c) /\ Rows64 r eps (Some a) (Some b) (Some c) = Err ERuntime.
Proof. exact c143_rows_refuted. Qed.
Print Assumptions C143_rows_refuted.

(** Undefined angles, rows and columns are errors. *)
Theorem C143_errors :
  forall n f fcos fsin r eps (a b : option f3), (In (n, f) [(1%nat, RX64); (2%nat, RY64); (3%nat, RZ64)] -> f fcos fsin r eps None = Err EUndefined) /\
  Columns64 r eps None a b = Err EUndefined /\ Columns64 r eps a None b = Err EUndefined /\ Columns64 r eps a b None = Err EUndefined /\ Rows64 r eps None a b = Err EUndefined /\ Rows64 r eps a None b = Err EUndefined /\ Rows64 r eps a b None = Err EUndefined.
Proof. exact c143_errors. Qed.
Print Assumptions C143_errors.

(** Quarter turns around the three axes. *)
Example C143_example : let eps := S754_finite false 4503599627370496 (-102) in let fcos (_ : spec_float) := zero64 in let fsin (_ : spec_float) := b64_of_Z 1 in
  finite64 eps /\ rval eps = powerRZ 2 (-50) /\ (forall t, returns (fcos t) (cos (PI / 2)) 0 /\ returns (fsin t) (sin (PI / 2)) 0) /\
  exists m n p, RX64 fcos fsin FirstTwo eps (Some (b64_of_Z 1)) = Ok m /\ RY64 fcos fsin FirstTwo eps (Some (b64_of_Z 1)) = Ok n /\ RZ64 fcos fsin FirstTwo eps (Some (b64_of_Z 1)) = Ok p /\
    rm64_mulv FirstTwo (Some m) (Some (axis64 1 2 3)) = Ok (axis64 1 3 (-2)) /\ rm64_mulv FirstTwo (Some n) (Some (axis64 1 2 3)) = Ok (axis64 (-3) 2 1) /\ rm64_mulv FirstTwo (Some p) (Some (axis64 1 2 3)) = Ok (axis64 2 (-1) 3) /\
    Columns64 FirstTwo eps (Some (axis64 0 (-1) 0)) (Some (axis64 1 0 0)) (Some (axis64 0 0 1)) = Ok (F33 (axis64 0 (-1) 0) (axis64 1 0 0) (axis64 0 0 1)).
Proof.
  intros eps fcos fsin.
  destruct one_val as [FO VO]. change one_64 with (b64_of_Z 1) in FO, VO.
  assert (C : returns zero64 (cos (PI / 2)) 0) by (split; [exact I | rewrite cos_PI2; change (rval zero64) with 0; rewrite Rminus_diag_eq, Rabs_R0 by reflexivity; lra]).
  assert (S : returns (b64_of_Z 1) (sin (PI / 2)) 0) by (split; [exact FO | rewrite sin_PI2, VO, Rminus_diag_eq, Rabs_R0 by reflexivity; lra]).
  assert (FE : finite64 eps) by exact (proj1 eps50). assert (VE : rval eps = powerRZ 2 (-50)) by exact (proj2 eps50).
  split; [exact FE |]. split; [exact VE |]. split; [intros t; split; [exact C | exact S] |]. do 3 eexists. do 6 (split; [vm_compute; reflexivity |]). vm_compute; reflexivity.
Qed.

(** *** C144: quaternions and matrices of Euler angles in double precision *)
(** The quaternion of Euler angles is a unit quaternion of the rotation of the sequence named, within 25 times the error of the cosines and sines and 2^-48. *)
Theorem C144_quaternion :
  forall fcos fsin eps x y z seq a b c e, seq <> SeqUndefined -> trig_at fcos fsin (b64_div x two_64) (a / 2) e -> trig_at fcos fsin (b64_div y two_64) (b / 2) e -> trig_at fcos fsin (b64_div z two_64) (c / 2) e -> e <= / 10000 -> finite64 eps -> rval eps <= / 2 ->
  exists q p, q64_of_euler fcos fsin eps (mkE64 (Some x) (Some y) (Some z) seq) = Ok q /\ finite4 q /\ len4 p = 1 /\ (forall v, turned4 p v = named_sequence seq a b c v) /\ gap4 (val4 q) p <= 25 * e + powerRZ 2 (-48) /\
    forall tol, finite64 tol -> powerRZ 2 (-50) <= rval tol -> q64_isUnitary (Some q) (Some tol) = Ok true.
Proof. exact c144_quaternion. Qed.
Print Assumptions C144_quaternion.

(** Turning a vector by it turns the vector by the sequence named. *)
Theorem C144_turn :
  forall fcos fsin r eps x y z seq a b c e tol v, seq <> SeqUndefined -> trig_at fcos fsin (b64_div x two_64) (a / 2) e -> trig_at fcos fsin (b64_div y two_64) (b / 2) e -> trig_at fcos fsin (b64_div z two_64) (c / 2) e -> e <= / 10000 -> finite64 eps -> rval eps <= / 2 ->
  finite64 tol -> powerRZ 2 (-50) <= rval tol -> finite3 v -> norm3 (val3 v) <= powerRZ 2 440 ->
  exists q w, q64_of_euler fcos fsin eps (mkE64 (Some x) (Some y) (Some z) seq) = Ok q /\ q64_rotateVector r (Some q) (Some v) (Some tol) = Ok w /\ finite3 w /\ dist3 (val3 w) (named_sequence seq a b c (val3 v)) <= (51 * e + powerRZ 2 (-46)) * norm3 (val3 v) + powerRZ 2 (-1069).
Proof. exact c144_turn. Qed.
Print Assumptions C144_turn.

(** The matrix of Euler angles is accepted when the tolerance is at least 2^-46 and 75 times the error, and has the right coefficients. *)
Theorem C144_matrix :
  forall fcos fsin r eps x y z seq a b c e, seq <> SeqUndefined -> trig_at fcos fsin x a e -> trig_at fcos fsin y b e -> trig_at fcos fsin z c e -> e <= powerRZ 2 (-32) -> finite64 eps -> 75 * e + powerRZ 2 (-46) <= rval eps <= / 4 ->
  exists m, rm64_of_euler fcos fsin r eps (mkE64 (Some x) (Some y) (Some z) seq) = Ok m /\ finite33 m /\ entries_within (10 * e + powerRZ 2 (-49)) (val33 m) (matrix_of (euler_map seq a b c)) /\ orthonormal_up_to (75 * e + powerRZ 2 (-46)) (val33 m).
Proof. exact c144_matrix. Qed.
Print Assumptions C144_matrix.

(** Whatever the tolerance, a matrix returned turns vectors by the angles of x, y and z in the order z, y, x. *)
Theorem C144_matrix_turn :
  forall fcos fsin r eps x y z seq a b c e m v, seq <> SeqUndefined -> trig_at fcos fsin x a e -> trig_at fcos fsin y b e -> trig_at fcos fsin z c e -> e <= powerRZ 2 (-32) -> rm64_of_euler fcos fsin r eps (mkE64 (Some x) (Some y) (Some z) seq) = Ok m -> finite3 v -> norm3 (val3 v) <= powerRZ 2 440 ->
  finite33 m /\ entries_within (10 * e + powerRZ 2 (-49)) (val33 m) (matrix_of (euler_map seq a b c)) /\ exists w, rm64_mulv r (Some m) (Some v) = Ok w /\ finite3 w /\ dist3 (val3 w) (euler_map seq a b c (val3 v)) <= (31 * e + powerRZ 2 (-47)) * norm3 (val3 v) + powerRZ 2 (-1071).
Proof. exact c144_matrix_turn. Qed.
Print Assumptions C144_matrix_turn.

(** For ZYX the matrix and the quaternion agree. *)
Theorem C144_agree :
  forall fcos fsin r eps x y z a b c e m v tol, trig_at fcos fsin x a e -> trig_at fcos fsin y b e -> trig_at fcos fsin z c e -> trig_at fcos fsin (b64_div x two_64) (a / 2) e -> trig_at fcos fsin (b64_div y two_64) (b / 2) e -> trig_at fcos fsin (b64_div z two_64) (c / 2) e -> e <= powerRZ 2 (-32) ->
  finite64 eps -> rval eps <= / 2 -> rm64_of_euler fcos fsin r eps (mkE64 (Some x) (Some y) (Some z) ZYX) = Ok m -> finite64 tol -> powerRZ 2 (-50) <= rval tol -> finite3 v -> norm3 (val3 v) <= powerRZ 2 440 ->
  exists q w w', q64_of_euler fcos fsin eps (mkE64 (Some x) (Some y) (Some z) ZYX) = Ok q /\ rm64_mulv r (Some m) (Some v) = Ok w /\ q64_rotateVector r (Some q) (Some v) (Some tol) = Ok w' /\ finite3 w /\ finite3 w' /\ dist3 (val3 w) (val3 w') <= (82 * e + powerRZ 2 (-45)) * norm3 (val3 v) + powerRZ 2 (-1068).
Proof. exact c144_agree. Qed.
Print Assumptions C144_agree.

(** For XYZ and ZXY they do not: for three quarter turns they take (0, 1, 0) to vectors at least 1 apart. *)
Theorem C144_refuted :
  forall fcos fsin r eps x e m tol seq, seq = XYZ \/ seq = ZXY -> trig_at fcos fsin x (PI / 2) e -> trig_at fcos fsin (b64_div x two_64) (PI / 4) e -> e <= powerRZ 2 (-32) -> finite64 eps -> rval eps <= / 2 -> rm64_of_euler fcos fsin r eps (mkE64 (Some x) (Some x) (Some x) seq) = Ok m -> finite64 tol -> powerRZ 2 (-50) <= rval tol ->
  exists q w w', q64_of_euler fcos fsin eps (mkE64 (Some x) (Some x) (Some x) seq) = Ok q /\ rm64_mulv r (Some m) (Some (axis64 0 1 0)) = Ok w /\ q64_rotateVector r (Some q) (Some (axis64 0 1 0)) (Some tol) = Ok w' /\ 1 <= dist3 (val3 w) (val3 w').
Proof. exact c144_refuted. Qed.
Print Assumptions C144_refuted.

(** For angles with cosines 1 and sines 0 both are exactly no rotation. *)
Theorem C144_zero :
  forall fcos fsin r eps x y z seq, seq <> SeqUndefined -> (forall t, In t [x; y; z; b64_div x two_64; b64_div y two_64; b64_div z two_64] -> trig_at fcos fsin t 0 0) -> finite64 eps -> 0 <= rval eps <= 1 ->
  (exists q, q64_of_euler fcos fsin eps (mkE64 (Some x) (Some y) (Some z) seq) = Ok q /\ finite4 q /\ val4 q = one4) /\ exists m, rm64_of_euler fcos fsin r eps (mkE64 (Some x) (Some y) (Some z) seq) = Ok m /\ finite33 m /\ val33 m = id3.
Proof. exact c144_zero. Qed.
Print Assumptions C144_zero.

(** An undefined angle or sequence is an error. *)
Theorem C144_errors :
  forall fcos fsin r eps x y z seq, (x = None \/ y = None \/ z = None \/ seq = SeqUndefined) -> q64_of_euler fcos fsin eps (mkE64 x y z seq) = Err EUndefined /\ rm64_of_euler fcos fsin r eps (mkE64 x y z seq) = Err EUndefined.
Proof. exact c144_errors. Qed.
Print Assumptions C144_errors.

(** Three quarter turns, with the double nearest to half of pi and correctly rounded values: the quaternion of the sequence named XYZ takes (0, 1, 0) to (0, -1, 0) and the matrix leaves it. *)
Example C144_example : let eps := S754_finite false 4503599627370496 (-102) in let x := S754_finite false 7074237752028440 (-52) in let h := S754_finite false 6369051672525773 (-53) in
  let fcos t := if SFeqb t x then zero64 else h in let fsin t := if SFeqb t x then b64_of_Z 1 else h in
  finite64 eps /\ rval eps = powerRZ 2 (-50) /\ trig_at fcos fsin x (PI / 2) (powerRZ 2 (-53)) /\ trig_at fcos fsin (b64_div x two_64) (PI / 4) (powerRZ 2 (-53)) /\
  exists q m w, q64_of_euler fcos fsin eps (mkE64 (Some x) (Some x) (Some x) XYZ) = Ok q /\ rm64_of_euler fcos fsin FirstTwo eps (mkE64 (Some x) (Some x) (Some x) XYZ) = Ok m /\
    rm64_mulv FirstTwo (Some m) (Some (axis64 0 1 0)) = Ok (axis64 0 1 0) /\ q64_rotateVector FirstTwo (Some q) (Some (axis64 0 1 0)) (Some eps) = Ok w /\ SFltb (fy w) (S754_finite true 4503599627370496 (-53)) = true.
Proof.
  intros eps x h fcos fsin.
  assert (FE : finite64 eps) by exact (proj1 eps50). assert (VE : rval eps = powerRZ 2 (-50)) by exact (proj2 eps50).
  assert (W : forall u t, returns u t 0 -> returns u t (powerRZ 2 (-53))) by (intros u t [A B]; split; [exact A | pose proof (P2_pos (-53)); change (P2 (-53)) with (powerRZ 2 (-53)) in *; lra]).
  destruct one_val as [FO VO]. change one_64 with (b64_of_Z 1) in FO, VO.
  assert (C : returns zero64 (cos (PI / 2)) 0) by (split; [exact I | rewrite cos_PI2; change (rval zero64) with 0; rewrite Rminus_diag_eq, Rabs_R0 by reflexivity; lra]).
  assert (S : returns (b64_of_Z 1) (sin (PI / 2)) 0) by (split; [exact FO | rewrite sin_PI2, VO, Rminus_diag_eq, Rabs_R0 by reflexivity; lra]).
  split; [exact FE |]. split; [exact VE |]. split; [split; apply W; [exact C | exact S] |].
  split. { change (trig_at fcos fsin (b64_div x two_64) (PI / 4) (powerRZ 2 (-53))) with (returns h (cos (PI / 4)) (powerRZ 2 (-53)) /\ returns h (sin (PI / 4)) (powerRZ 2 (-53))). rewrite sin_PI4, cos_PI4. assert (R : returns h (1 / sqrt 2) (powerRZ 2 (-53))) by exact half_root. split; exact R. }
  exists (F4 h zero64 h zero64), (F33 (axis64 0 0 1) (axis64 0 1 0) (axis64 (-1) 0 0)), (F3 zero64 (S754_finite true 4503599627370497 (-52)) (S754_zero true)). do 4 (split; [vm_compute; reflexivity |]). vm_compute; reflexivity.
Qed.

(** *** C145: shortest rotations in double precision *)
(** The shortest rotation between two vectors is the unit quaternion that takes one direction to the other around an axis orthogonal to both, within 2^-47 over the length k of the sum of the two directions. *)
Theorem C145_accurate :
  forall r eps u v, finite3 u -> finite3 v -> within3 (powerRZ 2 450) u -> within3 (powerRZ 2 450) v -> powerRZ 2 (-450) <= norm3 (val3 u) -> powerRZ 2 (-450) <= norm3 (val3 v) -> let A := direction (val3 u) in let B := direction (val3 v) in let k := norm3 (add3 A B) in
  powerRZ 2 (-44) <= k -> finite64 eps -> rval eps <= k / 2 -> exists q p, q64_ShortestRotation r eps (Some u) (Some v) = Ok q /\ finite4 q /\ len4 p = 1 /\ turned4 p A = B /\ dot3 (vec p) A = 0 /\ dot3 (vec p) B = 0 /\ 0 < qs p /\ gap4 (val4 q) p <= powerRZ 2 (-47) / k /\
    forall tol, finite64 tol -> powerRZ 2 (-50) <= rval tol -> q64_isUnitary (Some q) (Some tol) = Ok true.
Proof. exact c145_accurate. Qed.
Print Assumptions C145_accurate.

(** It takes the first vector to the direction of the second, keeping its length, within 2^-46 / k times the length. *)
Theorem C145_rotates :
  forall r eps u v tol, finite3 u -> finite3 v -> within3 (powerRZ 2 450) u -> norm3 (val3 u) <= powerRZ 2 440 -> within3 (powerRZ 2 450) v -> powerRZ 2 (-450) <= norm3 (val3 u) -> powerRZ 2 (-450) <= norm3 (val3 v) -> let k := norm3 (add3 (direction (val3 u)) (direction (val3 v))) in
  powerRZ 2 (-44) <= k -> finite64 eps -> rval eps <= k / 2 -> finite64 tol -> powerRZ 2 (-50) <= rval tol ->
  exists q w, q64_ShortestRotation r eps (Some u) (Some v) = Ok q /\ q64_rotateVector r (Some q) (Some u) (Some tol) = Ok w /\ finite3 w /\ dist3 (val3 w) (scale3 (norm3 (val3 u)) (direction (val3 v))) <= powerRZ 2 (-46) / k * norm3 (val3 u) + powerRZ 2 (-1069).
Proof. exact c145_rotates. Qed.
Print Assumptions C145_rotates.

(** From a vector to itself the vector part is exactly zero. *)
Theorem C145_same :
  forall r eps u, finite3 u -> within3 (powerRZ 2 450) u -> powerRZ 2 (-450) <= norm3 (val3 u) -> finite64 eps -> rval eps <= 1 -> exists q, q64_ShortestRotation r eps (Some u) (Some u) = Ok q /\ finite4 q /\ vec (val4 q) = V3 0 0 0 /\ Rabs (qs (val4 q) - 1) <= powerRZ 2 (-50).
Proof. exact c145_same. Qed.
Print Assumptions C145_same.

(** When k is below the tolerance by 19 * 2^-53 the construction is refused. *)
Theorem C145_refused :
  forall r eps u v, finite3 u -> finite3 v -> within3 (powerRZ 2 450) u -> within3 (powerRZ 2 450) v -> powerRZ 2 (-450) <= norm3 (val3 u) -> powerRZ 2 (-450) <= norm3 (val3 v) -> finite64 eps -> rval eps <= / 4 ->
  norm3 (add3 (direction (val3 u)) (direction (val3 v))) + 19 * powerRZ 2 (-53) <= rval eps -> q64_ShortestRotation r eps (Some u) (Some v) = Err ERuntime.
Proof. exact c145_refused. Qed.
Print Assumptions C145_refused.

(** For exactly opposite vectors it is refused from 10.4 * 2^-53 on; whatever the tolerance, what is returned has no vector part, hence is not the half turn wanted. *)
Theorem C145_opposite :
  forall r eps u, finite3 u -> within3 (powerRZ 2 450) u -> powerRZ 2 (-450) <= norm3 (val3 u) -> let v := F3 (SFopp (fx u)) (SFopp (fy u)) (SFopp (fz u)) in finite64 eps ->
  (10.4 * powerRZ 2 (-53) <= rval eps -> q64_ShortestRotation r eps (Some u) (Some v) = Err ERuntime) /\ forall q, q64_ShortestRotation r eps (Some u) (Some v) = Ok q -> vec (val4 q) = V3 0 0 0.
Proof. exact c145_opposite. Qed.
Print Assumptions C145_opposite.

(** For nearly opposite vectors at tolerances up to 9.8 * 2^-53, among them the one of the library, a rotation may be returned and accepted as unitary that takes the first vector 60 degrees away from the second. *)
Theorem C145_close_refuted :
  exists u v w, finite3 u /\ finite3 v /\ finite3 w /\ 0 < norm3 (val3 u) <= 2 /\ 0 < norm3 (val3 v) <= 2 /\ dot3 (val3 w) (val3 v) <= 0.49 * (norm3 (val3 u) * norm3 (val3 v)) /\ forall r eps tol, finite64 eps -> rval eps <= 9.8 * powerRZ 2 (-53) -> finite64 tol -> powerRZ 2 (-50) <= rval tol ->
  exists q, q64_ShortestRotation r eps (Some u) (Some v) = Ok q /\ q64_rotateVector r (Some q) (Some u) (Some tol) = Ok w.
Proof. exact c145_close_refuted. Qed.
Print Assumptions C145_close_refuted.

(** Undefined vectors are errors. *)
Theorem C145_errors :
  forall r eps u v, q64_ShortestRotation r eps None v = Err EUndefined /\ q64_ShortestRotation r eps u None = Err EUndefined.
Proof. exact c145_errors. Qed.
Print Assumptions C145_errors.

(** From (2, 0, 0) to (0, 3, 0), and (1, 0, 0) against (-1, 0, 0). *)
Example C145_example : let eps := S754_finite false 4503599627370496 (-102) in let u := axis64 2 0 0 in let v := axis64 0 3 0 in
  finite3 u /\ finite3 v /\ norm3 (val3 u) = 2 /\ norm3 (val3 v) = 3 /\ norm3 (add3 (direction (val3 u)) (direction (val3 v))) = sqrt 2 /\ finite64 eps /\ rval eps = powerRZ 2 (-50) /\
  exists q w, q64_ShortestRotation FirstTwo eps (Some u) (Some v) = Ok q /\ q64_rotateVector FirstTwo (Some q) (Some u) (Some eps) = Ok w /\ SFltb (S754_finite false 9007199254740900 (-52)) (fy w) = true /\
    q64_ShortestRotation FirstTwo eps (Some (axis64 1 0 0)) (Some (axis64 (-1) 0 0)) = Err ERuntime.
Proof.
  intros eps u v.
  assert (FE : finite64 eps) by exact (proj1 eps50). assert (VE : rval eps = powerRZ 2 (-50)) by exact (proj2 eps50).
  assert (VU : val3 u = V3 2 0 0) by (unfold val3, u, axis64; cbn [fx fy fz]; replace (rval (b64_of_Z 2)) with 2 by (symmetry; exact (proj2 (of_Z_val 2 ltac:(lia)))); reflexivity).
  assert (V3' : rval (b64_of_Z 3) = 3) by exact (proj2 (of_Z_val 3 ltac:(lia))).
  assert (VV : val3 v = V3 0 3 0) by (unfold val3, v, axis64; cbn [fx fy fz]; rewrite V3'; reflexivity).
  assert (NU : norm3 (val3 u) = 2) by (rewrite VU; unfold norm3, sqnorm3, dot3; cbn [vx vy vz]; replace (2 * 2 + 0 * 0 + 0 * 0) with (2 * 2) by ring; apply sqrt_square; lra).
  assert (NV : norm3 (val3 v) = 3) by (rewrite VV; unfold norm3, sqnorm3, dot3; cbn [vx vy vz]; replace (0 * 0 + 3 * 3 + 0 * 0) with (3 * 3) by ring; apply sqrt_square; lra).
  split; [repeat split |]. split; [repeat split |]. split; [exact NU |]. split; [exact NV |].
  split; [unfold direction; rewrite NU, NV, VU, VV; unfold norm3, sqnorm3, dot3, add3, scale3; cbn [vx vy vz]; f_equal; field |].
  split; [exact FE |]. split; [exact VE |]. do 2 eexists. split; [vm_compute; reflexivity |]. split; [vm_compute; reflexivity |]. split; vm_compute; reflexivity.
Qed.

(** *** C146: normalized means of quaternions in double precision *)
(** The normalized mean of two quaternions is the exact one within 2^-47 over the length of the mean, and is accepted as unitary. *)
Theorem C146_accurate :
  forall eps p q k, finite4 p -> finite4 q -> / 2 <= len4 (val4 p) <= 2 -> / 2 <= len4 (val4 q) <= 2 -> finite64 k -> 0 <= rval k <= 1 -> finite64 eps ->
  let m := mix4 (rval k) (val4 p) (val4 q) in powerRZ 2 (-46) <= len4 m -> rval eps <= len4 m / 2 ->
  exists u, q64_NLERP eps (Some p) (Some q) (Some k) = Ok u /\ finite4 u /\ gap4 (val4 u) (times4 (/ len4 m) m) <= powerRZ 2 (-47) / len4 m /\ forall t, finite64 t -> powerRZ 2 (-50) <= rval t -> q64_isUnitary (Some u) (Some t) = Ok true.
Proof. exact c146_accurate. Qed.
Print Assumptions C146_accurate.

(** It turns vectors as the exact one within 2^-46 over the length of the mean. *)
Theorem C146_turn :
  forall r eps p q k tol v, finite4 p -> finite4 q -> / 2 <= len4 (val4 p) <= 2 -> / 2 <= len4 (val4 q) <= 2 -> finite64 k -> 0 <= rval k <= 1 -> finite64 eps ->
  let m := mix4 (rval k) (val4 p) (val4 q) in powerRZ 2 (-44) <= len4 m -> rval eps <= len4 m / 2 -> finite64 tol -> powerRZ 2 (-50) <= rval tol -> finite3 v -> norm3 (val3 v) <= powerRZ 2 440 ->
  exists u w, q64_NLERP eps (Some p) (Some q) (Some k) = Ok u /\ q64_rotateVector r (Some u) (Some v) (Some tol) = Ok w /\ finite3 w /\ dist3 (val3 w) (turned4 (times4 (/ len4 m) m) (val3 v)) <= powerRZ 2 (-46) / len4 m * norm3 (val3 v) + powerRZ 2 (-1069).
Proof. exact c146_turn. Qed.
Print Assumptions C146_turn.

(** For nearly unit quaternions less than a right angle apart it is always returned, within 2^-46. *)
Theorem C146_succeeds :
  forall eps p q k, finite4 p -> finite4 q -> Rabs (len4 (val4 p) - 1) <= / 100 -> Rabs (len4 (val4 q) - 1) <= / 100 -> 0 <= dot4 (val4 p) (val4 q) -> finite64 k -> 0 <= rval k <= 1 -> finite64 eps -> rval eps <= / 3 ->
  exists u, q64_NLERP eps (Some p) (Some q) (Some k) = Ok u /\ finite4 u /\ gap4 (val4 u) (times4 (/ len4 (mix4 (rval k) (val4 p) (val4 q))) (mix4 (rval k) (val4 p) (val4 q))) <= powerRZ 2 (-46).
Proof. exact c146_succeeds. Qed.
Print Assumptions C146_succeeds.

(** At the ends it is the quaternion given, normalized, within 2^-50. *)
Theorem C146_ends :
  forall eps p q k, finite4 p -> finite4 q -> / 2 <= len4 (val4 p) <= 2 -> / 2 <= len4 (val4 q) <= 2 -> finite64 k -> finite64 eps -> rval eps <= / 3 ->
  (rval k = 0 -> exists u, q64_NLERP eps (Some p) (Some q) (Some k) = Ok u /\ finite4 u /\ gap4 (val4 u) (times4 (/ len4 (val4 p)) (val4 p)) <= powerRZ 2 (-50)) /\
  (rval k = 1 -> exists u, q64_NLERP eps (Some p) (Some q) (Some k) = Ok u /\ finite4 u /\ gap4 (val4 u) (times4 (/ len4 (val4 q)) (val4 q)) <= powerRZ 2 (-50)).
Proof. exact c146_ends. Qed.
Print Assumptions C146_ends.

(** It is refused when the mean is shorter than the tolerance by 19 * 2^-53. *)
Theorem C146_refused :
  forall eps p q k, finite4 p -> finite4 q -> / 2 <= len4 (val4 p) <= 2 -> / 2 <= len4 (val4 q) <= 2 -> finite64 k -> 0 <= rval k <= 1 -> finite64 eps -> rval eps <= / 4 ->
  len4 (mix4 (rval k) (val4 p) (val4 q)) + 19 * powerRZ 2 (-53) <= rval eps -> q64_NLERP eps (Some p) (Some q) (Some k) = Err ERuntime.
Proof. exact c146_refused. Qed.
Print Assumptions C146_refused.

(** Half way between a quaternion and its opposite it is refused for every positive tolerance. *)
Theorem C146_antipodal :
  forall eps p, finite4 p -> within4 (powerRZ 2 450) p -> finite64 eps -> 0 < rval eps -> q64_NLERP eps (Some p) (Some (F4 (SFopp (q64x p)) (SFopp (q64y p)) (SFopp (q64z p)) (SFopp (q64s p)))) (Some (S754_finite false 4503599627370496 (-53))) = Err ERuntime.
Proof. exact c146_antipodal. Qed.
Print Assumptions C146_antipodal.

(** Undefined arguments, and ratios outside of 0 to 1. *)
Theorem C146_errors :
  forall eps p q k, q64_NLERP eps p q None = Err EUndefined /\
  (finite64 k -> rval k < 0 \/ 1 < rval k -> q64_NLERP eps p q (Some k) = Err ERuntime) /\
  (finite64 k -> 0 <= rval k <= 1 -> q64_NLERP eps None q (Some k) = Err EUndefined /\ q64_NLERP eps p None (Some k) = Err EUndefined).
Proof. exact c146_errors. Qed.
Print Assumptions C146_errors.

(** Half way from no rotation to the half turn around the third axis: a quarter turn.  And half way from a quaternion to its opposite. *)
Example C146_example : let eps := S754_finite false 4503599627370496 (-102) in let p := F4 zero64 zero64 zero64 (b64_of_Z 1) in let q := F4 zero64 zero64 (b64_of_Z 1) zero64 in let k := S754_finite false 4503599627370496 (-53) in
  finite4 p /\ finite4 q /\ len4 (val4 p) = 1 /\ len4 (val4 q) = 1 /\ dot4 (val4 p) (val4 q) = 0 /\ rval k = / 2 /\ finite64 eps /\ rval eps = powerRZ 2 (-50) /\
  q64_NLERP eps (Some p) (Some q) (Some k) = Ok (F4 zero64 zero64 (S754_finite false 6369051672525772 (-53)) (S754_finite false 6369051672525772 (-53))) /\
  q64_NLERP eps (Some p) (Some (F4 (S754_zero true) (S754_zero true) (S754_zero true) (b64_of_Z (-1)))) (Some k) = Err ERuntime.
Proof.
  intros eps p q k.
  assert (FE : finite64 eps) by exact (proj1 eps50). assert (VE : rval eps = powerRZ 2 (-50)) by exact (proj2 eps50).
  destruct one_val as [FO VO]. change one_64 with (b64_of_Z 1) in FO, VO.
  assert (VP : val4 p = Q4 0 0 0 1) by (unfold val4, p; cbn [q64x q64y q64z q64s]; rewrite VO; reflexivity). assert (VQ : val4 q = Q4 0 0 1 0) by (unfold val4, q; cbn [q64x q64y q64z q64s]; rewrite VO; reflexivity).
  split; [repeat split |]. split; [repeat split |]. split; [rewrite VP; unfold len4, sq; cbn [qx qy qz qs]; replace (0 * 0 + 0 * 0 + 0 * 0 + 1 * 1) with 1 by ring; apply sqrt_1 |]. split; [rewrite VQ; unfold len4, sq; cbn [qx qy qz qs]; replace (0 * 0 + 0 * 0 + 1 * 1 + 0 * 0) with 1 by ring; apply sqrt_1 |].
  split; [rewrite VP, VQ; unfold dot4; cbn [qx qy qz qs]; ring |]. split; [unfold k; rewrite rval_sg; cbn [sg]; rewrite P2_m by lia; change (2 ^ (- -53))%Z with 9007199254740992%Z; lra |]. split; [exact FE |]. split; [exact VE |]. split; vm_compute; reflexivity.
Qed.

(** *** C147: rotations from two pairs of vectors in double precision *)
(** The rotation from two pairs of vectors is returned when the tolerance is at least 2^-45 (1 / s + 1 / t), for s and t the sines of the angles between the vectors, and the vectors are neither short nor parallel compared with it. *)
Theorem C147_accepted :
  forall r eps u1 u2 v1 v2, (forall u, In u [u1; u2; v1; v2] -> finite3 u /\ within3 (powerRZ 2 450) u /\ 2 * rval eps <= norm3 (val3 u)) -> let s := sine (val3 u1) (val3 u2) in let t := sine (val3 v1) (val3 v2) in 0 < s -> 0 < t -> finite64 eps ->
  powerRZ 2 (-45) * (/ s + / t) <= rval eps <= / 4 -> rval eps <= s * s / 4 -> rval eps <= t * t / 4 -> exists m, VectorBasis64 r eps (Some u1) (Some u2) (Some v1) (Some v2) = Ok m.
Proof. exact c147_accepted. Qed.
Print Assumptions C147_accepted.

(** Whatever the tolerance, the matrix returned has the coefficients of a rotation that takes the first vector to the direction of the third and the half plane of the first two to that of the last two, within 2^-47 (1 / s + 1 / t). *)
Theorem C147_entries :
  forall r eps u1 u2 v1 v2 m, (forall u, In u [u1; u2; v1; v2] -> finite3 u /\ within3 (powerRZ 2 450) u /\ powerRZ 2 (-450) <= norm3 (val3 u)) -> let s := sine (val3 u1) (val3 u2) in let t := sine (val3 v1) (val3 v2) in powerRZ 2 (-30) <= s -> powerRZ 2 (-30) <= t ->
  VectorBasis64 r eps (Some u1) (Some u2) (Some v1) (Some v2) = Ok m -> finite33 m /\ exists M, is_rotation M /\ aligns M (val3 u1) (val3 u2) (val3 v1) (val3 v2) /\ entries_within (powerRZ 2 (-47) * (/ s + / t)) (val33 m) M.
Proof. exact c147_entries. Qed.
Print Assumptions C147_entries.

(** It turns vectors like that rotation, within 2^-45 (1 / s + 1 / t). *)
Theorem C147_turn :
  forall r eps u1 u2 v1 v2 m, (forall u, In u [u1; u2; v1; v2] -> finite3 u /\ within3 (powerRZ 2 450) u /\ powerRZ 2 (-450) <= norm3 (val3 u)) -> let s := sine (val3 u1) (val3 u2) in let t := sine (val3 v1) (val3 v2) in powerRZ 2 (-30) <= s -> powerRZ 2 (-30) <= t ->
  VectorBasis64 r eps (Some u1) (Some u2) (Some v1) (Some v2) = Ok m -> exists M, is_rotation M /\ aligns M (val3 u1) (val3 u2) (val3 v1) (val3 v2) /\ forall v, finite3 v -> norm3 (val3 v) <= powerRZ 2 440 ->
    exists w, rm64_mulv r (Some m) (Some v) = Ok w /\ finite3 w /\ dist3 (val3 w) (mulv3 M (val3 v)) <= powerRZ 2 (-45) * (/ s + / t) * norm3 (val3 v) + powerRZ 2 (-1071).
Proof. exact c147_turn. Qed.
Print Assumptions C147_turn.

(** It is refused when a vector is shorter than the tolerance, or the square of a sine is below the tolerance by 13 * 2^-53. *)
Theorem C147_refused :
  forall r eps u1 u2 v1 v2, (forall u, In u [u1; u2; v1; v2] -> finite3 u /\ within3 (powerRZ 2 450) u /\ powerRZ 2 (-450) <= norm3 (val3 u)) -> finite64 eps ->
  let s := sine (val3 u1) (val3 u2) in let t := sine (val3 v1) (val3 v2) in (exists u, In u [u1; u2; v1; v2] /\ (1 + powerRZ 2 (-51)) * norm3 (val3 u) < rval eps) \/ s * s + 13 * powerRZ 2 (-53) <= rval eps \/ t * t + 13 * powerRZ 2 (-53) <= rval eps ->
  VectorBasis64 r eps (Some u1) (Some u2) (Some v1) (Some v2) = Err ERuntime.
Proof. exact c147_refused. Qed.
Print Assumptions C147_refused.

(** It is refused for zero vectors. *)
Theorem C147_zero :
  forall r eps u1 u2 v1 v2, finite64 eps -> 0 < rval eps -> In (F3 zero64 zero64 zero64) [u1; u2; v1; v2] -> VectorBasis64 r eps (Some u1) (Some u2) (Some v1) (Some v2) = Err ERuntime.
Proof. exact c147_zero. Qed.
Print Assumptions C147_zero.

(** At tolerances up to 29 * 2^-53, among them the one of the library, it may be refused for vectors that are neither short nor parallel: the matrix built fails its own check. *)
Theorem C147_refuted :
  exists u1 u2 v1 v2, (forall u, In u [u1; u2; v1; v2] -> finite3 u /\ / 2 <= norm3 (val3 u) <= 2) /\ / 100 <= sine (val3 u1) (val3 u2) /\ / 100 <= sine (val3 v1) (val3 v2) /\
  forall r eps, finite64 eps -> rval eps <= 29 * powerRZ 2 (-53) -> VectorBasis64 r eps (Some u1) (Some u2) (Some v1) (Some v2) = Err ERuntime.
Proof. exact c147_refuted. Qed.
Print Assumptions C147_refuted.

(** Undefined vectors are errors. *)
Theorem C147_errors :
  forall r eps a b c d, (a = None \/ b = None \/ c = None \/ d = None) -> VectorBasis64 r eps a b c d = Err EUndefined.
Proof. exact c147_errors. Qed.
Print Assumptions C147_errors.

(** From (2, 0, 0) and (1, 3, 0) to (0, 1, 0) and (-5, 2, 0): a quarter turn.  And parallel vectors. *)
Example C147_example : let eps := S754_finite false 4503599627370496 (-96) in let u1 := axis64 2 0 0 in let u2 := axis64 0 3 0 in let v1 := axis64 0 1 0 in let v2 := axis64 (-5) 2 0 in
  (forall u, In u [u1; u2; v1; v2] -> finite3 u /\ within3 (powerRZ 2 450) u /\ 1 <= norm3 (val3 u)) /\ / 2 <= sine (val3 u1) (val3 u2) /\ / 2 <= sine (val3 v1) (val3 v2) /\ finite64 eps /\ rval eps = powerRZ 2 (-44) /\
  (exists m, VectorBasis64 FirstTwo eps (Some u1) (Some u2) (Some v1) (Some v2) = Ok m /\ rm64_mulv FirstTwo (Some m) (Some (axis64 1 2 3)) = Ok (axis64 (-2) 1 3)) /\
  VectorBasis64 FirstTwo eps (Some u1) (Some (axis64 (-3) 0 0)) (Some v1) (Some v2) = Err ERuntime.
Proof.
  intros eps u1 u2 v1 v2.
  assert (Z : forall n, (Z.abs n <= 2 ^ 53)%Z -> finite64 (b64_of_Z n) /\ rval (b64_of_Z n) = IZR n) by (intros n Hn; apply of_Z_val; exact Hn).
  assert (V : forall i j k, (Z.abs i <= 2 ^ 53)%Z -> (Z.abs j <= 2 ^ 53)%Z -> (Z.abs k <= 2 ^ 53)%Z -> finite3 (axis64 i j k) /\ val3 (axis64 i j k) = V3 (IZR i) (IZR j) (IZR k)) by (intros i j k Hi Hj Hk; destruct (Z i Hi), (Z j Hj), (Z k Hk); split; [repeat split; assumption | unfold val3, axis64; cbn [fx fy fz]; f_equal; assumption]).
  destruct (V 2 0 0)%Z as [F1 V1]; try lia. destruct (V 0 3 0)%Z as [F2 V2]; try lia. destruct (V 0 1 0)%Z as [F3' V3']; try lia. destruct (V (-5) 2 0)%Z as [F4' V4]; try lia. fold u1 in F1, V1. fold u2 in F2, V2. fold v1 in F3', V3'. fold v2 in F4', V4.
  assert (N : forall x, 1 <= sqnorm3 x -> 1 <= norm3 x) by (intros x Hx; unfold norm3; rewrite <- sqrt_1 at 1; apply sqrt_le_1_alt, Hx).
  assert (N1 : 1 <= norm3 (val3 u1)) by (apply N; rewrite V1; unfold sqnorm3, dot3; cbn [vx vy vz]; lra). assert (N2 : 1 <= norm3 (val3 u2)) by (apply N; rewrite V2; unfold sqnorm3, dot3; cbn [vx vy vz]; lra).
  assert (N3 : 1 <= norm3 (val3 v1)) by (apply N; rewrite V3'; unfold sqnorm3, dot3; cbn [vx vy vz]; lra). assert (N4 : 1 <= norm3 (val3 v2)) by (apply N; rewrite V4; unfold sqnorm3, dot3; cbn [vx vy vz]; lra).
  assert (P8 : 8 <= powerRZ 2 450) by (apply Rle_trans with (P2 3); [right; rewrite <- P2_Z by lia; reflexivity | apply P2_mono; lia]).
  assert (W : forall x i j k, val3 x = V3 (IZR i) (IZR j) (IZR k) -> (Z.abs i <= 8)%Z -> (Z.abs j <= 8)%Z -> (Z.abs k <= 8)%Z -> within3 (powerRZ 2 450) x).
  { intros x i j k E Hi Hj Hk. unfold val3 in E. injection E as E1 E2 E3. repeat split; [rewrite E1 | rewrite E2 | rewrite E3]; rewrite <- abs_IZR; (eapply Rle_trans; [apply IZR_le; eassumption | exact P8]). }
  split. { intros u I. cbn [In] in I. destruct I as [<- | [<- | [<- | [<- | []]]]]; (split; [assumption |]); split; try assumption; [apply (W _ 2 0 0)%Z | apply (W _ 0 3 0)%Z | apply (W _ 0 1 0)%Z | apply (W _ (-5) 2 0)%Z]; try assumption; lia. }
  split; [apply sine_ge; try lra; rewrite V1, V2; unfold cross3, sqnorm3, dot3; cbn [vx vy vz]; lra |]. split; [apply sine_ge; try lra; rewrite V3', V4; unfold cross3, sqnorm3, dot3; cbn [vx vy vz]; lra |].
  split; [vm_compute; reflexivity |]. split; [unfold eps; rewrite rval_sg; cbn [sg]; rewrite Rmult_1_l; replace 4503599627370496 with (P2 52) by (rewrite <- P2_Z by lia; reflexivity); exact (eq_sym (P2_add 52 (-96))) |].
  split; [eexists; split; [vm_compute; reflexivity |]; vm_compute; reflexivity | vm_compute; reflexivity].
Qed.

(** *** C148: rotation vectors of quaternions in double precision *)
(** The rotation vector of a unit quaternion has the direction of its vector part as axis, within 2^-49, and twice the arc cosine of its scalar part as angle, within twice the error of the arc cosine and 2^-49. *)
Theorem C148_accurate :
  forall facos r eps q e, finite4 q -> Rabs (len4 (val4 q) - 1) <= powerRZ 2 (-51) -> -1 < rval (q64s q) < 1 -> powerRZ 2 (-440) <= norm3 (vec (val4 q)) -> finite64 eps -> powerRZ 2 (-50) <= rval eps <= / 4 -> e <= 1 -> returns (facos (q64s q)) (acos (rval (q64s q))) e ->
  exists a t, rv64_of_quaternion facos r eps (Some q) = Ok (mkRV64 (Some a) (Some t)) /\ finite3 a /\ dist3 (val3 a) (direction (vec (val4 q))) <= powerRZ 2 (-49) /\ Rabs (norm3 (val3 a) - 1) <= powerRZ 2 (-51) /\ returns t (2 * acos (rval (q64s q))) (2 * e + powerRZ 2 (-49)).
Proof. exact c148_accurate. Qed.
Print Assumptions C148_accurate.

(** The rotation with this axis and this angle is that of the quaternion, within 2^-49 over the length of the vector part. *)
Theorem C148_rotation :
  forall q, finite4 q -> Rabs (len4 (val4 q) - 1) <= powerRZ 2 (-51) -> -1 < rval (q64s q) < 1 -> 0 < norm3 (vec (val4 q)) -> gap4 (polar 1 (direction (vec (val4 q))) (acos (rval (q64s q)))) (val4 q) <= powerRZ 2 (-49) / norm3 (vec (val4 q)).
Proof. exact c148_rotation. Qed.
Print Assumptions C148_rotation.

(** Built again from the rotation vector, the quaternion is the one given. *)
Theorem C148_round_trip :
  forall facos fcos fsin r eps q e, finite4 q -> Rabs (len4 (val4 q) - 1) <= powerRZ 2 (-51) -> -1 < rval (q64s q) < 1 -> powerRZ 2 (-440) <= norm3 (vec (val4 q)) -> finite64 eps -> powerRZ 2 (-50) <= rval eps <= / 4 -> e <= / 1000 ->
  returns (facos (q64s q)) (acos (rval (q64s q))) e -> (forall x, finite64 x -> returns (fcos x) (cos (rval x)) e /\ returns (fsin x) (sin (rval x)) e) ->
  exists v p, rv64_of_quaternion facos r eps (Some q) = Ok v /\ q64_of_rotvec fcos fsin eps v = Ok p /\ finite4 p /\ gap4 (val4 p) (val4 q) <= 6 * e + powerRZ 2 (-46) + powerRZ 2 (-49) / norm3 (vec (val4 q)).
Proof. exact c148_round_trip. Qed.
Print Assumptions C148_round_trip.

(** A quaternion with scalar part 1 or -1 gives the third axis and the angle 0. *)
Theorem C148_unit :
  forall facos r eps q, finite4 q -> Rabs (len4 (val4 q) - 1) <= powerRZ 2 (-51) -> Rabs (rval (q64s q)) = 1 -> finite64 eps -> powerRZ 2 (-50) <= rval eps -> rv64_of_quaternion facos r eps (Some q) = Ok (mkRV64 (Some (axis64 0 0 1)) (Some zero64)).
Proof. exact c148_unit. Qed.
Print Assumptions C148_unit.

(** But the correctly rounded quaternion of a rotation by more than 2^-26 has scalar part 1: the rotation is lost. *)
Theorem C148_lost_refuted :
  exists th q, powerRZ 2 (-26) <= th /\ finite4 q /\ gap4 (val4 q) (polar 1 (V3 1 0 0) (th / 2)) <= powerRZ 2 (-53) /\ forall facos r eps, finite64 eps -> powerRZ 2 (-50) <= rval eps -> rv64_of_quaternion facos r eps (Some q) = Ok (mkRV64 (Some (axis64 0 0 1)) (Some zero64)).
Proof. exact c148_lost_refuted. Qed.
Print Assumptions C148_lost_refuted.

(** A quaternion accepted as unitary may have a scalar part above 1: the square root and the arc cosine of it are not numbers. *)
Theorem C148_above_refuted :
  exists q, finite4 q /\ forall facos r eps, finite64 eps -> powerRZ 2 (-52) <= rval eps -> q64_isUnitary (Some q) (Some eps) = Ok true /\ rv64_of_quaternion facos r eps (Some q) = UB.
Proof. exact c148_above_refuted. Qed.
Print Assumptions C148_above_refuted.

(** Undefined quaternions, quaternions that are not unitary, and the tolerance 0. *)
Theorem C148_errors :
  forall facos r eps q, rv64_of_quaternion facos r eps None = Err EUndefined /\ (q64_isUnitary (Some q) (Some eps) = Ok false -> rv64_of_quaternion facos r eps (Some q) = Err ERuntime) /\ rv64_of_quaternion facos r zero64 (Some q) = Err EUndefined.
Proof. exact c148_errors. Qed.
Print Assumptions C148_errors.

(** A half turn around the third axis, with 3 / 2 for the arc cosine of 0, and the quaternion with scalar part 1. *)
Example C148_example : let eps := S754_finite false 4503599627370496 (-102) in let q := F4 zero64 zero64 (b64_of_Z 1) zero64 in let facos (_ : spec_float) := S754_finite false 6755399441055744 (-52) in
  finite4 q /\ len4 (val4 q) = 1 /\ -1 < rval (q64s q) < 1 /\ norm3 (vec (val4 q)) = 1 /\ finite64 eps /\ rval eps = powerRZ 2 (-50) /\ returns (facos (q64s q)) (acos (rval (q64s q))) (/ 2) /\
  rv64_of_quaternion facos FirstTwo eps (Some q) = Ok (mkRV64 (Some (axis64 0 0 1)) (Some (b64_of_Z 3))) /\
  rv64_of_quaternion facos FirstTwo eps (Some (F4 zero64 zero64 zero64 (b64_of_Z (-1)))) = Ok (mkRV64 (Some (axis64 0 0 1)) (Some zero64)).
Proof.
  intros eps q facos.
  assert (FE : finite64 eps) by exact (proj1 eps50). assert (VE : rval eps = powerRZ 2 (-50)) by exact (proj2 eps50).
  destruct one_val as [FO VO]. change one_64 with (b64_of_Z 1) in FO, VO.
  assert (VQ : val4 q = Q4 0 0 1 0) by (unfold val4, q; cbn [q64x q64y q64z q64s]; rewrite VO; reflexivity).
  split; [repeat split |]. split; [rewrite VQ; unfold len4, sq; cbn [qx qy qz qs]; replace (0 * 0 + 0 * 0 + 1 * 1 + 0 * 0) with 1 by ring; apply sqrt_1 |]. split; [change (rval (q64s q)) with 0; lra |].
  split; [rewrite VQ; unfold vec, norm3, sqnorm3, dot3; cbn [qx qy qz vx vy vz]; replace (0 * 0 + 0 * 0 + 1 * 1) with 1 by ring; apply sqrt_1 |]. split; [exact FE |]. split; [exact VE |].
  split. { split; [vm_compute; reflexivity |]. change (rval (q64s q)) with 0. rewrite acos_0. unfold facos. rewrite rval_sg. cbn [sg]. rewrite P2_m by lia. change (2 ^ (- -52))%Z with 4503599627370496%Z. pose proof PI2_3_2. pose proof PI_4. unfold PI2 in *. apply FloatProofs3.abs_of. lra. }
  split; vm_compute; reflexivity.
Qed.
