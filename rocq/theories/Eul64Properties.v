(** The properties of Euler angles read from rotations in double precision: C153. *)

From Coq Require Import List Bool Arith ZArith Reals Lra Lia Psatz Floats.SpecFloat.
From Verif Require Import Result Vec Mat3 AngleModel FloatModel FloatSpec FloatProofs FloatProofs2 FloatProofs3 Geo3Spec Geo64Model Geo64Spec RotModel RotSpec Rot64Model Rot64Spec Rot64Spec2 FloatProofs4 FloatProofs5 Rot64Proofs7 Rot64Proofs17
  Att64Model Att64Spec Att64Proofs6 Pow64Spec Pow64Proofs3 Pow64Proofs5 Pow64Proofs6 Dif64Proofs3 Eul64Model Eul64Spec Eul64Proofs3 Eul64Proofs4.
Import ListNotations.
Local Open Scope R_scope.

(** *** C153: Euler angles of quaternions, matrices and rotation vectors in double precision *)
(** Angles read from a matrix whose coefficients are within d of those of a rotation name, in the sequence asked for, that rotation, within an error that grows like d divided by h, the cosine of the middle angle; h*h is to be at least 4*d. *)
Theorem C153_matrix :
  forall fatan2 fasin e s M m d, atan2_within fatan2 e -> asin_within fasin e -> e <= / 1000 -> s <> SeqUndefined -> is_rotation M -> finite33 m -> entries_within d (val33 m) M -> let h := middle_cosine s (mulv3 M) in 0 < h -> 4 * d <= h * h ->
  exists f t p, e64_of_matrix fatan2 fasin (Some m) s = Ok (mkE64 (Some f) (Some t) (Some p) ZYX) /\ finite64 f /\ finite64 t /\ finite64 p /\ entries_within (5 * (e + 6 * d / h + powerRZ 2 (-49))) (matrix_of (named_sequence s (rval f) (rval t) (rval p))) M.
Proof. exact c153_matrix. Qed.
Print Assumptions C153_matrix.

(** The same from a quaternion accepted as unitary, for the sequence ZYX; only gimbal lock (h*h below 2^-46 and 5 times the error of the length) is left out. *)
Theorem C153_quaternion :
  forall fatan2 fasin r eps q e d, atan2_within fatan2 e -> asin_within fasin e -> e <= / 1000 -> finite4 q -> Rabs (len4 (val4 q) - 1) <= d -> d <= / 1000 -> q64_isUnitary (Some q) (Some eps) = Ok true ->
  let f := turned4 (versor (val4 q)) in let h := middle_cosine ZYX f in 0 < h -> 5 * d + powerRZ 2 (-46) <= h * h ->
  exists a b c, e64_of_quaternion fatan2 fasin r eps (Some q) ZYX = Ok (mkE64 (Some a) (Some b) (Some c) ZYX) /\ finite64 a /\ finite64 b /\ finite64 c /\ entries_within (5 * (e + (5 * d + powerRZ 2 (-46)) / h)) (matrix_of (named_sequence ZYX (rval a) (rval b) (rval c))) (matrix_of f).
Proof. exact c153_quaternion. Qed.
Print Assumptions C153_quaternion.

(** The other two sequences, which go through the matrix. *)
Theorem C153_quaternion_other :
  forall fatan2 fasin r eps q s e d, atan2_within fatan2 e -> asin_within fasin e -> e <= / 1000 -> finite4 q -> Rabs (len4 (val4 q) - 1) <= d -> d <= powerRZ 2 (-26) -> finite64 eps -> 2 * d + powerRZ 2 (-48) <= rval eps <= / 4 -> s = XYZ \/ s = ZXY ->
  let f := turned4 (versor (val4 q)) in let h := middle_cosine s f in 0 < h -> 5 * d + powerRZ 2 (-46) <= h * h ->
  exists a b c, e64_of_quaternion fatan2 fasin r eps (Some q) s = Ok (mkE64 (Some a) (Some b) (Some c) ZYX) /\ finite64 a /\ finite64 b /\ finite64 c /\ entries_within (5 * (e + (5 * d + powerRZ 2 (-46)) / h)) (matrix_of (named_sequence s (rval a) (rval b) (rval c))) (matrix_of f).
Proof. exact c153_quaternion_other. Qed.
Print Assumptions C153_quaternion_other.

(** The same from a rotation vector: the rotation around its axis by the exact angle. *)
Theorem C153_rotvec :
  forall fcos fsin fasin fatan2 r eps u t th e e', atan2_within fatan2 e -> asin_within fasin e -> e <= / 1000 -> finite3 u -> Rabs (norm3 (val3 u) - 1) <= powerRZ 2 (-50) -> finite64 eps -> powerRZ 2 (-50) <= rval eps <= / 2 ->
  returns (fcos (b64_div t two_64)) (cos (th / 2)) e' -> returns (fsin (b64_div t two_64)) (sin (th / 2)) e' -> e' <= / 4000 ->
  let f := turned4 (polar 1 (direction (val3 u)) (th / 2)) in let h := middle_cosine ZYX f in 0 < h -> 150 * e' + powerRZ 2 (-42) <= h * h ->
  exists a b c, e64_of_rotvec fcos fsin fasin fatan2 r eps (mkRV64 (Some u) (Some t)) ZYX = Ok (mkE64 (Some a) (Some b) (Some c) ZYX) /\ finite64 a /\ finite64 b /\ finite64 c /\ entries_within (5 * (e + (21 * e' + powerRZ 2 (-44)) / h)) (matrix_of (named_sequence ZYX (rval a) (rval b) (rval c))) (matrix_of f).
Proof. exact c153_rotvec. Qed.
Print Assumptions C153_rotvec.

(** The quaternion of the angles read from a quaternion turns vectors like it did. *)
Theorem C153_round_trip :
  forall fcos fsin fasin fatan2 r eps q e d e', atan2_within fatan2 e -> asin_within fasin e -> e <= / 1000 -> finite4 q -> Rabs (len4 (val4 q) - 1) <= d -> d <= / 1000 -> q64_isUnitary (Some q) (Some eps) = Ok true ->
  (forall x, finite64 x -> trig_at fcos fsin (b64_div x two_64) (rval x / 2) e') -> e' <= / 10000 -> finite64 eps -> rval eps <= / 2 ->
  let f := turned4 (versor (val4 q)) in let h := middle_cosine ZYX f in 0 < h -> 5 * d + powerRZ 2 (-46) <= h * h ->
  exists E p, e64_of_quaternion fatan2 fasin r eps (Some q) ZYX = Ok E /\ q64_of_euler fcos fsin eps E = Ok p /\ finite4 p /\ (forall tol, finite64 tol -> powerRZ 2 (-50) <= rval tol -> q64_isUnitary (Some p) (Some tol) = Ok true) /\ entries_within (5 * (e + (5 * d + powerRZ 2 (-46)) / h) + 51 * e' + powerRZ 2 (-46)) (matrix_of (turned4 (val4 p))) (matrix_of f).
Proof. exact c153_round_trip. Qed.
Print Assumptions C153_round_trip.

(** The first angle is never negative and not above the double PI, if std::atan2 keeps to its range. *)
Theorem C153_first :
  forall fcos fsin fasin fatan2 r eps m q v s E, (forall y x, finite64 (fatan2 y x) /\ Rabs (rval (fatan2 y x)) <= rval pi64) -> e64_of_matrix fatan2 fasin m s = Ok E \/ e64_of_quaternion fatan2 fasin r eps q s = Ok E \/ e64_of_rotvec fcos fsin fasin fatan2 r eps v s = Ok E ->
  exists f, e64_phi E = Some f /\ finite64 f /\ 0 <= rval f <= rval pi64.
Proof. exact c153_first. Qed.
Print Assumptions C153_first.

(** The result is labelled ZYX, whatever the sequence asked for. *)
Theorem C153_label :
  forall fcos fsin fasin fatan2 r eps m q v s E, e64_of_matrix fatan2 fasin m s = Ok E \/ e64_of_quaternion fatan2 fasin r eps q s = Ok E \/ e64_of_rotvec fcos fsin fasin fatan2 r eps v s = Ok E -> e64_seq E = ZYX.
Proof. exact c153_label. Qed.
Print Assumptions C153_label.

(** So the angles need not name the rotation under their own label: a quarter turn around x, read in the sequence XYZ. *)
Theorem C153_label_refuted :
  exists M m, is_rotation M /\ finite33 m /\ val33 m = M /\ forall fatan2 fasin e, atan2_within fatan2 e -> asin_within fasin e -> e <= / 1000 ->
  exists a b c, e64_of_matrix fatan2 fasin (Some m) XYZ = Ok (mkE64 (Some a) (Some b) (Some c) ZYX) /\ entries_within (6 * e + powerRZ 2 (-40)) (matrix_of (named_sequence XYZ (rval a) (rval b) (rval c))) M /\ ~ entries_within (/ 2) (matrix_of (named_sequence ZYX (rval a) (rval b) (rval c))) M.
Proof. exact c153_label_refuted. Qed.
Print Assumptions C153_label_refuted.

(** In gimbal lock a quaternion accepted as unitary can have no angles: the argument of std::asin is above 1, and the middle angle undefined. *)
Theorem C153_gimbal_refuted :
  exists q, finite4 q /\ Rabs (len4 (val4 q) - 1) <= powerRZ 2 (-52) /\ forall fatan2 fasin r eps, asin_outside fasin -> finite64 eps -> 0 < rval eps ->
  q64_isUnitary (Some q) (Some eps) = Ok true /\ exists E, e64_of_quaternion fatan2 fasin r eps (Some q) ZYX = Ok E /\ e64_get E = Err EUndefined.
Proof. exact c153_gimbal_refuted. Qed.
Print Assumptions C153_gimbal_refuted.

(** Undefined quaternions, matrices and rotation vectors, and quaternions that are not unitary, are errors; so are undefined sequences. *)
Theorem C153_errors :
  forall fcos fsin fasin fatan2 r eps m q v s, e64_of_matrix fatan2 fasin None s = Err EUndefined /\ e64_of_matrix fatan2 fasin (Some m) SeqUndefined = Err EToBeImplemented /\ e64_of_quaternion fatan2 fasin r eps None s = Err EUndefined /\
  (q64_isUnitary (Some q) (Some eps) = Ok false -> e64_of_quaternion fatan2 fasin r eps (Some q) s = Err ERuntime) /\ (rm64_of_quaternion r eps (Some q) = Ok m -> e64_of_quaternion fatan2 fasin r eps (Some q) SeqUndefined = Err EToBeImplemented) /\
  e64_of_rotvec fcos fsin fasin fatan2 r eps (mkRV64 None v) s = Err EUndefined /\ e64_of_rotvec fcos fsin fasin fatan2 r eps (mkRV64 (Some (c64_0 m)) None) s = Err EUndefined.
Proof. exact c153_errors. Qed.
Print Assumptions C153_errors.

(** Functions with error 2^-29 exist, and with them the angles of half a turn name it. *)
Example C153_example : let eps := S754_finite false 4503599627370496 (-102) in let f := turned4 (versor (val4 half_turn)) in
  atan2_within atan2_grid (powerRZ 2 (-29)) /\ asin_within asin_grid (powerRZ 2 (-29)) /\ asin_outside asin_grid /\ powerRZ 2 (-29) <= / 1000 /\ finite4 half_turn /\ len4 (val4 half_turn) = 1 /\ q64_isUnitary (Some half_turn) (Some eps) = Ok true /\ middle_cosine ZYX f = 1 /\ (forall x, finite64 x -> trig_at cos_half sin_half (b64_div x two_64) (rval x / 2) (powerRZ 2 (-28))) /\
  exists a b c, e64_of_quaternion atan2_grid asin_grid FirstTwo eps (Some half_turn) ZYX = Ok (mkE64 (Some a) (Some b) (Some c) ZYX) /\ entries_within (/ 10000000) (matrix_of (named_sequence ZYX (rval a) (rval b) (rval c))) (matrix_of f).
Proof.
  intros eps f. destruct half_turn_val as (F & V & Lq & Nz & Nv). destruct eps50 as [FE VE]. fold eps in FE, VE. pose proof atan2_grid_within as HA. destruct asin_grid_within as [HI HO]. assert (P29 : powerRZ 2 (-29) <= / 100000000) by (rewrite P2_m by lia; apply Rinv_le_contravar; [lra | apply IZR_le; lia]).
  assert (U2 : q64_isUnitary (Some half_turn) (Some eps) = Ok true) by (apply exact_unitary; [vm_compute; reflexivity | exact FE | rewrite VE; apply P2_pos]).
  assert (H1 : middle_cosine ZYX f = 1). { unfold middle_cosine, middle_sine, f, versor. rewrite Lq, V. unfold turned4, times4, hamilton, bar4, polar. cbn [qx qy qz qs vx vy vz]. rewrite cos_PI2, sin_PI2. match goal with |- sqrt ?x = _ => replace x with 1 by field end. apply sqrt_1. }
  split; [exact HA |]. split; [exact HI |]. split; [exact HO |]. split; [lra |]. split; [exact F |]. split; [exact Lq |]. split; [exact U2 |]. split; [exact H1 |]. split; [exact half_within |].
  destruct (C153_quaternion atan2_grid asin_grid FirstTwo eps half_turn (powerRZ 2 (-29)) 0 HA HI ltac:(lra) F) as (a & b & c & HQ & _ & _ & _ & R); [rewrite Lq, Rminus_diag_eq, Rabs_R0 by reflexivity; lra | lra | exact U2 | fold f; lra | fold f; rewrite H1; assert (powerRZ 2 (-46) <= / 2) by (rewrite P2_m by lia; apply Rinv_le_contravar; [lra | apply IZR_le; lia]); lra |].
  exists a, b, c. split; [exact HQ |]. fold f in R. rewrite H1 in R. assert (P46 : powerRZ 2 (-46) <= / 1000000000) by (rewrite P2_m by lia; apply Rinv_le_contravar; [lra | apply IZR_le; lia]). eapply entries_mono; [| exact R]. unfold Rdiv. rewrite Rinv_1. lra.
Qed.
