(** The properties of rotation vectors read from matrices, and rectified, in double precision: C154. *)

From Coq Require Import List Bool Arith ZArith Reals Lra Lia Psatz Floats.SpecFloat.
From Verif Require Import Result Vec Mat3 AngleModel FloatModel FloatSpec FloatProofs FloatProofs2 FloatProofs3 FloatProofs4 Geo3Spec Geo64Model Geo64Spec RotModel RotSpec Rot64Model Rot64Spec Rot64Spec2
  Att64Model Att64Spec Att64Proofs6 Pow64Proofs6 Dif64Spec Eul64Model Rvm64Model Rvm64Spec Rvm64Proofs Rvm64Proofs2.
Import ListNotations.
Local Open Scope R_scope.

(** *** C154: Rotation vectors read from matrices, and rectified, in double precision *)
(** A matrix whose coefficients are within dl of those of the rotation by th around d gives d and th, within errors that grow like dl divided by the sine of th. *)
Theorem C154_matrix :
  forall facos r eps m d th e dl, acos_within facos e -> norm3 d = 1 -> 0 < th < PI -> 0 <= e <= sin th / 4 -> finite33 m -> 0 <= dl <= / 1000 -> 16 * dl + powerRZ 2 (-46) <= sin th * sin th -> entries_within dl (val33 m) (matrix_of (frame_rotation d th)) -> finite64 eps -> powerRZ 2 (-50) <= rval eps <= powerRZ 2 (-26) ->
  exists a t, rv64_of_matrix facos r eps (Some m) = Ok (mkRV64 (Some a) (Some t)) /\ finite3 a /\ dist3 (val3 a) d <= (4 * dl + powerRZ 2 (-49)) / sin th /\ Rabs (norm3 (val3 a) - 1) <= powerRZ 2 (-51) /\ returns t th (e + (10 * dl + powerRZ 2 (-47)) / sin th).
Proof. exact c154_matrix. Qed.
Print Assumptions C154_matrix.

(** A rotation vector with an angle from 0 to half a turn is already rectified. *)
Theorem C154_kept :
  forall a t, finite64 t -> 0 <= rval t <= rval pi64 -> rv64_rectify (mkRV64 (Some a) (Some t)) = Ok (mkRV64 (Some a) (Some t)).
Proof. exact c154_kept. Qed.
Print Assumptions C154_kept.

(** Up to a turn either way, the rectified vector has an angle from 0 to half a turn, stands for the same rotation up to 2^-48, and is not changed by rectifying again. *)
Theorem C154_rectify :
  forall a t, finite3 a -> norm3 (val3 a) <= 1.001 -> finite64 t -> Rabs (rval t) <= rval two_pi64 ->
  exists b u, rv64_rectify (mkRV64 (Some a) (Some t)) = Ok (mkRV64 (Some b) (Some u)) /\ rv64_rectify (mkRV64 (Some b) (Some u)) = Ok (mkRV64 (Some b) (Some u)) /\
    finite3 b /\ (val3 b = val3 a \/ val3 b = opp3 (val3 a)) /\ finite64 u /\ 0 <= rval u <= rval pi64 /\
    forall v, dist3 (frame_rotation (val3 b) (rval u) v) (frame_rotation (val3 a) (rval t) v) <= powerRZ 2 (-48) * norm3 v.
Proof. exact c154_rectify. Qed.
Print Assumptions C154_rectify.

(** Beyond a turn the angle can come out negative: 7 radians. *)
Theorem C154_rectify_refuted :
  exists a t u, finite3 a /\ norm3 (val3 a) = 1 /\ finite64 t /\ 6 <= rval t <= 7 /\ rv64_rectify (mkRV64 (Some a) (Some t)) = Ok (mkRV64 (Some (Geo64Model.fopp3 a)) (Some u)) /\ finite64 u /\ rval u < 0.
Proof. exact c154_rectify_refuted. Qed.
Print Assumptions C154_rectify_refuted.

(** The matrix of half a turn, exact and accepted, has no rotation vector: its antisymmetric part is zero. *)
Theorem C154_half_refuted :
  exists m, finite33 m /\ val33 m = matrix_of (frame_rotation (V3 0 0 1) PI) /\ forall facos r eps e, acos_within facos e -> e <= 1 -> finite64 eps -> 0 <= rval eps <= / 2 -> RotationMatrix64 r eps m = Ok m /\ rv64_of_matrix facos r eps (Some m) = Err ERuntime.
Proof. exact c154_half_refuted. Qed.
Print Assumptions C154_half_refuted.

(** A matrix accepted as a rotation can have a trace above 3, whose arc cosine is not a number. *)
Theorem C154_above_refuted :
  exists eps m, finite64 eps /\ rval eps = powerRZ 2 (-50) /\ finite33 m /\ forall facos r, acos_outside facos -> RotationMatrix64 r eps m = Ok m /\ rv64_of_matrix facos r eps (Some m) = Err EUndefined.
Proof. exact c154_above_refuted. Qed.
Print Assumptions C154_above_refuted.

(** A rotation by at least 2^-27, given by a matrix exact up to 2^-54, is read as no rotation at all. *)
Theorem C154_lost_refuted :
  exists th m, powerRZ 2 (-27) <= th /\ finite33 m /\ entries_within (powerRZ 2 (-54)) (val33 m) (matrix_of (frame_rotation (V3 0 0 1) th)) /\
  forall facos r eps e, acos_within facos e -> rval (facos one_64) = 0 -> finite64 eps -> powerRZ 2 (-50) <= rval eps <= / 4 -> exists t, rv64_of_matrix facos r eps (Some m) = Ok (mkRV64 (Some (axis64 1 0 0)) (Some t)) /\ rval t = 0.
Proof. exact c154_lost_refuted. Qed.
Print Assumptions C154_lost_refuted.

(** Undefined matrices and rotation vectors are errors. *)
Theorem C154_errors :
  forall facos r eps a t, rv64_of_matrix facos r eps None = Err EUndefined /\ rv64_rectify (mkRV64 None t) = Err EUndefined /\ rv64_rectify (mkRV64 a None) = Err EUndefined.
Proof. exact c154_errors. Qed.
Print Assumptions C154_errors.

(** A function with error 2^-29 exists, and with it the matrix of a quarter turn gives back axis and angle. *)
Example C154_example : let eps := S754_finite false 4503599627370496 (-102) in
  acos_within acos_grid (powerRZ 2 (-29)) /\ acos_outside acos_grid /\ rval (acos_grid one_64) = 0 /\ norm3 (V3 0 0 1) = 1 /\ 0 < PI / 2 < PI /\ sin (PI / 2) = 1 /\ finite33 quarter64_matrix /\ entries_within 0 (val33 quarter64_matrix) (matrix_of (frame_rotation (V3 0 0 1) (PI / 2))) /\
  exists a t, rv64_of_matrix acos_grid FirstTwo eps (Some quarter64_matrix) = Ok (mkRV64 (Some a) (Some t)) /\ dist3 (val3 a) (V3 0 0 1) <= / 100000000 /\ Rabs (rval t - PI / 2) <= / 100000000 /\
  rv64_rectify (mkRV64 (Some a) (Some (b64_of_Z (-5)))) = Ok (mkRV64 (Some a) (Some (sf_sub two_pi64 (b64_of_Z 5)))).
Proof.
  intros eps. destruct acos_grid_within as (HC & HO & HZ). destruct eps50 as [FE VE]. fold eps in FE, VE. destruct quarter_matrix as [FQ VQ]. destruct half_turn_val as (_ & _ & _ & NZ & _). pose proof PI_RGT_0 as PP.
  assert (H0 : entries_within 0 (val33 quarter64_matrix) (matrix_of (frame_rotation (V3 0 0 1) (PI / 2)))) by (rewrite VQ; intros i Hi; rewrite !Rminus_diag_eq by reflexivity; rewrite Rabs_R0; lra).
  assert (P29 : powerRZ 2 (-29) <= / 500000000) by (rewrite P2_m by lia; apply Rinv_le_contravar; [lra | apply IZR_le; lia]). assert (P0 : 0 < powerRZ 2 (-29)) by apply P2_pos.
  assert (P46 : powerRZ 2 (-46) <= / 1000000000) by (rewrite P2_m by lia; apply Rinv_le_contravar; [lra | apply IZR_le; lia]). assert (P47 : powerRZ 2 (-47) <= / 1000000000) by (rewrite P2_m by lia; apply Rinv_le_contravar; [lra | apply IZR_le; lia]). assert (P49 : powerRZ 2 (-49) <= / 1000000000) by (rewrite P2_m by lia; apply Rinv_le_contravar; [lra | apply IZR_le; lia]).
  split; [exact HC |]. split; [exact HO |]. split; [exact HZ |]. split; [exact NZ |]. split; [lra |]. split; [exact sin_PI2 |]. split; [exact FQ |]. split; [exact H0 |].
  destruct (C154_matrix acos_grid FirstTwo eps quarter64_matrix (V3 0 0 1) (PI / 2) (powerRZ 2 (-29)) 0 HC NZ ltac:(lra) ltac:(rewrite sin_PI2; lra) FQ ltac:(lra) ltac:(rewrite sin_PI2; lra) H0 FE) as (a & t & E & Fa & Da & La & Ft & Et); [rewrite VE; split; [apply Rle_refl | apply P2_mono; lia] |].
  assert (D1 : forall x, x / 1 = x) by (intros; field). rewrite sin_PI2, D1 in Da. rewrite sin_PI2, D1 in Et. exists a, t. split; [exact E |]. split; [lra |]. split; [lra |].
  replace (mkRV64 (Some a) (Some (sf_sub two_pi64 (b64_of_Z 5)))) with (mkRV64 (Some (Geo64Model.fopp3 (Geo64Model.fopp3 a))) (Some (sf_sub two_pi64 (b64_of_Z 5)))) by (rewrite opp_opp; reflexivity). unfold rv64_rectify, rv64_get. cbn [rv64_axis rv64_angle bind].
  replace (SFltb (b64_of_Z (-5)) zero64) with true by (vm_compute; reflexivity). replace (SFltb pi64 (SFopp (b64_of_Z (-5)))) with true by (vm_compute; reflexivity). replace (radians64 (sf_sub two_pi64 (SFopp (b64_of_Z (-5))))) with (Some (sf_sub two_pi64 (b64_of_Z 5))) by (vm_compute; reflexivity). reflexivity.
Qed.
