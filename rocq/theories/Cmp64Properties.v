(** The properties of the comparison of rotation vectors and of Euler angles in double precision: C155. *)

From Coq Require Import List Bool Arith ZArith Reals Lra Lia Psatz Floats.SpecFloat.
From Verif Require Import Result Vec Mat3 AngleModel AngleSpec FloatModel FloatSpec FloatProofs FloatProofs2 FloatProofs3 FloatProofs4 Geo3Spec Geo64Model Geo64Spec RotModel RotSpec Rot64Model Rot64Spec Rot64Spec2
  Att64Model Att64Spec Att64Proofs6 Rot64Proofs7 Eul64Model Rvm64Model Cmp64Model Cmp64Proofs.
Import ListNotations.
Local Open Scope R_scope.

(** *** C155: Comparison of rotation vectors and of Euler angles in double precision *)
(** Rotation vectors that compare equal stand for the same rotation, up to 2^-41 times the square of the largest angle. *)
Theorem C155_sound :
  forall fuel a b t u B, finite3 a -> finite3 b -> norm3 (val3 a) <= 1.001 -> finite64 t -> finite64 u -> 1 <= B <= powerRZ 2 20 -> Rabs (rval t) <= B -> Rabs (rval u) <= B -> rv64_eq fuel (mkRV64 (Some a) (Some t)) (mkRV64 (Some b) (Some u)) = Ok true ->
  forall v, dist3 (frame_rotation (val3 a) (rval t) v) (frame_rotation (val3 b) (rval u) v) <= B * B * powerRZ 2 (-41) * norm3 v.
Proof. exact c155_sound. Qed.
Print Assumptions C155_sound.

(** A rotation vector equals itself, for angles up to 2^52 radians. *)
Theorem C155_reflexive :
  forall a t, finite3 a -> finite64 t -> Rabs (rval t) <= IZR (2 ^ 52) -> AngleSpec.returns (fun fuel => rv64_eq fuel (mkRV64 (Some a) (Some t)) (mkRV64 (Some a) (Some t))) true.
Proof. exact c155_reflexive. Qed.
Print Assumptions C155_reflexive.

(** It equals the one with opposite axis and opposite angle. *)
Theorem C155_opposite :
  forall a t, finite3 a -> 0 < norm3 (val3 a) -> finite64 t -> Rabs (rval t) <= IZR (2 ^ 52) -> AngleSpec.returns (fun fuel => rv64_eq fuel (mkRV64 (Some a) (Some t)) (mkRV64 (Some (Geo64Model.fopp3 a)) (Some (SFopp t)))) true.
Proof. exact c155_opposite. Qed.
Print Assumptions C155_opposite.

(** Any two rotation vectors of zero angle are equal. *)
Theorem C155_zero :
  forall fuel a b t u, rval t = 0 -> rval u = 0 -> finite64 t -> finite64 u -> rv64_eq fuel (mkRV64 (Some a) (Some t)) (mkRV64 (Some b) (Some u)) = Ok true.
Proof. exact c155_zero. Qed.
Print Assumptions C155_zero.

(** Unless both angles are zero, vectors of different and not opposite axes are different. *)
Theorem C155_axes :
  forall fuel a b t u, finite3 a -> finite3 b -> finite64 t -> finite64 u -> val3 a <> val3 b -> val3 a <> opp3 (val3 b) -> rval t <> 0 \/ rval u <> 0 -> rv64_eq fuel (mkRV64 (Some a) (Some t)) (mkRV64 (Some b) (Some u)) = Ok false.
Proof. exact c155_axes. Qed.
Print Assumptions C155_axes.

(** A rotation vector need not equal its rectified form, although the rectified form equals it: 3.3 radians. The comparison is not symmetric. *)
Theorem C155_rectified_refuted :
  exists a t w, finite3 a /\ norm3 (val3 a) = 1 /\ finite64 t /\ rval pi64 < rval t <= rval two_pi64 /\ rv64_rectify (mkRV64 (Some a) (Some t)) = Ok w /\
  AngleSpec.returns (fun fuel => rv64_eq fuel (mkRV64 (Some a) (Some t)) w) false /\ AngleSpec.returns (fun fuel => rv64_eq fuel w (mkRV64 (Some a) (Some t))) true.
Proof. exact c155_rectified_refuted. Qed.
Print Assumptions C155_rectified_refuted.

(** A whole turn and no rotation, up to rounding the same, are different when the axes differ. *)
Theorem C155_turn_refuted :
  exists a b t u, finite3 a /\ finite3 b /\ norm3 (val3 a) = 1 /\ norm3 (val3 b) = 1 /\ finite64 t /\ finite64 u /\ (forall v, dist3 (frame_rotation (val3 a) (rval t) v) (frame_rotation (val3 b) (rval u) v) <= powerRZ 2 (-48) * norm3 v) /\ forall fuel, rv64_eq fuel (mkRV64 (Some a) (Some t)) (mkRV64 (Some b) (Some u)) = Ok false.
Proof. exact c155_turn_refuted. Qed.
Print Assumptions C155_turn_refuted.

(** Euler angles that compare equal have the same sequence of axes and stand for the same rotation, up to 2^-35 times the square of the largest angle. *)
Theorem C155_euler_sound :
  forall fuel x y z s x' y' z' s' B, finite64 x -> finite64 y -> finite64 z -> finite64 x' -> finite64 y' -> finite64 z' -> 1 <= B <= powerRZ 2 18 -> Rabs (rval x) <= B -> Rabs (rval y) <= B -> Rabs (rval z) <= B -> Rabs (rval x') <= B -> Rabs (rval y') <= B -> Rabs (rval z') <= B ->
  e64_eq fuel (mkE64 (Some x) (Some y) (Some z) s) (mkE64 (Some x') (Some y') (Some z') s') = Ok true ->
  s = s' /\ entries_within (B * B * powerRZ 2 (-35)) (matrix_of (named_sequence s (rval x) (rval y) (rval z))) (matrix_of (named_sequence s' (rval x') (rval y') (rval z'))).
Proof. exact c155_euler_sound. Qed.
Print Assumptions C155_euler_sound.

(** Euler angles equal themselves. *)
Theorem C155_euler_reflexive :
  forall x y z s, s <> SeqUndefined -> finite64 x -> finite64 y -> finite64 z -> Rabs (rval x) <= IZR (2 ^ 52) -> Rabs (rval y) <= IZR (2 ^ 52) -> Rabs (rval z) <= IZR (2 ^ 52) ->
  AngleSpec.returns (fun fuel => e64_eq fuel (mkE64 (Some x) (Some y) (Some z) s) (mkE64 (Some x) (Some y) (Some z) s)) true.
Proof. exact c155_euler_reflexive. Qed.
Print Assumptions C155_euler_reflexive.

(** They equal the other triple of angles of the same rotation. *)
Theorem C155_euler_flipped :
  forall x y z s, s <> SeqUndefined -> finite64 x -> finite64 y -> finite64 z -> Rabs (rval x) <= IZR (2 ^ 20) -> Rabs (rval y) <= IZR (2 ^ 20) -> Rabs (rval z) <= IZR (2 ^ 20) ->
  AngleSpec.returns (fun fuel => e64_eq fuel (mkE64 (Some x) (Some y) (Some z) s) (mkE64 (Some (sf_add x pi64)) (Some (sf_sub pi64 y)) (Some (sf_add z pi64)) s)) true.
Proof. exact c155_euler_flipped. Qed.
Print Assumptions C155_euler_flipped.

(** Euler angles of different sequences of axes are different. *)
Theorem C155_euler_other :
  forall fuel d e, e64_seq d <> e64_seq e -> e64_eq fuel d e = Ok false.
Proof. exact c155_euler_other. Qed.
Print Assumptions C155_euler_other.

(** The comparison is not symmetric: 0.1 radians and a turn more. *)
Theorem C155_euler_symmetric_refuted :
  exists x x', finite64 x /\ finite64 x' /\ let e := mkE64 (Some x) (Some zero64) (Some zero64) ZYX in let e' := mkE64 (Some x') (Some zero64) (Some zero64) ZYX in
  AngleSpec.returns (fun fuel => e64_eq fuel e e') false /\ AngleSpec.returns (fun fuel => e64_eq fuel e' e) true.
Proof. exact c155_euler_symmetric_refuted. Qed.
Print Assumptions C155_euler_symmetric_refuted.

(** isUnitary says whether the three angles are zero. *)
Theorem C155_unit :
  forall x y z s, finite64 x -> finite64 y -> finite64 z -> exists b, e64_isUnitary (mkE64 (Some x) (Some y) (Some z) s) = Ok b /\ (b = true <-> rval x = 0 /\ rval y = 0 /\ rval z = 0).
Proof. exact c155_unit. Qed.
Print Assumptions C155_unit.

(** When it holds nothing is rotated. *)
Theorem C155_unit_map :
  forall x y z s, finite64 x -> finite64 y -> finite64 z -> e64_isUnitary (mkE64 (Some x) (Some y) (Some z) s) = Ok true -> forall v, named_sequence s (rval x) (rval y) (rval z) v = v.
Proof. exact c155_unit_map. Qed.
Print Assumptions C155_unit_map.

(** A first angle that is not zero decides, even when the others are undefined. *)
Theorem C155_unit_short :
  forall x y z s, finite64 x -> rval x <> 0 -> e64_isUnitary (mkE64 (Some x) y z s) = Ok false.
Proof. exact c155_unit_short. Qed.
Print Assumptions C155_unit_short.

(** Three half turns rotate nothing, up to rounding, and are not unitary. *)
Theorem C155_unit_refuted :
  exists t, finite64 t /\ e64_isUnitary (mkE64 (Some t) (Some t) (Some t) ZYX) = Ok false /\ entries_within (powerRZ 2 (-49)) (matrix_of (named_sequence ZYX (rval t) (rval t) (rval t))) (matrix_of (fun v => v)).
Proof. exact c155_unit_refuted. Qed.
Print Assumptions C155_unit_refuted.

(** Undefined rotation vectors and Euler angles equal nothing, not even themselves; isUnitary is an error when the first angle is undefined. *)
Theorem C155_undefined :
  forall fuel v w d e, (rv64_axis v = None \/ rv64_angle v = None -> rv64_eq fuel v w = Ok false /\ rv64_eq fuel w v = Ok false) /\ (e64_phi d = None \/ e64_theta d = None \/ e64_psi d = None \/ e64_seq d = SeqUndefined -> e64_eq fuel d e = Ok false /\ e64_eq fuel e d = Ok false) /\
  (e64_phi d = None -> e64_isUnitary d = Err EUndefined).
Proof. exact c155_undefined. Qed.
Print Assumptions C155_undefined.

(** The operators != are the negations. *)
Theorem C155_ne :
  forall fuel v w d e b, (rv64_ne fuel v w = Ok b <-> rv64_eq fuel v w = Ok (negb b)) /\ (e64_ne fuel d e = Ok b <-> e64_eq fuel d e = Ok (negb b)).
Proof. exact c155_ne. Qed.
Print Assumptions C155_ne.

(** 3.3 radians around z and its rectified form; Euler angles with a turn added. *)
Example C155_example : let z := axis64 0 0 1 in let t := S754_finite false 7430939385161318 (-51) in let x := S754_finite false 7205759403792794 (-56) in
  finite3 z /\ finite64 t /\ Rabs (rval t) <= 4 /\ 4 <= powerRZ 2 18 /\ 0 < norm3 (val3 z) <= 1.001 /\
  rv64_eq 5 (mkRV64 (Some (Geo64Model.fopp3 z)) (Some (sf_sub two_pi64 t))) (mkRV64 (Some z) (Some t)) = Ok true /\
  finite64 x /\ e64_eq 5 (mkE64 (Some (sf_add x two_pi64)) (Some x) (Some t) XYZ) (mkE64 (Some x) (Some x) (Some t) XYZ) = Ok true /\
  e64_eq 5 (mkE64 (Some x) (Some x) (Some t) XYZ) (mkE64 (Some x) (Some t) (Some t) XYZ) = Ok false.
Proof.
  intros z t x. destruct one_val as [FO VO]. change one_64 with (b64_of_Z 1) in FO, VO. split; [repeat split; vm_compute; reflexivity |]. split; [vm_compute; reflexivity |].
  split; [unfold t; rewrite rval_sg; cbn [sg]; rewrite P2_m by lia; change (2 ^ (- -51))%Z with 2251799813685248%Z; apply abs_of; lra |]. split; [change (powerRZ 2 18) with (P2 18); rewrite <- P2_Z by lia; change (2 ^ 18)%Z with 262144%Z; lra |].
  split; [replace (norm3 (val3 z)) with 1; [lra |]; unfold z, val3, axis64; cbn [fx fy fz]; change (b64_of_Z 0) with zero64; change (rval zero64) with 0; rewrite VO; unfold norm3, sqnorm3, dot3; cbn [vx vy vz]; replace (0 * 0 + 0 * 0 + 1 * 1) with 1 by ring; symmetry; apply sqrt_1 |].
  split; [vm_compute; reflexivity |]. split; [vm_compute; reflexivity |]. split; vm_compute; reflexivity.
Qed.
