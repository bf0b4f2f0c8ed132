(** The properties of the nearness of Euler angles and of rotation vectors of Euler angles in double precision: C156. *)

From Coq Require Import List Bool Arith ZArith Reals Lra Lia Psatz Floats.SpecFloat.
From Verif Require Import Result Vec Mat3 AngleModel FloatModel FloatSpec FloatProofs FloatProofs2 FloatProofs3 FloatProofs4 Geo3Spec Geo64Model Geo64Spec RotModel RotSpec Rot64Model Rot64Spec Rot64Spec2 Rot64Proofs7
  Att64Model Att64Spec Att64Proofs6 Pow64Proofs6 Dif64Model Dif64Spec Rvm64Proofs2 Nea64Model Nea64Proofs.
Import ListNotations.
Local Open Scope R_scope.

(** *** C156: Nearness of Euler angles, and rotation vectors of Euler angles, in double precision *)
(** Euler angles are near when the rotation from one to the other is by at most the tolerance, and not when it is by more, up to the errors of the cosines, sines and arc cosines and 2^-19. *)
Theorem C156_near :
  forall fcos fsin facos fuel r eps x y z s a b c x' y' z' s' a' b' c' e h v, s <> SeqUndefined -> s' <> SeqUndefined ->
  trig_at fcos fsin (b64_div x two_64) (a / 2) e -> trig_at fcos fsin (b64_div y two_64) (b / 2) e -> trig_at fcos fsin (b64_div z two_64) (c / 2) e ->
  trig_at fcos fsin (b64_div x' two_64) (a' / 2) e -> trig_at fcos fsin (b64_div y' two_64) (b' / 2) e -> trig_at fcos fsin (b64_div z' two_64) (c' / 2) e -> e <= / 10000 ->
  acos_within facos h -> h <= / 1000 -> finite64 eps -> powerRZ 2 (-50) <= rval eps <= / 32 -> finite64 v -> 0 <= rval v <= 6.28 ->
  exists d th n, norm3 d = 1 /\ 0 <= th <= PI / 2 /\ (forall w, named_sequence s' a' b' c' w = named_sequence s a b c (frame_rotation d (2 * th) w)) /\
    e64_isNear fcos fsin facos fuel r eps (mkE64 (Some x) (Some y) (Some z) s) (mkE64 (Some x') (Some y') (Some z') s') (mkA64 (Some v) Radian) = Ok n /\
    (2 * th + 2 * h + 140 * e + powerRZ 2 (-19) <= rval v -> n = true) /\ (n = true -> 2 * th <= rval v + 2 * h + 140 * e + powerRZ 2 (-19)).
Proof. exact c156_near. Qed.
Print Assumptions C156_near.

(** Euler angles are near themselves, also with tolerance 0. *)
Theorem C156_same :
  forall fcos fsin facos fuel r eps x y z s a b c e v, s <> SeqUndefined ->
  trig_at fcos fsin (b64_div x two_64) (a / 2) e -> trig_at fcos fsin (b64_div y two_64) (b / 2) e -> trig_at fcos fsin (b64_div z two_64) (c / 2) e -> e <= / 10000 ->
  finite64 (facos one_64) -> rval (facos one_64) = 0 -> finite64 eps -> powerRZ 2 (-50) <= rval eps <= / 32 -> finite64 v -> 0 <= rval v <= 6.28 ->
  e64_isNear fcos fsin facos fuel r eps (mkE64 (Some x) (Some y) (Some z) s) (mkE64 (Some x) (Some y) (Some z) s) (mkA64 (Some v) Radian) = Ok true.
Proof. exact c156_same. Qed.
Print Assumptions C156_same.

(** The rotation vector of Euler angles is axis and angle of the sequence named, within errors that grow like those of the cosines and sines divided by the sine of half the angle. *)
Theorem C156_vector :
  forall fcos fsin facos r eps x y z s a b c e h, s <> SeqUndefined ->
  trig_at fcos fsin (b64_div x two_64) (a / 2) e -> trig_at fcos fsin (b64_div y two_64) (b / 2) e -> trig_at fcos fsin (b64_div z two_64) (c / 2) e -> e <= / 10000 -> acos_within facos h -> h <= 1 -> finite64 eps -> powerRZ 2 (-50) <= rval eps <= / 4 ->
  exists d th, norm3 d = 1 /\ 0 <= th <= PI /\ (forall v, named_sequence s a b c v = frame_rotation d (2 * th) v) /\
    (200 * e + powerRZ 2 (-44) <= sin th * sin th -> exists u t, rv64_of_euler fcos fsin facos r eps (mkE64 (Some x) (Some y) (Some z) s) = Ok (mkRV64 (Some u) (Some t)) /\ finite3 u /\
      dist3 (val3 u) d <= (50 * e + powerRZ 2 (-46)) / sin th /\ Rabs (norm3 (val3 u) - 1) <= powerRZ 2 (-51) /\ returns t (2 * th) (2 * h + (300 * e + powerRZ 2 (-44)) / sin th)).
Proof. exact c156_vector. Qed.
Print Assumptions C156_vector.

(** Angles with cosines 1 and sines 0 give no rotation around the third axis. *)
Theorem C156_zero :
  forall fcos fsin facos r eps x y z s, s <> SeqUndefined -> (forall t, In t [x; y; z; b64_div x two_64; b64_div y two_64; b64_div z two_64] -> trig_at fcos fsin t 0 0) -> finite64 eps -> powerRZ 2 (-50) <= rval eps <= 1 ->
  rv64_of_euler fcos fsin facos r eps (mkE64 (Some x) (Some y) (Some z) s) = Ok (mkRV64 (Some (axis64 0 0 1)) (Some zero64)).
Proof. exact c156_zero. Qed.
Print Assumptions C156_zero.

(** Undefined Euler angles are errors. *)
Theorem C156_errors :
  forall fcos fsin facos fuel r eps x y z s, (x = None \/ y = None \/ z = None \/ s = SeqUndefined) ->
  rv64_of_euler fcos fsin facos r eps (mkE64 x y z s) = Err EUndefined /\ forall e tol, e64_isNear fcos fsin facos fuel r eps (mkE64 x y z s) e tol = Err EUndefined /\ (forall q, q64_of_euler fcos fsin eps e = Ok q -> e64_isNear fcos fsin facos fuel r eps e (mkE64 x y z s) tol = Err EUndefined).
Proof. exact c156_errors. Qed.
Print Assumptions C156_errors.

(** So is an undefined tolerance. *)
Theorem C156_tolerance :
  forall fcos fsin facos fuel r eps d e p q u, q64_of_euler fcos fsin eps d = Ok p -> q64_of_euler fcos fsin eps e = Ok q -> e64_isNear fcos fsin facos fuel r eps d e (mkA64 None u) = Err EUndefined.
Proof. exact c156_tolerance. Qed.
Print Assumptions C156_tolerance.

(** Half a turn around the third axis, with exact cosines and sines, and an arc cosine with error 2^-29. *)
Example C156_example : let eps := S754_finite false 4503599627370496 (-102) in
  let fcos t := if SFeqb t zero64 then one_64 else zero64 in let fsin t := if SFeqb t zero64 then zero64 else one_64 in let facos (t : spec_float) := b64_div pi64 two_64 in
  acos_within acos_grid (powerRZ 2 (-29)) /\ rval (acos_grid one_64) = 0 /\ finite64 eps /\ powerRZ 2 (-50) <= rval eps <= / 32 /\ trig_at fcos fsin (b64_div pi64 two_64) (PI / 2) 0 /\ trig_at fcos fsin (b64_div zero64 two_64) (0 / 2) 0 /\
  q64_of_euler fcos fsin eps (mkE64 (Some pi64) (Some zero64) (Some zero64) ZYX) = Ok half_turn /\ rv64_of_euler fcos fsin facos FirstTwo eps (mkE64 (Some pi64) (Some zero64) (Some zero64) ZYX) = Ok (mkRV64 (Some (axis64 0 0 1)) (Some pi64)) /\
  e64_isNear fcos fsin facos 5 FirstTwo eps (mkE64 (Some pi64) (Some zero64) (Some zero64) ZYX) (mkE64 (Some zero64) (Some zero64) (Some zero64) XYZ) (mkA64 (Some (b64_of_Z 4)) Radian) = Ok true /\
  e64_isNear fcos fsin facos 5 FirstTwo eps (mkE64 (Some pi64) (Some zero64) (Some zero64) ZYX) (mkE64 (Some zero64) (Some zero64) (Some zero64) XYZ) (mkA64 (Some (b64_of_Z 3)) Radian) = Ok false.
Proof.
  intros eps fcos fsin facos. destruct acos_grid_within as (HC & _ & HZ). destruct eps50 as [FE VE]. fold eps in FE, VE. destruct one_val as [FO VO]. split; [exact HC |]. split; [exact HZ |]. split; [exact FE |].
  split; [rewrite VE; split; [apply Rle_refl |]; rewrite P2_m by lia; apply Rinv_le_contravar; [lra | apply IZR_le; lia] |].
  split. { unfold trig_at, Att64Spec.returns. replace (fcos (b64_div pi64 two_64)) with zero64 by (vm_compute; reflexivity). replace (fsin (b64_div pi64 two_64)) with one_64 by (vm_compute; reflexivity). rewrite cos_PI2, sin_PI2, VO. change (rval zero64) with 0. rewrite !Rminus_diag_eq, Rabs_R0 by reflexivity. split; (split; [assumption || exact I | lra]). }
  split. { unfold trig_at, Att64Spec.returns. replace (fcos (b64_div zero64 two_64)) with one_64 by (vm_compute; reflexivity). replace (fsin (b64_div zero64 two_64)) with zero64 by (vm_compute; reflexivity). replace (0 / 2) with 0 by field. rewrite cos_0, sin_0, VO. change (rval zero64) with 0. rewrite !Rminus_diag_eq, Rabs_R0 by reflexivity. split; (split; [assumption || exact I | lra]). }
  split; [vm_compute; reflexivity |]. split; [vm_compute; reflexivity |]. split; vm_compute; reflexivity.
Qed.
