(** The properties of cones: C54 to C58, C94, C95. *)

From Coq Require Import List Bool Reals Lra Lia Psatz Permutation.
From Verif Require Import Result DOrder Vec VecProofs Mat3 Mat4 AngleModel AngleSpec AngleProofs RotModel RotSpec RotProofs RotProofs2 TransfModel TransfSpec
  TransfProofs TransfProofs2 Geo3Types Geo3Model Geo3Spec Geo3Proofs Geo3Proofs2 Geo3Proofs3 GteModel GteSpec ChordProofs SphereModel SphereSpec SphereProofs
  EllModel EllSpec EllProofs EllProofs2 EllProofs3 GteProofs InterModel ConeModel ConeSpec ConeProofs ConeProofs2 ConeProofs3 ConeProofs4 ConeProofs5 ConeProofs6.
Import ListNotations.
Local Open Scope R_scope.

(** The cone of 45 degrees around the vertical, for the examples. *)
Definition cone_45 : cone := cone_z (Radians (PI / 4)).
Lemma cone_45_good : good_cone (1 / 4) cone_45 zero3 (V3 0 0 1) (PI / 4).
Proof. apply cone_z_good. lra. Qed.
Lemma cone_45_angle : 0 <= PI / 4 < PI / 2.
Proof. pose proof PI_RGT_0. lra. Qed.
Lemma vertical_unit : norm3 (V3 0 0 1) = 1.
Proof. apply norm_unit. v3unfold. ring. Qed.

(** *** C54: containment *)
(** Missing from C54: cones above 90 degrees and points too close to the apex, for which the claim is false (below). *)
Theorem C54_contains_partial :
  forall fuel eps c a u t p, 0 < eps -> good_cone eps c a u t -> 0 <= t <= PI / 2 -> clear_of eps a p ->
  exists b, co_contains fuel eps c (Some p) = Ok b /\ (b = true <-> solid_cone a u t p).
Proof. exact c54_contains_partial. Qed.
Print Assumptions C54_contains_partial.

Theorem C54_apex :
  forall fuel eps c a u t, good_cone eps c a u t -> co_contains fuel eps c (Some a) = Ok true.
Proof. exact c54_apex. Qed.
Print Assumptions C54_apex.

(** Points in front of the apex but closer to it than the square root of the tolerance raise an error ... *)
Theorem C54_near_apex :
  forall fuel eps c a u t p, good_cone eps c a u t -> 0 < sqnorm3 (sub3 p a) < eps -> 0 <= dot3 (sub3 p a) u ->
  co_contains fuel eps c (Some p) = Err ERuntime.
Proof. exact c54_near_apex. Qed.
Print Assumptions C54_near_apex.

(** ... even when the cone contains them. *)
Theorem C54_near_apex_refuted :
  forall eps, 0 < eps <= 1 -> exists c a u t p, good_cone eps c a u t /\ 0 <= t <= PI / 2 /\ solid_cone a u t p
  /\ forall fuel, co_contains fuel eps c (Some p) = Err ERuntime.
Proof. exact c54_near_apex_refuted. Qed.
Print Assumptions C54_near_apex_refuted.

(** Points behind the apex are rejected even when an obtuse cone contains them. *)
Theorem C54_obtuse_refuted :
  forall eps, 0 < eps <= 1 -> exists c a u t p, good_cone eps c a u t /\ PI / 2 < t < PI /\ clear_of eps a p
  /\ solid_cone a u t p /\ forall fuel, co_contains fuel eps c (Some p) = Ok false.
Proof. exact c54_obtuse_refuted. Qed.
Print Assumptions C54_obtuse_refuted.

Theorem C54_further :
  forall fuel eps c a u t p s, 0 < eps -> good_cone eps c a u t -> 0 <= t <= PI / 2 -> clear_of eps a p -> 1 <= s ->
  co_contains fuel eps c (Some p) = Ok true -> co_contains fuel eps c (Some (along a s (sub3 p a))) = Ok true.
Proof. exact c54_further. Qed.
Print Assumptions C54_further.

Theorem C54_segment :
  forall fuel eps c a u t p q, 0 < eps -> good_cone eps c a u t -> 0 <= t <= PI / 2 -> clear_of eps a p -> clear_of eps a q ->
  exists b, co_contains_segment fuel eps c (mkSeg (Some p) (Some q)) = Ok b
    /\ (b = true <-> forall x, on_segment p q x -> solid_cone a u t x)
    /\ (b = true <-> forall x, on_segment p q x -> clear_of eps a x -> co_contains fuel eps c (Some x) = Ok true).
Proof. exact c54_segment. Qed.
Print Assumptions C54_segment.

Theorem C54_sets :
  forall fuel eps c a u t s, 0 < eps -> good_cone eps c a u t -> 0 <= t <= PI / 2 -> (forall p, In p s -> clear_of eps a p) ->
  exists b, co_contains_ps fuel eps c s = Ok b /\ (b = true <-> forall p, In p s -> solid_cone a u t p).
Proof. exact c54_sets. Qed.
Print Assumptions C54_sets.

Theorem C54_ray :
  forall fuel eps c a u t r o d, 0 < eps <= 1 -> good_cone eps c a u t -> 0 <= t <= PI / 2 -> good_ray r o d -> clear_of eps a o ->
  exists b, co_contains_ray fuel eps c r = Ok b /\ (b = true <-> forall x, on_ray o d x -> solid_cone a u t x).
Proof. exact c54_ray. Qed.
Print Assumptions C54_ray.

Theorem C54_errors :
  forall fuel eps c s q r p ps sg ry e, co_data c = Err EUndefined ->
  co_contains fuel eps c p = Err EUndefined /\ co_contains_ps fuel eps c ps = Err EUndefined
  /\ (s_data sg = Ok q -> co_contains_segment fuel eps c sg = Err EUndefined) /\ co_contains_ray fuel eps c ry = Err EUndefined
  /\ co_contains_sphere fuel eps c s = Err EUndefined /\ co_contains_ellipsoid c e = Err EUndefined
  /\ co_intersects_sphere c s = Err EUndefined /\ co_distanceTo eps c p = Err EUndefined
  /\ (forall fuel d, co_eq fuel c d = Ok false /\ co_eq fuel d c = Ok false)
  /\ (forall e, is_ok (e_data e) = true -> co_data r <> Err EUndefined -> co_contains_ellipsoid r e = Err EToBeImplemented).
Proof. exact c54_errors. Qed.
Print Assumptions C54_errors.

(** A point inside and a point outside. *)
Example C54_example : forall fuel, good_cone (1 / 4) cone_45 zero3 (V3 0 0 1) (PI / 4) /\ clear_of (1 / 4) zero3 (V3 0 0 1) /\ clear_of (1 / 4) zero3 (V3 1 0 0)
  /\ co_contains fuel (1 / 4) cone_45 (Some (V3 0 0 1)) = Ok true /\ co_contains fuel (1 / 4) cone_45 (Some (V3 1 0 0)) = Ok false.
Proof.
  intros fuel. pose proof cone_45_good as G. pose proof cone_45_angle as A. split; [exact G |].
  assert (C1 : clear_of (1 / 4) zero3 (V3 0 0 1)) by (right; v3unfold; lra). assert (C2 : clear_of (1 / 4) zero3 (V3 1 0 0)) by (right; v3unfold; lra).
  split; [exact C1 |]. split; [exact C2 |]. split.
  - destruct (c54_contains_partial fuel (1 / 4) _ _ _ _ _ ltac:(lra) G ltac:(lra) C1) as (b & -> & H). f_equal. apply H. unfold solid_cone. rewrite sub_zero, vertical_unit.
    pose proof (COS_bound (PI / 4)). replace (dot3 (V3 0 0 1) (V3 0 0 1)) with 1 by (v3unfold; ring). lra.
  - destruct (c54_contains_partial fuel (1 / 4) _ _ _ _ _ ltac:(lra) G ltac:(lra) C2) as (b & -> & H). f_equal. destruct b; [exfalso | reflexivity].
    pose proof (proj1 H eq_refl) as X. unfold solid_cone in X. rewrite sub_zero, vertical_unit in X.
    replace (norm3 (V3 1 0 0)) with 1 in X by (symmetry; apply norm_unit; v3unfold; ring). pose proof (cos_gt_0 (PI / 4) ltac:(lra) ltac:(lra)). v3unfold. lra.
Qed.

(** *** C55: equality *)
(** When the comparison holds (for enough fuel in the angle reduction). *)
Theorem C55_decides :
  forall c d a u k s a' u' k' s', c = mkCone (Some a) (Some u) k -> turns k = Some s ->
  d = mkCone (Some a') (Some u') k' -> turns k' = Some s' ->
  exists b, returns (fun fuel => co_eq fuel c d) b
    /\ (b = true <-> a = a' /\ ((u = u' /\ same_mod_turn s s') \/ (u = opp3 u' /\ same_mod_turn s (1 / 2 - s')))).
Proof. exact c55_decides. Qed.
Print Assumptions C55_decides.

(** Missing from C55: opposite axes, for which the claim is false (below). *)
Theorem C55_same_points_partial :
  forall c d a u k s a' u' k' s', c = mkCone (Some a) (Some u) k -> turns k = Some s ->
  d = mkCone (Some a') (Some u') k' -> turns k' = Some s' -> u <> opp3 u' -> returns (fun fuel => co_eq fuel c d) true ->
  forall eps p, exists N, forall fuel, (N <= fuel)%nat -> co_contains fuel eps c p = co_contains fuel eps d p.
Proof. exact c55_same_points_partial. Qed.
Print Assumptions C55_same_points_partial.

Theorem C55_opposite_refuted :
  forall eps, 0 < eps <= 1 -> exists c d a u u' t t' p, good_cone eps c a u t /\ good_cone eps d a u' t'
  /\ 0 <= t <= PI / 2 /\ 0 <= t' <= PI / 2 /\ returns (fun fuel => co_eq fuel c d) true
  /\ forall fuel, co_contains fuel eps c (Some p) = Ok true /\ co_contains fuel eps d (Some p) = Ok false.
Proof. exact c55_opposite_refuted. Qed.
Print Assumptions C55_opposite_refuted.

(** Conversely, acute cones with unit axes and the same points compare equal. *)
Theorem C55_complete :
  forall eps c d a u t a' u' t', 0 < eps -> good_cone eps c a u t -> good_cone eps d a' u' t' -> sqnorm3 u = 1 -> sqnorm3 u' = 1 ->
  0 <= t < PI / 2 -> 0 <= t' < PI / 2 -> same_points (solid_cone a u t) (solid_cone a' u' t') -> returns (fun fuel => co_eq fuel c d) true.
Proof. exact c55_complete. Qed.
Print Assumptions C55_complete.

(** The same cone with its angle given in degrees. *)
Example C55_example : cone_45 = mkCone (Some zero3) (Some (V3 0 0 1)) (Radians (PI / 4)) /\ turns (Radians (PI / 4)) = Some (PI / 4 / (2 * PI))
  /\ turns (mkA (Some 45) Degree) = Some (45 / 360) /\ V3 0 0 1 <> opp3 (V3 0 0 1)
  /\ returns (fun fuel => co_eq fuel cone_45 (cone_z (mkA (Some 45) Degree))) true.
Proof.
  split; [reflexivity |]. split; [reflexivity |]. split; [reflexivity |].
  split; [intros E; apply (f_equal vz) in E; cbn in E; lra |].
  destruct (c55_decides cone_45 (cone_z (mkA (Some 45) Degree)) _ _ _ (PI / 4 / (2 * PI)) _ _ _ (45 / 360) eq_refl eq_refl eq_refl eq_refl) as (b & R & H).
  replace true with b; [exact R |]. apply H. split; [reflexivity |]. left. split; [reflexivity |]. exists 0%Z. pose proof PI_RGT_0. cbn. field. lra.
Qed.

(** *** C56: distance *)
(** Missing from C56: points next to the axis but not on it, and some of the points behind the apex, for which the claim is false (below). *)
Theorem C56_front_partial :
  forall eps c a u t p, 0 < eps < 1 -> good_cone eps c a u t -> 0 <= t < PI / 2 -> 0 <= dot3 (sub3 p a) u ->
  eps < norm3 (cross3 u (sub3 p a)) \/ cross3 u (sub3 p a) = zero3 ->
  exists d, co_distanceTo eps c (Some p) = Ok d /\ least_distance (on_cone a u t) p d.
Proof. exact c56_front_partial. Qed.
Print Assumptions C56_front_partial.

Theorem C56_behind_partial :
  forall eps c a u t p, 0 < eps -> good_cone eps c a u t -> 0 <= t <= PI / 2 -> dot3 (sub3 p a) u < 0 ->
  dot3 (sub3 p a) u <= norm3 (sub3 p a) * norm3 u * cos (t + PI / 2) ->
  exists d, co_distanceTo eps c (Some p) = Ok d /\ least_distance (on_cone a u t) p d.
Proof. exact c56_behind_partial. Qed.
Print Assumptions C56_behind_partial.

Theorem C56_behind_refuted :
  forall eps, 0 < eps <= 1 -> exists c a u t p q d, good_cone eps c a u t /\ 0 <= t < PI / 2
  /\ co_distanceTo eps c (Some p) = Ok d /\ on_cone a u t q /\ dist3 p q < d.
Proof. exact c56_behind_refuted. Qed.
Print Assumptions C56_behind_refuted.

Theorem C56_axis_witness :
  forall eps, 0 < eps < 1 -> exists q d, co_distanceTo eps (cone_z (Radians (PI / 4))) (Some (V3 (- eps) 0 1)) = Ok d
  /\ on_cone zero3 (V3 0 0 1) (PI / 4) q /\ dist3 (V3 (- eps) 0 1) q < d.
Proof. exact c56_axis_witness. Qed.
Print Assumptions C56_axis_witness.

Theorem C56_axis_refuted :
  forall eps, 0 < eps < 1 -> exists c a u t p q d, good_cone eps c a u t /\ 0 <= t < PI / 2
  /\ co_distanceTo eps c (Some p) = Ok d /\ on_cone a u t q /\ dist3 p q < d.
Proof. exact c56_axis_refuted. Qed.
Print Assumptions C56_axis_refuted.

Theorem C56_apex :
  forall eps c a u t, good_cone eps c a u t -> co_distanceTo eps c (Some a) = Ok 0.
Proof. exact c56_apex. Qed.
Print Assumptions C56_apex.

(** A point of the horizontal plane, and one behind the apex. *)
Example C56_example : (exists d, co_distanceTo (1 / 4) cone_45 (Some (V3 1 0 0)) = Ok d /\ least_distance (on_cone zero3 (V3 0 0 1) (PI / 4)) (V3 1 0 0) d)
  /\ (exists d, co_distanceTo (1 / 4) cone_45 (Some (V3 0 0 (-1))) = Ok d /\ least_distance (on_cone zero3 (V3 0 0 1) (PI / 4)) (V3 0 0 (-1)) d).
Proof.
  pose proof cone_45_good as G. pose proof cone_45_angle as A. split.
  - apply (c56_front_partial (1 / 4) _ _ _ _ _ ltac:(lra) G A); [rewrite sub_zero; v3unfold; lra |]. left. rewrite sub_zero.
    replace (norm3 (cross3 (V3 0 0 1) (V3 1 0 0))) with 1 by (symmetry; apply norm_unit; v3unfold; ring). lra.
  - apply (c56_behind_partial (1 / 4) _ _ _ _ _ ltac:(lra) G ltac:(lra)); rewrite sub_zero; [v3unfold; lra |]. rewrite vertical_unit.
    replace (norm3 (V3 0 0 (-1))) with 1 by (symmetry; apply norm_unit; v3unfold; ring). pose proof (COS_bound (PI / 4 + PI / 2)). v3unfold. lra.
Qed.

(** *** C57: intersection with spheres *)
Theorem C57_sphere :
  forall eps c s a u t q r, 0 < eps -> good_cone eps c a u t -> 0 <= t <= PI / 2 -> good_sphere s q r ->
  exists b, co_intersects_sphere c s = Ok b /\ (b = true <-> exists x, dist3 x q <= r /\ solid_cone a u t x).
Proof. exact c57_sphere. Qed.
Print Assumptions C57_sphere.

(** A sphere around a point of the horizontal plane reaching the cone, and a smaller one that does not. *)
Example C57_example : good_sphere (mkSphere (Some (V3 1 0 0)) (Some 1)) (V3 1 0 0) 1 /\ co_intersects_sphere cone_45 (mkSphere (Some (V3 1 0 0)) (Some 1)) = Ok true
  /\ co_intersects_sphere cone_45 (mkSphere (Some (V3 1 0 0)) (Some (1 / 2))) = Ok false.
Proof.
  assert (S1 : good_sphere (mkSphere (Some (V3 1 0 0)) (Some 1)) (V3 1 0 0) 1) by (split; [reflexivity | lra]).
  assert (S2 : good_sphere (mkSphere (Some (V3 1 0 0)) (Some (1 / 2))) (V3 1 0 0) (1 / 2)) by (split; [reflexivity | lra]).
  pose proof cone_45_good as G. pose proof cone_45_angle as A. split; [exact S1 |]. split.
  - destruct (c57_sphere (1 / 4) _ _ _ _ _ _ _ ltac:(lra) G ltac:(lra) S1) as (b & -> & H). f_equal. apply H. exists zero3. split.
    + unfold dist3. right. apply norm_unit. v3unfold. ring.
    + unfold solid_cone. rewrite sub_zero. unfold norm3 at 1. replace (sqnorm3 zero3) with 0 by (v3unfold; ring). rewrite sqrt_0. v3unfold. lra.
  - destruct (c57_sphere (1 / 4) _ _ _ _ _ _ _ ltac:(lra) G ltac:(lra) S2) as (b & -> & H). f_equal. destruct b; [exfalso | reflexivity].
    destruct (proj1 H eq_refl) as (x & D & C). unfold solid_cone in C. rewrite sub_zero, vertical_unit, Rmult_1_r in C.
    assert (D2 : sqnorm3 (sub3 x (V3 1 0 0)) <= 1 / 4). { rewrite <- norm3_sq. fold (dist3 x (V3 1 0 0)). pose proof (norm3_nonneg (sub3 x (V3 1 0 0)) : 0 <= dist3 x (V3 1 0 0)). nra. }
    assert (C2 : sqnorm3 x * (1 / 2) <= dot3 x (V3 0 0 1) * dot3 x (V3 0 0 1)).
    { rewrite <- cos45, <- norm3_sq. pose proof (norm3_nonneg x). pose proof (cos_gt_0 (PI / 4) ltac:(lra) ltac:(lra)).
      replace (norm3 x * norm3 x * (cos (PI / 4) * cos (PI / 4))) with (norm3 x * cos (PI / 4) * (norm3 x * cos (PI / 4))) by ring.
      apply Rmult_le_compat; try exact C; apply Rmult_le_pos; lra. }
    clear - D2 C2. destruct x as [x y z]. v3unfold. pose proof (Rle_0_sqr (x - 1 / 2)) as Q. unfold Rsqr in Q. pose proof (Rle_0_sqr y) as Y. unfold Rsqr in Y. lra.
Qed.

(** *** C58: half lines of the lateral surface *)
Theorem C58_rays :
  forall eps c a u k t n, 0 < eps < 1 / 2 -> c = mkCone (Some a) (Some u) k -> turns k = Some (t / (2 * PI)) -> Rabs (norm3 u - 1) <= eps -> (0 < n)%nat ->
  exists e, sqnorm3 e = 1 /\ dot3 e u = 0 /\
    co_rays eps c n = Ok (map (fun i => mkRay (Some a) (Some (lateral (normalized3 u) e t n i))) (seq 0 n)).
Proof. exact c58_rays. Qed.
Print Assumptions C58_rays.

Theorem C58_on_cone :
  forall u e t n i a s, 0 < sqnorm3 u -> sqnorm3 e = 1 -> dot3 e u = 0 ->
  sqnorm3 (lateral (normalized3 u) e t n i) = 1 /\ (0 <= s -> on_cone a u t (along a s (lateral (normalized3 u) e t n i))).
Proof. exact c58_on_cone. Qed.
Print Assumptions C58_on_cone.

Theorem C58_spread :
  forall u e t n i j, 0 < sqnorm3 u -> sqnorm3 e = 1 -> dot3 e u = 0 ->
  dot3 (lateral (normalized3 u) e t n i) (lateral (normalized3 u) e t n j) = cos t * cos t + sin t * sin t * cos (2 * PI * INR i / INR n - 2 * PI * INR j / INR n).
Proof. exact c58_spread. Qed.
Print Assumptions C58_spread.

Theorem C58_not_unit :
  forall eps c a u k t n, 0 < eps < 1 / 2 -> c = mkCone (Some a) (Some u) k -> turns k = Some (t / (2 * PI)) -> eps < Rabs (norm3 u - 1) -> (0 < n)%nat ->
  co_rays eps c n = Err ERuntime.
Proof. exact c58_not_unit. Qed.
Print Assumptions C58_not_unit.

Theorem C58_errors :
  forall eps c n, co_rays eps c 0 = Err EWrong /\ ((0 < n)%nat -> co_axis c = None -> co_rays eps c n = Err EUndefined).
Proof. exact c58_errors. Qed.
Print Assumptions C58_errors.

Example C58_example : Rabs (norm3 (V3 0 0 1) - 1) <= 1 / 4 /\ sqnorm3 (V3 1 0 0) = 1 /\ dot3 (V3 1 0 0) (V3 0 0 1) = 0
  /\ lateral (V3 0 0 1) (V3 1 0 0) (PI / 2) 4 0 = V3 1 0 0 /\ lateral (V3 0 0 1) (V3 1 0 0) (PI / 2) 4 1 = V3 0 1 0 /\ 1 / 4 < Rabs (norm3 (V3 0 0 2) - 1).
Proof.
  rewrite vertical_unit, Rminus_eq_0, Rabs_R0. split; [lra |]. split; [v3unfold; ring |]. split; [v3unfold; ring |].
  split; [| split].
  - unfold lateral, around. cbn [INR]. replace (2 * PI * 0 / (1 + 1 + 1 + 1)) with 0 by field. rewrite cos_0, sin_0, cos_PI2, sin_PI2. v3unfold. apply V3_eq; ring.
  - unfold lateral, around. cbn [INR]. replace (2 * PI * 1 / (1 + 1 + 1 + 1)) with (PI / 2) by field. rewrite cos_PI2, sin_PI2. v3unfold. apply V3_eq; ring.
  - replace (V3 0 0 2) with (scale3 2 (V3 0 0 1)) by (v3unfold; apply V3_eq; ring). rewrite norm3_scale, vertical_unit, (Rabs_right 2) by lra. rewrite Rabs_right; lra.
Qed.

(** *** C94: containment of spheres, transformations *)
(** Missing from C94: spheres whose centre is next to the axis but not on it, for which the claim is false (below). *)
Theorem C94_sphere_partial :
  forall fuel eps c s a u t q r, 0 < eps < 1 -> good_cone eps c a u t -> 0 <= t < PI / 2 -> good_sphere s q r -> clear_of eps a q ->
  eps < norm3 (cross3 u (sub3 q a)) \/ cross3 u (sub3 q a) = zero3 ->
  exists b, co_contains_sphere fuel eps c s = Ok b /\ (b = true <-> forall x, dist3 x q <= r -> solid_cone a u t x).
Proof. exact c94_sphere_partial. Qed.
Print Assumptions C94_sphere_partial.

Theorem C94_sphere_refuted :
  forall fuel eps, 0 < eps < 1 -> exists c s a u t q r x, good_cone eps c a u t /\ 0 <= t < PI / 2 /\ good_sphere s q r /\ clear_of eps a q
  /\ co_contains_sphere fuel eps c s = Ok true /\ dist3 x q <= r /\ ~ solid_cone a u t x.
Proof. exact c94_sphere_refuted. Qed.
Print Assumptions C94_sphere_refuted.

Theorem C94_rigid :
  forall eps prec t c a u k, 0 < eps <= 1 -> 0 < prec -> proper3 eps prec t -> good_cone eps c a u k ->
  exists f c' u', maps_points3 t f /\ co_apply t c = Ok c' /\ good_cone eps c' (f a) u' k /\ sqnorm3 u' = 1
    /\ image_of f (solid_cone a u k) (solid_cone (f a) u' k) /\ image_of f (on_cone a u k) (on_cone (f a) u' k).
Proof. exact c94_rigid. Qed.
Print Assumptions C94_rigid.

Theorem C94_transform_refuted :
  forall eps prec, 0 < eps <= 1 -> 0 < prec -> exists t c a u k c' a' u' p p', affine3 eps prec t /\ good_cone eps c a u k /\ 0 <= k < PI / 2
  /\ co_apply t c = Ok c' /\ good_cone eps c' a' u' k /\ solid_cone a u k p /\ pt_apply t (Some p) = Ok (Some p') /\ ~ solid_cone a' u' k p'.
Proof. exact c94_transform_refuted. Qed.
Print Assumptions C94_transform_refuted.

Theorem C94_errors :
  forall t c, co_apply t3_Undefined c = Err EUndefined /\ (co_data c = Err EUndefined -> t3_isDefined t = true -> co_apply t c = Err EUndefined).
Proof. exact c94_errors. Qed.
Print Assumptions C94_errors.

(** The ball of radius 1 at height 2 is inside; translations are proper. *)
Example C94_example : forall fuel eps prec, co_contains_sphere fuel (1 / 4) cone_45 (mkSphere (Some (V3 0 0 2)) (Some 1)) = Ok true
  /\ exists t, t3_Translation (Some (V3 1 2 3)) = Ok t /\ proper3 eps prec t.
Proof.
  intros fuel eps prec. split; [| eexists; split; [reflexivity |]; apply (made3_translation _ _ _ _ (Some (V3 1 2 3))); reflexivity].
  pose proof cone_45_good as G. pose proof cone_45_angle as A.
  assert (S : good_sphere (mkSphere (Some (V3 0 0 2)) (Some 1)) (V3 0 0 2) 1) by (split; [reflexivity | lra]).
  destruct (c94_sphere_partial fuel (1 / 4) _ _ _ _ _ _ _ ltac:(lra) G A S) as (b & -> & H).
  - right. rewrite sub_zero. v3unfold. lra.
  - right. rewrite sub_zero. v3unfold. apply V3_eq; ring.
  - f_equal. apply H. intros x D. unfold solid_cone. rewrite sub_zero, vertical_unit, Rmult_1_r.
    assert (D2 : sqnorm3 (sub3 x (V3 0 0 2)) <= 1). { rewrite <- norm3_sq. fold (dist3 x (V3 0 0 2)). pose proof (norm3_nonneg (sub3 x (V3 0 0 2)) : 0 <= dist3 x (V3 0 0 2)). nra. }
    replace (dot3 x (V3 0 0 1)) with (vz x) by (clear; v3ring). pose proof (norm3_nonneg x) as Nx. pose proof (cos_gt_0 (PI / 4) ltac:(lra) ltac:(lra)) as Pc.
    assert (Z : 0 <= vz x /\ sqnorm3 x * (1 / 2) <= vz x * vz x) 
      by (clear - D2; destruct x as [x y z]; v3unfold; pose proof (Rle_0_sqr x) as X; pose proof (Rle_0_sqr y) as Y; pose proof (Rle_0_sqr (z - 1)) as W; unfold Rsqr in X, Y, W; split; nra).
    apply sqrt_le_sq; [apply Z | apply Rmult_le_pos; lra |].
    replace (norm3 x * cos (PI / 4) * (norm3 x * cos (PI / 4))) with (norm3 x * norm3 x * (cos (PI / 4) * cos (PI / 4))) by ring. rewrite norm3_sq, cos45. apply Z.
Qed.

(** *** C95: intersection through lateral half lines *)
(** [T m] are the points where the m-th half line meets the sphere, [F m] and [S m] those put in the first and in the second line string. *)
Theorem C95_sphere :
  forall g eps order c s a u k t n q r, 0 < eps < 1 / 2 -> sphere_queries g -> good_sphere s q r -> (forall l, Permutation (order l) l) ->
  c = mkCone (Some a) (Some u) k -> turns k = Some (t / (2 * PI)) -> Rabs (norm3 u - 1) <= eps -> (0 < n)%nat ->
  exists e (T : nat -> v3 -> Prop) F S N i j, sqnorm3 e = 1 /\ dot3 e u = 0
    /\ (forall m, (m < n)%nat -> hits (on_ray a (lateral (normalized3 u) e t n m)) (on_sphere q r) (near_sphere eps q r) (fun x => x = a) (T m))
    /\ co_inter_sphere g eps order c s false n = Ok i /\ strings_of i (filter nonempty [flat_map F (seq 0 n); flat_map S (seq 0 n)])
    /\ (forall m, (m < n)%nat -> (forall x, In x (F m ++ S m) <-> T m x) /\ (length (F m) <= 1)%nat /\ (length (S m) <= 1)%nat)
    /\ co_inter_sphere g eps order c s true n = Ok j /\ strings_of j (filter nonempty [flat_map N (seq 0 n)])
    /\ (forall m, (m < n)%nat -> (N m = [] /\ forall x, ~ T m x) \/ (exists p, N m = [p] /\ closest_of (T m) a p)).
Proof. exact c95_sphere. Qed.
Print Assumptions C95_sphere.

(** As for spheres, with the caveats of C89: points closer than the tolerance are merged, the apex is kept only if contains accepts it. *)
Theorem C95_ellipsoid_partial :
  forall g eps order c s a u k t n q ax ks, 0 < eps < 1 / 2 -> ellipsoid_queries g -> good_ellipsoid eps s q ax ks -> (forall l, Permutation (order l) l) ->
  c = mkCone (Some a) (Some u) k -> turns k = Some (t / (2 * PI)) -> Rabs (norm3 u - 1) <= eps -> (0 < n)%nat ->
  exists e (T : nat -> v3 -> Prop) F S N i j, sqnorm3 e = 1 /\ dot3 e u = 0
    /\ (forall m, (m < n)%nat -> exists T0, merged eps T0 (T m)
        /\ hits_except (on_ray a (lateral (normalized3 u) e t n m)) (on_ellipsoid q ax ks) (fun x => e_contains eps s (Some x) = Ok true) (fun x => x = a) T0)
    /\ co_inter_ellipsoid g eps order c s false n = Ok i /\ strings_of i (filter nonempty [flat_map F (seq 0 n); flat_map S (seq 0 n)])
    /\ (forall m, (m < n)%nat -> (forall x, In x (F m ++ S m) <-> T m x) /\ (length (F m) <= 1)%nat /\ (length (S m) <= 1)%nat
        /\ forall x y, In x (F m) -> In y (S m) -> dist3 a x <= dist3 a y)
    /\ co_inter_ellipsoid g eps order c s true n = Ok j /\ strings_of j (filter nonempty [flat_map N (seq 0 n)])
    /\ (forall m, (m < n)%nat -> (N m = [] /\ forall x, ~ T m x) \/ (exists p, N m = [p] /\ closest_of (T m) a p)).
Proof. exact c95_ellipsoid_partial. Qed.
Print Assumptions C95_ellipsoid_partial.

(** The intersection test is that of the lateral half lines, so that it never reports a false intersection ... *)
Theorem C95_intersects :
  forall g eps c s a u k t n q ax ks, 0 < eps < 1 / 2 -> ellipsoid_queries g -> good_ellipsoid eps s q ax ks ->
  c = mkCone (Some a) (Some u) k -> turns k = Some (t / (2 * PI)) -> Rabs (norm3 u - 1) <= eps -> (0 < n)%nat ->
  exists e b, sqnorm3 e = 1 /\ dot3 e u = 0 /\ co_intersects_ellipsoid g eps c s n = Ok b
    /\ (b = true <-> exists m p, (m < n)%nat /\ on_ray a (lateral (normalized3 u) e t n m) p /\ solid_ellipsoid q ax ks p)
    /\ (b = true -> exists p, on_cone a u t p /\ solid_ellipsoid q ax ks p).
Proof. exact c95_intersects. Qed.
Print Assumptions C95_intersects.

(** ... but it misses an ellipsoid inside the cone, however many half lines are used. *)
Theorem C95_intersects_refuted :
  forall g eps, 0 < eps < 1 / 2 -> ellipsoid_queries g ->
  exists c a u t s q ax ks p, good_cone eps c a u t /\ 0 < t < PI / 2 /\ norm3 u = 1 /\ good_ellipsoid eps s q ax ks
    /\ (forall x, solid_ellipsoid q ax ks x -> solid_cone a u t x) /\ solid_ellipsoid q ax ks p /\ solid_cone a u t p
    /\ forall n, (0 < n)%nat -> co_intersects_ellipsoid g eps c s n = Ok false.
Proof. exact c95_intersects_refuted. Qed.
Print Assumptions C95_intersects_refuted.

Theorem C95_errors :
  forall g eps order c s e b n, (sp_data s = Err EUndefined -> co_inter_sphere g eps order c s b n = Err EUndefined)
  /\ (e_data e = Err EUndefined -> co_inter_ellipsoid g eps order c e b n = Err EUndefined /\ co_intersects_ellipsoid g eps c e n = Err EUndefined).
Proof. exact c95_errors. Qed.
Print Assumptions C95_errors.

(** The assumptions about GTE and the iteration order can be met. *)
Example C95_example : sphere_queries ref_gte /\ ellipsoid_queries ref_gte /\ (forall l : list v3, Permutation (rev l) l)
  /\ good_sphere (mkSphere (Some (V3 0 0 1)) (Some 2)) (V3 0 0 1) 2 /\ good_ellipsoid (1 / 4) unit_ball zero3 unit_axes (1, 1, 1)
  /\ cone_45 = mkCone (Some zero3) (Some (V3 0 0 1)) (Radians (PI / 4)) /\ turns (Radians (PI / 4)) = Some (PI / 4 / (2 * PI))
  /\ Rabs (norm3 (V3 0 0 1) - 1) <= 1 / 4 /\ co_intersects_ellipsoid ref_gte (1 / 4) cone_45 unit_ball 3 = Ok true.
Proof.
  split; [exact ref_sphere |]. split; [exact ref_ellipsoid |]. split; [intros l; symmetry; apply Permutation_rev |].
  split; [split; [reflexivity | lra] |]. pose proof (unit_ball_good (1 / 4) ltac:(lra)) as G. split; [exact G |]. split; [reflexivity |]. split; [reflexivity |].
  assert (U : Rabs (norm3 (V3 0 0 1) - 1) <= 1 / 4) by (rewrite vertical_unit, Rminus_eq_0, Rabs_R0; lra). split; [exact U |].
  destruct (c95_intersects ref_gte (1 / 4) cone_45 unit_ball zero3 (V3 0 0 1) (Radians (PI / 4)) (PI / 4) 3 _ _ _ ltac:(lra) ref_ellipsoid G eq_refl eq_refl U ltac:(lia))
    as (e & b & _ & _ & -> & H & _).
  f_equal. apply H. exists 0%nat, zero3. split; [lia |]. split; [exists 0; split; [lra |]; symmetry; apply along_0 |].
  unfold solid_ellipsoid. rewrite unit_ball_form. v3unfold. lra.
Qed.
