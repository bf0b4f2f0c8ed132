(** The properties of spheres: C52. *)

From Coq Require Import List Bool Reals Lra Lia Psatz.
From Verif Require Import Result DOrder Vec VecProofs Mat3 Mat4 AngleModel AngleProofs RotModel RotSpec RotProofs RotProofs2 TransfModel TransfSpec
  TransfProofs TransfProofs2 Geo3Types Geo3Model Geo3Spec Geo3Proofs Geo3Proofs2 Geo3Proofs3 GteModel GteSpec SphereModel SphereSpec ChordProofs
  SphereProofs GteProofs.
Import ListNotations.
Local Open Scope R_scope.

(** *** C52: spheres *)
(** Containment is membership of the surface, up to the tolerance. *)
Theorem C52_contains :
  forall eps s c r p, 0 < eps -> good_sphere s c r ->
  exists b, sp_contains eps s (Some p) = Ok b /\ (b = true <-> near_sphere eps c r p)
    /\ (on_sphere c r p -> b = true) /\ (b = true -> 0 < r -> Rabs (dist3 p c - r) < eps / r).
Proof. exact c52_contains. Qed.
Print Assumptions C52_contains.

Theorem C52_sets :
  forall eps s c r ps, good_sphere s c r ->
  exists a b, sp_contains_ps eps s ps = Ok a /\ sp_intersects_ps eps s ps = Ok b
    /\ (a = true <-> ps <> [] /\ forall p, In p ps -> near_sphere eps c r p)
    /\ (b = true <-> exists p, In p ps /\ near_sphere eps c r p).
Proof. exact c52_sets. Qed.
Print Assumptions C52_sets.

Theorem C52_errors :
  forall g eps s p ps l ry sg pl b, sp_data s = Err EUndefined ->
  sp_contains eps s (Some p) = Err EUndefined /\ sp_contains eps s None = Err EUndefined
  /\ sp_contains_ps eps s ps = Err EUndefined /\ sp_intersects_ps eps s ps = Err EUndefined
  /\ sp_intersects_line g s l = Err EUndefined /\ sp_intersects_ray g s ry = Err EUndefined
  /\ sp_intersects_segment g s sg = Err EUndefined /\ sp_intersects_plane g s pl = Err EUndefined
  /\ sp_inter_line g s l = Err EUndefined /\ sp_inter_ray g eps s ry b = Err EUndefined /\ sp_inter_segment g eps s sg = Err EUndefined.
Proof. exact c52_errors. Qed.
Print Assumptions C52_errors.

Theorem C52_intersects :
  forall g s c r, sphere_queries g -> good_sphere s c r ->
  (forall l o d, good_line l o d -> exists b, sp_intersects_line g s l = Ok b /\ decides b (fun p => on_line o d p /\ dist3 p c <= r))
  /\ (forall ry o d, good_ray ry o d -> exists b, sp_intersects_ray g s ry = Ok b /\ decides b (fun p => on_ray o d p /\ dist3 p c <= r))
  /\ (forall pl q n, good_plane pl q n -> exists b, sp_intersects_plane g s pl = Ok b /\ decides b (fun p => on_plane q n p /\ dist3 p c <= r)).
Proof. exact c52_intersects. Qed.
Print Assumptions C52_intersects.

(** Missing: segments inside the ball, for which the answer depends on the release of GTE, and segments with equal end points. *)
Theorem C52_intersects_segment_partial :
  forall g s c r a b, sphere_queries g -> good_sphere s c r -> a <> b ->
  (exists x, on_segment a b x /\ r < dist3 x c) ->
  exists k, sp_intersects_segment g s (mkSeg (Some a) (Some b)) = Ok k /\ decides k (fun p => on_segment a b p /\ dist3 p c <= r).
Proof. exact c52_intersects_segment_partial. Qed.
Print Assumptions C52_intersects_segment_partial.

(** The points found are exactly those of the surface ... *)
Theorem C52_line :
  forall g s c r l o d, sphere_queries g -> good_sphere s c r -> good_line l o d ->
  exists i, sp_inter_line g s l = Ok i /\ represents i (fun p => on_line o d p /\ on_sphere c r p).
Proof. exact c52_line. Qed.
Print Assumptions C52_line.

(** ... or, for rays and segments, an end point within the tolerance of the surface. *)
Theorem C52_ray :
  forall g eps s c r ry o d, 0 < eps -> sphere_queries g -> good_sphere s c r -> good_ray ry o d ->
  exists i T, sp_inter_ray g eps s ry false = Ok i /\ represents i T
    /\ hits (on_ray o d) (on_sphere c r) (near_sphere eps c r) (fun x => x = o) T
    /\ exists j, sp_inter_ray g eps s ry true = Ok j
       /\ ((j = inter_empty /\ forall x, ~ T x) \/ (exists p, j = inter_point p /\ closest_of T o p)).
Proof. exact c52_ray. Qed.
Print Assumptions C52_ray.

Theorem C52_segment :
  forall g eps s c r a b, 0 < eps -> sphere_queries g -> good_sphere s c r -> a <> b ->
  exists i T, sp_inter_segment g eps s (mkSeg (Some a) (Some b)) = Ok i /\ represents i T
    /\ hits (on_segment a b) (on_sphere c r) (near_sphere eps c r) (fun x => x = a \/ x = b) T.
Proof. exact c52_segment. Qed.
Print Assumptions C52_segment.

Theorem C52_equal :
  forall s t c r c' r', good_sphere s c r -> good_sphere t c' r' -> (sp_eq s t = true <-> same_points (on_sphere c r) (on_sphere c' r')).
Proof. exact c52_equal. Qed.
Print Assumptions C52_equal.

(** Spheres with a negative radius are accepted: equality then differs from equality of the surfaces. *)
Theorem C52_negative_radius_refuted :
  exists s t eps, 0 < eps /\ (forall p, sp_contains eps s (Some p) = sp_contains eps t (Some p))
  /\ sp_eq s s = true /\ sp_eq s t = false /\ exists p, sp_contains eps t (Some p) = Ok true.
Proof. exact c52_negative_radius_refuted. Qed.
Print Assumptions C52_negative_radius_refuted.

(** Rigid transformations carry the surface along; others are rejected. *)
Theorem C52_rigid :
  forall eps prec t s c r, 0 < eps -> 0 < prec -> proper3 eps prec t -> good_sphere s c r ->
  exists f s', maps_points3 t f /\ sp_apply t s = Ok s' /\ good_sphere s' (f c) r /\ image_of f (on_sphere c r) (on_sphere (f c) r)
    /\ forall p, sp_contains eps s' (Some (f p)) = sp_contains eps s (Some p).
Proof. exact c52_rigid. Qed.
Print Assumptions C52_rigid.

Theorem C52_not_rigid :
  forall t s c r, t3_isRigid t = Ok false -> s = mkSphere (Some c) (Some r) -> sp_apply t s = Err ERuntime.
Proof. exact c52_not_rigid. Qed.
Print Assumptions C52_not_rigid.

(** The assumptions about GTE can be met; a ray from outside crosses the sphere of radius 2 at two points. *)
Example C52_example : let s := mkSphere (Some zero3) (Some 2) in
  sphere_queries ref_gte /\ good_sphere s zero3 2
  /\ good_ray (mkRay (Some (V3 5 0 0)) (Some (V3 (-1) 0 0))) (V3 5 0 0) (V3 (-1) 0 0)
  /\ (forall x, x = V3 2 0 0 \/ x = V3 (-2) 0 0 -> on_ray (V3 5 0 0) (V3 (-1) 0 0) x /\ on_sphere zero3 2 x)
  /\ sp_contains 1 s (Some (V3 2 0 0)) = Ok true /\ sp_contains 1 s (Some zero3) = Ok false
  /\ (exists x, on_segment zero3 (V3 4 0 0) x /\ 2 < dist3 x zero3).
Proof.
  assert (N : forall t, 0 <= t -> norm3 (V3 t 0 0) = t /\ norm3 (V3 (- t) 0 0) = t).
  { intros t Ht. unfold norm3. split; rewrite <- (sqrt_square t Ht) at 2; f_equal; v3unfold; ring. }
  cbv zeta. split; [exact ref_sphere |]. split; [split; [reflexivity | lra] |]. split; [split; [reflexivity | v3unfold; ring] |]. split; [| split; [| split]].
  - intros x [-> | ->].
    + split; [exists 3; split; [lra |]; unfold along; v3unfold; apply V3_eq; ring |]. unfold on_sphere, dist3.
      replace (sub3 (V3 2 0 0) zero3) with (V3 2 0 0) by v3ring. apply N. lra.
    + split; [exists 7; split; [lra |]; unfold along; v3unfold; apply V3_eq; ring |]. unfold on_sphere, dist3.
      replace (sub3 (V3 (-2) 0 0) zero3) with (V3 (-2) 0 0) by v3ring. apply N. lra.
  - cbn [sp_contains needd bind sp_data sp_center sp_radius]. rewrite Rltb_t; [reflexivity |].
    replace (sqnorm3 (sub3 (V3 2 0 0) zero3) - 2 * 2) with 0 by (v3unfold; ring). rewrite Rabs_R0. lra.
  - cbn [sp_contains needd bind sp_data sp_center sp_radius]. rewrite Rltb_f; [reflexivity |].
    replace (sqnorm3 (sub3 zero3 zero3) - 2 * 2) with (- (4)) by (v3unfold; ring). rewrite Rabs_Ropp, Rabs_right; lra.
  - exists (V3 4 0 0). split; [exists 1; split; [lra |]; unfold along; v3unfold; apply V3_eq; ring |]. unfold dist3.
    replace (sub3 (V3 4 0 0) zero3) with (V3 4 0 0) by v3ring. rewrite (proj1 (N 4 ltac:(lra))). lra.
Qed.
