(** The properties of the linear 3D objects: C48 to C51, C84 to C87. *)

From Coq Require Import List Bool Reals Lra Lia Psatz Permutation.
From Verif Require Import Result DOrder Vec VecProofs Mat3 Mat4 AngleModel AngleProofs RotModel RotSpec RotProofs RotProofs2 TransfModel TransfSpec
  TransfProofs TransfProofs2 Geo3Types Geo3Model Geo3Spec Geo3Proofs Geo3Proofs2 Geo3Proofs3.
Import ListNotations.
Local Open Scope R_scope.

(** Objects used in the examples: the plane z = 1, and lines meeting it. *)
Definition plane_z1 : plane := mkPlane (Some (V3 0 0 1)) (Some (V3 0 0 1)).
Lemma unit_x : sqnorm3 (V3 1 0 0) = 1.
Proof. v3unfold. ring. Qed.
Lemma unit_z : sqnorm3 (V3 0 0 1) = 1.
Proof. v3unfold. ring. Qed.

(** *** C48: plane intersections *)
Theorem C48_line :
  forall o d q n, exists b i,
  l_intersects_plane (mkLine (Some o) (Some d)) (mkPlane (Some q) (Some n)) = Ok b
  /\ l_inter_plane (mkLine (Some o) (Some d)) (mkPlane (Some q) (Some n)) = Ok i
  /\ (b = true <-> exists p, on_line o d p /\ on_plane q n p)
  /\ represents i (fun p => on_line o d p /\ on_plane q n p).
Proof. exact c48_line. Qed.
Print Assumptions C48_line.

Theorem C48_ray :
  forall o d q n, exists b i,
  r_intersects_plane (mkRay (Some o) (Some d)) (mkPlane (Some q) (Some n)) = Ok b
  /\ r_inter_plane (mkRay (Some o) (Some d)) (mkPlane (Some q) (Some n)) = Ok i
  /\ (b = true <-> exists p, on_ray o d p /\ on_plane q n p)
  /\ represents i (fun p => on_ray o d p /\ on_plane q n p).
Proof. exact c48_ray. Qed.
Print Assumptions C48_ray.

Theorem C48_segment :
  forall a c q n, exists b i,
  s_intersects_plane (mkSeg (Some a) (Some c)) (mkPlane (Some q) (Some n)) = Ok b
  /\ s_inter_plane (mkSeg (Some a) (Some c)) (mkPlane (Some q) (Some n)) = Ok i
  /\ (b = true <-> exists p, on_segment a c p /\ on_plane q n p)
  /\ represents i (fun p => on_segment a c p /\ on_plane q n p).
Proof. exact c48_segment. Qed.
Print Assumptions C48_segment.

(** The segment from the origin to (2, 4, 2) meets z = 1 at (1, 2, 1); the ray downwards does not. *)
Example C48_example : s_inter_plane (mkSeg (Some (V3 0 0 0)) (Some (V3 2 4 2))) plane_z1 = Ok (inter_point (V3 1 2 1))
  /\ r_inter_plane (mkRay (Some (V3 0 0 0)) (Some (V3 0 0 (-1)))) plane_z1 = Ok inter_empty
  /\ s_intersects_plane (mkSeg (Some (V3 0 0 0)) (Some (V3 2 4 2))) plane_z1 = Ok true.
Proof.
  assert (E : dot3 (V3 0 0 1) (sub3 (V3 2 4 2) (V3 0 0 0)) = 2) by (v3unfold; ring).
  assert (F : dot3 (V3 0 0 1) (sub3 (V3 0 0 1) (V3 0 0 0)) = 1) by (v3unfold; ring).
  assert (G : dot3 (V3 0 0 1) (V3 0 0 (-1)) = -1) by (v3unfold; ring).
  assert (N : forall x y, x <> y -> Reqb x y = false) by (intros; apply Reqb_false; assumption).
  unfold s_inter_plane, r_inter_plane, s_intersects_plane, plane_z1. cbn [s_data r_data pl_data s_first s_second r_origin r_direction pl_point pl_normal bind].
  rewrite !E, !F, !G, !N by lra. rewrite !(Rltb_f _ 0), !(Rltb_f 1), (Rltb_t (1 / -1)) by lra. rewrite !Rleb_t by lra. cbn [orb andb].
  split; [| split; reflexivity]. do 2 f_equal. apply v3_ext; v3unfold; field.
Qed.

(** *** C49: distances *)
Theorem C49_point :
  forall p q, exists d, pt_distanceTo (Some p) (Some q) = Ok d /\ least_distance (fun x => x = p) q d.
Proof. exact c49_point. Qed.
Print Assumptions C49_point.

Theorem C49_pointset :
  forall s p, s <> [] -> exists x, ps_distanceTo s (Some p) = Ok x /\ least_distance (fun q => In q s) p x.
Proof. exact c49_pointset. Qed.
Print Assumptions C49_pointset.

Theorem C49_line :
  forall l o d p, good_line l o d -> exists x, l_distanceTo l (Some p) = Ok x /\ least_distance (on_line o d) p x.
Proof. exact c49_line. Qed.
Print Assumptions C49_line.

Theorem C49_ray :
  forall r o d p, good_ray r o d -> exists x, r_distanceTo r (Some p) = Ok x /\ least_distance (on_ray o d) p x.
Proof. exact c49_ray. Qed.
Print Assumptions C49_ray.

Theorem C49_segment :
  forall s a b p, s = mkSeg (Some a) (Some b) -> exists x, s_distanceTo s (Some p) = Ok x /\ least_distance (on_segment a b) p x.
Proof. exact c49_segment. Qed.
Print Assumptions C49_segment.

Theorem C49_segment_set :
  forall s a b ps, s = mkSeg (Some a) (Some b) -> ps <> [] ->
  exists x, s_distanceTo_ps s ps = Ok x
    /\ (exists p q, In p ps /\ on_segment a b q /\ dist3 p q = x)
    /\ (forall p q, In p ps -> on_segment a b q -> x <= dist3 p q).
Proof. exact c49_segment_set. Qed.
Print Assumptions C49_segment_set.

Theorem C49_errors :
  forall p l r s, pt_distanceTo p None = Err EUndefined /\ pt_distanceTo None p = Err EUndefined
  /\ l_distanceTo l None = Err EUndefined /\ r_distanceTo r None = Err EUndefined
  /\ s_distanceTo s None = Err EUndefined /\ ps_distanceTo [] p = Err EUndefined /\ s_distanceTo_ps s [] = Err EUndefined.
Proof. exact c49_errors. Qed.
Print Assumptions C49_errors.

(** A ray and a point behind its origin, a segment and a point beyond its end. *)
Example C49_example : good_ray (mkRay (Some (V3 0 0 0)) (Some (V3 1 0 0))) (V3 0 0 0) (V3 1 0 0)
  /\ r_distanceTo (mkRay (Some (V3 0 0 0)) (Some (V3 1 0 0))) (Some (V3 (-3) 4 0)) = Ok 5
  /\ s_distanceTo (mkSeg (Some (V3 0 0 0)) (Some (V3 1 0 0))) (Some (V3 4 4 0)) = Ok 5.
Proof.
  assert (S : sqrt (5 * 5) = 5) by (apply sqrt_square; lra). split; [split; [reflexivity | apply unit_x] |]. split.
  - cbn. unfold v3_eqb. destruct v3_eq_dec as [E | _]; [exfalso; injection E; lra |]. rewrite Rltb_t by (v3unfold; lra).
    f_equal. unfold norm3. rewrite <- S. f_equal. v3unfold. ring.
  - unfold s_distanceTo, s_isDegenerate, s_data. cbn [needd bind s_first s_second]. unfold v3_eqb. destruct v3_eq_dec as [E | _]; [exfalso; injection E; lra |].
    cbn [pt_distanceTo needd bind]. rewrite (Rmin_left 1), Rmax_right by (v3unfold; lra). f_equal. unfold norm3. rewrite <- S. f_equal. v3unfold. ring.
Qed.

(** *** C50: membership *)
Theorem C50_line :
  forall l o d p, l = mkLine (Some o) (Some d) -> d <> zero3 ->
  exists b, l_contains l (Some p) = Ok b /\ (b = true <-> on_line o d p).
Proof. exact c50_line. Qed.
Print Assumptions C50_line.

Theorem C50_ray :
  forall r o d p, r = mkRay (Some o) (Some d) -> d <> zero3 ->
  exists b, r_contains r (Some p) = Ok b /\ (b = true <-> on_ray o d p).
Proof. exact c50_ray. Qed.
Print Assumptions C50_ray.

Theorem C50_segment :
  forall s a b p, s = mkSeg (Some a) (Some b) ->
  exists c, s_contains s (Some p) = Ok c /\ (c = true <-> on_segment a b p).
Proof. exact c50_segment. Qed.
Print Assumptions C50_segment.

Theorem C50_plane :
  forall q n p, exists b, pl_contains (Plane (Some q) (Some n)) (Some p) = Ok b /\ (b = true <-> on_plane q n p).
Proof. exact c50_plane. Qed.
Print Assumptions C50_plane.

Theorem C50_construct :
  forall o d, d <> zero3 ->
  exists l r u, Line (Some o) (Some d) = Ok l /\ Ray (Some o) (Some d) = Ok r
    /\ good_line l o u /\ good_ray r o u
    /\ (forall p, on_line o u p <-> on_line o d p) /\ (forall p, on_ray o u p <-> on_ray o d p).
Proof. exact c50_construct. Qed.
Print Assumptions C50_construct.

Theorem C50_construct_zero :
  forall o, Line o (Some zero3) = Err EWrong /\ Ray o (Some zero3) = Err EWrong.
Proof. exact c50_construct_zero. Qed.
Print Assumptions C50_construct_zero.

Theorem C50_through :
  forall p q, p <> q -> exists l d, Line_Points (Some p) (Some q) = Ok l /\ good_line l p d
  /\ on_line p d p /\ on_line p d q /\ (forall x, on_segment p q x -> on_line p d x)
  /\ s_toLine (mkSeg (Some p) (Some q)) = Ok l.
Proof. exact c50_through. Qed.
Print Assumptions C50_through.

Theorem C50_errors :
  forall l r s pl q, l_contains l None = Err EUndefined /\ r_contains r None = Err EUndefined
  /\ s_contains s None = Err EUndefined /\ pl_contains pl None = Err EUndefined
  /\ l_contains (mkLine None (Some q)) (Some q) = Err EUndefined /\ r_contains (mkRay None (Some q)) (Some q) = Err EUndefined
  /\ s_contains (mkSeg None (Some q)) (Some q) = Err EUndefined /\ pl_contains (mkPlane None (Some q)) (Some q) = Err EUndefined
  /\ Line_Points (Some q) (Some q) = Err ERuntime.
Proof. exact c50_errors. Qed.
Print Assumptions C50_errors.

Example C50_example : good_line (mkLine (Some (V3 0 1 0)) (Some (V3 1 0 0))) (V3 0 1 0) (V3 1 0 0) /\ V3 1 0 0 <> zero3
  /\ on_line (V3 0 1 0) (V3 1 0 0) (V3 (-7) 1 0) /\ ~ on_ray (V3 0 1 0) (V3 1 0 0) (V3 (-7) 1 0)
  /\ on_segment (V3 0 1 0) (V3 4 1 0) (V3 3 1 0) /\ on_plane (V3 0 0 1) (V3 0 0 5) (V3 8 9 1).
Proof.
  split; [split; [reflexivity | apply unit_x] |]. split; [apply unit_nonzero, unit_x |].
  split; [exists (-7); unfold along; v3unfold; apply V3_eq; ring |]. split.
  - intros (t & Ht & E). apply (f_equal vx) in E. unfold along in E. v3unfold. lra.
  - split; [exists (3 / 4); split; [lra |]; unfold along; v3unfold; apply V3_eq; field |]. unfold on_plane. v3unfold. ring.
Qed.

(** *** C51: point sets *)
Theorem C51_construct :
  forall l, exists s, PointSet (map Some l) = Ok s /\ NoDup s /\ (forall p, In p s <-> In p l).
Proof. exact c51_construct. Qed.
Print Assumptions C51_construct.

Theorem C51_construct_undefined :
  forall l, In None l -> PointSet l = Err EUndefined.
Proof. exact c51_construct_undefined. Qed.
Print Assumptions C51_construct_undefined.

Theorem C51_equal :
  forall s t, NoDup s -> NoDup t -> (ps_eq s t = true <-> forall p, In p s <-> In p t).
Proof. exact c51_equal. Qed.
Print Assumptions C51_equal.

Theorem C51_closest :
  forall s p, s <> [] -> exists q, ps_getPointClosestTo s (Some p) = Ok q /\ In q s /\ forall x, In x s -> dist3 p q <= dist3 p x.
Proof. exact c51_closest. Qed.
Print Assumptions C51_closest.

Theorem C51_closest_errors :
  forall s p, ps_getPointClosestTo [] (Some p) = Err EUndefined /\ ps_getPointClosestTo s None = Err EUndefined.
Proof. exact c51_closest_errors. Qed.
Print Assumptions C51_closest_errors.

Theorem C51_near_answers :
  forall s t tol, exists b, ps_isNear s t (Some tol) = Ok b.
Proof. exact c51_near_answers. Qed.
Print Assumptions C51_near_answers.

Theorem C51_near_sound :
  forall s t tol, ps_isNear s t (Some tol) = Ok true ->
  s <> [] /\ exists t', Permutation t t' /\ Forall2 (fun p q => dist3 p q <= tol) s t'.
Proof. exact c51_near_sound. Qed.
Print Assumptions C51_near_sound.

(** Missing: sets with points closer than twice the tolerance, refuted below. *)
Theorem C51_near_complete_partial :
  forall s t t' tol, s <> [] -> NoDup t -> (forall q q', In q t -> In q' t -> q <> q' -> 2 * tol < dist3 q q') ->
  Permutation t t' -> Forall2 (fun p q => dist3 p q <= tol) s t' -> ps_isNear s t (Some tol) = Ok true.
Proof. exact c51_near_complete_partial. Qed.
Print Assumptions C51_near_complete_partial.

(** The answer depends on the iteration order of the hash set. *)
Theorem C51_near_refuted :
  exists s s' t t' tol, NoDup s /\ NoDup t /\ Permutation s s' /\ Permutation t t'
  /\ Forall2 (fun p q => dist3 p q <= tol) s t' /\ ps_isNear s t (Some tol) = Ok false /\ ps_isNear s' t (Some tol) = Ok true.
Proof. exact c51_near_refuted. Qed.
Print Assumptions C51_near_refuted.

(** Two sets given in different orders and with a repeated point. *)
Example C51_example : exists s t, PointSet [Some (V3 1 0 0); Some (V3 0 2 0); Some (V3 1 0 0)] = Ok s
  /\ PointSet [Some (V3 0 2 0); Some (V3 1 0 0)] = Ok t /\ NoDup s /\ NoDup t /\ ps_eq s t = true /\ length s = 2%nat
  /\ forall q q', In q t -> In q' t -> q <> q' -> 2 * (1 / 2) < dist3 q q'.
Proof.
  destruct (c51_construct [V3 1 0 0; V3 0 2 0; V3 1 0 0]) as (s & S & Ns & Is). destruct (c51_construct [V3 0 2 0; V3 1 0 0]) as (t & T & Nt & It).
  exists s, t. split; [exact S |]. split; [exact T |]. split; [exact Ns |]. split; [exact Nt |].
  assert (E : ps_eq s t = true) by (apply c51_equal; [assumption | assumption |]; intros p; rewrite Is, It; cbn; tauto).
  split; [exact E |]. split.
  - unfold ps_eq in E. apply andb_true_iff in E. destruct E as [E _]. apply Nat.eqb_eq in E. rewrite E.
    apply (Permutation_length (l' := [V3 0 2 0; V3 1 0 0])). apply NoDup_Permutation; [exact Nt | | exact It].
    constructor; [intros [H | []]; injection H; intros; lra | constructor; [intros [] | constructor]].
  - assert (D : 1 < dist3 (V3 0 2 0) (V3 1 0 0)).
    { unfold dist3, norm3. apply Rle_lt_trans with (sqrt 1); [rewrite sqrt_1; lra |]. apply sqrt_lt_1_alt. v3unfold. lra. }
    intros q q' Hq Hq'. apply It in Hq. apply It in Hq'. cbn in Hq, Hq'.
    destruct Hq as [<- | [<- | []]], Hq' as [<- | [<- | []]]; intros N; try congruence; [| rewrite dist3_sym]; lra.
Qed.

(** *** C84: equality *)
Theorem C84_line :
  forall a b o d o' d', good_line a o d -> good_line b o' d' ->
  exists r, l_eq a b = Ok r /\ (r = true <-> same_points (on_line o d) (on_line o' d')).
Proof. exact c84_line. Qed.
Print Assumptions C84_line.

Theorem C84_ray :
  forall a b o d o' d', good_ray a o d -> good_ray b o' d' -> (r_eq a b = true <-> same_points (on_ray o d) (on_ray o' d')).
Proof. exact c84_ray. Qed.
Print Assumptions C84_ray.

Theorem C84_segment :
  forall s t a b a' b', s = mkSeg (Some a) (Some b) -> t = mkSeg (Some a') (Some b') ->
  (s_eq s t = true <-> same_points (on_segment a b) (on_segment a' b')).
Proof. exact c84_segment. Qed.
Print Assumptions C84_segment.

Theorem C84_plane :
  forall a b q n q' n', good_plane a q n -> good_plane b q' n' ->
  exists r, pl_eq a b = Ok r /\ (r = true <-> same_points (on_plane q n) (on_plane q' n')).
Proof. exact c84_plane. Qed.
Print Assumptions C84_plane.

Theorem C84_undefined :
  forall p q l r s pl, pt_eq None q = false /\ pt_eq p None = false
  /\ l_eq (mkLine None (Some zero3)) l = Ok false /\ r_eq (mkRay None (Some zero3)) r = false
  /\ s_eq (mkSeg None (Some zero3)) s = false /\ pl_eq (mkPlane None (Some zero3)) pl = Ok false.
Proof. exact c84_undefined. Qed.
Print Assumptions C84_undefined.

(** Centre, direction and length of a segment. *)
Theorem C84_center :
  forall a b, exists c, s_getCenter (mkSeg (Some a) (Some b)) = Ok c /\ on_segment a b c /\ dist3 c a = dist3 c b
  /\ s_getLength (mkSeg (Some a) (Some b)) = Ok (dist3 a b)
  /\ (a <> b -> exists d, s_getDirection (mkSeg (Some a) (Some b)) = Ok d /\ sqnorm3 d = 1 /\ b = along a (dist3 a b) d)
  /\ (a = b -> s_getDirection (mkSeg (Some a) (Some b)) = Err ERuntime).
Proof. exact c84_center. Qed.
Print Assumptions C84_center.

(** The same line with another origin and the opposite direction. *)
Example C84_example : good_line (mkLine (Some (V3 0 1 0)) (Some (V3 1 0 0))) (V3 0 1 0) (V3 1 0 0)
  /\ good_line (mkLine (Some (V3 5 1 0)) (Some (opp3 (V3 1 0 0)))) (V3 5 1 0) (opp3 (V3 1 0 0))
  /\ l_eq (mkLine (Some (V3 0 1 0)) (Some (V3 1 0 0))) (mkLine (Some (V3 5 1 0)) (Some (opp3 (V3 1 0 0)))) = Ok true.
Proof.
  split; [split; [reflexivity | apply unit_x] |]. split; [split; [reflexivity | v3unfold; ring] |].
  destruct (c84_line (mkLine (Some (V3 0 1 0)) (Some (V3 1 0 0))) (mkLine (Some (V3 5 1 0)) (Some (opp3 (V3 1 0 0)))) (V3 0 1 0) (V3 1 0 0) (V3 5 1 0) (opp3 (V3 1 0 0))) as (r & E & R);
    [split; [reflexivity | apply unit_x] | split; [reflexivity | v3unfold; ring] |].
  rewrite E. f_equal. apply R. intros p. split; intros (t & ->); exists (5 - t); unfold along; v3unfold; apply V3_eq; ring.
Qed.

(** *** C85: transformations *)
(** Any affine transformation; lines and rays may lose their unit direction. *)
Theorem C85_affine :
  forall eps prec t, affine3 eps prec t -> exists f, maps_points3 t f
  /\ (forall p, pt_apply t (Some p) = Ok (Some (f p)))
  /\ (forall s, s <> [] -> exists s', ps_apply t s = Ok s' /\ NoDup s' /\ forall q, In q s' <-> exists p, In p s /\ q = f p)
  /\ (forall a b, s_apply t (mkSeg (Some a) (Some b)) = Ok (mkSeg (Some (f a)) (Some (f b))) /\ image_of f (on_segment a b) (on_segment (f a) (f b)))
  /\ (forall l, l <> [] -> ls_apply t (map Some l) = Ok (map Some (map f l)))
  /\ (forall o d, exists d', l_apply t (mkLine (Some o) (Some d)) = Ok (mkLine (Some (f o)) (Some d'))
        /\ image_of f (on_line o d) (on_line (f o) d'))
  /\ (forall o d, exists d', r_apply t (mkRay (Some o) (Some d)) = Ok (mkRay (Some (f o)) (Some d'))
        /\ image_of f (on_ray o d) (on_ray (f o) d')).
Proof. exact c85_affine. Qed.
Print Assumptions C85_affine.

(** Rigid transformations keep the unit directions and normals, and map planes to planes ... *)
Theorem C85_rigid :
  forall eps prec t, 0 < eps -> 0 < prec -> proper3 eps prec t -> exists f, maps_points3 t f
  /\ (forall l o d, good_line l o d -> exists l' d', l_apply t l = Ok l' /\ good_line l' (f o) d' /\ image_of f (on_line o d) (on_line (f o) d'))
  /\ (forall r o d, good_ray r o d -> exists r' d', r_apply t r = Ok r' /\ good_ray r' (f o) d' /\ image_of f (on_ray o d) (on_ray (f o) d'))
  /\ (forall p q n, good_plane p q n -> exists p' n', pl_apply t p = Ok p' /\ good_plane p' (f q) n' /\ image_of f (on_plane q n) (on_plane (f q) n')).
Proof. exact c85_rigid. Qed.
Print Assumptions C85_rigid.

(** ... which other transformations do not. *)
Theorem C85_plane_refuted :
  forall eps prec, 0 < prec -> exists t q n q' n' p p', affine3 eps prec t
  /\ pl_apply t (mkPlane (Some q) (Some n)) = Ok (mkPlane (Some q') (Some n')) /\ sqnorm3 n = 1
  /\ on_plane q n p /\ pt_apply t (Some p) = Ok (Some p') /\ ~ on_plane q' n' p'.
Proof. exact c85_plane_refuted. Qed.
Print Assumptions C85_plane_refuted.

Theorem C85_errors :
  forall l r s pl ps ls p t, pt_apply t3_Undefined p = Err EUndefined /\ l_apply t3_Undefined l = Err EUndefined /\ r_apply t3_Undefined r = Err EUndefined
  /\ s_apply t3_Undefined s = Err EUndefined /\ pl_apply t3_Undefined pl = Err EUndefined /\ ps_apply t3_Undefined ps = Err EUndefined
  /\ ls_apply t3_Undefined ls = Err EUndefined /\ pt_apply t None = Err EUndefined /\ ps_apply t [] = Err EUndefined /\ ls_apply t [] = Err EUndefined.
Proof. exact c85_errors. Qed.
Print Assumptions C85_errors.

Example C85_example : forall eps prec, let t := mkT3 TTranslation (Some (M4 1 0 0 1 0 1 0 2 0 0 1 3 0 0 0 1)) true in
  proper3 eps prec t /\ affine3 eps prec t /\ good_plane plane_z1 (V3 0 0 1) (V3 0 0 1)
  /\ pl_apply t plane_z1 = Ok (mkPlane (Some (V3 1 2 4)) (Some (V3 0 0 1))).
Proof.
  intros eps prec t. split; [apply (made3_translation _ _ _ _ (Some (V3 1 2 3))); reflexivity |].
  split; [apply (made3_translation _ _ _ _ (Some (V3 1 2 3))); reflexivity |]. split; [split; [reflexivity | apply unit_z] |].
  unfold pl_apply, pt_apply, t3_applyTo_point, t3_applyTo_vector, t3_isDefined, t, plane_z1, head3. cbn. m4unfold. do 3 f_equal; apply V3_eq; ring.
Qed.

(** *** C86: sets of points and planes *)
Theorem C86_pointset :
  forall q n s, s <> [] -> exists b c,
  pl_contains_ps (mkPlane (Some q) (Some n)) s = Ok b /\ (b = true <-> forall p, In p s -> on_plane q n p)
  /\ pl_intersects_ps (mkPlane (Some q) (Some n)) s = Ok c /\ (c = true <-> exists p, In p s /\ on_plane q n p).
Proof. exact c86_pointset. Qed.
Print Assumptions C86_pointset.

Theorem C86_point :
  forall q n p, exists i, pl_inter_point (mkPlane (Some q) (Some n)) (Some p) = Ok i /\ represents i (fun x => x = p /\ on_plane q n x).
Proof. exact c86_point. Qed.
Print Assumptions C86_point.

Theorem C86_pointset_intersection :
  forall q n s, exists i, pl_inter_ps (mkPlane (Some q) (Some n)) s = Ok i
  /\ represents i (fun p => In p s /\ on_plane q n p).
Proof. exact c86_pointset_intersection. Qed.
Print Assumptions C86_pointset_intersection.

Theorem C86_line :
  forall q n o d, exists b, pl_contains_line (mkPlane (Some q) (Some n)) (mkLine (Some o) (Some d)) = Ok b
  /\ (b = true <-> forall p, on_line o d p -> on_plane q n p).
Proof. exact c86_line. Qed.
Print Assumptions C86_line.

Theorem C86_ray :
  forall q n o d, exists b, pl_contains_ray (mkPlane (Some q) (Some n)) (mkRay (Some o) (Some d)) = Ok b
  /\ (b = true <-> forall p, on_ray o d p -> on_plane q n p).
Proof. exact c86_ray. Qed.
Print Assumptions C86_ray.

Theorem C86_segment :
  forall q n a c, exists b, pl_contains_segment (mkPlane (Some q) (Some n)) (mkSeg (Some a) (Some c)) = Ok b
  /\ (b = true <-> forall p, on_segment a c p -> on_plane q n p).
Proof. exact c86_segment. Qed.
Print Assumptions C86_segment.

Theorem C86_line_set :
  forall o d s, d <> zero3 -> s <> [] -> exists b c,
  l_contains_ps (mkLine (Some o) (Some d)) s = Ok b /\ (b = true <-> forall p, In p s -> on_line o d p)
  /\ r_contains_ps (mkRay (Some o) (Some d)) s = Ok c /\ (c = true <-> forall p, In p s -> on_ray o d p).
Proof. exact c86_line_set. Qed.
Print Assumptions C86_line_set.

Theorem C86_empty :
  forall l r pl, l_contains_ps l [] = Err EUndefined /\ r_contains_ps r [] = Err EUndefined
  /\ pl_contains_ps pl [] = Err EUndefined /\ pl_intersects_ps pl [] = Err EUndefined.
Proof. exact c86_empty. Qed.
Print Assumptions C86_empty.

Example C86_example : forall p, (on_line (V3 0 0 1) (V3 1 0 0) p -> on_plane (V3 0 0 1) (V3 0 0 1) p)
  /\ [V3 0 0 1; V3 0 0 2] <> [] /\ pl_contains_ps plane_z1 [V3 0 0 1; V3 0 0 2] = Ok false
  /\ pl_intersects_ps plane_z1 [V3 0 0 1; V3 0 0 2] = Ok true /\ pl_inter_ps plane_z1 [V3 0 0 1; V3 0 0 2] = Ok (inter_point (V3 0 0 1)).
Proof.
  intros p. assert (T : pl_contains plane_z1 (Some (V3 0 0 1)) = Ok true) by (cbn; f_equal; apply Reqb_iff; v3unfold; ring).
  assert (F : pl_contains plane_z1 (Some (V3 0 0 2)) = Ok false) by (cbn; f_equal; apply Reqb_false; v3unfold; lra).
  split; [intros (t & ->); unfold on_plane, along; v3unfold; ring |]. split; [discriminate |].
  unfold pl_contains_ps, pl_intersects_ps, pl_inter_ps. cbn [ps_isDefined ps_isEmpty negb pl_filter allM anyM pl_data plane_z1 pl_point pl_normal bind].
  fold plane_z1. rewrite !T. cbn [bind]. rewrite !F. repeat split.
Qed.

(** *** C87: line strings *)
Theorem C87_equal :
  forall l m, ls_eq (map Some l) (map Some m) = true <-> l = m.
Proof. exact c87_equal. Qed.
Print Assumptions C87_equal.

Theorem C87_undefined_point :
  forall l, In None l -> ls_eq l l = false.
Proof. exact c87_undefined_point. Qed.
Print Assumptions C87_undefined_point.

Theorem C87_access :
  forall l i, (forall p, nth_error l i = Some p -> ls_accessPointAt l i = Ok p) /\ ((length l <= i)%nat -> ls_accessPointAt l i = Err ERuntime).
Proof. exact c87_access. Qed.
Print Assumptions C87_access.

Theorem C87_closest :
  forall l p, l <> [] -> exists q, ls_getPointClosestTo (map Some l) (Some p) = Ok q /\ In q l /\ forall x, In x l -> dist3 p q <= dist3 p x.
Proof. exact c87_closest. Qed.
Print Assumptions C87_closest.

Theorem C87_near :
  forall l m tol, exists b, ls_isNear (map Some l) (map Some m) (Some tol) = Ok b
  /\ (b = true <-> l <> [] /\ Forall2 (fun p q => dist3 p q <= tol) l m).
Proof. exact c87_near. Qed.
Print Assumptions C87_near.

Theorem C87_segment :
  forall a b, ls_Segment (mkSeg (Some a) (Some b)) = Ok [Some a; Some b].
Proof. exact c87_segment. Qed.
Print Assumptions C87_segment.

Theorem C87_errors :
  forall l p, ls_getPointClosestTo l None = Err EUndefined /\ ls_getPointClosestTo [] (Some p) = Err EUndefined
  /\ ls_getPointClosestTo [None] (Some p) = Err EUndefined.
Proof. exact c87_errors. Qed.
Print Assumptions C87_errors.

Example C87_example : [V3 0 0 0; V3 1 0 0; V3 1 1 0] <> [] /\ ls_accessPointAt [Some (V3 0 0 0); Some (V3 1 0 0)] 1 = Ok (Some (V3 1 0 0))
  /\ ls_getPointClosestTo [Some (V3 0 0 0); Some (V3 1 0 0); Some (V3 1 1 0)] (Some (V3 2 0 0)) = Ok (V3 1 0 0)
  /\ ls_isNear [Some (V3 0 0 0)] [Some (V3 0 0 0)] (Some 0) = Ok true.
Proof.
  split; [discriminate |]. split; [reflexivity |]. split.
  - unfold ls_getPointClosestTo. cbn [needd bind ls_closest]. rewrite Rltb_t by (v3unfold; lra). rewrite Rltb_f by (v3unfold; lra). reflexivity.
  - cbn. rewrite Rleb_t; [reflexivity |]. replace (sub3 (V3 0 0 0) (V3 0 0 0)) with zero3 by v3ring. rewrite (proj2 (norm3_0 zero3) eq_refl). lra.
Qed.
