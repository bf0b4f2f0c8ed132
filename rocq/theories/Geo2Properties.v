(** The properties of the 2D points, point sets, lines, segments and line strings: C63, C65, C97 to C99. *)

From Coq Require Import List Bool Reals Lra Lia Permutation.
From Verif Require Import Result DOrder Vec VecProofs Mat3 AngleModel RotModel RotProofs TransfModel TransfSpec Geo3Types Geo3Model Geo3Proofs Geo2Model Geo2Spec Geo2Proofs Geo2Proofs2.
Import ListNotations.
Local Open Scope R_scope.

(** *** C63: 2D lines and segments *)
(** Any direction other than zero, also a vertical one. *)
Theorem C63_line :
  forall l o d p, l = mkLine2 (Some o) (Some d) -> d <> zero2 ->
  exists b, l2_contains l (Some p) = Ok b /\ l2_intersects l (Some p) = Ok b /\ (b = true <-> on_line2 o d p).
Proof. exact c63_line. Qed.
Print Assumptions C63_line.

(** Also a segment reduced to a point. *)
Theorem C63_segment :
  forall s a b p, s = mkSeg2 (Some a) (Some b) ->
  exists c, s2_contains s (Some p) = Ok c /\ (c = true <-> on_segment2 a b p).
Proof. exact c63_segment. Qed.
Print Assumptions C63_segment.

(** Sets of points. *)
Theorem C63_sets :
  forall o d a b s, d <> zero2 -> s <> [] -> exists c e,
  l2_contains_ps (mkLine2 (Some o) (Some d)) s = Ok c /\ (c = true <-> forall p, In p s -> on_line2 o d p)
  /\ s2_contains_ps (mkSeg2 (Some a) (Some b)) s = Ok e /\ (e = true <-> forall p, In p s -> on_segment2 a b p).
Proof. exact c63_sets. Qed.
Print Assumptions C63_sets.

(** The empty set is contained in no segment, and not accepted by a line. *)
Theorem C63_empty_set_refuted :
  exists o d s, good_line2 (mkLine2 (Some o) (Some d)) o d
  /\ l2_contains_ps (mkLine2 (Some o) (Some d)) [] = Err EUndefined /\ s2_contains_ps s [] = Ok false.
Proof. exact c63_empty_set_refuted. Qed.
Print Assumptions C63_empty_set_refuted.

(** The constructor normalises the direction, which changes no point of the line ... *)
Theorem C63_construct :
  forall o d, d <> zero2 -> exists l u, Line2 (Some o) (Some d) = Ok l /\ good_line2 l o u /\ (forall p, on_line2 o u p <-> on_line2 o d p).
Proof. exact c63_construct. Qed.
Print Assumptions C63_construct.

(** ... and rejects the zero vector. *)
Theorem C63_construct_zero :
  forall o, Line2 o (Some zero2) = Err EWrong.
Proof. exact c63_construct_zero. Qed.
Print Assumptions C63_construct_zero.

(** The line through two points, and of a segment. *)
Theorem C63_through :
  forall p q, p <> q -> exists l d, Line2_Points (Some p) (Some q) = Ok l /\ good_line2 l p d
  /\ s2_toLine (mkSeg2 (Some p) (Some q)) = Ok l /\ (forall x, on_segment2 p q x -> on_line2 p d x).
Proof. exact c63_through. Qed.
Print Assumptions C63_through.

Theorem C63_errors :
  forall l s q, l2_contains l None = Err EUndefined /\ s2_contains s None = Err EUndefined
  /\ l2_contains (mkLine2 None (Some q)) (Some q) = Err EUndefined /\ s2_contains (mkSeg2 None (Some q)) (Some q) = Err EUndefined
  /\ Line2_Points (Some q) (Some q) = Err ERuntime /\ Line2_Points None (Some q) = Err EUndefined
  /\ l2_distanceTo l None = Err EUndefined /\ s2_distanceTo s None = Err EUndefined /\ s2_distanceTo_ps s [] = Err EUndefined.
Proof. exact c63_errors. Qed.
Print Assumptions C63_errors.

Theorem C63_point_distance :
  forall p q, exists d, p2_distanceTo (Some p) (Some q) = Ok d /\ d = dist2 p q /\ least_distance2 (fun x => x = p) q d.
Proof. exact c63_point_distance. Qed.
Print Assumptions C63_point_distance.

Theorem C63_line_distance :
  forall l o d p, good_line2 l o d -> exists x, l2_distanceTo l (Some p) = Ok x /\ least_distance2 (on_line2 o d) p x.
Proof. exact c63_line_distance. Qed.
Print Assumptions C63_line_distance.

Theorem C63_segment_distance :
  forall s a b p, s = mkSeg2 (Some a) (Some b) -> exists x, s2_distanceTo s (Some p) = Ok x /\ least_distance2 (on_segment2 a b) p x.
Proof. exact c63_segment_distance. Qed.
Print Assumptions C63_segment_distance.

(** The least of the distances from the points of a set. *)
Theorem C63_segment_set :
  forall s a b ps, s = mkSeg2 (Some a) (Some b) -> ps <> [] ->
  exists x, s2_distanceTo_ps s ps = Ok x
    /\ (exists p q, In p ps /\ on_segment2 a b q /\ dist2 p q = x)
    /\ (forall p q, In p ps -> on_segment2 a b q -> x <= dist2 p q).
Proof. exact c63_segment_set. Qed.
Print Assumptions C63_segment_set.

(** A vertical line contains (2, 7) and not (3, 7). *)
Example C63_example : l2_contains (mkLine2 (Some (V2 2 1)) (Some (V2 0 1))) (Some (V2 2 7)) = Ok true
  /\ l2_contains (mkLine2 (Some (V2 2 1)) (Some (V2 0 1))) (Some (V2 3 7)) = Ok false.
Proof.
  assert (D : V2 0 1 <> zero2) by (intros E; apply (f_equal y2) in E; cbn in E; lra). split.
  - destruct (c63_line _ (V2 2 1) (V2 0 1) (V2 2 7) eq_refl D) as (b & B & _ & Bi). rewrite B. f_equal. apply Bi. exists 6. unfold along2. v2unfold. apply V2_eq; ring.
  - destruct (c63_line _ (V2 2 1) (V2 0 1) (V2 3 7) eq_refl D) as (b & B & _ & Bi). rewrite B. f_equal. destruct b; [| reflexivity]. destruct (proj1 Bi eq_refl) as (t & E).
    apply (f_equal x2) in E. unfold along2 in E. v2unfold. lra.
Qed.
(** The point (5, 4) is at the distance 5 of the segment from (0, 0) to (2, 0): the closest point is an end. *)
Example C63_example_distance : s2_distanceTo (mkSeg2 (Some (V2 0 0)) (Some (V2 2 0))) (Some (V2 5 4)) = Ok 5.
Proof.
  destruct (c63_segment_distance _ (V2 0 0) (V2 2 0) (V2 5 4) eq_refl) as (x & X & (q & (t & Ht & ->) & D) & L). rewrite X. f_equal.
  assert (N : dist2 (V2 5 4) (V2 2 0) = 5).
  { unfold dist2, norm2. v2unfold. replace ((5 - 2) * (5 - 2) + (4 - 0) * (4 - 0)) with (5 * 5) by ring. apply sqrt_square. lra. }
  assert (U : x <= 5) by (rewrite <- N; apply L; exists 1; split; [lra |]; unfold along2; v2unfold; apply V2_eq; ring).
  assert (V : 5 <= x); [| lra]. rewrite <- D, <- N. apply norm2_le. unfold along2. v2unfold.
  replace (5 - (0 + t * (2 - 0))) with (5 - 2 * t) by ring. replace (4 - (0 + t * (0 - 0))) with 4 by ring. nra.
Qed.

(** *** C65: 2D line strings *)
(** Also a line string of one vertex. *)
Theorem C65_contains :
  forall l p, l <> [] -> exists b, ls2_contains (map Some l) (Some p) = Ok b /\ (b = true <-> on_string2 l p).
Proof. exact c65_contains. Qed.
Print Assumptions C65_contains.

(** Two vertices or more: the segments of consecutive vertices. *)
Theorem C65_segments :
  forall l p, (2 <= length l)%nat -> (ls2_contains (map Some l) (Some p) = Ok true <->
  exists i a b, nth_error l i = Some a /\ nth_error l (S i) = Some b /\ on_segment2 a b p).
Proof. exact c65_segments. Qed.
Print Assumptions C65_segments.

Theorem C65_equal :
  forall l m, ls2_eq (map Some l) (map Some m) = true <-> l = m.
Proof. exact c65_equal. Qed.
Print Assumptions C65_equal.

(** A line string with an undefined vertex is defined, and not equal to itself. *)
Theorem C65_undefined_point_refuted :
  exists l : linestring2, ls2_isDefined l = true /\ ls2_eq l l = false.
Proof. exact c65_undefined_point_refuted. Qed.
Print Assumptions C65_undefined_point_refuted.

(** The closest vertex.  Missing from C65: the closest point, which is another one (below). *)
Theorem C65_closest_vertex_partial :
  forall l p, l <> [] -> exists q, ls2_getPointClosestTo (map Some l) (Some p) = Ok q /\ In q l /\ forall x, In x l -> dist2 p q <= dist2 p x.
Proof. exact c65_closest_vertex_partial. Qed.
Print Assumptions C65_closest_vertex_partial.

Theorem C65_closest_point_refuted :
  exists l p q x, ls2_getPointClosestTo (map Some l) (Some p) = Ok q
  /\ on_string2 l x /\ dist2 p x < dist2 p q.
Proof. exact c65_closest_point_refuted. Qed.
Print Assumptions C65_closest_point_refuted.

Theorem C65_near :
  forall l m tol, exists b, ls2_isNear (map Some l) (map Some m) (Some tol) = Ok b
  /\ (b = true <-> l <> [] /\ Forall2 (fun p q => dist2 p q <= tol) l m).
Proof. exact c65_near. Qed.
Print Assumptions C65_near.

Theorem C65_access :
  forall l i, (forall p, nth_error l i = Some p -> ls2_accessPointAt l i = Ok p) /\ ((length l <= i)%nat -> ls2_accessPointAt l i = Err ERuntime).
Proof. exact c65_access. Qed.
Print Assumptions C65_access.

Theorem C65_segment :
  forall a b p, exists l, ls2_Segment (mkSeg2 (Some a) (Some b)) = Ok (map Some l) /\ (on_string2 l p <-> on_segment2 a b p).
Proof. exact c65_segment. Qed.
Print Assumptions C65_segment.

Theorem C65_errors :
  forall l p, ls2_contains l None = Err EUndefined /\ ls2_contains [] (Some p) = Err EUndefined
  /\ ls2_getPointClosestTo l None = Err EUndefined /\ ls2_getPointClosestTo [] (Some p) = Err EUndefined
  /\ ls2_contains [None; Some p] (Some p) = Err EUndefined /\ ls2_Segment (mkSeg2 None (Some p)) = Err EUndefined.
Proof. exact c65_errors. Qed.
Print Assumptions C65_errors.

(** Two segments: the middle of the second one is on the line string. *)
Example C65_example : ls2_contains (map Some [V2 0 0; V2 2 0; V2 2 2]) (Some (V2 2 1)) = Ok true.
Proof.
  apply c65_segments; [cbn; lia |]. exists 1%nat, (V2 2 0), (V2 2 2). split; [reflexivity |]. split; [reflexivity |]. exists (1 / 2). split; [lra |]. unfold along2. v2unfold. apply V2_eq; field.
Qed.
(** The order of the vertices matters for equality. *)
Example C65_example_equal : ls2_eq (map Some [V2 0 0; V2 2 0]) (map Some [V2 2 0; V2 0 0]) = false.
Proof.
  destruct (ls2_eq (map Some [V2 0 0; V2 2 0]) (map Some [V2 2 0; V2 0 0])) eqn:E; [| reflexivity]. apply c65_equal in E. injection E. intros. lra.
Qed.

(** *** C97: equality and arithmetic of 2D objects *)
(** Lines are equal exactly when they have the same points ... *)
Theorem C97_line :
  forall a b o d o' d', good_line2 a o d -> good_line2 b o' d' ->
  exists r, l2_eq a b = Ok r /\ (r = true <-> same_points2 (on_line2 o d) (on_line2 o' d')).
Proof. exact c97_line. Qed.
Print Assumptions C97_line.

(** ... and segments too. *)
Theorem C97_segment :
  forall s t a b a' b', s = mkSeg2 (Some a) (Some b) -> t = mkSeg2 (Some a') (Some b') ->
  (s2_eq s t = true <-> same_points2 (on_segment2 a b) (on_segment2 a' b')).
Proof. exact c97_segment. Qed.
Print Assumptions C97_segment.

Theorem C97_center :
  forall a b, exists c, s2_getCenter (mkSeg2 (Some a) (Some b)) = Ok c /\ on_segment2 a b c /\ dist2 c a = dist2 c b
  /\ s2_getLength (mkSeg2 (Some a) (Some b)) = Ok (dist2 a b)
  /\ (a <> b -> exists d, s2_getDirection (mkSeg2 (Some a) (Some b)) = Ok d /\ sqnorm2 d = 1 /\ b = along2 a (dist2 a b) d)
  /\ (a = b -> s2_getDirection (mkSeg2 (Some a) (Some b)) = Err ERuntime).
Proof. exact c97_center. Qed.
Print Assumptions C97_center.

Theorem C97_point :
  forall p q, p2_eq (Some p) (Some q) = true <-> p = q.
Proof. exact c97_point. Qed.
Print Assumptions C97_point.

Theorem C97_arithmetic :
  forall p v q, p2_add (Some p) (Some v) = Ok (add2 p v)
  /\ p2_sub (Some q) (Some p) = Ok (sub2 q p) /\ p2_subv (Some (add2 p v)) (Some v) = Ok p /\ p2_add (Some p) (Some (sub2 q p)) = Ok q.
Proof. exact c97_arithmetic. Qed.
Print Assumptions C97_arithmetic.

Theorem C97_near :
  forall p q tol, exists b, p2_isNear (Some p) (Some q) (Some tol) = Ok b /\ (b = true <-> dist2 p q <= tol).
Proof. exact c97_near. Qed.
Print Assumptions C97_near.

Theorem C97_undefined :
  forall p q l s, p2_eq None q = false /\ p2_eq p None = false /\ l2_eq (mkLine2 None (Some zero2)) l = Ok false
  /\ s2_eq (mkSeg2 None (Some zero2)) s = false /\ p2_add None (Some zero2) = Err EUndefined /\ p2_add p None = Err EUndefined
  /\ p2_sub None p = Err EUndefined /\ p2_sub p None = Err EUndefined /\ p2_isNear p q None = Err EUndefined.
Proof. exact c97_undefined. Qed.
Print Assumptions C97_undefined.

(** The same line with another origin and the opposite direction. *)
Example C97_example : l2_eq (mkLine2 (Some (V2 0 1)) (Some (V2 1 0))) (mkLine2 (Some (V2 5 1)) (Some (V2 (-1) 0))) = Ok true.
Proof.
  destruct (c97_line (mkLine2 (Some (V2 0 1)) (Some (V2 1 0))) (mkLine2 (Some (V2 5 1)) (Some (V2 (-1) 0))) (V2 0 1) (V2 1 0) (V2 5 1) (V2 (-1) 0)) as (r & -> & Ri).
  - split; [reflexivity | v2unfold; ring].
  - split; [reflexivity | v2unfold; ring].
  - f_equal. apply Ri. intros p. split; intros (t & ->); [exists (5 - t) | exists (5 - t)]; unfold along2; v2unfold; apply V2_eq; ring.
Qed.

(** *** C98: 2D point sets *)
Theorem C98_construct :
  forall l, exists s, PointSet2 (map Some l) = Ok s /\ NoDup s /\ (forall p, In p s <-> In p l).
Proof. exact c98_construct. Qed.
Print Assumptions C98_construct.

Theorem C98_construct_undefined :
  forall l, In None l -> PointSet2 l = Err EUndefined.
Proof. exact c98_construct_undefined. Qed.
Print Assumptions C98_construct_undefined.

Theorem C98_equal :
  forall s t, NoDup s -> NoDup t -> (ps2_eq s t = true <-> forall p, In p s <-> In p t).
Proof. exact c98_equal. Qed.
Print Assumptions C98_equal.

Theorem C98_closest :
  forall s p, s <> [] -> exists q, ps2_getPointClosestTo s (Some p) = Ok q /\ In q s /\ forall x, In x s -> dist2 p q <= dist2 p x.
Proof. exact c98_closest. Qed.
Print Assumptions C98_closest.

Theorem C98_distance :
  forall s p, s <> [] -> exists x, ps2_distanceTo s (Some p) = Ok x /\ least_distance2 (fun q => In q s) p x.
Proof. exact c98_distance. Qed.
Print Assumptions C98_distance.

Theorem C98_near_sound :
  forall s t tol, ps2_isNear s t (Some tol) = Ok true ->
  s <> [] /\ exists t', Permutation t t' /\ Forall2 (fun p q => dist2 p q <= tol) s t'.
Proof. exact c98_near_sound. Qed.
Print Assumptions C98_near_sound.

Theorem C98_near_answers :
  forall s t tol, exists b, ps2_isNear s t (Some tol) = Ok b.
Proof. exact c98_near_answers. Qed.
Print Assumptions C98_near_answers.

(** Missing: points of the second set closer than twice the tolerance, for which the answer depends on the iteration order (below). *)
Theorem C98_near_complete_partial :
  forall s t t' tol, s <> [] -> NoDup t -> (forall q q', In q t -> In q' t -> q <> q' -> 2 * tol < dist2 q q') ->
  Permutation t t' -> Forall2 (fun p q => dist2 p q <= tol) s t' -> ps2_isNear s t (Some tol) = Ok true.
Proof. exact c98_near_complete_partial. Qed.
Print Assumptions C98_near_complete_partial.

Theorem C98_near_refuted :
  exists s s' t t' tol, NoDup s /\ NoDup t /\ Permutation s s' /\ Permutation t t'
  /\ Forall2 (fun p q => dist2 p q <= tol) s t' /\ ps2_isNear s t (Some tol) = Ok false /\ ps2_isNear s' t (Some tol) = Ok true.
Proof. exact c98_near_refuted. Qed.
Print Assumptions C98_near_refuted.

Theorem C98_errors :
  forall s p, ps2_getPointClosestTo [] (Some p) = Err EUndefined /\ ps2_getPointClosestTo s None = Err EUndefined
  /\ ps2_distanceTo [] (Some p) = Err EUndefined /\ ps2_distanceTo s None = Err EUndefined
  /\ ps2_isNear [] s None = Ok false /\ ps2_isNear s [] None = Ok false.
Proof. exact c98_errors. Qed.
Print Assumptions C98_errors.

(** Two points far apart: the sets are near whatever the order. *)
Example C98_example : ps2_isNear [V2 0 0; V2 9 0] [V2 10 0; V2 1 0] (Some 1) = Ok true.
Proof.
  assert (K : forall a b : R, a - b <= -9 \/ 9 <= a - b -> 2 * 1 < dist2 (V2 a 0) (V2 b 0)) by (intros a b H; rewrite dist2_x; unfold Rabs; destruct Rcase_abs; lra).
  apply (c98_near_complete_partial _ _ [V2 1 0; V2 10 0]).
  - discriminate.
  - constructor; [intros [E | []]; injection E; lra |]. constructor; [intros [] | constructor].
  - intros q q' [<- | [<- | []]] [<- | [<- | []]] N; try congruence; apply K; lra.
  - apply perm_swap.
  - repeat constructor; rewrite dist2_x; unfold Rabs; destruct Rcase_abs; lra.
Qed.
Example C98_example_closest : exists q, ps2_getPointClosestTo [V2 0 0; V2 9 0] (Some (V2 7 0)) = Ok q /\ q = V2 9 0.
Proof.
  destruct (c98_closest [V2 0 0; V2 9 0] (V2 7 0)) as (q & Q & I & L); [discriminate |]. exists q. split; [exact Q |].
  specialize (L (V2 9 0) (or_intror (or_introl eq_refl))). destruct I as [<- | [<- | []]]; [| reflexivity]. rewrite !dist2_x in L.
  rewrite Rabs_right, Rabs_left in L by lra. lra.
Qed.

(** *** C99: 2D transformations of objects *)
Theorem C99_images :
  forall t, made2 t -> exists f, maps_points2 t f
  /\ (forall p q, dist2 (f p) (f q) = dist2 p q)
  /\ (forall p, p2_apply t (Some p) = Ok (Some (f p)))
  /\ (forall s, s <> [] -> exists s', ps2_apply t s = Ok s' /\ NoDup s' /\ forall q, In q s' <-> exists p, In p s /\ q = f p)
  /\ (forall a b, s2_apply t (mkSeg2 (Some a) (Some b)) = Ok (mkSeg2 (Some (f a)) (Some (f b))) /\ image_of2 f (on_segment2 a b) (on_segment2 (f a) (f b)))
  /\ (forall l, l <> [] -> ls2_apply t (map Some l) = Ok (map Some (map f l)) /\ image_of2 f (on_string2 l) (on_string2 (map f l)))
  /\ (forall l o d, good_line2 l o d -> exists l' d', l2_apply t l = Ok l' /\ good_line2 l' (f o) d' /\ image_of2 f (on_line2 o d) (on_line2 (f o) d')).
Proof. exact c99_images. Qed.
Print Assumptions C99_images.

Theorem C99_errors :
  forall l s ps ls p t, p2_apply t2_Undefined p = Err EUndefined /\ l2_apply t2_Undefined l = Err EUndefined
  /\ s2_apply t2_Undefined s = Err EUndefined /\ ps2_apply t2_Undefined ps = Err EUndefined
  /\ ls2_apply t2_Undefined ls = Err EUndefined /\ p2_apply t None = Err EUndefined /\ ps2_apply t [] = Err EUndefined /\ ls2_apply t [] = Err EUndefined.
Proof. exact c99_errors. Qed.
Print Assumptions C99_errors.

(** A translation. *)
Example C99_example : exists t, t2_Translation (Some (V2 1 2)) = Ok t /\ s2_apply t (mkSeg2 (Some (V2 0 0)) (Some (V2 3 0))) = Ok (mkSeg2 (Some (V2 1 2)) (Some (V2 4 2))).
Proof.
  eexists. split; [reflexivity |]. destruct (c99_images (mkT2 TTranslation (Some (M3 1 0 1 0 1 2 0 0 1)))) as (f & M & _ & _ & _ & S & _).
  - apply (made2_translation (Some (V2 1 2))). reflexivity.
  - cbn [t2_Translation needd bind x2 y2]. rewrite (proj1 (S _ _)). assert (F : forall p, f p = add2 p (V2 1 2)); [| rewrite !F; v2unfold; f_equal; apply (f_equal2 mkSeg2); apply f_equal, V2_eq; ring].
    intros p. specialize (M p). cbn in M. injection M as <-. unfold head2, mulv3, dot3, row3. destruct p as [a b]. v2unfold. cbn. apply V2_eq; ring.
Qed.
