(** The properties of ellipsoids: C53, C88, C89, C90. *)

From Coq Require Import List Bool Reals Lra Lia Psatz.
From Verif Require Import Result DOrder Vec VecProofs Mat3 Mat4 AngleModel AngleProofs RotModel RotSpec RotProofs RotProofs2 TransfModel TransfSpec
  TransfProofs TransfProofs2 Geo3Types Geo3Model Geo3Spec Geo3Proofs Geo3Proofs2 Geo3Proofs3 GteModel GteSpec ChordProofs SphereSpec SphereProofs GteProofs
  EllModel EllSpec EllProofs EllProofs2 EllProofs3 EllProofs4.
Import ListNotations.
Local Open Scope R_scope.

(** Two ellipsoids for the examples: along the coordinate axes, and turned about the vertical. *)
Definition oval : ellipsoid := mkEll (Some (V3 1 2 3)) (Some 3) (Some 2) (Some 1) (Some q_Unit).
Lemma oval_good eps : 0 < eps -> good_ellipsoid eps oval (V3 1 2 3) unit_axes (3, 2, 1).
Proof.
  intros He. pose proof (good_make eps (V3 1 2 3) q_Unit 3 2 1 He) as G. replace (qconj q_Unit) with q_Unit in G by (unfold q_Unit; qunfold; apply Q4_eq; ring).
  rewrite !rot_unit in G. apply G; [unfold unit_q, q_Unit; qunfold; ring | split; [lra | split; lra]].
Qed.
Definition turned : ellipsoid := mkEll (Some zero3) (Some 2) (Some 1) (Some 1) (Some (Q4 0 0 (3 / 5) (4 / 5))).
Lemma turned_good eps : 0 < eps -> exists u, good_ellipsoid eps turned zero3 u (2, 1, 1).
Proof.
  intros He. eexists. apply good_make; [exact He | unfold unit_q; qunfold; field | split; [lra | split; lra]].
Qed.

(** *** C53: containment, axes and matrix *)
Theorem C53_axes :
  forall eps e c u k, 0 < eps -> good_ellipsoid eps e c u k ->
  orthonormal u /\ e_axes eps e = Ok u
  /\ (let '(u1, u2, u3) := u in let '(k1, k2, k3) := k in
      on_ellipsoid c u k (add3 c (scale3 k1 u1)) /\ on_ellipsoid c u k (add3 c (scale3 k2 u2)) /\ on_ellipsoid c u k (add3 c (scale3 k3 u3))).
Proof. exact c53_axes. Qed.
Print Assumptions C53_axes.

Theorem C53_matrix :
  forall eps e c u k, 0 < eps -> good_ellipsoid eps e c u k ->
  exists m, e_getMatrix eps e = Ok m /\ transpose3 m = m /\ forall p, dot3 (sub3 p c) (mulv3 m (sub3 p c)) = 1 <-> on_ellipsoid c u k p.
Proof. exact c53_matrix. Qed.
Print Assumptions C53_matrix.

(** The orientation used is the opposite one: the axes [contains] works with are those the orientation turns the coordinate axes into, not those it turns into the coordinate axes. *)
Theorem C53_contains :
  forall eps e c u k p, 0 < eps -> good_ellipsoid eps e c u k ->
  exists b f w1 w2 w3, e_contains eps e (Some p) = Ok b
    /\ (forall q, e_q e = Some q -> q_rotates eps q f) /\ w1 = f (V3 1 0 0) /\ w2 = f (V3 0 1 0) /\ w3 = f (V3 0 0 1)
    /\ (b = true <-> near_ellipsoid eps c (w1, w2, w3) k p).
Proof. exact c53_contains. Qed.
Print Assumptions C53_contains.

(** Agreement with the surface when inverting the orientation does not matter.  Missing: the other orientations, for which the statement is false (next theorem). *)
Theorem C53_contains_partial :
  forall eps e c u k p, 0 < eps -> good_ellipsoid eps e c u k -> reversible eps e ->
  exists b, e_contains eps e (Some p) = Ok b /\ (b = true <-> near_ellipsoid eps c u k p).
Proof. exact c53_contains_partial. Qed.
Print Assumptions C53_contains_partial.

(** A point of the surface is not contained, and a point away from the surface is. *)
Theorem C53_contains_refuted :
  forall eps, 0 < eps -> eps <= 1 / 2 -> exists e c u k p p',
  good_ellipsoid eps e c u k
  /\ on_ellipsoid c u k p /\ e_contains eps e (Some p) = Ok false
  /\ ~ near_ellipsoid eps c u k p' /\ e_contains eps e (Some p') = Ok true.
Proof. exact c53_contains_refuted. Qed.
Print Assumptions C53_contains_refuted.

Theorem C53_sets :
  forall eps e c u k ps a b, 0 < eps -> good_ellipsoid eps e c u k ->
  exists x y z, e_contains_ps eps e ps = Ok x /\ e_intersects_ps eps e ps = Ok y /\ e_contains_segment eps e (mkSeg (Some a) (Some b)) = Ok z
    /\ (x = true <-> ps <> [] /\ forall p, In p ps -> e_contains eps e (Some p) = Ok true)
    /\ (y = true <-> exists p, In p ps /\ e_contains eps e (Some p) = Ok true)
    /\ (z = true <-> e_contains eps e (Some a) = Ok true /\ e_contains eps e (Some b) = Ok true).
Proof. exact c53_sets. Qed.
Print Assumptions C53_sets.

Theorem C53_negative :
  forall p a b c q, (exists x, (a = Some x \/ b = Some x \/ c = Some x) /\ x < 0) -> Ellipsoid p a b c q = Err ERuntime.
Proof. exact c53_negative. Qed.
Print Assumptions C53_negative.

Example C53_example : good_ellipsoid 1 oval (V3 1 2 3) unit_axes (3, 2, 1) /\ reversible 1 oval
  /\ on_ellipsoid (V3 1 2 3) unit_axes (3, 2, 1) (V3 4 2 3) /\ e_contains 1 oval (Some (V3 4 2 3)) = Ok true
  /\ (exists u, good_ellipsoid 1 turned zero3 u (2, 1, 1))
  /\ Ellipsoid (Some zero3) (Some 1) (Some (-1)) (Some 1) (Some q_Unit) = Err ERuntime.
Proof.
  pose proof (oval_good 1 ltac:(lra)) as G. assert (Rv : reversible 1 oval).
  { right. left. intros q v w E H. injection E as <-. assert (U : unit_q q_Unit) by (unfold unit_q, q_Unit; qunfold; ring).
    rewrite q_rotate_unit in H |- * by (lra || assumption). apply ok_inj in H. subst w. rewrite !rot_unit. reflexivity. }
  assert (O : on_ellipsoid (V3 1 2 3) unit_axes (3, 2, 1) (V3 4 2 3)) by (unfold on_ellipsoid, ellipsoid_form, unit_axes; v3unfold; field).
  split; [exact G |]. split; [exact Rv |]. split; [exact O |]. split; [| split; [apply turned_good; lra |]].
  - destruct (c53_contains_partial 1 oval _ _ _ (V3 4 2 3) ltac:(lra) G Rv) as (b & -> & H). f_equal. apply H. unfold near_ellipsoid. rewrite O.
    replace (1 - 1) with 0 by ring. rewrite Rabs_R0. lra.
  - apply c53_negative. exists (-1). split; [tauto | lra].
Qed.

(** *** C88: intersection tests *)
Theorem C88_intersects :
  forall g eps e c u k, 0 < eps -> ellipsoid_queries g -> good_ellipsoid eps e c u k ->
  (forall l o d, good_line l o d -> exists b, e_intersects_line g eps e l = Ok b /\ decides b (fun p => on_line o d p /\ solid_ellipsoid c u k p))
  /\ (forall ry o d, good_ray ry o d -> exists b, e_intersects_ray g eps e ry = Ok b /\ decides b (fun p => on_ray o d p /\ solid_ellipsoid c u k p))
  /\ (forall pl q n, good_plane pl q n -> exists b, e_intersects_plane g eps e pl = Ok b /\ decides b (fun p => on_plane q n p /\ solid_ellipsoid c u k p)).
Proof. exact c88_intersects. Qed.
Print Assumptions C88_intersects.

(** Answers true when the segment has points on both sides of the surface.  Missing: segments whose line passes within the tolerance of tangency. *)
Theorem C88_segment_partial :
  forall eps tol e c u k a b, 0 < eps -> 0 <= tol -> good_ellipsoid eps e c u k -> a <> b ->
  let margin := tol * sqnorm3 (sub3 b a) / ellipsoid_form u k (sub3 b a) in
  let on_line := on_line a (sub3 b a) in
  let value p := ellipsoid_form u k (sub3 p c) in
  exists r, e_intersects_segment eps tol e (mkSeg (Some a) (Some b)) = Ok r
    /\ ((forall x, on_line x -> 1 + margin < value x) -> r = false)
    /\ ((exists x, on_line x /\ value x < 1 - margin) ->
          (r = true <-> (exists x, on_segment a b x /\ solid_ellipsoid c u k x) /\ (exists x, on_segment a b x /\ ~ solid_ellipsoid c u k x)))
    /\ (forall y, (forall x, on_line x /\ solid_ellipsoid c u k x <-> x = y) -> (r = true <-> on_segment a b y))
    /\ (r = true -> exists x, on_segment a b x /\ Rabs (value x - 1) <= margin).
Proof. exact c88_segment_partial. Qed.
Print Assumptions C88_segment_partial.

Theorem C88_segment_degenerate :
  forall eps tol e c u k a, 0 < eps -> good_ellipsoid eps e c u k ->
  e_intersects_segment eps tol e (mkSeg (Some a) (Some a)) = e_contains eps e (Some a).
Proof. exact c88_segment_degenerate. Qed.
Print Assumptions C88_segment_degenerate.

(** A chord with both end points on the surface: the answer is false. *)
Theorem C88_chord_refuted :
  forall eps tol, 0 < eps -> 0 <= tol < 1 -> exists e a b c u k, a <> b /\ good_ellipsoid eps e c u k
  /\ on_ellipsoid c u k a /\ on_ellipsoid c u k b
  /\ e_intersects_segment eps tol e (mkSeg (Some a) (Some b)) = Ok false.
Proof. exact c88_chord_refuted. Qed.
Print Assumptions C88_chord_refuted.

(** The assumptions about GTE can be met; a segment leaving the ellipsoid crosses its surface. *)
Example C88_example : ellipsoid_queries ref_gte /\ good_ellipsoid 1 oval (V3 1 2 3) unit_axes (3, 2, 1)
  /\ good_line (mkLine (Some zero3) (Some (V3 1 0 0))) zero3 (V3 1 0 0)
  /\ e_intersects_segment 1 (1 / 100) oval (mkSeg (Some (V3 1 2 3)) (Some (V3 9 2 3))) = Ok true.
Proof.
  pose proof (oval_good 1 ltac:(lra)) as G. split; [exact ref_ellipsoid |]. split; [exact G |]. split; [split; [reflexivity | v3unfold; ring] |].
  assert (N : V3 1 2 3 <> V3 9 2 3) by (intros X; apply (f_equal vx) in X; simpl in X; lra).
  assert (F : forall v, ellipsoid_form unit_axes (3, 2, 1) v = (vx v / 3) ^ 2 + (vy v / 2) ^ 2 + (vz v) ^ 2) by (intros; unfold ellipsoid_form, unit_axes; v3unfold; field).
  destruct (c88_segment_partial 1 (1 / 100) oval _ _ _ (V3 1 2 3) (V3 9 2 3) ltac:(lra) ltac:(lra) G N) as (r & -> & _ & H & _). f_equal. apply H.
  - exists (V3 1 2 3). split; [exists 0; unfold along; v3unfold; apply V3_eq; ring |]. rewrite !F. v3unfold. lra.
  - split.
    + exists (V3 1 2 3). split; [exists 0; split; [lra |]; unfold along; v3unfold; apply V3_eq; ring |]. unfold solid_ellipsoid. rewrite F. v3unfold. lra.
    + exists (V3 9 2 3). split; [exists 1; split; [lra |]; unfold along; v3unfold; apply V3_eq; ring |]. unfold solid_ellipsoid. rewrite F. v3unfold. lra.
Qed.

(** *** C89: intersections *)
Theorem C89_line :
  forall g eps e c u k l o d, 0 < eps -> ellipsoid_queries g -> good_ellipsoid eps e c u k -> good_line l o d ->
  exists i, e_inter_line g eps e l = Ok i /\ represents i (fun p => on_line o d p /\ on_ellipsoid c u k p).
Proof. exact c89_line. Qed.
Print Assumptions C89_line.

(** All points of the surface on the ray are found, except the origin when [contains] rejects it; two points closer than the tolerance are returned as one. *)
Theorem C89_ray_partial :
  forall g eps e c u k ry o d, 0 < eps -> ellipsoid_queries g -> good_ellipsoid eps e c u k -> good_ray ry o d ->
  exists i T T', e_inter_ray g eps e ry false = Ok i /\ represents i T' /\ merged eps T T'
    /\ hits_except (on_ray o d) (on_ellipsoid c u k) (fun x => e_contains eps e (Some x) = Ok true) (fun x => x = o) T
    /\ exists j, e_inter_ray g eps e ry true = Ok j
       /\ ((j = inter_empty /\ forall x, ~ T' x) \/ (exists p, j = inter_point p /\ closest_of T' o p)).
Proof. exact c89_ray_partial. Qed.
Print Assumptions C89_ray_partial.

(** The same for segments and their end points. *)
Theorem C89_segment_partial :
  forall g eps e c u k a b, 0 < eps -> ellipsoid_queries g -> good_ellipsoid eps e c u k -> a <> b ->
  exists i T, e_inter_segment g eps e (mkSeg (Some a) (Some b)) = Ok i /\ represents i T
    /\ hits_except (on_segment a b) (on_ellipsoid c u k) (fun x => e_contains eps e (Some x) = Ok true) (fun x => x = a \/ x = b) T.
Proof. exact c89_segment_partial. Qed.
Print Assumptions C89_segment_partial.

(** A segment of one point is tested as a point. *)
Theorem C89_degenerate :
  forall g eps e c u k a, 0 < eps -> good_ellipsoid eps e c u k ->
  (e_contains eps e (Some a) = Ok true -> e_inter_segment g eps e (mkSeg (Some a) (Some a)) = Ok (inter_point a))
  /\ (e_contains eps e (Some a) = Ok false -> fi_segment_ellipsoid g a a c u k = None \/ fi_segment_ellipsoid g a a c u k = Some [a] ->
      e_inter_segment g eps e (mkSeg (Some a) (Some a)) = Ok inter_empty).
Proof. exact c89_degenerate. Qed.
Print Assumptions C89_degenerate.

(** A tangent ray from a point of the surface: nothing is found. *)
Theorem C89_origin_refuted :
  forall g eps, 0 < eps -> eps <= 1 / 2 -> ellipsoid_queries g -> exists e c u k ry o d,
  good_ellipsoid eps e c u k /\ good_ray ry o d /\ on_ellipsoid c u k o /\ e_inter_ray g eps e ry false = Ok inter_empty.
Proof. exact c89_origin_refuted. Qed.
Print Assumptions C89_origin_refuted.

Example C89_example : ellipsoid_queries ref_gte /\ good_ellipsoid 1 oval (V3 1 2 3) unit_axes (3, 2, 1)
  /\ good_line (mkLine (Some (V3 9 2 3)) (Some (V3 1 0 0))) (V3 9 2 3) (V3 1 0 0)
  /\ good_ray (mkRay (Some (V3 9 2 3)) (Some (V3 (-1) 0 0))) (V3 9 2 3) (V3 (-1) 0 0)
  /\ (forall x, x = V3 4 2 3 \/ x = V3 (-2) 2 3 -> on_ray (V3 9 2 3) (V3 (-1) 0 0) x /\ on_ellipsoid (V3 1 2 3) unit_axes (3, 2, 1) x)
  /\ V3 9 2 3 <> V3 1 2 3.
Proof.
  split; [exact ref_ellipsoid |]. split; [apply oval_good; lra |]. split; [split; [reflexivity | v3unfold; ring] |]. split; [split; [reflexivity | v3unfold; ring] |].
  split; [| intros X; apply (f_equal vx) in X; simpl in X; lra].
  intros x [-> | ->]; (split; [| unfold on_ellipsoid, ellipsoid_form, unit_axes; v3unfold; field]).
  - exists 5. split; [lra |]. unfold along; v3unfold; apply V3_eq; ring.
  - exists 11. split; [lra |]. unfold along; v3unfold; apply V3_eq; ring.
Qed.

(** *** C90: equality and transformation *)
(** Equal ellipsoids have the same center and forms within the tolerance ... *)
Theorem C90_equal_sound :
  forall eps e f c u k c' u' k', 0 < eps -> good_ellipsoid eps e c u k -> good_ellipsoid eps f c' u' k' ->
  e_eq eps e f = Ok true -> c = c' /\ forall v, Rabs (ellipsoid_form u k v - ellipsoid_form u' k' v) <= eps * sqnorm3 v.
Proof. exact c90_equal_sound. Qed.
Print Assumptions C90_equal_sound.

(** ... and identical surfaces always compare equal, whatever the order of the axes. *)
Theorem C90_equal_complete :
  forall eps e f c u k c' u' k', 0 < eps -> good_ellipsoid eps e c u k -> good_ellipsoid eps f c' u' k' ->
  same_points (on_ellipsoid c u k) (on_ellipsoid c' u' k') -> e_eq eps e f = Ok true.
Proof. exact c90_equal_complete. Qed.
Print Assumptions C90_equal_complete.

(** Concentric ellipsoids without common points that compare equal (large semi-axes). *)
Theorem C90_equal_refuted :
  forall eps, 0 < eps -> exists e f c u k u' k', good_ellipsoid eps e c u k /\ good_ellipsoid eps f c u' k'
  /\ e_eq eps e f = Ok true /\ (forall p, ~ (on_ellipsoid c u k p /\ on_ellipsoid c u' k' p)).
Proof. exact c90_equal_refuted. Qed.
Print Assumptions C90_equal_refuted.

(** An invertible transformation carries the surface along, unless the eigenvalue solver fails. *)
Theorem C90_transform :
  forall eig eps prec t e c u k, 0 < eps -> eps <= 1 -> affine3 eps prec t -> eigen_solver eig -> good_ellipsoid eps e c u k ->
  t3_isIdentity t = Ok false -> (forall f, maps_points3 t f -> exists g, forall p, f (g p) = p) ->
  (e_apply eig eps t e = Err ERuntime /\ exists m, transpose3 m = m /\ eig m = None)
  \/ exists f e' u' k', maps_points3 t f /\ e_apply eig eps t e = Ok e' /\ good_ellipsoid eps e' (f c) u' k'
     /\ image_of f (on_ellipsoid c u k) (on_ellipsoid (f c) u' k').
Proof. exact c90_transform. Qed.
Print Assumptions C90_transform.

Theorem C90_identity :
  forall eig eps t e c u k, 0 < eps -> good_ellipsoid eps e c u k -> t3_isIdentity t = Ok true -> e_apply eig eps t e = Ok e.
Proof. exact c90_identity. Qed.
Print Assumptions C90_identity.

Theorem C90_errors :
  forall eig eps t e f p, e_apply eig eps t3_Undefined e = Err EUndefined
  /\ (e_data e = Err EUndefined -> t3_isDefined t = true -> e_apply eig eps t e = Err EUndefined)
  /\ (e_data e = Err EUndefined -> e_eq eps e f = Ok false /\ e_contains eps e (Some p) = Err EUndefined /\ e_getMatrix eps e = Err EUndefined)
  /\ e_contains eps e None = Err EUndefined.
Proof. exact c90_errors. Qed.
Print Assumptions C90_errors.

(** A quarter turn, and a solver that meets its contract (and succeeds for diagonal matrices). *)
Example C90_example : forall prec, exists t, t3_Rotation_rm (Some (M3 0 1 0 (-1) 0 0 0 0 1)) = Ok t
  /\ affine3 1 prec t /\ eigen_solver diag_solver /\ good_ellipsoid 1 oval (V3 1 2 3) unit_axes (3, 2, 1)
  /\ t3_isIdentity t = Ok false /\ (forall f, maps_points3 t f -> exists g, forall p, f (g p) = p)
  /\ maps_points3 t (fun p => V3 (- vy p) (vx p) (vz p)) /\ diag_solver (M3 3 0 0 0 2 0 0 0 1) <> None.
Proof.
  intros prec. eexists. split; [reflexivity |]. split; [apply (made3_rotation_matrix _ _ _ _ (M3 0 1 0 (-1) 0 0 0 0 1)); [exact I | reflexivity] |].
  split; [exact diag_eigen |]. split; [apply oval_good; lra |]. split; [reflexivity |].
  assert (M : maps_points3 (mkT3 TRotation (Some (with_block (transpose3 (M3 0 1 0 (-1) 0 0 0 0 1)))) true) (fun p => V3 (- vy p) (vx p) (vz p))).
  { intros [x y z]. unfold with_block. rewrite (proj1 (apply_affine _ _ _ _)). do 2 f_equal. unfold amap. qunfold. unfold zero3. apply V3_eq; simpl; ring. }
  split; [| split; [exact M |]].
  - intros f Hf. exists (fun p => V3 (vy p) (- vx p) (vz p)). intros p. specialize (Hf (V3 (vy p) (- vx p) (vz p))).
    rewrite M in Hf. apply ok_inj in Hf. injection Hf as <-. destruct p; apply V3_eq; simpl; ring.
  - unfold diag_solver. cbn. rewrite (proj2 (Reqb_iff 0 0) eq_refl). discriminate.
Qed.
