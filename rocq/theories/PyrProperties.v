(** The properties of the polygons in space and of the pyramids: C59, C60, C106, C107. *)

From Coq Require Import List Bool Reals Lra Lia Arith Permutation.
From Verif Require Import Result DOrder Vec VecProofs Mat3 AngleModel RotModel RotProofs TransfModel TransfSpec Geo3Types Geo3Model Geo3Spec Geo3Proofs GteModel GteSpec GteProofs ConeProofs ConeProofs
  SphereModel SphereSpec EllModel EllSpec EllProofs3 Geo2Model Geo2Spec Geo2Proofs Poly2Model Poly2Spec Poly2Proofs Poly2Ref InterModel ConeModel ConeSpec ConeProofs5 ConeProofs6
  PyrModel PyrSpec PyrProofs PyrProofs2 PyrProofs3 PyrProofs4 PyrProofs5.
Import ListNotations.
Local Open Scope R_scope.

(** *** C59: lateral faces *)
Theorem C59_count :
  forall m b a outer inner o x y, placed m b outer inner o x y ->
  py_getLateralFaceCount (mkPyramid b (Some a)) = Ok (length (cycle outer ++ concat (map cycle inner))) /\ pg_getEdgeCount b = Ok (length (cycle outer ++ concat (map cycle inner))).
Proof. exact c59_count. Qed.
Print Assumptions C59_count.

(** The triangle of the apex and of an edge of the outer ring.  Missing from C59: the edges of inner rings (below), and apexes within boost's tolerance of a vertex. *)
Theorem C59_face_partial :
  forall eps m b a outer inner o x y i v w, 0 <= eps -> 0 <= m < 1 -> placed m b outer inner o x y -> nth_error (cycle outer) i = Some (v, w) ->
  m < dist3 (lift o x y v) a -> 2 * m < dist3 (lift o x y w) a -> cross3 (sub3 (lift o x y v) a) (sub3 (lift o x y w) a) <> zero3 ->
  exists face outer' f s, py_getLateralFaceAt eps m (mkPyramid b (Some a)) i = Ok face /\ placed m face outer' [] a f s /\ frame f s
    /\ pg_getVertices face = Ok [a; lift o x y w; lift o x y v].
Proof. exact c59_face_partial. Qed.
Print Assumptions C59_face_partial.

(** An apex on the line of the edge: the face has no second axis, but its vertices are the right ones. *)
Theorem C59_face_flat :
  forall eps m b a outer inner o x y i v w, 0 <= eps -> 0 <= m < 1 -> placed m b outer inner o x y -> nth_error (cycle outer) i = Some (v, w) ->
  m < dist3 (lift o x y v) a -> 2 * m < dist3 (lift o x y w) a -> cross3 (sub3 (lift o x y v) a) (sub3 (lift o x y w) a) = zero3 ->
  exists face outer' f, py_getLateralFaceAt eps m (mkPyramid b (Some a)) i = Ok face /\ placed m face outer' [] a f zero3 /\ sqnorm3 f = 1
    /\ pg_getVertices face = Ok [a; lift o x y v; lift o x y w].
Proof. exact c59_face_flat. Qed.
Print Assumptions C59_face_flat.

(** The edges of inner rings are counted but have no face. *)
Theorem C59_holes :
  forall eps m b a outer inner o x y i, placed m b outer inner o x y ->
  ((length (cycle outer) <= i < length (cycle outer ++ concat (map cycle inner)))%nat -> py_getLateralFaceAt eps m (mkPyramid b (Some a)) i = Err EToBeImplemented)
  /\ ((length (cycle outer ++ concat (map cycle inner)) <= i)%nat -> py_getLateralFaceAt eps m (mkPyramid b (Some a)) i = Err EWrong).
Proof. exact c59_holes. Qed.
Print Assumptions C59_holes.

Theorem C59_errors :
  forall eps m p i, py_data py_Undefined = Err EUndefined /\ (py_data p = Err EUndefined ->
  py_getLateralFaceCount p = Err EUndefined /\ py_getLateralFaceAt eps m p i = Err EUndefined /\ py_getBase p = Err EUndefined /\ py_getApex p = Err EUndefined).
Proof. exact c59_errors. Qed.
Print Assumptions C59_errors.

(** A pyramid over the unit square. *)
Example C59_example : exists face, py_getLateralFaceAt (1 / 1000) 0 (pointed 1) 2 = Ok face /\ pg_getVertices face = Ok [V3 (1 / 2) (1 / 2) 1; V3 1 0 0; V3 1 1 0].
Proof.
  destruct (c59_face_partial (1 / 1000) 0 flat_square (V3 (1 / 2) (1 / 2) 1) (square 0 0) [] (V3 0 0 0) (V3 1 0 0) (V3 0 1 0) 2 (V2 (0 + 1) (0 + 1)) (V2 (0 + 1) 0)) as (face & _ & _ & _ & E & _ & _ & V); try lra.
  - apply flat_placed; lra.
  - reflexivity.
  - apply norm3_pos, sqnorm3_pos. intros E. apply (f_equal vz) in E. unfold lift in E. v3unfold. cbn in E. lra.
  - rewrite Rmult_0_r. apply norm3_pos, sqnorm3_pos. intros E. apply (f_equal vz) in E. unfold lift in E. v3unfold. cbn in E. lra.
  - apply (pointed_off 1); [lra |]. right. right. left. reflexivity.
  - exists face. split; [exact E |]. rewrite V. unfold lift. v3unfold. cbn. f_equal. f_equal. f_equal; [| f_equal]; apply V3_eq; ring.
Qed.
Example C59_example_count : py_getLateralFaceCount (pointed 1) = Ok 4%nat.
Proof. apply (c59_count 0 flat_square (V3 (1 / 2) (1 / 2) 1) (square 0 0) [] (V3 0 0 0) (V3 1 0 0) (V3 0 1 0)). apply flat_placed. lra. Qed.

(** *** C60: polygons in space *)
Theorem C60_vertices :
  forall m p outer inner o x y, placed m p outer inner o x y ->
  pg_getVertices p = Ok (map (lift o x y) (outer ++ concat inner)) /\ pg_getVertexCount p = Ok (length (outer ++ concat inner))
  /\ (forall i v, nth_error outer i = Some v -> pg_getVertexAt p i = Ok (lift o x y v)).
Proof. exact c60_vertices. Qed.
Print Assumptions C60_vertices.

(** Polygons without inner rings: see C66. *)
Theorem C60_edges_partial :
  forall m p outer o x y, placed m p outer [] o x y ->
  pg_getEdges p = Ok (map (lift_segment o x y) (cycle outer)) /\ pg_getEdgeCount p = Ok (length (cycle outer)).
Proof. exact c60_edges_partial. Qed.
Print Assumptions C60_edges_partial.

Theorem C60_edge_at :
  forall m p outer inner o x y, placed m p outer inner o x y ->
  (forall i e, nth_error (cycle outer) i = Some e -> pg_getEdgeAt p i = Ok (lift_segment o x y e))
  /\ (forall i, (length (cycle outer) <= i < length (cycle outer ++ concat (map cycle inner)))%nat -> pg_getEdgeAt p i = Err EToBeImplemented)
  /\ (forall i, (length (cycle outer ++ concat (map cycle inner)) <= i)%nat -> pg_getEdgeAt p i = Err EWrong).
Proof. exact c60_edge_at. Qed.
Print Assumptions C60_edge_at.

(** The distances of the plane, for orthonormal axes ... *)
Theorem C60_isometric :
  forall o x y v w, frame x y -> dist3 (lift o x y v) (lift o x y w) = dist2 v w.
Proof. exact c60_isometric. Qed.
Print Assumptions C60_isometric.

(** ... and nearly so for the axes the constructor accepts. *)
Theorem C60_nearly_isometric :
  forall eps P o x y p, x <> zero3 -> y <> zero3 -> Polygon3 eps P (Some o) (Some x) (Some y) = Ok p ->
  exists x' y', p = mkPolygon P (Some o) (Some x') (Some y') /\ sqnorm3 x' = 1 /\ sqnorm3 y' = 1 /\ x = scale3 (norm3 x) x' /\ y = scale3 (norm3 y) y'
    /\ forall v w, Rabs (dist3 (lift o x' y' v) (lift o x' y' w) * dist3 (lift o x' y' v) (lift o x' y' w) - dist2 v w * dist2 v w) <= eps * (dist2 v w * dist2 v w).
Proof. exact c60_nearly_isometric. Qed.
Print Assumptions C60_nearly_isometric.

Theorem C60_construct :
  forall eps P o x y, 0 <= eps -> x <> zero3 -> y <> zero3 -> dot3 x y = 0 ->
  exists x' y', Polygon3 eps P (Some o) (Some x) (Some y) = Ok (mkPolygon P (Some o) (Some x') (Some y')) /\ frame x' y' /\ x = scale3 (norm3 x) x' /\ y = scale3 (norm3 y) y'.
Proof. exact c60_construct. Qed.
Print Assumptions C60_construct.

Theorem C60_not_orthogonal :
  forall eps P o x y, x <> zero3 -> y <> zero3 -> eps * (norm3 x * norm3 y) < Rabs (dot3 x y) -> Polygon3 eps P (Some o) (Some x) (Some y) = Err ERuntime.
Proof. exact c60_not_orthogonal. Qed.
Print Assumptions C60_not_orthogonal.

(** An axis of norm zero is accepted: then different planar points are at the same place. *)
Theorem C60_zero_axis_refuted :
  forall eps P o y, 0 <= eps -> exists p v w, Polygon3 eps P (Some o) (Some zero3) (Some y) = Ok p /\ dist2 v w = 1
  /\ pg_vertex p v = pg_vertex p w.
Proof. exact c60_zero_axis_refuted. Qed.
Print Assumptions C60_zero_axis_refuted.

Theorem C60_near :
  forall m p outer inner o x y q outer' inner' o' x' y' tol, placed m p outer inner o x y -> placed m q outer' inner' o' x' y' ->
  exists b, pg_isNear p q (Some tol) = Ok b
    /\ (b = true <-> Forall2 (fun v w => dist3 (lift o x y v) (lift o' x' y' w) <= tol) (outer ++ concat inner) (outer' ++ concat inner')).
Proof. exact c60_near. Qed.
Print Assumptions C60_near.

Theorem C60_transform :
  forall eps prec m t p outer inner o x y, affine3 eps prec t -> placed m p outer inner o x y ->
  exists f p' o' x' y', maps_points3 t f /\ pg_apply t p = Ok p' /\ placed m p' outer inner o' x' y' /\ (forall v, lift o' x' y' v = f (lift o x y v))
    /\ pg_getVertices p' = Ok (map f (map (lift o x y) (outer ++ concat inner))).
Proof. exact c60_transform. Qed.
Print Assumptions C60_transform.

Theorem C60_rigid :
  forall eps prec m t p outer inner o x y, 0 < eps -> 0 < prec -> proper3 eps prec t -> placed m p outer inner o x y -> frame x y ->
  exists f p' o' x' y', maps_points3 t f /\ (forall a b, dist3 (f a) (f b) = dist3 a b) /\ pg_apply t p = Ok p' /\ placed m p' outer inner o' x' y' /\ frame x' y'
    /\ (forall v, lift o' x' y' v = f (lift o x y v)).
Proof. exact c60_rigid. Qed.
Print Assumptions C60_rigid.

Theorem C60_equal :
  forall B P o x y P' o' x' y', equal_regions B -> bg_valid B P = true -> bg_valid B P' = true -> pg2_isDefined P = true -> pg2_isDefined P' = true ->
  (pg_eq B (mkPolygon P (Some o) (Some x) (Some y)) (mkPolygon P' (Some o') (Some x') (Some y')) = true <-> (forall v, region P v <-> region P' v) /\ o = o' /\ x = x' /\ y = y').
Proof. exact c60_equal. Qed.
Print Assumptions C60_equal.

Theorem C60_getters :
  forall m p outer inner o x y, placed m p outer inner o x y ->
  pg_getOrigin p = Ok o /\ pg_getXAxis p = Ok x /\ pg_getYAxis p = Ok y /\ pg_getPolygon2d p = Ok (pg_polygon p)
  /\ (frame x y -> exists n, pg_getNormalVector p = Ok n /\ n = cross3 x y /\ sqnorm3 n = 1 /\ forall v, dot3 n (sub3 (lift o x y v) o) = 0).
Proof. exact c60_getters. Qed.
Print Assumptions C60_getters.

Theorem C60_errors :
  forall p q tol t i, pg_data pg_Undefined = Err EUndefined
  /\ (pg_data p = Err EUndefined -> pg_getEdgeAt p i = Err EUndefined /\ pg_getVertexAt p i = Err EUndefined /\ pg_getEdgeCount p = Err EUndefined /\ pg_getVertexCount p = Err EUndefined
      /\ pg_getNormalVector p = Err EUndefined /\ pg_isNear q p tol = Err EUndefined /\ pg_apply t p = Err EUndefined /\ forall B, pg_eq B p q = false /\ pg_eq B q p = false)
  /\ pg_apply t3_Undefined p = Err EUndefined /\ pg_isNear p q None = Err EUndefined.
Proof. exact c60_errors. Qed.
Print Assumptions C60_errors.

(** The unit square in the plane z = 0. *)
Example C60_example : frame (V3 1 0 0) (V3 0 1 0) /\ placed 0 flat_square (square 0 0) [] (V3 0 0 0) (V3 1 0 0) (V3 0 1 0)
  /\ pg_getVertices flat_square = Ok (map (lift (V3 0 0 0) (V3 1 0 0) (V3 0 1 0)) [V2 0 0; V2 0 (0 + 1); V2 (0 + 1) (0 + 1); V2 (0 + 1) 0]).
Proof. split; [apply flat_frame |]. pose proof (flat_placed 0 ltac:(lra)) as P. split; [exact P |]. apply (c60_vertices _ _ _ _ _ _ _ P). Qed.
Example C60_example_rigid : exists t, proper3 (1 / 1000) (1 / 1000) t /\ exists p', pg_apply t flat_square = Ok p'.
Proof.
  exists t3_Identity. split; [constructor |]. destruct (c60_rigid (1 / 1000) (1 / 1000) 0 t3_Identity flat_square (square 0 0) [] (V3 0 0 0) (V3 1 0 0) (V3 0 1 0)) as (f & p' & _ & _ & _ & _ & _ & E & _);
    [lra | lra | constructor | apply flat_placed; lra | apply flat_frame |]. exists p'. exact E.
Qed.

(** *** C106: containment in pyramids *)
(** The points on the half lines from the apex through the base ... *)
Theorem C106_contains :
  forall B eps P o x y a p, covers_regions B -> bg_valid B P = true -> pg2_isDefined P = true -> 0 < eps -> frame x y -> dot3 (cross3 x y) (sub3 o a) <> 0 ->
  exists r, py_contains B eps (mkPyramid (mkPolygon P (Some o) (Some x) (Some y)) (Some a)) (Some p) = Ok r /\ (r = true <-> open_pyramid (placed_region P o x y) a p).
Proof. exact c106_contains. Qed.
Print Assumptions C106_contains.

(** ... which contain the solid pyramid ... *)
Theorem C106_solid :
  forall B eps P o x y a p, covers_regions B -> bg_valid B P = true -> pg2_isDefined P = true -> 0 < eps -> frame x y -> dot3 (cross3 x y) (sub3 o a) <> 0 ->
  solid_pyramid (placed_region P o x y) a p -> py_contains B eps (mkPyramid (mkPolygon P (Some o) (Some x) (Some y)) (Some a)) (Some p) = Ok true.
Proof. exact c106_solid. Qed.
Print Assumptions C106_solid.

(** ... and the points beyond the base. *)
Theorem C106_beyond_refuted :
  forall B eps, covers_regions B -> bg_valid B (unit_square 0 0) = true -> 0 < eps ->
  exists p, py_contains B eps (mkPyramid flat_square (Some (V3 0 0 1))) (Some p) = Ok true /\ ~ solid_pyramid (placed_region (unit_square 0 0) (V3 0 0 0) (V3 1 0 0) (V3 0 1 0)) (V3 0 0 1) p.
Proof. exact c106_beyond_refuted. Qed.
Print Assumptions C106_beyond_refuted.

Theorem C106_set :
  forall B eps P o x y a s, covers_regions B -> bg_valid B P = true -> pg2_isDefined P = true -> 0 < eps -> frame x y -> dot3 (cross3 x y) (sub3 o a) <> 0 ->
  exists r, py_contains_ps B eps (mkPyramid (mkPolygon P (Some o) (Some x) (Some y)) (Some a)) s = Ok r /\ (r = true <-> forall p, In p s -> open_pyramid (placed_region P o x y) a p).
Proof. exact c106_set. Qed.
Print Assumptions C106_set.

(** Only the ends of a segment are looked at ... *)
Theorem C106_segment :
  forall B eps P o x y a p q, covers_regions B -> bg_valid B P = true -> pg2_isDefined P = true -> 0 < eps -> frame x y -> dot3 (cross3 x y) (sub3 o a) <> 0 ->
  exists r, py_contains_segment B eps (mkPyramid (mkPolygon P (Some o) (Some x) (Some y)) (Some a)) (mkSeg (Some p) (Some q)) = Ok r
    /\ (r = true <-> open_pyramid (placed_region P o x y) a p /\ open_pyramid (placed_region P o x y) a q).
Proof. exact c106_segment. Qed.
Print Assumptions C106_segment.

(** ... so that over a base with a hole a segment is contained when its middle is not. *)
Theorem C106_segment_refuted :
  forall B eps, covers_regions B -> bg_valid B hole = true -> 0 < eps ->
  let S := placed_region hole (V3 0 0 0) (V3 1 0 0) (V3 0 1 0) in
  exists p q m, py_contains_segment B eps (mkPyramid (mkPolygon hole (Some (V3 0 0 0)) (Some (V3 1 0 0)) (Some (V3 0 1 0))) (Some (V3 0 0 1))) (mkSeg (Some p) (Some q)) = Ok true
    /\ on_segment p q m /\ ~ open_pyramid S (V3 0 0 1) m.
Proof. exact c106_segment_refuted. Qed.
Print Assumptions C106_segment_refuted.

(** An apex in the plane of its base, and a point of that plane. *)
Theorem C106_flat :
  forall B eps P o x y a p, pg2_isDefined P = true -> 0 < eps -> frame x y -> p <> a -> dot3 (cross3 x y) (sub3 o a) = 0 -> dot3 (cross3 x y) (sub3 p a) = 0 ->
  py_contains B eps (mkPyramid (mkPolygon P (Some o) (Some x) (Some y)) (Some a)) (Some p) = Err ERuntime.
Proof. exact c106_flat. Qed.
Print Assumptions C106_flat.

Theorem C106_rigid :
  forall B eps prec t P o x y a, covers_regions B -> bg_valid B P = true -> pg2_isDefined P = true -> 0 < eps -> 0 < prec -> proper3 eps prec t -> frame x y -> dot3 (cross3 x y) (sub3 o a) <> 0 ->
  exists f p', maps_points3 t f /\ (forall u v, dist3 (f u) (f v) = dist3 u v) /\ py_apply t (mkPyramid (mkPolygon P (Some o) (Some x) (Some y)) (Some a)) = Ok p'
    /\ forall p, py_contains B eps p' (Some (f p)) = py_contains B eps (mkPyramid (mkPolygon P (Some o) (Some x) (Some y)) (Some a)) (Some p).
Proof. exact c106_rigid. Qed.
Print Assumptions C106_rigid.

Theorem C106_errors :
  forall B eps p x s e, py_contains B eps p None = Err EUndefined /\ (py_data p = Err EUndefined ->
  py_contains B eps p (Some x) = Err EUndefined /\ py_contains_ps B eps p s = Err EUndefined /\ (forall b c, py_contains_segment B eps p (mkSeg (Some b) (Some c)) = Err EUndefined))
  /\ py_contains_segment B eps p (mkSeg None None) = Err EUndefined
  /\ (forall d b, e_data e = Ok d -> py_data p = Ok b -> py_contains_ellipsoid p e = Err EToBeImplemented).
Proof. exact c106_errors. Qed.
Print Assumptions C106_errors.

(** The middle of the base is in the pyramid. *)
Example C106_example : py_contains (ref_boost [] [] [] []) (1 / 1000) (pointed 1) (Some (V3 (1 / 2) (1 / 2) 0)) = Ok true.
Proof.
  destruct (ref_contracts [] [] [] []) as (R & _). apply c106_solid; try lra; try reflexivity; [exact R | apply flat_frame | v3unfold; cbn; lra |].
  exists (V3 (1 / 2) (1 / 2) 0), 1. split; [exists (V2 (0 + 1 / 2) (0 + 1 / 2)); split; [apply square_centre | unfold lift; v3unfold; cbn; apply V3_eq; field] | split; [lra |]]. unfold along. v3unfold. cbn. apply V3_eq; field.
Qed.

(** *** C107: half lines and intersections of pyramids *)
Theorem C107_face :
  forall eps m b a outer inner o x y i v w n, 0 < eps < 1 / 2 -> placed m b outer inner o x y -> nth_error (cycle outer) i = Some (v, w) ->
  cross3 (sub3 (lift o x y v) a) (sub3 (lift o x y w) a) <> zero3 ->
  exists ds, py_face_rays eps (mkPyramid b (Some a)) i n = Ok (map (fun d => mkRay (Some a) (Some d)) ds) /\ face_spread a (lift o x y v) (lift o x y w) n ds.
Proof. exact c107_face. Qed.
Print Assumptions C107_face.

(** The first half line goes through the first vertex of the edge, the last through the second. *)
Theorem C107_ends :
  forall a v w n ds, v <> a -> w <> a -> face_spread a v w n ds ->
  (exists k, 0 < k /\ nth_error ds 0 = Some (scale3 k (sub3 v a)))
  /\ ((2 <= n)%nat -> exists k, 0 < k /\ nth_error ds (n - 1) = Some (scale3 k (sub3 w a))).
Proof. exact c107_ends. Qed.
Print Assumptions C107_ends.

(** An apex on the line of the edge. *)
Theorem C107_face_lined :
  forall eps m b a outer inner o x y i v w n, 0 < eps < 1 / 2 -> placed m b outer inner o x y -> nth_error (cycle outer) i = Some (v, w) ->
  lift o x y v <> a -> lift o x y w <> a -> cross3 (sub3 (lift o x y v) a) (sub3 (lift o x y w) a) = zero3 ->
  (0 < dot3 (sub3 (lift o x y v) a) (sub3 (lift o x y w) a) ->
    exists d k, py_face_rays eps (mkPyramid b (Some a)) i n = Ok [mkRay (Some a) (Some d)] /\ sqnorm3 d = 1 /\ 0 < k /\ sub3 (lift o x y v) a = scale3 k d)
  /\ (dot3 (sub3 (lift o x y v) a) (sub3 (lift o x y w) a) < 0 -> py_face_rays eps (mkPyramid b (Some a)) i n = Err ERuntime).
Proof. exact c107_face_lined. Qed.
Print Assumptions C107_face_lined.

Theorem C107_rays :
  forall eps m b a outer o x y n, 0 < eps < 1 / 2 -> placed m b outer [] o x y ->
  off_edges a o x y outer -> (length (cycle outer) <= n)%nat ->
  exists dss, py_rays eps (mkPyramid b (Some a)) n = Ok (map (fun d => mkRay (Some a) (Some d)) (concat dss))
    /\ faces_spread a o x y outer n dss.
Proof. exact c107_rays. Qed.
Print Assumptions C107_rays.

Theorem C107_few :
  forall eps m b a outer inner o x y n, placed m b outer inner o x y -> (n < length (cycle outer ++ concat (map cycle inner)))%nat -> py_rays eps (mkPyramid b (Some a)) n = Err ERuntime.
Proof. exact c107_few. Qed.
Print Assumptions C107_few.

Theorem C107_holes :
  forall eps m b a outer inner o x y n, 0 < eps < 1 / 2 -> placed m b outer inner o x y -> inner <> [] ->
  off_edges a o x y outer -> (length (cycle outer ++ concat (map cycle inner)) <= n)%nat ->
  py_rays eps (mkPyramid b (Some a)) n = Err EToBeImplemented.
Proof. exact c107_holes. Qed.
Print Assumptions C107_holes.

(** Two line strings (those with a point only): F and S are the one or two common points of each half line. *)
Theorem C107_sphere :
  forall g eps m order s b a outer o x y n q r, 0 < eps < 1 / 2 -> sphere_queries g -> good_sphere s q r -> (forall l, Permutation (order l) l) ->
  placed m b outer [] o x y -> off_edges a o x y outer -> (length (cycle outer) <= n)%nat ->
  exists dss (T : v3 -> v3 -> Prop) F S N i j, faces_spread a o x y outer n dss
    /\ (forall d, In d (concat dss) -> hits (on_ray a d) (on_sphere q r) (near_sphere eps q r) (fun p => p = a) (T d))
    /\ py_inter_sphere g eps order (mkPyramid b (Some a)) s false n = Ok i /\ strings_of i (filter nonempty [flat_map F (concat dss); flat_map S (concat dss)])
    /\ (forall d, In d (concat dss) -> (forall p, In p (F d ++ S d) <-> T d p) /\ (length (F d) <= 1)%nat /\ (length (S d) <= 1)%nat)
    /\ py_inter_sphere g eps order (mkPyramid b (Some a)) s true n = Ok j /\ strings_of j (filter nonempty [flat_map N (concat dss)])
    /\ (forall d, In d (concat dss) -> (N d = [] /\ forall p, ~ T d p) \/ (exists p, N d = [p] /\ closest_of (T d) a p)).
Proof. exact c107_sphere. Qed.
Print Assumptions C107_sphere.

(** The same for ellipsoids.  Missing: points nearer to each other than the tolerance are merged. *)
Theorem C107_ellipsoid_partial :
  forall g eps m order s b a outer o x y n q ax ks, 0 < eps < 1 / 2 -> ellipsoid_queries g -> good_ellipsoid eps s q ax ks -> (forall l, Permutation (order l) l) ->
  placed m b outer [] o x y -> off_edges a o x y outer -> (length (cycle outer) <= n)%nat ->
  exists dss (T : v3 -> v3 -> Prop) F S N i j, faces_spread a o x y outer n dss
    /\ (forall d, In d (concat dss) -> exists T0, merged eps T0 (T d) /\ hits_except (on_ray a d) (on_ellipsoid q ax ks) (fun p => e_contains eps s (Some p) = Ok true) (fun p => p = a) T0)
    /\ py_inter_ellipsoid g eps order (mkPyramid b (Some a)) s false n = Ok i /\ strings_of i (filter nonempty [flat_map F (concat dss); flat_map S (concat dss)])
    /\ (forall d, In d (concat dss) -> (forall p, In p (F d ++ S d) <-> T d p) /\ (length (F d) <= 1)%nat /\ (length (S d) <= 1)%nat /\ forall p p', In p (F d) -> In p' (S d) -> dist3 a p <= dist3 a p')
    /\ py_inter_ellipsoid g eps order (mkPyramid b (Some a)) s true n = Ok j /\ strings_of j (filter nonempty [flat_map N (concat dss)])
    /\ (forall d, In d (concat dss) -> (N d = [] /\ forall p, ~ T d p) \/ (exists p, N d = [p] /\ closest_of (T d) a p)).
Proof. exact c107_ellipsoid_partial. Qed.
Print Assumptions C107_ellipsoid_partial.

Theorem C107_intersects_sphere :
  forall g eps m s b a outer o x y n q r, 0 < eps < 1 / 2 -> sphere_queries g -> good_sphere s q r ->
  placed m b outer [] o x y -> off_edges a o x y outer -> (length (cycle outer) <= n)%nat ->
  exists dss k, faces_spread a o x y outer n dss /\ py_intersects_sphere g eps (mkPyramid b (Some a)) s n = Ok k
    /\ (k = true <-> exists d p, In d (concat dss) /\ on_ray a d p /\ dist3 p q <= r).
Proof. exact c107_intersects_sphere. Qed.
Print Assumptions C107_intersects_sphere.

Theorem C107_intersects_ellipsoid :
  forall g eps m s b a outer o x y n q ax ks, 0 < eps < 1 / 2 -> ellipsoid_queries g -> good_ellipsoid eps s q ax ks ->
  placed m b outer [] o x y -> off_edges a o x y outer -> (length (cycle outer) <= n)%nat ->
  exists dss k, faces_spread a o x y outer n dss /\ py_intersects_ellipsoid g eps (mkPyramid b (Some a)) s n = Ok k
    /\ (k = true <-> exists d p, In d (concat dss) /\ on_ray a d p /\ solid_ellipsoid q ax ks p).
Proof. exact c107_intersects_ellipsoid. Qed.
Print Assumptions C107_intersects_ellipsoid.

(** A ball in the middle of the pyramid is missed. *)
Theorem C107_intersects_refuted :
  forall g eps, 0 < eps < 1 / 2 -> sphere_queries g ->
  exists s q r, good_sphere s q r /\ 0 < r /\ solid_pyramid (placed_region (unit_square 0 0) (V3 0 0 0) (V3 1 0 0) (V3 0 1 0)) (V3 (1 / 2) (1 / 2) 1) q
    /\ forall n, (4 <= n)%nat -> py_intersects_sphere g eps (pointed 1) s n = Ok false.
Proof. exact c107_intersects_refuted. Qed.
Print Assumptions C107_intersects_refuted.

Theorem C107_transform :
  forall eps prec m t b a outer inner o x y, affine3 eps prec t -> placed m b outer inner o x y ->
  exists f b' o' x' y', maps_points3 t f /\ py_apply t (mkPyramid b (Some a)) = Ok (mkPyramid b' (Some (f a))) /\ placed m b' outer inner o' x' y' /\ forall v, lift o' x' y' v = f (lift o x y v).
Proof. exact c107_transform. Qed.
Print Assumptions C107_transform.

Theorem C107_equal :
  forall B P o x y a P' o' x' y' a', equal_regions B -> bg_valid B P = true -> bg_valid B P' = true -> pg2_isDefined P = true -> pg2_isDefined P' = true ->
  (py_eq B (mkPyramid (mkPolygon P (Some o) (Some x) (Some y)) (Some a)) (mkPyramid (mkPolygon P' (Some o') (Some x') (Some y')) (Some a')) = true
   <-> (forall v, region P v <-> region P' v) /\ o = o' /\ x = x' /\ y = y' /\ a = a').
Proof. exact c107_equal. Qed.
Print Assumptions C107_equal.

Theorem C107_errors :
  forall g eps order p s e b n t, (sp_data s = Err EUndefined -> py_inter_sphere g eps order p s b n = Err EUndefined /\ py_intersects_sphere g eps p s n = Err EUndefined)
  /\ (e_data e = Err EUndefined -> py_inter_ellipsoid g eps order p e b n = Err EUndefined /\ py_intersects_ellipsoid g eps p e n = Err EUndefined)
  /\ (py_data p = Err EUndefined -> py_rays eps p n = Err EUndefined /\ py_apply t p = Err EUndefined
      /\ (forall q r, good_sphere s q r -> py_inter_sphere g eps order p s b n = Err EUndefined /\ py_intersects_sphere g eps p s n = Err EUndefined)
      /\ (forall d, e_data e = Ok d -> py_inter_ellipsoid g eps order p e b n = Err EUndefined /\ py_intersects_ellipsoid g eps p e n = Err EUndefined))
  /\ py_apply t3_Undefined p = Err EUndefined
  /\ (forall B q, py_data p = Err EUndefined -> py_eq B p q = false /\ py_eq B q p = false).
Proof. exact c107_errors. Qed.
Print Assumptions C107_errors.

(** Eight half lines on a pyramid over the unit square, and a ball round the apex. *)
Example C107_example : off_edges (V3 (1 / 2) (1 / 2) 1) (V3 0 0 0) (V3 1 0 0) (V3 0 1 0) (square 0 0) /\ length (cycle (square 0 0)) = 4%nat
  /\ exists l, py_rays (1 / 1000) (pointed 1) 8 = Ok l /\ length l = 8%nat.
Proof.
  pose proof (pointed_off 1 ltac:(lra)) as O1. split; [exact O1 |]. split; [reflexivity |].
  destruct (c107_rays (1 / 1000) 0 flat_square (V3 (1 / 2) (1 / 2) 1) (square 0 0) (V3 0 0 0) (V3 1 0 0) (V3 0 1 0) 8 ltac:(lra) (flat_placed 0 ltac:(lra)) O1) as (dss & E & F); [cbn; lia |].
  eexists. split; [exact E |]. rewrite map_length. clear E O1. unfold faces_spread in F. change (8 / length (cycle (square 0 0)))%nat with 2%nat in F. unfold square in F. cbn in F.
  do 4 (inversion F as [| ? ? ? ? (? & _ & _ & ? & _) F']; subst; clear F; rename F' into F). inversion F; subst. cbn [concat]. rewrite !app_length. repeat match goal with H : length _ = _ |- _ => rewrite H; clear H end. reflexivity.
Qed.
Example C107_example_sphere : sphere_queries ref_gte /\ good_sphere (mkSphere (Some (V3 (1 / 2) (1 / 2) 1)) (Some 1)) (V3 (1 / 2) (1 / 2) 1) 1
  /\ py_intersects_sphere ref_gte (1 / 1000) (pointed 1) (mkSphere (Some (V3 (1 / 2) (1 / 2) 1)) (Some 1)) 4 = Ok true.
Proof.
  split; [exact ref_sphere |]. assert (G : good_sphere (mkSphere (Some (V3 (1 / 2) (1 / 2) 1)) (Some 1)) (V3 (1 / 2) (1 / 2) 1) 1) by (split; [reflexivity | lra]). split; [exact G |].
  destruct (c107_intersects_sphere ref_gte (1 / 1000) 0 _ flat_square (V3 (1 / 2) (1 / 2) 1) (square 0 0) (V3 0 0 0) (V3 1 0 0) (V3 0 1 0) 4 _ _ ltac:(lra) ref_sphere G (flat_placed 0 ltac:(lra)) (pointed_off 1 ltac:(lra)))
    as (dss & k & F & E & H); [cbn; lia |]. unfold pointed. rewrite E. f_equal. apply H. clear H E G.
  unfold faces_spread in F. unfold square in F. cbn in F. inversion F as [| e ds l l' (t & _ & _ & L & _) F']; subst.
  destruct ds as [| d ds]; [discriminate |]. exists d, (V3 (1 / 2) (1 / 2) 1). split; [left; reflexivity |]. split; [exists 0; split; [lra |]; symmetry; apply along_0 |].
  unfold dist3. replace (sub3 (V3 (1 / 2) (1 / 2) 1) (V3 (1 / 2) (1 / 2) 1)) with zero3 by (v3unfold; apply V3_eq; ring). rewrite norm3_zero. lra.
Qed.
