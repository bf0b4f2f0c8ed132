(** Polygons in space and the lateral faces of pyramids (C60, C59). *)

From Coq Require Import List Bool Reals Lra Lia Arith.
From Verif Require RotProofs4 RotProofs9 CuboidProofs2.
From Verif Require Import Result DOrder Vec VecProofs Mat3 Mat4 AngleModel RotModel RotSpec RotProofs RotProofs2 TransfModel TransfSpec TransfProofs TransfProofs2
  Geo3Types Geo3Model Geo3Spec Geo3Proofs Geo3Proofs2 Geo3Proofs3 Geo2Model Geo2Spec Geo2Proofs Poly2Model Poly2Spec Poly2Proofs
  GteModel SphereModel EllModel InterModel ConeModel ConeProofs ConeProofs2 ConeProofs3 PyrModel PyrSpec.
Import ListNotations.
Local Open Scope R_scope.

(** *** C60 *)
Lemma placed_data m p outer inner o x y : placed m p outer inner o x y -> exists P, p = mkPolygon P (Some o) (Some x) (Some y) /\ polygon_of m P outer inner /\ pg_data p = Ok (P, o, x, y).
Proof. intros (P & -> & H). exists P. split; [reflexivity |]. split; [exact H |]. unfold pg_data. cbn [pg_origin pg_x pg_y pg_polygon]. rewrite (proj1 (polygon_defined m P outer inner H)). reflexivity. Qed.
Lemma vertex_lift P o x y v : pg_vertex (mkPolygon P (Some o) (Some x) (Some y)) v = Ok (lift o x y v).
Proof. reflexivity. Qed.
Lemma mapM_all {A B} (f : A -> result B) g l : (forall a, f a = Ok (g a)) -> mapM f l = Ok (map g l).
Proof. intros H. induction l as [| a l IH]; [reflexivity |]. cbn [mapM map]. rewrite H. cbn [bind]. rewrite IH. reflexivity. Qed.
Lemma edge_lift P o x y e : pg_edge (mkPolygon P (Some o) (Some x) (Some y)) (segment_of e) = Ok (lift_segment o x y e).
Proof. reflexivity. Qed.
Lemma c60_vertices m p outer inner o x y : placed m p outer inner o x y ->
  pg_getVertices p = Ok (map (lift o x y) (outer ++ concat inner)) /\ pg_getVertexCount p = Ok (length (outer ++ concat inner))
  /\ (forall i v, nth_error outer i = Some v -> pg_getVertexAt p i = Ok (lift o x y v)).
Proof.
  intros H. destruct (placed_data m p outer inner o x y H) as (P & -> & HP & D). destruct (c100_vertices m P outer inner HP) as (V & N & _ & _ & _ & _ & A).
  unfold pg_getVertices, pg_getVertexCount, pg_getVertexAt. rewrite D. cbn [pg_polygon bind]. rewrite N, V. cbn [bind]. split; [| split; [reflexivity |]].
  - apply mapM_all. intros v. apply vertex_lift.
  - intros i v I. rewrite (A i v I). cbn [bind]. apply vertex_lift.
Qed.
Lemma c60_edges_partial m p outer o x y : placed m p outer [] o x y ->
  pg_getEdges p = Ok (map (lift_segment o x y) (cycle outer)) /\ pg_getEdgeCount p = Ok (length (cycle outer)).
Proof.
  intros H. destruct (placed_data m p outer [] o x y H) as (P & -> & HP & D). destruct (c66_edges_partial m P outer HP) as (E & C & _ & _).
  unfold pg_getEdges, pg_getEdgeCount. rewrite D. cbn [pg_polygon bind]. rewrite C, E. cbn [bind]. split; [| reflexivity].
  clear. induction (cycle outer) as [| e l IH]; [reflexivity |]. cbn [map mapM]. rewrite edge_lift. cbn [bind]. rewrite IH. reflexivity.
Qed.
Lemma c60_edge_at m p outer inner o x y : placed m p outer inner o x y ->
  (forall i e, nth_error (cycle outer) i = Some e -> pg_getEdgeAt p i = Ok (lift_segment o x y e))
  /\ (forall i, (length (cycle outer) <= i < length (cycle outer ++ concat (map cycle inner)))%nat -> pg_getEdgeAt p i = Err EToBeImplemented)
  /\ (forall i, (length (cycle outer ++ concat (map cycle inner)) <= i)%nat -> pg_getEdgeAt p i = Err EWrong).
Proof.
  intros H. destruct (placed_data m p outer inner o x y H) as (P & -> & HP & D). destruct (c66_outer_edges_partial m P outer inner HP) as (E & I & W & _).
  unfold pg_getEdgeAt. rewrite D. cbn [bind]. split; [| split].
  - intros i e N. rewrite (E i e N). reflexivity.
  - intros i L. rewrite (I i L). reflexivity.
  - intros i L. rewrite (W i L). reflexivity.
Qed.
Lemma lift_dist o x y v w : sqnorm3 (sub3 (lift o x y v) (lift o x y w))
  = (x2 v - x2 w) * (x2 v - x2 w) * sqnorm3 x + (y2 v - y2 w) * (y2 v - y2 w) * sqnorm3 y + 2 * (x2 v - x2 w) * (y2 v - y2 w) * dot3 x y.
Proof. unfold lift. destruct v as [a b], w as [c d], o, x, y. v3unfold. cbn [x2 y2]. ring. Qed.
Lemma c60_isometric o x y v w : frame x y -> dist3 (lift o x y v) (lift o x y w) = dist2 v w.
Proof.
  intros (Hx & Hy & Hd). unfold dist3, norm3, dist2, norm2. f_equal. rewrite lift_dist, Hx, Hy, Hd. destruct v as [a b], w as [c d]. v2unfold. ring.
Qed.
(** The axes the constructor makes are orthogonal up to the tolerance only: distances are those of the plane up to it. *)
Lemma c60_nearly_isometric eps P o x y p : x <> zero3 -> y <> zero3 -> Polygon3 eps P (Some o) (Some x) (Some y) = Ok p ->
  exists x' y', p = mkPolygon P (Some o) (Some x') (Some y') /\ sqnorm3 x' = 1 /\ sqnorm3 y' = 1 /\ x = scale3 (norm3 x) x' /\ y = scale3 (norm3 y) y'
    /\ forall v w, Rabs (dist3 (lift o x' y' v) (lift o x' y' w) * dist3 (lift o x' y' v) (lift o x' y' w) - dist2 v w * dist2 v w) <= eps * (dist2 v w * dist2 v w).
Proof.
  intros Nx Ny H. unfold Polygon3 in H. cbn [option_map] in H. destruct (Rltb eps (Rabs (dot3 (normalized3 x) (normalized3 y)))) eqn:E; [discriminate |]. apply ok2_inj in H. subst p.
  apply Rltb_false in E. exists (normalized3 x), (normalized3 y). split; [reflexivity |]. destruct (Geo3Proofs.normalized3_unit x Nx) as [Ux Ex], (Geo3Proofs.normalized3_unit y Ny) as [Uy Ey].
  split; [exact Ux |]. split; [exact Uy |]. pose proof (RotProofs9.normalized3_back x Nx) as Bx. pose proof (RotProofs9.normalized3_back y Ny) as By. split; [symmetry; exact Bx |]. split; [symmetry; exact By |].
  intros v w. unfold dist3. rewrite norm3_sq, lift_dist, Ux, Uy. unfold dist2. rewrite norm2_sq. destruct v as [a b], w as [c d]. v2unfold. cbn [x2 y2].
  set (D := dot3 (normalized3 x) (normalized3 y)) in *. replace ((a - c) * (a - c) * 1 + (b - d) * (b - d) * 1 + 2 * (a - c) * (b - d) * D - ((a - c) * (a - c) + (b - d) * (b - d))) with (2 * ((a - c) * (b - d)) * D) by ring.
  rewrite Rabs_mult. rewrite (Rmult_comm eps). apply Rmult_le_compat; [apply Rabs_pos | apply Rabs_pos | | lra]. apply Rabs_le. generalize (a - c), (b - d). intros r s. pose proof (VecProofs.sq_nonneg (r + s)). pose proof (VecProofs.sq_nonneg (r - s)). nra.
Qed.
Lemma c60_construct eps P o x y : 0 <= eps -> x <> zero3 -> y <> zero3 -> dot3 x y = 0 ->
  exists x' y', Polygon3 eps P (Some o) (Some x) (Some y) = Ok (mkPolygon P (Some o) (Some x') (Some y')) /\ frame x' y' /\ x = scale3 (norm3 x) x' /\ y = scale3 (norm3 y) y'.
Proof.
  intros He Nx Ny D. exists (normalized3 x), (normalized3 y). destruct (Geo3Proofs.normalized3_unit x Nx) as [Ux Ex], (Geo3Proofs.normalized3_unit y Ny) as [Uy Ey].
  assert (Z : dot3 (normalized3 x) (normalized3 y) = 0) by (rewrite Ex, Ey, dot3_scale_l, dot3_scale_r, D; ring).
  split; [| split; [split; [exact Ux | split; [exact Uy | exact Z]] |]].
  - unfold Polygon3. cbn [option_map]. rewrite Z, Rabs_R0. replace (Rltb eps 0) with false; [reflexivity |]. symmetry. apply Rltb_false. lra.
  - split; symmetry; apply RotProofs9.normalized3_back; assumption.
Qed.
Lemma c60_not_orthogonal eps P o x y : x <> zero3 -> y <> zero3 -> eps * (norm3 x * norm3 y) < Rabs (dot3 x y) -> Polygon3 eps P (Some o) (Some x) (Some y) = Err ERuntime.
Proof.
  intros Nx Ny H. unfold Polygon3. cbn [option_map]. rewrite RotProofs9.dot3_normalized by assumption.
  assert (0 < norm3 x) by (apply norm3_pos; apply sqnorm3_pos; exact Nx). assert (0 < norm3 y) by (apply norm3_pos; apply sqnorm3_pos; exact Ny).
  assert (0 < norm3 x * norm3 y) by (apply Rmult_lt_0_compat; assumption).
  replace (Rltb eps (Rabs (dot3 x y / (norm3 x * norm3 y)))) with true; [reflexivity |]. symmetry. apply Rltb_true. unfold Rdiv. rewrite Rabs_mult, Rabs_inv, (Rabs_right (norm3 x * norm3 y)) by lra.
  apply Rmult_lt_reg_r with (norm3 x * norm3 y); [assumption |]. rewrite Rmult_assoc, Rinv_l by lra. lra.
Qed.
(** A zero axis is accepted, and collapses the polygon. *)
Lemma c60_zero_axis_refuted eps P o y : 0 <= eps -> exists p v w, Polygon3 eps P (Some o) (Some zero3) (Some y) = Ok p /\ dist2 v w = 1
  /\ pg_vertex p v = pg_vertex p w.
Proof.
  intros He. exists (mkPolygon P (Some o) (Some (normalized3 zero3)) (Some (normalized3 y))), (V2 0 0), (V2 1 0). split; [| split].
  - unfold Polygon3. cbn [option_map]. rewrite RotProofs4.normalized3_zero. replace (dot3 zero3 (normalized3 y)) with 0 by (destruct (normalized3 y); v3unfold; ring).
    rewrite Rabs_R0. replace (Rltb eps 0) with false; [reflexivity |]. symmetry. apply Rltb_false. lra.
  - unfold dist2, norm2. v2unfold. replace ((0 - 1) * (0 - 1) + (0 - 0) * (0 - 0)) with (1 * 1) by ring. apply sqrt_square. lra.
  - rewrite !vertex_lift. f_equal. rewrite RotProofs4.normalized3_zero. unfold lift. destruct o, (normalized3 y). v3unfold. cbn [x2 y2]. apply V3_eq; ring.
Qed.
Lemma vertices_near_ok l k tol : length l = length k -> exists b, vertices_near l k (Some tol) = Ok b /\ (b = true <-> Forall2 (fun a c => dist3 a c <= tol) l k).
Proof.
  revert k. induction l as [| a l IH]; intros [| c k] H; try discriminate.
  - exists true. split; [reflexivity |]. split; [constructor | reflexivity].
  - cbn [vertices_near]. unfold pt_isNear. cbn [needd need bind pt_distanceTo]. destruct (IH k) as (b & B & Bi); [injection H; trivial |].
    change (norm3 (sub3 a c)) with (dist3 a c). destruct (Rleb (dist3 a c) tol) eqn:E; cbn [bind].
    + exists b. split; [exact B |]. rewrite Bi. apply Rleb_iff in E. split; [intros F; constructor; assumption | intros F; inversion F; assumption].
    + exists false. split; [reflexivity |]. split; [discriminate |]. intros F. inversion F. subst. exfalso. assert (Rleb (dist3 a c) tol = true) by (apply Rleb_iff; assumption). congruence.
Qed.
Lemma c60_near m p outer inner o x y q outer' inner' o' x' y' tol : placed m p outer inner o x y -> placed m q outer' inner' o' x' y' ->
  exists b, pg_isNear p q (Some tol) = Ok b
    /\ (b = true <-> Forall2 (fun v w => dist3 (lift o x y v) (lift o' x' y' w) <= tol) (outer ++ concat inner) (outer' ++ concat inner')).
Proof.
  intros H K. destruct (c60_vertices _ _ _ _ _ _ _ H) as (V & N & _), (c60_vertices _ _ _ _ _ _ _ K) as (V' & N' & _).
  destruct (placed_data _ _ _ _ _ _ _ H) as (P & _ & _ & D), (placed_data _ _ _ _ _ _ _ K) as (P' & _ & _ & D').
  unfold pg_isNear. rewrite D, D', N, N', V, V'. cbn [needd bind]. destruct (Nat.eqb (length (outer ++ concat inner)) (length (outer' ++ concat inner'))) eqn:E; cbn [negb].
  - apply Nat.eqb_eq in E. destruct (vertices_near_ok (map (lift o x y) (outer ++ concat inner)) (map (lift o' x' y') (outer' ++ concat inner')) tol) as (b & B & Bi); [rewrite !map_length; exact E |].
    exists b. split; [exact B |]. rewrite Bi. clear. generalize (outer ++ concat inner), (outer' ++ concat inner'). intros l. induction l as [| a l IH]; intros [| c k]; cbn [map]; split; intros F; inversion F; subst; constructor; try assumption; apply IH; assumption.
  - exists false. split; [reflexivity |]. split; [discriminate |]. intros F. apply Nat.eqb_neq in E. apply Forall2_len in F. congruence.
Qed.
Lemma c60_transform eps prec m t p outer inner o x y : affine3 eps prec t -> placed m p outer inner o x y ->
  exists f p' o' x' y', maps_points3 t f /\ pg_apply t p = Ok p' /\ placed m p' outer inner o' x' y' /\ (forall v, lift o' x' y' v = f (lift o x y v))
    /\ pg_getVertices p' = Ok (map f (map (lift o x y) (outer ++ concat inner))).
Proof.
  intros A H. destruct (affine3_shaped _ _ _ A) as (ty & l & d & r & -> & N). destruct (placed_data _ _ _ _ _ _ _ H) as (P & -> & HP & D).
  pose proof (proj1 (apply_affine ty l d r)) as AP. pose proof (proj2 (apply_affine ty l d r)) as AV.
  assert (L : forall v, lift (amap l d o) (mulv3 l x) (mulv3 l y) v = amap l d (lift o x y v)).
  { intros v. unfold lift, amap. destruct v as [a b], o, x, y, l, d. unfold mulv3, row3. v3unfold. cbn. apply V3_eq; ring. }
  exists (amap l d), (mkPolygon P (Some (amap l d o)) (Some (mulv3 l x)) (Some (mulv3 l y))), (amap l d o), (mulv3 l x), (mulv3 l y). split; [exact AP |].
  assert (K : placed m (mkPolygon P (Some (amap l d o)) (Some (mulv3 l x)) (Some (mulv3 l y))) outer inner (amap l d o) (mulv3 l x) (mulv3 l y)) by (exists P; split; [reflexivity | exact HP]).
  split; [| split; [exact K | split; [exact L |]]].
  - unfold pg_apply. rewrite apply_defined by assumption. cbn [negb]. rewrite D. cbn [bind]. rewrite AP. cbn [bind]. rewrite !AV. reflexivity.
  - rewrite (proj1 (c60_vertices _ _ _ _ _ _ _ K)), map_map. f_equal. apply map_ext. exact L.
Qed.
Lemma c60_rigid eps prec m t p outer inner o x y : 0 < eps -> 0 < prec -> proper3 eps prec t -> placed m p outer inner o x y -> frame x y ->
  exists f p' o' x' y', maps_points3 t f /\ (forall a b, dist3 (f a) (f b) = dist3 a b) /\ pg_apply t p = Ok p' /\ placed m p' outer inner o' x' y' /\ frame x' y'
    /\ (forall v, lift o' x' y' v = f (lift o x y v)).
Proof.
  intros He Hp H Pl (Fx & Fy & Fd). destruct (proper_shape eps prec t He Hp H) as (ty & l & d & -> & R & N0).
  assert (N : ty <> TUndefined) by (intros ->; exact N0). clear N0. pose proof (proj1 (apply_affine ty l d true)) as AP. pose proof (proj2 (apply_affine ty l d true)) as AV.
  destruct (placed_data _ _ _ _ _ _ _ Pl) as (P & -> & HP & D).
  exists (amap l d), (mkPolygon P (Some (amap l d o)) (Some (mulv3 l x)) (Some (mulv3 l y))), (amap l d o), (mulv3 l x), (mulv3 l y). split; [exact AP |].
  split; [| split; [| split; [exists P; split; [reflexivity | exact HP] | split]]].
  - intros a b. unfold dist3. rewrite amap_sub. unfold norm3. rewrite rotation_unit by assumption. reflexivity.
  - unfold pg_apply. rewrite apply_defined by assumption. cbn [negb]. rewrite D. cbn [bind]. rewrite AP. cbn [bind]. rewrite !AV. reflexivity.
  - split; [rewrite rotation_unit; assumption |]. split; [rewrite rotation_unit; assumption |]. rewrite rotation_dot; assumption.
  - intros v. unfold lift, amap. destruct v as [a b], o, x, y, l, d. unfold mulv3, row3. v3unfold. cbn. apply V3_eq; ring.
Qed.
Lemma c60_equal B P o x y P' o' x' y' : equal_regions B -> bg_valid B P = true -> bg_valid B P' = true -> pg2_isDefined P = true -> pg2_isDefined P' = true ->
  (pg_eq B (mkPolygon P (Some o) (Some x) (Some y)) (mkPolygon P' (Some o') (Some x') (Some y')) = true <-> (forall v, region P v <-> region P' v) /\ o = o' /\ x = x' /\ y = y').
Proof.
  intros E V V' D D'. unfold pg_eq, pg_data. cbn [pg_origin pg_x pg_y pg_polygon]. rewrite D, D'. rewrite !andb_true_iff, !v3_eqb_iff. unfold pg2_eq. rewrite D, D'. cbn [andb]. rewrite (E P P' V V'). tauto.
Qed.
Lemma c60_getters m p outer inner o x y : placed m p outer inner o x y ->
  pg_getOrigin p = Ok o /\ pg_getXAxis p = Ok x /\ pg_getYAxis p = Ok y /\ pg_getPolygon2d p = Ok (pg_polygon p)
  /\ (frame x y -> exists n, pg_getNormalVector p = Ok n /\ n = cross3 x y /\ sqnorm3 n = 1 /\ forall v, dot3 n (sub3 (lift o x y v) o) = 0).
Proof.
  intros H. destruct (placed_data _ _ _ _ _ _ _ H) as (P & -> & HP & D). unfold pg_getOrigin, pg_getXAxis, pg_getYAxis, pg_getPolygon2d, pg_getNormalVector. rewrite D. cbn [bind]. repeat split.
  intros (Fx & Fy & Fd). exists (normalized3 (cross3 x y)). split; [reflexivity |]. assert (U : sqnorm3 (cross3 x y) = 1) by (rewrite lagrange3, Fx, Fy, Fd; ring).
  rewrite CuboidProofs2.normalized_unit by exact U. split; [reflexivity |]. split; [exact U |]. intros v. unfold lift. destruct v as [a b], o, x, y. v3unfold. cbn. ring.
Qed.
Lemma c60_errors p q tol t i : pg_data pg_Undefined = Err EUndefined
  /\ (pg_data p = Err EUndefined -> pg_getEdgeAt p i = Err EUndefined /\ pg_getVertexAt p i = Err EUndefined /\ pg_getEdgeCount p = Err EUndefined /\ pg_getVertexCount p = Err EUndefined
      /\ pg_getNormalVector p = Err EUndefined /\ pg_isNear q p tol = Err EUndefined /\ pg_apply t p = Err EUndefined /\ forall B, pg_eq B p q = false /\ pg_eq B q p = false)
  /\ pg_apply t3_Undefined p = Err EUndefined /\ pg_isNear p q None = Err EUndefined.
Proof.
  split; [reflexivity |]. split; [| split].
  - intros D. unfold pg_getEdgeAt, pg_getVertexAt, pg_getEdgeCount, pg_getVertexCount, pg_getNormalVector, pg_isNear, pg_apply, pg_eq. rewrite D. repeat split.
    + destruct (negb (t3_isDefined t)); reflexivity.
    + destruct (pg_data q) as [[[[? ?] ?] ?] | |]; reflexivity.
  - reflexivity.
  - unfold pg_isNear. destruct (pg_data q) as [[[[? ?] ?] ?] | e |] eqn:E; cbn [bind needd]; try reflexivity.
    + unfold pg_data in E. destruct (pg_origin q), (pg_x q), (pg_y q), (pg2_isDefined (pg_polygon q)); congruence.
    + unfold pg_data in E. destruct (pg_origin q), (pg_x q), (pg_y q), (pg2_isDefined (pg_polygon q)); congruence.
Qed.

(** *** C59 *)
Lemma py_ok m b a outer inner o x y : placed m b outer inner o x y -> py_data (mkPyramid b (Some a)) = Ok (b, a).
Proof. intros H. destruct (placed_data _ _ _ _ _ _ _ H) as (P & -> & _ & D). unfold py_data. cbn [py_base py_apex]. rewrite D. reflexivity. Qed.
Lemma c59_count m b a outer inner o x y : placed m b outer inner o x y ->
  py_getLateralFaceCount (mkPyramid b (Some a)) = Ok (length (cycle outer ++ concat (map cycle inner))) /\ pg_getEdgeCount b = Ok (length (cycle outer ++ concat (map cycle inner))).
Proof.
  intros H. unfold py_getLateralFaceCount. rewrite (py_ok _ _ _ _ _ _ _ _ H). cbn [bind]. destruct (placed_data _ _ _ _ _ _ _ H) as (P & -> & HP & D).
  unfold pg_getEdgeCount. rewrite D. cbn [bind]. rewrite (c66_count m P outer inner HP). split; reflexivity.
Qed.
Lemma cross_ne u v : cross3 u v <> zero3 -> u <> zero3 /\ v <> zero3.
Proof. intros H. split; intros ->; apply H; v3ring. Qed.
Lemma part_across f W c : sqnorm3 f = 1 -> sub3 W (scale3 (dot3 f W) f) = c -> dot3 c f = 0 /\ W = add3 (scale3 (dot3 W f) f) c.
Proof.
  intros Hf <-. split; [| rewrite (dot3_sym W f); v3ring]. replace (dot3 (sub3 W (scale3 (dot3 f W) f)) f) with (dot3 f W - dot3 f W * dot3 f f) by v3ring. rewrite (unit_dot f Hf). ring.
Qed.
Lemma across_part f W k : cross3 (cross3 f (scale3 k W)) f = scale3 k (sub3 (scale3 (sqnorm3 f) W) (scale3 (dot3 f W) f)).
Proof. v3ring. Qed.
Lemma cross_part f W n : cross3 (scale3 n f) W = scale3 n (cross3 f (sub3 W (scale3 (dot3 f W) f))).
Proof. v3ring. Qed.
(** The axes of a lateral face: along the first edge, and across it in the plane of the face. *)
Lemma face_frame a v w : cross3 (sub3 v a) (sub3 w a) <> zero3 ->
  exists f s k, normalized3 (sub3 v a) = f /\ normalized3 (cross3 (cross3 f (normalized3 (sub3 w a))) f) = s /\ frame f s
    /\ sub3 v a = scale3 (norm3 (sub3 v a)) f /\ sub3 w a = add3 (scale3 (dot3 (sub3 w a) f) f) (scale3 k s) /\ k = dot3 (sub3 w a) s /\ 0 < k.
Proof.
  intros N. destruct (cross_ne _ _ N) as [Nv Nw]. set (V := sub3 v a) in *. set (W := sub3 w a) in *.
  pose proof (norm3_pos V ltac:(apply sqnorm3_pos; exact Nv)) as PV. pose proof (norm3_pos W ltac:(apply sqnorm3_pos; exact Nw)) as PW.
  destruct (axis_unit V ltac:(apply sqnorm3_pos; exact Nv)) as (f & Ef & Uf & EV). destruct (Geo3Proofs.normalized3_unit W Nw) as [_ EW].
  destruct (part_across f W _ Uf eq_refl) as [Dc Ec]. set (c := sub3 W (scale3 (dot3 f W) f)) in *.
  assert (Nc : c <> zero3). { intros Z. apply N. rewrite EV, cross_part. fold c. rewrite Z. v3ring. }
  pose proof (norm3_pos c ltac:(apply sqnorm3_pos; exact Nc)) as Pc. destruct (axis_unit c ltac:(apply sqnorm3_pos; exact Nc)) as (s & Es & Us & Ecs).
  assert (Dfs : dot3 f s = 0). { rewrite Ecs, dot3_scale_l in Dc. apply Rmult_integral in Dc. destruct Dc as [Z | Z]; [lra | rewrite dot3_sym; exact Z]. }
  exists f, s, (norm3 c). split; [exact Ef |]. split; [| split; [split; [exact Uf | split; [exact Us | exact Dfs]] | split; [exact EV | split; [rewrite <- Ecs; exact Ec | split; [| exact Pc]]]]].
  - rewrite EW, across_part, Uf, scale3_1. fold c. rewrite Ecs, scale3_scale. apply normalized_scaled; [| exact Us]. apply Rmult_lt_0_compat; [apply Rinv_0_lt_compat; exact PW | exact Pc].
  - rewrite Ec, dot_add, dot3_scale_l, Dfs, Ecs, dot3_scale_l, norm3_scale, (norm_unit s Us), (unit_dot s Us), Rabs_right by lra. ring.
Qed.
Lemma same_zero m k : 0 <= m < 1 -> bg_same m 0 k = true -> Rabs k <= m.
Proof.
  intros M H. unfold bg_same in H. apply Rleb_iff in H. rewrite Rabs_R0, Rminus_0_l, Rabs_Ropp in H. pose proof (Rabs_pos k). rewrite (Rmax_right 0) in H by lra.
  destruct (Rle_dec (Rabs k) 1) as [L | L]; [rewrite Rmax_left in H by lra; lra | rewrite Rmax_right in H by lra]. exfalso. nra.
Qed.
Lemma triangle_proper m n c k : 0 <= m < 1 -> m < n -> 2 * m * (2 * m) < c * c + k * k -> proper_ring m [V2 0 0; V2 n 0; V2 c k].
Proof.
  intros M N C. exists (V2 0 0), (V2 n 0), [], (V2 c k). split; [reflexivity |]. unfold bg_same_point. cbn [x2 y2]. split.
  - destruct (bg_same m 0 n) eqn:E; [| reflexivity]. apply same_zero in E; [| exact M]. rewrite Rabs_right in E by lra. lra.
  - destruct (bg_same m 0 c) eqn:E; [| reflexivity]. destruct (bg_same m 0 k) eqn:F; [| reflexivity]. exfalso. apply same_zero in E, F; try exact M.
    assert (c * c <= m * m) by (apply Rsqr_le_abs_1; rewrite (Rabs_right m); lra). assert (k * k <= m * m) by (apply Rsqr_le_abs_1; rewrite (Rabs_right m); lra). nra.
Qed.
Lemma triangle_area n c k : signed_area [V2 0 0; V2 n 0; V2 c k] = n * k / 2.
Proof. unfold signed_area, cycle. cbn. unfold cross2. cbn [x2 y2]. field. Qed.
Lemma lift_0 a f s : lift a f s (V2 0 0) = a.
Proof. unfold lift. cbn [x2 y2]. v3ring. Qed.
Lemma lift_point a p f s c k : sub3 p a = add3 (scale3 c f) (scale3 k s) -> lift a f s (V2 c k) = p.
Proof. intros H. unfold lift. cbn [x2 y2]. rewrite <- H. v3ring. Qed.
Lemma edge_from v w a : sub3 w v = sub3 (sub3 w a) (sub3 v a).
Proof. v3ring. Qed.
Lemma dot_sub u v w : dot3 (sub3 u v) w = dot3 u w - dot3 v w.
Proof. v3ring. Qed.
Lemma zero_cross f : cross3 zero3 f = zero3.
Proof. v3ring. Qed.
Lemma scale_cross r f W : cross3 (scale3 r f) W = scale3 r (cross3 f W).
Proof. v3ring. Qed.
Lemma scale_zero r : scale3 r zero3 = zero3.
Proof. v3ring. Qed.
Lemma dot_zero u : dot3 u zero3 = 0.
Proof. v3ring. Qed.
Lemma two_parts W f s c k : dot3 W (add3 (scale3 c f) (scale3 k s)) = c * dot3 W f + k * dot3 W s.
Proof. v3ring. Qed.
Lemma one_part r f s : scale3 r f = add3 (scale3 r f) (scale3 0 s).
Proof. v3ring. Qed.
Section face.
  Variables (eps m : R) (b : polygon) (a : v3) (outer : list v2) (inner : list (list v2)) (o x y : v3) (i : nat) (e : v2 * v2).
  Hypothesis He : 0 <= eps.
  Hypothesis M : 0 <= m < 1.
  Hypothesis HB : placed m b outer inner o x y.
  Hypothesis HE : nth_error (cycle outer) i = Some e.
  Notation v := (lift o x y (fst e)).
  Notation w := (lift o x y (snd e)).
  Lemma face_of f s : m < dist3 v a -> 2 * m < dist3 w a -> normalized3 (sub3 v a) = f -> normalized3 (cross3 (cross3 f (normalized3 (sub3 w a))) f) = s ->
    dot3 f s = 0 -> normalized3 f = f -> normalized3 s = s -> sub3 v a = scale3 (norm3 (sub3 v a)) f -> sub3 w a = add3 (scale3 (dot3 (sub3 w a) f) f) (scale3 (dot3 (sub3 w a) s) s) ->
    sqnorm3 f = 1 -> dot3 (sub3 w a) s * dot3 s s = dot3 (sub3 w a) s ->
    py_getLateralFaceAt eps m (mkPyramid b (Some a)) i
      = Ok (mkPolygon (mkPoly2 (closed (Poly2Proofs.turned true [V2 0 0; V2 (norm3 (sub3 v a)) 0; V2 (dot3 (sub3 w a) f) (dot3 (sub3 w a) s)])) []) (Some a) (Some f) (Some s))
    /\ placed m (mkPolygon (mkPoly2 (closed (Poly2Proofs.turned true [V2 0 0; V2 (norm3 (sub3 v a)) 0; V2 (dot3 (sub3 w a) f) (dot3 (sub3 w a) s)])) []) (Some a) (Some f) (Some s))
         (Poly2Proofs.turned true [V2 0 0; V2 (norm3 (sub3 v a)) 0; V2 (dot3 (sub3 w a) f) (dot3 (sub3 w a) s)]) [] a f s.
  Proof.
    intros Lv Lw Ef Es D Nf Ns EV EW Uf K.
    assert (PR : proper_ring m [V2 0 0; V2 (norm3 (sub3 v a)) 0; V2 (dot3 (sub3 w a) f) (dot3 (sub3 w a) s)]).
    { apply triangle_proper; [exact M | exact Lv |]. replace (dot3 (sub3 w a) f * dot3 (sub3 w a) f + dot3 (sub3 w a) s * dot3 (sub3 w a) s) with (sqnorm3 (sub3 w a)).
      - rewrite <- norm3_sq. fold (dist3 w a). apply Rmult_le_0_lt_compat; lra.
      - change (sqnorm3 (sub3 w a)) with (dot3 (sub3 w a) (sub3 w a)). rewrite EW at 2. apply two_parts. }
    split.
    - unfold py_getLateralFaceAt. rewrite (py_ok _ _ _ _ _ _ _ _ HB). cbn [bind]. rewrite (proj1 (c60_edge_at _ _ _ _ _ _ _ HB) i e HE). unfold lift_segment. cbn [bind s_data s_first s_second fst snd].
      rewrite Ef, Es. unfold add2. cbn [x2 y2]. rewrite (edge_from v w a), (dot_sub (sub3 w a) (sub3 v a) f), (dot_sub (sub3 w a) (sub3 v a) s).
      assert (A : dot3 (sub3 v a) f = norm3 (sub3 v a)) by (rewrite EV at 1; rewrite dot3_scale_l, (unit_dot f Uf); ring).
      assert (B : dot3 (sub3 v a) s = 0) by (rewrite EV, dot3_scale_l, D; ring). rewrite A, B.
      replace (norm3 (sub3 v a) + (dot3 (sub3 w a) f - norm3 (sub3 v a))) with (dot3 (sub3 w a) f) by ring. replace (0 + (dot3 (sub3 w a) s - 0)) with (dot3 (sub3 w a) s) by ring.
      pose proof (polygon_made m [V2 0 0; V2 (norm3 (sub3 v a)) 0; V2 (dot3 (sub3 w a) f) (dot3 (sub3 w a) s)] [] (proj1 M) PR ltac:(constructor)) as PM. cbn [map] in PM.
      unfold point2. rewrite PM. cbn [bind].
      unfold Polygon3. cbn [option_map]. rewrite Nf, Ns, D, Rabs_R0, (proj2 (Rltb_false eps 0)) by lra. reflexivity.
    - eexists. split; [reflexivity |]. split; [reflexivity |]. split; [apply proper_turned, PR |]. split; [apply (turned_area true); cbn; lia | constructor].
  Qed.
  (** The face is the triangle of the apex and the edge: from the apex, clockwise in the axes of the face. *)
  Lemma face_triangle : m < dist3 v a -> 2 * m < dist3 w a -> cross3 (sub3 v a) (sub3 w a) <> zero3 ->
    exists face outer' f s, py_getLateralFaceAt eps m (mkPyramid b (Some a)) i = Ok face /\ placed m face outer' [] a f s /\ frame f s /\ pg_getVertices face = Ok [a; w; v].
  Proof.
    intros Lv Lw N. destruct (face_frame a v w N) as (f & s & k & Ef & Es & F & EV & EW & Ek & Pk). pose proof F as (Uf & Us & D).
    destruct (face_of f s Lv Lw Ef Es D) as [E P]; try assumption; try (apply CuboidProofs2.normalized_unit; assumption); [rewrite <- Ek; exact EW | rewrite (unit_dot s Us); ring |].
    do 4 eexists. split; [exact E |]. split; [exact P |]. split; [exact F |]. rewrite (proj1 (c60_vertices _ _ _ _ _ _ _ P)). cbn [concat]. rewrite app_nil_r.
    assert (Pn : 0 < norm3 (sub3 v a)) by (fold (dist3 v a); lra).
    unfold Poly2Proofs.turned. rewrite triangle_area, <- Ek. assert (0 < norm3 (sub3 v a) * k) by (apply Rmult_lt_0_compat; assumption).
    rewrite (proj2 (Rltb_false _ _)), (proj2 (Reqb_false _ _)) by lra. cbn [orb flip rev app map]. rewrite lift_0, (lift_point a w f s _ k EW), (lift_point a v f s); [reflexivity |].
    rewrite EV at 1. apply one_part.
  Qed.
  (** An edge in line with the apex gives a flat face, whose second axis is zero. *)
  Lemma face_flat : m < dist3 v a -> 2 * m < dist3 w a -> cross3 (sub3 v a) (sub3 w a) = zero3 ->
    exists face outer' f, py_getLateralFaceAt eps m (mkPyramid b (Some a)) i = Ok face /\ placed m face outer' [] a f zero3 /\ sqnorm3 f = 1 /\ pg_getVertices face = Ok [a; v; w].
  Proof.
    intros Lv Lw Z. assert (Pv : 0 < norm3 (sub3 v a)) by (fold (dist3 v a); lra). assert (Pw : 0 < norm3 (sub3 w a)) by (fold (dist3 w a); lra).
    assert (Nv : sub3 v a <> zero3) by (intros E; rewrite E, norm3_zero in Pv; lra). assert (Nw : sub3 w a <> zero3) by (intros E; rewrite E, norm3_zero in Pw; lra).
    destruct (axis_unit (sub3 v a) ltac:(apply sqnorm3_pos; exact Nv)) as (f & Ef & Uf & EV).
    assert (C : sub3 (sub3 w a) (scale3 (dot3 f (sub3 w a)) f) = zero3).
    { assert (Q : cross3 (cross3 f (sub3 w a)) f = zero3).
      { replace (cross3 f (sub3 w a)) with zero3; [apply zero_cross |]. symmetry. apply sqnorm3_0. assert (Y : sqnorm3 (cross3 (sub3 v a) (sub3 w a)) = 0) by (rewrite Z; v3unfold; ring).
        rewrite EV, scale_cross in Y.
        rewrite sqnorm3_scale in Y. apply Rmult_integral in Y. destruct Y as [Y | Y]; [nra | exact Y]. }
      rewrite <- (scale3_1 (sub3 w a)), across_part, Uf in Q. rewrite !scale3_1 in Q. exact Q. }
    assert (Es : normalized3 (cross3 (cross3 f (normalized3 (sub3 w a))) f) = zero3).
    { destruct (Geo3Proofs.normalized3_unit (sub3 w a) Nw) as [_ ->]. rewrite across_part, Uf, scale3_1, C. rewrite scale_zero. apply RotProofs4.normalized3_zero. }
    assert (EW : sub3 w a = add3 (scale3 (dot3 (sub3 w a) f) f) (scale3 (dot3 (sub3 w a) zero3) zero3)).
    { destruct (part_across f (sub3 w a) _ Uf C) as [_ EW]. rewrite EW at 1. f_equal. symmetry. apply scale_zero. }
    pose proof dot_zero as Z0.
    destruct (face_of f zero3 Lv Lw Ef Es) as [E P]; try assumption; [apply Z0 | apply CuboidProofs2.normalized_unit; assumption | apply RotProofs4.normalized3_zero | rewrite !Z0; ring |].
    do 3 eexists. split; [exact E |]. split; [exact P |]. split; [exact Uf |]. rewrite (proj1 (c60_vertices _ _ _ _ _ _ _ P)). cbn [concat]. rewrite app_nil_r.
    unfold Poly2Proofs.turned. rewrite triangle_area, Z0. rewrite (proj2 (Reqb_iff (norm3 (sub3 v a) * 0 / 2) 0)) by lra. rewrite orb_true_r. cbn [map].
    rewrite Z0 in EW. rewrite lift_0, (lift_point a w f zero3 _ 0 EW), (lift_point a v f zero3); [reflexivity |]. rewrite EV at 1. apply one_part.
  Qed.
End face.
Lemma c59_face_partial eps m b a outer inner o x y i v w : 0 <= eps -> 0 <= m < 1 -> placed m b outer inner o x y -> nth_error (cycle outer) i = Some (v, w) ->
  m < dist3 (lift o x y v) a -> 2 * m < dist3 (lift o x y w) a -> cross3 (sub3 (lift o x y v) a) (sub3 (lift o x y w) a) <> zero3 ->
  exists face outer' f s, py_getLateralFaceAt eps m (mkPyramid b (Some a)) i = Ok face /\ placed m face outer' [] a f s /\ frame f s
    /\ pg_getVertices face = Ok [a; lift o x y w; lift o x y v].
Proof. intros He M HB HE. exact (face_triangle eps m b a outer inner o x y i (v, w) He M HB HE). Qed.
Lemma c59_face_flat eps m b a outer inner o x y i v w : 0 <= eps -> 0 <= m < 1 -> placed m b outer inner o x y -> nth_error (cycle outer) i = Some (v, w) ->
  m < dist3 (lift o x y v) a -> 2 * m < dist3 (lift o x y w) a -> cross3 (sub3 (lift o x y v) a) (sub3 (lift o x y w) a) = zero3 ->
  exists face outer' f, py_getLateralFaceAt eps m (mkPyramid b (Some a)) i = Ok face /\ placed m face outer' [] a f zero3 /\ sqnorm3 f = 1
    /\ pg_getVertices face = Ok [a; lift o x y v; lift o x y w].
Proof. intros He M HB HE. exact (face_flat eps m b a outer inner o x y i (v, w) He M HB HE). Qed.
(** The edges of the holes of the base count as faces, but those faces cannot be asked for. *)
Lemma c59_holes eps m b a outer inner o x y i : placed m b outer inner o x y ->
  ((length (cycle outer) <= i < length (cycle outer ++ concat (map cycle inner)))%nat -> py_getLateralFaceAt eps m (mkPyramid b (Some a)) i = Err EToBeImplemented)
  /\ ((length (cycle outer ++ concat (map cycle inner)) <= i)%nat -> py_getLateralFaceAt eps m (mkPyramid b (Some a)) i = Err EWrong).
Proof.
  intros H. destruct (c60_edge_at _ _ _ _ _ _ _ H) as (_ & T & W). unfold py_getLateralFaceAt. rewrite (py_ok _ _ _ _ _ _ _ _ H). cbn [bind]. split; intros L; [rewrite (T i L) | rewrite (W i L)]; reflexivity.
Qed.
Lemma c59_errors eps m p i : py_data py_Undefined = Err EUndefined /\ (py_data p = Err EUndefined ->
  py_getLateralFaceCount p = Err EUndefined /\ py_getLateralFaceAt eps m p i = Err EUndefined /\ py_getBase p = Err EUndefined /\ py_getApex p = Err EUndefined).
Proof. split; [reflexivity |]. intros D. unfold py_getLateralFaceCount, py_getLateralFaceAt, py_getBase, py_getApex. rewrite D. repeat split. Qed.
