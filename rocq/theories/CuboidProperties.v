(** The properties of cuboids: C91, C92, C93. *)

From Coq Require Import List Bool Reals Lra Lia Psatz Permutation.
From Verif Require Import Result DOrder Vec VecProofs Mat3 Mat4 AngleModel AngleProofs RotModel RotSpec RotProofs RotProofs2 TransfModel TransfSpec
  TransfProofs TransfProofs2 Geo3Types Geo3Model Geo3Spec Geo3Proofs Geo3Proofs2 Geo3Proofs3 GteModel GteSpec ChordProofs SphereSpec SphereProofs GteProofs
  CuboidModel CuboidSpec CuboidProofs CuboidProofs2.
Import ListNotations.
Local Open Scope R_scope.

(** A box turned about the vertical, for the examples. *)
Definition box_axes : v3 * v3 * v3 := (V3 (3 / 5) (4 / 5) 0, V3 (- 4 / 5) (3 / 5) 0, V3 0 0 1).
Definition box : cuboid :=
  mkCuboid (Some (V3 1 2 3)) (Some (V3 (3 / 5) (4 / 5) 0), Some (V3 (- 4 / 5) (3 / 5) 0), Some (V3 0 0 1)) (Some 5, Some 10, Some 2).
Lemma box_good : good_cuboid box (V3 1 2 3) box_axes (5, 10, 2).
Proof. split; [reflexivity |]. split; [repeat split; v3unfold; field | repeat split; lra]. Qed.

(** *** C91: containment *)
(** Points contained are within the tolerance of the surface; points of the solid within the tolerance of the surface are contained. *)
Theorem C91_contains :
  forall eps b c u k p, 0 < eps -> good_cuboid b c u k -> exists r, cu_contains eps b (Some p) = Ok r
  /\ (r = true -> exists s, on_box c u k s /\ dist3 p s < eps)
  /\ (solid_box c u k p -> (exists s, on_box c u k s /\ dist3 p s < eps) -> r = true).
Proof. exact c91_contains. Qed.
Print Assumptions C91_contains.

Theorem C91_surface :
  forall eps b c u k p, 0 < eps -> good_cuboid b c u k -> on_box c u k p -> cu_contains eps b (Some p) = Ok true.
Proof. exact c91_surface. Qed.
Print Assumptions C91_surface.

Theorem C91_sets :
  forall eps b c u k ps x y, 0 < eps -> good_cuboid b c u k ->
  exists r s t, cu_contains_ps eps b ps = Ok r /\ cu_intersects_ps eps b ps = Ok s /\ cu_contains_segment eps b (mkSeg (Some x) (Some y)) = Ok t
    /\ (r = true <-> ps <> [] /\ forall p, In p ps -> cu_contains eps b (Some p) = Ok true)
    /\ (s = true <-> exists p, In p ps /\ cu_contains eps b (Some p) = Ok true)
    /\ (t = true <-> cu_contains eps b (Some x) = Ok true /\ cu_contains eps b (Some y) = Ok true).
Proof. exact c91_sets. Qed.
Print Assumptions C91_sets.

Theorem C91_errors :
  forall eps b p s, cu_contains eps b None = Err EUndefined
  /\ (cu_data b = Err EUndefined -> cu_contains eps b (Some p) = Err EUndefined /\ cu_contains_ps eps b s = Err EUndefined
      /\ cu_intersects_ps eps b s = Err EUndefined /\ cu_getVertices b = Err EUndefined).
Proof. exact c91_errors. Qed.
Print Assumptions C91_errors.

Example C91_example : good_cuboid box (V3 1 2 3) box_axes (5, 10, 2) /\ on_box (V3 1 2 3) box_axes (5, 10, 2) (V3 4 6 3)
  /\ cu_contains (1 / 2) box (Some (V3 4 6 3)) = Ok true /\ cu_contains (1 / 2) box (Some (V3 1 2 3)) = Ok false.
Proof.
  assert (O : on_box (V3 1 2 3) box_axes (5, 10, 2) (V3 4 6 3)).
  { unfold on_box, solid_box, box_axes. v3unfold. replace (3 / 5 * (4 - 1) + 4 / 5 * (6 - 2) + 0 * (3 - 3)) with 5 by field.
    replace (- 4 / 5 * (4 - 1) + 3 / 5 * (6 - 2) + 0 * (3 - 3)) with 0 by field. replace (0 * (4 - 1) + 0 * (6 - 2) + 1 * (3 - 3)) with 0 by ring.
    rewrite Rabs_R0, (Rabs_right 5) by lra. split; [lra |]. left. reflexivity. }
  split; [exact box_good |]. split; [exact O |]. split; [apply (c91_surface (1 / 2) _ _ _ _ _ ltac:(lra) box_good O) |].
  cbn [cu_contains box needd bind cu_data cu_center cu_axes cu_extent]. replace (sub3 (V3 1 2 3) (V3 1 2 3)) with zero3 by (clear; v3ring).
  assert (Z : forall v, dot3 zero3 v = 0) by (intros; v3ring). rewrite !Z, Rabs_R0.
  rewrite !Rltb_f; [reflexivity | | |]; rewrite Rminus_0_l, Rabs_Ropp, Rabs_right; lra.
Qed.

(** *** C92: intersection tests, vertices, nearness *)
Theorem C92_intersects :
  forall g b c u k, box_queries g -> good_cuboid b c u k ->
  (forall l o d, good_line l o d -> exists r, cu_intersects_line g b l = Ok r /\ decides r (fun p => on_line o d p /\ solid_box c u k p))
  /\ (forall b' c' u' k', good_cuboid b' c' u' k' -> exists r, cu_intersects_cuboid g b b' = Ok r /\ decides r (fun p => solid_box c u k p /\ solid_box c' u' k' p)).
Proof. exact c92_intersects. Qed.
Print Assumptions C92_intersects.

(** The vertices returned are the corners of the box half as large ... *)
Theorem C92_vertices :
  forall b c u k, good_cuboid b c u k ->
  exists l, cu_getVertices b = Ok (map Some l) /\ length l = 8%nat /\ NoDup l /\ forall p, In p l <-> corner c u (half k) p.
Proof. exact c92_vertices. Qed.
Print Assumptions C92_vertices.

(** ... so that they are not on the surface, and contains rejects them. *)
Theorem C92_vertices_inside :
  forall eps b c u k k0 k1 k2 v l, 0 < eps -> good_cuboid b c u k -> k = (k0, k1, k2) -> 2 * eps <= k0 -> 2 * eps <= k1 -> 2 * eps <= k2 ->
  cu_getVertices b = Ok l -> In (Some v) l -> ~ on_box c u k v /\ cu_contains eps b (Some v) = Ok false.
Proof. exact c92_vertices_inside. Qed.
Print Assumptions C92_vertices_inside.

Theorem C92_vertices_refuted :
  forall eps, 0 < eps -> exists b c u k l v, good_cuboid b c u k /\ cu_getVertices b = Ok l /\ In (Some v) l
  /\ ~ on_box c u k v /\ cu_contains eps b (Some v) = Ok false.
Proof. exact c92_vertices_refuted. Qed.
Print Assumptions C92_vertices_refuted.

(** Nearness matches the vertices one to one; [order] is any iteration order of the hash set. *)
Theorem C92_near :
  forall order b c u k b' c' u' k' tol, good_cuboid b c u k -> good_cuboid b' c' u' k' -> (forall l, Permutation (order l) l) ->
  exists r, cu_isNear order b b' (Some tol) = Ok r
  /\ (r = true -> exists l l', NoDup l /\ NoDup l' /\ (forall p, In p l <-> corner c u (half k) p) /\ (forall p, In p l' <-> corner c' u' (half k') p)
        /\ Forall2 (fun p q => dist3 p q <= tol) l l')
  /\ ((let '(x, y, z) := half k' in tol < x /\ tol < y /\ tol < z) ->
      (exists l l', NoDup l /\ NoDup l' /\ (forall p, In p l <-> corner c u (half k) p) /\ (forall p, In p l' <-> corner c' u' (half k') p)
        /\ Forall2 (fun p q => dist3 p q <= tol) l l') -> r = true).
Proof. exact c92_near. Qed.
Print Assumptions C92_near.

(** The assumptions about GTE can be met, and so can those about the iteration order. *)
Example C92_example : box_queries ref_gte /\ good_cuboid box (V3 1 2 3) box_axes (5, 10, 2)
  /\ good_line (mkLine (Some zero3) (Some (V3 1 0 0))) zero3 (V3 1 0 0)
  /\ (forall l : list v3, Permutation (rev l) l) /\ (let '(x, y, z) := half (5, 10, 2) in 1 / 2 < x /\ 1 / 2 < y /\ 1 / 2 < z)
  /\ cu_isNear (@rev v3) box box (Some (1 / 2)) = Ok true.
Proof.
  assert (P : forall l : list v3, Permutation (rev l) l) by (intros l; symmetry; apply Permutation_rev).
  split; [exact ref_box |]. split; [exact box_good |]. split; [split; [reflexivity | v3unfold; ring] |]. split; [exact P |].
  assert (H : let '(x, y, z) := half (5, 10, 2) in 1 / 2 < x /\ 1 / 2 < y /\ 1 / 2 < z) by (unfold half; lra). split; [exact H |].
  destruct (c92_near (@rev v3) box _ _ _ box _ _ _ (1 / 2) box_good box_good P) as (r & -> & _ & C). f_equal. apply (C H).
  destruct (c92_vertices box _ _ _ box_good) as (l & _ & _ & N & I). exists l, l. do 4 (split; [assumption |]).
  clear. induction l as [| p l IH]; constructor; [| exact IH]. unfold dist3. replace (sub3 p p) with zero3 by (clear; v3ring).
  unfold norm3. replace (sqnorm3 zero3) with 0 by (v3unfold; ring). rewrite sqrt_0. lra.
Qed.

(** *** C93: equality, construction and transformation *)
(** Equality is equality of the solids, whatever the order and the signs of the axes. *)
Theorem C93_equal :
  forall b c u k b' c' u' k', good_cuboid b c u k -> good_cuboid b' c' u' k' ->
  cu_eq b b' = true <-> same_points (solid_box c u k) (solid_box c' u' k').
Proof. exact c93_equal. Qed.
Print Assumptions C93_equal.

Theorem C93_rigid :
  forall eps prec t b c u k, 0 < eps -> 0 < prec -> proper3 eps prec t -> good_cuboid b c u k ->
  exists f b' u', maps_points3 t f /\ cu_apply t b = Ok b' /\ good_cuboid b' (f c) u' k
    /\ image_of f (solid_box c u k) (solid_box (f c) u' k) /\ image_of f (on_box c u k) (on_box (f c) u' k)
    /\ forall p, cu_contains eps b' (Some (f p)) = cu_contains eps b (Some p).
Proof. exact c93_rigid. Qed.
Print Assumptions C93_rigid.

Theorem C93_cube :
  forall c x, 0 < x -> exists b, Cube (Some c) (Some x) = Ok b /\ good_cuboid b c (V3 1 0 0, V3 0 1 0, V3 0 0 1) (x, x, x).
Proof. exact c93_cube. Qed.
Print Assumptions C93_cube.

Theorem C93_errors :
  forall c x b t, Cube None x = Err EUndefined /\ Cube (Some c) None = Err EUndefined /\ cu_apply t3_Undefined b = Err EUndefined
  /\ (cu_data b = Err EUndefined -> (t3_isDefined t = true -> cu_apply t b = Err EUndefined) /\ forall b', cu_eq b b' = false /\ cu_eq b' b = false).
Proof. exact c93_errors. Qed.
Print Assumptions C93_errors.

(** The same box with its axes in another order, one of them reversed. *)
Example C93_example : forall eps prec,
  let box' := mkCuboid (Some (V3 1 2 3)) (Some (V3 0 0 1), Some (V3 (3 / 5) (4 / 5) 0), Some (V3 (4 / 5) (- (3 / 5)) 0)) (Some 2, Some 5, Some 10) in
  good_cuboid box (V3 1 2 3) box_axes (5, 10, 2)
  /\ good_cuboid box' (V3 1 2 3) (V3 0 0 1, V3 (3 / 5) (4 / 5) 0, V3 (4 / 5) (- (3 / 5)) 0) (2, 5, 10)
  /\ cu_eq box box' = true /\ exists t, t3_Translation (Some (V3 1 2 3)) = Ok t /\ proper3 eps prec t.
Proof.
  intros eps prec box'. assert (G : good_cuboid box' (V3 1 2 3) (V3 0 0 1, V3 (3 / 5) (4 / 5) 0, V3 (4 / 5) (- (3 / 5)) 0) (2, 5, 10)).
  { split; [reflexivity |]. split; [repeat split; v3unfold; field | repeat split; lra]. }
  split; [exact box_good |]. split; [exact G |]. split.
  - apply (c93_equal _ _ _ _ _ _ _ _ box_good G). intros p. unfold solid_box, box_axes.
    replace (dot3 (V3 (4 / 5) (- (3 / 5)) 0) (sub3 p (V3 1 2 3))) with (- dot3 (V3 (- 4 / 5) (3 / 5) 0) (sub3 p (V3 1 2 3))) by (clear; v3unfold; field).
    rewrite Rabs_Ropp. tauto.
  - eexists. split; [reflexivity |]. apply (made3_translation _ _ _ _ (Some (V3 1 2 3))). reflexivity.
Qed.
