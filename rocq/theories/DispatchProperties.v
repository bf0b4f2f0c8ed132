(** The properties of the operations of Object: C118. *)

From Coq Require Import List Bool Reals Lra Lia.
From Verif Require Import Result DOrder Vec Mat3 AngleModel AngleSpec RotModel TransfModel Geo3Types Geo3Model Geo3Spec GteModel GteSpec
  SphereModel SphereSpec EllModel CuboidModel CuboidSpec InterModel ConeModel ConeSpec PyrModel Geo2Model Poly2Model Poly2Spec CompModel CompSpec DispatchProofs.
Import ListNotations.
Local Open Scope R_scope.

(** *** C118: the operations of an object are those of its class *)
Theorem C118_defined :
  (forall p, obj_isDefined (OPoint p) = true <-> p <> None) /\
  (forall s, obj_isDefined (OPointSet s) = true <-> s <> []) /\
  (forall a d, obj_isDefined (OLine (mkLine a d)) = true <-> a <> None /\ d <> None) /\
  (forall a d, obj_isDefined (ORay (mkRay a d)) = true <-> a <> None /\ d <> None) /\
  (forall a b, obj_isDefined (OSegment (mkSeg a b)) = true <-> a <> None /\ b <> None) /\
  (forall l, obj_isDefined (OLineString l) = true <-> l <> []) /\
  (forall q n, obj_isDefined (OPlane (mkPlane q n)) = true <-> q <> None /\ n <> None) /\
  (forall c r, obj_isDefined (OSphere (mkSphere c r)) = true <-> c <> None /\ r <> None) /\
  (forall c x y z q, obj_isDefined (OEllipsoid (mkEll c x y z q)) = true <-> c <> None /\ x <> None /\ y <> None /\ z <> None /\ q <> None) /\
  (forall c u v w x y z, obj_isDefined (OCuboid (mkCuboid c (u, v, w) (x, y, z))) = true <->
     c <> None /\ (u <> None /\ v <> None /\ w <> None) /\ x <> None /\ y <> None /\ z <> None) /\
  (forall P o x y, obj_isDefined (OPolygon (mkPolygon P o x y)) = true <-> pg2_isDefined P = true /\ o <> None /\ x <> None /\ y <> None) /\
  (forall b a, obj_isDefined (OPyramid (mkPyramid b a)) = true <-> obj_isDefined (OPolygon b) = true /\ a <> None) /\
  (forall a u k, obj_isDefined (OCone (mkCone a u k)) = true <-> a <> None /\ u <> None /\ exists s, turns k = Some s) /\
  (forall d l, obj_isDefined (OComposite d l) = true <-> d = true /\ forall o, In o l -> obj_isDefined o = true).
Proof. exact c118_defined. Qed.
Print Assumptions C118_defined.

(** Equality of two objects of the same class is the equality of the class ... *)
Theorem C118_equal :
  forall v, (forall c d, obj_isDefined (OEllipsoid c) = true -> obj_isDefined (OEllipsoid d) = true -> obj_eq v (OEllipsoid c) (OEllipsoid d) = EllModel.e_eq (e3_eps v) c d) /\
  (forall c d, obj_isDefined (OCuboid c) = true -> obj_isDefined (OCuboid d) = true -> obj_eq v (OCuboid c) (OCuboid d) = Ok (cu_eq c d)) /\
  (forall c d, obj_isDefined (OPolygon c) = true -> obj_isDefined (OPolygon d) = true -> obj_eq v (OPolygon c) (OPolygon d) = Ok (pg_eq (e3_boost v) c d)) /\
  (forall c d, obj_isDefined (OPyramid c) = true -> obj_isDefined (OPyramid d) = true -> obj_eq v (OPyramid c) (OPyramid d) = Ok (py_eq (e3_boost v) c d)) /\
  (forall c d, obj_isDefined (OCone c) = true -> obj_isDefined (OCone d) = true -> obj_eq v (OCone c) (OCone d) = co_eq (e3_fuel v) c d).
Proof. exact c118_equal. Qed.
Print Assumptions C118_equal.

(** ... and objects of different classes are different. *)
Theorem C118_classes :
  forall v a b, leaf a -> obj_isDefined a = true -> obj_isDefined b = true ->
  (forall o, kind_of a = Some o -> kind_of b <> Some o) -> (kind_of a = None -> leaf b -> kind_of b <> None) -> obj_eq v a b = Ok false.
Proof. exact c118_classes. Qed.
Print Assumptions C118_classes.

(** As a result, two cuboids given as objects are equal exactly when they have the same points. *)
Theorem C118_cuboids :
  forall v b c u k b' c' u' k', good_cuboid b c u k -> good_cuboid b' c' u' k' ->
  exists r, obj_eq v (OCuboid b) (OCuboid b') = Ok r /\ (r = true <-> same_points (solid_box c u k) (solid_box c' u' k')).
Proof. exact c118_cuboids. Qed.
Print Assumptions C118_cuboids.

(** Intersects is that of the classes, whichever object comes first; the level of detail is 40. *)
Theorem C118_intersects :
  forall v, let g := e3_gte v in let eps := e3_eps v in
  let both a b r := obj_isDefined a = true -> obj_isDefined b = true -> obj_intersects v a b = r /\ obj_intersects v b a = r in
  (forall s t, both (OSegment s) (OSphere t) (sp_intersects_segment g t s)) /\
  (forall l e, both (OLine l) (OEllipsoid e) (e_intersects_line g eps e l)) /\
  (forall r e, both (ORay r) (OEllipsoid e) (e_intersects_ray g eps e r)) /\
  (forall s e, both (OSegment s) (OEllipsoid e) (e_intersects_segment eps (e3_tol v) e s)) /\
  (forall s p, both (OSphere s) (OPyramid p) (py_intersects_sphere g eps p s 40)) /\
  (forall s c, both (OSphere s) (OCone c) (co_intersects_sphere c s)) /\
  (forall e p, both (OEllipsoid e) (OPyramid p) (py_intersects_ellipsoid g eps p e 40)) /\
  (forall e c, both (OEllipsoid e) (OCone c) (co_intersects_ellipsoid g eps c e 40)).
Proof. exact c118_intersects. Qed.
Print Assumptions C118_intersects.

Theorem C118_inter :
  forall v n, let g := e3_gte v in let eps := e3_eps v in let order := e3_order v in
  let both a b r := obj_isDefined a = true -> obj_isDefined b = true -> obj_inter n v a b = r /\ obj_inter n v b a = r in
  (forall l p, obj_isDefined (OPlane p) = true -> obj_inter n v (OLine l) (OPlane p) = l_inter_plane l p) /\
  (forall l p, obj_isDefined (OPlane p) = true -> obj_inter n v (ORay l) (OPlane p) = r_inter_plane l p) /\
  (forall l p, obj_isDefined (OPlane p) = true -> obj_inter n v (OSegment l) (OPlane p) = s_inter_plane l p) /\
  (forall s r, obj_isDefined (ORay r) = true -> obj_inter n v (OSphere s) (ORay r) = sp_inter_ray g eps s r false) /\
  (forall r e, both (ORay r) (OEllipsoid e) (e_inter_ray g eps e r false)) /\
  (forall s p, both (OSphere s) (OPyramid p) (py_inter_sphere g eps order p s false 40)) /\
  (forall s c, both (OSphere s) (OCone c) (co_inter_sphere g eps order c s false 40)) /\
  (forall e p, both (OEllipsoid e) (OPyramid p) (py_inter_ellipsoid g eps order p e false 40)) /\
  (forall e c, both (OEllipsoid e) (OCone c) (co_inter_ellipsoid g eps order c e false 40)).
Proof. exact c118_inter. Qed.
Print Assumptions C118_inter.

Theorem C118_contains :
  forall v, (forall e s, obj_isDefined (OSegment s) = true -> obj_contains v (OEllipsoid e) (OSegment s) = e_contains_segment (e3_eps v) e s) /\
  (forall p x, obj_isDefined (OPoint x) = true -> obj_contains v (OPyramid p) (OPoint x) = py_contains (e3_boost v) (e3_eps v) p x) /\
  (forall p s, obj_isDefined (OPointSet s) = true -> obj_contains v (OPyramid p) (OPointSet s) = py_contains_ps (e3_boost v) (e3_eps v) p s) /\
  (forall p s, obj_isDefined (OSegment s) = true -> obj_contains v (OPyramid p) (OSegment s) = py_contains_segment (e3_boost v) (e3_eps v) p s) /\
  (forall p e, obj_isDefined (OEllipsoid e) = true -> obj_contains v (OPyramid p) (OEllipsoid e) = py_contains_ellipsoid p e) /\
  (forall c s, obj_isDefined (OSphere s) = true -> obj_contains v (OCone c) (OSphere s) = co_contains_sphere (e3_fuel v) (e3_eps v) c s) /\
  (forall c e, obj_isDefined (OEllipsoid e) = true -> obj_contains v (OCone c) (OEllipsoid e) = co_contains_ellipsoid c e).
Proof. exact c118_contains. Qed.
Print Assumptions C118_contains.

(** As a result, containment in a cone given as an object is right. *)
Theorem C118_cone :
  forall v c a u t b, 0 < e3_eps v <= 1 -> good_cone (e3_eps v) c a u t -> 0 <= t <= PI / 2 -> plain b ->
  match b with
  | OPoint (Some p) => clear_of (e3_eps v) a p
  | OPointSet s => forall p, In p s -> clear_of (e3_eps v) a p
  | ORay (mkRay (Some o) _) => clear_of (e3_eps v) a o
  | OSegment (mkSeg (Some p) (Some q)) => clear_of (e3_eps v) a p /\ clear_of (e3_eps v) a q
  | _ => False
  end -> exists r, obj_contains v (OCone c) b = Ok r /\ (r = true <-> forall p, points_of b p -> solid_cone a u t p).
Proof. exact c118_cone. Qed.
Print Assumptions C118_cone.

Theorem C118_apply :
  forall v t, (forall p, obj_apply v t (OPoint p) = rmap OPoint (pt_apply t p)) /\
  (forall p, obj_apply v t (OPointSet p) = rmap OPointSet (ps_apply t p)) /\
  (forall p, obj_apply v t (OLine p) = rmap OLine (l_apply t p)) /\
  (forall p, obj_apply v t (ORay p) = rmap ORay (r_apply t p)) /\
  (forall p, obj_apply v t (OSegment p) = rmap OSegment (s_apply t p)) /\
  (forall p, obj_apply v t (OLineString p) = rmap OLineString (ls_apply t p)) /\
  (forall p, obj_apply v t (OPolygon p) = rmap OPolygon (pg_apply t p)) /\
  (forall p, obj_apply v t (OPlane p) = rmap OPlane (pl_apply t p)) /\
  (forall p, obj_apply v t (OSphere p) = rmap OSphere (sp_apply t p)) /\
  (forall p, obj_apply v t (OEllipsoid p) = rmap OEllipsoid (e_apply (e3_eigen v) (e3_eps v) t p)) /\
  (forall p, obj_apply v t (OCuboid p) = rmap OCuboid (cu_apply t p)) /\
  (forall p, obj_apply v t (OPyramid p) = rmap OPyramid (py_apply t p)) /\
  (forall p, obj_apply v t (OCone p) = rmap OCone (co_apply t p)).
Proof. exact c118_apply. Qed.
Print Assumptions C118_apply.

Theorem C118_undefined_intersection :
  forall {T} (cast : obj -> option T) i, inter_isDefined i = false -> inter_is cast i = Err EUndefined /\ inter_as cast i = Err EUndefined.
Proof. exact (@c118_undefined_intersection). Qed.
Print Assumptions C118_undefined_intersection.

Theorem C118_contains_plane :
  forall B, (forall l p, obj2_isDefined (O2Point p) = true -> obj2_contains B (O2LineString l) (O2Point p) = ls2_contains l p) /\
  (forall g p, obj2_isDefined (O2Point p) = true -> obj2_contains B (O2Polygon g) (O2Point p) = pg2_contains B g p) /\
  (forall g s, obj2_isDefined (O2PointSet s) = true -> obj2_contains B (O2Polygon g) (O2PointSet s) = pg2_contains_ps B g s) /\
  (forall g l, obj2_isDefined (O2LineString l) = true -> obj2_contains B (O2Polygon g) (O2LineString l) = pg2_contains_ls B g l) /\
  (forall g p, obj2_isDefined (O2Point p) = true -> obj2_contains B (O2MultiPolygon g) (O2Point p) = mp2_contains B g p) /\
  (forall g s, obj2_isDefined (O2PointSet s) = true -> obj2_contains B (O2MultiPolygon g) (O2PointSet s) = mp2_contains_ps g s).
Proof. exact c118_contains_plane. Qed.
Print Assumptions C118_contains_plane.

Theorem C118_apply_plane :
  forall t, (forall p, obj2_apply t (O2Point p) = rmap O2Point (p2_apply t p)) /\
  (forall p, obj2_apply t (O2PointSet p) = rmap O2PointSet (ps2_apply t p)) /\
  (forall p, obj2_apply t (O2Line p) = rmap O2Line (l2_apply t p)) /\
  (forall p, obj2_apply t (O2Segment p) = rmap O2Segment (s2_apply t p)) /\
  (forall p, obj2_apply t (O2LineString p) = rmap O2LineString (ls2_apply t p)) /\
  (forall p, obj2_apply t (O2Polygon p) = rmap O2Polygon (pg2_apply t p)) /\
  (forall p, obj2_apply t (O2MultiPolygon p) = rmap O2MultiPolygon (mp2_apply t p)).
Proof. exact c118_apply_plane. Qed.
Print Assumptions C118_apply_plane.

(** In the plane no call of intersects answers true ... *)
Theorem C118_never_plane :
  (forall a b, obj2_intersects a b <> Ok true) /\ (forall c d, cs2_intersects_cs c d <> Ok true).
Proof. exact c118_never_plane. Qed.
Print Assumptions C118_never_plane.

(** ... so that the claim that objects with common points are found to intersect is false: even an object and itself. *)
Theorem C118_plane_refuted :
  exists a b, obj2_isDefined a = true /\ obj2_isDefined b = true /\ a = b /\ obj2_intersects a b = Err EToBeImplemented.
Proof. exact c118_plane_refuted. Qed.
Print Assumptions C118_plane_refuted.

(** A cone and a segment given as objects. *)
Example C118_example : forall v, e3_eps v = 1 / 4 -> let c := mkCone (Some zero3) (Some (V3 0 0 1)) (Radians (PI / 4)) in let s := mkSeg (Some (V3 0 0 1)) (Some (V3 0 0 3)) in
  exists r, obj_contains v (OCone c) (OSegment s) = Ok r /\ (r = true <-> forall p, points_of (OSegment s) p -> solid_cone zero3 (V3 0 0 1) (PI / 4) p).
Proof.
  intros v E c s. pose proof PI_RGT_0. apply c118_cone; rewrite ?E.
  - lra.
  - exists (Radians (PI / 4)). split; [reflexivity |]. split; [reflexivity |]. unfold sqnorm3, dot3. cbn. lra.
  - lra.
  - exists (V3 0 0 1), (V3 0 0 3). reflexivity.
  - split; right; unfold sqnorm3, dot3, sub3; cbn; lra.
Qed.
(** Objects of different classes. *)
Example C118_classes_example : forall v, obj_eq v (OPoint (Some zero3)) (OSphere (mkSphere (Some zero3) (Some 1))) = Ok false.
Proof. intros v. apply C118_classes; try reflexivity; cbn; try exact I; intros; congruence. Qed.
