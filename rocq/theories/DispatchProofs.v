(** Proofs that the operations of Object are those of the classes of its arguments, in the plane and in space. *)

From Coq Require Import List Bool Reals Lra Lia Arith.
From Verif Require Import Result DOrder Vec Mat3 AngleModel AngleSpec RotModel TransfModel Geo3Types Geo3Model Geo3Spec GteModel GteSpec SphereModel SphereSpec EllModel
  CuboidModel CuboidSpec InterModel ConeModel ConeSpec PyrModel Geo2Model Poly2Model Poly2Spec CompModel CompSpec.
From Verif Require ConeProofs CuboidProofs2.
Import ListNotations.
Local Open Scope R_scope.

Ltac split_all := repeat match goal with |- _ /\ _ => split end.
Lemma isSome_iff {A} (o : option A) : isSome o = true <-> o <> None.
Proof. destruct o; cbn; split; congruence. Qed.

(** *** Space *)
Lemma c118_defined :
  (forall p, obj_isDefined (OPoint p) = true <-> p <> None) /\
  (forall s, obj_isDefined (OPointSet s) = true <-> s <> []) /\
  (forall a d, obj_isDefined (OLine (mkLine a d)) = true <-> a <> None /\ d <> None) /\
  (forall a d, obj_isDefined (ORay (mkRay a d)) = true <-> a <> None /\ d <> None) /\
  (forall a b, obj_isDefined (OSegment (mkSeg a b)) = true <-> a <> None /\ b <> None) /\
  (forall l, obj_isDefined (OLineString l) = true <-> l <> []) /\
  (forall q n, obj_isDefined (OPlane (mkPlane q n)) = true <-> q <> None /\ n <> None) /\
  (forall c r, obj_isDefined (OSphere (mkSphere c r)) = true <-> c <> None /\ r <> None) /\
  (forall c x y z q, obj_isDefined (OEllipsoid (mkEll c x y z q)) = true <-> c <> None /\ x <> None /\ y <> None /\ z <> None /\ q <> None) /\
  (forall c u v w x y z, obj_isDefined (OCuboid (mkCuboid c (u, v, w) (x, y, z))) = true <->
     c <> None /\ (u <> None /\ v <> None /\ w <> None) /\ x <> None /\ y <> None /\ z <> None) /\
  (forall P o x y, obj_isDefined (OPolygon (mkPolygon P o x y)) = true <-> pg2_isDefined P = true /\ o <> None /\ x <> None /\ y <> None) /\
  (forall b a, obj_isDefined (OPyramid (mkPyramid b a)) = true <-> obj_isDefined (OPolygon b) = true /\ a <> None) /\
  (forall a u k, obj_isDefined (OCone (mkCone a u k)) = true <-> a <> None /\ u <> None /\ exists s, turns k = Some s) /\
  (forall d l, obj_isDefined (OComposite d l) = true <-> d = true /\ forall o, In o l -> obj_isDefined o = true).
Proof.
  split_all; intros; cbn [obj_isDefined].
  - apply isSome_iff.
  - destruct s; cbn; split; congruence.
  - destruct a, d; cbn; intuition congruence.
  - destruct a, d; cbn; intuition congruence.
  - destruct a, b; cbn; intuition congruence.
  - destruct l; cbn; split; congruence.
  - unfold pl_isDefined. cbn. rewrite andb_true_iff, !isSome_iff. reflexivity.
  - destruct c, r; cbn; intuition congruence.
  - destruct c, x, y, z, q; cbn; intuition congruence.
  - destruct c, u, v, w, x, y, z; cbn; intuition congruence.
  - unfold pg_isDefined. cbn. rewrite !andb_true_iff, !isSome_iff. tauto.
  - unfold py_isDefined. cbn. rewrite andb_true_iff, isSome_iff. reflexivity.
  - unfold co_isDefined. cbn. rewrite !andb_true_iff, !isSome_iff.
    assert (A : angle_isDefined k = true <-> exists s, turns k = Some s).
    { unfold angle_isDefined, turns. destruct k as [[x |] []]; cbn; split; try discriminate; try (intros [s S]; discriminate); try (eexists; reflexivity); reflexivity. }
    rewrite A. tauto.
  - rewrite andb_true_iff, forallb_forall. reflexivity.
Qed.

Lemma c118_equal v :
  (forall c d, obj_isDefined (OEllipsoid c) = true -> obj_isDefined (OEllipsoid d) = true -> obj_eq v (OEllipsoid c) (OEllipsoid d) = EllModel.e_eq (e3_eps v) c d) /\
  (forall c d, obj_isDefined (OCuboid c) = true -> obj_isDefined (OCuboid d) = true -> obj_eq v (OCuboid c) (OCuboid d) = Ok (cu_eq c d)) /\
  (forall c d, obj_isDefined (OPolygon c) = true -> obj_isDefined (OPolygon d) = true -> obj_eq v (OPolygon c) (OPolygon d) = Ok (pg_eq (e3_boost v) c d)) /\
  (forall c d, obj_isDefined (OPyramid c) = true -> obj_isDefined (OPyramid d) = true -> obj_eq v (OPyramid c) (OPyramid d) = Ok (py_eq (e3_boost v) c d)) /\
  (forall c d, obj_isDefined (OCone c) = true -> obj_isDefined (OCone d) = true -> obj_eq v (OCone c) (OCone d) = co_eq (e3_fuel v) c d).
Proof. split_all; intros c d C D; cbn [obj_eq]; rewrite C, D; reflexivity. Qed.
Lemma c118_classes v a b : leaf a -> obj_isDefined a = true -> obj_isDefined b = true ->
  (forall o, kind_of a = Some o -> kind_of b <> Some o) -> (kind_of a = None -> leaf b -> kind_of b <> None) -> obj_eq v a b = Ok false.
Proof.
  intros L A B K N. destruct a; cbn [obj_eq]; rewrite A, B; cbn [negb orb]; destruct b; try reflexivity;
    try (elim (K _ eq_refl eq_refl)); try (elim L); cbn in N; elim N; try reflexivity; exact I.
Qed.
Lemma c118_cuboids v b c u k b' c' u' k' : good_cuboid b c u k -> good_cuboid b' c' u' k' ->
  exists r, obj_eq v (OCuboid b) (OCuboid b') = Ok r /\ (r = true <-> same_points (solid_box c u k) (solid_box c' u' k')).
Proof.
  intros G G'. exists (cu_eq b b'). split; [| apply CuboidProofs2.c93_equal; assumption].
  apply (proj1 (proj2 (c118_equal v))); cbn [obj_isDefined].
  - destruct u as [[? ?] ?], k as [[? ?] ?], G as [-> G]; reflexivity.
  - destruct u' as [[? ?] ?], k' as [[? ?] ?], G' as [-> G']; reflexivity.
Qed.

Lemma c118_intersects v :
  let g := e3_gte v in let eps := e3_eps v in
  let both a b r := obj_isDefined a = true -> obj_isDefined b = true -> obj_intersects v a b = r /\ obj_intersects v b a = r in
  (forall s t, both (OSegment s) (OSphere t) (sp_intersects_segment g t s)) /\
  (forall l e, both (OLine l) (OEllipsoid e) (e_intersects_line g eps e l)) /\
  (forall r e, both (ORay r) (OEllipsoid e) (e_intersects_ray g eps e r)) /\
  (forall s e, both (OSegment s) (OEllipsoid e) (e_intersects_segment eps (e3_tol v) e s)) /\
  (forall s p, both (OSphere s) (OPyramid p) (py_intersects_sphere g eps p s 40)) /\
  (forall s c, both (OSphere s) (OCone c) (co_intersects_sphere c s)) /\
  (forall e p, both (OEllipsoid e) (OPyramid p) (py_intersects_ellipsoid g eps p e 40)) /\
  (forall e c, both (OEllipsoid e) (OCone c) (co_intersects_ellipsoid g eps c e 40)).
Proof. cbv zeta. split_all; intros a b A B; cbn [obj_intersects]; rewrite A, B; split; reflexivity. Qed.
Lemma c118_inter v n :
  let g := e3_gte v in let eps := e3_eps v in let order := e3_order v in
  let both a b r := obj_isDefined a = true -> obj_isDefined b = true -> obj_inter n v a b = r /\ obj_inter n v b a = r in
  (forall l p, obj_isDefined (OPlane p) = true -> obj_inter n v (OLine l) (OPlane p) = l_inter_plane l p) /\
  (forall l p, obj_isDefined (OPlane p) = true -> obj_inter n v (ORay l) (OPlane p) = r_inter_plane l p) /\
  (forall l p, obj_isDefined (OPlane p) = true -> obj_inter n v (OSegment l) (OPlane p) = s_inter_plane l p) /\
  (forall s r, obj_isDefined (ORay r) = true -> obj_inter n v (OSphere s) (ORay r) = sp_inter_ray g eps s r false) /\
  (forall r e, both (ORay r) (OEllipsoid e) (e_inter_ray g eps e r false)) /\
  (forall s p, both (OSphere s) (OPyramid p) (py_inter_sphere g eps order p s false 40)) /\
  (forall s c, both (OSphere s) (OCone c) (co_inter_sphere g eps order c s false 40)) /\
  (forall e p, both (OEllipsoid e) (OPyramid p) (py_inter_ellipsoid g eps order p e false 40)) /\
  (forall e c, both (OEllipsoid e) (OCone c) (co_inter_ellipsoid g eps order c e false 40)).
Proof.
  cbv zeta. split_all; intros a b A; try intros B; cbn [obj_inter]; rewrite A; try rewrite B; try split; reflexivity.
Qed.
Lemma c118_contains v :
  (forall e s, obj_isDefined (OSegment s) = true -> obj_contains v (OEllipsoid e) (OSegment s) = e_contains_segment (e3_eps v) e s) /\
  (forall p x, obj_isDefined (OPoint x) = true -> obj_contains v (OPyramid p) (OPoint x) = py_contains (e3_boost v) (e3_eps v) p x) /\
  (forall p s, obj_isDefined (OPointSet s) = true -> obj_contains v (OPyramid p) (OPointSet s) = py_contains_ps (e3_boost v) (e3_eps v) p s) /\
  (forall p s, obj_isDefined (OSegment s) = true -> obj_contains v (OPyramid p) (OSegment s) = py_contains_segment (e3_boost v) (e3_eps v) p s) /\
  (forall p e, obj_isDefined (OEllipsoid e) = true -> obj_contains v (OPyramid p) (OEllipsoid e) = py_contains_ellipsoid p e) /\
  (forall c s, obj_isDefined (OSphere s) = true -> obj_contains v (OCone c) (OSphere s) = co_contains_sphere (e3_fuel v) (e3_eps v) c s) /\
  (forall c e, obj_isDefined (OEllipsoid e) = true -> obj_contains v (OCone c) (OEllipsoid e) = co_contains_ellipsoid c e).
Proof. split_all; intros a b B; cbn [obj_contains]; rewrite B; reflexivity. Qed.
(** The points to be kept clear of the apex of a cone by the tolerance: those that decide the answer. *)
Lemma c118_cone v c a u t b : 0 < e3_eps v <= 1 -> good_cone (e3_eps v) c a u t -> 0 <= t <= PI / 2 -> plain b ->
  match b with
  | OPoint (Some p) => clear_of (e3_eps v) a p
  | OPointSet s => forall p, In p s -> clear_of (e3_eps v) a p
  | ORay (mkRay (Some o) _) => clear_of (e3_eps v) a o
  | OSegment (mkSeg (Some p) (Some q)) => clear_of (e3_eps v) a p /\ clear_of (e3_eps v) a q
  | _ => False
  end -> exists r, obj_contains v (OCone c) b = Ok r /\ (r = true <-> forall p, points_of b p -> solid_cone a u t p).
Proof.
  intros E G T P C. destruct b as [p | s | l | r | s | l | q | q | s | e | k | q | k | d l]; try (elim C).
  - destruct P as [x ->]. cbn [obj_contains obj_isDefined isSome negb points_of].
    assert (Q : exists r, co_contains (e3_fuel v) (e3_eps v) c (Some x) = Ok r /\ (r = true <-> solid_cone a u t x)) by (eapply ConeProofs.c54_contains_partial; eauto; lra).
    destruct Q as (r & R & S). exists r. split; [exact R |]. rewrite S. split; [intros H p -> | intros H; apply H]; auto.
  - destruct P as [N _]. destruct (ConeProofs.c54_sets (e3_fuel v) (e3_eps v) c a u t s ltac:(lra) G T C) as (r & R & S). exists r.
    split; [| exact S]. cbn [obj_contains]. replace (obj_isDefined (OPointSet s)) with true by (destruct s; [congruence | reflexivity]). exact R.
  - destruct P as (o & d & P). assert (R0 := P). destruct P as [-> _].
    destruct (ConeProofs.c54_ray (e3_fuel v) (e3_eps v) c a u t _ o d E G T R0 C) as (r & R & S). exists r. split; [exact R | exact S].
  - destruct P as (x & y & ->). destruct C as [C1 C2]. destruct (ConeProofs.c54_segment (e3_fuel v) (e3_eps v) c a u t x y ltac:(lra) G T C1 C2) as (r & R & S & _).
    exists r. split; [exact R | exact S].
Qed.
Lemma c118_apply v t :
  (forall p, obj_apply v t (OPoint p) = rmap OPoint (pt_apply t p)) /\
  (forall p, obj_apply v t (OPointSet p) = rmap OPointSet (ps_apply t p)) /\
  (forall p, obj_apply v t (OLine p) = rmap OLine (l_apply t p)) /\
  (forall p, obj_apply v t (ORay p) = rmap ORay (r_apply t p)) /\
  (forall p, obj_apply v t (OSegment p) = rmap OSegment (s_apply t p)) /\
  (forall p, obj_apply v t (OLineString p) = rmap OLineString (ls_apply t p)) /\
  (forall p, obj_apply v t (OPolygon p) = rmap OPolygon (pg_apply t p)) /\
  (forall p, obj_apply v t (OPlane p) = rmap OPlane (pl_apply t p)) /\
  (forall p, obj_apply v t (OSphere p) = rmap OSphere (sp_apply t p)) /\
  (forall p, obj_apply v t (OEllipsoid p) = rmap OEllipsoid (e_apply (e3_eigen v) (e3_eps v) t p)) /\
  (forall p, obj_apply v t (OCuboid p) = rmap OCuboid (cu_apply t p)) /\
  (forall p, obj_apply v t (OPyramid p) = rmap OPyramid (py_apply t p)) /\
  (forall p, obj_apply v t (OCone p) = rmap OCone (co_apply t p)).
Proof. split_all; reflexivity. Qed.
Lemma c118_undefined_intersection {T} (cast : obj -> option T) i : inter_isDefined i = false -> inter_is cast i = Err EUndefined /\ inter_as cast i = Err EUndefined.
Proof. intros H. unfold inter_is, inter_as. rewrite H. split; reflexivity. Qed.

(** *** The plane *)
Lemma c118_contains_plane B :
  (forall l p, obj2_isDefined (O2Point p) = true -> obj2_contains B (O2LineString l) (O2Point p) = ls2_contains l p) /\
  (forall g p, obj2_isDefined (O2Point p) = true -> obj2_contains B (O2Polygon g) (O2Point p) = pg2_contains B g p) /\
  (forall g s, obj2_isDefined (O2PointSet s) = true -> obj2_contains B (O2Polygon g) (O2PointSet s) = pg2_contains_ps B g s) /\
  (forall g l, obj2_isDefined (O2LineString l) = true -> obj2_contains B (O2Polygon g) (O2LineString l) = pg2_contains_ls B g l) /\
  (forall g p, obj2_isDefined (O2Point p) = true -> obj2_contains B (O2MultiPolygon g) (O2Point p) = mp2_contains B g p) /\
  (forall g s, obj2_isDefined (O2PointSet s) = true -> obj2_contains B (O2MultiPolygon g) (O2PointSet s) = mp2_contains_ps g s).
Proof. split_all; intros a b D; cbn [obj2_contains]; rewrite D; reflexivity. Qed.
Lemma c118_apply_plane t :
  (forall p, obj2_apply t (O2Point p) = rmap O2Point (p2_apply t p)) /\
  (forall p, obj2_apply t (O2PointSet p) = rmap O2PointSet (ps2_apply t p)) /\
  (forall p, obj2_apply t (O2Line p) = rmap O2Line (l2_apply t p)) /\
  (forall p, obj2_apply t (O2Segment p) = rmap O2Segment (s2_apply t p)) /\
  (forall p, obj2_apply t (O2LineString p) = rmap O2LineString (ls2_apply t p)) /\
  (forall p, obj2_apply t (O2Polygon p) = rmap O2Polygon (pg2_apply t p)) /\
  (forall p, obj2_apply t (O2MultiPolygon p) = rmap O2MultiPolygon (mp2_apply t p)).
Proof. split_all; reflexivity. Qed.
(** No two objects of the plane are ever said to intersect. *)
Lemma never_any l : Forall (fun r : result bool => r <> Ok true) l -> anyM (fun r => r) l <> Ok true.
Proof.
  induction l as [| r l IH]; intros F; cbn [anyM]; [discriminate |]. inversion_clear F as [| ? ? H F'].
  destruct r as [[|] | |]; cbn [bind]; try congruence; try discriminate. apply IH, F'.
Qed.
Lemma c118_never_plane : (forall a b, obj2_intersects a b <> Ok true) /\ (forall c d, cs2_intersects_cs c d <> Ok true).
Proof.
  assert (A : forall a b, obj2_intersects a b <> Ok true).
  { fix IH 1. intros a b. destruct a as [p | s | l | s | l | p | p | d l]; cbn [obj2_intersects]; try (destruct (obj2_isDefined b); discriminate).
    destruct (negb (obj2_isDefined b)); [discriminate |]. destruct (negb (obj2_isDefined (O2Composite d l))); [discriminate |].
    apply never_any. clear d. induction l as [| x l IHl]; constructor; [apply IH | apply IHl]. }
  split; [exact A |]. intros c d. unfold cs2_intersects_cs. destruct (cs2_defined d) as [d' | |]; cbn [bind]; try discriminate.
  destruct (cs2_defined c) as [c' | |]; cbn [bind]; try discriminate. generalize (snd d'). clear d d' c. intros l.
  induction l as [| x l IHl]; cbn [anyM]; [discriminate |]. pose proof (A (obj_of_composite2 c') x) as K. unfold cs2_intersects at 1.
  destruct (obj2_intersects (obj_of_composite2 c') x) as [[|] | |]; cbn [bind]; try congruence; try discriminate.
Qed.
Lemma c118_plane_refuted : exists a b, obj2_isDefined a = true /\ obj2_isDefined b = true /\ a = b /\ obj2_intersects a b = Err EToBeImplemented.
Proof. exists (O2Point (Some (V2 0 0))), (O2Point (Some (V2 0 0))). repeat split. Qed.
