(** Intersections of pyramids with spheres and ellipsoids, and transformations (C106, C107). *)

From Coq Require Import List Bool Reals Lra Lia Arith Psatz Permutation.
From Verif Require IntervalModel IntervalSpec RotProofs4 RotProofs9 CuboidProofs2.
From Verif Require Import Result DOrder Vec VecProofs Mat3 Mat4 AngleModel AngleSpec AngleProofs AngleProofs2 RotModel RotSpec RotProofs RotProofs2 RotProofs3 IntervalGridModel IntervalGridProofs
  TransfModel TransfSpec TransfProofs TransfProofs2 Geo3Types Geo3Model Geo3Spec Geo3Proofs Geo3Proofs2 Geo3Proofs3 GteModel GteSpec ChordProofs SphereModel SphereSpec SphereProofs
  EllModel EllSpec EllProofs EllProofs2 EllProofs3 Geo2Model Geo2Spec Geo2Proofs Poly2Model Poly2Spec Poly2Proofs Poly2Proofs2 Poly2Ref
  InterModel ConeModel ConeSpec ConeProofs ConeProofs2 ConeProofs3 ConeProofs4 ConeProofs5 ConeProofs6 PyrModel PyrSpec PyrProofs PyrProofs2 PyrProofs3 PyrProofs4.
Import ListNotations.
Local Open Scope R_scope.

Lemma c107_sphere g eps m order s b a outer o x y n q r : 0 < eps < 1 / 2 -> sphere_queries g -> good_sphere s q r -> (forall l, Permutation (order l) l) ->
  placed m b outer [] o x y -> off_edges a o x y outer -> (length (cycle outer) <= n)%nat ->
  exists dss (T : v3 -> v3 -> Prop) F S N i j, faces_spread a o x y outer n dss
    /\ (forall d, In d (concat dss) -> hits (on_ray a d) (on_sphere q r) (near_sphere eps q r) (fun p => p = a) (T d))
    /\ py_inter_sphere g eps order (mkPyramid b (Some a)) s false n = Ok i /\ strings_of i (filter nonempty [flat_map F (concat dss); flat_map S (concat dss)])
    /\ (forall d, In d (concat dss) -> (forall p, In p (F d ++ S d) <-> T d p) /\ (length (F d) <= 1)%nat /\ (length (S d) <= 1)%nat)
    /\ py_inter_sphere g eps order (mkPyramid b (Some a)) s true n = Ok j /\ strings_of j (filter nonempty [flat_map N (concat dss)])
    /\ (forall d, In d (concat dss) -> (N d = [] /\ forall p, ~ T d p) \/ (exists p, N d = [p] /\ closest_of (T d) a p)).
Proof.
  intros He Gq G Ho HB Of L. destruct (c107_rays eps m b a outer o x y n He HB Of L) as (dss & E & Fs).
  assert (U : forall d, In d (concat dss) -> sqnorm3 d = 1).
  { intros d Hd. destruct (spread_all _ _ _ _ Fs Hd) as (e & ds & _ & H & I). apply (spread_units _ _ _ _ _ H d I). }
  destruct (rays_sphere g eps order s a (concat dss) q r He Gq G Ho U) as (T & F & S & N & i & j & H1 & H2 & H3 & H4 & H5 & H6 & H7).
  exists dss, T, F, S, N, i, j. split; [exact Fs |]. split; [exact H1 |]. unfold py_inter_sphere. rewrite (py_ok _ _ _ _ _ _ _ _ HB). rewrite E.
  assert (D : sp_data s = Ok (q, r)) by (destruct G as [-> _]; reflexivity). rewrite D. cbn [bind].
  split; [exact H2 |]. split; [exact H3 |]. split; [exact H4 |]. split; [exact H5 |]. split; [exact H6 | exact H7].
Qed.
Lemma c107_ellipsoid_partial g eps m order s b a outer o x y n q ax ks : 0 < eps < 1 / 2 -> ellipsoid_queries g -> good_ellipsoid eps s q ax ks -> (forall l, Permutation (order l) l) ->
  placed m b outer [] o x y -> off_edges a o x y outer -> (length (cycle outer) <= n)%nat ->
  exists dss (T : v3 -> v3 -> Prop) F S N i j, faces_spread a o x y outer n dss
    /\ (forall d, In d (concat dss) -> exists T0, merged eps T0 (T d) /\ hits_except (on_ray a d) (on_ellipsoid q ax ks) (fun p => e_contains eps s (Some p) = Ok true) (fun p => p = a) T0)
    /\ py_inter_ellipsoid g eps order (mkPyramid b (Some a)) s false n = Ok i /\ strings_of i (filter nonempty [flat_map F (concat dss); flat_map S (concat dss)])
    /\ (forall d, In d (concat dss) -> (forall p, In p (F d ++ S d) <-> T d p) /\ (length (F d) <= 1)%nat /\ (length (S d) <= 1)%nat /\ forall p p', In p (F d) -> In p' (S d) -> dist3 a p <= dist3 a p')
    /\ py_inter_ellipsoid g eps order (mkPyramid b (Some a)) s true n = Ok j /\ strings_of j (filter nonempty [flat_map N (concat dss)])
    /\ (forall d, In d (concat dss) -> (N d = [] /\ forall p, ~ T d p) \/ (exists p, N d = [p] /\ closest_of (T d) a p)).
Proof.
  intros He Gq G Ho HB Of L. destruct (c107_rays eps m b a outer o x y n He HB Of L) as (dss & E & Fs).
  assert (U : forall d, In d (concat dss) -> sqnorm3 d = 1).
  { intros d Hd. destruct (spread_all _ _ _ _ Fs Hd) as (e & ds & _ & H & I). apply (spread_units _ _ _ _ _ H d I). }
  destruct (rays_ellipsoid g eps order s a (concat dss) q ax ks He Gq G Ho U) as (T & F & S & N & i & j & H1 & H2 & H3 & H4 & H5 & H6 & H7).
  exists dss, T, F, S, N, i, j. split; [exact Fs |]. split; [exact H1 |]. unfold py_inter_ellipsoid. rewrite (py_ok _ _ _ _ _ _ _ _ HB). rewrite E.
  destruct (good_data eps s q ax ks ltac:(lra) G) as [q0 D]. rewrite D. cbn [bind py_apex].
  split; [exact H2 |]. split; [exact H3 |]. split; [exact H4 |]. split; [exact H5 |]. split; [exact H6 | exact H7].
Qed.
Lemma rays_any (f : ray -> result bool) a ds (Q : v3 -> Prop) : (forall d, In d ds -> exists b, f (mkRay (Some a) (Some d)) = Ok b /\ decides b (fun p => on_ray a d p /\ Q p)) ->
  exists b, anyM f (map (fun d => mkRay (Some a) (Some d)) ds) = Ok b /\ (b = true <-> exists d p, In d ds /\ on_ray a d p /\ Q p).
Proof.
  intros H. destruct (anyM_ok f (fun r => exists d p, r = mkRay (Some a) (Some d) /\ on_ray a d p /\ Q p) (map (fun d => mkRay (Some a) (Some d)) ds)) as (b & Eb & Hb).
  { intros r Hr. apply in_map_iff in Hr. destruct Hr as (d & <- & Hd). destruct (H d Hd) as (b & Eb & Hb). exists b. split; [exact Eb |].
    unfold decides in Hb. rewrite Hb. split; [intros (p & P); exists d, p; split; [reflexivity | exact P] |]. intros (d' & p & E & P). apply (f_equal r_direction), some_inj in E. rewrite <- E in P. exists p. exact P. }
  exists b. split; [exact Eb |]. rewrite Hb. split.
  - intros (r & Hr & (d & p & -> & P)). apply in_map_iff in Hr. destruct Hr as (d' & E & I). apply (f_equal r_direction), some_inj in E. subst d'. exists d, p. split; [exact I | exact P].
  - intros (d & p & Hd & P). exists (mkRay (Some a) (Some d)). split; [apply (in_map (fun d => mkRay (Some a) (Some d))), Hd |]. exists d, p. split; [reflexivity | exact P].
Qed.
(** *** Intersection tests: on the half lines of the faces only *)
Lemma c107_intersects_sphere g eps m s b a outer o x y n q r : 0 < eps < 1 / 2 -> sphere_queries g -> good_sphere s q r ->
  placed m b outer [] o x y -> off_edges a o x y outer -> (length (cycle outer) <= n)%nat ->
  exists dss k, faces_spread a o x y outer n dss /\ py_intersects_sphere g eps (mkPyramid b (Some a)) s n = Ok k
    /\ (k = true <-> exists d p, In d (concat dss) /\ on_ray a d p /\ dist3 p q <= r).
Proof.
  intros He Gq G HB Of L. destruct (c107_rays eps m b a outer o x y n He HB Of L) as (dss & E & Fs).
  destruct (rays_any (sp_intersects_ray g s) a (concat dss) (fun p => dist3 p q <= r)) as (k & Ek & Hk).
  { intros d Hd. destruct (c52_intersects g s q r Gq G) as (_ & C & _). apply C. split; [reflexivity |].
    destruct (spread_all _ _ _ _ Fs Hd) as (e & ds & _ & H & I). apply (spread_units _ _ _ _ _ H d I). }
  exists dss, k. split; [exact Fs |]. split; [| exact Hk]. unfold py_intersects_sphere. assert (D : sp_data s = Ok (q, r)) by (destruct G as [-> _]; reflexivity).
  rewrite D, (py_ok _ _ _ _ _ _ _ _ HB), E. exact Ek.
Qed.
Lemma c107_intersects_ellipsoid g eps m s b a outer o x y n q ax ks : 0 < eps < 1 / 2 -> ellipsoid_queries g -> good_ellipsoid eps s q ax ks ->
  placed m b outer [] o x y -> off_edges a o x y outer -> (length (cycle outer) <= n)%nat ->
  exists dss k, faces_spread a o x y outer n dss /\ py_intersects_ellipsoid g eps (mkPyramid b (Some a)) s n = Ok k
    /\ (k = true <-> exists d p, In d (concat dss) /\ on_ray a d p /\ solid_ellipsoid q ax ks p).
Proof.
  intros He Gq G HB Of L. destruct (c107_rays eps m b a outer o x y n He HB Of L) as (dss & E & Fs).
  destruct (rays_any (e_intersects_ray g eps s) a (concat dss) (solid_ellipsoid q ax ks)) as (k & Ek & Hk).
  { intros d Hd. destruct (c88_intersects g eps s q ax ks ltac:(lra) Gq G) as (_ & C & _). apply C. split; [reflexivity |].
    destruct (spread_all _ _ _ _ Fs Hd) as (e & ds & _ & H & I). apply (spread_units _ _ _ _ _ H d I). }
  exists dss, k. split; [exact Fs |]. split; [| exact Hk]. unfold py_intersects_ellipsoid. destruct (good_data eps s q ax ks ltac:(lra) G) as [q0 D].
  rewrite D, (py_ok _ _ _ _ _ _ _ _ HB), E. exact Ek.
Qed.
(** A ball in the middle of the pyramid is missed, however many half lines are used. *)
Definition pointed (k : R) : pyramid := mkPyramid flat_square (Some (V3 (1 / 2) (1 / 2) k)).
Lemma flat_placed m : 0 <= m < 1 / 10 -> placed m flat_square (square 0 0) [] (V3 0 0 0) (V3 1 0 0) (V3 0 1 0).
Proof. intros Hm. exists (unit_square 0 0). split; [reflexivity |]. apply square_polygon; lra. Qed.
Lemma pointed_off k : k <> 0 -> off_edges (V3 (1 / 2) (1 / 2) k) (V3 0 0 0) (V3 1 0 0) (V3 0 1 0) (square 0 0).
Proof.
  intros Hk v w H E. unfold square in H. cbn in H. pose proof (f_equal vx E) as E1. pose proof (f_equal vy E) as E2. clear E.
  repeat (destruct H as [H | H]; [injection H as <- <-; unfold lift in *; v3unfold; cbn in E1, E2; apply Hk; lra |]). destruct H.
Qed.
Lemma far_from_axis x y z : x * x + y * y + z * z <= 1 / 16 -> (2 * x = 3 / 4 - z \/ 2 * x = z - 3 / 4 \/ 2 * y = 3 / 4 - z \/ 2 * y = z - 3 / 4) -> False.
Proof.
  intros H K. pose proof (VecProofs.sq_nonneg x). pose proof (VecProofs.sq_nonneg y).
  destruct K as [K | [K | [K | K]]].
  - replace z with (3 / 4 - 2 * x) in H by lra. pose proof (VecProofs.sq_nonneg (x - 3 / 10)). nra.
  - replace z with (3 / 4 + 2 * x) in H by lra. pose proof (VecProofs.sq_nonneg (x + 3 / 10)). nra.
  - replace z with (3 / 4 - 2 * y) in H by lra. pose proof (VecProofs.sq_nonneg (y - 3 / 10)). nra.
  - replace z with (3 / 4 + 2 * y) in H by lra. pose proof (VecProofs.sq_nonneg (y + 3 / 10)). nra.
Qed.
Lemma faces_far v w t s1 s2 : In (v, w) (cycle (square 0 0)) ->
  sqnorm3 (sub3 (along (V3 (1 / 2) (1 / 2) 1) t (add3 (scale3 s1 (sub3 (lift (V3 0 0 0) (V3 1 0 0) (V3 0 1 0) v) (V3 (1 / 2) (1 / 2) 1)))
    (scale3 s2 (sub3 (lift (V3 0 0 0) (V3 1 0 0) (V3 0 1 0) w) (V3 (1 / 2) (1 / 2) 1))))) (V3 (1 / 2) (1 / 2) (1 / 4))) <= 1 / 16 -> False.
Proof.
  intros Hi K. unfold square in Hi. cbn in Hi.
  repeat (destruct Hi as [Hi | Hi]; [injection Hi as <- <-; unfold along, lift, sqnorm3, dot3, sub3, add3, scale3 in K; cbn [vx vy vz x2 y2] in K;
      match type of K with ?X * ?X + ?Y * ?Y + ?Z * ?Z <= _ => apply (far_from_axis X Y Z K) end; clear K;
      first [left; lra | right; left; lra | right; right; left; lra | right; right; right; lra] |]). destruct Hi.
Qed.
Lemma c107_intersects_refuted g eps : 0 < eps < 1 / 2 -> sphere_queries g ->
  exists s q r, good_sphere s q r /\ 0 < r /\ solid_pyramid (placed_region (unit_square 0 0) (V3 0 0 0) (V3 1 0 0) (V3 0 1 0)) (V3 (1 / 2) (1 / 2) 1) q
    /\ forall n, (4 <= n)%nat -> py_intersects_sphere g eps (pointed 1) s n = Ok false.
Proof.
  intros He Gq. exists (mkSphere (Some (V3 (1 / 2) (1 / 2) (1 / 4))) (Some (1 / 4))), (V3 (1 / 2) (1 / 2) (1 / 4)), (1 / 4). split; [split; [reflexivity | lra] |]. split; [lra |].
  split.
  - exists (V3 (1 / 2) (1 / 2) 0), (3 / 4). split; [| split; [lra | unfold along; v3unfold; cbn; apply V3_eq; field]].
    exists (V2 (0 + 1 / 2) (0 + 1 / 2)). split; [apply square_centre |]. unfold lift. v3unfold. cbn. apply V3_eq; field.
  - intros n Hn. destruct (c107_intersects_sphere g eps 0 (mkSphere (Some (V3 (1 / 2) (1 / 2) (1 / 4))) (Some (1 / 4))) flat_square (V3 (1 / 2) (1 / 2) 1) (square 0 0) (V3 0 0 0) (V3 1 0 0) (V3 0 1 0) n
      (V3 (1 / 2) (1 / 2) (1 / 4)) (1 / 4) He Gq) as (dss & k & Fs & Ek & Hk).
    { split; [reflexivity | lra]. } { apply flat_placed; lra. } { apply pointed_off; lra. } { exact Hn. }
    unfold pointed. rewrite Ek. f_equal. destruct k; [exfalso | reflexivity]. destruct (proj1 Hk eq_refl) as (d & p & Hd & (t & Ht & ->) & Hp).
    assert (K : dist3 (along (V3 (1 / 2) (1 / 2) 1) t d) (V3 (1 / 2) (1 / 2) (1 / 4)) * dist3 (along (V3 (1 / 2) (1 / 2) 1) t d) (V3 (1 / 2) (1 / 2) (1 / 4)) <= 1 / 4 * (1 / 4)) by (apply Rmult_le_compat; try assumption; apply norm3_nonneg).
    unfold dist3 in K. rewrite norm3_sq in K. clear Hp.
    destruct (spread_all _ _ _ _ Fs Hd) as ([v w] & ds & Hi & H & I). destruct (spread_units _ _ _ _ _ H d I) as (_ & (s1 & s2 & H1 & H2 & ->)). cbn [fst snd] in *. clear H I Fs Hd Hk Ek.
    apply (faces_far v w t s1 s2 Hi). replace (1 / 16) with (1 / 4 * (1 / 4)) by field. exact K.
Qed.
(** *** Transformations *)
Lemma lift_amap l d o x y v : lift (amap l d o) (mulv3 l x) (mulv3 l y) v = amap l d (lift o x y v).
Proof. unfold lift, amap. destruct v as [a b], o, x, y, l, d. unfold mulv3, row3. v3unfold. cbn. apply V3_eq; ring. Qed.
Lemma along_amap l d a t q : along (amap l d a) t (sub3 (amap l d q) (amap l d a)) = amap l d (along a t (sub3 q a)).
Proof. unfold along, amap. destruct a, q, l, d. unfold mulv3, row3. v3unfold. cbn. apply V3_eq; ring. Qed.
Lemma amap_inj l d p q : is_rotation l -> amap l d p = amap l d q -> p = q.
Proof.
  intros R E. apply sub3_0. apply sqnorm3_0. rewrite <- (rotation_unit l _ R), <- (amap_sub l d). rewrite E. generalize (amap l d q). intros w. v3unfold. ring.
Qed.
Lemma c107_transform eps prec m t b a outer inner o x y : affine3 eps prec t -> placed m b outer inner o x y ->
  exists f b' o' x' y', maps_points3 t f /\ py_apply t (mkPyramid b (Some a)) = Ok (mkPyramid b' (Some (f a))) /\ placed m b' outer inner o' x' y' /\ forall v, lift o' x' y' v = f (lift o x y v).
Proof.
  intros A H. destruct (affine3_shaped _ _ _ A) as (ty & l & d & r & -> & N). pose proof (py_ok m b a outer inner o x y H) as K.
  destruct (placed_data _ _ _ _ _ _ _ H) as (P & -> & HP & D).
  pose proof (proj1 (apply_affine ty l d r)) as AP. pose proof (proj2 (apply_affine ty l d r)) as AV.
  exists (amap l d), (mkPolygon P (Some (amap l d o)) (Some (mulv3 l x)) (Some (mulv3 l y))), (amap l d o), (mulv3 l x), (mulv3 l y). split; [exact AP |]. split; [| split; [exists P; split; [reflexivity | exact HP] | intros v; apply lift_amap]].
  unfold py_apply. rewrite K. rewrite apply_defined by assumption. cbn [negb bind]. unfold pg_apply. rewrite apply_defined by assumption. cbn [negb]. rewrite D. cbn [bind]. rewrite AP. cbn [bind]. rewrite !AV.
  rewrite pt_apply_affine by assumption. reflexivity.
Qed.
Lemma c106_rigid B eps prec t P o x y a : covers_regions B -> bg_valid B P = true -> pg2_isDefined P = true -> 0 < eps -> 0 < prec -> proper3 eps prec t -> frame x y -> dot3 (cross3 x y) (sub3 o a) <> 0 ->
  exists f p', maps_points3 t f /\ (forall u v, dist3 (f u) (f v) = dist3 u v) /\ py_apply t (mkPyramid (mkPolygon P (Some o) (Some x) (Some y)) (Some a)) = Ok p'
    /\ forall p, py_contains B eps p' (Some (f p)) = py_contains B eps (mkPyramid (mkPolygon P (Some o) (Some x) (Some y)) (Some a)) (Some p).
Proof.
  intros HB HV HD He Hp H F Nz. destruct (proper_shape eps prec t He Hp H) as (ty & l & d & -> & R & N0).
  assert (N : ty <> TUndefined) by (intros ->; exact N0). clear N0. pose proof (proj1 (apply_affine ty l d true)) as AP. pose proof (proj2 (apply_affine ty l d true)) as AV.
  exists (amap l d), (mkPyramid (mkPolygon P (Some (amap l d o)) (Some (mulv3 l x)) (Some (mulv3 l y))) (Some (amap l d a))). split; [exact AP |].
  assert (D : pg_data (mkPolygon P (Some o) (Some x) (Some y)) = Ok (P, o, x, y)) by (unfold pg_data; cbn [pg_origin pg_x pg_y pg_polygon]; rewrite HD; reflexivity).
  split; [| split].
  - intros u v. unfold dist3. rewrite amap_sub. unfold norm3. rewrite rotation_unit by assumption. reflexivity.
  - unfold py_apply. rewrite apply_defined by assumption. cbn [negb]. unfold py_data. cbn [py_base py_apex]. rewrite D. cbn [bind]. unfold pg_apply. rewrite apply_defined by assumption. cbn [negb]. rewrite D. cbn [bind].
    rewrite AP. cbn [bind]. rewrite !AV. rewrite pt_apply_affine by assumption. reflexivity.
  - intros p. destruct F as (Fx & Fy & Fd).
    assert (F' : frame (mulv3 l x) (mulv3 l y)) by (split; [rewrite rotation_unit; assumption |]; split; [rewrite rotation_unit; assumption |]; rewrite rotation_dot; assumption).
    destruct (c106_contains B eps P o x y a p HB HV HD He (conj Fx (conj Fy Fd)) Nz) as (r & E & I).
    destruct (c106_contains B eps P (amap l d o) (mulv3 l x) (mulv3 l y) (amap l d a) (amap l d p) HB HV HD He F') as (r' & E' & I').
    { rewrite <- RotProofs9.rotation_cross by assumption. rewrite amap_sub, rotation_dot by assumption. exact Nz. }
    rewrite E, E'. f_equal. enough (Q : open_pyramid (placed_region P (amap l d o) (mulv3 l x) (mulv3 l y)) (amap l d a) (amap l d p) <-> open_pyramid (placed_region P o x y) a p).
    { destruct r, r'; try reflexivity; [apply I', Q, I | symmetry; apply I, Q, I']; reflexivity. }
    split; (intros [K | (q & s & (v & Rv & ->) & Hs & K)]; [left | right]).
    + apply (amap_inj l d _ _ R K).
    + exists (lift o x y v), s. split; [exists v; split; [exact Rv | reflexivity] |]. split; [exact Hs |]. rewrite lift_amap, along_amap in K. apply (amap_inj l d _ _ R K).
    + rewrite K. reflexivity.
    + exists (amap l d (lift o x y v)), s. split; [exists v; split; [exact Rv | symmetry; apply lift_amap] |]. split; [exact Hs |]. rewrite K, along_amap. reflexivity.
Qed.
Lemma c107_errors g eps order p s e b n t :
  (sp_data s = Err EUndefined -> py_inter_sphere g eps order p s b n = Err EUndefined /\ py_intersects_sphere g eps p s n = Err EUndefined)
  /\ (e_data e = Err EUndefined -> py_inter_ellipsoid g eps order p e b n = Err EUndefined /\ py_intersects_ellipsoid g eps p e n = Err EUndefined)
  /\ (py_data p = Err EUndefined -> py_rays eps p n = Err EUndefined /\ py_apply t p = Err EUndefined
      /\ (forall q r, good_sphere s q r -> py_inter_sphere g eps order p s b n = Err EUndefined /\ py_intersects_sphere g eps p s n = Err EUndefined)
      /\ (forall d, e_data e = Ok d -> py_inter_ellipsoid g eps order p e b n = Err EUndefined /\ py_intersects_ellipsoid g eps p e n = Err EUndefined))
  /\ py_apply t3_Undefined p = Err EUndefined
  /\ (forall B q, py_data p = Err EUndefined -> py_eq B p q = false /\ py_eq B q p = false).
Proof.
  split; [intros H; unfold py_inter_sphere, py_intersects_sphere; rewrite H; split; reflexivity |].
  split; [intros H; unfold py_inter_ellipsoid, py_intersects_ellipsoid; rewrite H; split; reflexivity |].
  split; [| split; [reflexivity |]].
  - intros D. split; [unfold py_rays, py_getLateralFaceCount; rewrite D; reflexivity |]. split; [unfold py_apply; rewrite D; destruct (t3_isDefined t); reflexivity |]. split.
    + intros q r [-> _]. unfold py_inter_sphere, py_intersects_sphere. rewrite D. split; reflexivity.
    + intros d Hd. unfold py_inter_ellipsoid, py_intersects_ellipsoid. rewrite D, Hd. split; reflexivity.
  - intros B q D. unfold py_eq. rewrite D. split; [reflexivity |]. destruct (py_data q) as [[? ?] | |]; reflexivity.
Qed.
Lemma c107_equal B P o x y a P' o' x' y' a' : equal_regions B -> bg_valid B P = true -> bg_valid B P' = true -> pg2_isDefined P = true -> pg2_isDefined P' = true ->
  (py_eq B (mkPyramid (mkPolygon P (Some o) (Some x) (Some y)) (Some a)) (mkPyramid (mkPolygon P' (Some o') (Some x') (Some y')) (Some a')) = true
   <-> (forall v, region P v <-> region P' v) /\ o = o' /\ x = x' /\ y = y' /\ a = a').
Proof.
  intros E V V' D D'. unfold py_eq, py_data. cbn [py_base py_apex].
  rewrite !base_data by assumption. rewrite andb_true_iff, v3_eqb_iff, (c60_equal B P o x y P' o' x' y' E V V' D D'). tauto.
Qed.
