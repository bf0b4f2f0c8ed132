(** The properties of accessors, named constructors and negated comparisons: C119. *)

From Coq Require Import List Bool Reals Lra Lia.
From Verif Require IntervalModel.
From Verif Require Import Result DOrder Vec AngleModel AngleSpec RotModel TransfModel Geo3Types Geo3Model GteModel
  SphereModel EllModel CuboidModel InterModel ConeModel Geo2Model Poly2Model PyrModel SolverModel LogEuclidModel AccessModel AccessProofs.
Import ListNotations.
Local Open Scope R_scope.

(** *** C119: accessors, named constructors and negated comparisons *)
(** A named constructor stands for the given number of units. *)
Theorem C119_angles :
  forall x, turns (Radians x) = Some (x / (2 * PI)) /\ turns (Degrees (Some x)) = Some (x / 360) /\ turns (Arcminutes (Some x)) = Some (x / (360 * 60))
  /\ turns (Arcseconds (Some x)) = Some (x / (360 * 3600)) /\ turns (Revolutions (Some x)) = Some (x / 1)
  /\ turns (Degrees None) = None /\ turns (Arcminutes None) = None /\ turns (Arcseconds None) = None /\ turns (Revolutions None) = None.
Proof. exact c119_angles. Qed.
Print Assumptions C119_angles.

(** The value read in a unit is the number of turns times the units in a turn. *)
Theorem C119_units :
  forall a t, turns a = Some t -> as_radians a = Ok (t * (2 * PI)) /\ as_degrees a = Ok (t * 360) /\ as_arcminutes a = Ok (t * (360 * 60))
  /\ as_arcseconds a = Ok (t * (360 * 3600)) /\ as_revolutions a = Ok t /\ angle_getUnit a = Ok (aunit a) /\ angle_pos a = Ok a.
Proof. exact c119_units. Qed.
Print Assumptions C119_units.

Theorem C119_undefined_angle :
  forall a, turns a = None -> as_radians a = Err EUndefined /\ as_degrees a = Err EUndefined /\ as_arcminutes a = Err EUndefined
  /\ as_arcseconds a = Err EUndefined /\ as_revolutions a = Err EUndefined /\ angle_getUnit a = Err EUndefined /\ angle_pos a = Err EUndefined.
Proof. exact c119_undefined_angle. Qed.
Print Assumptions C119_undefined_angle.

Theorem C119_interval :
  forall (D : DOrder) t (l u : car D) i, IntervalModel.construct (Some l) (Some u) t = Ok i -> t <> IntervalModel.TUndefined ->
  getType i = Ok t /\ getLowerBound i = Ok l /\ getUpperBound i = Ok u.
Proof. exact c119_interval. Qed.
Print Assumptions C119_interval.

Theorem C119_undefined_interval :
  forall (D : DOrder) (i : IntervalModel.interval D), IntervalModel.itp i = IntervalModel.TUndefined \/ IntervalModel.ilb i = None \/ IntervalModel.iub i = None ->
  getType i = Err EUndefined /\ getLowerBound i = Err EUndefined /\ getUpperBound i = Err EUndefined.
Proof. exact c119_undefined_interval. Qed.
Print Assumptions C119_undefined_interval.

Theorem C119_interval_ne :
  forall (D : DOrder) (i j : IntervalModel.interval D), interval_ne i j = true <-> IntervalModel.interval_eq i j <> true.
Proof. exact c119_interval_ne. Qed.
Print Assumptions C119_interval_ne.

Theorem C119_sphere :
  forall c r, let s := Sphere (Some c) (Some r) in
  sp_getCenter s = Ok c /\ sp_getRadius s = Ok r /\ (sp_isUnitary s = Ok true <-> r = 1) /\ (sp_isUnitary s = Ok false <-> r <> 1) /\ sp_isUnitary (sp_Unit (Some c)) = Ok true
  /\ sp_getCenter (sp_Unit (Some c)) = Ok c /\ sp_getRadius (sp_Unit (Some c)) = Ok 1.
Proof. exact c119_sphere. Qed.
Print Assumptions C119_sphere.

Theorem C119_sphere_undefined :
  forall s, sp_center s = None \/ sp_radius s = None -> sp_getCenter s = Err EUndefined /\ sp_getRadius s = Err EUndefined /\ sp_isUnitary s = Err EUndefined.
Proof. exact c119_sphere_undefined. Qed.
Print Assumptions C119_sphere_undefined.

(** Where both comparisons are written out they are opposite. *)
Theorem C119_sphere_ne :
  forall s t, sp_ne s t = negb (sp_eq s t).
Proof. exact c119_sphere_ne. Qed.
Print Assumptions C119_sphere_ne.

Theorem C119_ellipsoid :
  forall p a b c q e, Ellipsoid (Some p) (Some a) (Some b) (Some c) (Some q) = Ok e ->
  e_getCenter e = Ok p /\ e_getFirstPrincipalSemiAxis e = Ok a /\ e_getSecondPrincipalSemiAxis e = Ok b /\ e_getThirdPrincipalSemiAxis e = Ok c /\ e_getOrientation e = Ok q.
Proof. exact c119_ellipsoid. Qed.
Print Assumptions C119_ellipsoid.

Theorem C119_ellipsoid_undefined :
  forall e, e_center e = None \/ e_a e = None \/ e_b e = None \/ e_c e = None \/ e_q e = None ->
  e_getCenter e = Err EUndefined /\ e_getFirstPrincipalSemiAxis e = Err EUndefined /\ e_getSecondPrincipalSemiAxis e = Err EUndefined /\ e_getThirdPrincipalSemiAxis e = Err EUndefined
  /\ e_getOrientation e = Err EUndefined.
Proof. exact c119_ellipsoid_undefined. Qed.
Print Assumptions C119_ellipsoid_undefined.

Theorem C119_cuboid :
  forall p u v w x y z, let c := Cuboid (Some p) (Some u, Some v, Some w) (Some x, Some y, Some z) in
  cu_getCenter c = Ok p /\ cu_getFirstAxis c = Ok u /\ cu_getSecondAxis c = Ok v /\ cu_getThirdAxis c = Ok w
  /\ cu_getFirstExtent c = Ok x /\ cu_getSecondExtent c = Ok y /\ cu_getThirdExtent c = Ok z.
Proof. exact c119_cuboid. Qed.
Print Assumptions C119_cuboid.

Theorem C119_cuboid_undefined :
  forall p u v w x y z, p = None \/ u = None \/ v = None \/ w = None \/ x = None \/ y = None \/ z = None -> let c := Cuboid p (u, v, w) (x, y, z) in
  cu_getCenter c = Err EUndefined /\ cu_getFirstAxis c = Err EUndefined /\ cu_getSecondAxis c = Err EUndefined /\ cu_getThirdAxis c = Err EUndefined
  /\ cu_getFirstExtent c = Err EUndefined /\ cu_getSecondExtent c = Err EUndefined /\ cu_getThirdExtent c = Err EUndefined.
Proof. exact c119_cuboid_undefined. Qed.
Print Assumptions C119_cuboid_undefined.

Theorem C119_cone :
  forall a u t k, turns t = Some k -> let c := Cone (Some a) (Some u) t in co_getApex c = Ok a /\ co_getAxis c = Ok u /\ co_getAngle c = Ok t.
Proof. exact c119_cone. Qed.
Print Assumptions C119_cone.

Theorem C119_cone_undefined :
  forall a u t, a = None \/ u = None \/ turns t = None -> let c := Cone a u t in co_getApex c = Err EUndefined /\ co_getAxis c = Err EUndefined /\ co_getAngle c = Err EUndefined.
Proof. exact c119_cone_undefined. Qed.
Print Assumptions C119_cone_undefined.

Theorem C119_undefined :
  sp_data sp_Undefined = Err EUndefined /\ (exists e, e_Undefined = Ok e /\ e_data e = Err EUndefined) /\ cu_data cu_Undefined = Err EUndefined
  /\ co_data co_Undefined = Err EUndefined /\ s_data s_Undefined = Err EUndefined /\ s2_data s2_Undefined = Err EUndefined /\ ls2_isEmpty ls2_Empty = true /\ ls2_isDefined ls2_Empty = false
  /\ turns angle_Undefined = None.
Proof. exact c119_undefined. Qed.
Print Assumptions C119_undefined.

(** The answer of != is x exactly when that of == is not x; in particular != raises an error when == does. *)
Theorem C119_ne :
  forall fuel eps B a b e f c d cu cu' p q y y' {X} (s t : solver X) x, (angle_ne fuel a b = Ok x <-> angle_eq fuel a b = Ok (negb x)) /\ (e_ne eps e f = Ok x <-> EllModel.e_eq eps e f = Ok (negb x))
  /\ (co_ne fuel c d = Ok x <-> co_eq fuel c d = Ok (negb x)) /\ (cu_ne cu cu' = true <-> cu_eq cu cu' <> true) /\ (pg_ne B p q = true <-> pg_eq B p q <> true)
  /\ (py_ne B y y' = true <-> py_eq B y y' <> true) /\ (so_ne s t = true <-> so_eq s t <> true).
Proof. exact (@c119_ne). Qed.
Print Assumptions C119_ne.

Theorem C119_matrices :
  forall eig x ms l, LogEuclideanRiemannian eig x ms = Ok l -> le_getMatrices l = ms.
Proof. exact c119_matrices. Qed.
Print Assumptions C119_matrices.

Theorem C119_points :
  forall p q v, pt_add (Some p) (Some v) = Ok (add3 p v) /\ (forall x, pt_subv (Some (add3 p v)) (Some v) = Ok x -> x = p) /\ (exists x, pt_subv (Some p) (Some v) = Ok x /\ pt_add (Some x) (Some v) = Ok p)
  /\ exists w, pt_sub (Some q) (Some p) = Ok w /\ pt_add (Some p) (Some w) = Ok q.
Proof. exact c119_points. Qed.
Print Assumptions C119_points.

Theorem C119_points_undefined :
  forall p v, (p = None \/ v = None) -> pt_add p v = Err EUndefined /\ pt_subv p v = Err EUndefined /\ pt_sub p v = Err EUndefined.
Proof. exact c119_points_undefined. Qed.
Print Assumptions C119_points_undefined.

Example C119_example : turns (Degrees (Some 90)) = Some (90 / 360) /\ as_radians (Degrees (Some 90)) = Ok (PI / 2) /\ as_arcseconds (Degrees (Some 1)) = Ok 3600
  /\ (exists e, Ellipsoid (Some zero3) (Some 1) (Some 2) (Some 3) (Some (Q4 0 0 0 1)) = Ok e) /\ sp_ne (Sphere (Some zero3) (Some 1)) (Sphere (Some zero3) (Some 2)) = true.
Proof.
  split; [reflexivity |]. split; [| split; [| split]].
  - rewrite (proj1 (c119_units (Degrees (Some 90)) _ eq_refl)). f_equal. cbn. field.
  - destruct (c119_units (Degrees (Some 1)) _ eq_refl) as (_ & _ & _ & -> & _). f_equal. cbn. field.
  - eexists. unfold Ellipsoid, Rltb. repeat (destruct (Rlt_dec _ _); [lra |]). reflexivity.
  - unfold sp_ne. cbn. unfold Reqb. destruct (Req_EM_T 1 2); [lra |]. apply orb_true_r.
Qed.
