(** Proofs about the accessors, named constructors and negated comparisons. *)

From Coq Require Import List Bool Reals Lra Lia.
From Verif Require IntervalModel.
From Verif Require Import Result DOrder Vec AngleModel AngleSpec RotModel TransfModel Geo3Types Geo3Model GteModel
  SphereModel EllModel CuboidModel InterModel ConeModel Geo2Model Poly2Model PyrModel SolverModel LogEuclidModel AccessModel.
Import ListNotations.
Local Open Scope R_scope.

(** *** Angles *)
(** A named constructor stands for the given number of units. *)
Lemma c119_angles x : turns (Radians x) = Some (x / (2 * PI)) /\ turns (Degrees (Some x)) = Some (x / 360) /\ turns (Arcminutes (Some x)) = Some (x / (360 * 60))
  /\ turns (Arcseconds (Some x)) = Some (x / (360 * 3600)) /\ turns (Revolutions (Some x)) = Some (x / 1)
  /\ turns (Degrees None) = None /\ turns (Arcminutes None) = None /\ turns (Arcseconds None) = None /\ turns (Revolutions None) = None.
Proof. repeat split. Qed.
Lemma pi_pos : PI <> 0.
Proof. pose proof PI_RGT_0. lra. Qed.
(** The value read in a unit is the number of turns times the units per turn. *)
Lemma c119_units a t : turns a = Some t -> as_radians a = Ok (t * (2 * PI)) /\ as_degrees a = Ok (t * 360) /\ as_arcminutes a = Ok (t * (360 * 60))
  /\ as_arcseconds a = Ok (t * (360 * 3600)) /\ as_revolutions a = Ok t /\ angle_getUnit a = Ok (aunit a) /\ angle_pos a = Ok a.
Proof.
  destruct a as [[v |] u]; [| discriminate]. pose proof pi_pos.
  destruct u; try discriminate; intros [= <-]; repeat split; cbn; f_equal; field; assumption.
Qed.
Lemma c119_undefined_angle a : turns a = None -> as_radians a = Err EUndefined /\ as_degrees a = Err EUndefined /\ as_arcminutes a = Err EUndefined
  /\ as_arcseconds a = Err EUndefined /\ as_revolutions a = Err EUndefined /\ angle_getUnit a = Err EUndefined /\ angle_pos a = Err EUndefined.
Proof. destruct a as [[v |] u]; destruct u; try discriminate; intros _; repeat split. Qed.

(** *** Intervals *)
Lemma c119_interval (D : DOrder) t (l u : car D) i : IntervalModel.construct (Some l) (Some u) t = Ok i -> t <> IntervalModel.TUndefined ->
  getType i = Ok t /\ getLowerBound i = Ok l /\ getUpperBound i = Ok u.
Proof.
  unfold IntervalModel.construct. destruct (gtb l u); [discriminate |]. destruct (eqb l u && _)%bool; [discriminate |]. intros [= <-] T.
  unfold getType, getLowerBound, getUpperBound, IntervalModel.open_interval. destruct t; [congruence | | | |]; repeat split.
Qed.
Lemma c119_undefined_interval (D : DOrder) (i : IntervalModel.interval D) : IntervalModel.itp i = IntervalModel.TUndefined \/ IntervalModel.ilb i = None \/ IntervalModel.iub i = None ->
  getType i = Err EUndefined /\ getLowerBound i = Err EUndefined /\ getUpperBound i = Err EUndefined.
Proof.
  destruct i as [t l u]. unfold getType, getLowerBound, getUpperBound, IntervalModel.open_interval, IntervalModel.isDefined. cbn. intros H.
  destruct t, l, u; repeat split; destruct H as [H | [H | H]]; discriminate.
Qed.

(** *** Spheres *)
Lemma c119_sphere c r : let s := Sphere (Some c) (Some r) in
  sp_getCenter s = Ok c /\ sp_getRadius s = Ok r /\ (sp_isUnitary s = Ok true <-> r = 1) /\ (sp_isUnitary s = Ok false <-> r <> 1) /\ sp_isUnitary (sp_Unit (Some c)) = Ok true
  /\ sp_getCenter (sp_Unit (Some c)) = Ok c /\ sp_getRadius (sp_Unit (Some c)) = Ok 1.
Proof.
  cbn. split; [reflexivity |]. split; [reflexivity |]. unfold sp_isUnitary. cbn. unfold Reqb. destruct (Req_EM_T r 1) as [E | E]; destruct (Req_EM_T 1 1) as [F | F]; try lra;
    repeat split; congruence.
Qed.
Lemma c119_sphere_undefined s : sp_center s = None \/ sp_radius s = None -> sp_getCenter s = Err EUndefined /\ sp_getRadius s = Err EUndefined /\ sp_isUnitary s = Err EUndefined.
Proof. destruct s as [[c |] [r |]]; intros [H | H]; try discriminate; repeat split. Qed.
(** Where both comparisons are written out they are opposite. *)
Lemma c119_sphere_ne s t : sp_ne s t = negb (sp_eq s t).
Proof. unfold sp_ne, sp_eq. destruct (sp_data s) as [[c r] | |], (sp_data t) as [[c' r'] | |]; try reflexivity. rewrite negb_andb. reflexivity. Qed.

(** *** Ellipsoids *)
Lemma c119_ellipsoid p a b c q e : Ellipsoid (Some p) (Some a) (Some b) (Some c) (Some q) = Ok e ->
  e_getCenter e = Ok p /\ e_getFirstPrincipalSemiAxis e = Ok a /\ e_getSecondPrincipalSemiAxis e = Ok b /\ e_getThirdPrincipalSemiAxis e = Ok c /\ e_getOrientation e = Ok q.
Proof. unfold Ellipsoid. destruct (Rltb a 0); [discriminate |]. destruct (Rltb b 0); [discriminate |]. destruct (Rltb c 0); [discriminate |]. intros [= <-]. repeat split. Qed.
Lemma c119_ellipsoid_undefined e : e_center e = None \/ e_a e = None \/ e_b e = None \/ e_c e = None \/ e_q e = None ->
  e_getCenter e = Err EUndefined /\ e_getFirstPrincipalSemiAxis e = Err EUndefined /\ e_getSecondPrincipalSemiAxis e = Err EUndefined /\ e_getThirdPrincipalSemiAxis e = Err EUndefined
  /\ e_getOrientation e = Err EUndefined.
Proof.
  destruct e as [p a b c q]. cbn. unfold e_getCenter, e_getFirstPrincipalSemiAxis, e_getSecondPrincipalSemiAxis, e_getThirdPrincipalSemiAxis, e_getOrientation, e_data. cbn.
  destruct p, a, b, c, q; intros H; repeat split; destruct H as [H | [H | [H | [H | H]]]]; discriminate.
Qed.

(** *** Cuboids *)
Lemma c119_cuboid p u v w x y z : let c := Cuboid (Some p) (Some u, Some v, Some w) (Some x, Some y, Some z) in
  cu_getCenter c = Ok p /\ cu_getFirstAxis c = Ok u /\ cu_getSecondAxis c = Ok v /\ cu_getThirdAxis c = Ok w
  /\ cu_getFirstExtent c = Ok x /\ cu_getSecondExtent c = Ok y /\ cu_getThirdExtent c = Ok z.
Proof. repeat split. Qed.
Lemma c119_cuboid_undefined p u v w x y z : p = None \/ u = None \/ v = None \/ w = None \/ x = None \/ y = None \/ z = None -> let c := Cuboid p (u, v, w) (x, y, z) in
  cu_getCenter c = Err EUndefined /\ cu_getFirstAxis c = Err EUndefined /\ cu_getSecondAxis c = Err EUndefined /\ cu_getThirdAxis c = Err EUndefined
  /\ cu_getFirstExtent c = Err EUndefined /\ cu_getSecondExtent c = Err EUndefined /\ cu_getThirdExtent c = Err EUndefined.
Proof.
  intros H c. assert (E : cu_data c = Err EUndefined).
  { unfold c, Cuboid, cu_data. cbn. destruct p, u, v, w, x, y, z; try reflexivity. destruct H as [H | [H | [H | [H | [H | [H | H]]]]]]; discriminate. }
  unfold cu_getCenter, cu_getFirstAxis, cu_getSecondAxis, cu_getThirdAxis, cu_getFirstExtent, cu_getSecondExtent, cu_getThirdExtent. rewrite E. repeat split.
Qed.

(** *** Cones *)
Lemma c119_cone a u t k : turns t = Some k -> let c := Cone (Some a) (Some u) t in co_getApex c = Ok a /\ co_getAxis c = Ok u /\ co_getAngle c = Ok t.
Proof.
  intros H. unfold co_getApex, co_getAxis, co_getAngle, co_data. cbn.
  assert (E : angle_isDefined t = true) by (destruct t as [[v |] w]; [destruct w |]; try discriminate; reflexivity). rewrite E. repeat split.
Qed.
Lemma c119_cone_undefined a u t : a = None \/ u = None \/ turns t = None -> let c := Cone a u t in co_getApex c = Err EUndefined /\ co_getAxis c = Err EUndefined /\ co_getAngle c = Err EUndefined.
Proof.
  intros H c. assert (E : co_data c = Err EUndefined).
  { unfold c, co_data. cbn. destruct a; [| reflexivity]. destruct u; [| reflexivity]. destruct H as [H | [H | H]]; try discriminate.
    destruct t as [[x |] w]; [destruct w |]; try discriminate; reflexivity. }
  unfold co_getApex, co_getAxis, co_getAngle. rewrite E. repeat split.
Qed.

(** *** Named constructors of undefined and empty objects *)
Lemma c119_undefined : sp_data sp_Undefined = Err EUndefined /\ (exists e, e_Undefined = Ok e /\ e_data e = Err EUndefined) /\ cu_data cu_Undefined = Err EUndefined
  /\ co_data co_Undefined = Err EUndefined /\ s_data s_Undefined = Err EUndefined /\ s2_data s2_Undefined = Err EUndefined /\ ls2_isEmpty ls2_Empty = true /\ ls2_isDefined ls2_Empty = false
  /\ turns angle_Undefined = None.
Proof. repeat split. exists (mkEll None None None None None). repeat split. Qed.

(** *** Negated comparisons *)
Lemma different r b : differ r = Ok b <-> r = Ok (negb b).
Proof. destruct r as [x | |]; cbn; [destruct x, b; cbn | |]; repeat split; congruence. Qed.
Lemma not_iff (a b : bool) : a = negb b -> a = true <-> b <> true.
Proof. destruct a, b; cbn; split; congruence. Qed.
(** The answer of != is b exactly when that of == is not b; in particular != raises an error when == does. *)
Lemma c119_ne fuel eps B a b e f c d cu cu' p q y y' {X} (s t : solver X) x :
  (angle_ne fuel a b = Ok x <-> angle_eq fuel a b = Ok (negb x)) /\ (e_ne eps e f = Ok x <-> EllModel.e_eq eps e f = Ok (negb x))
  /\ (co_ne fuel c d = Ok x <-> co_eq fuel c d = Ok (negb x)) /\ (cu_ne cu cu' = true <-> cu_eq cu cu' <> true) /\ (pg_ne B p q = true <-> pg_eq B p q <> true)
  /\ (py_ne B y y' = true <-> py_eq B y y' <> true) /\ (so_ne s t = true <-> so_eq s t <> true).
Proof. repeat match goal with |- _ /\ _ => split end; try apply different; apply not_iff; reflexivity. Qed.
Lemma c119_interval_ne (D : DOrder) (i j : IntervalModel.interval D) : interval_ne i j = true <-> IntervalModel.interval_eq i j <> true.
Proof. apply not_iff. reflexivity. Qed.
Lemma c119_matrices eig x ms l : LogEuclideanRiemannian eig x ms = Ok l -> le_getMatrices l = ms.
Proof.
  unfold LogEuclideanRiemannian. intros H.
  repeat match type of H with
  | (if ?b then _ else _) = _ => destruct b; [discriminate |]
  | (let! _ := ?r in _) = _ => destruct r; cbn [bind] in H; try discriminate
  end. injection H as <-. reflexivity.
Qed.

(** *** Points and vectors *)
Lemma c119_points p q v : pt_add (Some p) (Some v) = Ok (add3 p v) /\ (forall x, pt_subv (Some (add3 p v)) (Some v) = Ok x -> x = p) /\ (exists x, pt_subv (Some p) (Some v) = Ok x /\ pt_add (Some x) (Some v) = Ok p)
  /\ exists w, pt_sub (Some q) (Some p) = Ok w /\ pt_add (Some p) (Some w) = Ok q.
Proof.
  destruct p, q, v. unfold pt_add, pt_subv, pt_sub, add3, sub3. cbn. split; [reflexivity |]. split; [intros x [= <-]; f_equal; ring |].
  split; (eexists; split; [reflexivity |]; cbn; f_equal; f_equal; ring).
Qed.
Lemma c119_points_undefined p v : (p = None \/ v = None) -> pt_add p v = Err EUndefined /\ pt_subv p v = Err EUndefined /\ pt_sub p v = Err EUndefined.
Proof. destruct p, v; intros [H | H]; try discriminate; repeat split. Qed.
