(** The properties of transformations: C43 to C47, C82, C83. *)

From Coq Require Import List Bool Reals Lra Lia Psatz.
From Verif Require Import Result DOrder Vec VecProofs Mat3 Mat4 AngleModel AngleSpec AngleProofs AngleProofs2 RotModel RotSpec
  RotProofs RotProofs2 RotProofs3 RotProofs4 TransfModel TransfSpec TransfProofs TransfProofs2 TransfProofs3.
Local Open Scope R_scope.

(** Transformations used in the examples: a translation, and a quarter turn about z, followed by it. *)
Definition quarter : rotvec := mkRV (Some (V3 0 0 1)) (mkA (Some 90) Degree).
Definition shift123 : t3_transf := mkT3 TTranslation (Some (M4 1 0 0 1 0 1 0 2 0 0 1 3 0 0 0 1)) true.
Lemma quarter_turns : turns (rv_angle quarter) = Some (PI / 2 / (2 * PI)).
Proof. cbn. f_equal. field. apply PI_neq0. Qed.
Lemma quarter_axis : sqnorm3 (V3 0 0 1) = 1.
Proof. unfold sqnorm3, dot3. cbn. ring. Qed.
Lemma quarter_rotates : rv_rotates quarter (frame_rotation (V3 0 0 1) (PI / 2)).
Proof. exists (V3 0 0 1), (PI / 2). split; [reflexivity |]. split; [exact quarter_turns |]. split; [exact quarter_axis | reflexivity]. Qed.
Lemma shift123_proper eps prec : proper3 eps prec shift123 /\ affine3 eps prec shift123.
Proof. split; apply (made3_translation _ _ _ _ (Some (V3 1 2 3))); reflexivity. Qed.
Lemma quarter_turn_90 v : turn3 (V3 0 0 1) (PI / 2) v = V3 (- vy v) (vx v) (vz v).
Proof.
  unfold turn3. rewrite cos_PI2, sin_PI2. destruct v. unfold add3, scale3, cross3, dot3. cbn. apply V3_eq; ring.
Qed.
Lemma quarter2_turns : turns (mkA (Some 90) Degree) = Some (1 / 4).
Proof. cbn. f_equal. field. Qed.

(** *** C43: composition *)
(** Missing: matrices close to the identity whose last row is not 0 0 0 1, refuted below. *)
Theorem C43_action_3d_partial :
  forall eps prec s t, affine3 eps prec s -> affine3 eps prec t ->
  exists u, t3_mul s t = Ok u
    /\ (forall p q, t3_applyTo_point t (Some p) = Ok (Some q) -> t3_applyTo_point u (Some p) = t3_applyTo_point s (Some q))
    /\ (forall v w, t3_applyTo_vector t (Some v) = Some w -> t3_applyTo_vector u (Some v) = t3_applyTo_vector s (Some w))
    /\ (forall v w, t3_mulv t (Some v) = Ok w -> t3_mulv u (Some v) = t3_mulv s (Some w))
    /\ (forall p, exists q, t3_applyTo_point t (Some p) = Ok (Some q))
    /\ (forall v, exists w, t3_applyTo_vector t (Some v) = Some w)
    /\ (forall v, exists w, t3_mulv t (Some v) = Ok w).
Proof. exact c43_action_3d_partial. Qed.
Print Assumptions C43_action_3d_partial.

Theorem C43_monoid_3d :
  forall eps prec s t u, affine3 eps prec s -> affine3 eps prec t -> affine3 eps prec u ->
  (let! st := t3_mul s t in t3_mul st u) = (let! tu := t3_mul t u in t3_mul s tu)
  /\ t3_mul t3_Identity s = Ok s /\ t3_mul s t3_Identity = Ok s.
Proof. exact c43_monoid_3d. Qed.
Print Assumptions C43_monoid_3d.

Theorem C43_undefined_3d :
  forall s t, t3_isDefined s = false \/ t3_isDefined t = false -> t3_mul s t = Err EUndefined.
Proof. exact c43_undefined_3d. Qed.
Print Assumptions C43_undefined_3d.

Theorem C43_matrix_refuted :
  forall prec, 0 < prec -> exists m t u p q,
  t3_Transformation prec (Some m) = Ok t /\ t3_mul t t = Ok u
  /\ t3_applyTo_point t (Some p) = Ok (Some q) /\ t3_applyTo_point u (Some p) <> t3_applyTo_point t (Some q).
Proof. exact c43_matrix_refuted. Qed.
Print Assumptions C43_matrix_refuted.

Theorem C43_action_2d :
  forall s t, made2 s -> made2 t ->
  exists u, t2_mul s t = Ok u
    /\ (forall p q, t2_applyTo_point t (Some p) = Ok (Some q) -> t2_applyTo_point u (Some p) = t2_applyTo_point s (Some q))
    /\ (forall v w, t2_applyTo_vector t (Some v) = Some w -> t2_applyTo_vector u (Some v) = t2_applyTo_vector s (Some w))
    /\ (forall v w, t2_mulv t (Some v) = Ok w -> t2_mulv u (Some v) = t2_mulv s (Some w))
    /\ (forall p, exists q, t2_applyTo_point t (Some p) = Ok (Some q))
    /\ (forall v, exists w, t2_applyTo_vector t (Some v) = Some w)
    /\ (forall v, exists w, t2_mulv t (Some v) = Ok w).
Proof. exact c43_action_2d. Qed.
Print Assumptions C43_action_2d.

Theorem C43_monoid_2d :
  forall s t u, made2 s -> made2 t -> made2 u ->
  (let! st := t2_mul s t in t2_mul st u) = (let! tu := t2_mul t u in t2_mul s tu)
  /\ t2_mul t2_Identity s = Ok s /\ t2_mul s t2_Identity = Ok s.
Proof. exact c43_monoid_2d. Qed.
Print Assumptions C43_monoid_2d.

Theorem C43_undefined_2d :
  forall s t, t2_isDefined s = false \/ t2_isDefined t = false -> t2_mul s t = Err EUndefined.
Proof. exact c43_undefined_2d. Qed.
Print Assumptions C43_undefined_2d.

(** Turning then shifting and shifting then turning differ: the order matters. *)
Example C43_example : forall eps prec, 0 < eps -> exists r u v,
  t3_Rotation_rv eps quarter = Ok r /\ affine3 eps prec r /\ affine3 eps prec shift123
  /\ t3_mul shift123 r = Ok u /\ t3_mul r shift123 = Ok v
  /\ t3_applyTo_point u (Some (V3 1 0 0)) = Ok (Some (V3 1 3 3))
  /\ t3_applyTo_point v (Some (V3 1 0 0)) = Ok (Some (V3 (-2) 2 3)).
Proof.
  intros eps prec He. destruct (c83_rotation_vector_3d eps quarter _ _ He eq_refl quarter_turns quarter_axis) as (r & E & A & B).
  assert (M : affine3 eps prec r) by (eapply made3_rotation_vector; [exact quarter_rotates | exact E]).
  destruct (c43_action_3d_partial eps prec _ _ (proj2 (shift123_proper eps prec)) M) as (u & U & U1 & _).
  destruct (c43_action_3d_partial eps prec _ _ M (proj2 (shift123_proper eps prec))) as (v & V & V1 & _).
  exists r, u, v. do 2 (split; [assumption |]). split; [apply shift123_proper |]. split; [exact U |]. split; [exact V |]. split.
  - rewrite (U1 _ _ (A (V3 1 0 0))). rewrite quarter_turn_90. unfold t3_applyTo_point, head3, shift123. cbn [needd bind t3_matrix].
    m4unfold. do 2 f_equal. apply V3_eq; ring.
  - rewrite (V1 _ (V3 2 2 3)).
    + rewrite A, quarter_turn_90. reflexivity.
    + unfold t3_applyTo_point, head3, shift123. cbn [needd bind t3_matrix]. m4unfold. do 2 f_equal. apply V3_eq; ring.
Qed.

(** *** C44: inverse *)
Theorem C44_inverse_3d :
  forall eps prec t u, affine3 eps prec t -> t3_getInverse t = Ok u ->
  affine3 eps prec u /\ t3_type u = t3_type t
  /\ (forall p q, t3_applyTo_point t (Some p) = Ok (Some q) -> t3_applyTo_point u (Some q) = Ok (Some p))
  /\ (forall p q, t3_applyTo_point u (Some p) = Ok (Some q) -> t3_applyTo_point t (Some q) = Ok (Some p))
  /\ (forall v w, t3_applyTo_vector t (Some v) = Some w -> t3_applyTo_vector u (Some w) = Some v)
  /\ (forall v w, t3_applyTo_vector u (Some v) = Some w -> t3_applyTo_vector t (Some w) = Some v).
Proof. exact c44_inverse_3d. Qed.
Print Assumptions C44_inverse_3d.

(** Missing: rotations made from a matrix that is accepted but is not a rotation, refuted below. *)
Theorem C44_exists_3d_partial :
  forall eps prec t, 0 < eps -> 0 < prec -> proper3 eps prec t -> exists u, t3_getInverse t = Ok u /\ proper3 eps prec u.
Proof. exact c44_exists_3d_partial. Qed.
Print Assumptions C44_exists_3d_partial.

Theorem C44_composition_3d :
  forall eps prec t u, 0 < eps -> 0 < prec -> proper3 eps prec t -> t3_getInverse t = Ok u ->
  exists a b, t3_mul u t = Ok a /\ t3_mul t u = Ok b /\ t3_getMatrix a = Ok id4 /\ t3_getMatrix b = Ok id4 /\ t3_getInverse u = Ok t.
Proof. exact c44_composition_3d. Qed.
Print Assumptions C44_composition_3d.

Theorem C44_matrix_refuted :
  forall eps prec, 0 < eps -> exists m t, RotationMatrix eps m = Ok m /\ t3_Rotation_rm (Some m) = Ok t
  /\ affine3 eps prec t /\ t3_getInverse t = UB.
Proof. exact c44_matrix_refuted. Qed.
Print Assumptions C44_matrix_refuted.

Theorem C44_inverse_2d :
  forall t, made2 t -> exists u, t2_getInverse t = Ok u
  /\ made2 u /\ t2_type u = t2_type t
  /\ (forall p q, t2_applyTo_point t (Some p) = Ok (Some q) -> t2_applyTo_point u (Some q) = Ok (Some p))
  /\ (forall p q, t2_applyTo_point u (Some p) = Ok (Some q) -> t2_applyTo_point t (Some q) = Ok (Some p))
  /\ (forall v w, t2_applyTo_vector t (Some v) = Some w -> t2_applyTo_vector u (Some w) = Some v)
  /\ (forall v w, t2_applyTo_vector u (Some v) = Some w -> t2_applyTo_vector t (Some w) = Some v).
Proof. exact c44_inverse_2d. Qed.
Print Assumptions C44_inverse_2d.

Example C44_example : forall eps prec, 0 < eps -> 0 < prec -> exists u, t3_getInverse shift123 = Ok u /\ proper3 eps prec u
  /\ t3_applyTo_point shift123 (Some (V3 4 5 6)) = Ok (Some (V3 5 7 9)) /\ t3_applyTo_point u (Some (V3 5 7 9)) = Ok (Some (V3 4 5 6)).
Proof.
  intros eps prec He Hp. destruct (shift123_proper eps prec) as [P A]. destruct (c44_exists_3d_partial eps prec _ He Hp P) as (u & U & Pu).
  exists u. split; [exact U |]. split; [exact Pu |].
  assert (E : t3_applyTo_point shift123 (Some (V3 4 5 6)) = Ok (Some (V3 5 7 9))).
  { unfold t3_applyTo_point, head3, shift123. cbn [needd bind t3_matrix]. m4unfold. do 2 f_equal. apply V3_eq; ring. }
  split; [exact E |]. destruct (c44_inverse_3d eps prec _ _ A U) as (_ & _ & K & _). apply K, E.
Qed.

(** *** C45: rigidity *)
(** Missing: as above, refuted below. *)
Theorem C45_rigid_3d_partial :
  forall eps prec t, 0 < eps -> 0 < prec -> proper3 eps prec t -> t3_isRigid t = Ok true /\ keeps_distances3 t.
Proof. exact c45_rigid_3d_partial. Qed.
Print Assumptions C45_rigid_3d_partial.

Theorem C45_matrix_refuted :
  forall eps, 0 < eps -> exists m t, RotationMatrix eps m = Ok m /\ t3_Rotation_rm (Some m) = Ok t
  /\ t3_isRigid t = Ok true /\ ~ keeps_distances3 t.
Proof. exact c45_matrix_refuted. Qed.
Print Assumptions C45_matrix_refuted.

Theorem C45_undefined_3d :
  forall t, t3_isDefined t = false -> t3_isRigid t = Err EUndefined.
Proof. exact c45_undefined_3d. Qed.
Print Assumptions C45_undefined_3d.

(** Every transformation of the plane that can be made preserves distances ... *)
Theorem C45_sound_2d :
  forall t, made2 t -> keeps_distances2 t.
Proof. exact c45_sound_2d. Qed.
Print Assumptions C45_sound_2d.

(** ... but isRigid looks at the type only, so it is false of the compositions, refuted below. *)
Theorem C45_rigid_2d_partial :
  forall t ty, made2 t -> t2_getType t = Ok ty -> t2_isRigid t = true <-> ty <> TAffine.
Proof. exact c45_rigid_2d_partial. Qed.
Print Assumptions C45_rigid_2d_partial.

Theorem C45_composed_2d_refuted :
  exists c a t, t2_RotationAround (Some c) a = Ok t /\ made2 t /\ keeps_distances2 t /\ t2_isRigid t = false.
Proof. exact c45_composed_2d_refuted. Qed.
Print Assumptions C45_composed_2d_refuted.

(** A translation of the plane after a rotation can be made, and is typed as affine. *)
Example C45_example : exists r t, t2_Rotation (mkA (Some 90) Degree) = Ok r
  /\ t2_mul (mkT2 TTranslation (Some (M3 1 0 1 0 1 2 0 0 1))) r = Ok t /\ made2 t /\ t2_getType t = Ok TAffine.
Proof.
  do 2 eexists. split; [apply (rotation2_eq _ _ quarter2_turns) |]. split; [reflexivity |]. split; [| reflexivity].
  eapply made2_mul; [apply (made2_translation (Some (V2 1 2))); reflexivity | eapply made2_rotation; apply (rotation2_eq _ _ quarter2_turns) | reflexivity].
Qed.

(** *** C46: types *)
(** Missing: matrices close to the identity given to the constructor, refuted below. *)
Theorem C46_type_3d_partial :
  forall eps prec t, 0 < eps -> 0 < prec -> proper3 eps prec t ->
  exists ty, t3_getType t = Ok ty /\ describes3 ty t /\ t3_isIdentity t = Ok (match ty with TIdentity => true | _ => false end).
Proof. exact c46_type_3d_partial. Qed.
Print Assumptions C46_type_3d_partial.

(** Composition types: a type is kept by the identity, and by itself for translations, rotations and scalings. *)
Theorem C46_table :
  forall a b, a <> TUndefined -> b <> TUndefined ->
  (type_composition a b = TIdentity <-> a = TIdentity /\ b = TIdentity)
  /\ (forall ty, ty <> TIdentity -> ty <> TAffine ->
        (type_composition a b = ty <-> (a = TIdentity /\ b = ty) \/ (a = ty /\ b = TIdentity)
           \/ (a = ty /\ b = ty /\ (ty = TTranslation \/ ty = TRotation \/ ty = TScaling)))).
Proof. exact c46_table. Qed.
Print Assumptions C46_table.

Theorem C46_matrix_refuted :
  forall prec, 0 < prec -> exists m t,
  t3_Transformation prec (Some m) = Ok t /\ t3_getType t = Ok TIdentity /\ exact_last_row m /\ ~ describes3 TIdentity t.
Proof. exact c46_matrix_refuted. Qed.
Print Assumptions C46_matrix_refuted.

Theorem C46_type_2d :
  forall t, made2 t -> exists ty, t2_getType t = Ok ty /\ describes2 ty t
  /\ t2_isIdentity t = match ty with TIdentity => true | _ => false end.
Proof. exact c46_type_2d. Qed.
Print Assumptions C46_type_2d.

Example C46_example : forall eps prec, 0 < eps -> 0 < prec -> exists r t, t3_Rotation_rv eps quarter = Ok r
  /\ t3_mul r shift123 = Ok t /\ proper3 eps prec t /\ t3_getType t = Ok TAffine /\ t3_getType r = Ok TRotation.
Proof.
  intros eps prec He Hp. destruct (c83_rotation_vector_3d eps quarter _ _ He eq_refl quarter_turns quarter_axis) as (r & E & A & B).
  assert (M : proper3 eps prec r) by (eapply made3_rotation_vector; [exact quarter_rotates | exact E]).
  assert (T : t3_type r = TRotation).
  { unfold t3_Rotation_rv in E. cbn [rv_isDefined] in E. destruct negb; [discriminate |]. destruct rm_of_rotvec; cbn [bind] in E; try discriminate. injection E as <-. reflexivity. }
  exists r. eexists. split; [exact E |]. split.
  - unfold t3_mul, t3_isDefined. rewrite T. cbn. reflexivity.
  - split; [eapply made3_mul; [exact M | apply shift123_proper |]; unfold t3_mul, t3_isDefined; rewrite T; reflexivity |].
    unfold t3_getType, t3_isDefined. rewrite T. split; reflexivity.
Qed.

(** *** C47: rotation around a point *)
Theorem C47_around_3d :
  forall eps c r a t, 0 < eps -> rv_axis r = Some a -> turns (rv_angle r) = Some (t / (2 * PI)) -> sqnorm3 a = 1 ->
  exists u, t3_RotationAround eps (Some c) r = Ok u
    /\ t3_applyTo_point u (Some c) = Ok (Some c)
    /\ maps_points3 u (fun p => add3 c (turn3 a t (sub3 p c)))
    /\ maps_vectors3 u (turn3 a t)
    /\ keeps_distances3 u /\ t3_isRigid u = Ok true.
Proof. exact c47_around_3d. Qed.
Print Assumptions C47_around_3d.

Theorem C47_around_2d :
  forall c a s, turns a = Some s ->
  exists u, t2_RotationAround (Some c) a = Ok u
    /\ t2_applyTo_point u (Some c) = Ok (Some c)
    /\ maps_points2 u (fun p => add2 c (turn2 (s * (2 * PI)) (sub2 p c)))
    /\ maps_vectors2 u (turn2 (s * (2 * PI)))
    /\ keeps_distances2 u.
Proof. exact c47_around_2d. Qed.
Print Assumptions C47_around_2d.

(** A quarter turn about the vertical line through (1, 1, 0) takes (2, 1, 5) to (1, 2, 5). *)
Example C47_example : forall eps, 0 < eps -> exists u, t3_RotationAround eps (Some (V3 1 1 0)) quarter = Ok u
  /\ t3_applyTo_point u (Some (V3 2 1 5)) = Ok (Some (V3 1 2 5)).
Proof.
  intros eps He. destruct (c47_around_3d eps (V3 1 1 0) quarter _ _ He eq_refl quarter_turns quarter_axis) as (u & U & _ & A & _).
  exists u. split; [exact U |]. rewrite A, quarter_turn_90. do 2 f_equal. unfold add3, sub3. cbn. apply V3_eq; ring.
Qed.

(** *** C82: equality *)
Theorem C82_equal_iff_3d :
  forall eps prec s t, affine3 eps prec s -> affine3 eps prec t ->
  (t3_eq s t = true <-> forall p, t3_applyTo_point s (Some p) = t3_applyTo_point t (Some p)).
Proof. exact c82_equal_iff_3d. Qed.
Print Assumptions C82_equal_iff_3d.

Theorem C82_undefined_3d :
  forall s t, t3_isDefined s = false \/ t3_isDefined t = false -> t3_eq s t = false.
Proof. exact c82_undefined_3d. Qed.
Print Assumptions C82_undefined_3d.

Theorem C82_equal_iff_2d :
  forall s t, made2 s -> made2 t ->
  (t2_eq s t = true <-> forall p, t2_applyTo_point s (Some p) = t2_applyTo_point t (Some p)).
Proof. exact c82_equal_iff_2d. Qed.
Print Assumptions C82_equal_iff_2d.

Theorem C82_undefined_2d :
  forall s t, t2_isDefined s = false \/ t2_isDefined t = false -> t2_eq s t = false.
Proof. exact c82_undefined_2d. Qed.
Print Assumptions C82_undefined_2d.

(** A translation by zero equals the identity, though the types differ. *)
Example C82_example : forall eps prec, exists t, t3_Translation (Some zero3) = Ok t /\ affine3 eps prec t /\ affine3 eps prec t3_Identity
  /\ t3_eq t t3_Identity = true /\ t3_type t <> t3_type t3_Identity /\ t3_eq shift123 t3_Identity = false.
Proof.
  intros eps prec. eexists. split; [reflexivity |]. split; [apply (made3_translation _ _ _ _ (Some zero3)); reflexivity |].
  split; [constructor |]. unfold t3_eq, t3_isDefined, shift123, t3_Identity, id4, zero3. cbn. split; [destruct m4_eq_dec as [| N]; [reflexivity | contradiction N; reflexivity] |].
  split; [discriminate |]. destruct m4_eq_dec as [N |]; [| reflexivity]. apply (f_equal a03) in N. cbn in N. lra.
Qed.

(** *** C83: translations and rotations *)
Theorem C83_translation_3d :
  forall v, exists t, t3_Translation (Some v) = Ok t
  /\ maps_points3 t (fun p => add3 p v) /\ maps_vectors3 t (fun w => w)
  /\ t3_Translation None = Err EUndefined.
Proof. exact c83_translation_3d. Qed.
Print Assumptions C83_translation_3d.

Theorem C83_rotation_vector_3d :
  forall eps r a t, 0 < eps -> rv_axis r = Some a -> turns (rv_angle r) = Some (t / (2 * PI)) -> sqnorm3 a = 1 ->
  exists u, t3_Rotation_rv eps r = Ok u /\ maps_points3 u (turn3 a t) /\ maps_vectors3 u (turn3 a t).
Proof. exact c83_rotation_vector_3d. Qed.
Print Assumptions C83_rotation_vector_3d.

Theorem C83_rotation_matrix_3d :
  forall m, is_rotation m -> exists u, t3_Rotation_rm (Some m) = Ok u
  /\ maps_points3 u (mulv3 (transpose3 m)) /\ maps_vectors3 u (mulv3 (transpose3 m))
  /\ (forall v w, rm_mulv (Some m) (Some v) = Ok w -> t3_applyTo_vector u (Some w) = Some v).
Proof. exact c83_rotation_matrix_3d. Qed.
Print Assumptions C83_rotation_matrix_3d.

Theorem C83_difference_3d :
  forall eps prec t p q p' q', affine3 eps prec t ->
  t3_applyTo_point t (Some p) = Ok (Some p') -> t3_applyTo_point t (Some q) = Ok (Some q') ->
  t3_applyTo_vector t (Some (sub3 p q)) = Some (sub3 p' q').
Proof. exact c83_difference_3d. Qed.
Print Assumptions C83_difference_3d.

Theorem C83_undefined_3d :
  forall eps t v p r, t3_matrix t = None ->
  t3_applyTo_point t (Some v) = Ok None /\ t3_applyTo_vector t (Some v) = None
  /\ t3_applyTo_point t None = Err EUndefined /\ t3_applyTo_vector t None = None
  /\ t3_Rotation_rm None = Err EUndefined
  /\ (rv_isDefined r = false -> t3_Rotation_rv eps r = Err EUndefined /\ t3_RotationAround eps p r = Err EUndefined)
  /\ t3_RotationAround eps None r = Err EUndefined.
Proof. exact c83_undefined_3d. Qed.
Print Assumptions C83_undefined_3d.

Theorem C83_translation_2d :
  forall v, exists t, t2_Translation (Some v) = Ok t
  /\ maps_points2 t (fun p => add2 p v) /\ maps_vectors2 t (fun w => w)
  /\ t2_Translation None = Err EUndefined.
Proof. exact c83_translation_2d. Qed.
Print Assumptions C83_translation_2d.

Theorem C83_rotation_2d :
  forall a s, turns a = Some s -> exists u, t2_Rotation a = Ok u
  /\ maps_points2 u (turn2 (s * (2 * PI))) /\ maps_vectors2 u (turn2 (s * (2 * PI)))
  /\ (forall r th, turn2 (s * (2 * PI)) (V2 (r * cos th) (r * sin th)) = V2 (r * cos (th + s * (2 * PI))) (r * sin (th + s * (2 * PI)))).
Proof. exact c83_rotation_2d. Qed.
Print Assumptions C83_rotation_2d.

Theorem C83_difference_2d :
  forall t p q p' q', made2 t ->
  t2_applyTo_point t (Some p) = Ok (Some p') -> t2_applyTo_point t (Some q) = Ok (Some q') ->
  t2_applyTo_vector t (Some (sub2 p q)) = Some (sub2 p' q').
Proof. exact c83_difference_2d. Qed.
Print Assumptions C83_difference_2d.

Theorem C83_undefined_2d :
  forall t v p a, t2_matrix t = None ->
  t2_applyTo_point t (Some v) = Ok None /\ t2_applyTo_vector t (Some v) = None
  /\ t2_applyTo_point t None = Err EUndefined /\ t2_applyTo_vector t None = None
  /\ (angle_isDefined a = false -> t2_Rotation a = Err EUndefined /\ t2_RotationAround p a = Err EUndefined)
  /\ t2_RotationAround None a = Err EUndefined.
Proof. exact c83_undefined_2d. Qed.
Print Assumptions C83_undefined_2d.

Example C83_example : forall eps, 0 < eps -> exists u, t3_Rotation_rv eps quarter = Ok u
  /\ t3_applyTo_vector u (Some (V3 1 0 0)) = Some (V3 (-0) 1 0)
  /\ t3_applyTo_vector shift123 (Some (V3 4 5 6)) = Some (V3 4 5 6).
Proof.
  intros eps He. destruct (c83_rotation_vector_3d eps quarter _ _ He eq_refl quarter_turns quarter_axis) as (r & E & A & B).
  exists r. split; [exact E |]. split; [rewrite B, quarter_turn_90; reflexivity |].
  unfold t3_applyTo_vector, head3, shift123. cbn [t3_matrix]. m4unfold. f_equal. apply V3_eq; ring.
Qed.
