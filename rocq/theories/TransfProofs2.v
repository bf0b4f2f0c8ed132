(** Rigid transformations in dimension 3 (C44 - C47, C82, C83). *)

From Coq Require Import List Bool Reals Lra Lia Psatz.
From Verif Require Import Result DOrder Vec VecProofs Mat3 Mat4 AngleModel AngleSpec RotModel RotSpec RotProofs RotProofs2 RotProofs3 RotProofs7 RotProofs9 TransfModel TransfSpec TransfProofs.
Local Open Scope R_scope.

(** *** Every rotation turns about an axis *)
Lemma turn_frame a t v : frame_rotation a t v = turn3 a (- t) v.
Proof. unfold frame_rotation, turn3. rewrite cos_neg, sin_neg. generalize (cos t) (sin t). qring. Qed.
Lemma frame_turn a t v : frame_rotation a (- t) v = turn3 a t v.
Proof. rewrite turn_frame. f_equal. ring. Qed.
Lemma rotation_axis m : is_rotation m -> exists a t, sqnorm3 a = 1 /\ forall v, mulv3 m v = turn3 a t v.
Proof.
  intros H. destruct (rotation_quaternion m H) as (q & U & E).
  destruct (v3_eq_dec (vec q) zero3) as [Z | Z].
  - exists (V3 0 0 1), 0. split; [v3unfold; ring |]. intros v. rewrite <- E, rot_matrix.
    assert (Q : q = Q4 0 0 0 (qs q)).
    { destruct q as [x y z s]. unfold vec, zero3 in Z. cbn in *. injection Z as -> -> ->. reflexivity. }
    unfold unit_q in U. rewrite Q in U |- *. unfold sq in U. cbn in U. rewrite <- rot_matrix. unfold turn3. rewrite cos_0, sin_0.
    assert (S : qs q * qs q = 1) by lra.
    replace (mulv3 (q_matrix (Q4 0 0 0 (qs q))) v) with (scale3 (qs q * qs q) v) by (generalize (qs q); qring).
    rewrite S. qring.
  - destruct (c40_polar_form q Z) as (h & a & t & Hh & Ha & Ht & P).
    assert (h = 1). { unfold unit_q in U. rewrite P, polar_sq in U by assumption. nra. } subst h.
    exists a, (- (2 * t)). split; [exact Ha |]. intros v. rewrite <- E, rot_matrix, <- turn_frame, <- half_q_rot by assumption.
    f_equal. rewrite P. unfold half_q. replace (2 * t / 2) with t by field. rewrite <- polar_parts. f_equal; [f_equal |]; ring.
Qed.
Lemma turn3_norm a t v w : sqnorm3 a = 1 -> norm3 (sub3 (turn3 a t v) (turn3 a t w)) = norm3 (sub3 v w).
Proof.
  intros H. rewrite <- !frame_turn. rewrite <- !axis_angle_frame. pose proof (axis_angle_rotation a (- t) H) as Rm.
  replace (sub3 (mulv3 (axis_angle_matrix a (- t)) v) (mulv3 (axis_angle_matrix a (- t)) w))
    with (mulv3 (axis_angle_matrix a (- t)) (sub3 v w)) by (generalize (axis_angle_matrix a (- t)); qring).
  unfold norm3, sqnorm3. rewrite rotation_dot by assumption. reflexivity.
Qed.
Lemma rotation_norm m v w : is_rotation m -> norm3 (sub3 (mulv3 m v) (mulv3 m w)) = norm3 (sub3 v w).
Proof.
  intros H. replace (sub3 (mulv3 m v) (mulv3 m w)) with (mulv3 m (sub3 v w)) by qring.
  unfold norm3, sqnorm3. rewrite rotation_dot by assumption. reflexivity.
Qed.
Lemma rotation_inverse m : is_rotation m -> inverse3 m = Some (transpose3 m).
Proof.
  intros H. destruct (inverse3 m) as [n |] eqn:E.
  - destruct (inverse3_some _ _ E) as (L & _ & _). f_equal.
    rewrite <- (mul3_id_r n), <- (rotation_right m H), <- mul3_assoc, L, mul3_id_l. reflexivity.
  - apply inverse3_none in E. destruct H as [_ D]. lra.
Qed.

(** *** Shape of the proper transformations *)
Definition rigid_shape (t : t3_transf) : Prop :=
  exists ty l d, t = mkT3 ty (Some (affine4 l d)) true /\ is_rotation l
    /\ match ty with
       | TIdentity => l = id3 /\ d = zero3
       | TTranslation => l = id3
       | TRotation => d = zero3
       | TAffine => True
       | _ => False
       end.
Lemma isRigid_id prec : 0 < prec -> t3_IsRigid prec (Some id4) = true.
Proof.
  intros Hp. unfold t3_IsRigid, id4. cbn [a30 a31 a32 a33].
  assert (Q : forall x, Reqb x x = true) by (intros; apply Reqb_iff; reflexivity). rewrite !Q. cbn [negb orb].
  replace (mul3 _ _) with id3 by (symmetry; unfold lin4, id4; cbn; change (M3 1 0 0 0 1 0 0 0 1) with id3; apply rotation_id).
  assert (A : approx_one prec 1 = true).
  { unfold approx_one. apply Rleb_t. replace (1 - 1) with 0 by ring. rewrite Rabs_R0, Rabs_R1, Rmin_left by lra. lra. }
  assert (B : much_smaller prec 0 = true) by (apply Rleb_t; rewrite Rabs_R0; lra).
  unfold isIdentity3. cbn. rewrite A, B. reflexivity.
Qed.
Lemma rv_defined r f : rv_rotates r f -> rv_isDefined r = true.
Proof. intros (a & t & Ha & Ht & H & Hf). apply (rv_access r a _ Ha Ht). Qed.
Lemma proper_shape eps prec t : 0 < eps -> 0 < prec -> proper3 eps prec t -> rigid_shape t.
Proof.
  intros He Hp H. induction H as [| m t Hm E | v t E | r f t Hr E | m t Hm E | p r f t Hr E | s t u Hs IHs Ht IHt E | s t Hs IHs E].
  - exists TIdentity, id3, zero3. split; [reflexivity |]. split; [apply rotation_id | split; reflexivity].
  - subst m. unfold t3_Transformation, t3_TypeOfMatrix in E. destruct isIdentity4; [| discriminate]. cbn [bind] in E. rewrite isRigid_id in E by assumption. injection E as <-.
    exists TIdentity, id3, zero3. split; [reflexivity |]. split; [apply rotation_id | split; reflexivity].
  - destruct v as [v |]; [| discriminate]. rewrite translation_eq in E. injection E as <-.
    exists TTranslation, id3, v. split; [reflexivity |]. split; [apply rotation_id | reflexivity].
  - destruct (rv_to_m eps r f He Hr) as (m & M & Rm & _). unfold t3_Rotation_rv in E. rewrite (rv_defined r f Hr), M in E. cbn in E. injection E as <-.
    exists TRotation, (transpose3 m), zero3. split; [reflexivity |]. split; [apply rotation_transpose, Rm | reflexivity].
  - cbn in E. injection E as <-. exists TRotation, (transpose3 m), zero3. split; [reflexivity |]. split; [apply rotation_transpose, Hm | reflexivity].
  - destruct (rv_to_m eps r f He Hr) as (m & M & Rm & _). destruct p as [c |]; [| discriminate].
    rewrite (around_eq eps c r m M (rv_defined r f Hr)) in E. injection E as <-.
    exists TAffine. do 2 eexists. split; [reflexivity |]. split; [apply rotation_transpose, Rm | exact I].
  - destruct IHs as (ty & l & d & -> & Rl & K), IHt as (ty' & l' & d' & -> & Rl' & K').
    assert (N : ty <> TUndefined) by (destruct ty; try discriminate; contradiction).
    assert (N' : ty' <> TUndefined) by (destruct ty'; try discriminate; contradiction).
    rewrite mul_shaped in E by assumption. injection E as <-.
    do 3 eexists. split; [reflexivity |]. split; [apply rotation_mul; assumption |].
    destruct ty, ty'; cbn [type_composition]; try contradiction; try exact I;
      repeat match goal with H : _ /\ _ |- _ => destruct H end; subst; rewrite ?mul3_id_l, ?mul3_id_r;
      try split; try reflexivity; qring.
  - destruct IHs as (ty & l & d & -> & Rl & K).
    assert (N : ty <> TUndefined) by (destruct ty; try discriminate; contradiction).
    rewrite inverse_shaped, (rotation_inverse l Rl) in E by assumption. injection E as <-.
    do 3 eexists. split; [reflexivity |]. split; [apply rotation_transpose, Rl |].
    destruct ty; try contradiction; try exact I; repeat match goal with H : _ /\ _ |- _ => destruct H end; subst;
      try split; try reflexivity; qring.
Qed.

(** *** C44 *)
Lemma c44_exists_3d_partial eps prec t : 0 < eps -> 0 < prec -> proper3 eps prec t -> exists u, t3_getInverse t = Ok u /\ proper3 eps prec u.
Proof.
  intros He Hp H. destruct (proper_shape eps prec t He Hp H) as (ty & l & d & -> & Rl & K).
  assert (N : ty <> TUndefined) by (destruct ty; try discriminate; contradiction).
  eexists. assert (E := inverse_shaped ty l d true N). rewrite (rotation_inverse l Rl) in E. split; [exact E |].
  eapply made3_inverse; [exact H | exact E].
Qed.
Lemma c44_composition_3d eps prec t u : 0 < eps -> 0 < prec -> proper3 eps prec t -> t3_getInverse t = Ok u ->
  exists a b, t3_mul u t = Ok a /\ t3_mul t u = Ok b /\ t3_getMatrix a = Ok id4 /\ t3_getMatrix b = Ok id4 /\ t3_getInverse u = Ok t.
Proof.
  intros He Hp H E. destruct (proper_shape eps prec t He Hp H) as (ty & l & d & -> & Rl & K).
  assert (N : ty <> TUndefined) by (destruct ty; try discriminate; contradiction).
  rewrite inverse_shaped, (rotation_inverse l Rl) in E by assumption. injection E as <-.
  do 2 eexists. split; [apply mul_shaped; assumption |]. split; [apply mul_shaped; assumption |].
  assert (G : forall ty l d r, ty <> TUndefined -> t3_getMatrix (mkT3 ty (Some (affine4 l d)) r) = Ok (affine4 l d)).
  { intros. unfold t3_getMatrix, t3_defined. rewrite isDefined_type by assumption. reflexivity. }
  rewrite !G by (apply composition_defined; assumption). rewrite inverse_shaped, (rotation_inverse _ (rotation_transpose l Rl)) by assumption.
  rewrite (proj1 Rl), (rotation_right l Rl), transpose3_transpose, <- affine4_id.
  assert (X : mulv3 l (opp3 (mulv3 (transpose3 l) d)) = opp3 d).
  { replace (mulv3 l (opp3 (mulv3 (transpose3 l) d))) with (opp3 (mulv3 (mul3 l (transpose3 l)) d)) by (rewrite mulv3_mul; qring).
    rewrite (rotation_right l Rl), mulv3_id. reflexivity. }
  rewrite X. repeat split; repeat f_equal; qring.
Qed.
(** A zero rotation matrix is accepted (C30); the transformation made from it has no inverse. *)
Lemma c44_matrix_refuted eps prec : 0 < eps -> exists m t, RotationMatrix eps m = Ok m /\ t3_Rotation_rm (Some m) = Ok t
  /\ affine3 eps prec t /\ t3_getInverse t = UB.
Proof.
  intros He. exists (M3 0 0 0 0 0 0 0 0 0). eexists.
  assert (C : RotationMatrix eps (M3 0 0 0 0 0 0 0 0 0) = Ok (M3 0 0 0 0 0 0 0 0 0)).
  { unfold RotationMatrix. replace (columns_ok eps (M3 0 0 0 0 0 0 0 0 0)) with true; [reflexivity |]. symmetry. apply columns_ok_iff.
    split.
    - intros j Hj. replace (col3 _ j) with zero3 by (destruct j as [| [| ]]; reflexivity). rewrite (proj2 (norm3_0 zero3) eq_refl). lra.
    - intros i j _ _ _. replace (col3 _ j) with zero3 by (destruct j as [| [| ]]; reflexivity).
      replace (dot3 _ _) with 0 by (generalize (col3 (M3 0 0 0 0 0 0 0 0 0) i); qring). rewrite Rabs_R0. lra. }
  split; [exact C |]. split; [reflexivity |]. split.
  - eapply made3_rotation_matrix; [exact I | reflexivity].
  - unfold with_block. rewrite inverse_shaped by discriminate. rewrite (proj2 (inverse3_none _)); [reflexivity |]. qring.
Qed.

(** *** C45 *)
Lemma c45_rigid_3d_partial eps prec t : 0 < eps -> 0 < prec -> proper3 eps prec t -> t3_isRigid t = Ok true /\ keeps_distances3 t.
Proof.
  intros He Hp H. destruct (proper_shape eps prec t He Hp H) as (ty & l & d & -> & Rl & K).
  assert (N : ty <> TUndefined) by (destruct ty; try discriminate; contradiction).
  split; [unfold t3_isRigid; rewrite isDefined_type by assumption; reflexivity |].
  exists (amap l d). split; [apply apply_affine |]. intros p q. rewrite amap_sub.
  unfold norm3, sqnorm3. rewrite rotation_dot by assumption. reflexivity.
Qed.
Lemma c45_matrix_refuted eps : 0 < eps -> exists m t, RotationMatrix eps m = Ok m /\ t3_Rotation_rm (Some m) = Ok t
  /\ t3_isRigid t = Ok true /\ ~ keeps_distances3 t.
Proof.
  intros He. destruct (c44_matrix_refuted eps 1 He) as (m & t & A & B & _ & D). exists m, t.
  split; [exact A |]. split; [exact B |]. cbn in B. injection B as <-. split; [reflexivity |].
  unfold with_block in *. rewrite inverse_shaped in D by discriminate. destruct inverse3 eqn:E; [discriminate |]. apply inverse3_none in E.
  intros (f & F & Dist).
  assert (G : forall p, f p = amap (transpose3 m) zero3 p).
  { intros p. pose proof (F p) as F1. rewrite (proj1 (apply_affine TRotation (transpose3 m) zero3 true)) in F1. injection F1 as F1. auto. }
  (* an isometry has an orthonormal linear part *)
  assert (O : forall v, sqnorm3 (mulv3 (transpose3 m) v) = sqnorm3 v).
  { intros v. pose proof (Dist v zero3) as Dv. rewrite !G, amap_sub in Dv.
    replace (sub3 v zero3) with v in Dv by qring. rewrite <- !norm3_sq, Dv. reflexivity. }
  assert (P : mul3 m (transpose3 m) = id3).
  { assert (B2 : forall v w, dot3 (mulv3 (transpose3 m) v) (mulv3 (transpose3 m) w) = dot3 v w).
    { intros v w. pose proof (O (add3 v w)) as S. replace (mulv3 (transpose3 m) (add3 v w)) with (add3 (mulv3 (transpose3 m) v) (mulv3 (transpose3 m) w)) in S by qring.
      rewrite !sqnorm3_add, !O in S. lra. }
    apply mulv3_ext. intros v. rewrite mulv3_id, mulv3_mul. apply sub3_0, sqnorm3_0.
    set (u := sub3 _ _). unfold sqnorm3 at 1. unfold u at 2. 
    replace (dot3 u (sub3 (mulv3 m (mulv3 (transpose3 m) v)) v)) with (dot3 u (mulv3 m (mulv3 (transpose3 m) v)) - dot3 u v) by (clearbody u; qring).
    replace (dot3 u (mulv3 m (mulv3 (transpose3 m) v))) with (dot3 (mulv3 (transpose3 m) u) (mulv3 (transpose3 m) v)) by (clearbody u; qring).
    rewrite B2. ring. }
  pose proof (det3_mul m (transpose3 m)) as Dm. rewrite P, det3_id, E in Dm. lra.
Qed.
Lemma c45_undefined_3d t : t3_isDefined t = false -> t3_isRigid t = Err EUndefined.
Proof. unfold t3_isRigid. intros ->. reflexivity. Qed.

(** *** C46 *)
Lemma points_ext t f g : (forall p, f p = g p) -> maps_points3 t f -> maps_points3 t g.
Proof. intros E H p. rewrite <- E. apply H. Qed.
Lemma c46_type_3d_partial eps prec t : 0 < eps -> 0 < prec -> proper3 eps prec t ->
  exists ty, t3_getType t = Ok ty /\ describes3 ty t /\ t3_isIdentity t = Ok (match ty with TIdentity => true | _ => false end).
Proof.
  intros He Hp H. destruct (proper_shape eps prec t He Hp H) as (ty & l & d & -> & Rl & K).
  assert (N : ty <> TUndefined) by (destruct ty; try discriminate; contradiction).
  exists ty. unfold t3_getType, t3_isIdentity. rewrite !isDefined_type by assumption. split; [reflexivity |].
  split; [| destruct ty; try reflexivity; contradiction].
  pose proof (proj1 (apply_affine ty l d true)) as A. destruct ty; try contradiction; cbn [describes3].
  - destruct K as [-> ->]. eapply points_ext; [| exact A]. intros p. unfold amap. rewrite mulv3_id. qring.
  - subst l. exists d. eapply points_ext; [| exact A]. intros p. unfold amap. rewrite mulv3_id. reflexivity.
  - subst d. destruct (rotation_axis l Rl) as (a & th & Ha & F). exists a, th. split; [exact Ha |].
    eapply points_ext; [| exact A]. intros p. unfold amap. rewrite F. generalize (turn3 a th p). qring.
  - exists l, d. exact A.
Qed.
Lemma c46_table a b : a <> TUndefined -> b <> TUndefined ->
  (type_composition a b = TIdentity <-> a = TIdentity /\ b = TIdentity)
  /\ (forall ty, ty <> TIdentity -> ty <> TAffine ->
        (type_composition a b = ty <-> (a = TIdentity /\ b = ty) \/ (a = ty /\ b = TIdentity)
           \/ (a = ty /\ b = ty /\ (ty = TTranslation \/ ty = TRotation \/ ty = TScaling)))).
Proof.
  intros Ha Hb. split.
  - destruct a, b; cbn; split; intros H; try discriminate H; try (destruct H; discriminate); try contradiction; auto.
  - intros ty H1 H2. destruct a, b, ty; cbn; try contradiction; split; intros H; try discriminate H; auto 10;
      repeat match goal with H : _ \/ _ |- _ => destruct H | H : _ /\ _ |- _ => destruct H end; try discriminate; try contradiction.
Qed.

(** *** C83: translations and rotations *)
Lemma c83_translation_3d v : exists t, t3_Translation (Some v) = Ok t
  /\ maps_points3 t (fun p => add3 p v) /\ maps_vectors3 t (fun w => w)
  /\ t3_Translation None = Err EUndefined.
Proof.
  rewrite translation_eq. eexists. split; [reflexivity |]. destruct (apply_affine TTranslation id3 v true) as [A B].
  split; [| split; [| reflexivity]].
  - intros p. rewrite A. unfold amap. rewrite mulv3_id. reflexivity.
  - intros w. rewrite B, mulv3_id. reflexivity.
Qed.
Lemma transpose_frame a t v : sqnorm3 a = 1 -> mulv3 (transpose3 (axis_angle_matrix a t)) v = turn3 a t v.
Proof.
  intros H. rewrite <- frame_turn, <- axis_angle_frame.
  assert (E : forall a t, transpose3 (axis_angle_matrix a t) = axis_angle_matrix a (- t)).
  { intros b u. unfold axis_angle_matrix. rewrite cos_neg, sin_neg. generalize (cos u) (sin u). qring. }
  rewrite E. reflexivity.
Qed.
Lemma rm_of_rotvec_eq eps r a t : 0 < eps -> rv_axis r = Some a -> turns (rv_angle r) = Some (t / (2 * PI)) -> sqnorm3 a = 1 ->
  rm_of_rotvec eps r = Ok (axis_angle_matrix a t).
Proof.
  intros He Ha Ht H. destruct (rv_access r a _ Ha Ht) as [D [Ga [Gt In]]].
  unfold rm_of_rotvec. rewrite D, Gt, Ga. cbn [bind negb]. rewrite In. cbn [bind].
  replace (t / (2 * PI) * (2 * PI)) with t by (field; pose proof PI_RGT_0; lra).
  apply rotation_ok; [assumption |]. apply axis_angle_rotation, H.
Qed.
Lemma c83_rotation_vector_3d eps r a t : 0 < eps -> rv_axis r = Some a -> turns (rv_angle r) = Some (t / (2 * PI)) -> sqnorm3 a = 1 ->
  exists u, t3_Rotation_rv eps r = Ok u /\ maps_points3 u (turn3 a t) /\ maps_vectors3 u (turn3 a t).
Proof.
  intros He Ha Ht H. unfold t3_Rotation_rv. rewrite (rm_of_rotvec_eq eps r a t) by assumption.
  destruct (rv_access r a _ Ha Ht) as [-> _]. cbn [negb bind]. eexists. split; [reflexivity |]. unfold with_block.
  destruct (apply_affine TRotation (transpose3 (axis_angle_matrix a t)) zero3 true) as [A B]. split; intros p.
  - rewrite A. unfold amap. rewrite transpose_frame by assumption. do 2 f_equal. generalize (turn3 a t p). qring.
  - rewrite B, transpose_frame by assumption. reflexivity.
Qed.
Lemma c83_rotation_matrix_3d m : is_rotation m -> exists u, t3_Rotation_rm (Some m) = Ok u
  /\ maps_points3 u (mulv3 (transpose3 m)) /\ maps_vectors3 u (mulv3 (transpose3 m))
  /\ (forall v w, rm_mulv (Some m) (Some v) = Ok w -> t3_applyTo_vector u (Some w) = Some v).
Proof.
  intros H. eexists. split; [reflexivity |]. unfold with_block.
  destruct (apply_affine TRotation (transpose3 m) zero3 true) as [A B]. split; [| split].
  - intros p. rewrite A. unfold amap. do 2 f_equal. generalize (mulv3 (transpose3 m) p). qring.
  - exact B.
  - intros v w E. unfold rm_mulv in E. cbn [needd bind] in E. injection E as <-. rewrite B, <- mulv3_mul.
    rewrite (proj1 H), mulv3_id. reflexivity.
Qed.
Lemma c83_difference_3d eps prec t p q p' q' : affine3 eps prec t ->
  t3_applyTo_point t (Some p) = Ok (Some p') -> t3_applyTo_point t (Some q) = Ok (Some q') ->
  t3_applyTo_vector t (Some (sub3 p q)) = Some (sub3 p' q').
Proof.
  intros H. destruct (affine3_shaped _ _ _ H) as (ty & l & d & r & -> & N). destruct (apply_affine ty l d r) as [A B].
  rewrite !A, B. intros E E'. injection E as <-. injection E' as <-. rewrite amap_sub. reflexivity.
Qed.
Lemma c83_undefined_3d eps t v p r : t3_matrix t = None ->
  t3_applyTo_point t (Some v) = Ok None /\ t3_applyTo_vector t (Some v) = None
  /\ t3_applyTo_point t None = Err EUndefined /\ t3_applyTo_vector t None = None
  /\ t3_Rotation_rm None = Err EUndefined
  /\ (rv_isDefined r = false -> t3_Rotation_rv eps r = Err EUndefined /\ t3_RotationAround eps p r = Err EUndefined)
  /\ t3_RotationAround eps None r = Err EUndefined.
Proof.
  intros H. unfold t3_applyTo_point, t3_applyTo_vector. rewrite H. cbn [needd bind]. do 5 (split; [reflexivity |]). split; [| reflexivity].
  intros D. unfold t3_RotationAround, t3_Rotation_rv. rewrite D. destruct p; split; reflexivity.
Qed.

(** *** C47 *)
Lemma c47_around_3d eps c r a t : 0 < eps -> rv_axis r = Some a -> turns (rv_angle r) = Some (t / (2 * PI)) -> sqnorm3 a = 1 ->
  exists u, t3_RotationAround eps (Some c) r = Ok u
    /\ t3_applyTo_point u (Some c) = Ok (Some c)
    /\ maps_points3 u (fun p => add3 c (turn3 a t (sub3 p c)))
    /\ maps_vectors3 u (turn3 a t)
    /\ keeps_distances3 u /\ t3_isRigid u = Ok true.
Proof.
  intros He Ha Ht H. pose proof (rm_of_rotvec_eq eps r a t He Ha Ht H) as E.
  assert (D : rv_isDefined r = true) by apply (rv_access r a _ Ha Ht).
  rewrite (around_eq eps c r _ E D). eexists. split; [reflexivity |].
  set (l := transpose3 (axis_angle_matrix a t)). destruct (apply_affine TAffine l (sub3 c (mulv3 l c)) true) as [A B].
  assert (L : forall v, mulv3 l v = turn3 a t v) by (intros; apply transpose_frame, H).
  assert (P : forall p, amap l (sub3 c (mulv3 l c)) p = add3 c (turn3 a t (sub3 p c))).
  { intros p. rewrite <- L. clearbody l. unfold amap. qring. }
  split; [| split; [| split; [| split]]].
  - rewrite A, P. do 2 f_equal. rewrite <- L. clearbody l. qring.
  - intros p. rewrite A, P. reflexivity.
  - intros v. rewrite B, L. reflexivity.
  - exists (amap l (sub3 c (mulv3 l c))). split; [exact A |]. intros p q. rewrite amap_sub, L.
    pose proof (turn3_norm a t (sub3 p q) zero3 H) as T.
    replace (turn3 a t zero3) with zero3 in T by (rewrite <- L; clearbody l; qring).
    replace (sub3 (turn3 a t (sub3 p q)) zero3) with (turn3 a t (sub3 p q)) in T by (generalize (turn3 a t (sub3 p q)); qring).
    rewrite T. f_equal. qring.
  - reflexivity.
Qed.

(** *** C82: equality *)
Lemma c82_equal_iff_3d eps prec s t : affine3 eps prec s -> affine3 eps prec t ->
  (t3_eq s t = true <-> forall p, t3_applyTo_point s (Some p) = t3_applyTo_point t (Some p)).
Proof.
  intros Hs Ht. destruct (affine3_shaped _ _ _ Hs) as (ty & l & d & r & -> & N), (affine3_shaped _ _ _ Ht) as (ty' & l' & d' & r' & -> & N').
  unfold t3_eq. rewrite !isDefined_type by assumption. cbn [negb orb t3_matrix]. destruct m4_eq_dec as [E | E].
  - split; [| reflexivity]. intros _ p. unfold t3_applyTo_point. cbn [needd bind t3_matrix]. rewrite E. reflexivity.
  - split; [discriminate |]. intros H. exfalso. apply E.
    assert (G : forall p, amap l d p = amap l' d' p).
    { intros p. specialize (H p). rewrite (proj1 (apply_affine ty l d r)), (proj1 (apply_affine ty' l' d' r')) in H. apply (f_equal (fun r => match r with Ok (Some w) => w | _ => zero3 end)) in H. exact H. }
    assert (Dd : d = d').
    { pose proof (G zero3) as G0. unfold amap in G0.
      replace (add3 (mulv3 l zero3) d) with d in G0 by qring. replace (add3 (mulv3 l' zero3) d') with d' in G0 by qring. exact G0. }
    subst d'. f_equal. apply mulv3_ext. intros v. pose proof (G v) as Gv. unfold amap in Gv. apply sub3_0.
    replace (sub3 (mulv3 l v) (mulv3 l' v)) with (sub3 (add3 (mulv3 l v) d) (add3 (mulv3 l' v) d)) by qring. rewrite Gv. generalize (add3 (mulv3 l' v) d). qring.
Qed.
Lemma c82_undefined_3d s t : t3_isDefined s = false \/ t3_isDefined t = false -> t3_eq s t = false.
Proof. unfold t3_eq. intros [-> | ->]; destruct t3_isDefined; reflexivity. Qed.
