(** Transformations in dimension 2 (C43 - C47, C82, C83). *)

From Coq Require Import List Bool Reals Lra Lia Psatz.
From Verif Require Import Result DOrder Vec VecProofs Mat3 Mat4 AngleModel AngleSpec AngleProofs AngleProofs2 RotModel RotSpec RotProofs RotProofs2 RotProofs3 TransfModel TransfSpec TransfProofs.
Local Open Scope R_scope.

(** The matrix of a rotation by [th] followed by a translation by [d]. *)
Definition mat2 (th : R) (d : v2) : m3 := M3 (cos th) (- sin th) (x2 d) (sin th) (cos th) (y2 d) 0 0 1.
Definition map2 (th : R) (d : v2) (p : v2) : v2 := add2 (turn2 th p) d.

Lemma mat2_mul th d th' d' : mul3 (mat2 th d) (mat2 th' d') = mat2 (th + th') (map2 th d d').
Proof.
  unfold mat2, map2, turn2. rewrite cos_plus, sin_plus. destruct d, d'. v2unfold. 
  unfold mul3, of_cols, mulv3, dot3, col3, row3. cbn. apply M3_eq; ring.
Qed.
Lemma mat2_id : mat2 0 zero2 = id3.
Proof. unfold mat2, id3, zero2. cbn. rewrite cos_0, sin_0. apply M3_eq; ring. Qed.
Lemma mat2_det th d : det3 (mat2 th d) = 1.
Proof. pose proof (sc1 th). unfold det3, mat2, row3, cross3, dot3. cbn. lra. Qed.
Lemma map2_inv th d p : map2 (- th) (opp2 (turn2 (- th) d)) (map2 th d p) = p.
Proof.
  unfold map2, turn2. rewrite cos_neg, sin_neg. pose proof (sc1 th) as S. destruct d as [dx dy], p as [x y]. v2unfold.
  apply V2_eq.
  - replace (_ + _) with ((cos th * cos th + sin th * sin th) * x) by ring. rewrite S. ring.
  - replace (_ + _) with ((cos th * cos th + sin th * sin th) * y) by ring. rewrite S. ring.
Qed.
Lemma map2_inv_r th d p : map2 th d (map2 (- th) (opp2 (turn2 (- th) d)) p) = p.
Proof.
  unfold map2, turn2. rewrite cos_neg, sin_neg. pose proof (sc1 th) as S. destruct d as [dx dy], p as [x y]. v2unfold.
  apply V2_eq.
  - replace (_ + _) with ((cos th * cos th + sin th * sin th) * x + (1 - (cos th * cos th + sin th * sin th)) * dx) by ring. rewrite S. ring.
  - replace (_ + _) with ((cos th * cos th + sin th * sin th) * y + (1 - (cos th * cos th + sin th * sin th)) * dy) by ring. rewrite S. ring.
Qed.
Lemma mat2_inverse th d : inverse3 (mat2 th d) = Some (mat2 (- th) (opp2 (turn2 (- th) d))).
Proof.
  destruct (inverse3 (mat2 th d)) as [n |] eqn:E.
  - destruct (inverse3_some _ _ E) as (L & _ & _). f_equal.
    rewrite <- (mul3_id_r n). assert (Q : mul3 (mat2 th d) (mat2 (- th) (opp2 (turn2 (- th) d))) = id3).
    { rewrite mat2_mul, <- mat2_id. f_equal; [ring |]. pose proof (map2_inv_r th d zero2) as M.
      replace (map2 (- th) (opp2 (turn2 (- th) d)) zero2) with (opp2 (turn2 (- th) d)) in M; [exact M |].
      unfold map2. generalize (opp2 (turn2 (- th) d)). intros [x y]. unfold turn2. v2unfold. apply V2_eq; ring. }
    rewrite <- Q, <- mul3_assoc, L, mul3_id_l. reflexivity.
  - apply inverse3_none in E. rewrite mat2_det in E. lra.
Qed.
Lemma apply_mat2 ty th d : maps_points2 (mkT2 ty (Some (mat2 th d))) (map2 th d)
  /\ maps_vectors2 (mkT2 ty (Some (mat2 th d))) (turn2 th).
Proof.
  split; intros p; unfold t2_applyTo_point, t2_applyTo_vector; cbn [t2_matrix needd bind]; destruct d, p;
    unfold map2, turn2, mat2, head2, mulv3, dot3, row3; v2unfold; cbn;
    [apply (f_equal (fun w => Ok (Some w))) | apply (f_equal Some)]; apply V2_eq; ring.
Qed.
Lemma turn2_norm th p q : norm2 (sub2 (turn2 th p) (turn2 th q)) = norm2 (sub2 p q).
Proof.
  unfold norm2. f_equal. pose proof (sc1 th) as S. destruct p as [a b], q as [c e]. unfold turn2. v2unfold.
  replace (_ + _) with ((cos th * cos th + sin th * sin th) * ((a - c) * (a - c) + (b - e) * (b - e))) by ring. rewrite S. ring.
Qed.
Lemma map2_norm th d p q : norm2 (sub2 (map2 th d p) (map2 th d q)) = norm2 (sub2 p q).
Proof.
  rewrite <- (turn2_norm th p q). f_equal. unfold map2. generalize (turn2 th p) (turn2 th q). intros [a b] [c e]. destruct d. v2unfold. apply V2_eq; ring.
Qed.

(** *** Shape *)
Definition shaped2 (t : t2_transf) : Prop :=
  exists ty th d, t = mkT2 ty (Some (mat2 th d))
    /\ match ty with
       | TIdentity => th = 0 /\ d = zero2
       | TTranslation => th = 0
       | TRotation => d = zero2
       | TAffine => True
       | _ => False
       end.
Lemma isDefined2_type ty m : ty <> TUndefined -> t2_isDefined (mkT2 ty m) = true.
Proof. destruct ty; intros H; try reflexivity. contradiction. Qed.
Lemma mul_shaped2 ty th d ty' th' d' : ty <> TUndefined -> ty' <> TUndefined ->
  t2_mul (mkT2 ty (Some (mat2 th d))) (mkT2 ty' (Some (mat2 th' d')))
  = Ok (mkT2 (type_composition ty ty') (Some (mat2 (th + th') (map2 th d d')))).
Proof. intros H H'. unfold t2_mul. rewrite !isDefined2_type by assumption. cbn. rewrite mat2_mul. reflexivity. Qed.
Lemma inverse_shaped2 ty th d : ty <> TUndefined ->
  t2_getInverse (mkT2 ty (Some (mat2 th d))) = Ok (mkT2 ty (Some (mat2 (- th) (opp2 (turn2 (- th) d))))).
Proof.
  intros H. unfold t2_getInverse, t2_defined. rewrite isDefined2_type by assumption. cbn [t2_matrix needd bind].
  rewrite mat2_inverse. reflexivity.
Qed.
Lemma translation2_eq v : t2_Translation (Some v) = Ok (mkT2 TTranslation (Some (mat2 0 v))).
Proof. unfold t2_Translation, mat2. cbn [needd bind]. rewrite cos_0, sin_0, Ropp_0. reflexivity. Qed.
Lemma rotation2_eq a s : turns a = Some s -> t2_Rotation a = Ok (mkT2 TRotation (Some (mat2 (s * (2 * PI)) zero2))).
Proof.
  intros H. unfold t2_Rotation. rewrite (turns_defined a s H), (in_unit_spec a s Radian H) by discriminate. reflexivity.
Qed.
Lemma rotation2_undefined a : turns a = None -> t2_Rotation a = Err EUndefined.
Proof. intros H. unfold t2_Rotation. rewrite (proj1 (turns_None a) H). reflexivity. Qed.
Lemma around2_eq c a s : turns a = Some s ->
  t2_RotationAround (Some c) a = Ok (mkT2 TAffine (Some (mat2 (s * (2 * PI)) (sub2 c (turn2 (s * (2 * PI)) c))))).
Proof.
  intros H. unfold t2_RotationAround. cbn [needd bind]. rewrite !translation2_eq, (rotation2_eq a s H). cbn [bind].
  rewrite mul_shaped2 by discriminate. cbn [bind]. rewrite mul_shaped2 by discriminate. cbn [type_composition].
  do 3 f_equal. f_equal; [ring |]. generalize (s * (2 * PI)). intros th. rewrite Rplus_0_l.
  unfold map2, turn2. rewrite cos_0, sin_0. destruct c as [x y]. v2unfold. apply V2_eq; ring.
Qed.
Ltac t0 := unfold map2, turn2; rewrite ?Ropp_0, ?cos_0, ?sin_0; v2unfold; apply V2_eq; ring.
Lemma made2_shaped t : made2 t -> shaped2 t.
Proof.
  intros H. induction H as [| m t E | v t E | a t E | p a t E | s t u Hs IHs Ht IHt E | s t Hs IHs E].
  - exists TIdentity, 0, zero2. rewrite mat2_id. repeat split.
  - unfold t2_Transformation, t2_TypeOfMatrix in E. destruct m3_eq_dec as [-> | _]; [| discriminate]. cbn [bind] in E. injection E as <-.
    exists TIdentity, 0, zero2. rewrite mat2_id. repeat split.
  - destruct v as [v |]; [| discriminate]. rewrite translation2_eq in E. injection E as <-. exists TTranslation, 0, v. repeat split.
  - destruct (turns a) as [s |] eqn:T; [| rewrite (rotation2_undefined a T) in E; discriminate].
    rewrite (rotation2_eq a s T) in E. injection E as <-. exists TRotation, (s * (2 * PI)), zero2. repeat split.
  - destruct p as [c |]; [| discriminate]. destruct (turns a) as [s |] eqn:T.
    + rewrite (around2_eq c a s T) in E. injection E as <-. do 3 eexists. split; [reflexivity | exact I].
    + unfold t2_RotationAround in E. cbn [needd bind] in E. rewrite translation2_eq in E. cbn [bind] in E.
      rewrite (rotation2_undefined a T) in E. discriminate.
  - destruct IHs as (ty & th & d & -> & K), IHt as (ty' & th' & d' & -> & K').
    assert (N : ty <> TUndefined) by (destruct ty; try discriminate; contradiction).
    assert (N' : ty' <> TUndefined) by (destruct ty'; try discriminate; contradiction).
    rewrite mul_shaped2 in E by assumption. injection E as <-. do 3 eexists. split; [reflexivity |].
    destruct ty, ty'; cbn [type_composition]; try contradiction; try exact I;
      repeat match goal with H : _ /\ _ |- _ => destruct H end; subst; try split; try ring; try t0.
  - destruct IHs as (ty & th & d & -> & K).
    assert (N : ty <> TUndefined) by (destruct ty; try discriminate; contradiction).
    rewrite inverse_shaped2 in E by assumption. injection E as <-. do 3 eexists. split; [reflexivity |].
    destruct ty; try contradiction; try exact I; repeat match goal with H : _ /\ _ |- _ => destruct H end; subst;
      try split; try ring; try t0.
Qed.
Lemma shaped2_type t : shaped2 t -> exists ty th d, t = mkT2 ty (Some (mat2 th d)) /\ ty <> TUndefined.
Proof. intros (ty & th & d & -> & K). exists ty, th, d. split; [reflexivity |]. destruct ty; try discriminate; contradiction. Qed.

(** *** C43 *)
Lemma map2_mul th d th' d' p : map2 (th + th') (map2 th d d') p = map2 th d (map2 th' d' p).
Proof. unfold map2, turn2. rewrite cos_plus, sin_plus. destruct d, d', p. v2unfold. apply V2_eq; ring. Qed.
Lemma turn2_mul th th' p : turn2 (th + th') p = turn2 th (turn2 th' p).
Proof. unfold turn2. rewrite cos_plus, sin_plus. destruct p. v2unfold. apply V2_eq; ring. Qed.
Lemma c43_action_2d s t : made2 s -> made2 t ->
  exists u, t2_mul s t = Ok u
    /\ (forall p q, t2_applyTo_point t (Some p) = Ok (Some q) -> t2_applyTo_point u (Some p) = t2_applyTo_point s (Some q))
    /\ (forall v w, t2_applyTo_vector t (Some v) = Some w -> t2_applyTo_vector u (Some v) = t2_applyTo_vector s (Some w))
    /\ (forall v w, t2_mulv t (Some v) = Ok w -> t2_mulv u (Some v) = t2_mulv s (Some w))
    /\ (forall p, exists q, t2_applyTo_point t (Some p) = Ok (Some q))
    /\ (forall v, exists w, t2_applyTo_vector t (Some v) = Some w)
    /\ (forall v, exists w, t2_mulv t (Some v) = Ok w).
Proof.
  intros Hs Ht. destruct (shaped2_type _ (made2_shaped _ Hs)) as (ty & th & d & -> & N), (shaped2_type _ (made2_shaped _ Ht)) as (ty' & th' & d' & -> & N').
  eexists. split; [apply mul_shaped2; assumption |].
  destruct (apply_mat2 ty th d) as [A1 A2], (apply_mat2 ty' th' d') as [B1 B2].
  destruct (apply_mat2 (type_composition ty ty') (th + th') (map2 th d d')) as [C1 C2].
  assert (M : forall ty th d v, ty <> TUndefined -> t2_mulv (mkT2 ty (Some (mat2 th d))) (Some v) = Ok (mulv3 (mat2 th d) v)).
  { intros. unfold t2_mulv, t2_defined. cbn [needd bind]. rewrite isDefined2_type by assumption. reflexivity. }
  split; [| split; [| split; [| split; [| split]]]].
  - intros p q Q. rewrite B1 in Q. injection Q as <-. rewrite C1, A1, map2_mul. reflexivity.
  - intros v w Q. rewrite B2 in Q. injection Q as <-. rewrite C2, A2, turn2_mul. reflexivity.
  - intros v w Q. rewrite M in Q by assumption. injection Q as <-. rewrite !M by (try apply composition_defined; assumption).
    rewrite <- mat2_mul, mulv3_mul. reflexivity.
  - intros p. eexists. apply B1.
  - intros v. eexists. apply B2.
  - intros v. eexists. apply M. assumption.
Qed.
Lemma c43_monoid_2d s t u : made2 s -> made2 t -> made2 u ->
  (let! st := t2_mul s t in t2_mul st u) = (let! tu := t2_mul t u in t2_mul s tu)
  /\ t2_mul t2_Identity s = Ok s /\ t2_mul s t2_Identity = Ok s.
Proof.
  intros Hs Ht Hu. destruct (shaped2_type _ (made2_shaped _ Hs)) as (ty & th & d & -> & N), (shaped2_type _ (made2_shaped _ Ht)) as (ty' & th' & d' & -> & N'),
    (shaped2_type _ (made2_shaped _ Hu)) as (ty2 & th2 & d2 & -> & N2).
  assert (I2 : t2_Identity = mkT2 TIdentity (Some (mat2 0 zero2))) by (rewrite mat2_id; reflexivity). rewrite I2.
  rewrite !mul_shaped2 by (assumption || discriminate). cbn [bind]. rewrite !mul_shaped2 by (try apply composition_defined; assumption).
  split; [| split].
  - rewrite type_composition_assoc, Rplus_assoc, map2_mul. reflexivity.
  - replace (type_composition TIdentity ty) with ty by (destruct ty; reflexivity). rewrite Rplus_0_l. do 3 f_equal. f_equal. destruct d. t0.
  - replace (type_composition ty TIdentity) with ty by (destruct ty; reflexivity). rewrite Rplus_0_r. do 3 f_equal. f_equal. destruct d. t0.
Qed.
Lemma c43_undefined_2d s t : t2_isDefined s = false \/ t2_isDefined t = false -> t2_mul s t = Err EUndefined.
Proof. unfold t2_mul. intros [-> | ->]; destruct t2_isDefined; reflexivity. Qed.

(** *** C44 *)
Lemma c44_inverse_2d t : made2 t -> exists u, t2_getInverse t = Ok u
  /\ made2 u /\ t2_type u = t2_type t
  /\ (forall p q, t2_applyTo_point t (Some p) = Ok (Some q) -> t2_applyTo_point u (Some q) = Ok (Some p))
  /\ (forall p q, t2_applyTo_point u (Some p) = Ok (Some q) -> t2_applyTo_point t (Some q) = Ok (Some p))
  /\ (forall v w, t2_applyTo_vector t (Some v) = Some w -> t2_applyTo_vector u (Some w) = Some v)
  /\ (forall v w, t2_applyTo_vector u (Some v) = Some w -> t2_applyTo_vector t (Some w) = Some v).
Proof.
  intros Ht. destruct (shaped2_type _ (made2_shaped _ Ht)) as (ty & th & d & -> & N).
  pose proof (inverse_shaped2 ty th d N) as E. eexists. split; [exact E |]. split; [eapply made2_inverse; eassumption |]. split; [reflexivity |].
  destruct (apply_mat2 ty th d) as [A1 A2], (apply_mat2 ty (- th) (opp2 (turn2 (- th) d))) as [B1 B2].
  split; [| split; [| split]].
  - intros p q Q. rewrite A1 in Q. injection Q as <-. rewrite B1, map2_inv by assumption. reflexivity.
  - intros p q Q. rewrite B1 in Q. injection Q as <-. rewrite A1, map2_inv_r by assumption. reflexivity.
  - intros p q Q. rewrite A2 in Q. injection Q as <-. rewrite B2, <- turn2_mul. f_equal. replace (- th + th) with 0 by ring. destruct p. t0.
  - intros p q Q. rewrite B2 in Q. injection Q as <-. rewrite A2, <- turn2_mul. f_equal. replace (th + - th) with 0 by ring. destruct p. t0.
Qed.

(** *** C45 *)
Lemma c45_sound_2d t : made2 t -> keeps_distances2 t.
Proof.
  intros Ht. destruct (shaped2_type _ (made2_shaped _ Ht)) as (ty & th & d & -> & N). exists (map2 th d).
  split; [apply apply_mat2 |]. apply map2_norm.
Qed.
Lemma c45_rigid_2d_partial t ty : made2 t -> t2_getType t = Ok ty -> t2_isRigid t = true <-> ty <> TAffine.
Proof.
  intros Ht. destruct (made2_shaped _ Ht) as (ty' & th & d & -> & K). unfold t2_getType, t2_isRigid. cbn [t2_type].
  destruct ty'; try contradiction; cbn; intros E; injection E as <-; split; intros; try discriminate; try reflexivity; congruence.
Qed.
Lemma c45_composed_2d_refuted : exists c a t, t2_RotationAround (Some c) a = Ok t /\ made2 t /\ keeps_distances2 t /\ t2_isRigid t = false.
Proof.
  exists (V2 1 2), (Radians 1). eexists. assert (E : t2_RotationAround (Some (V2 1 2)) (Radians 1) = _) by (apply (around2_eq _ _ (1 / (2 * PI))); reflexivity).
  split; [exact E |]. assert (M : made2 (mkT2 TAffine (Some (mat2 (1 / (2 * PI) * (2 * PI)) (sub2 (V2 1 2) (turn2 (1 / (2 * PI) * (2 * PI)) (V2 1 2)))))))
    by (eapply made2_around; exact E).
  split; [exact M |]. split; [apply c45_sound_2d, M | reflexivity].
Qed.

(** *** C46 *)
Lemma points2_ext t f g : (forall p, f p = g p) -> maps_points2 t f -> maps_points2 t g.
Proof. intros E H p. rewrite <- E. apply H. Qed.
Lemma c46_type_2d t : made2 t -> exists ty, t2_getType t = Ok ty /\ describes2 ty t
  /\ t2_isIdentity t = match ty with TIdentity => true | _ => false end.
Proof.
  intros Ht. destruct (made2_shaped _ Ht) as (ty & th & d & -> & K).
  assert (N : ty <> TUndefined) by (destruct ty; try discriminate; contradiction).
  exists ty. unfold t2_getType. rewrite isDefined2_type by assumption. split; [reflexivity |].
  split; [| destruct ty; reflexivity].
  pose proof (proj1 (apply_mat2 ty th d)) as A. destruct ty; try contradiction; cbn [describes2].
  - destruct K as [-> ->]. eapply points2_ext; [| exact A]. intros [x y]. t0.
  - subst th. exists d. eapply points2_ext; [| exact A]. intros [x y]. destruct d. t0.
  - subst d. exists th. eapply points2_ext; [| exact A]. intros [x y]. t0.
  - exists th, d. exact A.
Qed.

(** *** C83 *)
Lemma c83_translation_2d v : exists t, t2_Translation (Some v) = Ok t
  /\ maps_points2 t (fun p => add2 p v) /\ maps_vectors2 t (fun w => w)
  /\ t2_Translation None = Err EUndefined.
Proof.
  rewrite translation2_eq. eexists. split; [reflexivity |]. destruct (apply_mat2 TTranslation 0 v) as [A B].
  split; [| split; [| reflexivity]].
  - intros [x y]. rewrite A. do 2 f_equal. destruct v. t0.
  - intros [x y]. rewrite B. f_equal. t0.
Qed.
Lemma c83_rotation_2d a s : turns a = Some s -> exists u, t2_Rotation a = Ok u
  /\ maps_points2 u (turn2 (s * (2 * PI))) /\ maps_vectors2 u (turn2 (s * (2 * PI)))
  /\ (forall r th, turn2 (s * (2 * PI)) (V2 (r * cos th) (r * sin th)) = V2 (r * cos (th + s * (2 * PI))) (r * sin (th + s * (2 * PI)))).
Proof.
  intros H. rewrite (rotation2_eq a s H). eexists. split; [reflexivity |]. destruct (apply_mat2 TRotation (s * (2 * PI)) zero2) as [A B].
  split; [| split; [exact B |]].
  - intros [x y]. rewrite A. do 2 f_equal. generalize (s * (2 * PI)). intros th. t0.
  - intros r th. unfold turn2. cbn [x2 y2]. rewrite cos_plus, sin_plus. apply V2_eq; ring.
Qed.
Lemma c83_difference_2d t p q p' q' : made2 t ->
  t2_applyTo_point t (Some p) = Ok (Some p') -> t2_applyTo_point t (Some q) = Ok (Some q') ->
  t2_applyTo_vector t (Some (sub2 p q)) = Some (sub2 p' q').
Proof.
  intros H. destruct (shaped2_type _ (made2_shaped _ H)) as (ty & th & d & -> & N). destruct (apply_mat2 ty th d) as [A B].
  rewrite !A, B. intros E E'. injection E as <-. injection E' as <-. f_equal. destruct p, q, d. t0.
Qed.
Lemma c83_undefined_2d t v p a : t2_matrix t = None ->
  t2_applyTo_point t (Some v) = Ok None /\ t2_applyTo_vector t (Some v) = None
  /\ t2_applyTo_point t None = Err EUndefined /\ t2_applyTo_vector t None = None
  /\ (angle_isDefined a = false -> t2_Rotation a = Err EUndefined /\ t2_RotationAround p a = Err EUndefined)
  /\ t2_RotationAround None a = Err EUndefined.
Proof.
  intros H. unfold t2_applyTo_point, t2_applyTo_vector. rewrite H. cbn [needd bind]. do 4 (split; [reflexivity |]). split; [| reflexivity].
  intros D. unfold t2_RotationAround, t2_Rotation. rewrite D. destruct p; split; reflexivity.
Qed.

(** *** C47 *)
Lemma c47_around_2d c a s : turns a = Some s ->
  exists u, t2_RotationAround (Some c) a = Ok u
    /\ t2_applyTo_point u (Some c) = Ok (Some c)
    /\ maps_points2 u (fun p => add2 c (turn2 (s * (2 * PI)) (sub2 p c)))
    /\ maps_vectors2 u (turn2 (s * (2 * PI)))
    /\ keeps_distances2 u.
Proof.
  intros H. rewrite (around2_eq c a s H). eexists. split; [reflexivity |]. generalize (s * (2 * PI)). intros th.
  destruct (apply_mat2 TAffine th (sub2 c (turn2 th c))) as [A B].
  split; [| split; [| split]].
  - rewrite A. do 2 f_equal. destruct c. t0.
  - intros p. rewrite A. do 2 f_equal. destruct c, p. t0.
  - exact B.
  - exists (map2 th (sub2 c (turn2 th c))). split; [exact A | apply map2_norm].
Qed.

(** *** C82 *)
Lemma c82_equal_iff_2d s t : made2 s -> made2 t ->
  (t2_eq s t = true <-> forall p, t2_applyTo_point s (Some p) = t2_applyTo_point t (Some p)).
Proof.
  intros Hs Ht. destruct (shaped2_type _ (made2_shaped _ Hs)) as (ty & th & d & -> & N), (shaped2_type _ (made2_shaped _ Ht)) as (ty' & th' & d' & -> & N').
  unfold t2_eq. rewrite !isDefined2_type by assumption. cbn [negb orb t2_matrix]. destruct m3_eq_dec as [E | E].
  - split; [| reflexivity]. intros _ p. unfold t2_applyTo_point. cbn [needd bind t2_matrix]. rewrite E. reflexivity.
  - split; [discriminate |]. intros H. exfalso. apply E.
    assert (G : forall p, map2 th d p = map2 th' d' p).
    { intros p. specialize (H p). rewrite (proj1 (apply_mat2 ty th d)), (proj1 (apply_mat2 ty' th' d')) in H.
      apply (f_equal (fun r => match r with Ok (Some w) => w | _ => zero2 end)) in H. exact H. }
    pose proof (G zero2) as G0. pose proof (G (V2 1 0)) as G1. destruct d as [x y], d' as [x' y']. unfold map2, turn2 in *. v2unfold.
    injection G0 as ? ?. injection G1 as ? ?. unfold mat2. cbn. apply M3_eq; lra.
Qed.
Lemma c82_undefined_2d s t : t2_isDefined s = false \/ t2_isDefined t = false -> t2_eq s t = false.
Proof. unfold t2_eq. intros [-> | ->]; destruct t2_isDefined; reflexivity. Qed.
(** A translation by less than the tolerance, given as a matrix, is typed as the identity. *)
Lemma c46_matrix_refuted prec : 0 < prec -> exists m t,
  t3_Transformation prec (Some m) = Ok t /\ t3_getType t = Ok TIdentity /\ exact_last_row m /\ ~ describes3 TIdentity t.
Proof.
  intros Hp. exists (M4 1 0 0 prec 0 1 0 0 0 0 1 0 0 0 0 1).
  assert (I : isIdentity4 prec (M4 1 0 0 prec 0 1 0 0 0 0 1 0 0 0 0 1) = true).
  { assert (A : approx_one prec 1 = true).
    { unfold approx_one. apply Rleb_t. replace (1 - 1) with 0 by ring. rewrite Rabs_R0, Rabs_R1, Rmin_left by lra. lra. }
    assert (B : much_smaller prec 0 = true) by (apply Rleb_t; rewrite Rabs_R0; lra).
    assert (C : much_smaller prec prec = true) by (apply Rleb_t; rewrite Rabs_pos_eq; lra).
    unfold isIdentity4, isIdentity3. cbn. rewrite A, B, C. reflexivity. }
  eexists. unfold t3_Transformation, t3_TypeOfMatrix. rewrite I. cbn [bind]. split; [reflexivity |]. split; [reflexivity |]. split; [reflexivity |].
  cbn [describes3]. intros H. specialize (H zero3). unfold t3_applyTo_point in H. cbn [needd bind t3_matrix] in H.
  apply (f_equal (fun r => match r with Ok (Some w) => vx w | _ => 0 end)) in H. revert H. unfold head3, zero3. m4unfold. lra.
Qed.
