(** Transformations in dimension 3 (C43 - C47, C82, C83). *)

From Coq Require Import List Bool Reals Lra Lia Psatz.
From Verif Require Import Result DOrder Vec VecProofs Mat3 Mat4 AngleModel AngleSpec RotModel RotSpec RotProofs RotProofs2 RotProofs3 RotProofs7 TransfModel TransfSpec.
Local Open Scope R_scope.

(** *** 4 x 4 matrices *)
Lemma M4_eq m n : row4 m 0 = row4 n 0 -> row4 m 1 = row4 n 1 -> row4 m 2 = row4 n 2 -> row4 m 3 = row4 n 3 -> m = n.
Proof. destruct m, n; cbn. intros A B C D. injection A as -> -> -> ->. injection B as -> -> -> ->.
  injection C as -> -> -> ->. injection D as -> -> -> ->. reflexivity. Qed.
Lemma V4_eq a b c d a' b' c' d' : a = a' -> b = b' -> c = c' -> d = d' -> V4 a b c d = V4 a' b' c' d'.
Proof. congruence. Qed.
Ltac m4unfold := cbv beta iota zeta delta [mul4 of_cols4 mulv4 dot4v col4 row4 id4 affine4 lin4 tra4 w0 w1 w2 w3
  a00 a01 a02 a03 a10 a11 a12 a13 a20 a21 a22 a23 a30 a31 a32 a33
  mul3 of_cols mulv3 dot3 add3 col3 row3 cross3 det3 opp3 vx vy vz m00 m01 m02 m10 m11 m12 m20 m21 m22
  det4 cofactor4 minor4 get4 coef4 skip Nat.ltb Nat.leb Nat.even Nat.add scale_m3 adjugate3].
Lemma M4_eq16 x0 x1 x2 x3 x4 x5 x6 x7 x8 x9 x10 x11 x12 x13 x14 x15 y0 y1 y2 y3 y4 y5 y6 y7 y8 y9 y10 y11 y12 y13 y14 y15 :
  x0 = y0 -> x1 = y1 -> x2 = y2 -> x3 = y3 -> x4 = y4 -> x5 = y5 -> x6 = y6 -> x7 = y7 -> x8 = y8 -> x9 = y9 -> x10 = y10 -> x11 = y11 -> x12 = y12 -> x13 = y13 -> x14 = y14 -> x15 = y15 ->
  M4 x0 x1 x2 x3 x4 x5 x6 x7 x8 x9 x10 x11 x12 x13 x14 x15 = M4 y0 y1 y2 y3 y4 y5 y6 y7 y8 y9 y10 y11 y12 y13 y14 y15.
Proof. intros; subst; reflexivity. Qed.
Ltac m4ring := first [apply M4_eq16 | apply V4_eq]; ring.

Lemma mul4_assoc a b c : mul4 (mul4 a b) c = mul4 a (mul4 b c).
Proof. destruct a, b, c. m4unfold. m4ring. Qed.
Lemma mul4_id_l a : mul4 id4 a = a.
Proof. destruct a. m4unfold. m4ring. Qed.
Lemma mul4_id_r a : mul4 a id4 = a.
Proof. destruct a. m4unfold. m4ring. Qed.
Lemma mulv4_mul a b v : mulv4 (mul4 a b) v = mulv4 a (mulv4 b v).
Proof. destruct a, b, v. m4unfold. m4ring. Qed.
Lemma affine4_eq m : row4 m 3 = V4 0 0 0 1 -> m = affine4 (lin4 m) (tra4 m).
Proof. destruct m. cbn. intros H. injection H as -> -> -> ->. reflexivity. Qed.
Lemma affine4_mul l t l' t' : mul4 (affine4 l t) (affine4 l' t') = affine4 (mul3 l l') (add3 (mulv3 l t') t).
Proof. destruct l, t, l', t'. m4unfold. m4ring. Qed.
Lemma affine4_id : affine4 id3 zero3 = id4.
Proof. reflexivity. Qed.
Lemma affine4_inj l t l' t' : affine4 l t = affine4 l' t' -> l = l' /\ t = t'.
Proof. destruct l, t, l', t'. unfold affine4; cbn. intros H. injection H as -> -> -> -> -> -> -> -> -> -> -> ->. split; reflexivity. Qed.

Lemma det4_affine l t : det4 (affine4 l t) = det3 l.
Proof. destruct l, t. m4unfold. ring. Qed.
Lemma adjugate3_l m : mul3 (adjugate3 m) m = scale_m3 (det3 m) id3.
Proof. unfold adjugate3, scale_m3. qring. Qed.
Lemma adjugate3_r m : mul3 m (adjugate3 m) = scale_m3 (det3 m) id3.
Proof. unfold adjugate3, scale_m3. qring. Qed.
Lemma scale_m3_l k a b : mul3 (scale_m3 k a) b = scale_m3 k (mul3 a b).
Proof. unfold scale_m3. qring. Qed.
Lemma scale_m3_r k a b : mul3 a (scale_m3 k b) = scale_m3 k (mul3 a b).
Proof. unfold scale_m3. qring. Qed.
Lemma scale_m3_scale j k a : scale_m3 j (scale_m3 k a) = scale_m3 (j * k) a.
Proof. unfold scale_m3. qring. Qed.
Lemma scale_m3_1 a : scale_m3 1 a = a.
Proof. unfold scale_m3. qring. Qed.

Lemma inverse3_some m n : inverse3 m = Some n -> mul3 n m = id3 /\ mul3 m n = id3 /\ det3 m <> 0.
Proof.
  unfold inverse3. destruct Req_EM_T as [E | E]; [discriminate |]. intros H. injection H as <-.
  rewrite scale_m3_l, scale_m3_r, adjugate3_l, adjugate3_r, scale_m3_scale.
  replace (/ det3 m * det3 m) with 1 by (field; assumption). rewrite scale_m3_1. auto.
Qed.
Lemma inverse3_none m : inverse3 m = None <-> det3 m = 0.
Proof. unfold inverse3. destruct Req_EM_T; split; intros; try assumption; try reflexivity; try discriminate; contradiction. Qed.
Lemma inverse4_affine l t : inverse4 (affine4 l t) =
  match inverse3 l with Some n => Some (affine4 n (opp3 (mulv3 n t))) | None => None end.
Proof.
  unfold inverse4, inverse3. rewrite det4_affine. destruct Req_EM_T as [E | E]; [reflexivity |].
  f_equal. assert (U : / det3 l * det3 l = 1) by (field; exact E). revert E U. generalize (/ det3 l) as k. intros k E U.
  assert (U33 : k * cofactor4 (affine4 l t) 3 3 = 1).
  { rewrite <- U. destruct l, t. m4unfold. ring. }
  apply M4_eq; unfold row4; apply V4_eq; cbn [a00 a01 a02 a03 a10 a11 a12 a13 a20 a21 a22 a23 a30 a31 a32 a33];
    [.. | exact U33]; destruct l, t; m4unfold; ring.
Qed.

(** *** The maps *)
Definition amap (l : m3) (d : v3) (p : v3) : v3 := add3 (mulv3 l p) d.
Lemma apply_affine ty l d r : maps_points3 (mkT3 ty (Some (affine4 l d)) r) (amap l d)
  /\ maps_vectors3 (mkT3 ty (Some (affine4 l d)) r) (mulv3 l).
Proof.
  split; intros p; unfold t3_applyTo_point, t3_applyTo_vector; cbn [t3_matrix needd bind]; destruct l, d, p;
    unfold amap, head3; m4unfold; [apply (f_equal (fun w => Ok (Some w))) | apply (f_equal Some)]; apply V3_eq; ring.
Qed.
Lemma amap_sub l d p q : sub3 (amap l d p) (amap l d q) = mulv3 l (sub3 p q).
Proof. unfold amap. qring. Qed.
Lemma amap_mul l d l' d' p : amap (mul3 l l') (add3 (mulv3 l d') d) p = amap l d (amap l' d' p).
Proof. unfold amap. qring. Qed.
Lemma amap_inv l d n p : mul3 n l = id3 -> amap n (opp3 (mulv3 n d)) (amap l d p) = p.
Proof.
  intros H. rewrite <- amap_mul, H. replace (add3 (mulv3 n d) (opp3 (mulv3 n d))) with zero3 by qring.
  unfold amap. rewrite mulv3_id. qring.
Qed.
Lemma amap_inv_r l d n p : mul3 l n = id3 -> amap l d (amap n (opp3 (mulv3 n d)) p) = p.
Proof.
  intros H. rewrite <- amap_mul, H. replace (add3 (mulv3 l (opp3 (mulv3 n d))) d) with (sub3 d (mulv3 (mul3 l n) d)) by (rewrite mulv3_mul; qring).
  rewrite H, mulv3_id. unfold amap. rewrite mulv3_id. qring.
Qed.

(** Shape of the transformations that can be made. *)
Definition shaped (t : t3_transf) : Prop :=
  exists ty l d r, t = mkT3 ty (Some (affine4 l d)) r /\ ty <> TUndefined.
Lemma isDefined_type ty m r : ty <> TUndefined -> t3_isDefined (mkT3 ty m r) = true.
Proof. destruct ty; intros H; try reflexivity. contradiction. Qed.
Lemma composition_defined a b : a <> TUndefined -> b <> TUndefined -> type_composition a b <> TUndefined.
Proof. destruct a, b; cbn; intros; try contradiction; discriminate. Qed.
Lemma mul_shaped ty l d r ty' l' d' r' : ty <> TUndefined -> ty' <> TUndefined ->
  t3_mul (mkT3 ty (Some (affine4 l d)) r) (mkT3 ty' (Some (affine4 l' d')) r')
  = Ok (mkT3 (type_composition ty ty') (Some (affine4 (mul3 l l') (add3 (mulv3 l d') d))) (r && r')).
Proof. intros H H'. unfold t3_mul. rewrite !isDefined_type by assumption. cbn. rewrite affine4_mul. reflexivity. Qed.
Lemma inverse_shaped ty l d r : ty <> TUndefined ->
  t3_getInverse (mkT3 ty (Some (affine4 l d)) r) =
  match inverse3 l with Some n => Ok (mkT3 ty (Some (affine4 n (opp3 (mulv3 n d)))) r) | None => UB end.
Proof.
  intros H. unfold t3_getInverse, t3_defined. rewrite isDefined_type by assumption. cbn [t3_matrix needd bind].
  rewrite inverse4_affine. destruct inverse3; reflexivity.
Qed.
Lemma translation_eq v : t3_Translation (Some v) = Ok (mkT3 TTranslation (Some (affine4 id3 v)) true).
Proof. reflexivity. Qed.
Lemma around_eq eps c r m : rm_of_rotvec eps r = Ok m -> rv_isDefined r = true ->
  t3_RotationAround eps (Some c) r = Ok (mkT3 TAffine (Some (affine4 (transpose3 m) (sub3 c (mulv3 (transpose3 m) c)))) true).
Proof.
  intros E D. unfold t3_RotationAround. cbn [needd bind]. rewrite !translation_eq. unfold t3_Rotation_rv. rewrite D, E.
  cbn [bind negb]. unfold with_block. rewrite mul_shaped by discriminate. cbn [bind]. rewrite mul_shaped by discriminate.
  cbn [type_composition andb]. rewrite mul3_id_l, mul3_id_r, mulv3_id. do 3 f_equal. f_equal. qring.
Qed.
Lemma made_shaped eps prec okr (ok4 : m4 -> Prop) t : (forall m, ok4 m -> exact_last_row m) -> made3 eps prec okr ok4 t -> shaped t.
Proof.
  intros Hok H. induction H as [| m t Hm E | v t E | r f t Hr E | m t Hm E | p r f t Hr E | s t u Hs IHs Ht IHt E | s t Hs IHs E].
  - exists TIdentity, id3, zero3, true. split; [reflexivity | discriminate].
  - unfold t3_Transformation, t3_TypeOfMatrix in E. destruct isIdentity4; [| discriminate]. cbn [bind] in E. injection E as <-.
    rewrite (affine4_eq m (Hok m Hm)) at 1.
    exists TIdentity, (lin4 m), (tra4 m), (t3_IsRigid prec (Some m)). split; [reflexivity | discriminate].
  - destruct v as [v |]; [| discriminate]. rewrite translation_eq in E. injection E as <-.
    exists TTranslation, id3, v, true. split; [reflexivity | discriminate].
  - unfold t3_Rotation_rv in E. destruct rv_isDefined; [| discriminate]. cbn [negb] in E.
    destruct rm_of_rotvec as [m | |]; try discriminate. injection E as <-.
    exists TRotation, (transpose3 m), zero3, true. split; [reflexivity | discriminate].
  - cbn in E. injection E as <-. exists TRotation, (transpose3 m), zero3, true. split; [reflexivity | discriminate].
  - destruct p as [c |]; [| discriminate]. destruct (rv_isDefined r) eqn:D.
    + destruct (rm_of_rotvec eps r) as [m | |] eqn:M.
      * rewrite (around_eq eps c r m M D) in E. injection E as <-. do 4 eexists. split; [reflexivity | discriminate].
      * unfold t3_RotationAround in E. cbn [needd bind] in E. rewrite translation_eq in E. cbn [bind] in E.
        unfold t3_Rotation_rv in E. rewrite D, M in E. discriminate.
      * unfold t3_RotationAround in E. cbn [needd bind] in E. rewrite translation_eq in E. cbn [bind] in E.
        unfold t3_Rotation_rv in E. rewrite D, M in E. discriminate.
    + unfold t3_RotationAround in E. cbn [needd bind] in E. rewrite translation_eq in E. cbn [bind] in E.
      unfold t3_Rotation_rv in E. rewrite D in E. discriminate.
  - destruct IHs as (ty & l & d & r & -> & N), IHt as (ty' & l' & d' & r' & -> & N').
    rewrite mul_shaped in E by assumption. injection E as <-. do 4 eexists. split; [reflexivity |]. apply composition_defined; assumption.
  - destruct IHs as (ty & l & d & r & -> & N). rewrite inverse_shaped in E by assumption.
    destruct inverse3 as [n |]; [| discriminate]. injection E as <-. do 4 eexists. split; [reflexivity | exact N].
Qed.
Lemma affine3_shaped eps prec t : affine3 eps prec t -> shaped t.
Proof. apply made_shaped. auto. Qed.

(** *** C43 *)
Lemma c43_action_3d_partial eps prec s t : affine3 eps prec s -> affine3 eps prec t ->
  exists u, t3_mul s t = Ok u
    /\ (forall p q, t3_applyTo_point t (Some p) = Ok (Some q) -> t3_applyTo_point u (Some p) = t3_applyTo_point s (Some q))
    /\ (forall v w, t3_applyTo_vector t (Some v) = Some w -> t3_applyTo_vector u (Some v) = t3_applyTo_vector s (Some w))
    /\ (forall v w, t3_mulv t (Some v) = Ok w -> t3_mulv u (Some v) = t3_mulv s (Some w))
    /\ (forall p, exists q, t3_applyTo_point t (Some p) = Ok (Some q))
    /\ (forall v, exists w, t3_applyTo_vector t (Some v) = Some w)
    /\ (forall v, exists w, t3_mulv t (Some v) = Ok w).
Proof.
  intros Hs Ht. destruct (affine3_shaped _ _ _ Hs) as (ty & l & d & r & -> & N), (affine3_shaped _ _ _ Ht) as (ty' & l' & d' & r' & -> & N').
  eexists. split; [apply mul_shaped; assumption |].
  destruct (apply_affine ty l d r) as [A1 A2], (apply_affine ty' l' d' r') as [B1 B2].
  destruct (apply_affine (type_composition ty ty') (mul3 l l') (add3 (mulv3 l d') d) (r && r')) as [C1 C2].
  assert (M : forall ty l d r v, ty <> TUndefined -> t3_mulv (mkT3 ty (Some (affine4 l d)) r) (Some v) = Ok (mulv4 (affine4 l d) v)).
  { intros. unfold t3_mulv, t3_defined. cbn [needd bind]. rewrite isDefined_type by assumption. reflexivity. }
  repeat split.
  - intros p q Q. rewrite B1 in Q. injection Q as <-. rewrite C1, A1, amap_mul. reflexivity.
  - intros v w Q. rewrite B2 in Q. injection Q as <-. rewrite C2, A2, mulv3_mul. reflexivity.
  - intros v w Q. rewrite M in Q by assumption. injection Q as <-. rewrite !M by (try apply composition_defined; assumption).
    rewrite <- affine4_mul, mulv4_mul. reflexivity.
  - intros p. eexists. apply B1.
  - intros v. eexists. apply B2.
  - intros v. eexists. apply M. assumption.
Qed.
Lemma type_composition_assoc a b c : type_composition (type_composition a b) c = type_composition a (type_composition b c).
Proof. destruct a, b, c; reflexivity. Qed.
Lemma c43_monoid_3d eps prec s t u : affine3 eps prec s -> affine3 eps prec t -> affine3 eps prec u ->
  (let! st := t3_mul s t in t3_mul st u) = (let! tu := t3_mul t u in t3_mul s tu)
  /\ t3_mul t3_Identity s = Ok s /\ t3_mul s t3_Identity = Ok s.
Proof.
  intros Hs Ht Hu. destruct (affine3_shaped _ _ _ Hs) as (ty & l & d & r & -> & N), (affine3_shaped _ _ _ Ht) as (ty' & l' & d' & r' & -> & N'),
    (affine3_shaped _ _ _ Hu) as (ty2 & l2 & d2 & r2 & -> & N2).
  change t3_Identity with (mkT3 TIdentity (Some (affine4 id3 zero3)) true).
  rewrite !mul_shaped by (assumption || discriminate). cbn [bind]. rewrite !mul_shaped by (try apply composition_defined; assumption).
  split; [| split].
  - rewrite type_composition_assoc, mul3_assoc, andb_assoc. do 3 f_equal. f_equal. qring.
  - replace (type_composition TIdentity ty) with ty by (destruct ty; reflexivity). rewrite mul3_id_l, mulv3_id. do 3 f_equal. f_equal. qring.
  - replace (type_composition ty TIdentity) with ty by (destruct ty; reflexivity). rewrite mul3_id_r, andb_true_r. do 3 f_equal. f_equal. qring.
Qed.
Lemma c43_undefined_3d s t : t3_isDefined s = false \/ t3_isDefined t = false -> t3_mul s t = Err EUndefined.
Proof. unfold t3_mul. intros [-> | ->]; destruct t3_isDefined; reflexivity. Qed.
(** The matrix constructor takes near-identity matrices whose last row is not exactly 0 0 0 1. *)
Lemma c43_matrix_refuted prec : 0 < prec -> exists m t u p q,
  t3_Transformation prec (Some m) = Ok t /\ t3_mul t t = Ok u
  /\ t3_applyTo_point t (Some p) = Ok (Some q) /\ t3_applyTo_point u (Some p) <> t3_applyTo_point t (Some q).
Proof.
  intros Hp. exists (M4 1 0 0 prec 0 1 0 0 0 0 1 0 prec 0 0 1).
  assert (I : isIdentity4 prec (M4 1 0 0 prec 0 1 0 0 0 0 1 0 prec 0 0 1) = true).
  { assert (A : approx_one prec 1 = true).
    { unfold approx_one. apply Rleb_t. replace (1 - 1) with 0 by ring. rewrite Rabs_R0, Rabs_R1, Rmin_left by lra. lra. }
    assert (B : much_smaller prec 0 = true) by (apply Rleb_t; rewrite Rabs_R0; lra).
    assert (C : much_smaller prec prec = true) by (apply Rleb_t; rewrite Rabs_pos_eq; lra).
    unfold isIdentity4, isIdentity3. cbn. rewrite A, B, C. reflexivity. }
  do 2 eexists. exists (V3 1 0 0). eexists. unfold t3_Transformation, t3_TypeOfMatrix. rewrite I. cbn [bind].
  split; [reflexivity |]. split; [reflexivity |]. split; [reflexivity |].
  unfold t3_applyTo_point. cbn [needd bind t3_matrix]. intros H.
  apply (f_equal (fun r => match r with Ok (Some w) => vx w | _ => 0 end)) in H. revert H. unfold head3. m4unfold.
  intros H. assert (prec * prec = 0) by lra. nra.
Qed.

(** *** C44 *)
Lemma c44_inverse_3d eps prec t u : affine3 eps prec t -> t3_getInverse t = Ok u ->
  affine3 eps prec u /\ t3_type u = t3_type t
  /\ (forall p q, t3_applyTo_point t (Some p) = Ok (Some q) -> t3_applyTo_point u (Some q) = Ok (Some p))
  /\ (forall p q, t3_applyTo_point u (Some p) = Ok (Some q) -> t3_applyTo_point t (Some q) = Ok (Some p))
  /\ (forall v w, t3_applyTo_vector t (Some v) = Some w -> t3_applyTo_vector u (Some w) = Some v)
  /\ (forall v w, t3_applyTo_vector u (Some v) = Some w -> t3_applyTo_vector t (Some w) = Some v).
Proof.
  intros Ht E. split; [eapply made3_inverse; eassumption |].
  destruct (affine3_shaped _ _ _ Ht) as (ty & l & d & r & -> & N). rewrite inverse_shaped in E by assumption.
  destruct (inverse3 l) as [n |] eqn:I; [| discriminate]. injection E as <-. destruct (inverse3_some _ _ I) as (L & R & _).
  destruct (apply_affine ty l d r) as [A1 A2], (apply_affine ty n (opp3 (mulv3 n d)) r) as [B1 B2].
  repeat split.
  - intros p q Q. rewrite A1 in Q. injection Q as <-. rewrite B1, amap_inv by assumption. reflexivity.
  - intros p q Q. rewrite B1 in Q. injection Q as <-. rewrite A1, amap_inv_r by assumption. reflexivity.
  - intros p q Q. rewrite A2 in Q. injection Q as <-. rewrite B2, <- mulv3_mul, L, mulv3_id. reflexivity.
  - intros p q Q. rewrite B2 in Q. injection Q as <-. rewrite A2, <- mulv3_mul, R, mulv3_id. reflexivity.
Qed.
