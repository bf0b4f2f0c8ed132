(** Transformations of the linear objects (C85). *)

From Coq Require Import List Bool Reals Lra Lia Psatz.
From Verif Require Import Result DOrder Vec VecProofs Mat3 Mat4 AngleModel AngleProofs RotModel RotSpec RotProofs RotProofs2 TransfModel TransfSpec
  TransfProofs TransfProofs2 Geo3Types Geo3Model Geo3Spec Geo3Proofs Geo3Proofs2.
Import ListNotations.
Local Open Scope R_scope.

Lemma amap_along l d o t v : amap l d (along o t v) = along (amap l d o) t (mulv3 l v).
Proof. unfold amap, along. qring. Qed.
Lemma apply_defined ty l d r : ty <> TUndefined -> t3_isDefined (mkT3 ty (Some (affine4 l d)) r) = true.
Proof. intros N. unfold t3_isDefined. cbn. destruct ty; try reflexivity. congruence. Qed.
Lemma pt_apply_affine ty l d r p : ty <> TUndefined -> pt_apply (mkT3 ty (Some (affine4 l d)) r) (Some p) = Ok (Some (amap l d p)).
Proof. intros N. unfold pt_apply. rewrite apply_defined by assumption. cbn [negb needd bind]. apply apply_affine. Qed.
Lemma image_line l d o v : image_of (amap l d) (on_line o v) (on_line (amap l d o) (mulv3 l v)).
Proof.
  intros q. split.
  - intros (t & ->). exists (along o t v). split; [exists t; reflexivity | symmetry; apply amap_along].
  - intros (p & (t & ->) & ->). exists t. apply amap_along.
Qed.
Lemma image_ray l d o v : image_of (amap l d) (on_ray o v) (on_ray (amap l d o) (mulv3 l v)).
Proof.
  intros q. split.
  - intros (t & Ht & ->). exists (along o t v). split; [exists t; split; [exact Ht | reflexivity] | symmetry; apply amap_along].
  - intros (p & (t & Ht & ->) & ->). exists t. split; [exact Ht |]. apply amap_along.
Qed.
Lemma image_segment l d a b : image_of (amap l d) (on_segment a b) (on_segment (amap l d a) (amap l d b)).
Proof.
  intros q. unfold on_segment. rewrite amap_sub. split.
  - intros (t & Ht & ->). exists (along a t (sub3 b a)). split; [exists t; split; [exact Ht | reflexivity] | symmetry; apply amap_along].
  - intros (p & (t & Ht & ->) & ->). exists t. split; [exact Ht |]. apply amap_along.
Qed.
Lemma image_plane l d q n : is_rotation l -> image_of (amap l d) (on_plane q n) (on_plane (amap l d q) (mulv3 l n)).
Proof.
  intros R p. unfold on_plane. split.
  - intros H. exists (amap (transpose3 l) (opp3 (mulv3 (transpose3 l) d)) p).
    assert (E : p = amap l d (amap (transpose3 l) (opp3 (mulv3 (transpose3 l) d)) p)) by (symmetry; apply amap_inv_r, rotation_right, R).
    split; [| exact E]. rewrite E, amap_sub, rotation_dot in H by assumption. exact H.
  - intros (x & H & ->). rewrite amap_sub, rotation_dot by assumption. exact H.
Qed.
Lemma rotation_unit l v : is_rotation l -> sqnorm3 (mulv3 l v) = sqnorm3 v.
Proof. intros R. apply (rotation_dot l v v R). Qed.

(** Any affine transformation. *)
Lemma c85_affine eps prec t : affine3 eps prec t -> exists f, maps_points3 t f
  /\ (forall p, pt_apply t (Some p) = Ok (Some (f p)))
  /\ (forall s, s <> [] -> exists s', ps_apply t s = Ok s' /\ NoDup s' /\ forall q, In q s' <-> exists p, In p s /\ q = f p)
  /\ (forall a b, s_apply t (mkSeg (Some a) (Some b)) = Ok (mkSeg (Some (f a)) (Some (f b))) /\ image_of f (on_segment a b) (on_segment (f a) (f b)))
  /\ (forall l, l <> [] -> ls_apply t (map Some l) = Ok (map Some (map f l)))
  /\ (forall o d, exists d', l_apply t (mkLine (Some o) (Some d)) = Ok (mkLine (Some (f o)) (Some d'))
        /\ image_of f (on_line o d) (on_line (f o) d'))
  /\ (forall o d, exists d', r_apply t (mkRay (Some o) (Some d)) = Ok (mkRay (Some (f o)) (Some d'))
        /\ image_of f (on_ray o d) (on_ray (f o) d')).
Proof.
  intros H. destruct (affine3_shaped _ _ _ H) as (ty & l & d & r & -> & N). pose proof (proj1 (apply_affine ty l d r)) as A.
  pose proof (proj2 (apply_affine ty l d r)) as V. exists (amap l d). split; [exact A |]. split; [intros p; apply pt_apply_affine, N |]. split; [| split; [| split; [| split]]].
  - intros s Hs. unfold ps_apply. rewrite apply_defined by assumption. replace (ps_isDefined s) with true by (destruct s; [congruence | reflexivity]). cbn [negb].
    assert (E : mapM (fun p => t3_applyTo_point (mkT3 ty (Some (affine4 l d)) r) (Some p)) s = Ok (map Some (map (amap l d) s))).
    { clear Hs. induction s as [| p s IH]; [reflexivity |]. cbn [mapM map]. rewrite A. cbn [bind]. rewrite IH. reflexivity. }
    rewrite E. cbn [bind]. destruct (c51_construct (map (amap l d) s)) as (s' & S & D & I). exists s'. split; [exact S |]. split; [exact D |].
    intros q. rewrite I, in_map_iff. split; intros (p & X & Y); exists p; split; congruence.
  - intros a b. split; [| apply image_segment]. unfold s_apply. rewrite apply_defined by assumption. cbn [negb s_data s_first s_second bind].
    rewrite !pt_apply_affine by assumption. reflexivity.
  - intros s Hs. unfold ls_apply. rewrite apply_defined by assumption. replace (ls_isDefined (map Some s)) with true by (destruct s; [congruence | reflexivity]). cbn [negb].
    clear Hs. induction s as [| p s IH]; [reflexivity |]. cbn [mapM map]. rewrite pt_apply_affine by assumption. cbn [bind]. rewrite IH. reflexivity.
  - intros o v. exists (mulv3 l v). split; [| apply image_line]. unfold l_apply. rewrite apply_defined by assumption. cbn [negb l_data l_origin l_direction bind].
    rewrite pt_apply_affine, V by assumption. reflexivity.
  - intros o v. exists (mulv3 l v). split; [| apply image_ray]. unfold r_apply. rewrite apply_defined by assumption. cbn [negb r_data r_origin r_direction bind].
    rewrite pt_apply_affine, V by assumption. reflexivity.
Qed.
(** Proper rigid transformations: the invariants are kept, and planes are mapped to planes. *)
Lemma c85_rigid eps prec t : 0 < eps -> 0 < prec -> proper3 eps prec t -> exists f, maps_points3 t f
  /\ (forall l o d, good_line l o d -> exists l' d', l_apply t l = Ok l' /\ good_line l' (f o) d' /\ image_of f (on_line o d) (on_line (f o) d'))
  /\ (forall r o d, good_ray r o d -> exists r' d', r_apply t r = Ok r' /\ good_ray r' (f o) d' /\ image_of f (on_ray o d) (on_ray (f o) d'))
  /\ (forall p q n, good_plane p q n -> exists p' n', pl_apply t p = Ok p' /\ good_plane p' (f q) n' /\ image_of f (on_plane q n) (on_plane (f q) n')).
Proof.
  intros He Hp H. destruct (proper_shape eps prec t He Hp H) as (ty & l & d & -> & R & N0).
  assert (N : ty <> TUndefined) by (intros ->; exact N0). clear N0. pose proof (proj1 (apply_affine ty l d true)) as A.
  pose proof (proj2 (apply_affine ty l d true)) as V. exists (amap l d). split; [exact A |]. split; [| split].
  - intros x o v [-> U]. exists (mkLine (Some (amap l d o)) (Some (mulv3 l v))), (mulv3 l v). split; [| split; [split; [reflexivity | rewrite rotation_unit; assumption] | apply image_line]].
    unfold l_apply. rewrite apply_defined by assumption. cbn [negb l_data l_origin l_direction bind]. rewrite pt_apply_affine, V by assumption. reflexivity.
  - intros x o v [-> U]. exists (mkRay (Some (amap l d o)) (Some (mulv3 l v))), (mulv3 l v). split; [| split; [split; [reflexivity | rewrite rotation_unit; assumption] | apply image_ray]].
    unfold r_apply. rewrite apply_defined by assumption. cbn [negb r_data r_origin r_direction bind]. rewrite pt_apply_affine, V by assumption. reflexivity.
  - intros x q n [-> U]. exists (mkPlane (Some (amap l d q)) (Some (mulv3 l n))), (mulv3 l n). split; [| split; [split; [reflexivity | rewrite rotation_unit; assumption] | apply image_plane, R]].
    unfold pl_apply. rewrite apply_defined by assumption. cbn [negb pl_data pl_point pl_normal bind]. rewrite pt_apply_affine, V by assumption. reflexivity.
Qed.
(** A shear, close enough to the identity to be accepted, does not keep normals normal. *)
Lemma c85_plane_refuted eps prec : 0 < prec -> exists t q n q' n' p p', affine3 eps prec t
  /\ pl_apply t (mkPlane (Some q) (Some n)) = Ok (mkPlane (Some q') (Some n')) /\ sqnorm3 n = 1
  /\ on_plane q n p /\ pt_apply t (Some p) = Ok (Some p') /\ ~ on_plane q' n' p'.
Proof.
  intros Hp. set (l := M3 1 prec 0 0 1 0 0 0 1).
  assert (I : isIdentity4 prec (affine4 l zero3) = true).
  { unfold isIdentity4, isIdentity3, approx_one, much_smaller, affine4, lin4, l. cbn. replace (1 - 1) with 0 by ring.
    rewrite Rabs_R0, Rabs_R1, (Rabs_right prec) by lra. rewrite Rmin_left by lra. rewrite !Rleb_t by lra. reflexivity. }
  exists (mkT3 TIdentity (Some (affine4 l zero3)) (t3_IsRigid prec (Some (affine4 l zero3)))), zero3, (V3 1 0 0), (amap l zero3 zero3), (mulv3 l (V3 1 0 0)), (V3 0 1 0), (amap l zero3 (V3 0 1 0)).
  split; [| split; [| split; [| split; [| split]]]].
  - apply (made3_matrix _ _ _ _ (affine4 l zero3)); [reflexivity |]. unfold t3_Transformation, t3_TypeOfMatrix. rewrite I. reflexivity.
  - unfold pl_apply. rewrite apply_defined by discriminate. cbn [negb pl_data pl_point pl_normal bind].
    rewrite pt_apply_affine by discriminate. cbn [bind]. rewrite (proj2 (apply_affine _ _ _ _)). reflexivity.
  - v3unfold. ring.
  - unfold on_plane. v3unfold. ring.
  - apply pt_apply_affine. discriminate.
  - unfold on_plane. rewrite amap_sub. unfold l. qunfold. lra.
Qed.
Lemma c85_errors l r s pl ps ls p t : 
  pt_apply t3_Undefined p = Err EUndefined /\ l_apply t3_Undefined l = Err EUndefined /\ r_apply t3_Undefined r = Err EUndefined
  /\ s_apply t3_Undefined s = Err EUndefined /\ pl_apply t3_Undefined pl = Err EUndefined /\ ps_apply t3_Undefined ps = Err EUndefined
  /\ ls_apply t3_Undefined ls = Err EUndefined /\ pt_apply t None = Err EUndefined /\ ps_apply t [] = Err EUndefined /\ ls_apply t [] = Err EUndefined.
Proof. unfold pt_apply, ps_apply, ls_apply. destruct (t3_isDefined t); repeat split. Qed.
