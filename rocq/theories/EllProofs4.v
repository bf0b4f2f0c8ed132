(** Proofs about equality and transformation of ellipsoids (C90). *)

From Coq Require Import List Bool Reals Lra Lia Psatz.
From Verif Require Import Result DOrder Vec VecProofs Mat3 Mat4 AngleModel AngleProofs RotModel RotSpec RotProofs RotProofs2 RotProofs10 TransfModel TransfSpec
  TransfProofs TransfProofs2 Geo3Types Geo3Model Geo3Spec Geo3Proofs Geo3Proofs2 Geo3Proofs3 GteModel GteSpec ChordProofs SphereSpec SphereProofs GteProofs
  EllModel EllSpec EllProofs EllProofs2.
Import ListNotations.
Local Open Scope R_scope.

(** *** Equality *)
Lemma eq_when eps e f c u k c' u' k' : 0 < eps -> good_ellipsoid eps e c u k -> good_ellipsoid eps f c' u' k' ->
  exists m m', e_getMatrix eps e = Ok m /\ e_getMatrix eps f = Ok m' /\ transpose3 m = m /\ transpose3 m' = m'
  /\ (forall v w, dot3 v (mulv3 m w) = ell_bilinear u k v w) /\ (forall v w, dot3 v (mulv3 m' w) = ell_bilinear u' k' v w)
  /\ exists b, e_eq eps e f = Ok b /\ (b = true <-> c = c' /\ frobenius (sub_m3 m m') <= eps).
Proof.
  intros He G G'. destruct (getMatrix_eq eps e c u k He G) as (m & Em & Sm & Fm). destruct (getMatrix_eq eps f c' u' k' He G') as (m' & Em' & Sm' & Fm').
  exists m, m'. do 6 (split; [assumption |]).
  destruct (good_axes eps e c u k He G) as (q & a & b & d & -> & -> & U & P & ->). destruct (good_axes eps f c' u' k' He G') as (q' & a' & b' & d' & -> & -> & U' & P' & ->).
  unfold e_eq. cbn [e_data e_center e_a e_b e_c e_q]. rewrite Em, Em'. cbn [bind].
  destruct (v3_eqb c c') eqn:Ec; [| exists false; split; [reflexivity |]; split; [discriminate |]; intros [X _]; apply eqb_true in X; congruence].
  apply eqb_true in Ec. subst c'.
  destruct (Reqb a a' && Reqb b b' && Reqb d d' && q_eq (Some q) (Some q')) eqn:E.
  - exists true. split; [reflexivity |]. split; [| tauto]. intros _. split; [reflexivity |].
    rewrite !andb_true_iff, !Reqb_iff in E. destruct E as [[[-> ->] ->] E]. apply q_eq_iff in E.
    assert (Q : forall v, rot (qconj q) v = rot (qconj q') v).
    { destruct E as [-> | ->]; [reflexivity |]. intros v. replace (qconj (negq q')) with (negq (qconj q')) by qring. apply rot_neg. }
    assert (M : m = m').
    { revert Em Em'. unfold e_getMatrix, e_getFirstAxis, e_getSecondAxis, e_getThirdAxis, e_axis. cbn [e_data e_center e_a e_b e_c e_q bind conjugate needd].
      rewrite !q_rotate_unit by (try apply unit_conj; assumption). rewrite !Q. intros -> X. apply ok_inj in X. exact X. }
    subst m'. replace (sub_m3 m m) with (M3 0 0 0 0 0 0 0 0 0) by (unfold sub_m3; destruct m; qunfold; apply M3_eq; ring).
    unfold frobenius. qunfold. replace (_ + _) with 0 by ring. rewrite sqrt_0. lra.
  - exists (m3_isNear m m' eps). split; [reflexivity |]. unfold m3_isNear. rewrite Rleb_iff. tauto.
Qed.

(** Frobenius norm and quadratic form. *)
Lemma frobenius_sq m : frobenius m * frobenius m = sqnorm3 (row3 m 0) + sqnorm3 (row3 m 1) + sqnorm3 (row3 m 2).
Proof. unfold frobenius. apply sqrt_sqrt. pose proof (sqnorm3_nonneg (row3 m 0)). pose proof (sqnorm3_nonneg (row3 m 1)). pose proof (sqnorm3_nonneg (row3 m 2)). lra. Qed.
Lemma frobenius_nonneg m : 0 <= frobenius m. Proof. apply sqrt_pos. Qed.
Lemma cauchy_sq a b : dot3 a b * dot3 a b <= sqnorm3 a * sqnorm3 b.
Proof.
  pose proof (cauchy3_norm a b) as C. pose proof (norm3_sq a). pose proof (norm3_sq b). pose proof (norm3_nonneg a). pose proof (norm3_nonneg b).
  replace (dot3 a b * dot3 a b) with (Rabs (dot3 a b) * Rabs (dot3 a b)) by (rewrite <- Rabs_mult; apply Rabs_right; apply Rle_ge, VecProofs.sq_nonneg).
  pose proof (Rabs_pos (dot3 a b)). apply Rle_trans with ((norm3 a * norm3 b) * (norm3 a * norm3 b)); [apply Rmult_le_compat; assumption |].
  right. rewrite <- H, <- H0. ring.
Qed.
Lemma frobenius_bound m v : Rabs (dot3 v (mulv3 m v)) <= frobenius m * sqnorm3 v.
Proof.
  assert (S : sqnorm3 (mulv3 m v) <= frobenius m * frobenius m * sqnorm3 v).
  { rewrite frobenius_sq. replace (sqnorm3 (mulv3 m v)) with (dot3 (row3 m 0) v * dot3 (row3 m 0) v + dot3 (row3 m 1) v * dot3 (row3 m 1) v + dot3 (row3 m 2) v * dot3 (row3 m 2) v)
      by (clear; destruct m, v; qunfold; ring).
    pose proof (cauchy_sq (row3 m 0) v). pose proof (cauchy_sq (row3 m 1) v). pose proof (cauchy_sq (row3 m 2) v). lra. }
  assert (N : norm3 (mulv3 m v) <= frobenius m * norm3 v).
  { pose proof (frobenius_nonneg m). pose proof (norm3_nonneg v). pose proof (norm3_nonneg (mulv3 m v)). apply Rsqr_incr_0; [| assumption | nra].
    unfold Rsqr. rewrite norm3_sq. replace (frobenius m * norm3 v * (frobenius m * norm3 v)) with (frobenius m * frobenius m * (norm3 v * norm3 v)) by ring. rewrite norm3_sq. exact S. }
  eapply Rle_trans; [apply cauchy3_norm |]. rewrite <- norm3_sq. pose proof (norm3_nonneg v). nra.
Qed.
Lemma sub_form m m' v : dot3 v (mulv3 (sub_m3 m m') v) = dot3 v (mulv3 m v) - dot3 v (mulv3 m' v).
Proof. unfold sub_m3. qring. Qed.

(** Equal ellipsoids have the same center and forms closer than the tolerance. *)
Lemma c90_equal_sound eps e f c u k c' u' k' : 0 < eps -> good_ellipsoid eps e c u k -> good_ellipsoid eps f c' u' k' ->
  e_eq eps e f = Ok true -> c = c' /\ forall v, Rabs (ellipsoid_form u k v - ellipsoid_form u' k' v) <= eps * sqnorm3 v.
Proof.
  intros He G G' E. destruct (eq_when eps e f c u k c' u' k' He G G') as (m & m' & _ & _ & _ & _ & F & F' & b & Eb & Hb).
  rewrite E in Eb. apply ok_inj in Eb. symmetry in Eb. apply Hb in Eb. destruct Eb as [-> N]. split; [reflexivity |].
  intros v. rewrite <- !bilinear_diag, <- F, <- F', <- sub_form. eapply Rle_trans; [apply frobenius_bound |].
  apply Rmult_le_compat_r; [apply sqnorm3_nonneg | exact N].
Qed.

(** Ellipsoids with the same surface are equal. *)
Lemma form_root u k w : orthonormal u -> positive k -> w <> zero3 -> exists s, 0 < s /\ s * s * ellipsoid_form u k w = 1 /\ forall t, ellipsoid_form u k (scale3 t w) = 1 <-> t = s \/ t = - s.
Proof.
  intros O P N. pose proof (ell_pos u k w O P N) as Fp. set (F := ellipsoid_form u k w) in *.
  assert (I : 0 < / F) by (apply Rinv_0_lt_compat, Fp). pose proof (sqrt_lt_R0 _ I) as S. pose proof (sqrt_sqrt (/ F) ltac:(lra)) as Q.
  set (s := sqrt (/ F)) in *. assert (E : s * s * F = 1) by (rewrite Q; field; lra). exists s. split; [exact S |]. split; [exact E |]. intros t. rewrite form_scale. fold F. split.
  - intros X. assert (Z : (t - s) * (t + s) = 0).
    { apply Rmult_eq_reg_r with F; [| lra]. replace ((t - s) * (t + s) * F) with (t * t * F - s * s * F) by ring. lra. }
    apply Rmult_integral in Z. destruct Z; [left | right]; lra.
  - intros [-> | ->]; lra.
Qed.
Lemma same_center c u k c' u' k' : orthonormal u -> positive k -> orthonormal u' -> positive k' ->
  same_points (on_ellipsoid c u k) (on_ellipsoid c' u' k') -> c = c'.
Proof.
  intros O P O' P' H. destruct (v3_eq_dec c c') as [E | N]; [exact E | exfalso].
  assert (W : sub3 c' c <> zero3) by (intros X; apply N; symmetry; apply sub3_0, X). set (w := sub3 c' c) in *.
  destruct (form_root u k w O P W) as (s & S & _ & Hs). destruct (form_root u' k' w O' P' W) as (s' & S' & _ & Hs').
  assert (X : forall t, on_ellipsoid c u k (add3 c (scale3 t w)) <-> t = s \/ t = - s).
  { intros t. rewrite <- Hs. unfold on_ellipsoid. replace (sub3 (add3 c (scale3 t w)) c) with (scale3 t w); [reflexivity | clearbody w; clear; v3ring]. }
  assert (Y : forall t, on_ellipsoid c' u' k' (add3 c (scale3 t w)) <-> t - 1 = s' \/ t - 1 = - s').
  { intros t. rewrite <- Hs'. unfold on_ellipsoid. replace (sub3 (add3 c (scale3 t w)) c') with (scale3 (t - 1) w); [reflexivity | unfold w; clear; v3ring]. }
  assert (A : s - 1 = s' \/ s - 1 = - s') by (apply Y, H, X; left; reflexivity).
  assert (B : - s - 1 = s' \/ - s - 1 = - s') by (apply Y, H, X; right; reflexivity).
  assert (C : 1 + s' = s \/ 1 + s' = - s) by (apply X, H, Y; left; lra).
  assert (D : 1 - s' = s \/ 1 - s' = - s) by (apply X, H, Y; right; lra).
  lra.
Qed.
Lemma same_form c u k u' k' v : orthonormal u -> positive k -> orthonormal u' -> positive k' ->
  same_points (on_ellipsoid c u k) (on_ellipsoid c u' k') -> ellipsoid_form u k v = ellipsoid_form u' k' v.
Proof.
  intros O P O' P' H. destruct (v3_eq_dec v zero3) as [-> | N].
  - replace zero3 with (scale3 0 zero3) by v3ring. rewrite !form_scale. ring.
  - destruct (form_root u k v O P N) as (s & S & E & Hs). destruct (form_root u' k' v O' P' N) as (s' & S' & E' & Hs').
    assert (X : s = s' \/ s = - s').
    { apply Hs'. specialize (H (add3 c (scale3 s v))). unfold on_ellipsoid in H. replace (sub3 (add3 c (scale3 s v)) c) with (scale3 s v) in H by (clear; v3ring).
      apply H, Hs. left. reflexivity. }
    destruct X as [<- | X]; [| lra]. apply Rmult_eq_reg_l with (s * s); [lra | nra].
Qed.
Lemma sym_form m : transpose3 m = m -> (forall v, dot3 v (mulv3 m v) = 0) -> m = M3 0 0 0 0 0 0 0 0 0.
Proof.
  intros S H. assert (S1 := f_equal m01 S). assert (S2 := f_equal m02 S). assert (S3 := f_equal m12 S). clear S.
  pose proof (H (V3 1 0 0)) as A. pose proof (H (V3 0 1 0)) as B. pose proof (H (V3 0 0 1)) as C.
  pose proof (H (V3 1 1 0)) as D. pose proof (H (V3 1 0 1)) as E. pose proof (H (V3 0 1 1)) as F. clear H.
  destruct m. qunfold. apply M3_eq; lra.
Qed.
Lemma sub_sym m m' : transpose3 m = m -> transpose3 m' = m' -> transpose3 (sub_m3 m m') = sub_m3 m m'.
Proof. intros A B. rewrite <- A, <- B at 2. unfold sub_m3. qring. Qed.
Lemma c90_equal_complete eps e f c u k c' u' k' : 0 < eps -> good_ellipsoid eps e c u k -> good_ellipsoid eps f c' u' k' ->
  same_points (on_ellipsoid c u k) (on_ellipsoid c' u' k') -> e_eq eps e f = Ok true.
Proof.
  intros He G G' H. destruct (c53_axes eps e c u k He G) as (O & _). destruct (c53_axes eps f c' u' k' He G') as (O' & _).
  pose proof (good_positive _ _ _ _ _ G) as P. pose proof (good_positive _ _ _ _ _ G') as P'.
  pose proof (same_center c u k c' u' k' O P O' P' H) as <-.
  destruct (eq_when eps e f c u k c u' k' He G G') as (m & m' & _ & _ & S & S' & F & F' & b & Eb & Hb). rewrite Eb. f_equal. apply Hb. split; [reflexivity |].
  assert (Z : sub_m3 m m' = M3 0 0 0 0 0 0 0 0 0).
  { apply sym_form; [apply sub_sym; assumption |]. intros v. rewrite sub_form, F, F', !bilinear_diag, (same_form c u k u' k' v O P O' P' H). ring. }
  rewrite Z. unfold frobenius. qunfold. replace (_ + _) with 0 by ring. rewrite sqrt_0. lra.
Qed.

(** Large ellipsoids are all equal when they share their center: spheres of radius r and 2 r. *)
Lemma c90_equal_refuted eps : 0 < eps -> exists e f c u k u' k', good_ellipsoid eps e c u k /\ good_ellipsoid eps f c u' k'
  /\ e_eq eps e f = Ok true /\ (forall p, ~ (on_ellipsoid c u k p /\ on_ellipsoid c u' k' p)).
Proof.
  intros He. set (r := 2 + / eps). assert (Ie : 0 < / eps) by (apply Rinv_0_lt_compat, He).
  assert (R : 2 <= r) by (unfold r; lra).
  assert (E0 : qconj q_Unit = q_Unit) by (unfold q_Unit; qunfold; apply Q4_eq; ring).
  assert (U : unit_q q_Unit) by (unfold unit_q, q_Unit; qunfold; ring).
  assert (G : forall s, 0 < s -> good_ellipsoid eps (mkEll (Some zero3) (Some s) (Some s) (Some s) (Some q_Unit)) zero3 unit_axes (s, s, s)).
  { intros s S. pose proof (good_make eps zero3 q_Unit s s s He U) as X. rewrite E0, !rot_unit in X. apply X. split; [lra | split; lra]. }
  assert (F : forall s v, 0 < s -> ellipsoid_form unit_axes (s, s, s) v = sqnorm3 v / (s * s)).
  { intros s v S. unfold ellipsoid_form, unit_axes. v3unfold. field. lra. }
  do 7 eexists. split; [apply (G r); lra |]. split; [apply (G (2 * r)); lra |]. split.
  - destruct (eq_when eps _ _ _ _ _ _ _ _ He (G r ltac:(lra)) (G (2 * r) ltac:(lra))) as (m & m' & Em & Em' & S & S' & B & B' & b & Eb & Hb).
    rewrite Eb. f_equal. apply Hb. split; [reflexivity |].
    assert (Z : sub_m3 (sub_m3 m m') (M3 (3 / (4 * r * r)) 0 0 0 (3 / (4 * r * r)) 0 0 0 (3 / (4 * r * r))) = M3 0 0 0 0 0 0 0 0 0).
    { apply sym_form; [apply sub_sym; [apply sub_sym; assumption | qunfold; reflexivity] |]. intros v. rewrite !sub_form, B, B', !bilinear_diag, !F by lra.
      destruct v. qunfold. field. lra. }
    assert (D : sub_m3 m m' = M3 (3 / (4 * r * r)) 0 0 0 (3 / (4 * r * r)) 0 0 0 (3 / (4 * r * r))).
    { set (x := 3 / (4 * r * r)) in *. destruct (sub_m3 m m') as [x0 x1 x2 x3 x4 x5 x6 x7 x8]. unfold sub_m3 in Z. simpl in Z. injection Z as ? ? ? ? ? ? ? ? ?. apply M3_eq; lra. }
    rewrite D. apply Rle_trans with (/ r).
    + unfold frobenius. qunfold. apply Rsqr_incr_0; [| apply sqrt_pos | left; apply Rinv_0_lt_compat; lra]. rewrite Rsqr_sqrt.
      * unfold Rsqr. assert (Y : 0 < / r <= / 2) by (split; [apply Rinv_0_lt_compat; lra | apply Rinv_le_contravar; lra]).
        replace (3 / (4 * r * r)) with (3 / 4 * (/ r * / r)) by (field; lra). set (y := / r) in *. assert (y * y <= 1 / 4) by nra. assert (0 <= y * y) by nra. set (z := y * y) in *. assert (z * z <= 1 / 4 * z) by nra. lra.
      * set (x := 3 / (4 * r * r)). nra.
    + rewrite <- (Rinv_inv eps). apply Rinv_le_contravar; [exact Ie | unfold r; lra].
  - intros p [A B]. unfold on_ellipsoid in A, B. rewrite F in A, B by lra. assert (A' : sqnorm3 (sub3 p zero3) = r * r).
    { apply Rmult_eq_reg_r with (/ (r * r)); [| apply Rinv_neq_0_compat; nra]. unfold Rdiv in A. rewrite A. field. lra. }
    rewrite A' in B. replace (r * r / (2 * r * (2 * r))) with (1 / 4) in B by (field; lra). lra.
Qed.

(** *** Transformation *)
Lemma transpose_dot m v w : dot3 v (mulv3 (transpose3 m) w) = dot3 (mulv3 m v) w.
Proof. qring. Qed.
Lemma sym_dot m v w : transpose3 m = m -> dot3 v (mulv3 m w) = dot3 (mulv3 m v) w.
Proof. intros S. rewrite <- S at 1. apply transpose_dot. Qed.
Lemma cross_orthonormal a b : sqnorm3 a = 1 -> sqnorm3 b = 1 -> dot3 a b = 0 -> orthonormal (a, b, cross3 a b).
Proof.
  intros A B C. split; [exact A |]. split; [exact B |]. split; [| split; [exact C | split]].
  - replace (sqnorm3 (cross3 a b)) with (sqnorm3 a * sqnorm3 b - dot3 a b * dot3 a b) by (clear; v3ring). rewrite A, B, C. ring.
  - clear. v3ring.
  - clear. v3ring.
Qed.
Lemma third_axis a b c v : orthonormal (a, b, c) -> (dot3 (cross3 a b) v) ^ 2 = (dot3 c v) ^ 2.
Proof.
  intros O. pose proof O as (A & B & C & D & _). pose proof (cross_orthonormal a b A B D) as O'.
  pose proof (parseval a b c v v O) as P. pose proof (parseval a b (cross3 a b) v v O') as P'. simpl. lra.
Qed.
Lemma semi_axis_ok l : 0 < l -> exists s, semi_axis l = Ok s /\ 0 < s /\ forall x, (x / s) ^ 2 = l * (x * x).
Proof.
  intros L. unfold semi_axis, div_. rewrite (proj2 (Reqb_false l 0)) by lra. cbn [bind]. unfold sqrt_.
  assert (I : 0 < 1 / l) by (apply Rdiv_lt_0_compat; lra). destruct Rlt_dec as [X | _]; [lra |]. exists (sqrt (1 / l)). split; [reflexivity |].
  pose proof (sqrt_lt_R0 _ I) as S. split; [exact S |]. intros x. pose proof (sqrt_sqrt (1 / l) ltac:(lra)) as Q. set (s := sqrt (1 / l)) in *.
  assert (E : l * (s * s) = 1) by (rewrite Q; field; lra).
  replace ((x / s) ^ 2) with (x * x * (l * (s * s)) / (s * s)) by (rewrite E; field; lra). field. lra.
Qed.
Lemma diagonal m l0 l1 l2 v0 v1 v2 v : transpose3 m = m -> orthonormal (v0, v1, v2) ->
  mulv3 m v0 = scale3 l0 v0 -> mulv3 m v1 = scale3 l1 v1 -> mulv3 m v2 = scale3 l2 v2 ->
  dot3 v (mulv3 m v) = l0 * (dot3 v0 v * dot3 v0 v) + l1 * (dot3 v1 v * dot3 v1 v) + l2 * (dot3 v2 v * dot3 v2 v).
Proof.
  intros S O E0 E1 E2. rewrite (parseval v0 v1 v2 v (mulv3 m v) O). rewrite !(sym_dot m _ v S), E0, E1, E2.
  assert (K : forall t w, dot3 (scale3 t w) v = t * dot3 w v) by (intros; v3ring). rewrite !K. ring.
Qed.

Lemma onto_det l d g : (forall p, amap l d (g p) = p) -> det3 l <> 0.
Proof.
  intros H Z. set (h v := sub3 (g (add3 d v)) zero3).
  assert (K : forall v, mulv3 l (h v) = v).
  { intros v. unfold h. pose proof (H (add3 d v)) as E. replace (sub3 (g (add3 d v)) zero3) with (g (add3 d v)) by (clear; destruct (g (add3 d v)); apply V3_eq; simpl; ring).
    unfold amap in E. transitivity (sub3 (add3 (mulv3 l (g (add3 d v))) d) d); [clear; generalize (mulv3 l (g (add3 d v))); intros w; v3ring | rewrite E; clear; v3ring]. }
  assert (P : mul3 l (of_cols (h (V3 1 0 0)) (h (V3 0 1 0)) (h (V3 0 0 1))) = id3).
  { transitivity (of_cols (mulv3 l (h (V3 1 0 0))) (mulv3 l (h (V3 0 1 0))) (mulv3 l (h (V3 0 0 1)))); [| rewrite !K; reflexivity].
    generalize (h (V3 1 0 0)) (h (V3 0 1 0)) (h (V3 0 0 1)). clear. intros. qring. }
  apply (f_equal det3) in P. rewrite det3_mul, Z in P. replace (det3 id3) with 1 in P by (clear; qring). lra.
Qed.
Lemma c90_transform eig eps prec t e c u k : 0 < eps -> eps <= 1 -> affine3 eps prec t -> eigen_solver eig -> good_ellipsoid eps e c u k ->
  t3_isIdentity t = Ok false -> (forall f, maps_points3 t f -> exists g, forall p, f (g p) = p) ->
  (e_apply eig eps t e = Err ERuntime /\ exists m, transpose3 m = m /\ eig m = None)
  \/ exists f e' u' k', maps_points3 t f /\ e_apply eig eps t e = Ok e' /\ good_ellipsoid eps e' (f c) u' k'
     /\ image_of f (on_ellipsoid c u k) (on_ellipsoid (f c) u' k').
Proof.
  intros He H1 Ha He' G Hi Inj. destruct (affine3_shaped _ _ _ Ha) as (ty & l & d & r & -> & N). pose proof (proj1 (apply_affine ty l d r)) as A.
  destruct (good_data eps e c u k He G) as [q0 D]. destruct (c53_axes eps e c u k He G) as (O & _). pose proof (good_positive _ _ _ _ _ G) as P.
  destruct (getMatrix_eq eps e c u k He G) as (m & Em & Sm & Fm).
  unfold e_apply. rewrite apply_defined by assumption. cbn [negb]. rewrite D, Hi. destruct k as [[k1 k2] k3]. cbn [bind]. set (k := (k1, k2, k3)) in *.
  rewrite pt_apply_affine by assumption. cbn [bind]. unfold t3_getMatrix, t3_defined. rewrite apply_defined by assumption. cbn [t3_matrix needd bind].
  replace (lin4 (affine4 l d)) with l by (destruct l, d; reflexivity).
  assert (Inv : exists n, inverse3 l = Some n /\ mul3 n l = id3 /\ mul3 l n = id3).
  { destruct (inverse3 l) as [n |] eqn:I; [exists n; destruct (inverse3_some _ _ I) as (? & ? & _); tauto |]. exfalso.
    apply inverse3_none in I. destruct (Inj _ A) as [g Hg]. apply (onto_det l d g Hg I). }
  destruct Inv as (n & En & Nl & Ln). rewrite En, Em. cbn [bind]. set (M := mul3 (mul3 (transpose3 n) m) n).
  assert (FM : forall v w, dot3 v (mulv3 M w) = ell_bilinear u k (mulv3 n v) (mulv3 n w)).
  { intros v w. unfold M. rewrite !mulv3_mul, transpose_dot. apply Fm. }
  assert (SM : transpose3 M = M).
  { unfold M. rewrite !transpose3_mul, transpose3_transpose, Sm, mul3_assoc. reflexivity. }
  specialize (He' M SM). destruct (eig M) as [[[[l0 l1] l2] [[v0 v1] v2]] |] eqn:Ee; [| left; split; [reflexivity | exists M; tauto]]. right.
  destruct He' as (Ov & E0 & E1 & E2). pose proof Ov as (V0 & V1 & V2 & V01 & V12 & V20).
  assert (Nz : forall v, sqnorm3 v = 1 -> mulv3 n v <> zero3).
  { intros v V X. assert (Z : v = mulv3 l zero3) by (rewrite <- X, <- mulv3_mul, Ln, mulv3_id; reflexivity).
    replace (mulv3 l zero3) with zero3 in Z by (clear; qring). subst v. unfold sqnorm3, dot3, zero3 in V; simpl in V. lra. }
  assert (Lp : forall lam v, sqnorm3 v = 1 -> mulv3 M v = scale3 lam v -> 0 < lam).
  { intros lam v V X. replace lam with (dot3 v (mulv3 M v)).
    - rewrite FM, bilinear_diag. apply ell_pos; [exact O | exact P | apply Nz, V].
    - rewrite X. replace (dot3 v (scale3 lam v)) with (lam * sqnorm3 v) by (clear; v3ring). rewrite V. ring. }
  destruct (semi_axis_ok l0 (Lp l0 v0 V0 E0)) as (s0 & S0 & P0 & Q0). destruct (semi_axis_ok l1 (Lp l1 v1 V1 E1)) as (s1 & S1 & P1 & Q1).
  destruct (semi_axis_ok l2 (Lp l2 v2 V2 E2)) as (s2 & S2 & P2 & Q2). rewrite S0, S1, S2. cbn [bind].
  assert (Rh : right_handed v0 v1 (cross3 v0 v1)) by (repeat split; assumption).
  pose proof (right_handed_rotation _ _ _ Rh) as Rr. unfold Columns. cbn [needd bind]. rewrite right_handed_ok, rotation_ok by assumption. cbn [bind].
  destruct (c29_from_matrix eps _ He H1 Rr) as (q & Eq & Uq & _ & Rq). rewrite Eq. cbn [bind conjugate needd].
  assert (Rv : forall v, rot q v = mulv3 (of_cols v0 v1 (cross3 v0 v1)) v).
  { intros v. specialize (Rq v). rewrite q_rotate_unit in Rq by assumption. unfold rm_mulv in Rq. cbn [needd bind] in Rq. apply ok_inj in Rq. exact Rq. }
  exists (amap l d). do 3 eexists. split; [exact A |]. split; [reflexivity |].
  assert (Ax : rot (qconj (qconj q)) (V3 1 0 0) = v0 /\ rot (qconj (qconj q)) (V3 0 1 0) = v1 /\ rot (qconj (qconj q)) (V3 0 0 1) = cross3 v0 v1).
  { rewrite conj_conj, !Rv. clear. destruct v0, v1. repeat split; qunfold; apply V3_eq; ring. }
  destruct Ax as (X0 & X1 & X2).
  split; [apply (good_make eps _ (qconj q) s0 s1 s2 He (unit_conj q Uq)); repeat split; assumption |]. rewrite X0, X1, X2.
  assert (Form : forall v, ellipsoid_form (v0, v1, cross3 v0 v1) (s0, s1, s2) v = ellipsoid_form u k (mulv3 n v)).
  { intros v. rewrite <- (bilinear_diag u k), <- FM, (diagonal M l0 l1 l2 v0 v1 v2 v SM Ov E0 E1 E2). unfold ellipsoid_form. rewrite Q0, Q1, Q2.
    pose proof (third_axis v0 v1 v2 v Ov) as T. simpl in T. rewrite !Rmult_1_r in T. rewrite T. reflexivity. }
  intros p. unfold on_ellipsoid. rewrite Form. split.
  - intros X. exists (amap n (opp3 (mulv3 n d)) p). pose proof (amap_inv_r l d n p Ln) as I. split; [| symmetry; exact I].
    rewrite <- I, amap_sub, <- mulv3_mul, Nl, mulv3_id in X. exact X.
  - intros (x & X & ->). rewrite amap_sub, <- mulv3_mul, Nl, mulv3_id. exact X.
Qed.
Lemma c90_identity eig eps t e c u k : 0 < eps -> good_ellipsoid eps e c u k -> t3_isIdentity t = Ok true -> e_apply eig eps t e = Ok e.
Proof.
  intros He G I. destruct (good_data eps e c u k He G) as [q D]. unfold e_apply. unfold t3_isIdentity in I. destruct (t3_isDefined t) eqn:T; [| discriminate].
  cbn [negb]. rewrite D. destruct k as [[a b] d]. cbn [bind]. unfold t3_isIdentity. rewrite T, (ok_inj _ _ I). reflexivity.
Qed.
Lemma c90_errors eig eps t e f p : 
  e_apply eig eps t3_Undefined e = Err EUndefined
  /\ (e_data e = Err EUndefined -> t3_isDefined t = true -> e_apply eig eps t e = Err EUndefined)
  /\ (e_data e = Err EUndefined -> e_eq eps e f = Ok false /\ e_contains eps e (Some p) = Err EUndefined /\ e_getMatrix eps e = Err EUndefined)
  /\ e_contains eps e None = Err EUndefined.
Proof.
  split; [reflexivity |]. split; [| split; [| reflexivity]].
  - intros D T. unfold e_apply. rewrite T, D. reflexivity.
  - intros D. unfold e_eq, e_contains, e_getMatrix. rewrite D. repeat split.
Qed.
(** A solver for diagonal matrices. *)
Definition diag_solver (m : m3) : option eigensystem :=
  if Reqb (m01 m) 0 && Reqb (m02 m) 0 && Reqb (m10 m) 0 && Reqb (m12 m) 0 && Reqb (m20 m) 0 && Reqb (m21 m) 0
  then Some ((m00 m, m11 m, m22 m), (V3 1 0 0, V3 0 1 0, V3 0 0 1)) else None.
Lemma diag_eigen : eigen_solver diag_solver.
Proof.
  intros m S. unfold diag_solver. destruct (_ && _) eqn:E; [| exact I].
  rewrite !andb_true_iff, !Reqb_iff in E. destruct E as [[[[[A B] C] D] F] G].
  split; [repeat split; v3unfold; ring |]. destruct m; cbn in *; subst. repeat split; qunfold; apply V3_eq; ring.
Qed.
