(** Proofs about ellipsoids (C53, C88). *)

From Coq Require Import List Bool Reals Lra Lia Psatz.
From Verif Require IntervalModel IntervalSpec IntervalProofs.
From Verif Require Import Result DOrder Vec VecProofs Mat3 Mat4 AngleModel AngleProofs RotModel RotSpec RotProofs RotProofs2 RotProofs10 TransfModel TransfSpec
  TransfProofs TransfProofs2 Geo3Types Geo3Model Geo3Spec Geo3Proofs Geo3Proofs2 Geo3Proofs3 GteModel GteSpec ChordProofs SphereSpec SphereProofs GteProofs
  EllModel EllSpec.
Import ListNotations.
Local Open Scope R_scope.

Lemma ok_inj {A} (a b : A) : Ok a = Ok b -> a = b. Proof. intros H. change (match Ok a with Ok x => x | _ => a end = b). rewrite H. reflexivity. Qed.

(** *** Axes and matrix *)
Lemma rot_inj q v w : unit_q q -> rot q v = w -> v = rot (qconj q) w.
Proof. intros H <-. symmetry. apply rot_conj, H. Qed.
Lemma good_axes eps e c u k : 0 < eps -> good_ellipsoid eps e c u k -> exists q a b d, k = (a, b, d)
  /\ e = mkEll (Some c) (Some a) (Some b) (Some d) (Some q) /\ unit_q q /\ positive k
  /\ u = (rot (qconj q) (V3 1 0 0), rot (qconj q) (V3 0 1 0), rot (qconj q) (V3 0 0 1)).
Proof.
  intros He H. destruct u as [[u1 u2] u3], k as [[a b] d]. destruct H as (q & -> & U & P & H1 & H2 & H3).
  rewrite q_rotate_unit in H1, H2, H3 by assumption. exists q, a, b, d. split; [reflexivity |]. split; [reflexivity |]. split; [exact U |]. split; [exact P |].
  apply ok_inj in H1, H2, H3.
  f_equal; [f_equal |]; apply rot_inj; assumption.
Qed.
Lemma good_make eps c q a b d : 0 < eps -> unit_q q -> positive (a, b, d) ->
  good_ellipsoid eps (mkEll (Some c) (Some a) (Some b) (Some d) (Some q)) c
    (rot (qconj q) (V3 1 0 0), rot (qconj q) (V3 0 1 0), rot (qconj q) (V3 0 0 1)) (a, b, d).
Proof.
  intros He U P. exists q. split; [reflexivity |]. split; [exact U |]. split; [exact P |].
  rewrite !q_rotate_unit, !rot_conj_r by assumption. repeat split.
Qed.
Lemma rot_orthonormal q : unit_q q -> orthonormal (rot q (V3 1 0 0), rot q (V3 0 1 0), rot q (V3 0 0 1)).
Proof.
  intros U. unfold orthonormal, sqnorm3. rewrite !rot_dot, U. repeat split; v3unfold; ring.
Qed.

(** The axes are orthonormal, and they are those the getters return; the ends of the semi-axes are on the surface. *)
Lemma c53_axes eps e c u k : 0 < eps -> good_ellipsoid eps e c u k ->
  orthonormal u /\ e_axes eps e = Ok u
  /\ (let '(u1, u2, u3) := u in let '(k1, k2, k3) := k in
      on_ellipsoid c u k (add3 c (scale3 k1 u1)) /\ on_ellipsoid c u k (add3 c (scale3 k2 u2)) /\ on_ellipsoid c u k (add3 c (scale3 k3 u3))).
Proof.
  intros He H. destruct (good_axes eps e c u k He H) as (q & a & b & d & -> & -> & U & (A & B & D) & ->). clear H.
  pose proof (unit_conj q U) as U'. pose proof (rot_orthonormal _ U') as O. split; [exact O |]. split.
  - unfold e_axes, e_getFirstAxis, e_getSecondAxis, e_getThirdAxis, e_axis. cbn [e_data e_center e_a e_b e_c e_q bind conjugate needd].
    rewrite !q_rotate_unit by assumption. reflexivity.
  - set (u1 := rot (qconj q) (V3 1 0 0)) in *. set (u2 := rot (qconj q) (V3 0 1 0)) in *. set (u3 := rot (qconj q) (V3 0 0 1)) in *.
    destruct O as (O1 & O2 & O3 & O4 & O5 & O6). unfold sqnorm3 in *.
    assert (E : forall x v w, dot3 x (sub3 (add3 c (scale3 v w)) c) = v * dot3 x w) by (intros; clear; v3ring).
    unfold on_ellipsoid, ellipsoid_form. rewrite !E.
    rewrite (dot3_sym u2 u1), (dot3_sym u3 u2), (dot3_sym u1 u3), O1, O2, O3, O4, O5, O6. repeat split; field; lra.
Qed.

Lemma matrix_form u1 u2 u3 a b d v w : 0 < a -> 0 < b -> 0 < d ->
  dot3 v (mulv3 (add_m3 (add_m3 (tensor (scale3 (/ a) u1) (scale3 (/ a) u1)) (tensor (scale3 (/ b) u2) (scale3 (/ b) u2))) (tensor (scale3 (/ d) u3) (scale3 (/ d) u3))) w)
  = ell_bilinear (u1, u2, u3) (a, b, d) v w.
Proof.
  intros A B D. unfold ell_bilinear, Rdiv. destruct u1, u2, u3, v, w. unfold tensor, add_m3. qunfold. ring.
Qed.
Lemma tensor_sym u : transpose3 (tensor u u) = tensor u u.
Proof. unfold tensor. qring. Qed.
Lemma add_sym m n : transpose3 m = m -> transpose3 n = n -> transpose3 (add_m3 m n) = add_m3 m n.
Proof. intros A B. rewrite <- A, <- B at 2. unfold add_m3. qring. Qed.
Lemma getMatrix_eq eps e c u k : 0 < eps -> good_ellipsoid eps e c u k ->
  exists m, e_getMatrix eps e = Ok m /\ transpose3 m = m /\ forall v w, dot3 v (mulv3 m w) = ell_bilinear u k v w.
Proof.
  intros He H. destruct (good_axes eps e c u k He H) as (q & a & b & d & -> & -> & U & (A & B & D) & ->). clear H.
  pose proof (unit_conj q U) as U'.
  unfold e_getMatrix, e_getFirstAxis, e_getSecondAxis, e_getThirdAxis, e_axis. cbn [e_data e_center e_a e_b e_c e_q bind conjugate needd].
  rewrite !q_rotate_unit by assumption. cbn [bind]. unfold vdiv_. rewrite !(proj2 (Reqb_false _ _)) by lra. cbn [bind].
  eexists. split; [reflexivity |]. split; [repeat apply add_sym; apply tensor_sym |]. intros v w. apply matrix_form; assumption.
Qed.
Lemma bilinear_diag u k v : ell_bilinear u k v v = ellipsoid_form u k v.
Proof. destruct u as [[u1 u2] u3], k as [[a b] c]. unfold ell_bilinear, ellipsoid_form. ring. Qed.

(** The matrix is that of the quadratic form of the surface. *)
Lemma c53_matrix eps e c u k : 0 < eps -> good_ellipsoid eps e c u k ->
  exists m, e_getMatrix eps e = Ok m /\ transpose3 m = m /\ forall p, dot3 (sub3 p c) (mulv3 m (sub3 p c)) = 1 <-> on_ellipsoid c u k p.
Proof.
  intros He H. destruct (getMatrix_eq eps e c u k He H) as (m & E & S & F). exists m. split; [exact E |]. split; [exact S |].
  intros p. rewrite F, bilinear_diag. reflexivity.
Qed.

(** *** Containment *)
(** The surface contains(Point) tests. *)
Definition tested (q : quat) : v3 * v3 * v3 := (rot q (V3 1 0 0), rot q (V3 0 1 0), rot q (V3 0 0 1)).
Lemma contains_eq eps c a b d q p : 0 < eps -> unit_q q -> positive (a, b, d) ->
  e_contains eps (mkEll (Some c) (Some a) (Some b) (Some d) (Some q)) (Some p)
  = Ok (Rltb (Rabs (ellipsoid_form (tested q) (a, b, d) (sub3 p c) - 1)) eps).
Proof.
  intros He U (A & B & D). unfold e_contains. cbn [needd bind e_data e_center e_a e_b e_c e_q]. rewrite !q_rotate_unit by assumption. cbn [bind].
  unfold div_. rewrite !(proj2 (Reqb_false _ _)) by nra. cbn [bind]. do 4 f_equal. unfold ellipsoid_form, tested.
  set (r0 := rot q (V3 1 0 0)). set (r1 := rot q (V3 0 1 0)). set (r2 := rot q (V3 0 0 1)). set (v := sub3 p c). clearbody r0 r1 r2 v.
  replace (vx (mulv3 (of_rows r0 r1 r2) v)) with (dot3 r0 v) by (clear; destruct r0, r1, r2, v; reflexivity).
  replace (vy (mulv3 (of_rows r0 r1 r2) v)) with (dot3 r1 v) by (clear; destruct r0, r1, r2, v; reflexivity).
  replace (vz (mulv3 (of_rows r0 r1 r2) v)) with (dot3 r2 v) by (clear; destruct r0, r1, r2, v; reflexivity).
  field. repeat split; lra.
Qed.
(** Coordinates along the axes are the coordinates of the turned vector. *)
Lemma form_turned q k v : unit_q q -> ellipsoid_form (rot (qconj q) (V3 1 0 0), rot (qconj q) (V3 0 1 0), rot (qconj q) (V3 0 0 1)) k v
  = ellipsoid_form (V3 1 0 0, V3 0 1 0, V3 0 0 1) k (rot q v).
Proof.
  intros U. destruct k as [[a b] d]. unfold ellipsoid_form.
  assert (E : forall w, dot3 (rot (qconj q) w) v = dot3 w (rot q v)).
  { intros w. rewrite <- (rot_conj_r q w U) at 2. rewrite rot_dot, U. ring. }
  rewrite !E. reflexivity.
Qed.
Lemma conj_conj q : qconj (qconj q) = q.
Proof. qring. Qed.
Lemma form_tested q k v : unit_q q -> ellipsoid_form (tested q) k v = ellipsoid_form (V3 1 0 0, V3 0 1 0, V3 0 0 1) k (rot (qconj q) v).
Proof.
  intros U. rewrite <- (form_turned (qconj q) k v (unit_conj q U)). rewrite conj_conj. reflexivity.
Qed.
Lemma reversible_form eps c a b d q v : 0 < eps -> unit_q q -> reversible eps (mkEll (Some c) (Some a) (Some b) (Some d) (Some q)) ->
  ellipsoid_form (V3 1 0 0, V3 0 1 0, V3 0 0 1) (a, b, d) (rot (qconj q) v) = ellipsoid_form (V3 1 0 0, V3 0 1 0, V3 0 0 1) (a, b, d) (rot q v).
Proof.
  intros He U. assert (Fm : forall w, ellipsoid_form (V3 1 0 0, V3 0 1 0, V3 0 0 1) (a, b, d) w = (vx w / a) ^ 2 + (vy w / b) ^ 2 + (vz w / d) ^ 2).
  { intros w. unfold ellipsoid_form. replace (dot3 (V3 1 0 0) w) with (vx w) by v3ring. replace (dot3 (V3 0 1 0) w) with (vy w) by v3ring.
    replace (dot3 (V3 0 0 1) w) with (vz w) by v3ring. reflexivity. }
  assert (Sq : forall x, vx (rot x v) * vx (rot x v) + vy (rot x v) * vy (rot x v) + vz (rot x v) * vz (rot x v) = sqnorm3 (rot x v)) by (intros; v3unfold; reflexivity).
  pose proof (Sq q) as S1. pose proof (Sq (qconj q)) as S2. rewrite rot_sq in S1, S2. rewrite (unit_conj q U) in S2. rewrite U in S1.
  intros [(r & E1 & E2 & E3) | [H | [E H]]].
  - cbn in E1, E2, E3. injection E1 as ->. injection E2 as ->. injection E3 as ->. rewrite !Fm. unfold Rdiv. rewrite !Rpow_mult_distr.
    rewrite <- !Rmult_plus_distr_r. apply (f_equal (fun x => x * (/ r) ^ 2)). rewrite <- !Rsqr_pow2. unfold Rsqr. lra.
  - specialize (H q v (rot q v) eq_refl). rewrite !q_rotate_unit in H by assumption. specialize (H eq_refl). assert (H' : rot q (rot q v) = v) by (apply ok_inj in H; exact H). clear H. rename H' into H.
    rewrite <- H at 1. rewrite rot_conj by assumption. reflexivity.
  - cbn in E. injection E as ->. specialize (H q eq_refl). rewrite q_rotate_unit in H by assumption.
    assert (K : rot q (V3 0 0 1) = V3 0 0 1) by (apply ok_inj in H; exact H). clear H.
    assert (K' : rot (qconj q) (V3 0 0 1) = V3 0 0 1) by (rewrite <- K at 1; apply rot_conj, U).
    assert (Z : forall x, unit_q x -> rot x (V3 0 0 1) = V3 0 0 1 -> vz (rot x v) = vz v).
    { intros x Ux Kx. replace (vz (rot x v)) with (dot3 (V3 0 0 1) (rot x v)) by (clear; v3ring). rewrite <- Kx, rot_dot, Ux. v3unfold. ring. }
    rewrite !Fm, (Z q U K), (Z _ (unit_conj q U) K'). rewrite (Z q U K) in S1. rewrite (Z _ (unit_conj q U) K') in S2. apply (f_equal (fun x => x + (vz v / d) ^ 2)).
    unfold Rdiv. rewrite !Rpow_mult_distr. rewrite <- !Rmult_plus_distr_r. apply (f_equal (fun x => x * (/ b) ^ 2)). rewrite <- !Rsqr_pow2. unfold Rsqr. lra.
Qed.

(** Which points are contained: those within the tolerance of the surface turned the other way. *)
Lemma c53_contains eps e c u k p : 0 < eps -> good_ellipsoid eps e c u k ->
  exists b f w1 w2 w3, e_contains eps e (Some p) = Ok b
    /\ (forall q, e_q e = Some q -> q_rotates eps q f) /\ w1 = f (V3 1 0 0) /\ w2 = f (V3 0 1 0) /\ w3 = f (V3 0 0 1)
    /\ (b = true <-> near_ellipsoid eps c (w1, w2, w3) k p).
Proof.
  intros He H. destruct (good_axes eps e c u k He H) as (q & a & b & d & -> & -> & U & P & ->). clear H.
  rewrite contains_eq by assumption. do 2 eexists. do 3 eexists. split; [reflexivity |]. split; [| split; [reflexivity | split; [reflexivity | split; [reflexivity |]]]].
  - intros q' E. cbn in E. injection E as <-. intros v. apply q_rotate_unit; assumption.
  - unfold near_ellipsoid, tested. unfold Rltb. destruct (Rlt_dec _ _); split; try discriminate; tauto.
Qed.
Lemma c53_contains_partial eps e c u k p : 0 < eps -> good_ellipsoid eps e c u k -> reversible eps e ->
  exists b, e_contains eps e (Some p) = Ok b /\ (b = true <-> near_ellipsoid eps c u k p).
Proof.
  intros He H Rv. destruct (good_axes eps e c u k He H) as (q & a & b & d & -> & -> & U & P & ->). clear H.
  rewrite contains_eq by assumption. eexists. split; [reflexivity |]. unfold near_ellipsoid.
  rewrite form_tested, form_turned by assumption. rewrite (reversible_form eps c) by assumption.
  unfold Rltb. destruct (Rlt_dec _ _); split; try discriminate; tauto.
Qed.
Lemma rot_z a b v : rot (Q4 0 0 a b) v = V3 ((b * b - a * a) * vx v + 2 * a * b * vy v) ((b * b - a * a) * vy v - 2 * a * b * vx v) ((a * a + b * b) * vz v).
Proof. unfold rot. qring. Qed.

Lemma c53_contains_refuted eps : 0 < eps -> eps <= 1 / 2 -> exists e c u k p p',
  good_ellipsoid eps e c u k
  /\ on_ellipsoid c u k p /\ e_contains eps e (Some p) = Ok false
  /\ ~ near_ellipsoid eps c u k p' /\ e_contains eps e (Some p') = Ok true.
Proof.
  intros He H1.
  assert (U : unit_q (Q4 0 0 (3 / 5) (4 / 5))) by (unfold unit_q; qunfold; field).
  assert (Ps : positive (2, 1, 1)) by (split; [lra | split; lra]).
  do 3 eexists. exists (2, 1, 1), (scale3 2 (V3 (7 / 25) (24 / 25) 0)), (scale3 2 (V3 (7 / 25) (- 24 / 25) 0)).
  split; [apply (good_make eps zero3 (Q4 0 0 (3 / 5) (4 / 5))); assumption |].
  assert (Fm : forall w, ellipsoid_form (V3 1 0 0, V3 0 1 0, V3 0 0 1) (2, 1, 1) w = (vx w / 2) ^ 2 + vy w ^ 2 + vz w ^ 2).
  { intros w. unfold ellipsoid_form. v3unfold. field. }
  assert (Z : forall v, sub3 v zero3 = v) by (intros; v3ring).
  unfold on_ellipsoid, near_ellipsoid. rewrite !contains_eq, !Z, !form_tested, !form_turned, !Fm by assumption.
  unfold qconj; cbn [qx qy qz qs]. rewrite !Ropp_0, !rot_z. v3unfold.
  split; [| split; [| split]].
  - field.
  - rewrite Rltb_f; [reflexivity |]. rewrite Rabs_right; lra.
  - rewrite Rabs_right; lra.
  - rewrite Rltb_t; [reflexivity |]. rewrite Rabs_pos_eq; lra.
Qed.

(** Sets of points and segments. *)
Lemma c53_sets eps e c u k ps a b : 0 < eps -> good_ellipsoid eps e c u k ->
  exists x y z, e_contains_ps eps e ps = Ok x /\ e_intersects_ps eps e ps = Ok y /\ e_contains_segment eps e (mkSeg (Some a) (Some b)) = Ok z
    /\ (x = true <-> ps <> [] /\ forall p, In p ps -> e_contains eps e (Some p) = Ok true)
    /\ (y = true <-> exists p, In p ps /\ e_contains eps e (Some p) = Ok true)
    /\ (z = true <-> e_contains eps e (Some a) = Ok true /\ e_contains eps e (Some b) = Ok true).
Proof.
  intros He H. destruct (good_axes eps e c u k He H) as (q & k1 & k2 & k3 & -> & -> & U & P & ->). clear H.
  set (e := mkEll (Some c) (Some k1) (Some k2) (Some k3) (Some q)).
  assert (C : forall p, exists b, e_contains eps e (Some p) = Ok b /\ (b = true <-> e_contains eps e (Some p) = Ok true)).
  { intros p. unfold e. rewrite contains_eq by assumption. eexists. split; [reflexivity |]. split; [intros ->; reflexivity | intros X; apply ok_inj in X; exact X]. }
  destruct (C a) as (xa & Ea & Ha). destruct (C b) as (xb & Eb & Hb).
  assert (Z : e_contains_segment eps e (mkSeg (Some a) (Some b)) = Ok (xa && xb)).
  { unfold e_contains_segment. cbn [s_data s_first s_second bind]. rewrite Ea. cbn [bind]. destruct xa; [exact Eb | reflexivity]. }
  assert (Hz : xa && xb = true <-> e_contains eps e (Some a) = Ok true /\ e_contains eps e (Some b) = Ok true) by (rewrite andb_true_iff, Ha, Hb; reflexivity).
  unfold e_contains_ps, e_intersects_ps. change (e_data e) with (Ok (c, (k1, k2, k3), q)). cbn [bind].
  destruct ps as [| p ps].
  - exists false, false, (xa && xb). cbn [ps_isEmpty]. split; [reflexivity |]. split; [reflexivity |]. split; [exact Z |]. split; [| split; [| exact Hz]].
    + split; [discriminate | intros [X _]; congruence].
    + split; [discriminate | intros (p & [] & _)].
  - cbn [ps_isEmpty].
    destruct (allM_ok (fun x => e_contains eps e (Some x)) (fun p => e_contains eps e (Some p) = Ok true) (p :: ps)) as (x & Ex & Hx); [intros; apply C |].
    destruct (anyM_ok (fun x => e_contains eps e (Some x)) (fun p => e_contains eps e (Some p) = Ok true) (p :: ps)) as (y & Ey & Hy); [intros; apply C |].
    exists x, y, (xa && xb). split; [exact Ex |]. split; [exact Ey |]. split; [exact Z |]. split; [| split; [exact Hy | exact Hz]].
    rewrite Hx. split; [intros X; split; [discriminate | exact X] | tauto].
Qed.
Lemma c53_negative p a b c q : (exists x, (a = Some x \/ b = Some x \/ c = Some x) /\ x < 0) -> Ellipsoid p a b c q = Err ERuntime.
Proof.
  intros (x & H & L). unfold Ellipsoid. destruct H as [-> | [-> | ->]].
  - rewrite Rltb_t by assumption. reflexivity.
  - rewrite (Rltb_t x) by assumption. destruct a as [a |]; [destruct (Rltb a 0) |]; reflexivity.
  - rewrite (Rltb_t x) by assumption. destruct a as [a |]; [destruct (Rltb a 0) |]; try reflexivity; destruct b as [b |]; try (destruct (Rltb b 0)); reflexivity.
Qed.

(** *** C88: does a line, a ray, a plane meet the solid? *)
Lemma good_positive eps e c u k : good_ellipsoid eps e c u k -> positive k.
Proof. destruct u as [[u1 u2] u3], k as [[a b] d]. intros (q & _ & _ & P & _). exact P. Qed.
Lemma good_data eps e c u k : 0 < eps -> good_ellipsoid eps e c u k -> exists q, e_data e = Ok (c, k, q).
Proof.
  intros He H. destruct (good_axes eps e c u k He H) as (q & a & b & d & -> & -> & _). exists q. reflexivity.
Qed.
Lemma c88_intersects g eps e c u k : 0 < eps -> ellipsoid_queries g -> good_ellipsoid eps e c u k ->
  (forall l o d, good_line l o d -> exists b, e_intersects_line g eps e l = Ok b /\ decides b (fun p => on_line o d p /\ solid_ellipsoid c u k p))
  /\ (forall ry o d, good_ray ry o d -> exists b, e_intersects_ray g eps e ry = Ok b /\ decides b (fun p => on_ray o d p /\ solid_ellipsoid c u k p))
  /\ (forall pl q n, good_plane pl q n -> exists b, e_intersects_plane g eps e pl = Ok b /\ decides b (fun p => on_plane q n p /\ solid_ellipsoid c u k p)).
Proof.
  intros He G H. destruct (c53_axes eps e c u k He H) as (O & A & _). destruct (good_data eps e c u k He H) as [q D]. pose proof (good_positive eps e c u k H) as P.
  unfold e_intersects_line, e_intersects_ray, e_intersects_plane. rewrite D, A. destruct k as [[k1 k2] k3]. cbn [bind]. split; [| split].
  - intros l o d [-> U]. eexists. split; [reflexivity |]. apply (eq_ti_line g G); assumption.
  - intros l o d [-> U]. eexists. split; [reflexivity |]. apply (eq_ti_ray g G); assumption.
  - intros l o d [-> U]. eexists. split; [reflexivity |]. apply (eq_ti_plane g G); assumption.
Qed.
