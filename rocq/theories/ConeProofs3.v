(** Proofs about cones: distance. *)

From Coq Require Import List Bool Reals Lra Lia Psatz ZArith.
From Verif Require Import Result DOrder Vec VecProofs AngleModel AngleSpec AngleProofs AngleProofs2 RotModel RotProofs Geo3Types Geo3Model Geo3Spec
  Geo3Proofs Geo3Proofs2 SphereModel EllModel InterModel ConeModel ConeSpec ConeProofs ConeProofs2.
Import ListNotations.
Local Open Scope R_scope.

(** The unit vector along the axis. *)
Lemma axis_unit u : 0 < sqnorm3 u -> exists h, normalized3 u = h /\ sqnorm3 h = 1 /\ u = scale3 (norm3 u) h.
Proof.
  intros H. pose proof (norm3_pos u H) as P. destruct (normalized3_unit u ltac:(apply sqnorm3_pos; exact H)) as [U E].
  exists (normalized3 u). split; [reflexivity |]. split; [exact U |]. rewrite E, scale3_scale, Rinv_r, scale3_1 by lra. reflexivity.
Qed.
Lemma on_cone_unit a u h t p : 0 < norm3 u -> u = scale3 (norm3 u) h -> (on_cone a u t p <-> norm3 (sub3 p a) * cos t = dot3 (sub3 p a) h).
Proof.
  intros P E. unfold on_cone. rewrite E at 2. rewrite dot3_scale_r. split; intros H; [apply (Rmult_eq_reg_l (norm3 u)); lra | rewrite <- H; ring].
Qed.
Lemma solid_cone_unit a u h t p : 0 < norm3 u -> u = scale3 (norm3 u) h -> (solid_cone a u t p <-> norm3 (sub3 p a) * cos t <= dot3 (sub3 p a) h).
Proof.
  intros P E. unfold solid_cone. rewrite E at 2. rewrite dot3_scale_r. split; intros H.
  - apply (Rmult_le_reg_l (norm3 u)); lra.
  - replace (norm3 (sub3 p a) * norm3 u * cos t) with (norm3 u * (norm3 (sub3 p a) * cos t)) by ring. apply Rmult_le_compat_l; lra.
Qed.
Lemma bessel h n y : sqnorm3 h = 1 -> sqnorm3 n = 1 -> dot3 n h = 0 -> dot3 y h * dot3 y h + dot3 y n * dot3 y n <= sqnorm3 y.
Proof.
  intros Hh Hn H.
  assert (Q : sqnorm3 (sub3 y (add3 (scale3 (dot3 y h) h) (scale3 (dot3 y n) n))) = sqnorm3 y - dot3 y h * dot3 y h - dot3 y n * dot3 y n).
  { rewrite sqnorm3_sub, sqnorm_comb, Hh, Hn, (dot3_sym h n), H. rewrite (dot3_sym y (add3 _ _)), dot_add, !dot3_scale_l, (dot3_sym h y), (dot3_sym n y). ring. }
  pose proof (sqnorm3_nonneg (sub3 y (add3 (scale3 (dot3 y h) h) (scale3 (dot3 y n) n)))). lra.
Qed.
Lemma sin_nonneg t : 0 <= t <= PI / 2 -> 0 <= sin t.
Proof. intros H. pose proof PI_RGT_0. apply sin_ge_0; lra. Qed.
Lemma sin_cos t : sin t * sin t = 1 - cos t * cos t.
Proof. pose proof (sin2_cos2 t) as H. unfold Rsqr in H. lra. Qed.
(** On the cone, the part of a direction across the axis is its length times the sine. *)
Lemma across_le h n y t : sqnorm3 h = 1 -> sqnorm3 n = 1 -> dot3 n h = 0 -> 0 <= t <= PI / 2 -> norm3 y * cos t = dot3 y h -> dot3 y n <= norm3 y * sin t.
Proof.
  intros Hh Hn H Ht Hy. pose proof (bessel h n y Hh Hn H) as B. rewrite <- Hy, <- norm3_sq in B.
  pose proof (sin_nonneg t Ht) as S. pose proof (sin_cos t) as SC. pose proof (norm3_nonneg y) as Ny.
  assert (Q : dot3 y n * dot3 y n <= norm3 y * sin t * (norm3 y * sin t)).
  { replace (norm3 y * sin t * (norm3 y * sin t)) with (norm3 y * norm3 y * (sin t * sin t)) by ring. rewrite SC. lra. }
  assert (P : 0 <= norm3 y * sin t) by (apply Rmult_le_pos; assumption).
  destruct (Rle_dec (dot3 y n) (norm3 y * sin t)) as [L | L]; [exact L |]. exfalso. apply Rnot_le_lt in L. nra.
Qed.
(** The direction of the cone nearest to [v]. *)
Lemma nearest_direction h n v y t : sqnorm3 h = 1 -> sqnorm3 n = 1 -> dot3 n h = 0 -> 0 <= t <= PI / 2 ->
  v = add3 (scale3 (dot3 v h) h) (scale3 (dot3 v n) n) -> 0 <= dot3 v n -> norm3 y * cos t = dot3 y h ->
  dot3 v y <= norm3 y * dot3 v (add3 (scale3 (cos t) h) (scale3 (sin t) n)).
Proof.
  intros Hh Hn H Ht Ev Hv Hy. pose proof (across_le h n y t Hh Hn H Ht Hy) as A.
  rewrite Ev at 1. rewrite dot_add, !dot3_scale_l, (dot3_sym h y), (dot3_sym n y), <- Hy.
  rewrite (dot3_sym v (add3 _ _)), dot_add, !dot3_scale_l, (dot3_sym h v), (dot3_sym n v).
  apply (Rmult_le_compat_l (dot3 v n)) in A; [| exact Hv]. lra.
Qed.
Lemma normalized_scaled k w : 0 < k -> sqnorm3 w = 1 -> normalized3 (scale3 k w) = w.
Proof.
  intros Hk H. unfold normalized3. rewrite sqnorm3_scale, H, norm3_scale, (norm_unit _ H), Rabs_right by lra.
  destruct Rlt_dec as [_ | N]; [| exfalso; apply N; nra]. rewrite scale3_scale, Rmult_1_r, Rinv_l, scale3_1 by lra. reflexivity.
Qed.
Lemma scale_add k a b : scale3 k (add3 a b) = add3 (scale3 k a) (scale3 k b).
Proof. v3ring. Qed.
Lemma edge_direction h n t : sqnorm3 h = 1 -> sqnorm3 n = 1 -> dot3 n h = 0 -> 0 < cos t ->
  normalized3 (add3 h (scale3 (tan t) n)) = add3 (scale3 (cos t) h) (scale3 (sin t) n).
Proof.
  intros Hh Hn H C. destruct (edge_unit h n t Hh Hn H) as [W _]. set (w := add3 _ (scale3 (sin t) n)) in *.
  rewrite <- (normalized_scaled (/ cos t) w); [| apply Rinv_0_lt_compat; exact C | exact W]. f_equal.
  unfold w. rewrite scale_add, !scale3_scale, Rinv_l, scale3_1 by lra. unfold tan. f_equal. f_equal. field. lra.
Qed.
Lemma ray_of_unit a w : sqnorm3 w = 1 -> Ray (Some a) (Some w) = Ok (mkRay (Some a) (Some w)).
Proof. intros H. unfold Ray, unit_direction. rewrite (proj2 (Reqb_iff (sqnorm3 w) 1) H). reflexivity. Qed.
Lemma sqdist_along a p s w : sqnorm3 w = 1 -> sqnorm3 (sub3 p (along a s w)) = sqnorm3 (sub3 p a) - 2 * s * dot3 (sub3 p a) w + s * s.
Proof.
  intros H. replace (sub3 p (along a s w)) with (add3 (scale3 1 (sub3 p a)) (scale3 (- s) w)) by (unfold along; clear; v3ring).
  rewrite sqnorm_comb, H. ring.
Qed.
(** The distance to the nearest half line of the cone is the distance to the cone. *)
Lemma nearest_ray a h n u p t d : sqnorm3 h = 1 -> sqnorm3 n = 1 -> dot3 n h = 0 -> 0 <= t <= PI / 2 -> 0 < norm3 u -> u = scale3 (norm3 u) h ->
  (let v := sub3 p a in v = add3 (scale3 (dot3 v h) h) (scale3 (dot3 v n) n) /\ 0 <= dot3 v n) ->
  least_distance (on_ray a (add3 (scale3 (cos t) h) (scale3 (sin t) n))) p d -> least_distance (on_cone a u t) p d.
Proof.
  intros Hh Hn H Ht Pu Eu [Ev Hv] [(q & (s & Hs & ->) & Eq) L]. destruct (edge_unit h n t Hh Hn H) as [W1 W2]. set (w := add3 (scale3 (cos t) h) (scale3 (sin t) n)) in *. split.
  - exists (along a s w). split; [| exact Eq]. apply (on_cone_unit a u h t _ Pu Eu). rewrite along_sub, norm3_scale, dot3_scale_l, W2, (norm_unit _ W1), Rabs_right by lra. ring.
  - intros q Hq. apply (on_cone_unit a u h t _ Pu Eu) in Hq. set (y := sub3 q a) in *.
    eapply Rle_trans; [apply (L (along a (norm3 y) w)); exists (norm3 y); split; [apply norm3_nonneg | reflexivity] |].
    apply norm3_le. rewrite (sqdist_along a p (norm3 y) w W1).
    replace (sub3 p q) with (add3 (scale3 1 (sub3 p a)) (scale3 (-1) y)) by (unfold y; clear; v3ring).
    rewrite sqnorm_comb, <- (norm3_sq y).
    pose proof (nearest_direction h n (sub3 p a) y t Hh Hn H Ht Ev Hv Hq) as D. fold w in D. lra.
Qed.

Lemma add3_comm a b : add3 a b = add3 b a.
Proof. v3ring. Qed.
(** The vector across the axis. *)
Lemma across_eq u w : cross3 (cross3 u w) u = add3 (scale3 (sqnorm3 u) w) (scale3 (- dot3 u w) u).
Proof. v3ring. Qed.
Lemma across_perp u w : dot3 (cross3 (cross3 u w) u) u = 0.
Proof. v3ring. Qed.
Lemma across_sq u w : sqnorm3 (cross3 (cross3 u w) u) = sqnorm3 u * sqnorm3 (cross3 u w).
Proof. rewrite (lagrange3 (cross3 u w) u), cross_perp. ring. Qed.
Lemma normalized_perp u w h : 0 < sqnorm3 w -> dot3 w u = 0 -> 0 < norm3 u -> u = scale3 (norm3 u) h ->
  sqnorm3 (normalized3 w) = 1 /\ dot3 (normalized3 w) h = 0 /\ exists k, 0 < k /\ w = scale3 k (normalized3 w).
Proof.
  intros Hw Hd Pu Eu. destruct (axis_unit w Hw) as (n & En & Un & Ew). rewrite En. split; [exact Un |].
  pose proof (norm3_pos w Hw) as Pw. split; [| exists (norm3 w); split; assumption].
  rewrite Eu, Ew, dot3_scale_r, dot3_scale_l in Hd. apply Rmult_integral in Hd. destruct Hd as [Hd | Hd]; [exfalso; lra |].
  apply Rmult_integral in Hd. destruct Hd as [Hd | Hd]; [exfalso; lra | exact Hd].
Qed.
Lemma unit_dot h : sqnorm3 h = 1 -> dot3 h h = 1.
Proof. intros H. exact H. Qed.
Lemma dot_unit_axis v u h : u = scale3 (norm3 u) h -> dot3 v u = norm3 u * dot3 v h.
Proof. intros E. rewrite E at 1. apply dot3_scale_r. Qed.
(** Decomposition of [v] along the axis and across it. *)
Lemma decompose u h v : 0 < norm3 u -> sqnorm3 h = 1 -> u = scale3 (norm3 u) h -> 0 < sqnorm3 (cross3 u v) ->
  let n := normalized3 (cross3 (cross3 u v) u) in
  sqnorm3 n = 1 /\ dot3 n h = 0 /\ v = add3 (scale3 (dot3 v h) h) (scale3 (dot3 v n) n) /\ 0 <= dot3 v n.
Proof.
  intros Pu Hh Eu Hc n. assert (Qu : 0 < sqnorm3 u) by (rewrite <- norm3_sq; nra).
  assert (Qw : 0 < sqnorm3 (cross3 (cross3 u v) u)) by (rewrite across_sq; apply Rmult_lt_0_compat; assumption).
  destruct (normalized_perp u _ h Qw (across_perp u v) Pu Eu) as (Un & Dn & k & Pk & Ek). fold n in Un, Dn, Ek.
  assert (V : v = add3 (scale3 (dot3 v h) h) (scale3 (k / sqnorm3 u) n)).
  { assert (E1 : scale3 (sqnorm3 u) v = add3 (scale3 k n) (scale3 (dot3 u v) u)) by (rewrite <- Ek, across_eq; clear; v3ring).
    assert (E2 : scale3 (dot3 u v) u = scale3 (sqnorm3 u * dot3 v h) h).
    { rewrite (dot3_sym u v), (dot_unit_axis v u h Eu), <- (norm3_sq u). transitivity (scale3 (norm3 u * dot3 v h) (scale3 (norm3 u) h)); [f_equal; exact Eu |].
      rewrite scale3_scale. f_equal. ring. }
    rewrite E2 in E1. transitivity (scale3 (/ sqnorm3 u) (scale3 (sqnorm3 u) v)); [rewrite scale3_scale, Rinv_l, scale3_1 by lra; reflexivity |].
    rewrite E1, scale_add, !scale3_scale.
    replace (/ sqnorm3 u * (sqnorm3 u * dot3 v h)) with (dot3 v h) by (field; lra).
    replace (/ sqnorm3 u * k) with (k / sqnorm3 u) by (unfold Rdiv; ring). apply add3_comm. }
  assert (N : dot3 v n = k / sqnorm3 u).
  { rewrite V at 1. rewrite dot_add, !dot3_scale_l, (dot3_sym h n), Dn, (unit_dot n Un). ring. }
  split; [exact Un |]. split; [exact Dn |]. split; [rewrite N; exact V |]. rewrite N. left. apply Rmult_lt_0_compat; [exact Pk |]. apply Rinv_0_lt_compat. exact Qu.
Qed.
(** On the axis, any perpendicular will do. *)
Lemma decompose_axis u h v n : sqnorm3 h = 1 -> 0 < norm3 u -> u = scale3 (norm3 u) h -> cross3 u v = zero3 -> sqnorm3 n = 1 -> dot3 n h = 0 ->
  v = add3 (scale3 (dot3 v h) h) (scale3 (dot3 v n) n) /\ 0 <= dot3 v n.
Proof.
  intros Hh Pu Eu Hc Un Dn. assert (U0 : u <> zero3) by (apply sqnorm3_pos; rewrite <- norm3_sq; nra).
  assert (C0 : sqnorm3 (cross3 u v) = 0) by (apply sqnorm3_0; exact Hc). apply (cross_0 u v U0) in C0. set (l := dot3 u v / sqnorm3 u) in *.
  assert (V : v = scale3 (l * norm3 u) h) by (rewrite <- scale3_scale, <- Eu; exact C0).
  assert (Z : dot3 v n = 0) by (rewrite V, dot3_scale_l, (dot3_sym h n), Dn; ring).
  rewrite Z. split; [| lra]. assert (L : dot3 v h = l * norm3 u) by (rewrite V, dot3_scale_l, (unit_dot h Hh); ring).
  rewrite L, <- V. clear. v3ring.
Qed.

Lemma co_distance_case eps c a u t k p n h : c = mkCone (Some a) (Some u) k -> turns k = Some (t / (2 * PI)) -> eps <= sqnorm3 u -> p <> a ->
  0 <= dot3 (sub3 p a) u -> 0 < cos t -> normalized3 u = h -> sqnorm3 h = 1 -> sqnorm3 n = 1 -> dot3 n h = 0 ->
  (if Rltb eps (norm3 (cross3 u (sub3 p a))) then normalized3 (cross3 (cross3 u (sub3 p a)) u)
   else if Rltb eps (norm3 (cross3 u (V3 1 0 0))) then normalized3 (cross3 (cross3 u (V3 1 0 0)) u)
   else normalized3 (cross3 (cross3 u (V3 0 1 0)) u)) = n ->
  exists d, co_distanceTo eps c (Some p) = Ok d /\ least_distance (on_ray a (add3 (scale3 (cos t) h) (scale3 (sin t) n))) p d.
Proof.
  intros Ec Hk Hu Hp Hd Ct Eh Hh Un Dn En. unfold co_distanceTo. cbn [needd bind]. rewrite (co_data_ok eps c a u t k Ec Hk Hu). cbn [bind].
  rewrite (proj2 (v3_eqb_false p a) Hp), Rltb_f by exact Hd. cbv zeta. rewrite En, Eh.
  rewrite (in_unit_spec _ _ Radian Hk) by discriminate. cbn [bind units_per_turn].
  replace (t / (2 * PI) * (2 * PI)) with t by (field; pose proof PI_RGT_0; lra).
  unfold tan_. rewrite (proj2 (Reqb_false (cos t) 0)) by lra. cbn [bind].
  rewrite (edge_direction h n t Hh Un Dn Ct). destruct (edge_unit h n t Hh Un Dn) as [W _].
  rewrite (ray_of_unit a _ W). cbn [bind]. apply c49_ray. split; [reflexivity | exact W].
Qed.
Lemma cross_other u eps : 0 < eps < 1 -> eps <= sqnorm3 u -> norm3 (cross3 u (V3 1 0 0)) <= eps -> 0 < sqnorm3 (cross3 u (V3 0 1 0)).
Proof.
  intros He Hu H.
  assert (Q : sqnorm3 (cross3 u (V3 1 0 0)) <= eps * eps).
  { rewrite <- norm3_sq. pose proof (norm3_nonneg (cross3 u (V3 1 0 0))). nra. }
  assert (X : sqnorm3 (cross3 u (V3 1 0 0)) = vy u * vy u + vz u * vz u) by v3ring.
  assert (Y : sqnorm3 (cross3 u (V3 0 1 0)) = vx u * vx u + vz u * vz u) by v3ring.
  assert (S : sqnorm3 u = vx u * vx u + vy u * vy u + vz u * vz u) by v3ring.
  rewrite X in Q. rewrite Y. rewrite S in Hu. clear X Y S H. assert (eps * eps < eps) by nra. pose proof (VecProofs.sq_nonneg (vz u)). lra.
Qed.
Lemma least_distance_self (S : v3 -> Prop) p : S p -> least_distance S p 0.
Proof.
  intros H. split; [exists p; split; [exact H |] |]; [unfold dist3; rewrite sub_self; apply norm3_zero | intros q _; apply norm3_nonneg].
Qed.
Lemma on_apex a u t : on_cone a u t a.
Proof. unfold on_cone. rewrite sub_self, norm3_zero, dot_zero. ring. Qed.
(** In front of the apex, away from the axis or on it. *)
Lemma c56_front_partial eps c a u t p : 0 < eps < 1 -> good_cone eps c a u t -> 0 <= t < PI / 2 -> 0 <= dot3 (sub3 p a) u ->
  eps < norm3 (cross3 u (sub3 p a)) \/ cross3 u (sub3 p a) = zero3 ->
  exists d, co_distanceTo eps c (Some p) = Ok d /\ least_distance (on_cone a u t) p d.
Proof.
  intros He (k & Ec & Hk & Hu) Ht Hd Hc. pose proof PI_RGT_0. assert (Ct : 0 < cos t) by (apply cos_gt_0; lra).
  assert (Qu : 0 < sqnorm3 u) by lra. pose proof (norm3_pos u Qu) as Pu. destruct (axis_unit u Qu) as (h & Eh & Hh & Eu).
  destruct (v3_eq_dec p a) as [-> | Np].
  { exists 0. split; [| apply least_distance_self, on_apex]. unfold co_distanceTo. cbn [needd bind]. rewrite (co_data_ok eps c a u t k Ec Hk Hu). cbn [bind].
    rewrite v3_eqb_refl. reflexivity. }
  set (v := sub3 p a) in *.
  assert (exists n, (if Rltb eps (norm3 (cross3 u v)) then normalized3 (cross3 (cross3 u v) u)
     else if Rltb eps (norm3 (cross3 u (V3 1 0 0))) then normalized3 (cross3 (cross3 u (V3 1 0 0)) u)
     else normalized3 (cross3 (cross3 u (V3 0 1 0)) u)) = n
     /\ sqnorm3 n = 1 /\ dot3 n h = 0 /\ v = add3 (scale3 (dot3 v h) h) (scale3 (dot3 v n) n) /\ 0 <= dot3 v n) as (n & En & Un & Dn & Vn & Pn).
  { destruct Hc as [Hc | Hc].
    - rewrite Rltb_t by exact Hc. eexists. split; [reflexivity |]. apply decompose; try assumption. rewrite <- norm3_sq. pose proof (norm3_nonneg (cross3 u v)). nra.
    - rewrite Hc, norm3_zero, Rltb_f by lra.
      assert (X : forall w, 0 < sqnorm3 (cross3 u w) -> let n := normalized3 (cross3 (cross3 u w) u) in
        sqnorm3 n = 1 /\ dot3 n h = 0 /\ v = add3 (scale3 (dot3 v h) h) (scale3 (dot3 v n) n) /\ 0 <= dot3 v n).
      { intros w Hw n. destruct (normalized_perp u (cross3 (cross3 u w) u) h) as (Un & Dn & _).
        - rewrite across_sq. apply Rmult_lt_0_compat; assumption.
        - apply across_perp.
        - exact Pu.
        - exact Eu.
        - split; [exact Un |]. split; [exact Dn |]. apply (decompose_axis u h v n Hh Pu Eu Hc Un Dn). }
      destruct (Rltb eps (norm3 (cross3 u (V3 1 0 0)))) eqn:B.
      + apply Rltb_true in B. eexists. split; [reflexivity |]. apply X. rewrite <- norm3_sq. nra.
      + apply Rltb_false in B. eexists. split; [reflexivity |]. apply X. apply (cross_other u eps He Hu B). }
  destruct (co_distance_case eps c a u t k p n h Ec Hk Hu Np Hd Ct Eh Hh Un Dn En) as (d & Ed & Ld).
  exists d. split; [exact Ed |]. apply (nearest_ray a h n u p t d Hh Un Dn ltac:(lra) Pu Eu (conj Vn Pn) Ld).
Qed.
Lemma dot_subs v y h p q : dot3 (sub3 v (scale3 p h)) (sub3 y (scale3 q h)) = dot3 v y - q * dot3 v h - p * dot3 y h + p * q * dot3 h h.
Proof. v3ring. Qed.
(** Behind the apex, where the apex is the nearest point. *)
Lemma behind_dot h v y t : sqnorm3 h = 1 -> 0 <= t <= PI / 2 -> dot3 v h <= - (norm3 v * sin t) -> norm3 y * cos t = dot3 y h -> dot3 v y <= 0.
Proof.
  intros Hh Ht Hv Hy. pose proof (sin_nonneg t Ht) as S. pose proof (acute_cos t Ht) as C. pose proof (sin_cos t) as SC.
  pose proof (norm3_nonneg v) as Nv. pose proof (norm3_nonneg y) as Ny.
  set (vp := sub3 v (scale3 (dot3 v h) h)). set (yp := sub3 y (scale3 (dot3 y h) h)).
  assert (P : forall w, sqnorm3 (sub3 w (scale3 (dot3 w h) h)) = sqnorm3 w - dot3 w h * dot3 w h).
  { intros w. rewrite sqnorm3_sub, sqnorm3_scale, dot3_scale_r, Hh. ring. }
  assert (D : dot3 v y = dot3 v h * dot3 y h + dot3 vp yp).
  { unfold vp, yp. rewrite dot_subs, (unit_dot h Hh). ring. }
  assert (Bv : norm3 vp <= norm3 v * cos t).
  { apply sqrt_le_sq; [apply Rmult_le_pos; lra | apply norm3_nonneg |]. rewrite norm3_sq. unfold vp. rewrite P, <- norm3_sq.
    assert (norm3 v * sin t * (norm3 v * sin t) <= dot3 v h * dot3 v h) by (assert (0 <= norm3 v * sin t) by (apply Rmult_le_pos; lra); nra).
    replace (norm3 v * cos t * (norm3 v * cos t)) with (norm3 v * norm3 v - norm3 v * sin t * (norm3 v * sin t))
      by (replace (norm3 v * sin t * (norm3 v * sin t)) with (norm3 v * norm3 v * (sin t * sin t)) by ring; rewrite SC; ring). lra. }
  assert (By : norm3 yp <= norm3 y * sin t).
  { apply sqrt_le_sq; [apply Rmult_le_pos; lra | apply norm3_nonneg |]. rewrite norm3_sq. unfold yp. rewrite P, <- norm3_sq, <- Hy.
    replace (norm3 y * sin t * (norm3 y * sin t)) with (norm3 y * norm3 y * (sin t * sin t)) by ring. rewrite SC. lra. }
  pose proof (dot3_le_norms vp yp) as Cs. pose proof (norm3_nonneg vp). pose proof (norm3_nonneg yp).
  assert (norm3 vp * norm3 yp <= norm3 v * cos t * (norm3 y * sin t)) by (apply Rmult_le_compat; assumption).
  assert (dot3 v h * dot3 y h <= - (norm3 v * sin t) * (norm3 y * cos t)).
  { rewrite <- Hy. apply Rmult_le_compat_r; [apply Rmult_le_pos; lra | exact Hv]. }
  rewrite D. lra.
Qed.
Lemma c56_behind_partial eps c a u t p : 0 < eps -> good_cone eps c a u t -> 0 <= t <= PI / 2 -> dot3 (sub3 p a) u < 0 ->
  dot3 (sub3 p a) u <= norm3 (sub3 p a) * norm3 u * cos (t + PI / 2) ->
  exists d, co_distanceTo eps c (Some p) = Ok d /\ least_distance (on_cone a u t) p d.
Proof.
  intros He (k & Ec & Hk & Hu) Ht Hd Hb.
  assert (Qu : 0 < sqnorm3 u) by lra. pose proof (norm3_pos u Qu) as Pu. destruct (axis_unit u Qu) as (h & Eh & Hh & Eu).
  unfold co_distanceTo. cbn [needd bind]. rewrite (co_data_ok eps c a u t k Ec Hk Hu). cbn [bind].
  destruct (v3_eqb p a) eqn:Ep; [apply v3_eqb_iff in Ep; subst p; rewrite sub_self, dot_zero in Hd; lra |].
  rewrite Rltb_t by exact Hd. eexists. split; [reflexivity |]. split; [exists a; split; [apply on_apex | reflexivity] |].
  intros q Hq. apply (on_cone_unit a u h t q Pu Eu) in Hq. apply norm3_le.
  replace (sub3 p q) with (add3 (scale3 1 (sub3 p a)) (scale3 (-1) (sub3 q a))) by (clear; v3ring). rewrite sqnorm_comb.
  assert (Hv : dot3 (sub3 p a) h <= - (norm3 (sub3 p a) * sin t)).
  { rewrite cos_plus, cos_PI2, sin_PI2 in Hb. rewrite (dot_unit_axis _ u h Eu) in Hb. apply (Rmult_le_reg_l (norm3 u)); [exact Pu |]. lra. }
  pose proof (behind_dot h _ _ t Hh Ht Hv Hq) as D. pose proof (sqnorm3_nonneg (sub3 q a)). lra.
Qed.
(** Behind the apex but closer to the cone than to the apex. *)
Lemma cos45 : cos (PI / 4) * cos (PI / 4) = 1 / 2.
Proof.
  pose proof (cos_2a (PI / 4)) as H. replace (2 * (PI / 4)) with (PI / 2) in H by field. rewrite cos_PI2 in H.
  pose proof (sin_cos (PI / 4)). lra.
Qed.
Lemma cone_z_45 x : 0 <= x -> forall s, s * s = 1 -> on_cone zero3 (V3 0 0 1) (PI / 4) (V3 (s * x) 0 x).
Proof.
  intros Hx s Hs. unfold on_cone. rewrite sub_zero, (norm_axis 1) by lra. pose proof PI_RGT_0. assert (C : 0 < cos (PI / 4)) by (apply cos_gt_0; lra).
  pose proof cos45 as Q. assert (N : norm3 (V3 (s * x) 0 x) = 2 * x * cos (PI / 4)).
  { unfold norm3. replace (sqnorm3 (V3 (s * x) 0 x)) with ((2 * x * cos (PI / 4)) * (2 * x * cos (PI / 4))).
    - apply sqrt_square. apply Rmult_le_pos; lra.
    - unfold sqnorm3. v3unfold. replace (2 * x * cos (PI / 4) * (2 * x * cos (PI / 4))) with (4 * (x * x) * (cos (PI / 4) * cos (PI / 4))) by ring.
      rewrite Q. replace (s * x * (s * x)) with (s * s * (x * x)) by ring. rewrite Hs. field. }
  rewrite N. unfold dot3. cbn [vx vy vz]. replace (2 * x * cos (PI / 4) * 1 * cos (PI / 4)) with (2 * x * (cos (PI / 4) * cos (PI / 4))) by ring. rewrite Q. field.
Qed.
Lemma c56_behind_refuted eps : 0 < eps <= 1 -> exists c a u t p q d, good_cone eps c a u t /\ 0 <= t < PI / 2
  /\ co_distanceTo eps c (Some p) = Ok d /\ on_cone a u t q /\ dist3 p q < d.
Proof.
  intros He. pose proof PI_RGT_0. set (p := V3 1 0 (- (1 / 10))).
  exists (cone_z (Radians (PI / 4))), zero3, (V3 0 0 1), (PI / 4), p, (V3 (1 * (1 / 2)) 0 (1 / 2)), (norm3 p).
  pose proof (cone_z_good eps (PI / 4) ltac:(lra)) as G. split; [exact G |]. split; [lra |]. split.
  - destruct G as (k & Ec & Hk & Hu). unfold co_distanceTo. cbn [needd bind]. rewrite (co_data_ok eps _ _ _ _ _ Ec Hk Hu). cbn [bind].
    rewrite sub_zero. destruct (v3_eqb p zero3) eqn:Z; [apply v3_eqb_iff in Z; unfold p, zero3 in Z; injection Z; intros; exfalso; lra |].
    rewrite Rltb_t; [reflexivity |]. unfold p, dot3. cbn [vx vy vz]. lra.
  - split; [apply cone_z_45; lra |]. unfold dist3, norm3. apply sqrt_lt_1; unfold p, sqnorm3, dot3, sub3; cbn [vx vy vz]; lra.
Qed.
(** Close to the axis (but not on it) the wrong half line may be used. *)
Lemma c56_axis_witness eps : 0 < eps < 1 -> exists q d, co_distanceTo eps (cone_z (Radians (PI / 4))) (Some (V3 (- eps) 0 1)) = Ok d
  /\ on_cone zero3 (V3 0 0 1) (PI / 4) q /\ dist3 (V3 (- eps) 0 1) q < d.
Proof.
  intros He. pose proof PI_RGT_0. set (p := V3 (- eps) 0 1). set (s := (1 + eps) / 2).
  pose proof (cone_z_good eps (PI / 4) ltac:(lra)) as G. destruct G as (k & Ec & Hk & Hu). pose proof cos45 as Q.
  assert (C : 0 < cos (PI / 4)) by (apply cos_gt_0; lra).
  assert (Ux : sqnorm3 (V3 1 0 0) = 1) by (v3unfold; ring). assert (Uz : sqnorm3 (V3 0 0 1) = 1) by (v3unfold; ring).
  destruct (co_distance_case eps (cone_z (Radians (PI / 4))) zero3 (V3 0 0 1) (PI / 4) k p (V3 1 0 0) (V3 0 0 1) Ec Hk Hu) as (d & Ed & Ld).
  - unfold p, zero3. intros E. injection E. intros. lra.
  - rewrite sub_zero. unfold p, dot3. cbn [vx vy vz]. lra.
  - exact C.
  - rewrite <- (scale3_1 (V3 0 0 1)) at 1. apply normalized_scaled; [lra | exact Uz].
  - exact Uz.
  - exact Ux.
  - v3unfold. ring.
  - rewrite sub_zero.
    replace (norm3 (cross3 (V3 0 0 1) p)) with eps.
    2: { unfold norm3. replace (sqnorm3 (cross3 (V3 0 0 1) p)) with (eps * eps) by (unfold p; v3unfold; ring). symmetry. apply sqrt_square. lra. }
    rewrite Rltb_f by lra.
    replace (norm3 (cross3 (V3 0 0 1) (V3 1 0 0))) with 1.
    2: { unfold norm3. replace (sqnorm3 (cross3 (V3 0 0 1) (V3 1 0 0))) with 1 by (v3unfold; ring). symmetry. apply sqrt_1. }
    rewrite Rltb_t by lra. replace (cross3 (cross3 (V3 0 0 1) (V3 1 0 0)) (V3 0 0 1)) with (V3 1 0 0) by (v3unfold; f_equal; ring).
    rewrite <- (scale3_1 (V3 1 0 0)) at 1. apply normalized_scaled; [lra | exact Ux].
  - fold p. exists (V3 ((-1) * s) 0 s), d. split; [exact Ed |]. split; [apply cone_z_45; unfold s; lra |].
    destruct Ld as [(q & (r & Hr & ->) & <-) _]. unfold dist3, norm3. apply sqrt_lt_1; try apply sqnorm3_nonneg.
    destruct (edge_unit (V3 0 0 1) (V3 1 0 0) (PI / 4) Uz Ux ltac:(v3unfold; ring)) as [W _]. rewrite sqdist_along, sub_zero by exact W.
    assert (SC : sin (PI / 4) = cos (PI / 4)).
    { pose proof (sin_cos (PI / 4)) as SC. assert (S : 0 <= sin (PI / 4)) by (apply sin_nonneg; lra). nra. }
    rewrite SC.
    replace (dot3 p (add3 (scale3 (cos (PI / 4)) (V3 0 0 1)) (scale3 (cos (PI / 4)) (V3 1 0 0)))) with ((1 - eps) * cos (PI / 4)) by (unfold p; v3unfold; ring).
    replace (sqnorm3 p) with (1 + eps * eps) by (unfold p; v3unfold; ring).
    replace (sqnorm3 (sub3 p (V3 (-1 * s) 0 s))) with ((1 - eps) * (1 - eps) / 2) by (unfold p, s; v3unfold; field).
    set (x := cos (PI / 4)) in *. pose proof (VecProofs.sq_nonneg (r - (1 - eps) * x)) as Sq.
    replace ((r - (1 - eps) * x) * (r - (1 - eps) * x)) with (r * r - 2 * r * ((1 - eps) * x) + (1 - eps) * (1 - eps) * (x * x)) in Sq by ring.
    rewrite Q in Sq. assert ((1 - eps) * (1 - eps) < 1 + eps * eps) by nra. lra.
Qed.
Lemma c56_axis_refuted eps : 0 < eps < 1 -> exists c a u t p q d, good_cone eps c a u t /\ 0 <= t < PI / 2
  /\ co_distanceTo eps c (Some p) = Ok d /\ on_cone a u t q /\ dist3 p q < d.
Proof.
  intros He. pose proof PI_RGT_0. destruct (c56_axis_witness eps He) as (q & d & Ed & Hq & Dq).
  exists (cone_z (Radians (PI / 4))), zero3, (V3 0 0 1), (PI / 4), (V3 (- eps) 0 1), q, d.
  split; [apply cone_z_good; lra |]. split; [lra |]. split; [exact Ed |]. split; assumption.
Qed.
Lemma c56_apex eps c a u t : good_cone eps c a u t -> co_distanceTo eps c (Some a) = Ok 0.
Proof.
  intros (k & Ec & Hk & Hu). unfold co_distanceTo. cbn [needd bind]. rewrite (co_data_ok eps c a u t k Ec Hk Hu). cbn [bind]. rewrite v3_eqb_refl. reflexivity.
Qed.
