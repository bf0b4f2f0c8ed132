(** Proofs about cones and spheres. *)

From Coq Require Import List Bool Reals Lra Lia Psatz ZArith.
From Verif Require Import Result DOrder Vec VecProofs AngleModel AngleSpec AngleProofs AngleProofs2 RotModel RotProofs Geo3Types Geo3Model Geo3Spec
  Geo3Proofs Geo3Proofs2 SphereModel SphereSpec EllModel InterModel ConeModel ConeSpec ConeProofs ConeProofs2 ConeProofs3.
Import ListNotations.
Local Open Scope R_scope.

(** Every vector splits along the axis and across it. *)
Lemma splits h y : sqnorm3 h = 1 -> exists n, sqnorm3 n = 1 /\ dot3 n h = 0 /\ y = add3 (scale3 (dot3 y h) h) (scale3 (dot3 y n) n) /\ 0 <= dot3 y n.
Proof.
  intros Hh. pose proof (norm_unit h Hh) as Nh. assert (Eh : h = scale3 (norm3 h) h) by (rewrite Nh, scale3_1; reflexivity).
  destruct (Req_dec (sqnorm3 (cross3 h y)) 0) as [Z | Z].
  - apply sqnorm3_0 in Z. destruct (perp h Hh) as (n & Un & Dn). exists n. split; [exact Un |]. split; [exact Dn |].
    apply (decompose_axis h h y n Hh ltac:(lra) Eh Z Un Dn).
  - exists (normalized3 (cross3 (cross3 h y) h)). apply (decompose h h y); try assumption; [lra |]. pose proof (sqnorm3_nonneg (cross3 h y)). lra.
Qed.
Lemma split_norm h n y : sqnorm3 h = 1 -> sqnorm3 n = 1 -> dot3 n h = 0 -> y = add3 (scale3 (dot3 y h) h) (scale3 (dot3 y n) n) ->
  norm3 y * norm3 y = dot3 y h * dot3 y h + dot3 y n * dot3 y n.
Proof. intros Hh Hn D E. rewrite norm3_sq. rewrite E at 1. rewrite sqnorm_comb, Hh, Hn, (dot3_sym h n), D. ring. Qed.
Lemma sq_eq x y : 0 <= x -> 0 <= y -> x * x = y * y -> x = y.
Proof. intros. apply Rsqr_inj; assumption. Qed.
Lemma sq_mono x y : 0 <= x -> x <= y -> x * x <= y * y.
Proof. intros. apply Rmult_le_compat; assumption. Qed.
(** A point of the cone. *)
Lemma on_cone_split h y t : sqnorm3 h = 1 -> 0 <= t <= PI / 2 -> norm3 y * cos t = dot3 y h ->
  exists n, sqnorm3 n = 1 /\ dot3 n h = 0 /\ y = scale3 (norm3 y) (add3 (scale3 (cos t) h) (scale3 (sin t) n)).
Proof.
  intros Hh Ht Hy. destruct (splits h y Hh) as (n & Un & Dn & Ey & Py). exists n. split; [exact Un |]. split; [exact Dn |].
  pose proof (split_norm h n y Hh Un Dn Ey) as Q. pose proof (norm3_nonneg y) as Ny. pose proof (sin_nonneg t Ht) as S. pose proof (sin_cos t) as SC.
  assert (N : dot3 y n = norm3 y * sin t).
  { apply sq_eq; [exact Py | apply Rmult_le_pos; assumption |]. replace (norm3 y * sin t * (norm3 y * sin t)) with (norm3 y * norm3 y * (sin t * sin t)) by ring.
    rewrite SC, <- Hy in *. lra. }
  rewrite scale_add, !scale3_scale, <- N, Hy. exact Ey.
Qed.

(** *** Containment of spheres *)
(** Outside the solid cone, as close as wanted to a point of the cone. *)
Lemma outward a u t c q r : 0 < sqnorm3 u -> 0 <= t < PI / 2 -> on_cone a u t q -> dist3 c q < r -> exists x, dist3 x c <= r /\ ~ solid_cone a u t x.
Proof.
  intros Qu Ht Hq Hr. pose proof PI_RGT_0. assert (Ct : 0 < cos t) by (apply cos_gt_0; lra). assert (S : 0 <= sin t) by (apply sin_nonneg; lra).
  pose proof (norm3_pos u Qu) as Pu. destruct (axis_unit u Qu) as (h & _ & Hh & Eu).
  apply (on_cone_unit a u h t q Pu Eu) in Hq. set (y := sub3 q a) in *. set (s := r - dist3 c q). assert (Ps : 0 < s) by (unfold s; lra).
  assert (exists m, norm3 m = s /\ ~ norm3 (add3 y m) * cos t <= dot3 (add3 y m) h) as (m & Nm & Om).
  { pose proof (norm3_nonneg y) as Ny. destruct (Req_dec (norm3 y) 0) as [Z | Z].
    - assert (Y0 : y = zero3) by (apply norm3_0; exact Z). rewrite Y0. exists (scale3 (- s) h). rewrite norm3_scale, (norm_unit h Hh), Rabs_Ropp, Rabs_right by lra.
      split; [ring |]. replace (add3 zero3 (scale3 (- s) h)) with (scale3 (- s) h) by (clear; v3ring).
      rewrite norm3_scale, (norm_unit h Hh), Rabs_Ropp, Rabs_right, dot3_scale_l, (unit_dot h Hh) by lra. intros C. assert (0 < s * cos t) by (apply Rmult_lt_0_compat; assumption). lra.
    - destruct (on_cone_split h y t Hh ltac:(lra) Hq) as (n & Un & Dn & Ey). set (l := norm3 y) in *.
      pose proof (sin_cos t) as SC. exists (scale3 s (add3 (scale3 (- sin t) h) (scale3 (cos t) n))).
      assert (Um : sqnorm3 (add3 (scale3 (- sin t) h) (scale3 (cos t) n)) = 1) by (rewrite sqnorm_comb, Hh, Un, (dot3_sym h n), Dn; lra).
      assert (Dm : dot3 (add3 (scale3 (- sin t) h) (scale3 (cos t) n)) h = - sin t) by (rewrite dot_add, !dot3_scale_l, Dn, (unit_dot h Hh); ring).
      assert (Dy : dot3 y (add3 (scale3 (- sin t) h) (scale3 (cos t) n)) = 0).
      { rewrite Ey, dot3_scale_l. rewrite dot_add, !dot3_scale_l, !(dot3_sym _ (add3 _ _)), !dot_add, !dot3_scale_l, (unit_dot h Hh), (unit_dot n Un), (dot3_sym h n), Dn. ring. }
      set (m := add3 (scale3 (- sin t) h) (scale3 (cos t) n)) in *.
      split; [rewrite norm3_scale, (norm_unit m Um), Rabs_right by lra; ring |].
      replace (add3 y (scale3 s m)) with (add3 (scale3 1 y) (scale3 s m)) by (rewrite scale3_1; reflexivity).
      rewrite dot_add, !dot3_scale_l, Dm, <- Hq. intros C.
      assert (L : l < norm3 (add3 (scale3 1 y) (scale3 s m))).
      { unfold l, norm3. apply sqrt_lt_1; try apply sqnorm3_nonneg. rewrite sqnorm_comb, Um, Dy. assert (0 < s * s) by (apply Rmult_lt_0_compat; assumption). lra. }
      assert (l * cos t < norm3 (add3 (scale3 1 y) (scale3 s m)) * cos t) by (apply Rmult_lt_compat_r; assumption).
      assert (0 <= s * sin t) by (apply Rmult_le_pos; lra). lra. }
  exists (add3 q m). split.
  - unfold dist3. replace (sub3 (add3 q m) c) with (add3 (sub3 q c) m) by (clear; v3ring). eapply Rle_trans; [apply norm3_triangle |]. rewrite Nm.
    replace (norm3 (sub3 q c)) with (dist3 c q) by (apply dist3_sym). unfold s. lra.
  - intros C. apply (solid_cone_unit a u h t _ Pu Eu) in C. apply Om. replace (add3 y m) with (sub3 (add3 q m) a) by (unfold y; clear; v3ring). exact C.
Qed.
(** Inside, the distance to the cone bounds the balls contained. *)
Lemma inside a u t c x d : 0 < sqnorm3 u -> 0 <= t < PI / 2 -> solid_cone a u t c -> least_distance (on_cone a u t) c d -> dist3 x c <= d -> solid_cone a u t x.
Proof.
  intros Qu Ht Hc [_ Hd] Hx. pose proof PI_RGT_0. assert (Ct : 0 < cos t) by (apply cos_gt_0; lra). assert (S : 0 <= sin t) by (apply sin_nonneg; lra).
  pose proof (norm3_pos u Qu) as Pu. destruct (axis_unit u Qu) as (h & _ & Hh & Eu). pose proof (sin_cos t) as SC.
  pose proof Hc as Hc'. apply (solid_cone_unit a u h t c Pu Eu) in Hc. apply (solid_cone_unit a u h t x Pu Eu).
  set (v := sub3 c a) in *. set (y := sub3 x a).
  destruct (splits h v Hh) as (n & Un & Dn & Ev & Pv). destruct (edge_unit h n t Hh Un Dn) as [W1 W2].
  set (w := add3 (scale3 (cos t) h) (scale3 (sin t) n)) in *.
  assert (Vh : 0 <= dot3 v h) by (pose proof (norm3_nonneg v); assert (0 <= norm3 v * cos t) by (apply Rmult_le_pos; lra); lra).
  assert (Vw : dot3 v w = cos t * dot3 v h + sin t * dot3 v n).
  { unfold w. rewrite dot3_sym, dot_add, !dot3_scale_l, (dot3_sym h v), (dot3_sym n v). ring. }
  assert (Pw : 0 <= dot3 v w) by (rewrite Vw; assert (0 <= cos t * dot3 v h) by (apply Rmult_le_pos; lra); assert (0 <= sin t * dot3 v n) by (apply Rmult_le_pos; lra); lra).
  pose proof (split_norm h n v Hh Un Dn Ev) as Qv.
  set (e := sin t * dot3 v h - cos t * dot3 v n).
  assert (Pe : 0 <= e).
  { assert (Q : cos t * dot3 v n * (cos t * dot3 v n) <= sin t * dot3 v h * (sin t * dot3 v h)).
    { replace (sin t * dot3 v h * (sin t * dot3 v h)) with (sin t * sin t * (dot3 v h * dot3 v h)) by ring. rewrite SC.
      replace (cos t * dot3 v n * (cos t * dot3 v n)) with (cos t * cos t * (dot3 v n * dot3 v n)) by ring.
      replace (dot3 v n * dot3 v n) with (norm3 v * norm3 v - dot3 v h * dot3 v h) by lra.
      assert (norm3 v * cos t * (norm3 v * cos t) <= dot3 v h * dot3 v h).
      { apply sq_mono; [apply Rmult_le_pos; [apply norm3_nonneg | lra] | exact Hc]. }
      lra. }
    assert (cos t * dot3 v n <= sin t * dot3 v h).
    { apply sqrt_le_sq; [apply Rmult_le_pos; lra | apply Rmult_le_pos; lra | exact Q]. }
    unfold e. lra. }
  assert (De : d <= e).
  { eapply Rle_trans; [apply (Hd (along a (dot3 v w) w)) |].
    - apply (on_cone_unit a u h t _ Pu Eu). rewrite along_sub, norm3_scale, (norm_unit w W1), dot3_scale_l, W2, Rabs_right by lra. ring.
    - unfold dist3. apply sqrt_le_sq; [exact Pe | apply norm3_nonneg |]. rewrite norm3_sq, (sqdist_along a c _ w W1). fold v. rewrite <- (norm3_sq v), Qv, Vw. unfold e.
      apply Req_le. assert (X : cos t * cos t + sin t * sin t = 1) by lra.
      transitivity ((cos t * cos t + sin t * sin t) * (dot3 v h * dot3 v h + dot3 v n * dot3 v n) - (cos t * dot3 v h + sin t * dot3 v n) * (cos t * dot3 v h + sin t * dot3 v n)); [rewrite X; ring | ring]. }
  destruct (splits h y Hh) as (n' & Un' & Dn' & Ey & Py). pose proof (split_norm h n' y Hh Un' Dn' Ey) as Qy.
  destruct (Req_dec t 0) as [T0 | T0].
  { assert (Ee : e = - dot3 v n) by (unfold e; rewrite T0, sin_0, cos_0; ring). assert (d <= 0) by lra.
    assert (D0 : dist3 x c = 0) by (pose proof (norm3_nonneg (sub3 x c) : 0 <= dist3 x c); lra). apply norm3_0, sub3_0 in D0. unfold y. rewrite D0. exact Hc. }
  assert (St : 0 < sin t) by (apply sin_gt_0; lra).
  assert (Y : cos t * dot3 y n' <= sin t * dot3 y h).
  { set (m := add3 (scale3 (sin t) h) (scale3 (- cos t) n')).
    assert (Um : sqnorm3 m = 1) by (unfold m; rewrite sqnorm_comb, Hh, Un', (dot3_sym h n'), Dn'; lra).
    assert (Dm : forall z, dot3 z m = sin t * dot3 z h - cos t * dot3 z n').
    { intros z. unfold m. rewrite dot3_sym, dot_add, !dot3_scale_l, (dot3_sym h z), (dot3_sym n' z). ring. }
    assert (Vm : e <= dot3 v m).
    { rewrite Dm. unfold e.
      assert (dot3 v n' <= dot3 v n).
      { rewrite Ev at 1. rewrite dot_add, !dot3_scale_l, (dot3_sym h n'), Dn'. pose proof (dot3_le_norms n n') as C. rewrite (norm_unit n Un), (norm_unit n' Un') in C.
        apply (Rmult_le_compat_l (dot3 v n)) in C; [| exact Pv]. lra. }
      assert (cos t * dot3 v n' <= cos t * dot3 v n) by (apply Rmult_le_compat_l; lra). lra. }
    assert (Z : dot3 y m = dot3 v m + dot3 (sub3 x c) m).
    { replace y with (add3 v (sub3 x c)) by (unfold y, v; clear; v3ring). apply dot_add. }
    pose proof (cauchy3_norm (sub3 x c) m) as C. rewrite (norm_unit m Um), Rmult_1_r in C. fold (dist3 x c) in C.
    assert (- dist3 x c <= dot3 (sub3 x c) m) by (unfold Rabs in C; destruct Rcase_abs; lra).
    rewrite Dm in Z. lra. }
  assert (Yh : 0 <= dot3 y h).
  { assert (0 <= cos t * dot3 y n') by (apply Rmult_le_pos; lra). destruct (Rle_dec 0 (dot3 y h)) as [L | L]; [exact L |]. exfalso. apply Rnot_le_lt in L.
    assert (sin t * dot3 y h < 0) by nra. lra. }
  apply sqrt_le_sq; [exact Yh | apply Rmult_le_pos; [apply norm3_nonneg | lra] |].
  assert (Q : cos t * dot3 y n' * (cos t * dot3 y n') <= sin t * dot3 y h * (sin t * dot3 y h)).
  { apply sq_mono; [apply Rmult_le_pos; lra | exact Y]. }
  replace (norm3 y * cos t * (norm3 y * cos t)) with (norm3 y * norm3 y * (cos t * cos t)) by ring. rewrite Qy.
  replace (sin t * dot3 y h * (sin t * dot3 y h)) with (sin t * sin t * (dot3 y h * dot3 y h)) in Q by ring. rewrite SC in Q.
  replace (cos t * dot3 y n' * (cos t * dot3 y n')) with (cos t * cos t * (dot3 y n' * dot3 y n')) in Q by ring. lra.
Qed.
Lemma c94_sphere_partial fuel eps c s a u t q r : 0 < eps < 1 -> good_cone eps c a u t -> 0 <= t < PI / 2 -> good_sphere s q r -> clear_of eps a q ->
  eps < norm3 (cross3 u (sub3 q a)) \/ cross3 u (sub3 q a) = zero3 ->
  exists b, co_contains_sphere fuel eps c s = Ok b /\ (b = true <-> forall x, dist3 x q <= r -> solid_cone a u t x).
Proof.
  intros He G Ht [-> Hr] Hcl Hax. pose proof G as (k & Ec & Hk & Hu). assert (Qu : 0 < sqnorm3 u) by lra.
  unfold co_contains_sphere. cbn [sp_data sp_center sp_radius bind]. rewrite (co_data_ok eps c a u t k Ec Hk Hu). cbn [bind].
  destruct (c54_contains_partial fuel eps c a u t q ltac:(lra) G ltac:(lra) Hcl) as (b & Eb & Hb). rewrite Eb. cbn [bind].
  destruct b; cbn [negb].
  - assert (Sq : solid_cone a u t q) by (apply Hb; reflexivity).
    destruct (c56_front_partial eps c a u t q He G Ht (solid_front a u t q ltac:(lra) Sq) Hax) as (d & Ed & Ld). rewrite Ed. cbn [bind].
    eexists. split; [reflexivity |]. rewrite Rleb_iff. split.
    + intros Hd x Hx. apply (inside a u t q x d Qu Ht Sq Ld). lra.
    + intros Hx. destruct (Rle_dec r d) as [L | L]; [exact L |]. exfalso. apply Rnot_le_lt in L. destruct Ld as [(y & Hy & Dy) _].
      destruct (outward a u t q y r Qu Ht Hy ltac:(lra)) as (x & Dx & Nx). exact (Nx (Hx x Dx)).
  - eexists. split; [reflexivity |]. split; [discriminate |]. intros Hx. apply Hb. apply Hx. unfold dist3. rewrite sub_self, norm3_zero. exact Hr.
Qed.
(** Close to the axis (but not on it) a ball which sticks out is accepted. *)
Lemma c94_sphere_refuted fuel eps : 0 < eps < 1 -> exists c s a u t q r x, good_cone eps c a u t /\ 0 <= t < PI / 2 /\ good_sphere s q r /\ clear_of eps a q
  /\ co_contains_sphere fuel eps c s = Ok true /\ dist3 x q <= r /\ ~ solid_cone a u t x.
Proof.
  intros He. pose proof PI_RGT_0. set (p := V3 (- eps) 0 1).
  assert (exists q d, co_distanceTo eps (cone_z (Radians (PI / 4))) (Some p) = Ok d /\ on_cone zero3 (V3 0 0 1) (PI / 4) q /\ dist3 p q < d) as (q & d & Ed & Hq & Dq).
  { apply c56_axis_witness. exact He. }
  pose proof (cone_z_good eps (PI / 4) ltac:(lra)) as G. pose proof G as (k & Ec & Hk & Hu).
  assert (Qu : 0 < sqnorm3 (V3 0 0 1)) by lra.
  destruct (outward zero3 (V3 0 0 1) (PI / 4) p q d Qu ltac:(lra) Hq Dq) as (x & Dx & Nx).
  assert (Cl : clear_of eps zero3 p).
  { right. rewrite sub_zero. unfold p, sqnorm3, dot3. cbn [vx vy vz]. nra. }
  exists (cone_z (Radians (PI / 4))), (mkSphere (Some p) (Some d)), zero3, (V3 0 0 1), (PI / 4), p, d, x.
  split; [exact G |]. split; [lra |]. split; [split; [reflexivity |]; pose proof (norm3_nonneg (sub3 p q) : 0 <= dist3 p q); lra |]. split; [exact Cl |]. split; [| split; assumption].
  unfold co_contains_sphere. cbn [sp_data sp_center sp_radius bind]. rewrite (co_data_ok eps _ _ _ _ _ Ec Hk Hu). cbn [bind].
  destruct (c54_contains_partial fuel eps _ _ _ _ p ltac:(lra) G ltac:(lra) Cl) as (b & Eb & Hb). rewrite Eb. cbn [bind].
  assert (B : b = true).
  { apply Hb. unfold solid_cone. rewrite sub_zero, (norm_axis 1) by lra. assert (C : 0 < cos (PI / 4)) by (apply cos_gt_0; lra). pose proof cos45 as Q.
    replace (dot3 p (V3 0 0 1)) with 1 by (unfold p, dot3; cbn [vx vy vz]; ring). rewrite Rmult_1_r.
    apply sqrt_le_sq; [lra | apply Rmult_le_pos; [apply norm3_nonneg | lra] |].
    replace (norm3 p * cos (PI / 4) * (norm3 p * cos (PI / 4))) with (norm3 p * norm3 p * (cos (PI / 4) * cos (PI / 4))) by ring. rewrite Q, norm3_sq.
    unfold p, sqnorm3, dot3. cbn [vx vy vz]. nra. }
  rewrite B. cbn [negb]. rewrite Ed. cbn [bind]. rewrite Rleb_t by lra. reflexivity.
Qed.

(** *** Intersection with spheres *)
Lemma angle_triangle a b c : sqnorm3 a = 1 -> sqnorm3 b = 1 -> sqnorm3 c = 1 -> cos (acos (dot3 a b) + acos (dot3 b c)) <= dot3 a c.
Proof.
  intros Ha Hb Hc.
  assert (B : forall v w, sqnorm3 v = 1 -> sqnorm3 w = 1 -> -1 <= dot3 v w <= 1).
  { intros v w Hv Hw. pose proof (cauchy3_norm v w) as C. rewrite (norm_unit v Hv), (norm_unit w Hw) in C. unfold Rabs in C. destruct Rcase_abs; lra. }
  rewrite cos_plus, !cos_acos by (apply B; assumption). rewrite !sin_acos by (apply B; assumption). unfold Rsqr.
  rewrite (dot3_sym b c). set (x := dot3 a b). set (y := dot3 c b).
  assert (P : forall w, sqnorm3 w = 1 -> sqnorm3 (sub3 w (scale3 (dot3 w b) b)) = 1 - dot3 w b * dot3 w b).
  { intros w Hw. rewrite sqnorm3_sub, sqnorm3_scale, dot3_scale_r, Hb, Hw. ring. }
  pose proof (cauchy3_norm (sub3 a (scale3 x b)) (sub3 c (scale3 y b))) as C. unfold norm3 in C. unfold x, y in C. rewrite (P a Ha), (P c Hc) in C. fold x in C. fold y in C.
  rewrite dot_subs, (unit_dot b Hb) in C. fold x in C. fold y in C.
  replace (dot3 a c - y * x - x * y + x * y * 1) with (dot3 a c - x * y) in C by ring. unfold Rabs in C. destruct Rcase_abs; lra.
Qed.
Lemma normalized_dot u h v : normalized3 u = h -> 0 < sqnorm3 v -> dot3 (normalized3 u) (normalized3 v) = dot3 h v / norm3 v.
Proof.
  intros <- Hv. destruct (normalized3_unit v ltac:(apply sqnorm3_pos; exact Hv)) as [_ E]. rewrite E, dot3_scale_r. unfold Rdiv. ring.
Qed.
Lemma ball_angle v y r : 0 <= r < norm3 v -> norm3 (sub3 y v) <= r -> 0 < norm3 y /\ cos (asin (r / norm3 v)) <= dot3 y v / (norm3 y * norm3 v).
Proof.
  intros Hr Hy. set (d := norm3 v) in *.
  assert (Py : 0 < norm3 y).
  { destruct (Req_dec (norm3 y) 0) as [Z | Z]; [| pose proof (norm3_nonneg y); lra]. exfalso. apply norm3_0 in Z. subst y.
    replace (sub3 zero3 v) with (scale3 (-1) v) in Hy by (clear; v3ring). rewrite norm3_scale, Rabs_left in Hy by lra. fold d in Hy. lra. }
  split; [exact Py |].
  assert (Q : 0 <= r / d <= 1).
  { split; [apply Rmult_le_pos; [lra | left; apply Rinv_0_lt_compat; lra] |]. apply (Rmult_le_reg_r d); [lra |]. unfold Rdiv. rewrite Rmult_assoc, Rinv_l by lra. lra. }
  rewrite cos_asin by lra. set (l := norm3 y) in *. set (k := sqrt (1 - Rsqr (r / d))).
  assert (Pk : 0 <= k) by apply sqrt_pos.
  assert (Sk : k * k = 1 - r / d * (r / d)) by (unfold k; apply sqrt_sqrt; unfold Rsqr; nra).
  assert (K : d * k * (d * k) = d * d - r * r).
  { replace (d * k * (d * k)) with (d * d * (k * k)) by ring. rewrite Sk. field. lra. }
  assert (D : l * l - 2 * dot3 y v + d * d <= r * r).
  { unfold l, d. rewrite !norm3_sq. replace (sqnorm3 y - 2 * dot3 y v + sqnorm3 v) with (sqnorm3 (sub3 y v)) by (rewrite sqnorm3_sub; ring).
    rewrite <- norm3_sq. apply sq_mono; [apply norm3_nonneg | exact Hy]. }
  pose proof (VecProofs.sq_nonneg (l - d * k)) as Sq.
  assert (l * (d * k) <= dot3 y v) by nra.
  apply (Rmult_le_reg_r (l * d)); [apply Rmult_lt_0_compat; lra |]. replace (dot3 y v / (l * d) * (l * d)) with (dot3 y v) by (field; lra). lra.
Qed.
Lemma c57_sphere eps c s a u t q r : 0 < eps -> good_cone eps c a u t -> 0 <= t <= PI / 2 -> good_sphere s q r ->
  exists b, co_intersects_sphere c s = Ok b /\ (b = true <-> exists x, dist3 x q <= r /\ solid_cone a u t x).
Proof.
  intros He (k & Ec & Hk & Hu) Ht [-> Hr]. assert (Qu : 0 < sqnorm3 u) by lra. pose proof (norm3_pos u Qu) as Pu. destruct (axis_unit u Qu) as (h & Eh & Hh & Eu).
  pose proof PI_RGT_0 as Ppi.
  unfold co_intersects_sphere. cbn [sp_data sp_center sp_radius bind]. rewrite (co_data_ok eps c a u t k Ec Hk Hu). cbn [bind]. cbv zeta.
  set (v := sub3 q a). set (d := norm3 v). destruct (Rleb d r) eqn:Bd.
  { apply Rleb_iff in Bd. exists true. split; [reflexivity |]. split; [intros _ | reflexivity]. exists a. split; [| apply solid_apex].
    rewrite dist3_sym. exact Bd. }
  assert (Hd : r < d) by (destruct (Rle_dec d r) as [L | L]; [apply Rleb_iff in L; congruence | lra]). clear Bd.
  assert (Qv : 0 < sqnorm3 v) by (rewrite <- norm3_sq; fold d; nra).
  rewrite (normalized_dot u h v Eh Qv). fold d. set (x0 := dot3 h v / d).
  assert (Cx : -1 <= x0 <= 1).
  { unfold x0. pose proof (ratio_bound (dot3 h v) (norm3 h) d) as B. rewrite (norm_unit h Hh) in B. rewrite Rmult_1_l in B. apply B; try lra.
    pose proof (cauchy3_norm h v) as C. rewrite (norm_unit h Hh) in C. fold d in C. lra. }
  assert (Cr : 0 <= r / d < 1).
  { split; [apply Rmult_le_pos; [lra | left; apply Rinv_0_lt_compat; lra] |]. apply (Rmult_lt_reg_r d); [lra |]. unfold Rdiv. rewrite Rmult_assoc, Rinv_l by lra. lra. }
  unfold acos_. destruct Rle_dec as [_ | N]; [| exfalso; apply N; unfold Rabs; destruct Rcase_abs; lra]. cbn [bind].
  unfold div_. rewrite (proj2 (Reqb_false d 0)) by lra. cbn [bind].
  unfold asin_. destruct Rle_dec as [_ | N]; [| exfalso; apply N; unfold Rabs; destruct Rcase_abs; lra]. cbn [bind].
  rewrite (in_unit_spec _ _ Radian Hk) by discriminate. cbn [bind units_per_turn].
  replace (t / (2 * PI) * (2 * PI)) with t by (field; lra).
  eexists. split; [reflexivity |]. rewrite Rleb_iff.
  pose proof (asin_bound_lt (r / d) ltac:(lra)) as Ba.
  assert (Pa : 0 <= asin (r / d)).
  { destruct (Rle_dec 0 (asin (r / d))) as [L | L]; [exact L |]. exfalso. apply Rnot_le_lt in L.
    assert (sin (asin (r / d)) < 0) by (apply sin_lt_0_var; lra). rewrite sin_asin in H by lra. lra. }
  set (al := asin (r / d)) in *. set (f := acos x0) in *. pose proof (acos_bound x0) as Bf. fold f in Bf.
  assert (Cf : cos f = x0) by (unfold f; apply cos_acos; exact Cx).
  assert (Vh : dot3 v h = d * cos f) by (rewrite Cf; unfold x0; rewrite (dot3_sym v h); field; lra).
  split.
  - intros L. destruct (Rle_dec f t) as [F | F].
    + exists q. split; [unfold dist3; rewrite sub_self, norm3_zero; exact Hr |]. apply (solid_cone_unit a u h t q Pu Eu). fold v. fold d. rewrite Vh.
      apply Rmult_le_compat_l; [lra |]. apply (proj1 (cos_le_iff f t Bf ltac:(lra)) F).
    + apply Rnot_le_lt in F. destruct (splits h v Hh) as (n & Un & Dn & Ev & Pv). pose proof (split_norm h n v Hh Un Dn Ev) as Q. fold d in Q.
      assert (Sf : 0 <= sin f) by (apply sin_ge_0; lra).
      assert (Vn : dot3 v n = d * sin f).
      { apply sq_eq; [exact Pv | apply Rmult_le_pos; lra |]. rewrite Vh in Q. pose proof (sin_cos f) as SC.
        replace (d * sin f * (d * sin f)) with (d * d * (sin f * sin f)) by ring. rewrite SC. lra. }
      destruct (edge_unit h n t Hh Un Dn) as [W1 W2].
      assert (Vw : dot3 v (add3 (scale3 (cos t) h) (scale3 (sin t) n)) = d * cos (f - t)).
      { rewrite dot3_sym, dot_add, !dot3_scale_l, (dot3_sym h v), (dot3_sym n v), Vh, Vn, cos_minus. ring. }
      set (w := add3 (scale3 (cos t) h) (scale3 (sin t) n)) in *.
      assert (Cp : 0 <= cos (f - t)) by (apply cos_ge_0; lra).
      exists (along a (d * cos (f - t)) w). assert (Pd : 0 <= d * cos (f - t)) by (apply Rmult_le_pos; lra). split.
      * rewrite dist3_sym. unfold dist3. apply sqrt_le_sq; [exact Hr | apply norm3_nonneg |]. rewrite norm3_sq, (sqdist_along a q _ w W1). fold v. rewrite Vw, <- norm3_sq. fold d.
        assert (Sn : sin (f - t) <= r / d).
        { rewrite <- (sin_asin (r / d)) by lra. fold al. apply sin_incr_1; lra. }
        assert (S0 : 0 <= sin (f - t)) by (apply sin_ge_0; lra). pose proof (sin_cos (f - t)) as SC.
        assert (R0 : d * sin (f - t) <= r).
        { apply (Rmult_le_compat_l d) in Sn; [| lra]. replace (d * (r / d)) with r in Sn by (field; lra). exact Sn. }
        assert (0 <= d * sin (f - t)) by (apply Rmult_le_pos; lra).
        assert (d * sin (f - t) * (d * sin (f - t)) <= r * r) by (apply sq_mono; assumption).
        replace (d * d - 2 * (d * cos (f - t)) * (d * cos (f - t)) + d * cos (f - t) * (d * cos (f - t))) with (d * d * (1 - cos (f - t) * cos (f - t))) by ring.
        rewrite <- SC. lra.
      * apply (solid_cone_unit a u h t _ Pu Eu). rewrite along_sub, norm3_scale, (norm_unit w W1), dot3_scale_l, W2, Rabs_right by lra. lra.
  - intros (x & Dx & Sx). apply (solid_cone_unit a u h t x Pu Eu) in Sx. set (y := sub3 x a) in *.
    assert (Dy : norm3 (sub3 y v) <= r) by (replace (sub3 y v) with (sub3 x q) by (unfold y, v; clear; v3ring); exact Dx).
    destruct (ball_angle v y r ltac:(fold d; lra) Dy) as [Py Ca]. fold d in Ca. fold al in Ca.
    assert (Qy : 0 < sqnorm3 y) by (rewrite <- norm3_sq; nra).
    destruct (axis_unit y Qy) as (yh & _ & Uy & Ey). destruct (axis_unit v Qv) as (vh & _ & Uv & Ev). fold d in Ev.
    pose proof (angle_triangle h yh vh Hh Uy Uv) as T.
    assert (H1 : dot3 h vh = x0).
    { unfold x0. rewrite Ev, dot3_scale_r. field. lra. }
    assert (H2 : cos t <= dot3 h yh).
    { rewrite Ey in Sx at 2. rewrite dot3_scale_l, (dot3_sym yh h) in Sx. apply (Rmult_le_reg_l (norm3 y)); assumption. }
    assert (H3 : cos al <= dot3 yh vh).
    { replace (dot3 yh vh) with (dot3 y v / (norm3 y * d)); [exact Ca |]. rewrite Ey at 1. rewrite Ev, dot3_scale_l, dot3_scale_r. field. split; lra. }
    assert (B : forall v w, sqnorm3 v = 1 -> sqnorm3 w = 1 -> -1 <= dot3 v w <= 1).
    { intros v' w Hv Hw. pose proof (cauchy3_norm v' w) as C. rewrite (norm_unit v' Hv), (norm_unit w Hw) in C. unfold Rabs in C. destruct Rcase_abs; lra. }
    apply (acos_le_iff _ t (B h yh Hh Uy) ltac:(lra)) in H2. apply (acos_le_iff _ al (B yh vh Uy Uv) ltac:(lra)) in H3.
    rewrite H1 in T. pose proof (acos_bound (dot3 h yh)). pose proof (acos_bound (dot3 yh vh)).
    assert (f <= acos (dot3 h yh) + acos (dot3 yh vh)) by (apply acos_le_iff; [exact Cx | lra | exact T]). lra.
Qed.
