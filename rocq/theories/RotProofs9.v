(** Rotations built from vectors (C41, C42), and the other members of the rotation classes. *)

From Coq Require Import List Bool Reals Lra Lia Psatz.
From Verif Require Import Result DOrder Vec VecProofs Mat3 AngleModel AngleSpec AngleProofs AngleProofs2 RotModel RotSpec
  RotProofs RotProofs2 RotProofs3 RotProofs4 RotProofs5 RotProofs6.
Local Open Scope R_scope.

Lemma norm3_pos' v : v <> zero3 -> 0 < norm3 v.
Proof. intros H. apply norm3_pos, sqnorm3_pos, H. Qed.
Lemma normalized3_eq v : v <> zero3 -> normalized3 v = scale3 (/ norm3 v) v.
Proof. intros H. apply sqnorm3_pos in H. unfold normalized3. destruct Rlt_dec; [reflexivity | contradiction]. Qed.
Lemma normalized3_back v : v <> zero3 -> scale3 (norm3 v) (normalized3 v) = v.
Proof.
  intros H. pose proof (norm3_pos' v H). rewrite normalized3_eq, scale3_scale by assumption.
  rewrite Rinv_r by lra. apply scale3_1.
Qed.
Lemma normalized3_1 v : v <> zero3 -> sqnorm3 (normalized3 v) = 1.
Proof. intros H. apply normalized3_unit, norm3_pos', H. Qed.

(** *** C41 *)
Definition half_way (a b : v3) : quat := of_parts (cross3 b a) (1 + dot3 a b).
Lemma half_way_sq a b : sqnorm3 a = 1 -> sqnorm3 b = 1 -> sq (half_way a b) = 2 * (1 + dot3 a b).
Proof.
  intros Ha Hb. transitivity (sqnorm3 (cross3 b a) + (1 + dot3 a b) * (1 + dot3 a b)); [unfold half_way; qring |].
  rewrite lagrange3, Ha, Hb, (dot3_sym b a). ring.
Qed.
Lemma half_way_rot a b : sqnorm3 a = 1 -> sqnorm3 b = 1 -> rot (half_way a b) a = scale3 (2 * (1 + dot3 a b)) b.
Proof.
  intros Ha Hb. unfold half_way. rewrite <- (scale3_1 (cross3 b a)), rot_parts_formula.
  rewrite lagrange3, (dot3_sym b a). 
  assert (D : dot3 (cross3 b a) a = 0) by v3ring.
  assert (C : cross3 (cross3 b a) a = sub3 (scale3 (dot3 a b) a) (scale3 (sqnorm3 a) b)) by v3ring.
  rewrite D, C, Ha, Hb. generalize (dot3 a b). intros d. v3ring.
Qed.
Lemma rot_qscale k q v : rot (qscale k q) v = scale3 (k * k) (rot q v).
Proof. unfold rot, qscale. qring. Qed.

Lemma shortest_eq eps u v : 0 < eps -> u <> zero3 -> v <> zero3 ->
  ShortestRotation eps (Some u) (Some v)
  = let Q := half_way (normalized3 u) (normalized3 v) in
    if Rltb (qnorm Q) eps then Err ERuntime else Ok (qscale (/ qnorm Q) Q).
Proof.
  intros He Hu Hv. unfold ShortestRotation. cbn [needd bind]. change (of_parts _ _) with (half_way (normalized3 u) (normalized3 v)).
  rewrite normalize_eq. reflexivity.
Qed.
Lemma dot3_normalized u v : u <> zero3 -> v <> zero3 -> dot3 (normalized3 u) (normalized3 v) = dot3 u v / (norm3 u * norm3 v).
Proof.
  intros Hu Hv. pose proof (norm3_pos' u Hu). pose proof (norm3_pos' v Hv).
  rewrite !normalized3_eq, dot3_scale_l, dot3_scale_r by assumption. field. lra.
Qed.
Lemma half_way_norm u v : u <> zero3 -> v <> zero3 ->
  qnorm (half_way (normalized3 u) (normalized3 v)) = sqrt (2 * (1 + dot3 u v / (norm3 u * norm3 v))).
Proof.
  intros Hu Hv. rewrite qnorm_sqrt, half_way_sq, dot3_normalized by (try apply normalized3_1; assumption). reflexivity.
Qed.
Lemma scale3_dist k a b : scale3 k (rot a b) = rot a (scale3 k b).
Proof. rewrite <- !rot_matrix. qring. Qed.

(** Any rotation taking one direction to another. *)
Lemma rot_self_dot q v : dot3 v (rot q v) = (qs q * qs q - sqnorm3 (vec q)) * sqnorm3 v + 2 * (dot3 (vec q) v * dot3 (vec q) v).
Proof. rewrite <- rot_matrix. qring. Qed.

Lemma c41_rotates eps u v : 0 < eps -> u <> zero3 -> v <> zero3 ->
  eps * eps <= 2 * (1 + dot3 u v / (norm3 u * norm3 v)) ->
  exists q, ShortestRotation eps (Some u) (Some v) = Ok q /\ unit_q q
    /\ q_rotate eps (Some q) (Some (scale3 (norm3 v) u)) = Ok (scale3 (norm3 u) v)
    /\ dot3 (vec q) u = 0 /\ dot3 (vec q) v = 0 /\ 0 < qs q
    /\ 2 * (qs q * qs q) - 1 = dot3 u v / (norm3 u * norm3 v)
    /\ (forall p, unit_q p -> q_rotate eps (Some p) (Some (scale3 (norm3 v) u)) = Ok (scale3 (norm3 u) v) ->
        Rabs (qs p) <= qs q).
Proof.
  intros He Hu Hv Hc. rewrite shortest_eq by assumption. cbv zeta.
  pose proof (half_way_norm u v Hu Hv) as N. set (Q := half_way (normalized3 u) (normalized3 v)) in *.
  set (d := dot3 u v / (norm3 u * norm3 v)) in *.
  pose proof (norm3_pos' u Hu) as Pu. pose proof (norm3_pos' v Hv) as Pv.
  assert (P : 0 < 2 * (1 + d)) by nra.
  assert (Pn : 0 < qnorm Q) by (rewrite N; apply sqrt_lt_R0; exact P).
  assert (N2 : qnorm Q * qnorm Q = 2 * (1 + d)) by (rewrite N; apply sqrt_sqrt; lra).
  rewrite Rltb_f. 2:{ rewrite N. rewrite <- (sqrt_square eps) by lra. apply sqrt_le_1_alt. exact Hc. }
  assert (S : sq Q = 2 * (1 + d)).
  { unfold Q. rewrite half_way_sq, dot3_normalized by (try apply normalized3_1; assumption). reflexivity. }
  assert (U : unit_q (qscale (/ qnorm Q) Q)) by (unfold unit_q; rewrite sq_qscale, S, <- N2; field; lra).
  assert (R1 : rot (qscale (/ qnorm Q) Q) (normalized3 u) = normalized3 v).
  { rewrite rot_qscale. change (rot Q) with (rot (half_way (normalized3 u) (normalized3 v))).
    rewrite half_way_rot by (apply normalized3_1; assumption).
    rewrite scale3_scale, dot3_normalized by assumption. fold d. rewrite <- N2.
    replace (/ qnorm Q * / qnorm Q * (qnorm Q * qnorm Q)) with 1 by (field; lra). apply scale3_1. }
  assert (Z : dot3 (vec Q) (normalized3 u) = 0 /\ dot3 (vec Q) (normalized3 v) = 0)
    by (unfold Q, half_way; generalize (normalized3 u) (normalized3 v); intros; split; qring).
  destruct Z as [Zu Zv].
  assert (VS : forall k, vec (qscale k Q) = scale3 k (vec Q)) by (intros; unfold qscale; qring).
  assert (QS : qs (qscale (/ qnorm Q) Q) = / qnorm Q * (1 + d)).
  { change (/ qnorm Q * (1 + dot3 (normalized3 u) (normalized3 v)) = / qnorm Q * (1 + d)).
    rewrite dot3_normalized by assumption. reflexivity. }
  assert (QS2 : qs (qscale (/ qnorm Q) Q) * qs (qscale (/ qnorm Q) Q) = (1 + d) / 2).
  { rewrite QS. transitivity ((1 + d) * (1 + d) / (qnorm Q * qnorm Q)); [field; lra |]. rewrite N2. field. lra. }
  assert (QP : 0 < qs (qscale (/ qnorm Q) Q)) by (rewrite QS; apply Rmult_lt_0_compat; [apply Rinv_0_lt_compat |]; lra).
  eexists. split; [reflexivity |]. split; [exact U |]. split; [| split; [| split; [| split; [exact QP | split]]]].
  - rewrite q_rotate_unit by assumption. f_equal.
    rewrite <- (normalized3_back u Hu) at 1. rewrite scale3_scale, <- scale3_dist, R1, Rmult_comm, <- scale3_scale.
    rewrite (normalized3_back v Hv). reflexivity.
  - rewrite VS, dot3_scale_l. rewrite <- (normalized3_back u Hu) at 1. rewrite dot3_scale_r, Zu. ring.
  - rewrite VS, dot3_scale_l. rewrite <- (normalized3_back v Hv) at 1. rewrite dot3_scale_r, Zv. ring.
  - rewrite QS2. field.
  - intros p Hp E. rewrite q_rotate_unit in E by assumption.
    apply (f_equal (fun r => match r with Ok w => w | _ => zero3 end)) in E. cbv beta iota in E. rewrite <- scale3_dist in E.
    pose proof (rot_self_dot p u) as D. apply (f_equal (dot3 u)) in E. rewrite !dot3_scale_r, D in E.
    rewrite (unit_q_vec p Hp), <- (norm3_sq u) in E.
    assert (E2 : dot3 u v = d * (norm3 u * norm3 v)) by (unfold d; field; lra).
    rewrite E2 in E. set (x := dot3 (vec p) u) in *. set (nu := norm3 u) in *. set (nv := norm3 v) in *.
    assert (E3 : (2 * (qs p * qs p) - 1) * (nu * nu) + 2 * (x * x) = d * (nu * nu)).
    { apply (Rmult_eq_reg_l nv); [| lra]. transitivity (nu * (d * (nu * nv))); [rewrite <- E; ring | ring]. }
    assert (L : 2 * (qs p * qs p) - 1 <= d).
    { apply (Rmult_le_reg_r (nu * nu)); [nra |]. pose proof (Rle_0_sqr x). unfold Rsqr in *. lra. }
    apply Rsqr_incr_0_var; [| lra]. rewrite <- Rsqr_abs. unfold Rsqr. rewrite QS2. lra.
Qed.
Lemma c41_error_iff eps u v : 0 < eps -> u <> zero3 -> v <> zero3 ->
  (ShortestRotation eps (Some u) (Some v) = Err ERuntime <-> 2 * (1 + dot3 u v / (norm3 u * norm3 v)) < eps * eps).
Proof.
  intros He Hu Hv. split.
  - intros H. destruct (Rle_lt_dec (eps * eps) (2 * (1 + dot3 u v / (norm3 u * norm3 v)))) as [L | L]; [| exact L].
    destruct (c41_rotates eps u v He Hu Hv L) as (q & E & _). congruence.
  - intros H. rewrite shortest_eq by assumption. cbv zeta. rewrite half_way_norm by assumption. rewrite Rltb_t; [reflexivity |].
    rewrite <- (sqrt_square eps) by lra. apply sqrt_lt_1_alt. split; [| exact H].
    pose proof (dot3_ge_norms u v). pose proof (norm3_pos' u Hu). pose proof (norm3_pos' v Hv).
    assert (-1 <= dot3 u v / (norm3 u * norm3 v)); [| lra].
    apply (Rmult_le_reg_r (norm3 u * norm3 v)); [nra |]. unfold Rdiv. rewrite Rmult_assoc, Rinv_l by nra. lra.
Qed.
Lemma c41_zero eps u : 0 < eps -> eps <= 1 ->
  ShortestRotation eps (Some zero3) (Some u) = Ok q_Unit /\ ShortestRotation eps (Some u) (Some zero3) = Ok q_Unit
  /\ ShortestRotation eps None (Some u) = Err EUndefined /\ ShortestRotation eps (Some u) None = Err EUndefined.
Proof.
  intros He H1. assert (Z : normalized3 zero3 = zero3).
  { unfold normalized3. destruct Rlt_dec; [| reflexivity]. unfold sqnorm3, dot3, zero3 in r. cbn in r. lra. }
  assert (U : unit_q q_Unit) by (unfold unit_q, sq; cbn; ring).
  unfold ShortestRotation. cbn [needd bind]. rewrite Z. generalize (normalized3 u). intros w.
  replace (of_parts (cross3 w zero3) (1 + dot3 zero3 w)) with q_Unit by (unfold zero3; qring).
  replace (of_parts (cross3 zero3 w) (1 + dot3 w zero3)) with q_Unit by (unfold zero3; qring).
  rewrite normalize_unit by assumption. repeat split.
Qed.

(** *** C42 *)
Lemma rotation_cross m v w : is_rotation m -> mulv3 m (cross3 v w) = cross3 (mulv3 m v) (mulv3 m w).
Proof.
  intros H. pose proof (rotation_adj (transpose3 m) (rotation_transpose m H)) as A.
  rewrite transpose3_transpose in A. rewrite <- A at 1. unfold adj3. qring.
Qed.
Definition basis (a c : v3) : m3 := of_rows a (cross3 c a) c.
Lemma basis_rotation a c : sqnorm3 a = 1 -> sqnorm3 c = 1 -> dot3 a c = 0 -> is_rotation (basis a c).
Proof.
  intros Ha Hc H.
  assert (R : is_rotation (transpose3 (basis a c))).
  { split.
    - rewrite transpose3_transpose. unfold basis.
      transitivity (M3 (sqnorm3 a) (dot3 a (cross3 c a)) (dot3 a c) (dot3 a (cross3 c a)) (sqnorm3 (cross3 c a)) (dot3 (cross3 c a) c)
        (dot3 a c) (dot3 (cross3 c a) c) (sqnorm3 c)); [qring |].
      rewrite lagrange3, (dot3_sym c a), Ha, Hc, H. replace (dot3 a (cross3 c a)) with 0 by v3ring.
      replace (dot3 (cross3 c a) c) with 0 by v3ring. unfold id3. apply M3_eq; ring.
    - rewrite det3_transpose. transitivity (sqnorm3 (cross3 c a)); [unfold basis; qring |].
      rewrite lagrange3, (dot3_sym c a), Ha, Hc, H. ring. }
  apply rotation_transpose in R. rewrite transpose3_transpose in R. exact R.
Qed.
Lemma basis_apply a c v : mulv3 (basis a c) v = V3 (dot3 a v) (dot3 (cross3 c a) v) (dot3 c v).
Proof. reflexivity. Qed.
Lemma basis_back a c x y z : mulv3 (transpose3 (basis a c)) (V3 x y z) = add3 (add3 (scale3 x a) (scale3 y (cross3 c a))) (scale3 z c).
Proof. unfold basis. qring. Qed.

(** Not parallel: the cross product is not zero. *)
Lemma cross_nonzero eps u w : 0 < eps -> u <> zero3 -> w <> zero3 -> parallel_b eps u w = false ->
  cross3 (normalized3 u) (normalized3 w) <> zero3.
Proof.
  intros He Hu Hw H. unfold parallel_b in H. apply Rltb_false in H.
  intros E. apply (f_equal sqnorm3) in E. rewrite lagrange3, !normalized3_1 in E by assumption.
  replace (sqnorm3 zero3) with 0 in E by (symmetry; apply sqnorm3_0; reflexivity).
  set (d := dot3 _ _) in *. assert (Rabs d = 1).
  { pose proof (Rabs_pos d). assert (Rabs d * Rabs d = d * d) by (rewrite <- Rabs_mult; apply Rabs_pos_eq; nra). nra. }
  rewrite H0 in H. replace (1 - 1) with 0 in H by ring. rewrite Rabs_R0 in H. lra.
Qed.
(** The frame of two directions. *)
Lemma basis_rows_frame u w : u <> zero3 -> w <> zero3 -> cross3 (normalized3 u) (normalized3 w) <> zero3 ->
  exists a c, basis_rows u w = basis a c /\ is_rotation (basis a c) /\ a = normalized3 u /\ sqnorm3 a = 1 /\ sqnorm3 c = 1 /\ dot3 a c = 0
    /\ c = normalized3 (cross3 a (normalized3 w))
    /\ dot3 c w = 0 /\ 0 < dot3 (cross3 c a) w
    /\ w = add3 (scale3 (dot3 a w) a) (scale3 (dot3 (cross3 c a) w) (cross3 c a)).
Proof.
  intros Hu Hw H. set (a := normalized3 u) in *. set (b := normalized3 w) in *. set (c := normalized3 (cross3 a b)).
  exists a, c. assert (Ha : sqnorm3 a = 1) by (apply normalized3_1; assumption).
  assert (Hc : sqnorm3 c = 1) by (apply normalized3_1; assumption).
  pose proof (norm3_pos' _ H) as P. pose proof (norm3_pos' w Hw) as Pw.
  assert (C : c = scale3 (/ norm3 (cross3 a b)) (cross3 a b)) by (apply normalized3_eq; assumption).
  assert (O : dot3 a c = 0).
  { rewrite C, dot3_scale_r. replace (dot3 a (cross3 a b)) with 0 by v3ring. ring. }
  assert (Wb : w = scale3 (norm3 w) b) by (symmetry; apply normalized3_back; assumption).
  pose proof (basis_rotation a c Ha Hc O) as R. split; [reflexivity |]. split; [exact R |]. split; [reflexivity |].
  split; [exact Ha |]. split; [exact Hc |]. split; [exact O |]. split; [reflexivity |].
  assert (Z : dot3 c w = 0).
  { rewrite Wb, C, dot3_scale_r, dot3_scale_l. replace (dot3 (cross3 a b) b) with 0 by v3ring. ring. }
  split; [exact Z |]. split.
  - rewrite Wb, dot3_scale_r. apply Rmult_lt_0_compat; [exact Pw |].
    replace (dot3 (cross3 c a) b) with (dot3 c (cross3 a b)) by v3ring. rewrite C, dot3_scale_l.
    apply Rmult_lt_0_compat; [apply Rinv_0_lt_compat; exact P |]. apply sqnorm3_pos. exact H.
  - assert (E : mulv3 (transpose3 (basis a c)) (mulv3 (basis a c) w) = w)
      by (rewrite <- mulv3_mul, (proj1 R); apply mulv3_id).
    rewrite basis_apply, basis_back, Z in E. rewrite <- E at 1. generalize (dot3 a w) (dot3 (cross3 c a) w). intros. v3ring.
Qed.

Lemma frame_unique a a' b : sqnorm3 a = 1 -> sqnorm3 a' = 1 -> (exists k, 0 < k /\ a' = scale3 k b) -> (exists k, 0 < k /\ a = scale3 k b) -> a = a'.
Proof.
  intros Ha Ha' (k & Hk & ->) (l & Hl & ->). rewrite sqnorm3_scale in *. f_equal.
  assert (0 < sqnorm3 b) by (pose proof (sqnorm3_nonneg b); destruct (Req_dec (sqnorm3 b) 0) as [E | E]; [rewrite E in *; lra | lra]).
  assert (k * k = l * l) by (apply (Rmult_eq_reg_r (sqnorm3 b)); lra). nra.
Qed.
Lemma basis_aligned m u1 u2 v1 v2 a c a' c' : is_rotation m -> aligns m u1 u2 v1 v2 ->
  u1 <> zero3 -> v1 <> zero3 ->
  a = normalized3 u1 -> a' = normalized3 v1 -> sqnorm3 c = 1 -> sqnorm3 c' = 1 ->
  (exists k, 0 < k /\ c = scale3 k (cross3 u1 u2)) -> (exists k, 0 < k /\ c' = scale3 k (cross3 v1 v2)) ->
  mulv3 m a = a' /\ mulv3 m c = c'.
Proof.
  intros R [(k & Hk & E1) (x & y & Hy & E2)] Hu Hv -> -> Hc Hc' (s & Hs & Cs) (t & Ht & Ct).
  pose proof (norm3_pos' u1 Hu). pose proof (norm3_pos' v1 Hv).
  assert (ML : forall j w, mulv3 m (scale3 j w) = scale3 j (mulv3 m w)) by (intros; qring).
  split.
  - apply frame_unique with v1.
    + unfold sqnorm3. rewrite rotation_dot by assumption. apply normalized3_1. exact Hu.
    + apply normalized3_1. exact Hv.
    + exists (/ norm3 v1). split; [apply Rinv_0_lt_compat; assumption | apply normalized3_eq; assumption].
    + exists (/ norm3 u1 * k). split; [apply Rmult_lt_0_compat; [apply Rinv_0_lt_compat |]; assumption |].
      rewrite normalized3_eq, ML, E1, scale3_scale by assumption. reflexivity.
  - apply frame_unique with (cross3 v1 v2).
    + unfold sqnorm3. rewrite rotation_dot by assumption. exact Hc.
    + exact Hc'.
    + exists t. split; assumption.
    + exists (s * (k * y)). split; [apply Rmult_lt_0_compat; [| apply Rmult_lt_0_compat]; assumption |].
      rewrite Cs, ML, rotation_cross, E1, E2 by assumption. clear. destruct v1, v2; v3unfold; apply V3_eq; ring.
Qed.
Lemma frame_cross u w : u <> zero3 -> w <> zero3 -> cross3 (normalized3 u) (normalized3 w) <> zero3 ->
  exists k, 0 < k /\ normalized3 (cross3 (normalized3 u) (normalized3 w)) = scale3 k (cross3 u w).
Proof.
  intros Hu Hw H. pose proof (norm3_pos' u Hu). pose proof (norm3_pos' w Hw). pose proof (norm3_pos' _ H).
  rewrite (normalized3_eq _ H). set (n := norm3 (cross3 _ _)) in *. rewrite !normalized3_eq by assumption.
  exists (/ n * (/ norm3 u * / norm3 w)). split.
  - repeat apply Rmult_lt_0_compat; apply Rinv_0_lt_compat; assumption.
  - generalize (/ n) (/ norm3 u) (/ norm3 w). intros. clear. destruct u, w; v3unfold; apply V3_eq; ring.
Qed.

Lemma c42_rotation eps u1 u2 v1 v2 : 0 < eps ->
  eps <= norm3 u1 -> eps <= norm3 u2 -> eps <= norm3 v1 -> eps <= norm3 v2 ->
  Rabs (dot3 u1 u2) <= (1 - eps) * (norm3 u1 * norm3 u2) -> Rabs (dot3 v1 v2) <= (1 - eps) * (norm3 v1 * norm3 v2) ->
  exists m, VectorBasis eps (Some u1) (Some u2) (Some v1) (Some v2) = Ok m /\ is_rotation m
    /\ aligns m u1 u2 v1 v2 /\ (forall m', is_rotation m' -> aligns m' u1 u2 v1 v2 -> m' = m).
Proof.
  intros He Hu1 Hu2 Hv1 Hv2 Hu Hv.
  assert (NZ : forall w, eps <= norm3 w -> w <> zero3) by (intros w H E; apply norm3_0 in E; lra).
  assert (NP : forall a b, eps <= norm3 a -> eps <= norm3 b -> Rabs (dot3 a b) <= (1 - eps) * (norm3 a * norm3 b) -> parallel_b eps a b = false).
  { intros a b Ha Hb H. unfold parallel_b. apply Rltb_f. rewrite dot3_normalized by (apply NZ; assumption).
    unfold Rdiv. rewrite Rabs_mult, Rabs_inv, (Rabs_pos_eq (norm3 a * norm3 b)) by nra.
    assert (Rabs (dot3 a b) * / (norm3 a * norm3 b) <= 1 - eps).
    { apply (Rmult_le_reg_r (norm3 a * norm3 b)); [nra |]. rewrite Rmult_assoc, Rinv_l by nra. lra. }
    rewrite Rabs_left1 by lra. lra. }
  pose proof (NP _ _ Hu1 Hu2 Hu) as Pu. pose proof (NP _ _ Hv1 Hv2 Hv) as Pv.
  unfold VectorBasis. cbn [needd bind]. rewrite !Rltb_f, Pu, Pv by assumption.
  apply NZ in Hu1, Hu2, Hv1, Hv2.
  pose proof (cross_nonzero eps u1 u2 He Hu1 Hu2 Pu) as Cu. pose proof (cross_nonzero eps v1 v2 He Hv1 Hv2 Pv) as Cv.
  destruct (basis_rows_frame u1 u2 Hu1 Hu2 Cu) as (a & c & -> & R & Ea & Ha & Hc & O & Ec & Z & Y & D).
  destruct (basis_rows_frame v1 v2 Hv1 Hv2 Cv) as (a' & c' & -> & R' & Ea' & Ha' & Hc' & O' & Ec' & Z' & Y' & D').
  pose proof (rotation_mul _ _ (rotation_transpose _ R') R) as RR.
  rewrite rotation_ok by assumption. eexists. split; [reflexivity |]. split; [exact RR |].
  pose proof (norm3_pos' u1 Hu1) as Pu1. pose proof (norm3_pos' v1 Hv1) as Pv1.
  assert (Nv : forall k, scale3 (k * / norm3 v1) v1 = scale3 k a')
    by (intros k; rewrite Ea', (normalized3_eq v1 Hv1), scale3_scale; reflexivity).
  split.
  - split.
    + exists (norm3 u1 * / norm3 v1). split; [apply Rmult_lt_0_compat; [| apply Rinv_0_lt_compat]; assumption |].
      rewrite <- (normalized3_back u1 Hu1) at 1. rewrite <- Ea.
      rewrite mulv3_mul, basis_apply, basis_back, !dot3_scale_r. change (dot3 a a) with (sqnorm3 a).
      rewrite Ha, (dot3_sym c a), O. replace (dot3 (cross3 c a) a) with 0 by v3ring.
      rewrite Nv. generalize (norm3 u1). intros. v3ring.
    + set (y := dot3 (cross3 c a) u2) in *. set (y' := dot3 (cross3 c' a') v2) in *.
      exists ((dot3 a u2 - y / y' * dot3 a' v2) * / norm3 v1), (y / y'). split; [apply Rdiv_lt_0_compat; assumption |].
      rewrite mulv3_mul, basis_apply, basis_back, Z. fold y.
      rewrite Nv. rewrite D' at 2.
      assert (y = y / y' * y') as Ey by (field; lra). rewrite Ey at 1. generalize (y / y') (dot3 a u2) (dot3 a' v2). intros.
      clear. generalize (cross3 c' a'). intros. v3ring.
  - intros m' Rm Al.
    destruct (basis_aligned m' u1 u2 v1 v2 a c a' c' Rm Al Hu1 Hv1 Ea Ea' Hc Hc') as [Ma Mc].
    { rewrite Ec, Ea. apply frame_cross; assumption. }
    { rewrite Ec', Ea'. apply frame_cross; assumption. }
    assert (E : mul3 m' (transpose3 (basis a c)) = transpose3 (basis a' c')).
    { apply mulv3_ext. intros [x y z]. rewrite mulv3_mul, !basis_back.
      transitivity (add3 (add3 (scale3 x (mulv3 m' a)) (scale3 y (mulv3 m' (cross3 c a)))) (scale3 z (mulv3 m' c))).
      - generalize (cross3 c a). clear. intros. qring.
      - rewrite rotation_cross, Ma, Mc by assumption. reflexivity. }
    rewrite <- E, mul3_assoc, (proj1 R), mul3_id_r. reflexivity.
Qed.
Lemma c42_errors eps u1 u2 v1 v2 : 0 < eps ->
  norm3 u1 < eps \/ norm3 u2 < eps \/ norm3 v1 < eps \/ norm3 v2 < eps
    \/ (1 - eps) * (norm3 u1 * norm3 u2) < Rabs (dot3 u1 u2) \/ (1 - eps) * (norm3 v1 * norm3 v2) < Rabs (dot3 v1 v2) ->
  VectorBasis eps (Some u1) (Some u2) (Some v1) (Some v2) = Err ERuntime.
Proof.
  intros He H. unfold VectorBasis. cbn [needd bind].
  assert (NP : forall a b, eps <= norm3 a -> eps <= norm3 b -> (1 - eps) * (norm3 a * norm3 b) < Rabs (dot3 a b) -> parallel_b eps a b = true).
  { intros a b Ha Hb L. unfold parallel_b. apply Rltb_t.
    assert (NZ : forall w, eps <= norm3 w -> w <> zero3) by (intros w A E; apply norm3_0 in E; lra).
    rewrite dot3_normalized by (apply NZ; assumption). pose proof (cauchy3_norm a b).
    unfold Rdiv. rewrite Rabs_mult, Rabs_inv, (Rabs_pos_eq (norm3 a * norm3 b)) by nra.
    assert (1 - eps < Rabs (dot3 a b) * / (norm3 a * norm3 b)).
    { apply (Rmult_lt_reg_r (norm3 a * norm3 b)); [nra |]. rewrite Rmult_assoc, Rinv_l by nra. lra. }
    assert (Rabs (dot3 a b) * / (norm3 a * norm3 b) <= 1).
    { apply (Rmult_le_reg_r (norm3 a * norm3 b)); [nra |]. rewrite Rmult_assoc, Rinv_l by nra. lra. }
    rewrite Rabs_left1 by lra. lra. }
  destruct (Rltb (norm3 u1) eps) eqn:E1; [reflexivity |]. apply Rltb_false in E1.
  destruct (Rltb (norm3 u2) eps) eqn:E2; [reflexivity |]. apply Rltb_false in E2.
  destruct (Rltb (norm3 v1) eps) eqn:E3; [reflexivity |]. apply Rltb_false in E3.
  destruct (Rltb (norm3 v2) eps) eqn:E4; [reflexivity |]. apply Rltb_false in E4.
  destruct H as [H | [H | [H | [H | [H | H]]]]]; try lra.
  - rewrite NP by assumption. reflexivity.
  - destruct (parallel_b eps u1 u2); [reflexivity |]. rewrite NP by assumption. reflexivity.
Qed.
Lemma c42_undefined eps u v w : 
  VectorBasis eps None u v w = Err EUndefined
  /\ (forall a, VectorBasis eps (Some a) None v w = Err EUndefined)
  /\ (forall a b, VectorBasis eps (Some a) (Some b) None w = Err EUndefined)
  /\ (forall a b c, VectorBasis eps (Some a) (Some b) (Some c) None = Err EUndefined).
Proof. repeat split. Qed.
