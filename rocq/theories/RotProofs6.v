(** Equality, angular difference, interpolation, exponential (C37 - C40). *)

From Coq Require Import List Bool Reals Lra Lia Psatz.
From Verif Require Import Result DOrder Vec VecProofs Mat3 AngleModel AngleSpec AngleProofs AngleProofs2 RotModel RotSpec
  RotProofs RotProofs2 RotProofs3 RotProofs4.
Local Open Scope R_scope.

(** *** C37 *)
Lemma sq_0 q : sq q = 0 -> q = Q4 0 0 0 0.
Proof. destruct q as [x y z s]. unfold sq; cbn. intros H. apply Q4_eq; nra. Qed.
Lemma qsub_0 p q : sq (Q4 (qx p - qx q) (qy p - qy q) (qz p - qz q) (qs p - qs q)) = 0 -> p = q.
Proof. intros H. apply sq_0 in H. injection H as H1 H2 H3 H4. apply q_ext; lra. Qed.

Lemma unit_dot_1 p q : unit_q p -> unit_q q -> dot4 p q = 1 -> p = q.
Proof.
  unfold unit_q. intros Hp Hq H. apply qsub_0.
  transitivity (sq p + sq q - 2 * dot4 p q); [qring | rewrite Hp, Hq, H; ring].
Qed.
Lemma unit_dot_abs p q : unit_q p -> unit_q q -> Rabs (dot4 p q) = 1 -> same_up_to_sign p q.
Proof.
  intros Hp Hq H. unfold same_up_to_sign. unfold Rabs in H. destruct Rcase_abs in H.
  - right. apply unit_dot_1; [exact Hp | apply unit_neg; exact Hq |]. rewrite <- H. qring.
  - left. apply unit_dot_1; assumption.
Qed.

Lemma q_matrix_inj p q : unit_q p -> unit_q q -> q_matrix p = q_matrix q -> same_up_to_sign p q.
Proof.
  intros Hp Hq H. apply unit_dot_abs; [exact Hp | exact Hq |].
  assert (D : dot4 p q * dot4 p q = 1).
  { unfold unit_q in *. destruct p as [x y z s], q as [x' y' z' s']. unfold sq, dot4, q_matrix in *. cbn in *.
    injection H as H1 H2 H3 H4 H5 H6 H7 H8 H9.
    assert (E1 : x * x = x' * x') by lra. assert (E2 : y * y = y' * y') by lra.
    assert (E3 : z * z = z' * z') by lra. assert (E4 : s * s = s' * s') by lra.
    assert (E5 : x * y = x' * y') by lra. assert (E6 : x * z = x' * z') by lra. assert (E7 : y * z = y' * z') by lra.
    assert (E8 : x * s = x' * s') by lra. assert (E9 : y * s = y' * s') by lra. assert (E10 : z * s = z' * s') by lra.
    replace ((x * x' + y * y' + z * z' + s * s') * (x * x' + y * y' + z * z' + s * s')) with
      ((x * x) * (x' * x') + (y * y) * (y' * y') + (z * z) * (z' * z') + (s * s) * (s' * s')
       + 2 * ((x * y) * (x' * y') + (x * z) * (x' * z') + (y * z) * (y' * z') + (x * s) * (x' * s') + (y * s) * (y' * s') + (z * s) * (z' * s'))) by ring.
    rewrite E1, E2, E3, E4, E5, E6, E7, E8, E9, E10.
    transitivity ((x' * x' + y' * y' + z' * z' + s' * s') * (x' * x' + y' * y' + z' * z' + s' * s')); [ring | rewrite Hq; ring]. }
  destruct (Rle_lt_dec 0 (dot4 p q)); [rewrite Rabs_pos_eq by assumption | rewrite Rabs_left by assumption]; nra.
Qed.

Lemma same_rotation_matrix eps p q : 0 < eps -> unit_q p -> unit_q q ->
  (same_rotation eps p q <-> q_matrix p = q_matrix q).
Proof.
  intros He Hp Hq. unfold same_rotation. split.
  - intros H. apply mulv3_ext. intros v. specialize (H v). rewrite !q_rotate_unit in H by assumption.
    rewrite !rot_matrix. congruence.
  - intros H v. rewrite !q_rotate_unit by assumption. rewrite <- !rot_matrix, H. reflexivity.
Qed.
Lemma same_rotation_sign eps p q : 0 < eps -> unit_q p -> unit_q q -> (same_rotation eps p q <-> same_up_to_sign p q).
Proof.
  intros He Hp Hq. rewrite same_rotation_matrix by assumption. split; [apply q_matrix_inj; assumption |].
  intros [-> | ->]; [reflexivity | apply q_matrix_neg].
Qed.
Lemma c37_equal_iff eps p q : 0 < eps -> unit_q p -> unit_q q ->
  (q_eq (Some p) (Some q) = true <-> same_rotation eps p q).
Proof. intros He Hp Hq. rewrite q_eq_iff, same_rotation_sign by assumption. reflexivity. Qed.
Lemma negq_negq q : negq (negq q) = q.
Proof. destruct q; unfold negq; cbn; apply Q4_eq; ring. Qed.
Lemma c37_equivalence p q r :
  q_eq (Some p) (Some p) = true
  /\ q_eq (Some p) (Some q) = q_eq (Some q) (Some p)
  /\ (q_eq (Some p) (Some q) = true -> q_eq (Some q) (Some r) = true -> q_eq (Some p) (Some r) = true)
  /\ q_eq None (Some p) = false /\ q_eq (Some p) None = false /\ q_eq None None = false.
Proof.
  assert (S : forall p q, q_eq (Some p) (Some q) = true -> q_eq (Some q) (Some p) = true).
  { intros a b. rewrite !q_eq_iff. intros [-> | ->]; [left; reflexivity | right; rewrite negq_negq; reflexivity]. }
  split; [apply q_eq_iff; left; reflexivity |]. split; [| split; [| repeat split]].
  - destruct (q_eq (Some p) (Some q)) eqn:E, (q_eq (Some q) (Some p)) eqn:E'; try reflexivity;
      [apply S in E | apply S in E']; congruence.
  - rewrite !q_eq_iff. intros [-> | ->] [-> | ->]; rewrite ?negq_negq; tauto.
Qed.

(** *** C38 *)
(** p - k q *)
Definition qaxpy (p : quat) (k : R) (q : quat) : quat :=
  Q4 (qx p - k * qx q) (qy p - k * qy q) (qz p - k * qz q) (qs p - k * qs q).
Lemma sq_qaxpy p k q : sq (qaxpy p k q) = sq p - 2 * k * dot4 p q + k * k * sq q.
Proof. unfold qaxpy. qring. Qed.
Lemma dot4_qaxpy p k q l r :
  dot4 (qaxpy p k q) (qaxpy r l q) = dot4 p r - l * dot4 p q - k * dot4 q r + k * l * sq q.
Proof. unfold qaxpy. qring. Qed.
Lemma cauchy4 p q : dot4 p q * dot4 p q <= sq p * sq q.
Proof.
  rewrite <- (sq_conj q), <- sq_mul. replace (dot4 p q) with (qs (qmul p (qconj q))) by qring.
  generalize (qmul p (qconj q)). intros [x y z s]. unfold sq; cbn. nra.
Qed.
Lemma dot4_bound p q : unit_q p -> unit_q q -> Rabs (dot4 p q) <= 1.
Proof.
  unfold unit_q. intros Hp Hq.
  pose proof (sq_nonneg (qaxpy p 1 q)) as A. pose proof (sq_nonneg (qaxpy p (-1) q)) as B.
  rewrite sq_qaxpy in A, B.
  unfold Rabs. destruct Rcase_abs; lra.
Qed.
Lemma qs_mul_conj p q : qs (qmul p (qconj q)) = dot4 p q.
Proof. qring. Qed.

Lemma q_div_unit eps p q : 0 < eps -> eps <= 1 -> unit_q q -> q_div eps (Some p) (Some q) = Ok (qmul p (qconj q)).
Proof.
  intros He H1 Hq. unfold q_div, norm. cbn [needd bind]. rewrite qnorm_unit by assumption. rewrite Rltb_f by lra.
  rewrite inverse_eq, Rltb_f by (rewrite Hq; lra). cbn [bind]. rewrite qinv_unit by assumption. reflexivity.
Qed.
Lemma angdiff_eq eps p q : 0 < eps -> eps <= 1 -> unit_q p -> unit_q q ->
  angularDifferenceWith eps (Some p) (Some q) = Ok (Radians (2 * acos (Rabs (dot4 p q)))).
Proof.
  intros He H1 Hp Hq. unfold angularDifferenceWith. rewrite !isUnitary_unit by assumption. cbn [bind negb orb].
  rewrite q_div_unit by assumption. cbn [bind].
  rewrite normalize_unit by first [assumption | apply unit_mul; [exact Hp | apply unit_conj; exact Hq]].
  cbn [bind]. rewrite qs_mul_conj. unfold acos_. rewrite Rabs_Rabsolu.
  destruct Rle_dec as [_ | N]; [reflexivity | exfalso; apply N, dot4_bound; assumption].
Qed.
(** The value, in radians. *)
Definition angdiff (p q : quat) : R := 2 * acos (Rabs (dot4 p q)).

Lemma angdiff_range p q : unit_q p -> unit_q q -> 0 <= angdiff p q <= PI.
Proof.
  intros Hp Hq. pose proof (dot4_bound p q Hp Hq). pose proof (Rabs_pos (dot4 p q)).
  pose proof (acos_le_half (Rabs (dot4 p q)) ltac:(lra)). unfold angdiff. lra.
Qed.
Lemma angdiff_sym p q : angdiff p q = angdiff q p.
Proof. unfold angdiff. do 3 f_equal. qring. Qed.
Lemma angdiff_0 p q : unit_q p -> unit_q q -> (angdiff p q = 0 <-> same_up_to_sign p q).
Proof.
  intros Hp Hq. pose proof (dot4_bound p q Hp Hq). pose proof (Rabs_pos (dot4 p q)). unfold angdiff. split.
  - intros E. apply unit_dot_abs; [exact Hp | exact Hq |]. apply acos_0_iff; lra.
  - intros S. assert (Rabs (dot4 p q) = 1) as ->.
    { destruct S as [-> | ->].
      - replace (dot4 q q) with (sq q) by qring. rewrite Hq. apply Rabs_R1.
      - replace (dot4 (negq q) q) with (- sq q) by qring. rewrite Hq, Rabs_Ropp. apply Rabs_R1. }
    rewrite acos_1. ring.
Qed.
Lemma dot4_mul_r p q r : dot4 (qmul p r) (qmul q r) = dot4 p q * sq r.
Proof. qring. Qed.
Lemma dot4_mul_l p q r : dot4 (qmul r p) (qmul r q) = dot4 p q * sq r.
Proof. qring. Qed.

Lemma c38_value eps p q : 0 < eps -> eps <= 1 -> unit_q p -> unit_q q ->
  exists d, angularDifferenceWith eps (Some p) (Some q) = Ok (Radians d)
    /\ 0 <= d <= PI
    /\ angularDifferenceWith eps (Some q) (Some p) = Ok (Radians d)
    /\ (d = 0 <-> same_rotation eps p q)
    /\ (forall r p' q', unit_q r -> crossMultiply (Some p) (Some r) = Ok p' -> crossMultiply (Some q) (Some r) = Ok q' ->
          angularDifferenceWith eps (Some p') (Some q') = Ok (Radians d))
    /\ (forall r p' q', unit_q r -> crossMultiply (Some r) (Some p) = Ok p' -> crossMultiply (Some r) (Some q) = Ok q' ->
          angularDifferenceWith eps (Some p') (Some q') = Ok (Radians d)).
Proof.
  intros He H1 Hp Hq. exists (angdiff p q). split; [apply angdiff_eq; assumption |].
  split; [apply angdiff_range; assumption |].
  split; [rewrite angdiff_sym; apply angdiff_eq; assumption |].
  split; [rewrite same_rotation_sign by assumption; apply angdiff_0; assumption |].
  split; intros r p' q' Hr; unfold crossMultiply; cbn [needd bind]; intros [= <-] [= <-];
    (rewrite angdiff_eq; [| exact He | exact H1 | apply unit_mul; assumption | apply unit_mul; assumption]);
    rewrite ?dot4_mul_l, ?dot4_mul_r, Hr, Rmult_1_r; reflexivity.
Qed.

(** It is the angle of the rotation taking one attitude to the other. *)
Lemma unit_q_axis q : unit_q q ->
  exists a, sqnorm3 a = 1 /\ forall v, rot q v = frame_rotation a (2 * acos (Rabs (qs q))) v.
Proof.
  intros H. assert (P : exists p, unit_q p /\ qs p = Rabs (qs q) /\ forall v, rot p v = rot q v).
  { destruct (Rle_lt_dec 0 (qs q)).
    - exists q. rewrite Rabs_pos_eq by assumption. tauto.
    - exists (negq q). rewrite Rabs_left by assumption. split; [apply unit_neg; exact H |]. split; [reflexivity | intros; apply rot_neg]. }
  destruct P as [p [U [S F]]]. rewrite <- S. pose proof (unit_q_bound p U) as B.
  destruct (Req_dec (qs p) 1) as [E | E].
  - exists (V3 1 0 0). split; [unfold sqnorm3, dot3; cbn; ring |]. intros v. rewrite <- F.
    assert (V0 : vec p = zero3) by (apply sqnorm3_0; rewrite (unit_q_vec p U), E; ring).
    rewrite E, acos_1, Rmult_0_r. unfold frame_rotation. rewrite cos_0, sin_0. rewrite <- rot_matrix.
    unfold vec, zero3 in V0. destruct p as [x y z s]. cbn in *. injection V0 as -> -> ->. rewrite E. qring.
  - assert (Hs : Rabs (qs p) < 1) by (rewrite Rabs_pos_eq; rewrite S in *; pose proof (Rabs_pos (qs q)); lra).
    destruct (unit_q_half p U Hs) as [Ua Q]. eexists. split; [exact Ua |]. intros v. rewrite <- F.
    rewrite Q at 1. apply half_q_rot, Ua.
Qed.
Lemma c38_is_angle eps p q d : 0 < eps -> eps <= 1 -> unit_q p -> unit_q q ->
  angularDifferenceWith eps (Some p) (Some q) = Ok (Radians d) ->
  exists a f g, sqnorm3 a = 1 /\ q_rotates eps p f /\ q_rotates eps q g /\ forall v, f v = frame_rotation a d (g v).
Proof.
  intros He H1 Hp Hq. rewrite angdiff_eq by assumption. intros [= <-].
  destruct (unit_q_axis (qmul p (qconj q))) as [a [Ua F]]; [apply unit_mul; [exact Hp | apply unit_conj; exact Hq] |].
  rewrite qs_mul_conj in F. exists a, (rot p), (rot q). split; [exact Ua |].
  split; [intros v; apply q_rotate_unit; assumption |]. split; [intros v; apply q_rotate_unit; assumption |].
  intros v. rewrite <- F, rot_mul, rot_conj by assumption. reflexivity.
Qed.
Lemma c38_errors eps p q : 0 < eps -> eps < Rabs (qnorm p - 1) \/ eps < Rabs (qnorm q - 1) ->
  angularDifferenceWith eps (Some p) (Some q) = Err ERuntime
  /\ angularDifferenceWith eps None (Some q) = Err EUndefined
  /\ angularDifferenceWith eps (Some p) None = Err (if Rle_dec (Rabs (qnorm p - 1)) eps then EUndefined else ERuntime).
Proof.
  intros He H. unfold angularDifferenceWith. rewrite !isUnitary_tol by assumption. cbn [bind needd].
  split; [| split; [reflexivity |]].
  - destruct (Rleb (Rabs (qnorm p - 1)) eps) eqn:E; cbn [negb bind]; [| reflexivity].
    destruct H as [H | H]; [rewrite (Rleb_f _ _ H) in E; discriminate | rewrite (Rleb_f _ _ H); reflexivity].
  - destruct Rle_dec as [L | L]; [rewrite (Rleb_t _ _ L); reflexivity | rewrite Rleb_f by lra; reflexivity].
Qed.

(** Triangle inequality. *)
Lemma dot4_triangle p q r : unit_q p -> unit_q q -> unit_q r ->
  dot4 p q * dot4 q r - sqrt (1 - dot4 p q * dot4 p q) * sqrt (1 - dot4 q r * dot4 q r) <= dot4 p r.
Proof.
  intros Hp Hq Hr.
  assert (K : (dot4 p r - dot4 p q * dot4 q r) * (dot4 p r - dot4 p q * dot4 q r)
              <= (1 - dot4 p q * dot4 p q) * (1 - dot4 q r * dot4 q r)).
  { pose proof (cauchy4 (qaxpy p (dot4 p q) q) (qaxpy r (dot4 q r) q)) as C.
    rewrite dot4_qaxpy, !sq_qaxpy, Hp, Hq, Hr in C.
    replace (dot4 r q) with (dot4 q r) in C by qring. nra. }
  set (a := dot4 p q) in *. set (b := dot4 q r) in *. set (c := dot4 p r) in *.
  pose proof (dot4_bound p q Hp Hq) as A. pose proof (dot4_bound q r Hq Hr) as B. fold a in A. fold b in B.
  assert (A' : 0 <= 1 - a * a) by (unfold Rabs in A; destruct Rcase_abs in A; nra).
  assert (B' : 0 <= 1 - b * b) by (unfold Rabs in B; destruct Rcase_abs in B; nra).
  rewrite <- sqrt_mult by assumption. pose proof (sqrt_sqrt ((1 - a * a) * (1 - b * b)) ltac:(nra)) as S.
  pose proof (sqrt_pos ((1 - a * a) * (1 - b * b))). set (h := sqrt _) in *. nra.
Qed.

Lemma acos_le c t : 0 <= t <= PI -> cos t <= c -> c <= 1 -> acos c <= t.
Proof.
  intros Ht Hc H1. pose proof (acos_bound c) as B. destruct (Rle_lt_dec (acos c) t) as [C | C]; [exact C |].
  assert (-1 <= c <= 1) by (pose proof (COS_bound t); lra).
  pose proof (cos_decreasing_1 t (acos c) ltac:(lra) ltac:(lra) ltac:(lra) ltac:(lra) C) as D.
  rewrite cos_acos in D by assumption. lra.
Qed.

Lemma angdiff_triangle p q r : unit_q p -> unit_q q -> unit_q r -> angdiff p r <= angdiff p q + angdiff q r.
Proof.
  intros Hp Hq Hr. unfold angdiff.
  (* choose signs so that both dot products are non-negative *)
  assert (Sg : forall q r, unit_q q -> unit_q r -> exists r', unit_q r' /\ dot4 q r' = Rabs (dot4 q r) /\ same_up_to_sign r' r).
  { intros u w Hu Hw. destruct (Rle_lt_dec 0 (dot4 u w)).
    - exists w. rewrite Rabs_pos_eq by assumption. unfold same_up_to_sign. tauto.
    - exists (negq w). rewrite Rabs_left by assumption. split; [apply unit_neg; exact Hw |].
      split; [qring | right; reflexivity]. }
  destruct (Sg q p Hq Hp) as [p' [Up [Dp Sp]]]. destruct (Sg q r Hq Hr) as [r' [Ur [Dr Sr]]].
  assert (Dpr : Rabs (dot4 p r) = Rabs (dot4 p' r')).
  { destruct Sp as [-> | ->], Sr as [-> | ->]; [reflexivity |..].
    - rewrite <- Rabs_Ropp. f_equal. qring.
    - rewrite <- Rabs_Ropp. f_equal. qring.
    - f_equal. qring. }
  replace (dot4 p q) with (dot4 q p) by qring. rewrite Dpr, <- Dp, <- Dr.
  pose proof (dot4_bound q p' Hq Up) as Bp. pose proof (dot4_bound q r' Hq Ur) as Br.
  assert (Np : 0 <= dot4 q p') by (rewrite Dp; apply Rabs_pos). assert (Nr : 0 <= dot4 q r') by (rewrite Dr; apply Rabs_pos).
  rewrite Rabs_pos_eq in Bp, Br by assumption.
  pose proof (acos_le_half (dot4 q p') ltac:(lra)) as Ap. pose proof (acos_le_half (dot4 q r') ltac:(lra)) as Ar.
  pose proof (dot4_triangle p' q r' Up Hq Ur) as T. replace (dot4 p' q) with (dot4 q p') in T by qring.
  assert (acos (Rabs (dot4 p' r')) <= acos (dot4 q p') + acos (dot4 q r')); [| lra].
  apply acos_le; [lra | | apply dot4_bound; assumption].
  rewrite cos_plus, !cos_acos, !sin_acos by lra. unfold Rsqr. pose proof (Rle_abs (dot4 p' r')). lra.
Qed.
Lemma c38_triangle eps p q r x y z : 0 < eps -> eps <= 1 -> unit_q p -> unit_q q -> unit_q r ->
  angularDifferenceWith eps (Some p) (Some q) = Ok (Radians x) ->
  angularDifferenceWith eps (Some q) (Some r) = Ok (Radians y) ->
  angularDifferenceWith eps (Some p) (Some r) = Ok (Radians z) -> z <= x + y.
Proof.
  intros He H1 Hp Hq Hr. rewrite !angdiff_eq by assumption. intros [= <-] [= <-] [= <-].
  apply angdiff_triangle; assumption.
Qed.
