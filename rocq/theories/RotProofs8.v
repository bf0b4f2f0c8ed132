(** Spherical interpolation (C39). *)

From Coq Require Import List Bool Reals Lra Lia Psatz.
From Verif Require Import Result DOrder Vec VecProofs Mat3 AngleModel AngleSpec AngleProofs AngleProofs2 RotModel RotSpec
  RotProofs RotProofs2 RotProofs3 RotProofs4 RotProofs5 RotProofs6 RotProofs7.
Local Open Scope R_scope.

Definition slerp_m (p q : quat) : quat :=
  if Rleb 0 (dot4 p q) then qmul (qconj p) q else negq (qmul (qconj p) q).
Lemma slerp_m_unit p q : unit_q p -> unit_q q -> unit_q (slerp_m p q).
Proof.
  intros Hp Hq. unfold slerp_m. assert (unit_q (qmul (qconj p) q)) by (apply unit_mul; [apply unit_conj |]; assumption).
  destruct Rleb; [assumption | apply unit_neg; assumption].
Qed.
Lemma slerp_m_s p q : qs (slerp_m p q) = Rabs (dot4 p q).
Proof.
  assert (E : qs (qmul (qconj p) q) = dot4 p q) by qring.
  unfold slerp_m. destruct (Rleb 0 (dot4 p q)) eqn:D.
  - apply Rleb_iff in D. rewrite E, Rabs_pos_eq by assumption. reflexivity.
  - apply Rleb_false in D. rewrite Rabs_left by assumption. unfold negq. cbn. rewrite E. reflexivity.
Qed.
Lemma slerp_m_mul p q : unit_q p -> qmul p (slerp_m p q) = if Rleb 0 (dot4 p q) then q else negq q.
Proof.
  intros Hp. assert (E : qmul p (qmul (qconj p) q) = q).
  { rewrite <- qmul_assoc. replace (qmul p (qconj p)) with q_Unit; [qring |].
    unfold unit_q, sq in Hp. destruct p; qunfold. symmetry. apply Q4_eq; try ring. lra. }
  unfold slerp_m. destruct Rleb; [exact E |]. rewrite <- E at 2. generalize (qmul (qconj p) q). intros. qring.
Qed.

Definition slerp_w (eps : R) (p q : quat) (r : R) : result quat := q_pow eps (Some (slerp_m p q)) r.
Lemma SLERP_eq eps p q r : 0 < eps -> eps <= 1 -> unit_q p -> 0 <= r <= 1 ->
  SLERP eps (Some p) (Some q) (Some r)
  = let! w := q_pow eps (Some (slerp_m p q)) r in normalize eps (Some (qmul p w)).
Proof.
  intros He H1 Hp Hr. unfold SLERP. rewrite ratio_ok_in by assumption. unfold dotProduct. cbn [needd bind].
  change (qx p * qx q + qy p * qy q + qz p * qz q + qs p * qs q) with (dot4 p q).
  rewrite inverse_eq. unfold unit_q in Hp. rewrite Hp, Rltb_f by lra. cbn [bind].
  assert (I : qinv p = qconj p).
  { unfold qinv. fold (sq p). rewrite Hp. destruct p; unfold qconj; cbn. apply Q4_eq; field. }
  rewrite I. unfold slerp_m. destruct (Rleb 0 (dot4 p q)); unfold q_scale, crossMultiply; cbn [bind needd]; [reflexivity |].
  replace (qmul (of_parts (scale3 (-1) (vec (qconj p))) (qs (qconj p) * -1)) q) with (negq (qmul (qconj p) q)) by qring.
  reflexivity.
Qed.

(** The relative rotation is a polar quaternion of angle at most a quarter turn. *)
Lemma slerp_polar p q : unit_q p -> unit_q q -> vec (slerp_m p q) <> zero3 ->
  exists a t, sqnorm3 a = 1 /\ 0 < t <= PI / 2 /\ slerp_m p q = polar 1 a t /\ sin t = norm3 (vec (slerp_m p q))
    /\ angdiff p q = 2 * t.
Proof.
  intros Hp Hq H. destruct (polar_exists _ H) as (h & a & t & Hh & Ha & Ht & E & Hn & Hs).
  assert (h = 1).
  { rewrite Hn, qnorm_sqrt. rewrite (slerp_m_unit p q Hp Hq). apply sqrt_1. }
  subst h. exists a, t.
  assert (C : cos t = Rabs (dot4 p q)).
  { rewrite <- slerp_m_s, E. unfold polar. cbn. rewrite H0. ring. }
  rewrite H0 in *. pose proof (Rabs_pos (dot4 p q)).
  split; [exact Ha |]. split.
  - split; [lra |]. destruct (Rle_lt_dec t (PI / 2)); [assumption |].
    pose proof (cos_lt_0 t ltac:(lra) ltac:(lra)). lra.
  - split; [exact E |]. split; [lra |]. unfold angdiff. rewrite <- C, acos_cos by lra. reflexivity.
Qed.
Lemma slerp_m_real p q : unit_q p -> unit_q q -> norm3 (vec (slerp_m p q)) = 0 -> slerp_m p q = q_Unit.
Proof.
  intros Hp Hq H. apply norm3_0 in H. pose proof (slerp_m_unit p q Hp Hq) as U. pose proof (slerp_m_s p q) as S.
  pose proof (Rabs_pos (dot4 p q)). rewrite <- S in H0. unfold unit_q, sq in U.
  destruct (slerp_m p q) as [x y z s]. unfold vec in H. cbn in *. injection H as -> -> ->.
  unfold q_Unit. apply Q4_eq; try reflexivity. nra.
Qed.

Lemma pow_small eps m r : 0 < eps -> unit_q m -> norm3 (vec m) <= eps -> q_pow eps (Some m) r = Ok q_Unit.
Proof.
  intros He Hm Hn. unfold q_pow, q_log. cbn [needd bind]. rewrite qnorm_sqrt, Hm, sqrt_1.
  unfold log_. destruct Rlt_dec; [| lra]. cbn [bind]. rewrite Rleb_t by assumption. unfold q_scale. cbn [bind needd].
  unfold q_exp. cbn [bind needd].
  replace (vec (of_parts (scale3 r (vec (of_parts zero3 (ln 1)))) (qs (of_parts zero3 (ln 1)) * r))) with zero3
    by (unfold of_parts, vec, zero3; v3unfold; cbn; apply V3_eq; ring).
  replace (norm3 zero3) with 0 by (symmetry; apply norm3_0; reflexivity).
  rewrite Rleb_t by lra. reflexivity.
Qed.

Lemma unit_polar a t : sqnorm3 a = 1 -> unit_q (polar 1 a t).
Proof. intros H. unfold unit_q. rewrite polar_sq by assumption. ring. Qed.
Lemma Rpower_1_l k : Rpower 1 k = 1.
Proof. unfold Rpower. rewrite ln_1, Rmult_0_r. apply exp_0. Qed.

Lemma qmul_1_r q : qmul q q_Unit = q.
Proof. qring. Qed.

(** Each of the three outcomes. *)
Lemma slerp_near eps p q r : 0 < eps -> eps <= 1 -> unit_q p -> unit_q q -> 0 <= r <= 1 ->
  norm3 (vec (slerp_m p q)) <= eps -> SLERP eps (Some p) (Some q) (Some r) = Ok p.
Proof.
  intros He H1 Hp Hq Hr Hn. rewrite SLERP_eq by assumption.
  rewrite pow_small; [| assumption | apply slerp_m_unit; assumption | assumption]. cbn [bind].
  rewrite qmul_1_r. apply normalize_unit; assumption.
Qed.
Lemma slerp_far eps p q r : 0 < eps -> eps <= 1 -> unit_q p -> unit_q q -> 0 <= r <= 1 ->
  eps < norm3 (vec (slerp_m p q)) ->
  exists a t, sqnorm3 a = 1 /\ 0 < t <= PI / 2 /\ slerp_m p q = polar 1 a t /\ sin t = norm3 (vec (slerp_m p q))
    /\ angdiff p q = 2 * t
    /\ SLERP eps (Some p) (Some q) (Some r) = Ok (if Rleb (r * t) eps then p else qmul p (polar 1 a (r * t))).
Proof.
  intros He H1 Hp Hq Hr Hn.
  destruct (slerp_polar p q Hp Hq) as (a & t & Ha & Ht & E & S & D).
  { intros Z. rewrite Z in Hn. replace (norm3 zero3) with 0 in Hn by (symmetry; apply norm3_0; reflexivity). lra. }
  exists a, t. split; [exact Ha |]. split; [exact Ht |]. split; [exact E |]. split; [exact S |]. split; [exact D |].
  rewrite SLERP_eq by assumption. rewrite E. pose proof PI_RGT_0.
  rewrite q_pow_polar; try assumption; try lra.
  rewrite Rabs_pos_eq, Rpower_1_l by nra. cbn [bind].
  destruct (Rleb (r * t) eps).
  - rewrite qmul_1_r. apply normalize_unit; assumption.
  - apply normalize_unit; [assumption | assumption |]. apply unit_mul; [assumption | apply unit_polar; assumption].
Qed.

Lemma c39_slerp_unit eps p q r : 0 < eps -> eps <= 1 -> unit_q p -> unit_q q -> 0 <= r <= 1 ->
  exists w, SLERP eps (Some p) (Some q) (Some r) = Ok w /\ unit_q w.
Proof.
  intros He H1 Hp Hq Hr. destruct (Rle_lt_dec (norm3 (vec (slerp_m p q))) eps).
  - exists p. split; [apply slerp_near; assumption | assumption].
  - destruct (slerp_far eps p q r He H1 Hp Hq Hr r0) as (a & t & Ha & _ & _ & _ & _ & ->).
    eexists. split; [reflexivity |]. destruct Rleb; [assumption |]. apply unit_mul; [assumption | apply unit_polar; assumption].
Qed.
Lemma c39_slerp_start eps p q : 0 < eps -> eps <= 1 -> unit_q p -> unit_q q ->
  SLERP eps (Some p) (Some q) (Some 0) = Ok p.
Proof.
  intros He H1 Hp Hq. destruct (Rle_lt_dec (norm3 (vec (slerp_m p q))) eps).
  - apply slerp_near; try assumption; lra.
  - destruct (slerp_far eps p q 0 He H1 Hp Hq ltac:(lra) r) as (a & t & Ha & _ & _ & _ & _ & ->).
    rewrite Rmult_0_l, Rleb_t by lra. reflexivity.
Qed.

Lemma dot4_mul_l p a b : dot4 (qmul p a) (qmul p b) = sq p * dot4 a b.
Proof. qring. Qed.
Lemma dot4_neg_r p q : dot4 p (negq q) = - dot4 p q.
Proof. qring. Qed.
Lemma dot4_polar a s t : sqnorm3 a = 1 -> dot4 (polar 1 a s) (polar 1 a t) = cos (s - t).
Proof.
  intros H. rewrite cos_minus. transitivity (sin s * sin t * sqnorm3 a + cos s * cos t).
  - unfold polar. qring.
  - rewrite H. ring.
Qed.
Lemma angdiff_neg_r p q : angdiff p (negq q) = angdiff p q.
Proof. unfold angdiff. rewrite dot4_neg_r, Rabs_Ropp. reflexivity. Qed.

(** Constant rate along the shortest path, beyond the tolerance. *)
Lemma c39_slerp_rate eps p q r : 0 < eps -> eps <= 1 -> unit_q p -> unit_q q -> 0 <= r <= 1 ->
  2 * asin eps < angdiff p q -> 2 * eps < r * angdiff p q ->
  exists w, SLERP eps (Some p) (Some q) (Some r) = Ok w /\ unit_q w
    /\ angularDifferenceWith eps (Some p) (Some w) = Ok (Radians (r * angdiff p q))
    /\ angularDifferenceWith eps (Some w) (Some q) = Ok (Radians ((1 - r) * angdiff p q)).
Proof.
  intros He H1 Hp Hq Hr Hd Hrd.
  assert (Hn : eps < norm3 (vec (slerp_m p q))).
  { assert (V : vec (slerp_m p q) <> zero3).
    { intros V. assert (norm3 (vec (slerp_m p q)) = 0) as N by (apply norm3_0; exact V).
      pose proof (slerp_m_real p q Hp Hq N) as E. pose proof (slerp_m_s p q) as S. rewrite E in S. cbn in S.
      unfold angdiff in Hrd. rewrite <- S, acos_1 in Hrd. lra. }
    destruct (slerp_polar p q Hp Hq V) as (a & t & Ha & Ht & E & S & D). rewrite <- S.
    rewrite D in Hd. pose proof PI_RGT_0. pose proof (asin_bound eps).
    assert (eps = sin (asin eps)) as -> by (symmetry; apply sin_asin; lra).
    apply sin_increasing_1; lra. }
  destruct (slerp_far eps p q r He H1 Hp Hq Hr Hn) as (a & t & Ha & Ht & E & S & D & ->).
  rewrite D in Hrd. rewrite Rleb_f by lra. eexists. split; [reflexivity |].
  pose proof (unit_polar a (r * t) Ha) as Uw. pose proof (unit_mul p _ Hp Uw) as U. split; [exact U |].
  rewrite !angdiff_eq by assumption. rewrite D. pose proof PI_RGT_0. split; do 2 f_equal.
  - replace (dot4 p (qmul p (polar 1 a (r * t)))) with (dot4 (qmul p (polar 1 a 0)) (qmul p (polar 1 a (r * t)))).
    + rewrite dot4_mul_l, dot4_polar by assumption. unfold unit_q in Hp. rewrite Hp, Rmult_1_l.
      replace (0 - r * t) with (- (r * t)) by ring. rewrite cos_neg.
      assert (0 <= r * t <= PI / 2) by nra. rewrite Rabs_pos_eq by (apply cos_ge_0; lra). rewrite acos_cos by lra. ring.
    + f_equal. rewrite <- (qmul_1_r p) at 2. f_equal. unfold polar, q_Unit. rewrite sin_0, cos_0. apply Q4_eq; ring.
  - assert (A : forall w, Rabs (dot4 w q) = Rabs (dot4 w (qmul p (slerp_m p q)))).
    { intros w. rewrite slerp_m_mul by assumption. destruct Rleb; [reflexivity |]. rewrite dot4_neg_r, Rabs_Ropp. reflexivity. }
    rewrite A, E, dot4_mul_l, dot4_polar by assumption. unfold unit_q in Hp. rewrite Hp, Rmult_1_l.
    replace (r * t - t) with (- ((1 - r) * t)) by ring. rewrite cos_neg.
    assert (0 <= (1 - r) * t <= PI / 2) by nra. rewrite Rabs_pos_eq by (apply cos_ge_0; lra). rewrite acos_cos by lra. ring.
Qed.
Lemma c39_slerp_end_partial eps p q : 0 < eps -> eps < 1 -> unit_q p -> unit_q q ->
  2 * asin eps < angdiff p q \/ angdiff p q = 0 ->
  exists w, SLERP eps (Some p) (Some q) (Some 1) = Ok w /\ same_up_to_sign w q.
Proof.
  intros He H1 Hp Hq [Hd | Hd].
  - assert (eps <= asin eps).
    { destruct (Rle_lt_dec eps (asin eps)); [assumption |]. pose proof (asin_bound eps).
      pose proof (sin_lt_x (asin eps)). rewrite sin_asin in H0 by lra.
      assert (0 < asin eps).
      { destruct (Rle_lt_dec (asin eps) 0) as [L | L]; [| exact L].
        pose proof (sin_ge_0 (- asin eps) ltac:(lra) ltac:(pose proof PI_RGT_0; lra)) as G.
        rewrite sin_neg, sin_asin in G by lra. lra. }
      lra. }
    destruct (c39_slerp_rate eps p q 1 He ltac:(lra) Hp Hq ltac:(lra) Hd ltac:(lra)) as (w & W & U & _ & B).
    exists w. split; [exact W |]. rewrite angdiff_eq in B by (try assumption; lra). injection B as B.
    apply angdiff_0; [assumption | assumption |]. unfold angdiff. lra.
  - exists p. split; [| apply angdiff_0; assumption]. apply slerp_near; try assumption; try lra.
    destruct (Rle_lt_dec (norm3 (vec (slerp_m p q))) eps); [assumption |].
    destruct (slerp_far eps p q 1 He ltac:(lra) Hp Hq ltac:(lra) r) as (a & t & _ & Ht & _ & _ & D & _). lra.
Qed.
Lemma c39_slerp_end_refuted eps : 0 < eps -> eps < 1 -> exists p q w, unit_q p /\ unit_q q
  /\ SLERP eps (Some p) (Some q) (Some 1) = Ok w /\ ~ same_up_to_sign w q.
Proof.
  intros He H1. exists q_Unit, (Q4 0 0 eps (sqrt (1 - eps * eps))), q_Unit.
  pose proof (sqrt_sqrt (1 - eps * eps) ltac:(nra)) as S.
  pose proof (sqrt_lt_R0 (1 - eps * eps) ltac:(nra)) as P.
  assert (U : unit_q (Q4 0 0 eps (sqrt (1 - eps * eps)))) by (unfold unit_q, sq; cbn; lra).
  assert (U1 : unit_q q_Unit) by (unfold unit_q, sq; cbn; ring).
  split; [exact U1 |]. split; [exact U |]. split.
  - apply slerp_near; try assumption; try lra.
    assert (slerp_m q_Unit (Q4 0 0 eps (sqrt (1 - eps * eps))) = Q4 0 0 eps (sqrt (1 - eps * eps))) as ->.
    { unfold slerp_m. rewrite Rleb_t; [| unfold dot4; cbn; lra]. set (x := sqrt _). clearbody x. qring. }
    unfold vec; cbn. apply Req_le. unfold norm3, sqnorm3, dot3; cbn.
    replace (0 * 0 + 0 * 0 + eps * eps) with (eps * eps) by ring. apply sqrt_square. lra.
  - intros [E | E]; apply (f_equal qz) in E; cbn in E; lra.
Qed.

(** The same in terms of the angular difference returned by the library. *)
Lemma c39_rate eps p q r d : 0 < eps -> eps <= 1 -> unit_q p -> unit_q q -> 0 <= r <= 1 ->
  angularDifferenceWith eps (Some p) (Some q) = Ok (Radians d) -> 2 * asin eps < d -> 2 * eps < r * d ->
  exists w, SLERP eps (Some p) (Some q) (Some r) = Ok w /\ unit_q w
    /\ angularDifferenceWith eps (Some p) (Some w) = Ok (Radians (r * d))
    /\ angularDifferenceWith eps (Some w) (Some q) = Ok (Radians ((1 - r) * d)).
Proof.
  intros He H1 Hp Hq Hr Hd. rewrite angdiff_eq in Hd by assumption. injection Hd as Hd. fold (angdiff p q) in Hd. subst d.
  apply c39_slerp_rate; assumption.
Qed.
Lemma c39_end_partial eps p q d : 0 < eps -> eps < 1 -> unit_q p -> unit_q q ->
  angularDifferenceWith eps (Some p) (Some q) = Ok (Radians d) -> 2 * asin eps < d \/ d = 0 ->
  exists w, SLERP eps (Some p) (Some q) (Some 1) = Ok w /\ same_up_to_sign w q.
Proof.
  intros He H1 Hp Hq Hd. rewrite angdiff_eq in Hd by (try assumption; lra). injection Hd as Hd. fold (angdiff p q) in Hd. subst d.
  apply c39_slerp_end_partial; assumption.
Qed.
